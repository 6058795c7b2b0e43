(** acquire_license for any platform: reading the licenses. With names shorter than a
    license reference the size of a reference makes no difference. *)
From Verif Require Import Base CTypes StringUtils Dates Doubles Base64 HwId Registry Ini Network Disks ExecEnv Strategies Locate Licensecc Shared AcquireGen.
From Verif Require Import P_Base Spec_Strings Spec_Base64 Spec_Dates P_Strings P_Text P_Decode Spec_Ini P_Ini Spec_HwId Spec_Hw Spec_Registry P_Registry Spec_Acquire P_Acquire1 P_Acquire2.
From Coq Require Import Lia.

Lemma mbind_ext {A B} (m m' : M A) (k k' : A -> M B) t : m t = m' t -> (forall a u, m' t = Ok (a, u) -> k a u = k' a u) -> mbind m k t = mbind m' k' t.
Proof. unfold mbind. intros -> H. destruct (m' t) as [[a u]| | |] eqn:E; try reflexivity. apply H; reflexivity. Qed.
Lemma mlift_ext {A} (x y : res A) t : x = y -> mlift x t = mlift y t.
Proof. intros ->. reflexivity. Qed.

(** a name that leaves room for the terminator *)
Definition fits (n : nat) (s : bytes) : Prop := length (cstr s) < n.
Definition room (bk : backend) : Prop := 18 < bk_ref bk <= 1024.

Lemma g_add_same bk e id info r : room bk -> match id with Some s => fits (bk_ref bk) s | None => True end -> g_add_event bk e id info r = add_event e id info r.
Proof.
  intros [L U] H. unfold g_add_event, add_event.
  assert (E : match id with None => bs "UNDEF" | Some s => firstn (bk_ref bk) (cstr s) end = match id with None => bs "UNDEF" | Some s => firstn MAX_PATH (cstr s) end).
  { destruct id as [s|]; [|reflexivity]. unfold fits in H. rewrite !firstn_all2 by (unfold MAX_PATH; lia). reflexivity. }
  rewrite E. set (ref := match id with None => bs "UNDEF" | Some s => firstn MAX_PATH (cstr s) end) in *.
  assert (R : g_ref_string (bk_ref bk) ref = ref_string ref).
  { unfold g_ref_string, ref_string. assert (length ref < bk_ref bk).
    { unfold ref. destruct id as [s|]; [|cbn; lia]. unfold fits in H. rewrite firstn_length. lia. }
    destruct (Nat.ltb_spec (length ref) (bk_ref bk)); [|lia]. destruct (Nat.ltb_spec (length ref) MAX_PATH); [reflexivity|unfold MAX_PATH in *; lia]. }
  rewrite R. reflexivity.
Qed.
(** the size of Linux: the same function *)
Lemma g_add_linux bk e id info r : bk_ref bk = MAX_PATH -> g_add_event bk e id info r = add_event e id info r.
Proof. intros H. unfold g_add_event, add_event, g_ref_string, ref_string. rewrite H. reflexivity. Qed.

Section Reading.
Variables (w : world) (bk : backend).
Variable ok : bytes -> Prop.
Hypothesis SAME : forall e s info r, ok s -> g_add_event bk e (Some s) info r = add_event e (Some s) info r.
Hypothesis SAME0 : forall e info r, g_add_event bk e None info r = add_event e None info r.
Hypothesis OKL : ok LICENSE_LOCATION_VAR.
Hypothesis OKE : ok EXTERNAL_NAME.

Lemma g_filter_same l x r t : Forall ok l -> g_filter_existing_files w bk l x r t = filter_existing_files w l x r t.
Proof using SAME.
  intros H. revert r t; induction H as [|p l Hp H IH]; intros r t; [reflexivity|]. cbn [g_filter_existing_files filter_existing_files].
  apply mbind_ext; [apply mlift_ext, SAME, Hp|]. intros r1 t1 _. apply mbind_ext; [reflexivity|]. intros g t2 _. apply mbind_ext; [apply mlift_ext, SAME, Hp|]. intros r2 t3 _.
  apply mbind_ext; [apply IH|]. intros [fs r3] t4 _. reflexivity.
Qed.
Lemma sources_ok l : Forall (fun s => ok (name_of s)) (locator_sources w l) ->
  match l with
  | LocApplicationFolder => forall f, get_module_name w = Some f -> ok (module_license f)
  | LocEnvVarLocation => forall v, env_set w LICENSE_LOCATION_VAR = Some v -> Forall ok (split_string v ";"%char)
  | LocEnvVarData => True
  | LocExternal h => forall c data text, loc_data h = c :: data -> Ascii.eqb c NUL = false -> loc_type h = 0%Z -> string_of_array (loc_data h) MAX_LICENSE_DATA = Ok text -> Forall ok (split_string text ";"%char)
  end.
Proof.
  unfold locator_sources. destruct l as [| | |h]; cbn [group_of g_sources]; auto.
  - unfold module_sources, get_module_name. destruct (w_module w) as [link|]; [|discriminate]. intros H f [= <-]. inversion H as [|? ? H1 _]; subst. cbn [name_of] in H1.
    unfold module_license. change (MAX_PATH - 1) with 1023. change LICENSE_EXT with (bs ".lic"). rewrite <- stem_eq. exact H1.
  - unfold location_sources. change (env_set w LICENSE_LOCATION_VAR) with (variable w LOCATION). intros H v Ev. rewrite Ev in H. rewrite <- pieces_eq. rewrite Forall_map in H. exact H.
  - intros H c data text Ed Ec Et Es. apply string_of_array_text in Es. rewrite max_size in Es. unfold hint_sources in H. rewrite Et in H. cbn [Z.eqb] in H.
    destruct (hint_text c data Ec) as [x [y E]]. rewrite Ed in Es, H. rewrite <- Es in H. rewrite E in Es. assert (Nt : text <> []) by congruence. clear Es E.
    rewrite <- pieces_eq. destruct text as [|a b]; [congruence|]. rewrite Forall_map in H. eapply Forall_impl; [|exact H]. cbn beta. intros p. destruct (beqb p EXTERNAL); auto.
Qed.
Lemma g_locations_same l r t : Forall (fun s => ok (name_of s)) (locator_sources w l) -> g_license_locations w bk l r t = license_locations w l r t.
Proof using SAME SAME0 OKL OKE.
  intros H. apply sources_ok in H. destruct l as [| | |h]; cbn [g_license_locations license_locations].
  - destruct (get_module_name w) as [f|]; [|reflexivity]. cbv zeta. apply mbind_ext; [reflexivity|]. intros g u _. destruct g; (apply mbind_ext; [apply mlift_ext, SAME, H; reflexivity|reflexivity]).
  - destruct (env_set w LICENSE_LOCATION_VAR) as [v|]; [apply g_filter_same, H; reflexivity|]. apply mbind_ext; [apply mlift_ext, SAME0|reflexivity].
  - destruct (env_set w LICENSE_DATA_VAR) as [v|]; (apply mbind_ext; [apply mlift_ext, SAME, OKL|]); [|reflexivity]. intros r1 u _. destruct (identify_format v); try reflexivity. apply mbind_ext; [apply mlift_ext, SAME, OKL|reflexivity].
  - destruct (loc_data h) as [|c data] eqn:Ed; [reflexivity|]. destruct (Ascii.eqb c NUL) eqn:Ec; [reflexivity|]. apply mbind_ext; [apply mlift_ext, SAME, OKE|]. intros r1 u _.
    destruct (Z.eqb_spec (loc_type h) 0) as [E0|E0]; [|reflexivity]. apply mbind_ext; [reflexivity|]. intros text u' Ht. apply mlift_ok in Ht as [Ht _]. apply g_filter_same. eapply H; [reflexivity|exact Ec|exact E0|exact Ht].
Qed.
Lemma g_location_same l product id acc t : ok id -> g_read_location w bk l product id acc t = read_location w l product id acc t.
Proof using SAME.
  intros H. destruct acc as [r out]. unfold g_read_location, read_location. cbv zeta. apply mbind_ext; [reflexivity|]. intros content u _. apply mbind_ext; [reflexivity|]. intros d u' _.
  destruct (Z.leb _ 0); (apply mbind_ext; [apply mlift_ext, SAME, H|]); [reflexivity|]. intros r1 v _.
  destruct (get_value d _ _) as [sig|]; [destruct (Z.eqb _ 200); [reflexivity|]|]; (apply mbind_ext; [apply mlift_ext, SAME, H|reflexivity]).
Qed.
Lemma g_all_same l product ids acc t : Forall ok ids -> g_read_all w bk l product ids acc t = read_all w l product ids acc t.
Proof using SAME.
  intros H. revert acc t; induction H as [|i ids Hi H IH]; intros acc t; [reflexivity|]. cbn [g_read_all read_all]. apply mbind_ext; [apply g_location_same, Hi|]. intros a u _. apply IH.
Qed.
Lemma keep_incl {A} (l : list A) bs : incl (keep l bs) l.
Proof. revert bs; induction l as [|a l IH]; intros [|b bs] x; cbn [keep]; try (intros []; fail). destruct b; [intros [->|X]; [left; reflexivity|]|intros X]; right; eapply IH, X. Qed.
Lemma g_locators_same ls product acc t : Forall (fun l => Forall (fun s => ok (name_of s)) (locator_sources w l)) ls -> g_read_locators w bk ls product acc t = read_locators w ls product acc t.
Proof using SAME SAME0 OKL OKE.
  intros H. revert acc t; induction H as [|l ls Hl H IH]; intros [r out] t; [reflexivity|]. cbn [g_read_locators read_locators]. apply mbind_ext; [apply g_locations_same, Hl|].
  intros [ids r1] u E. apply locations_ok in E as [_ [bs [_ [-> _]]]]. apply mbind_ext; [|intros a v _; apply IH]. apply g_all_same. apply Forall_map. rewrite Forall_forall in *. intros s Hs. apply Hl. eapply keep_incl, Hs.
Qed.
Lemma g_licenses_same hint product t : Forall (fun s => ok (name_of s)) (sources w hint) -> g_read_licenses w bk hint product t = read_licenses w hint product t.
Proof using SAME SAME0 OKL OKE.
  intros H. unfold g_read_licenses, read_licenses. unfold sources in H. rewrite groups_eq in H. destruct (get_active_strategies w hint) as [|l ls].
  - apply mbind_ext; [apply mlift_ext, SAME0|reflexivity].
  - apply mbind_ext; [|reflexivity]. apply g_locators_same. clear -H. induction (l :: ls) as [|l' ls' IH]; [constructor|]. cbn [map flat_map] in H. apply Forall_app in H as [H1 H2]. constructor; [exact H1|apply IH, H2].
Qed.
End Reading.
