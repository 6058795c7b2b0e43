(** acquire_license: what it accepts, what it reports (C01-C06, C09-C16, C51). *)
From Verif Require Import Base CTypes StringUtils Dates Doubles P_Double Base64 HwId Registry Ini Network Disks ExecEnv Strategies Locate Licensecc.
From Verif Require Import P_Base Spec_Strings Spec_Base64 Spec_Dates P_Strings P_Text P_Decode P_DateText P_HwText Spec_Ini P_Ini Spec_HwId Spec_Hw P_Hw P_Hw2 Spec_Registry P_Registry Spec_Acquire P_Acquire1 P_Acquire2 P_Acquire3 P_Acquire4 P_Acquire5.
From Coq Require Import Sorted Lia.
From Verif Require Import Ex_Acquire.

(** ** C01 *)
Theorem C01_accept_sound w c hint out t out' t' : (forall i, order_ok (w_machine w i)) ->
  acquire_license w c hint out t = Ok ((LICENSE_OK, out'), t') ->
  let feature := feature_of w (option_map ci_feature c) in
  exists s content i j, In s (sources w hint) /\ present w t t' s /\ given w t t' s content /\ t <= i < t' /\ t <= j < t' /\
    valid_license w feature (magic_of (option_map ci_magic c)) (section_entries content feature) (w_clock w i) (w_machine w j).
Proof.
  intros HO H f. apply acquire_outcome in H as [_ [rss [log H]]]; [|exact HO]. pose proof (proj1 (oc_ok _ _ _ _ _ _ _ _ _ _ H) eq_refl) as K.
  apply in_map_iff in K as [r [E Hr]]. destruct (Forall2_in_r _ _ _ _ (outcome_reports _ _ _ _ _ _ _ _ _ _ H) Hr) as [s [Hs X]].
  apply reported_ok in X as [content [i [j [x [A [B [C [D [F _]]]]]]]]]; [|exact E]. exists s, content, i, j. auto 7.
Qed.
Print Assumptions C01_accept_sound.
(** one of seven files is good *)
Example C01_case : exists o t', acquire_license (demo true true NOW files [("LICENSE_LOCATION"%string, bs "/d;/nowhere;/c;/b")]) (Some (asking "demo")) (Some (hint_of 0 (bs "/a;/b"))) (Some blank_out) 0 = Ok ((LICENSE_OK, Some o), t') /\
  (forall i, order_ok (w_machine (demo true true NOW files [("LICENSE_LOCATION"%string, bs "/d;/nowhere;/c;/b")]) i)).
Proof. eexists _, _. split; [vm_compute; reflexivity|apply demo_order]. Qed.

(** ** C02 *)
Theorem C02_valid_accepted w c hint out t code out' t' s : (forall i, order_ok (w_machine w i)) ->
  acquire_license w c hint out t = Ok ((code, out'), t') ->
  let feature := feature_of w (option_map ci_feature c) in
  In s (sources w hint) -> (forall i, t <= i <= t' -> listed w s i = true) ->
  (forall content i j, given w t t' s content -> t <= i <= t' -> t <= j <= t' ->
     valid_license w feature (magic_of (option_map ci_magic c)) (section_entries content feature) (w_clock w i) (w_machine w j)) ->
  code = LICENSE_OK.
Proof.
  intros HO H f Hs HL HV. apply acquire_outcome in H as [Ht [rss [log H]]]; [|exact HO]. apply (oc_ok _ _ _ _ _ _ _ _ _ _ H).
  destruct (Forall2_in_l _ _ _ _ (outcome_reports _ _ _ _ _ _ _ _ _ _ H) Hs) as [r [Hr X]]. rewrite <- (valid_reported w f _ t t' s r Ht HL HV X). apply in_map. exact Hr.
Qed.
Print Assumptions C02_valid_accepted.

Lemma static_listed w s i j : static w -> listed w s i = listed w s j.
Proof. intros H. destruct (H i j) as [A _]. destruct s; cbn [listed]; try reflexivity; rewrite A; reflexivity. Qed.
Lemma static_supplies w s i j content : static w -> supplies w i s content -> supplies w j s content.
Proof. intros H X. destruct (H i j) as [_ [B _]]. inversion X; subst; try (econstructor; eassumption). constructor. rewrite <- B. assumption. Qed.
Lemma supplies_fun w s i a b : supplies w i s a -> supplies w i s b -> a = b.
Proof. intros X Y. inversion X; subst; inversion Y; subst; congruence. Qed.
Lemma given_supplies w t t' s content : given w t t' s content -> exists i, supplies w i s content.
Proof. destruct s; cbn [given]; eauto. intros [i [_ X]]. eauto. Qed.

(** In such a world: accepted iff some source has a valid license. *)
Theorem C02_static_exact w c hint out t code out' t' : (forall i, order_ok (w_machine w i)) -> static w ->
  acquire_license w c hint out t = Ok ((code, out'), t') ->
  let feature := feature_of w (option_map ci_feature c) in
  (code = LICENSE_OK <->
   exists s content, In s (sources w hint) /\ listed w s t = true /\ supplies w t s content /\
     valid_license w feature (magic_of (option_map ci_magic c)) (section_entries content feature) (w_clock w t) (w_machine w t)).
Proof.
  intros HO HS H f. split.
  - intros ->. apply C01_accept_sound in H as [s [content [i [j [A [B [C [D [E F]]]]]]]]]; [|exact HO]. exists s, content. split; [exact A|]. split; [|split].
    + destruct s; cbn [present] in B; try reflexivity; destruct B as [k [_ B]]; rewrite (static_listed _ _ _ k HS); exact B.
    + apply given_supplies in C as [k C]. eapply static_supplies; eassumption.
    + destruct (HS i t) as [_ [_ [X _]]]. destruct (HS j t) as [_ [_ [_ Y]]]. rewrite X, Y in F. exact F.
  - intros [s [content [A [B [C D]]]]]. eapply (C02_valid_accepted w c hint out t code out' t' s HO H A).
    + intros i _. rewrite (static_listed _ _ _ t HS). exact B.
    + intros content' i j G _ _. apply given_supplies in G as [k G]. apply (static_supplies _ _ _ t _ HS) in G. rewrite <- (supplies_fun _ _ _ _ _ C G).
      destruct (HS i t) as [_ [_ [X _]]]. destruct (HS j t) as [_ [_ [_ Y]]]. rewrite X, Y. exact D.
Qed.
Print Assumptions C02_static_exact.
Lemma demo_static near env_on now fs env : static (demo near env_on now fs env).
Proof. intros i j. repeat split. Qed.
(** the text beside the executable is a valid license, for this machine, now *)
Example C02_case : valid_license (demo true false NOW files []) (bs "demo") 7 (section_entries good_license (bs "demo")) NOW (Prop_Hw.net_machine Prop_Hw.some_interfaces).
Proof.
  assert (H : exists o t', acquire_license (demo true false NOW files []) (Some (asking "demo")) None (Some blank_out) 0 = Ok ((LICENSE_OK, o), t')) by (eexists _, _; vm_compute; reflexivity).
  destruct H as [o [t' H]]. pose proof (proj1 (C02_static_exact _ _ _ _ _ _ _ _ (demo_order _ _ _ _ _) (demo_static _ _ _ _ _) H) eq_refl) as [s [content [A [_ [B C]]]]].
  cbn [w_clock w_machine demo] in C. assert (Es : s = SFile (bs "/opt/demo.lic")) by (vm_compute in A; destruct A as [A|[]]; subst s; reflexivity). subst s. inversion B as [p f Hf| | |]; subst.
  vm_compute in Hf. injection Hf as Hf. subst f. cbn [f_size f_data] in C. exact C.
Qed.

(** ** C03 *)
(** The code of a failed call is one of these seven, and is either the diagnosis of
    one of the sources or concerns a place. *)
Theorem C03_failure_codes w c hint out t code out' t' : (forall i, order_ok (w_machine w i)) ->
  acquire_license w c hint out t = Ok ((code, out'), t') -> code <> LICENSE_OK ->
  let feature := feature_of w (option_map ci_feature c) in
  In code [LICENSE_FILE_NOT_FOUND; ENVIRONMENT_VARIABLE_NOT_DEFINED; LICENSE_MALFORMED; PRODUCT_NOT_LICENSED; PRODUCT_EXPIRED; LICENSE_CORRUPTED; IDENTIFIERS_MISMATCH] /\
  (place_failure w hint code \/
   exists s, In s (sources w hint) /\
     ((code = LICENSE_FILE_NOT_FOUND /\ exists i, t <= i < t' /\ listed w s i = false) \/
      (exists content, present w t t' s /\ given w t t' s content /\
         diagnosis w feature (magic_of (option_map ci_magic c)) t t' (section_entries content feature) code))).
Proof.
  intros HO H Hn f. apply acquire_outcome in H as [Ht [rss [log H]]]; [|exact HO]. destruct (outcome_code _ _ _ _ _ _ _ _ _ _ H) as [E|[A [B|B]]]; [contradiction| |auto].
  split; [exact A|]. right. apply in_map_iff in B as [r [<- Hr]]. destruct (Forall2_in_r _ _ _ _ (outcome_reports _ _ _ _ _ _ _ _ _ _ H) Hr) as [s [Hs X]]. exists s. split; [exact Hs|].
  apply reported_diagnosis, X.
Qed.
Print Assumptions C03_failure_codes.
(** Which one: the failure of a license that got furthest (the first in byte order of
    its reference), else the last failure recorded. *)
Theorem C03_failure_selected w c hint out t code out' t' : (forall i, order_ok (w_machine w i)) ->
  acquire_license w c hint out t = Ok ((code, out'), t') -> code <> LICENSE_OK ->
  let feature := feature_of w (option_map ci_feature c) in
  exists rss s k,
    Forall2 (fun g rs => Forall2 (reported w feature (magic_of (option_map ci_magic c)) t t') (g_sources g) rs) (groups w hint) rss /\
    furthest (call_trace (groups w hint) rss) s /\ selects (call_trace (groups w hint) rss) s (Some (code, k)).
Proof.
  intros HO H Hn f. apply acquire_outcome in H as [Ht [rss [log H]]]; [|exact HO]. destruct (oc_fail _ _ _ _ _ _ _ _ _ _ H Hn) as [s [k [A B]]]. exists rss, s, k.
  split; [exact (oc_reports _ _ _ _ _ _ _ _ _ _ H)|]. auto.
Qed.
Print Assumptions C03_failure_selected.
Example C03_case : exists o t', acquire_license (demo true true NOW [] []) None None (Some o) 0 = Ok ((ENVIRONMENT_VARIABLE_NOT_DEFINED, t'), 1).
Proof. exists blank_out. eexists. vm_compute. reflexivity. Qed.
(** a hardware mismatch outranks missing and forged licenses *)
Example C03_case_mismatch : code_of (acquire_license (demo true true NOW (tl files) [("LICENSE_LOCATION"%string, bs "/nowhere;/d;/c")]) (Some (asking "demo")) None None 0) = Ok IDENTIFIERS_MISMATCH.
Proof. vm_compute. reflexivity. Qed.

(** ** C04 *)
Theorem C04_bad_signature_refused w c hint out t code out' t' : (forall i, order_ok (w_machine w i)) ->
  acquire_license w c hint out t = Ok ((code, out'), t') ->
  let feature := feature_of w (option_map ci_feature c) in
  (forall s content sig, In s (sources w hint) -> given w t t' s content -> license_form (section_entries content feature) sig ->
     ~ signature_good w feature (section_entries content feature) sig) ->
  code <> LICENSE_OK.
Proof.
  intros HO H f HN ->. apply C01_accept_sound in H as [s [content [i [j [A [_ [C [_ [_ [sig [F [G _]]]]]]]]]]]]; [|exact HO]. eapply HN; eassumption.
Qed.
Print Assumptions C04_bad_signature_refused.
(** no signature of this world is good when the key does not load *)
Example C04_case : let w := demo true false NOW files [] in
  let w' := {| w_project := w_project w; w_magic := w_magic w; w_near_module := true; w_with_env := false; w_module := w_module w; w_getenv := w_getenv w; w_good := w_good w;
               w_file := w_file w; w_clock := w_clock w; w_mktime := w_mktime w; w_bio := w_bio w; w_key_ok := false; w_verify := w_verify w; w_machine := w_machine w |} in
  code_of (acquire_license w' (Some (asking "demo")) None None 0) = Ok LICENSE_CORRUPTED /\
  forall feature es sig, ~ signature_good w' feature es sig.
Proof. cbv zeta. split; [vm_compute; reflexivity|]. intros feature es sig [m [n [data [_ [H _]]]]]. discriminate. Qed.

(** ** C05 *)
Theorem C05_magic_enforced w c hint out t code out' t' : (forall i, order_ok (w_machine w i)) ->
  acquire_license w c hint out t = Ok ((code, out'), t') ->
  match c with Some c => ci_magic c | None => 0%N end <> w_magic w -> code <> LICENSE_OK.
Proof.
  intros HO H HM ->. apply C01_accept_sound in H as [s [content [i [j [_ [_ [_ [_ [_ [sig [_ [_ [G _]]]]]]]]]]]]]; [|exact HO]. apply HM. rewrite <- G. destruct c; reflexivity.
Qed.
Print Assumptions C05_magic_enforced.
Example C05_case : code_of (acquire_license (demo true false NOW files []) (Some {| ci_feature := bs "demo" ++ [NUL]; ci_magic := 8 |}) None None 0) = Ok LICENSE_CORRUPTED /\
  code_of (acquire_license (demo true false NOW files []) None None None 0) = Ok LICENSE_CORRUPTED.
Proof. split; vm_compute; reflexivity. Qed.

(** ** C14 *)
(** a single source, and no failure about the places: its diagnosis is the code *)
Theorem C14_single_source w c hint out t code out' t' s : (forall i, order_ok (w_machine w i)) ->
  acquire_license w c hint out t = Ok ((code, out'), t') ->
  sources w hint = [s] -> (forall e, ~ place_failure w hint e) ->
  let feature := feature_of w (option_map ci_feature c) in
  (code = LICENSE_FILE_NOT_FOUND /\ exists i, t <= i < t' /\ listed w s i = false) \/
  (exists content, present w t t' s /\ given w t t' s content /\
     diagnosis w feature (magic_of (option_map ci_magic c)) t t' (section_entries content feature) code).
Proof.
  intros HO H HS HP f. apply acquire_outcome in H as [Ht [rss [log H]]]; [|exact HO]. pose proof (outcome_reports _ _ _ _ _ _ _ _ _ _ H) as HR. rewrite HS in HR.
  inversion HR as [|? r ? rs Hr HR' E1 E2]; subst. inversion HR'; subst.
  assert (E : code = rp_code r).
  { destruct (outcome_code _ _ _ _ _ _ _ _ _ _ H) as [->|[_ [K|K]]]; [| |destruct (HP _ K)].
    - pose proof (proj1 (oc_ok _ _ _ _ _ _ _ _ _ _ H) eq_refl) as K. rewrite <- E2 in K. destruct K as [K|[]]. symmetry. exact K.
    - rewrite <- E2 in K. destruct K as [K|[]]. symmetry. exact K. }
  rewrite E. apply reported_diagnosis. exact Hr.
Qed.
Print Assumptions C14_single_source.
(** in an unchanging world a text has one diagnosis only *)
Lemma diagnosis_fun w f m t t' es a b : static w -> diagnosis w f m t t' es a -> diagnosis w f m t t' es b -> a = b.
Proof.
  intros HS DA DB.
  assert (V : forall i j k l, valid_license w f m es (w_clock w i) (w_machine w j) -> valid_license w f m es (w_clock w k) (w_machine w l)).
  { intros i j k l X. destruct (HS i k) as [_ [_ [P _]]]. destruct (HS j l) as [_ [_ [_ Q]]]. rewrite <- P, <- Q. exact X. }
  assert (OK : forall i j x, valid_license w f m es (w_clock w i) (w_machine w j) -> t <= t' -> diagnosis w f m t t' es x -> x = LICENSE_OK).
  { intros i j x X Y. apply valid_diagnosis; [|exact Y]. intros; eapply V, X. }
  pose proof DA as DA'. pose proof DB as DB'.
  destruct DA as [E|E N|sig F N|sig F G N|sig i F G M Hi O|sig i j code' F G M Hi O Hj L I|i j Hi Hj X].
  7:{ symmetry. eapply OK; [exact X|lia|exact DB']. }
  all: destruct DB as [E'|E' N'|sig' F' N'|sig' F' G' N'|sig' i' F' G' M' Hi' O'|sig' i' j' code'' F' G' M' Hi' O' Hj' L' I'|i' j' Hi' Hj' X']; try reflexivity; try congruence.
  all: try (eapply OK; [exact X'|lia|exact DA']).
  all: try (match goal with F : license_form ?es _ |- _ => apply form_entries in F; congruence end).
  all: try (match goal with F : license_form ?es ?s, N : forall s, ~ license_form ?es s |- _ => destruct (N _ F) end).
  all: try (match goal with F : license_form ?es ?s, F' : license_form ?es ?s' |- _ => pose proof (form_fun _ _ _ F F'); subst; contradiction end).
  - exfalso. destruct (HS i i') as [_ [_ [P _]]]. rewrite P in O. eapply in_out_time; eassumption.
  - exfalso. destruct (HS i i') as [_ [_ [P _]]]. rewrite P in O. eapply in_out_time; eassumption.
Qed.
Theorem C14_single_static w c hint out t code out' t' s content d : (forall i, order_ok (w_machine w i)) -> static w ->
  acquire_license w c hint out t = Ok ((code, out'), t') ->
  sources w hint = [s] -> (forall e, ~ place_failure w hint e) ->
  let feature := feature_of w (option_map ci_feature c) in
  listed w s t = true -> supplies w t s content ->
  diagnosis w feature (magic_of (option_map ci_magic c)) t t' (section_entries content feature) d -> code = d.
Proof.
  intros HO HT H HS HP f HL HG D. destruct (C14_single_source w c hint out t code out' t' s HO H HS HP) as [[_ [i [_ K]]]|[content' [_ [K L]]]].
  - rewrite (static_listed _ _ _ t HT) in K. congruence.
  - apply given_supplies in K as [k K]. apply (static_supplies _ _ _ t _ HT) in K. rewrite <- (supplies_fun _ _ _ _ _ HG K) in L. eapply diagnosis_fun; eassumption.
Qed.
Print Assumptions C14_single_static.
Example C14_case : let w := demo false false NOW files [] in let h := Some (hint_of 0 (bs "/d")) in
  sources w h = [SFile (bs "/d")] /\ (forall e, ~ place_failure w h e) /\ listed w (SFile (bs "/d")) 0 = true /\ supplies w 0 (SFile (bs "/d")) other_machine /\
  code_of (acquire_license w (Some (asking "demo")) h None 0) = Ok IDENTIFIERS_MISMATCH.
Proof.
  cbv zeta. split; [vm_compute; reflexivity|]. split; [intros e [[X _]|[[X _]|[_ [_ [X _]]]]]; discriminate|]. split; [reflexivity|]. split; [|vm_compute; reflexivity].
  exact (sup_file (demo false false NOW files []) 0 (bs "/d") _ eq_refl).
Qed.

(** ** C06 *)
(** A license that only its dates may invalidate, alone, while the clock shows [now]:
    accepted from the instant of valid-from up to and including that of valid-to,
    expired before and after. *)
Theorem C06_window_exact w c hint out t code out' t' s content sig now : (forall i, order_ok (w_machine w i)) -> static w ->
  acquire_license w c hint out t = Ok ((code, out'), t') ->
  sources w hint = [s] -> (forall e, ~ place_failure w hint e) -> listed w s t = true -> supplies w t s content -> w_clock w t = now ->
  let feature := feature_of w (option_map ci_feature c) in
  let es := section_entries content feature in
  license_form es sig -> signature_good w feature es sig -> magic_of (option_map ci_magic c) = w_magic w ->
  exact_value es (bs "client-signature") = None ->
  (code = LICENSE_OK <->
     (exact_value es (bs "valid-to") = None \/ exists s, dated w es "valid-to" s /\ (now <= s)%Z) /\
     (exact_value es (bs "valid-from") = None \/ exists s, dated w es "valid-from" s /\ (s <= now)%Z)) /\
  (code = PRODUCT_EXPIRED <->
     (exists s, dated w es "valid-to" s /\ (s < now)%Z) \/ (exists s, dated w es "valid-from" s /\ (now < s)%Z)).
Proof.
  intros HO HT H HS HP HL HG Hnow f es HF Hgood HM HC.
  assert (D : diagnosis w f (magic_of (option_map ci_magic c)) t t' es code /\ t <= t').
  { split; [|apply acquire_outcome in H as [Ht _]; [exact Ht|exact HO]]. destruct (C14_single_source w c hint out t code out' t' s HO H HS HP) as [[_ [i [_ K]]]|[content' [_ [K L]]]].
    - rewrite (static_listed _ _ _ t HT) in K. congruence.
    - apply given_supplies in K as [k K]. apply (static_supplies _ _ _ t _ HT) in K. rewrite <- (supplies_fun _ _ _ _ _ HG K) in L. exact L. }
  destruct D as [D Ht].
  assert (CL : forall i, w_clock w i = now) by (intros i; rewrite <- Hnow; destruct (HT i t) as [_ [_ [P _]]]; exact P).
  assert (A : code = LICENSE_OK <-> in_time w es now).
  { split.
    - intros ->. inversion D as [| | | | | |i j Hi Hj [sig' [_ [_ [_ [X _]]]]]]; subst. rewrite CL in X. exact X.
    - intros X. eapply valid_diagnosis; [|exact Ht|exact D]. intros i j _ _. exists sig. rewrite CL. split; [exact HF|]. split; [exact Hgood|]. split; [exact HM|]. split; [exact X|]. intros code' L. unfold locked in L. congruence. }
  assert (B : code = PRODUCT_EXPIRED <-> out_of_time w es now).
  { split.
    - intros ->. inversion D as [| | | |sig' i _ _ _ _ O| |]; subst. rewrite CL in O. exact O.
    - intros X. inversion D as [E|E N|sig' F' N|sig' F' G' N|sig' i F' G' M Hi O|sig' i j code' F' G' M Hi O Hj L I|i j Hi Hj Y]; subst; try reflexivity; exfalso.
      + apply form_entries in HF. contradiction.
      + destruct (N _ HF).
      + rewrite (form_fun _ _ _ HF F') in Hgood. contradiction.
      + contradiction.
      + unfold locked in L. congruence.
      + pose proof (proj1 A eq_refl) as Z. eapply in_out_time; eassumption. }
  split; assumption.
Qed.
Print Assumptions C06_window_exact.
(** the first and the last second, and their neighbours *)
Definition window_license : bytes :=
  LINE "[DEMO]" ++ LINE "lic_ver = 200" ++ LINE "valid-from=2020-01-01" ++ LINE "valid-to=2020/02/01" ++ LINE "sig = DEMOlic_ver200valid-from2020-01-01valid-to2020/02/01".
Example C06_case : let run now := code_of (acquire_license (demo false false now [] []) (Some (asking "demo")) (Some (hint_of 1 window_license)) None 0) in
  run (mktime_utc 2020 1 1) = Ok LICENSE_OK /\ run (mktime_utc 2020 1 1 - 1)%Z = Ok PRODUCT_EXPIRED /\
  run (mktime_utc 2020 2 1) = Ok LICENSE_OK /\ run (mktime_utc 2020 2 1 + 1)%Z = Ok PRODUCT_EXPIRED.
Proof. repeat split; vm_compute; reflexivity. Qed.

(** ** C09 - C12: the information handed out *)
(** It describes a license found in one of the sources: on success an accepted one,
    the best of them; on failure a rejected one, the best of them; when no license
    was found at all, zero days. *)
Theorem C09_best_reported w c hint out t code o' t' : (forall i, order_ok (w_machine w i)) ->
  acquire_license w c hint (Some out) t = Ok ((code, Some o'), t') ->
  let feature := feature_of w (option_map ci_feature c) in
  exists rs, Forall2 (reported w feature (magic_of (option_map ci_magic c)) t t') (sources w hint) rs /\
    (code = LICENSE_OK <-> exists r, In r rs /\ rp_code r = LICENSE_OK) /\ info_out rs code out o'.
Proof.
  intros HO H f. apply acquire_outcome in H as [Ht [rss [log H]]]; [|exact HO]. exists (concat rss). split; [exact (outcome_reports _ _ _ _ _ _ _ _ _ _ H)|].
  split; [rewrite (oc_ok _ _ _ _ _ _ _ _ _ _ H), in_map_iff; split; intros [r [A B]]; exists r; auto|]. apply (oc_info _ _ _ _ _ _ _ _ _ _ H); reflexivity.
Qed.
Print Assumptions C09_best_reported.
(** the best is determined, so this says exactly what is reported *)
Theorem C09_best_unique l x y : best l x -> best l y -> x = y.
Proof. apply best_unique. Qed.
Print Assumptions C09_best_unique.
Example C09_case : fields_of (acquire_license (demo true true NOW files [("LICENSE_LOCATION"%string, bs "/d;/c;/b")]) (Some (asking "demo")) None (Some blank_out) 0) =
  Some (LICENSE_OK, Some (bs "2030-01-01"), Some 3396%Z, Some true, Some true, None).
Proof. vm_compute. reflexivity. Qed.
(** the perpetual license /a wins *)
Example C09_case_perpetual : fields_of (acquire_license (demo true true NOW files [("LICENSE_LOCATION"%string, bs "/d;/c;/b")]) (Some (asking "demo")) (Some (hint_of 0 (bs "/a"))) (Some blank_out) 0) =
  Some (LICENSE_OK, Some [], Some 9999%Z, Some false, Some false, Some (bs "hello")).
Proof. vm_compute. reflexivity. Qed.

Lemma reported_told w f m t t' s r x : reported w f m t t' s r -> rp_told r = Some x ->
  exists content sig, present w t t' s /\ given w t t' s content /\ license_form (section_entries content f) sig /\
    diagnosis w f m t t' (section_entries content f) (rp_code r) /\ describes w t t' (section_entries content f) x.
Proof. intros H. inversion H; subst; cbn [rp_told rp_code]; try discriminate. intros [= <-]. exists content, sig. auto 6. Qed.
Lemma info_source w c hint out t code o' t' : (forall i, order_ok (w_machine w i)) ->
  acquire_license w c hint (Some out) t = Ok ((code, Some o'), t') ->
  let feature := feature_of w (option_map ci_feature c) in
  (code <> LICENSE_OK /\ o_days_left o' = Some 0%Z /\ o_linked_to_pc o' = Some false /\ o_proprietary o' = Some []) \/
  exists s content sig d x, In s (sources w hint) /\ present w t t' s /\ given w t t' s content /\ license_form (section_entries content feature) sig /\
    diagnosis w feature (magic_of (option_map ci_magic c)) t t' (section_entries content feature) d /\ (d = LICENSE_OK <-> code = LICENSE_OK) /\
    describes w t t' (section_entries content feature) x /\
    o_expiry_date o' = Some (td_expiry x) /\ o_days_left o' = Some (td_days x) /\ o_has_expiry o' = Some (td_has_expiry x) /\
    o_linked_to_pc o' = Some (td_linked x) /\ o_proprietary o' = td_proprietary x.
Proof.
  intros HO H f. apply C09_best_reported in H as [rs [HR [HK HI]]]; [|exact HO]. fold f in HR. destruct HI as [HN _ A _ B C|x HB A1 A2 A3 A4 A5].
  - left. split; [|auto]. intros E. apply HK in E as [r [Hr E]]. destruct (Forall2_in_r _ _ _ _ HR Hr) as [s [_ X]]. apply reported_ok in X as [_ [_ [_ [x [_ [_ [_ [_ [_ [Z _]]]]]]]]]]; [|exact E].
    rewrite Forall_forall in HN. rewrite (HN _ Hr) in Z. discriminate.
  - right. apply best_in in HB. unfold tolds in HB. apply in_flat_map in HB as [r [Hr X]]. destruct (rp_told r) as [x'|] eqn:Et; [|destruct X].
    destruct (Bool.eqb (event_eqb (rp_code r) LICENSE_OK) (event_eqb code LICENSE_OK)) eqn:Eb; [|destruct X]. destruct X as [->|[]].
    destruct (Forall2_in_r _ _ _ _ HR Hr) as [s [Hs X]]. destruct (reported_told _ _ _ _ _ _ _ _ X Et) as [content [sig [P [G [F [D R]]]]]].
    exists s, content, sig, (rp_code r), x. repeat (split; [assumption|]). split; [|auto 8]. apply eqb_prop in Eb. unfold event_eqb in Eb.
    destruct (event_eq_dec (rp_code r) LICENSE_OK), (event_eq_dec code LICENSE_OK); try discriminate; tauto.
Qed.

Theorem C10_days_left w c hint out t code o' t' : (forall i, order_ok (w_machine w i)) ->
  acquire_license w c hint (Some out) t = Ok ((code, Some o'), t') ->
  let feature := feature_of w (option_map ci_feature c) in
  (code <> LICENSE_OK /\ o_days_left o' = Some 0%Z) \/
  exists s content, In s (sources w hint) /\ given w t t' s content /\
    let es := section_entries content feature in
    (code = LICENSE_OK -> exists i j, t <= i < t' /\ t <= j < t' /\ valid_license w feature (magic_of (option_map ci_magic c)) es (w_clock w i) (w_machine w j)) /\
    ((exact_value es (bs "valid-to") = None /\ o_has_expiry o' = Some false /\ o_days_left o' = Some 9999%Z /\ o_expiry_date o' = Some []) \/
     (exists d secs i q, exact_value es (bs "valid-to") = Some d /\ dated w es "valid-to" secs /\ t <= i < t' /\
        rounded (secs - w_clock w i) 86400 q /\ o_has_expiry o' = Some true /\ o_days_left o' = Some (Z.max q 0) /\ o_expiry_date o' = Some (firstn 10 (cstr d)))).
Proof.
  intros HO H f. apply info_source in H as [[A [B _]]|[s [content [sig [d [x [A [P [G [F [D [K [R [E1 [E2 [E3 _]]]]]]]]]]]]]]]]; [left; auto| |exact HO].
  right. exists s, content. split; [exact A|]. split; [exact G|]. fold f in D, R. set (es := section_entries content f) in *. split.
  - intros E. apply K in E. subst d. inversion D as [| | | | | |i j Hi Hj X]; subst. exists i, j. auto.
  - destruct R as [_ [_ R]]. rewrite E1, E2, E3. destruct (exact_value es (bs "valid-to")) as [dt|] eqn:Ev.
    + right. destruct R as [-> [-> [secs [i [q [Hi [Hd [Hq ->]]]]]]]]. exists dt, secs, i, q. auto 8.
    + left. destruct R as [-> [-> ->]]. auto.
Qed.
Print Assumptions C10_days_left.
(** The division is rounded to the nearest integer, halves away from zero: exactly
    one value qualifies. *)
Theorem C10_rounding_unique n q q' : rounded n 86400 q -> rounded n 86400 q' -> q = q'.
Proof. apply rounded_unique. lia. Qed.
Print Assumptions C10_rounding_unique.
(** The library computes in double arithmetic; whatever the number of seconds, the
    int it gets is the exact rounded quotient, or it is out of the range of int and
    the conversion undefined. *)
Theorem C10_double_arithmetic (n : Z) : exists q, rounded n 86400 q /\
  double_to_int (double_round (double_div (double_of n) (double_of 86400))) =
    if (q <=? 2147483647)%Z && (-2147483648 <=? q)%Z then Ok q else Undef UbOverflow.
Proof.
  exists (round_div n 86400). split; [apply round_div_rounded; lia|]. rewrite days_exact. unfold INT_MAX, INT_MIN.
  destruct (Z.ltb_spec 2147483647 (round_div n 86400)), (Z.ltb_spec (round_div n 86400) (-2147483648)), (Z.leb_spec (round_div n 86400) 2147483647), (Z.leb_spec (-2147483648) (round_div n 86400)); try lia; reflexivity.
Qed.
Print Assumptions C10_double_arithmetic.
(** a day and a half is two days, a second less is one *)
Example C10_case : rounded (86400 + 43200) 86400 2 /\ rounded (86400 + 43199) 86400 1 /\ rounded (-43200) 86400 (-1) /\ rounded (-43199) 86400 0.
Proof. repeat split; [exists (-43200)%Z|exists 43199%Z|exists 43200%Z|exists (-43199)%Z]; lia. Qed.

Theorem C11_linked_to_pc w c hint out t code o' t' : (forall i, order_ok (w_machine w i)) ->
  acquire_license w c hint (Some out) t = Ok ((code, Some o'), t') ->
  let feature := feature_of w (option_map ci_feature c) in
  (code <> LICENSE_OK /\ o_linked_to_pc o' = Some false) \/
  exists s content b, In s (sources w hint) /\ given w t t' s content /\ o_linked_to_pc o' = Some b /\
    (b = true <-> exists v, exact_value (section_entries content feature) (bs "client-signature") = Some v) /\
    (code = LICENSE_OK -> exists i j, t <= i < t' /\ t <= j < t' /\ valid_license w feature (magic_of (option_map ci_magic c)) (section_entries content feature) (w_clock w i) (w_machine w j)).
Proof.
  intros HO H f. apply info_source in H as [[A [_ [B _]]]|[s [content [sig [d [x [A [P [G [F [D [K [R [_ [_ [_ [E4 _]]]]]]]]]]]]]]]]]; [left; auto| |exact HO].
  right. exists s, content, (td_linked x). split; [exact A|]. split; [exact G|]. split; [exact E4|]. fold f in R, D. destruct R as [R _]. split.
  - rewrite R. destruct (exact_value _ _); split; try congruence; eauto. intros [v [=]].
  - intros E. apply K in E. subst d. inversion D as [| | | | | |i j Hi Hj X]; subst. exists i, j. auto.
Qed.
Print Assumptions C11_linked_to_pc.

(** extra-data, cut at 16 characters; without it the field is left unwritten *)
Theorem C12_proprietary_data w c hint out t code o' t' : (forall i, order_ok (w_machine w i)) ->
  acquire_license w c hint (Some out) t = Ok ((code, Some o'), t') ->
  let feature := feature_of w (option_map ci_feature c) in
  (code <> LICENSE_OK /\ o_proprietary o' = Some []) \/
  exists s content, In s (sources w hint) /\ given w t t' s content /\
    ((exists v, exact_value (section_entries content feature) (bs "extra-data") = Some v /\ o_proprietary o' = Some (firstn 16 (cstr v))) \/
     (exact_value (section_entries content feature) (bs "extra-data") = None /\ o_proprietary o' = None)).
Proof.
  intros HO H f. apply info_source in H as [[A [_ [_ B]]]|[s [content [sig [d [x [A [P [G [F [D [K [R [_ [_ [_ [_ E5]]]]]]]]]]]]]]]]]; [left; auto| |exact HO].
  right. exists s, content. split; [exact A|]. split; [exact G|]. rewrite E5. destruct R as [_ [R _]]. rewrite R. fold f. destruct (exact_value _ _) as [v|]; cbn [option_map]; [left; eauto|right; auto].
Qed.
Print Assumptions C12_proprietary_data.

(** ** C13 *)
Theorem C13_status_of_call w c hint out t code o' t' : (forall i, order_ok (w_machine w i)) ->
  acquire_license w c hint (Some out) t = Ok ((code, Some o'), t') ->
  let feature := feature_of w (option_map ci_feature c) in
  exists rss log rest,
    Forall2 (fun g rs => Forall2 (reported w feature (magic_of (option_map ci_magic c)) t t') (g_sources g) rs) (groups w hint) rss /\
    map (fun ev => (ev_type ev, ev_ref ev)) log = call_trace (groups w hint) rss /\
    o_status o' = map Some (skipn (length log - 5) log) ++ rest /\
    (code = LICENSE_OK -> Forall (fun ev => ev_sev ev <> SVRT_ERROR) log).
Proof.
  intros HO H f. apply acquire_outcome in H as [Ht [rss [log H]]]; [|exact HO]. destruct (oc_info _ _ _ _ _ _ _ _ _ _ H out o' eq_refl eq_refl) as [_ [rest X]].
  exists rss, log, rest. split; [exact (oc_reports _ _ _ _ _ _ _ _ _ _ H)|]. split; [exact (oc_log _ _ _ _ _ _ _ _ _ _ H)|]. split; [exact X|exact (oc_severity _ _ _ _ _ _ _ _ _ _ H)].
Qed.
Print Assumptions C13_status_of_call.
Example C13_case : status_of (acquire_license (demo true true NOW files [("LICENSE_LOCATION"%string, bs "/d")]) (Some (asking "demo")) None (Some blank_out) 0) =
  Some (LICENSE_OK, map Some [(ENVIRONMENT_VARIABLE_NOT_DEFINED, bs "LICENSE_LOCATION"); (SIGNATURE_VERIFIED, bs "/opt/demo.lic"); (LICENSE_OK, bs "/opt/demo.lic"); (SIGNATURE_VERIFIED, bs "/d"); (IDENTIFIERS_MISMATCH, bs "/d")]).
Proof. vm_compute. reflexivity. Qed.

(** ** C16 *)
Lemma same_valid w w' f m es now mc : same_surroundings w w' -> valid_license w f m es now mc -> valid_license w' f m es now mc.
Proof.
  intros [_ [B [_ [_ [_ [F [G [H [I _]]]]]]]]] [sig [X1 [[m' [n [data [Y1 [Y2 [Y3 [Y4 Y5]]]]]]] [X3 [[X4 X5] X6]]]]].
  exists sig. split; [exact X1|]. split; [exists m', n, data; rewrite G, H, I; auto 6|]. split; [congruence|]. split; [|exact X6]. unfold in_time, dated in *. rewrite F. auto.
Qed.
Theorem C16_more_places_never_hurt w w' c hint hint' out out2 t u o1 t' code2 o2 u' : (forall i, order_ok (w_machine w i)) ->
  static w -> same_surroundings w w' -> incl (sources w hint) (sources w' hint') ->
  acquire_license w c hint out t = Ok ((LICENSE_OK, o1), t') ->
  acquire_license w' c hint' out2 u = Ok ((code2, o2), u') -> code2 = LICENSE_OK.
Proof.
  intros HO HT HS HI H H2. assert (HS' := HS). destruct HS' as [A [_ [C [D [E [_ [_ [_ [_ J]]]]]]]]].
  assert (HO' : forall i, order_ok (w_machine w' i)) by (intros i; rewrite J; apply HO).
  assert (HT' : static w') by (intros i j; rewrite C, D, E, J; apply HT).
  apply (C02_static_exact w' c hint' out2 u _ o2 u' HO' HT' H2).
  destruct (proj1 (C02_static_exact w c hint out t _ o1 t' HO HT H) eq_refl) as [s [content [S1 [S2 [S3 S4]]]]].
  exists s, content. split; [apply HI, S1|]. split; [|split].
  - rewrite <- S2. rewrite (static_listed w s t u HT). destruct s; cbn [listed]; try reflexivity; rewrite C; reflexivity.
  - apply (static_supplies w s t u _ HT) in S3. inversion S3; subst; try (econstructor; eassumption). constructor. rewrite D. assumption.
  - apply (same_valid w w' _ _ _ _ _ HS) in S4. unfold feature_of in *. rewrite A. destruct (HT t u) as [_ [_ [P Q]]]. rewrite E, J. rewrite <- P, <- Q. exact S4.
Qed.
Print Assumptions C16_more_places_never_hurt.
Example C16_case : let w := demo true false NOW files [] in let w' := demo true true NOW files [("LICENSE_LOCATION"%string, bs "/d;/c;/nowhere;/b")] in
  same_surroundings w w' /\ incl (sources w None) (sources w' (Some (hint_of 1 old_license))) /\
  code_of (acquire_license w (Some (asking "demo")) None None 0) = Ok LICENSE_OK /\
  code_of (acquire_license w' (Some (asking "demo")) (Some (hint_of 1 old_license)) None 5) = Ok LICENSE_OK.
Proof.
  cbv zeta. split; [repeat split|]. split; [|split; vm_compute; reflexivity]. intros x. vm_compute. intros [<-|[]]. left. reflexivity.
Qed.
