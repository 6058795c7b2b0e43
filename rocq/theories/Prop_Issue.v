(** A license as issued is accepted (C81). *)
From Verif Require Import Base CTypes StringUtils Dates Base64 HwId Registry Ini Network Disks ExecEnv Strategies Locate Licensecc.
From Verif Require Import P_Base Spec_Listing Spec_Strings Spec_Base64 Spec_Dates Spec_Ini P_Ini P_IniSave Spec_HwId Spec_Hw Spec_Registry Spec_Acquire P_Acquire1 P_Acquire2 P_Acquire3 P_Acquire4 P_Acquire5 Spec_Faults Spec_Ext P_Ext Spec_Layout P_Layout Spec_Issue.
From Verif Require P_Signature.
From Verif Require Import P_DateText.
From Coq Require Import Sorted Permutation Lia.
From Verif Require Import Ex_Acquire Prop_Acquire Prop_Faults Prop_Layout.

Section ISSUED.
Variables (sign : bytes -> bytes) (f : bytes) (limits es : list (bytes * bytes)).
Hypothesis HI : issued sign f limits es.
Let sig := sign (signed_text f limits).
Lemma is_D : distinct_names ((bs "sig", sig) :: limits).
Proof using HI. split; [|apply HI]. intros n v Hin S. apply (is_unsigned _ _ _ _ HI n v Hin). symmetry. exact S. Qed.
Lemma is_Des : distinct_names es.
Proof using HI. eapply distinct_perm; [apply is_D|]. apply Permutation_sym, HI. Qed.
Lemma is_in k v : In (k, v) es <-> (k = bs "sig" /\ v = sig) \/ In (k, v) limits.
Proof using HI.
  split.
  - intros H. apply (Permutation_in _ (is_entries _ _ _ _ HI)) in H as [H|H]; [injection H as <- <-; auto|auto].
  - intros H. apply (Permutation_in _ (Permutation_sym (is_entries _ _ _ _ HI))). destruct H as [[-> ->]|H]; [left; reflexivity|right; exact H].
Qed.
Lemma is_exact k : k <> bs "sig" -> exact_value es k = exact_value limits k.
Proof using HI.
  intros Hk. assert (X : forall v, exact_value es k = Some v <-> exact_value limits k = Some v).
  { intros v. rewrite (P_Signature.exact_in es k v is_Des), (P_Signature.exact_in limits k v (is_distinct _ _ _ _ HI)), is_in. tauto. }
  destruct (exact_value es k) as [v|] eqn:E; [symmetry; apply X; reflexivity|]. destruct (exact_value limits k) as [v|]; [|reflexivity]. apply X. reflexivity.
Qed.
Lemma is_lim k d : exact_value limits k = Some d <-> In (k, d) limits.
Proof using HI. apply P_Signature.exact_in, HI. Qed.
Lemma is_form : license_form es sig.
Proof using HI.
  split.
  - eapply distinct_first; [apply is_Des|apply is_in; left; split; reflexivity|apply same_nameb_refl].
  - exists (bs "200"). split; [|split].
    + eapply distinct_first; [apply is_Des|apply is_in; right; apply HI|apply same_nameb_refl].
    + vm_compute. lia.
    + apply (th_dec [] [] []); constructor. reflexivity.
Qed.
Lemma filter_strong {A} (R : A -> A -> Prop) g l : StronglySorted R l -> StronglySorted R (filter g l).
Proof. induction 1 as [|a l HS IH HF]; [constructor|]. cbn. destruct (g a); [|exact IH]. constructor; [exact IH|]. rewrite Forall_forall in *. intros x Hx. apply filter_In in Hx. apply HF, Hx. Qed.
Lemma is_signed m : limits_of es m -> signed_text f m = signed_text f limits.
Proof using HI.
  intros [H1 H2]. set (g := fun e : bytes * bytes => negb (beqb (fst e) (bs "sig"))).
  assert (L : limits = filter g m).
  { apply (limits_unique limits).
    - split; [apply HI|]. intros k v. symmetry. apply is_lim.
    - split; [apply filter_strong, H1|]. intros k v. rewrite filter_In, H2. unfold g. cbn [fst]. destruct (beqb_spec k (bs "sig")) as [->|N]; cbn [negb].
      + rewrite is_lim. split; [intros [_ X]; discriminate X|]. intros X. exfalso. eapply (is_unsigned _ _ _ _ HI); [exact X|reflexivity].
      + rewrite is_exact by exact N. intuition. }
  assert (F : filter g (filter g m) = filter g m).
  { clear. induction m as [|a m IH]; [reflexivity|]. cbn. destruct (g a) eqn:E; cbn; rewrite ?E, IH; reflexivity. }
  unfold signed_text. fold g. rewrite L, F. reflexivity.
Qed.
Lemma is_good w : honours w sign (signed_text f limits) -> signature_good w f es sig.
Proof using HI.
  intros [K [n [data [B [N V]]]]]. exists (lim es), n, data. split; [apply lim_of|]. split; [exact K|]. split; [exact B|]. split; [exact N|].
  rewrite (is_signed (lim es)) by apply lim_of. exact V.
Qed.
Lemma is_time w now : in_time w es now = in_time w limits now.
Proof using HI. unfold in_time, dated. rewrite (is_exact (bs "valid-to")), (is_exact (bs "valid-from")) by discriminate. reflexivity. Qed.
Lemma is_over w now : out_of_time w es now = out_of_time w limits now.
Proof using HI. unfold out_of_time, dated. rewrite (is_exact (bs "valid-to")), (is_exact (bs "valid-from")) by discriminate. reflexivity. Qed.
Lemma is_locked code : locked es code = locked limits code.
Proof using HI. unfold locked. rewrite is_exact by discriminate. reflexivity. Qed.
End ISSUED.

(** ** One license text and nothing else *)
Section SOLE.
Variables (w : world) (c : option caller) (text : bytes) (t : nat) (out : option out_info).
Let hint := Some {| loc_type := 1; loc_data := text ++ [NUL] |}.
Let feature := feature_of w (option_map ci_feature c).
Let magic := magic_of (option_map ci_magic c).
Let es := section_entries text feature.
Hypotheses (HN : w_near_module w = false) (HE : w_with_env w = false) (HT : text <> []) (HF : nul_free text) (HL : length text <= HINT_SIZE).
Lemma sole_source : sources w hint = [SText EXTERNAL text].
Proof using HN HE HT HF HL.
  clear es magic feature. unfold sources, groups, hint. rewrite HN, HE. cbn [app flat_map g_sources hint_sources loc_type loc_data]. rewrite app_nil_r.
  assert (E : cstr (firstn HINT_SIZE (text ++ [NUL])) = text).
  { rewrite firstn_app, (firstn_all2 text) by exact HL. destruct (HINT_SIZE - length text) as [|n]; cbn [firstn].
    - rewrite app_nil_r. apply cstr_id, HF.
    - rewrite firstn_nil. apply cstr_app_nul, HF. }
  rewrite E. destruct text eqn:Et; [contradiction|]. reflexivity.
Qed.
Lemma sole_diagnosis code out' t' : (forall i, order_ok (w_machine w i)) -> acquire_license w c hint out t = Ok ((code, out'), t') ->
  diagnosis w feature magic t t' es code.
Proof using HN HE HT HF HL.
  intros HO H. destruct (event_eqb code LICENSE_OK) eqn:E.
  - assert (X : code = LICENSE_OK) by (destruct code; try discriminate E; reflexivity). subst code. apply C01_accept_sound in H as [s [content [i [j [A [_ [C [D [F G]]]]]]]]]; [|exact HO].
    rewrite sole_source in A. destruct A as [<-|[]]. assert (Y : content = text) by (inversion C; reflexivity). subst content. exact (dg_ok _ _ _ _ _ _ i j D F G).
  - assert (N : code <> LICENSE_OK) by (intros ->; discriminate E). destruct (C03_failure_codes w c hint out t code out' t' HO H N) as [_ [P|[s [A B]]]].
    + exfalso. destruct P as [[X _]|[[X _]|[_ [_ [X _]]]]]; [congruence|congruence|discriminate X].
    + rewrite sole_source in A. destruct A as [<-|[]]. destruct B as [[_ [i [_ B]]]|[content [_ [B D]]]]; [discriminate B|]. assert (Y : content = text) by (inversion B; reflexivity). subst content. exact D.
Qed.
Lemma sole_returns : (forall i, order_ok (w_machine w i)) -> (forall x, c = Some x -> In NUL (ci_feature x)) ->
  (forall sig, license_form es sig -> (0 <= fst (w_bio w sig) < 512)%Z) ->
  (forall key d, In key [bs "valid-to"; bs "valid-from"] -> exact_value es key = Some d -> exists y m day, date_text d y m day /\ forall i, (Z.abs (w_mktime w y m day - w_clock w i) <= 86400 * 2147483647)%Z) ->
  (forall code, locked es code -> ~ over_read (undashed code) /\ forall h j u, denotes code h -> strategy_bits h = 2%Z -> disks_of (hw_disks (w_machine w j)) <> Undef u) ->
  exists code out' t', acquire_license w c hint out t = Ok ((code, out'), t').
Proof using HN HE HT HF HL.
  intros HO H1 H2 H3 H4. apply C58_returns_when_calm; [exact HO|].
  assert (C : forall es' sig, carried w feature hint t es' sig -> es' = es /\ license_form es sig).
  { intros es' sig [s [t' [content [Hs [_ [Hg [-> Hf]]]]]]]. rewrite sole_source in Hs. destruct Hs as [<-|[]]. assert (Y : content = text) by (inversion Hg; reflexivity). subst content. auto. }
  constructor; fold feature; rewrite ?sole_source.
  - exact H1.
  - intros l [= <-]. split; [apply in_or_app; right; left; reflexivity|cbn; auto].
  - intros s [<-|[]]. vm_compute. lia.
  - intros p i j [H|[]]. discriminate.
  - congruence.
  - intros n s [H|[]]. discriminate.
  - intros es' sig H. apply C in H as [-> H]. apply H2, H.
  - intros es' sig key d H. apply C in H as [-> _]. apply H3.
  - intros es' sig code H. apply C in H as [-> _]. apply H4.
  - left. discriminate.
Qed.
End SOLE.

Lemma dated_fun w es key s s' : dated w es key s -> dated w es key s' -> s = s'.
Proof. intros [d [y [m [dd [E [D ->]]]]]] [d' [y' [m' [dd' [E' [D' ->]]]]]]. rewrite E in E'. injection E' as <-. destruct (date_fun _ _ _ _ _ _ _ D D') as [<- [<- <-]]. reflexivity. Qed.
Lemma time_excl w es now : in_time w es now -> out_of_time w es now -> False.
Proof.
  intros [A B] [[s [D L]]|[s [D L]]].
  - destruct A as [A|[s' [D' L']]]; [destruct D as [d [y [m [dd [E _]]]]]; congruence|]. pose proof (dated_fun _ _ _ _ _ D D'). lia.
  - destruct B as [B|[s' [D' L']]]; [destruct D as [d [y [m [dd [E _]]]]]; congruence|]. pose proof (dated_fun _ _ _ _ _ D D'). lia.
Qed.

(** ** C81 *)
(** A document with a license issued for the feature asked for, written as a text in any
    layout, passed to acquire_license: the call returns, and the verdict depends only on
    the magic number, the dates of the license and its hardware identifier. *)
Theorem C81_issued_verdict w sign c d n es limits text out t :
  (forall i, order_ok (w_machine w i)) -> static w -> w_near_module w = false -> w_with_env w = false ->
  (forall x, c = Some x -> In NUL (ci_feature x)) ->
  let feature := feature_of w (option_map ci_feature c) in
  honours w sign (signed_text feature limits) ->
  issued sign feature limits es -> distinct_names d -> In (n, es) d -> same_name n feature ->
  renders d text -> length text <= HINT_SIZE -> well_dated w limits -> well_locked w limits ->
  exists code out' t', acquire_license w c (Some {| loc_type := 1; loc_data := text ++ [NUL] |}) out t = Ok ((code, out'), t') /\
    (* accepted *)
    (magic_of (option_map ci_magic c) = w_magic w -> in_time w limits (w_clock w t) ->
     (forall id, locked limits id -> identifies (w_machine w t) id) -> code = LICENSE_OK) /\
    (* another machine *)
    (magic_of (option_map ci_magic c) = w_magic w -> in_time w limits (w_clock w t) ->
     (exists id, locked limits id /\ ~ identifies (w_machine w t) id) -> code = IDENTIFIERS_MISMATCH) /\
    (* too early or too late *)
    (magic_of (option_map ci_magic c) = w_magic w -> out_of_time w limits (w_clock w t) -> code = PRODUCT_EXPIRED) /\
    (* another build of the library *)
    (magic_of (option_map ci_magic c) <> w_magic w -> code = LICENSE_CORRUPTED).
Proof.
  intros HO HS HN HE HC f HH HI D Hin Hn R L WD WL.
  destruct (sets_out_lines _ _ R) as [HF _].
  assert (E : section_entries text f = es).
  { rewrite (rendered_entries _ _ _ R). destruct (entries_of_distinct d f D) as [[_ N]|[n' [es' [Hin' [Hn' ->]]]]].
    - specialize (N _ _ Hin). destruct (same_nameb_spec n f); [discriminate|contradiction].
    - destruct (same_nameb_spec n' f) as [S'|]; [|discriminate]. destruct (distinct_in d D _ _ _ _ Hin' Hin) as [_ X]; [unfold same_name in *; congruence|exact X]. }
  assert (HT : text <> []).
  { intros ->. assert (X : In (bs "lic_ver", bs "200") es) by (apply (is_in _ _ _ _ HI); right; apply HI). rewrite <- E in X. vm_compute in X. exact X. }
  pose proof (is_form _ _ _ _ HI) as Fo. pose proof (is_good _ _ _ _ HI w HH) as Go.
  assert (FU : forall sig, license_form es sig -> sig = sign (signed_text f limits)) by (intros sig [X _]; destruct Fo as [Y _]; congruence).
  destruct (sole_returns w c text t out HN HE HT HF L HO HC) as [code [out' [t' H]]].
  - fold f. rewrite E. intros sig X. rewrite (FU sig X). destruct HH as [_ [k [data [B [K _]]]]]. rewrite B. exact K.
  - fold f. rewrite E. intros key dd Hk Hd. apply (WD key); [exact Hk|]. rewrite (is_exact _ _ _ _ HI) in Hd by (destruct Hk as [<-|[<-|[]]]; discriminate). apply (is_lim _ _ _ _ HI), Hd.
  - fold f. rewrite E. intros id Hl. rewrite (is_locked _ _ _ _ HI) in Hl. apply WL, (is_lim _ _ _ _ HI), Hl.
  - exists code, out', t'. split; [exact H|]. pose proof (sole_diagnosis w c text t out HN HE HT HF L code out' t' HO H) as G. fold f in G. rewrite E in G.
    assert (CK : forall i, w_clock w i = w_clock w t) by (intros i; destruct (HS i t) as [_ [_ [X _]]]; exact X).
    assert (MK : forall i, w_machine w i = w_machine w t) by (intros i; destruct (HS i t) as [_ [_ [_ X]]]; exact X).
    rewrite <- (is_time _ _ _ _ HI), <- (is_over _ _ _ _ HI).
    assert (LK : forall id, locked limits id <-> locked es id) by (intros id; rewrite (is_locked _ _ _ _ HI); reflexivity).
    destruct G as [X|_ X|sig X Y|sig X Y Z|sig i X Y M I O|sig i j id X Y M I T J K NI|i j I J [sig [X [Y [M [T K]]]]]].
    + exfalso. destruct Fo as [Fo _]. rewrite X in Fo. discriminate Fo.
    + destruct (X _ Fo).
    + rewrite (FU _ X) in Y. contradiction.
    + repeat split; intros; try contradiction.
    + rewrite CK in O. split; [|split; [|split]]; intros A; try contradiction; intros B; try (intros Q); try reflexivity; destruct (time_excl _ _ _ B O).
    + rewrite CK in T. rewrite MK in NI. split; [|split; [|split]]; intros A; try contradiction; intros B; try (intros Q); try reflexivity.
      * destruct NI. apply Q, LK, K.
      * destruct (time_excl _ _ _ T B).
    + rewrite CK in T. rewrite MK in K. split; [|split; [|split]]; intros A; try contradiction; intros B; try (intros Q); try reflexivity.
      * destruct Q as [id [Q1 Q2]]. destruct Q2. apply K, LK, Q1.
      * destruct (time_excl _ _ _ T B).
Qed.
Print Assumptions C81_issued_verdict.
(** A document without a section for the feature: the product is not licensed, whatever
    else it says. *)
Theorem C81_unlicensed w c d text out t :
  (forall i, order_ok (w_machine w i)) -> w_near_module w = false -> w_with_env w = false ->
  (forall x, c = Some x -> In NUL (ci_feature x)) ->
  renders d text -> (forall n es, In (n, es) d -> ~ same_name n (feature_of w (option_map ci_feature c))) -> d <> [] -> length text <= HINT_SIZE ->
  exists out' t', acquire_license w c (Some {| loc_type := 1; loc_data := text ++ [NUL] |}) out t = Ok ((PRODUCT_NOT_LICENSED, out'), t').
Proof.
  intros HO HN HE HC R N Hd L. set (f := feature_of w (option_map ci_feature c)) in *. destruct (sets_out_lines _ _ R) as [HF [_ HM]].
  assert (HT : text <> []) by (intros ->; destruct d as [|[n es] d]; [contradiction|]; discriminate HM).
  assert (E : section_entries text f = []).
  { rewrite (rendered_entries _ _ _ R). clear -N. induction d as [|[n es] d IH]; [reflexivity|]. unfold document_entries. cbn [flat_map fst snd]. destruct (same_nameb_spec n f) as [S|_]; [destruct (N n es (or_introl eq_refl) S)|]. apply IH. intros m x Hx. apply (N m x). right. exact Hx. }
  destruct (sole_returns w c text t out HN HE HT HF L HO HC) as [code [out' [t' H]]]; fold f; rewrite ?E.
  - intros sig [X _]. discriminate X.
  - intros key dd _ X. discriminate X.
  - intros id X. discriminate X.
  - exists out', t'. pose proof (sole_diagnosis w c text t out HN HE HT HF L code out' t' HO H) as G. fold f in G. rewrite E in G. rewrite H. repeat f_equal.
    destruct G as [X|X _|sig X Y|sig X Y Z|sig i X Y M I O|sig i j id X Y M I T J K NI|i j I J [sig [X [Y [M [T K]]]]]]; try reflexivity; try contradiction; destruct X as [X _]; discriminate X.
Qed.
Print Assumptions C81_unlicensed.

(** the license of C80_case, with the section of another product *)
Definition LIMITS : list (bytes * bytes) := [(bs "extra-data", bs "hello"); (bs "lic_ver", bs "200")].
Lemma demo_issued : issued (fun text => text) (bs "demo") LIMITS (snd (nth 0 DOC ([], []))).
Proof.
  constructor.
  - repeat constructor.
  - split; [|split; [intros ? ? []|exact I]]. intros k v [X|[]] S; injection X as <- <-; vm_compute in S; discriminate S.
  - cbn. auto.
  - intros k v [X|[X|[]]] S; injection X as <- <-; vm_compute in S; discriminate S.
  - change (Permutation [(bs "lic_ver", bs "200"); (bs "extra-data", bs "hello"); (bs "sig", bs "DEMOextra-datahellolic_ver200")]
      [(bs "sig", bs "DEMOextra-datahellolic_ver200"); (bs "extra-data", bs "hello"); (bs "lic_ver", bs "200")]).
    eapply perm_trans; [apply perm_swap|]. eapply perm_trans; [apply perm_skip, perm_swap|]. apply perm_swap.
Qed.
Example C81_case : let w := demo false false NOW [] [] in
  exists out' t', acquire_license w (Some (asking "demo")) (Some {| loc_type := 1; loc_data := TEXT ++ [NUL] |}) None 0 = Ok ((LICENSE_OK, out'), t').
Proof.
  cbv zeta. set (w := demo false false NOW [] []).
  destruct (C81_issued_verdict w (fun text => text) (Some (asking "demo")) DOC (bs "demo") (snd (nth 0 DOC ([], []))) LIMITS TEXT None 0) as [code [out' [t' [H [A _]]]]].
  - apply demo_order.
  - apply demo_static.
  - reflexivity.
  - reflexivity.
  - intros x [= <-]. vm_compute. tauto.
  - split; [reflexivity|]. eexists _, _. split; [reflexivity|]. split; [vm_compute; split; [discriminate|reflexivity]|vm_compute; reflexivity].
  - exact demo_issued.
  - exact (proj1 doc_same).
  - left. reflexivity.
  - vm_compute. reflexivity.
  - exact doc_text.
  - unfold HINT_SIZE. apply Nat.leb_le. vm_compute. reflexivity.
  - intros key d [<-|[<-|[]]] [X|[X|[]]]; discriminate X.
  - intros code [X|[X|[]]]; discriminate X.
  - exists out', t'. rewrite H. rewrite A; [reflexivity|reflexivity| |].
    + split; left; vm_compute; reflexivity.
    + intros id X. vm_compute in X. discriminate X.
Qed.
Example C81_case_unlicensed : exists out' t', acquire_license (demo false false NOW [] []) (Some (asking "third")) (Some {| loc_type := 1; loc_data := TEXT ++ [NUL] |}) None 0 = Ok ((PRODUCT_NOT_LICENSED, out'), t').
Proof.
  apply (C81_unlicensed _ _ DOC); [apply demo_order|reflexivity|reflexivity| |exact doc_text| |discriminate|unfold HINT_SIZE; apply Nat.leb_le; vm_compute; reflexivity].
  - intros x [= <-]. vm_compute. tauto.
  - intros n es [X|[X|[]]] S; injection X as <- <-; vm_compute in S; discriminate S.
Qed.
