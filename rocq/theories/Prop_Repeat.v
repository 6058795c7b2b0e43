(** Calls at other times, by other callers, in other surroundings (C82, C83, C84). *)
From Verif Require Import Base CTypes StringUtils Dates Doubles Base64 HwId Registry Ini Network Disks ExecEnv Strategies Locate Licensecc AcquireGen.
From Verif Require Import P_Base Spec_Strings Spec_Base64 Spec_Dates P_Strings P_Text P_Decode Spec_Ini P_Ini Spec_HwId Spec_Hw P_Hw2 Spec_Registry P_Registry Spec_Acquire P_Acquire1 P_Acquire2 P_Acquire3 P_Acquire4 P_Acquire5 Spec_Faults P_Faults P_Faults2 P_AcqGen1 P_Rel Spec_Repeat Spec_WinAcquire.
From Verif Require Import Ex_Acquire Prop_Acquire Prop_WinAcquire Prop_Issue.
From Coq Require Import Lia.

Lemma eq_S : forall t u : nat, t = u -> S t = S u.
Proof. intros t u ->. reflexivity. Qed.
Lemma fair_refl (T : nat -> nat -> Prop) w bk mg l : (forall t u, T t u -> w_clock w t = w_clock w u) -> (forall t u code, T t u -> bk_validate bk t code = bk_validate bk u code) -> fair T w w bk bk mg l.
Proof. intros HC HV. constructor; auto. Qed.
Lemma rel_refl {A} (x y : res (A * nat)) : rel_res eq eq x y -> x = y.
Proof. destruct x as [[a t]|e|b|], y as [[a' t']|e'|b'|]; cbn; try contradiction; try congruence. intros [-> ->]. reflexivity. Qed.
Lemma rel_later {A} k (x y : res (A * nat)) : rel_res (fun t u => u = t + k) eq x y -> y = later k x.
Proof. destruct x as [[a t]|e|b|], y as [[a' t']|e'|b'|]; cbn; try contradiction; try congruence. intros [-> ->]. reflexivity. Qed.
Lemma feature_fails w bk c hint out t : (forall f, requested_feature w c <> Ok f) -> g_acquire_license w bk c hint out t = match requested_feature w c with Ok _ => OutOfFuel | Throw e => Throw e | Undef b => Undef b | OutOfFuel => OutOfFuel end.
Proof. intros H. unfold g_acquire_license, mbind at 1, mlift at 1. destruct (requested_feature w c) as [f| | |]; [destruct (H f eq_refl)|reflexivity..]. Qed.

(** ** C82 *)
Lemma repeat_gen w bk c hint out t k : (forall i j p, w_good w i p = w_good w j p) -> (forall i j p, w_file w i p = w_file w j p) -> (forall i j, w_clock w i = w_clock w j) ->
  (forall i j code, bk_validate bk i code = bk_validate bk j code) ->
  g_acquire_license w bk c hint out (t + k) = later k (g_acquire_license w bk c hint out t).
Proof.
  intros H1 H2 H3 H4. destruct (requested_feature w c) as [f|e|b|] eqn:E.
  2,3,4: rewrite !feature_fails by (intros f; rewrite E; discriminate); rewrite E; reflexivity.
  apply rel_later. eapply rel_acquire with (f := f) (f' := f); auto.
  - intros t0 u ->. reflexivity.
  - constructor; auto.
  - intros r ls t' _. apply Forall_forall. intros l _. apply fair_refl; auto.
Qed.
(** While nothing changes (files, clock, hardware), every call gives the same result: the
    same code or fault and the same information, however many calls were made before. *)
Theorem C82_repeatable w c hint out t k : static w ->
  acquire_license w c hint out (t + k) = later k (acquire_license w c hint out t).
Proof.
  intros HS. rewrite <- !C78_same_as_linux. apply repeat_gen; intros i j; destruct (HS i j) as [A [B [C D]]]; intros; rewrite ?A, ?B, ?C; try reflexivity. cbn [bk_validate linux_backend]. rewrite D. reflexivity.
Qed.
Print Assumptions C82_repeatable.
Theorem C82_repeatable_windows ww c hint out t k : win_static ww ->
  win_acquire_license ww c hint out (t + k) = later k (win_acquire_license ww c hint out t).
Proof.
  intros HS. apply repeat_gen; intros i j; destruct (HS i j) as [A [B [C D]]]; cbn [places w_good w_file w_clock]; intros; rewrite ?A, ?B, ?C; try reflexivity. cbn [bk_validate win_backend]. rewrite D. reflexivity.
Qed.
Print Assumptions C82_repeatable_windows.
(** What the caller's structure held before the call, or that there is none, does not
    affect the code. *)
Theorem C82_code_without_out w c hint out out' t : code_of (acquire_license w c hint out t) = code_of (acquire_license w c hint out' t).
Proof.
  unfold acquire_license, mbind. destruct (mlift (requested_feature w c) t) as [[f t1]| | |]; try reflexivity. destruct (read_licenses w hint f t1) as [[[er ls] t2]| | |]; try reflexivity. destruct ls as [|l ls].
  - destruct (mlift (turn_warnings_into_errors er) t2) as [[[er2 b] t3]| | |]; try reflexivity. destruct (mlift (failure_code er2) t3) as [[code t4]| | |]; reflexivity.
  - destruct (verify_all w (option_map ci_magic c) (l :: ls) er [] [] t2) as [[[[er2 ok] bad] t3]| | |]; try reflexivity. destruct ok; cbn; [|destruct (turn_errors_into_warnings er2); reflexivity].
    destruct (mlift (turn_warnings_into_errors er2) t3) as [[[er3 b] t4]| | |]; try reflexivity. destruct (mlift (failure_code er3) t4) as [[code t5]| | |]; reflexivity.
Qed.
Print Assumptions C82_code_without_out.
Example C82_case : static (demo true true NOW files [("LICENSE_LOCATION"%string, bs "/d;/c")]) /\
  acquire_license (demo true true NOW files [("LICENSE_LOCATION"%string, bs "/d;/c")]) (Some (asking "demo")) None (Some blank_out) 100 =
  later 100 (acquire_license (demo true true NOW files [("LICENSE_LOCATION"%string, bs "/d;/c")]) (Some (asking "demo")) None (Some blank_out) 0).
Proof. split; [apply demo_static|]. apply (C82_repeatable _ _ _ _ 0 100), demo_static. Qed.

(** ** C83 *)
Lemma mstrnlen_total a n : In NUL a -> exists k, mstrnlen_s a n = Ok k.
Proof.
  revert n; induction a as [|x a IH]; intros n H; [destruct H|]. cbn [mstrnlen_s]. destruct (Ascii.eqb_spec x NUL) as [E|E]; [eauto|]. destruct n as [|n]; [eauto|].
  destruct H as [H|H]; [congruence|]. destruct (IH n H) as [k Hk]. rewrite Hk. cbn. eauto.
Qed.
Lemma requested_total w c : (forall x, c = Some x -> In NUL (ci_feature x)) -> exists f, requested_feature w c = Ok f.
Proof.
  intros H. destruct c as [x|]; [|eexists; reflexivity]. cbn [requested_feature]. destruct (mstrnlen_total (ci_feature x) (length (ci_feature x)) (H x eq_refl)) as [k Hk]. rewrite Hk. cbn [rbind]. destruct (Nat.ltb 0 k); eauto.
Qed.
Lemma upper_space c : isspace (toupper c) = isspace c.
Proof. apply Bool.eqb_prop. revert c. apply (byte_sweep (fun c => Bool.eqb (isspace (toupper c)) (isspace c))). vm_compute. reflexivity. Qed.
Lemma upper_nul c : Ascii.eqb (toupper c) NUL = Ascii.eqb c NUL.
Proof. apply Bool.eqb_prop. revert c. apply (byte_sweep (fun c => Bool.eqb (Ascii.eqb (toupper c) NUL) (Ascii.eqb c NUL))). vm_compute. reflexivity. Qed.
Lemma upper_drop p s : (forall c, p (toupper c) = p c) -> map toupper (drop_while p s) = drop_while p (map toupper s).
Proof. intros H. induction s as [|c s IH]; [reflexivity|]. cbn [drop_while map]. rewrite H. destruct (p c); [exact IH|reflexivity]. Qed.
Lemma upper_trim s : toupper_copy (trim_copy s) = trim_copy (toupper_copy s).
Proof.
  unfold toupper_copy, trim_copy, rdrop_while. rewrite map_rev, upper_drop by (intros c; rewrite upper_space, upper_nul; reflexivity). rewrite map_rev, upper_drop by apply upper_space. reflexivity.
Qed.
Lemma case_gen w bk c c' hint out t : (forall x, c = Some x -> In NUL (ci_feature x)) -> (forall x, c' = Some x -> In NUL (ci_feature x)) ->
  upper (feature_of w (option_map ci_feature c)) = upper (feature_of w (option_map ci_feature c')) -> option_map ci_magic c = option_map ci_magic c' ->
  g_acquire_license w bk c hint out t = g_acquire_license w bk c' hint out t.
Proof.
  intros N N' HU HM. destruct (requested_total w c N) as [f E]. destruct (requested_total w c' N') as [f' E']. pose proof (requested_feature_ok _ _ _ E). pose proof (requested_feature_ok _ _ _ E'). subst f f'.
  rewrite !upper_eq in HU. apply rel_refl. eapply rel_acquire; eauto using eq_S.
  - constructor; intros; subst; reflexivity.
  - rewrite !upper_trim, HU. reflexivity.
  - intros r ls t' _. apply Forall_forall. intros l _. apply fair_refl; intros; subst; reflexivity.
Qed.
(** Callers that ask for features whose names differ in case only get the same result, in
    every detail; in particular one that names the project in any case gets what one that
    names nothing gets. *)
Theorem C83_case_insensitive w c c' hint out t : (forall x, c = Some x -> In NUL (ci_feature x)) -> (forall x, c' = Some x -> In NUL (ci_feature x)) ->
  upper (feature_of w (option_map ci_feature c)) = upper (feature_of w (option_map ci_feature c')) -> option_map ci_magic c = option_map ci_magic c' ->
  acquire_license w c hint out t = acquire_license w c' hint out t.
Proof. rewrite <- !C78_same_as_linux. apply case_gen. Qed.
Print Assumptions C83_case_insensitive.
Theorem C83_case_insensitive_windows ww c c' hint out t : (forall x, c = Some x -> In NUL (ci_feature x)) -> (forall x, c' = Some x -> In NUL (ci_feature x)) ->
  upper (feature_of (places ww) (option_map ci_feature c)) = upper (feature_of (places ww) (option_map ci_feature c')) -> option_map ci_magic c = option_map ci_magic c' ->
  win_acquire_license ww c hint out t = win_acquire_license ww c' hint out t.
Proof. apply case_gen. Qed.
Print Assumptions C83_case_insensitive_windows.
Example C83_case hint out t : let w := demo true true NOW files [] in
  acquire_license w (Some (asking "demo")) hint out t = acquire_license w (Some (asking "dEmO")) hint out t /\
  acquire_license w (Some (asking "")) hint out t = acquire_license w (Some (asking "Demo")) hint out t.
Proof.
  cbv zeta. split; (apply C83_case_insensitive; [intros x [= <-]; vm_compute; tauto|intros x [= <-]; vm_compute; tauto|vm_compute; reflexivity|reflexivity]).
Qed.

(** ** C84 *)
Lemma carried_data w hint f t r ls t' : read_licenses w hint f t = Ok ((r, ls), t') ->
  Forall (fun l => exists id es sig, l = lic_of f id es sig /\ carried w f hint t es sig) ls.
Proof.
  intros H. apply read_licenses_ok in H as [_ [oss [Hos [-> _]]]]. rewrite zip_licenses, Forall_map. eapply Forall_impl; [|apply (data_carried w f hint t t'); [apply incl_refl|apply seen_flat, Hos]].
  intros d [H _]. exists (ld_id d), (ld_entries d), (ld_sig d). auto.
Qed.
Lemma linux_licenses w hint f t : g_read_licenses w (linux_backend w) hint f t = read_licenses w hint f t.
Proof. apply (g_licenses_same w (linux_backend w) (fun _ => True)); auto; try (intros; apply linux_add). apply Forall_forall. auto. Qed.
Lemma given_zero mg f id es sig : given_magic mg (lic_of f id es sig) = magic_of mg.
Proof. destruct mg; reflexivity. Qed.
Lemma other_surroundings w w' c hint out t : alike_worlds eq w w' ->
  (forall id es sig, let f := feature_of w (option_map ci_feature c) in carried w f hint t es sig ->
     fair eq w w' (linux_backend w) (linux_backend w') (option_map ci_magic c) (lic_of f id es sig)) ->
  acquire_license w' c hint out t = acquire_license w c hint out t.
Proof.
  intros HW HF. rewrite <- !C78_same_as_linux. assert (R : requested_feature w' c = requested_feature w c) by (unfold requested_feature; rewrite (aw_project _ _ _ HW); reflexivity).
  destruct (requested_feature w c) as [f|e|b|] eqn:E.
  2,3,4: rewrite !feature_fails by (intros f; rewrite ?R, ?E; discriminate); rewrite R, E; reflexivity.
  symmetry. apply rel_refl. eapply rel_acquire with (f := f) (f' := f); auto using eq_S.
  intros r ls t' H. rewrite linux_licenses in H. apply carried_data in H. pose proof (requested_feature_ok _ _ _ E) as Ef. rewrite <- Ef in HF. eapply Forall_impl; [|exact H].
  intros l [id [es [sig [-> Hc]]]]. apply HF, Hc.
Qed.
(** The clock is consulted about dates only: if no license found has an end date, and none
    that is genuine and made for this product has a start date, the result is the same at
    any time. *)
Theorem C84_clock w clock c hint out t : let f := feature_of w (option_map ci_feature c) in
  (forall es sig, carried w f hint t es sig -> exact_value es (bs "valid-to") = None) ->
  (forall es sig, carried w f hint t es sig -> signature_good w f es sig -> magic_of (option_map ci_magic c) = w_magic w -> exact_value es (bs "valid-from") = None) ->
  acquire_license (with_clock w clock) c hint out t = acquire_license w c hint out t.
Proof.
  intros f H1 H2. apply other_surroundings; [constructor; intros; subst; reflexivity|]. fold f. intros id es sig f' Hc. subst f'. constructor.
  - reflexivity.
  - cbn [fl_limits lic_of]. rewrite lim_get. intros X. destruct X. apply (H1 es sig Hc).
  - intros V M. cbn [fl_limits lic_of]. rewrite lim_get. intros X. destruct X. apply (H2 es sig Hc).
    + eapply os_verify_good; [exact V|reflexivity].
    + rewrite given_zero in M. exact M.
  - intros V M code _ i j ->. reflexivity.
Qed.
Print Assumptions C84_clock.
(** The hardware is consulted only about a genuine license made for this product and locked
    to a machine: without one, the result is the same on every machine. *)
Theorem C84_machine w m c hint out t : let f := feature_of w (option_map ci_feature c) in
  (forall es sig code, carried w f hint t es sig -> signature_good w f es sig -> magic_of (option_map ci_magic c) = w_magic w -> ~ locked es code) ->
  acquire_license (with_machine w m) c hint out t = acquire_license w c hint out t.
Proof.
  intros f H. apply other_surroundings; [constructor; intros; subst; reflexivity|]. fold f. intros id es sig f' Hc. subst f'. constructor.
  - reflexivity.
  - intros _ i j ->. reflexivity.
  - intros _ _ _ i j ->. reflexivity.
  - intros V M code Hl. cbn [fl_limits lic_of] in Hl. rewrite lim_get in Hl. exfalso. apply (H es sig code Hc); [|rewrite given_zero in M; exact M|exact Hl].
    eapply os_verify_good; [exact V|reflexivity].
Qed.
Print Assumptions C84_machine.
(** The public key matters only for the signatures of the licenses found: keys under which
    those verify alike give the same result; when there is no license, any key does. *)
Theorem C84_key w ok verify c hint out t : let f := feature_of w (option_map ci_feature c) in
  (forall es sig, carried w f hint t es sig -> ok = w_key_ok w /\
     forall m, limits_of es m -> let bytes := firstn (Z.to_nat (fst (w_bio w sig))) (snd (w_bio w sig)) in verify (signed_text f m) bytes = w_verify w (signed_text f m) bytes) ->
  acquire_license (with_key w ok verify) c hint out t = acquire_license w c hint out t.
Proof.
  intros f H. apply other_surroundings; [constructor; intros; subst; reflexivity|]. fold f. intros id es sig f' Hc. subst f'. constructor.
  - cbn [bk_verify linux_backend]. destruct (H es sig Hc) as [-> HV]. specialize (HV _ (lim_of es)). cbv zeta in HV. rewrite signed_text_print. cbn [fl_project fl_limits fl_signature lic_of]. unfold os_verify_signature. cbn [with_key w_key_ok w_bio w_verify].
    destruct (w_key_ok w); [|reflexivity]. cbn [negb]. destruct (w_bio w sig) as [n data]. cbn [fst snd] in HV. destruct (_ || _)%bool; [reflexivity|]. rewrite HV. reflexivity.
  - intros _ i j ->. reflexivity.
  - intros _ _ _ i j ->. reflexivity.
  - intros _ _ code _ i j ->. reflexivity.
Qed.
Print Assumptions C84_key.
Lemma free_entries es sig : carried (demo false false NOW [] []) (bs "demo") (Some (hint_of 1 free_license)) 0 es sig -> es = section_entries free_license (bs "demo").
Proof.
  intros [s [t' [content [Hs [_ [Hg [-> _]]]]]]]. revert Hs. unfold hint_of. rewrite sole_source; [|reflexivity|reflexivity|discriminate|vm_compute; reflexivity|unfold HINT_SIZE; apply Nat.leb_le; vm_compute; reflexivity].
  intros [<-|[]]. inversion Hg; subst. reflexivity.
Qed.
Example C84_case clock m out : let w := demo false false NOW [] [] in
  acquire_license (with_clock w clock) (Some (asking "demo")) (Some (hint_of 1 free_license)) out 0 = acquire_license w (Some (asking "demo")) (Some (hint_of 1 free_license)) out 0 /\
  acquire_license (with_machine w m) (Some (asking "demo")) (Some (hint_of 1 free_license)) out 0 = acquire_license w (Some (asking "demo")) (Some (hint_of 1 free_license)) out 0 /\
  acquire_license (with_key w true (fun text sig => beqb text sig || beqb sig (bs "other"))) (Some (asking "demo")) (Some (hint_of 1 free_license)) out 0 = acquire_license w (Some (asking "demo")) (Some (hint_of 1 free_license)) out 0.
Proof.
  cbv zeta. split; [|split].
  - apply C84_clock; [intros es sig H; apply free_entries in H as ->; vm_compute; reflexivity|]. intros es sig H _ _. apply free_entries in H as ->. vm_compute. reflexivity.
  - apply C84_machine. intros es sig code H _ _ L. apply free_entries in H as ->. vm_compute in L. discriminate L.
  - apply C84_key. intros es sig H. split; [reflexivity|]. intros mm _. pose proof (free_entries es sig H) as E. destruct H as [s [t' [content [_ [_ [_ [_ [HF _]]]]]]]]. subst es.
    assert (X : Some (bs "DEMOextra-datahellolic_ver200") = Some sig) by (rewrite <- HF; vm_compute; reflexivity). injection X as <-.
    cbv zeta. cbn [demo w_bio w_verify fst snd]. rewrite Nat2Z.id, firstn_all. apply Bool.orb_false_r.
Qed.
