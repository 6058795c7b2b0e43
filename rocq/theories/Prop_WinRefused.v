(** On Windows, too, what is told about a license depends on the valid licenses only (C90). *)
From Verif Require Import Base CTypes StringUtils Dates Doubles Base64 HwId Registry Ini Network Disks ExecEnv Strategies Locate Licensecc Shared Trace WinSignature WinMachine AcquireGen.
From Verif Require Import P_Base Spec_Listing Spec_Strings Spec_Base64 Spec_Dates Spec_Ini Spec_HwId Spec_Hw Spec_Registry Spec_Acquire P_Acquire3 P_Acquire4 P_Acquire5 Spec_Refused Spec_AcquireGen P_AcqGen2 Spec_Windows Spec_WinAcquire Spec_WinRefused.
From Verif Require Import Ex_Acquire Prop_Acquire Spec_Der Prop_WinSig Prop_Windows Prop_WinAcquire Prop_Refused.
From Verif Require Prop_Passing.
From Coq Require Import Lia.

Lemma win_static_places ww : win_static ww -> static (places ww).
Proof. intros H i j. destruct (H i j) as [A [B [C _]]]. split; [exact A|]. split; [exact B|]. split; [exact C|reflexivity]. Qed.
Section VALID.
Variables (ww : win_world) (modulus exponent f : bytes) (m : N) (t : nat).
Lemma win_valid_source_fun s a b : win_valid_source ww modulus exponent f m t s a -> win_valid_source ww modulus exponent f m t s b -> a = b.
Proof using Type. intros [c [_ [A [-> _]]]] [c' [_ [B [-> _]]]]. rewrite (supplies_fun _ _ _ _ _ A B). reflexivity. Qed.
Lemma win_valid_among_fun l a : win_valid_among ww modulus exponent f m t l a -> forall b, win_valid_among ww modulus exponent f m t l b -> a = b.
Proof using Type.
  induction 1 as [|s l es v V A IH|s l v N A IH]; intros b B; inversion B as [|s' l' es' v' V' B'|s' l' v' N' B']; subst; try reflexivity.
  - rewrite (win_valid_source_fun _ _ _ V V'). f_equal. apply IH, B'.
  - destruct (N' _ V).
  - destruct (N _ V').
  - apply IH, B'.
Qed.
Variable t' : nat.
Hypothesis WST : win_static ww.
Hypothesis LE : t <= t'.
Let w := places ww.
Let mn := win_means ww modulus exponent.
Let ST : static w := win_static_places ww WST.
Lemma win_ok_valid s r : p_reported w mn f m t t' s r -> rp_code r = LICENSE_OK -> exists es x, win_valid_source ww modulus exponent f m t s es /\ rp_told r = Some x /\ describes w t t' es x.
Proof using WST.
  intros R K. destruct (p_reported_ok mn _ _ _ _ _ _ _ R K) as [content [i [j [x [P [G [_ [_ [V [T D]]]]]]]]]]. exists (section_entries content f), x. split; [|auto]. exists content.
  split; [|split; [|split; [reflexivity|]]].
  - destruct s; cbn [present] in P; try reflexivity; destruct P as [k [_ P]]; fold w; rewrite (static_listed _ _ _ k ST); exact P.
  - apply given_supplies in G as [k G]. eapply static_supplies; eassumption.
  - apply valid_same in V. destruct (WST i t) as [_ [_ [X _]]]. destruct (WST j t) as [_ [_ [_ Y]]]. unfold w in V. cbn [places w_clock] in V. rewrite X, Y in V. exact V.
Qed.
Lemma win_valid_ok s r es : p_reported w mn f m t t' s r -> win_valid_source ww modulus exponent f m t s es -> rp_code r = LICENSE_OK.
Proof using WST LE.
  intros R [content [A [B [-> C]]]]. eapply (p_valid_reported mn); [exact LE| | |exact R].
  - intros i _. rewrite (static_listed _ _ _ t ST). exact A.
  - intros content' i j G _ _. apply given_supplies in G as [k G]. apply (static_supplies _ _ _ t _ ST) in G. rewrite <- (supplies_fun _ _ _ _ _ B G). apply valid_same. destruct (WST i t) as [_ [_ [X _]]]. destruct (WST j t) as [_ [_ [_ Y]]]. unfold w. cbn [places w_clock]. rewrite X, Y. exact C.
Qed.
Lemma win_reports_valid l rs : Forall2 (p_reported w mn f m t t') l rs -> exists v, win_valid_among ww modulus exponent f m t l v /\ Forall2 (describes w t t') v (tolds true rs).
Proof using WST LE.
  induction 1 as [|s r l rs R _ [v [V D]]]; [exists []; split; constructor|]. destruct (event_eqb (rp_code r) LICENSE_OK) eqn:E.
  - assert (K : rp_code r = LICENSE_OK) by (destruct (rp_code r); first [reflexivity|discriminate E]). destruct (win_ok_valid s r R K) as [es [x [A [B C]]]]. exists (es :: v). split; [constructor; assumption|]. unfold tolds. cbn [flat_map]. rewrite B, E. cbn. constructor; assumption.
  - exists v. split; [apply wva_other; [|exact V]; intros es K; rewrite (win_valid_ok _ _ _ R K) in E; discriminate E|]. unfold tolds. cbn [flat_map]. rewrite E. destruct (rp_told r); exact D.
Qed.
Lemma win_told_of_ok l rs : Forall2 (p_reported w mn f m t t') l rs -> ((exists r, In r rs /\ rp_code r = LICENSE_OK) <-> tolds true rs <> []).
Proof using WST.
  intros R. split.
  - intros [r [B A]] E. assert (P : exists s, p_reported w mn f m t t' s r).
    { clear E. revert B. induction R as [|s q l rs R _ IH]; intros B; [destruct B|destruct B as [<-|B]; eauto]. }
    destruct P as [s Rs]. destruct (win_ok_valid s r Rs A) as [es [x [_ [T _]]]]. assert (I : In x (tolds true rs)) by (apply Prop_Passing.tolds_in; eauto). rewrite E in I. destruct I.
  - intros N. destruct (tolds true rs) as [|x ts] eqn:E; [destruct (N eq_refl)|]. assert (I : In x (tolds true rs)) by (rewrite E; left; reflexivity). apply Prop_Passing.tolds_in in I as [r [A [B _]]]. eauto.
Qed.
End VALID.

Theorem C90_told_windows ww modulus exponent c hint out t code o t' v : win_ready ww modulus exponent -> short_names ww hint -> win_static ww ->
  win_acquire_license ww c hint out t = Ok ((code, o), t') ->
  win_valid_among ww modulus exponent (feature_of (places ww) (option_map ci_feature c)) (magic_of (option_map ci_magic c)) t (sources (places ww) hint) v ->
  (code = LICENSE_OK <-> v <> []) /\
  forall x y, code = LICENSE_OK -> out = Some x -> o = Some y ->
    exists ts z, Forall2 (describes (places ww) t t') v ts /\ best ts z /\
      license_fields y = (Some (td_expiry z), Some (td_days z), Some (td_has_expiry z), Some (td_linked z), td_proprietary z).
Proof.
  intros RD SH ST H V. destruct (C78_outcome ww modulus exponent hint RD SH _ _ _ _ _ _ H) as [L [rss [log O]]]. pose proof (p_outcome_reports _ _ _ _ _ _ _ _ _ _ _ O) as R.
  destruct (win_reports_valid ww modulus exponent _ _ t t' ST L _ _ R) as [v' [V' D]]. rewrite <- (win_valid_among_fun _ _ _ _ _ _ _ _ V _ V') in D. clear v' V'.
  pose proof (win_told_of_ok _ _ _ _ _ _ _ ST _ _ R) as P.
  assert (Q : code = LICENSE_OK <-> v <> []).
  { rewrite (p_oc_ok _ _ _ _ _ _ _ _ _ _ _ O), in_map_iff. transitivity (tolds true (concat rss) <> []); [rewrite <- P; split; intros [r [A B]]; exists r; auto|]. clear -D. destruct D; [tauto|]. split; intros _; discriminate. }
  split; [exact Q|]. intros x y K E1 E2. destruct (proj1 (p_oc_info _ _ _ _ _ _ _ _ _ _ _ O x y E1 E2)) as [N _ _ _ _ _|z B X1 X2 X3 X4 X5].
  - exfalso. apply (proj1 Q K). assert (T : tolds true (concat rss) = []).
    { clear -N. induction (concat rss) as [|r l IH]; [reflexivity|]. inversion N; subst. unfold tolds. cbn [flat_map]. rewrite H1. apply IH. assumption. }
    rewrite T in D. inversion D. reflexivity.
  - rewrite K in B. exists (tolds true (concat rss)), z. split; [exact D|]. split; [exact B|]. unfold license_fields. rewrite X1, X2, X3, X4, X5. reflexivity.
Qed.
Theorem C90_only_valid_matter_windows ww ww' modulus exponent modulus' exponent' c hint hint' out out' t u code code' o o' t' u' v :
  win_ready ww modulus exponent -> win_ready ww' modulus' exponent' -> short_names ww hint -> short_names ww' hint' -> win_static ww -> win_static ww' -> win_same_judge ww t ww' u ->
  let feature := feature_of (places ww) (option_map ci_feature c) in let magic := magic_of (option_map ci_magic c) in
  win_valid_among ww modulus exponent feature magic t (sources (places ww) hint) v -> win_valid_among ww' modulus' exponent' feature magic u (sources (places ww') hint') v ->
  win_acquire_license ww c hint out t = Ok ((code, o), t') -> win_acquire_license ww' c hint' out' u = Ok ((code', o'), u') ->
  (code = LICENSE_OK <-> code' = LICENSE_OK) /\
  forall x y x' y', code = LICENSE_OK -> out = Some x -> o = Some y -> out' = Some x' -> o' = Some y' -> license_fields y = license_fields y'.
Proof.
  intros RD RD' SH SH' ST ST' J f m V V' H H'. assert (F : feature_of (places ww') (option_map ci_feature c) = f) by (unfold f, feature_of; cbn [places w_project]; rewrite (proj1 J); reflexivity).
  destruct (C90_told_windows ww modulus exponent c hint out t code o t' v RD SH ST H V) as [A B]. destruct (C90_told_windows ww' modulus' exponent' c hint' out' u code' o' u' v RD' SH' ST' H') as [A' B']; [rewrite F; exact V'|]. split; [rewrite A, A'; reflexivity|].
  intros x y x' y' K E1 E2 E3 E4. destruct (B x y K E1 E2) as [ts [z [D [Z1 Z2]]]]. destruct (B' x' y' (proj2 A' (proj1 A K)) E3 E4) as [ts' [z' [D' [Z1' Z2']]]].
  assert (J' : same_judge (places ww) t (places ww') u) by (destruct J as [J1 [J2 [J3 J4]]]; unfold same_judge; cbn [places w_project w_magic w_mktime w_clock w_bio w_key_ok w_verify w_machine]; auto 10).
  assert (ts = ts') as <-.
  { apply win_static_places in ST. apply win_static_places in ST'. clear -D D' J' ST ST'. revert ts' D'. induction D as [|es a v ts D _ IH]; intros ts' D'; inversion D' as [|es' b v' ts'' D1 D2]; subst; [reflexivity|]. rewrite (described_same _ _ t u _ _ _ _ _ _ _ J' ST ST' D D1). f_equal. apply IH, D2. }
  rewrite (best_unique _ _ _ Z1 Z1') in Z2. congruence.
Qed.
Theorem C90_one_more_windows ww ww' modulus exponent c hint hint' out out' t u code code' o o' t' u' a s b :
  win_ready ww modulus exponent -> short_names ww hint -> short_names ww' hint' -> win_static ww -> win_same_surroundings ww ww' ->
  sources (places ww) hint = a ++ b -> sources (places ww') hint' = a ++ s :: b ->
  (forall es, ~ win_valid_source ww modulus exponent (feature_of (places ww) (option_map ci_feature c)) (magic_of (option_map ci_magic c)) t s es) ->
  win_acquire_license ww c hint out t = Ok ((code, o), t') -> win_acquire_license ww' c hint' out' u = Ok ((code', o'), u') ->
  (code = LICENSE_OK <-> code' = LICENSE_OK) /\
  forall x y x' y', code = LICENSE_OK -> out = Some x -> o = Some y -> out' = Some x' -> o' = Some y' -> license_fields y = license_fields y'.
Proof.
  intros RD SH SH' ST SS E E' N H H'. assert (SS' := SS). destruct SS' as [S1 [S2 [S3 [S4 [S5 [S6 [S7 [S8 S9]]]]]]]].
  assert (RD' : win_ready ww' modulus exponent) by (destruct RD as [A B]; split; [rewrite S8; exact A|intros i; rewrite S9; apply B]). assert (ST' : win_static ww') by (intros i j; rewrite S3, S4, S5, S9; apply ST).
  assert (J : win_same_judge ww t ww' u). { unfold win_same_judge. rewrite S1, S2, S5, S6. destruct (ST u t) as [_ [_ [A B]]]. auto. }
  set (f := feature_of (places ww) (option_map ci_feature c)) in *. set (m := magic_of (option_map ci_magic c)) in *.
  assert (VS : forall x es, win_valid_source ww modulus exponent f m t x es <-> win_valid_source ww' modulus exponent f m u x es).
  { intros x es. unfold win_valid_source. destruct (ST u t) as [X1 [X2 [X3 X4]]].
    assert (LS : listed (places ww') x u = listed (places ww) x t) by (destruct x; cbn [listed places w_good]; try reflexivity; rewrite S3, X1; reflexivity).
    assert (SU : forall k, supplies (places ww) t x k <-> supplies (places ww') u x k).
    { intros k. split; intros Y; inversion Y; subst; try (econstructor; eassumption); constructor; cbn [places w_file] in *; [rewrite S4, X2; assumption|rewrite <- X2, <- S4; assumption]. }
    assert (VL : win_valid_license ww modulus exponent f m es (ww_clock ww t) (ww_machine ww t) <-> win_valid_license ww' modulus exponent f m es (ww_clock ww' u) (ww_machine ww' u)).
    { unfold win_valid_license, in_time, dated. cbn [places w_mktime]. rewrite S2, S5, S6, S7, S9, X3, X4. reflexivity. }
    split; intros [k [A [B [C D]]]]; exists k; (split; [congruence|]); (split; [apply SU, B|]); (split; [exact C|]); apply VL, D. }
  destruct (C78_outcome ww modulus exponent hint RD SH _ _ _ _ _ _ H) as [L [rss [log O]]]. destruct (win_reports_valid ww modulus exponent f m t t' ST L _ _ (p_outcome_reports _ _ _ _ _ _ _ _ _ _ _ O)) as [v [V _]].
  eapply (C90_only_valid_matter_windows ww ww' modulus exponent modulus exponent c hint hint' out out' t u code code' o o' t' u' v); try eassumption. fold f m. rewrite E'. rewrite E in V. clear -V VS N.
  revert v V. induction a as [|x a IH]; cbn [app]; intros v V.
  - apply wva_other; [intros es K; apply (N es), VS, K|]. induction V as [|y l es v K V IH|y l v K V IH]; [constructor|apply wva_valid; [apply VS, K|exact IH]|apply wva_other; [intros es Z; apply (K es), VS, Z|exact IH]].
  - inversion V as [|y l es v' K V'|y l v' K V']; subst; [apply wva_valid; [apply VS, K|apply IH, V']|apply wva_other; [intros es Z; apply (K es), VS, Z|apply IH, V']].
Qed.
Print Assumptions C90_told_windows. Print Assumptions C90_only_valid_matter_windows. Print Assumptions C90_one_more_windows.

(** a license for anybody, and one whose signature is bad before it *)
Example C90_case_windows : let ww := pc false true NOW pc_files [("LICENSE_LOCATION"%string, bs "D:\any")] pc_two in let ww' := pc false true NOW pc_files [("LICENSE_LOCATION"%string, bs "D:\bad;D:\any")] pc_two in
  win_static ww /\ win_ready ww (odd_modulus 126) ["001"%char; "000"%char; "001"%char] /\ short_names ww None /\ short_names ww' None /\ win_same_surroundings ww ww' /\
  sources (places ww) None = [] ++ [SFile (bs "D:\any")] /\ sources (places ww') None = [] ++ SFile (bs "D:\bad") :: [SFile (bs "D:\any")] /\
  (forall es, ~ win_valid_source ww (odd_modulus 126) ["001"%char; "000"%char; "001"%char] (bs "demo") (ci_magic (asking "demo")) 0 (SFile (bs "D:\bad")) es) /\
  fields_told (win_acquire_license ww (Some (asking "demo")) None (Some blank_out) 0) = Some (LICENSE_OK, (Some [], Some 9999%Z, Some false, Some false, None)) /\
  fields_told (win_acquire_license ww' (Some (asking "demo")) None (Some blank_out) 3) = Some (LICENSE_OK, (Some [], Some 9999%Z, Some false, Some false, None)).
Proof.
  cbv zeta. split; [intros i j; repeat split|]. assert (RD : forall e, win_ready (pc false true NOW pc_files e pc_two) (odd_modulus 126) ["001"%char; "000"%char; "001"%char]) by (intros e; apply pc_ready; reflexivity).
  split; [apply RD|]. split; [intros s Hs; vm_compute in Hs; destruct Hs as [<-|[]]; vm_compute; lia|]. split; [intros s Hs; vm_compute in Hs; destruct Hs as [<-|[<-|[]]]; vm_compute; lia|].
  split; [repeat split|]. split; [vm_compute; reflexivity|]. split; [vm_compute; reflexivity|]. split; [|split; vm_compute; reflexivity].
  intros es [content [A [B [-> C]]]]. set (w0 := pc false true NOW pc_files [("LICENSE_LOCATION"%string, bs "D:\bad")] pc_two : win_world).
  assert (H : exists o t', win_acquire_license w0 (Some (asking "demo")) None None 0 = Ok ((LICENSE_CORRUPTED, o), t')) by (vm_compute; do 2 eexists; reflexivity). destruct H as [o [t' H]].
  assert (K : LICENSE_CORRUPTED = LICENSE_OK); [|discriminate K].
  assert (SH0 : short_names w0 None) by (intros s Hs; vm_compute in Hs; destruct Hs as [<-|[]]; vm_compute; lia).
  assert (ST0 : win_static w0) by (intros i j; repeat split).
  apply (C78_static_exact w0 _ _ None (RD _) SH0 _ _ 0 _ _ _ ST0 H). exists (SFile (bs "D:\bad")), content. split; [vm_compute; left; reflexivity|]. split; [exact A|]. split; [inversion B; subst; constructor; assumption|]. exact C.
Qed.
