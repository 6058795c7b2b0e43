(** What is told about a license depends on the valid licenses only (C90). *)
From Verif Require Import Base CTypes StringUtils Dates Doubles Base64 HwId Registry Ini Network Disks ExecEnv Strategies Locate Licensecc.
From Verif Require Import P_Base Spec_Listing Spec_Strings Spec_Base64 Spec_Dates Spec_Ini Spec_HwId Spec_Hw Spec_Registry Spec_Acquire P_Acquire3 P_Acquire4 P_Acquire5 Spec_Refused.
From Verif Require Import Ex_Acquire Prop_Acquire.
From Verif Require Prop_Passing.
From Coq Require Import Lia.

Lemma valid_source_fun w f m t s a b : valid_source w f m t s a -> valid_source w f m t s b -> a = b.
Proof. intros [c [_ [A [-> _]]]] [c' [_ [B [-> _]]]]. rewrite (supplies_fun _ _ _ _ _ A B). reflexivity. Qed.
Lemma valid_among_fun w f m t l a : valid_among w f m t l a -> forall b, valid_among w f m t l b -> a = b.
Proof.
  induction 1 as [|s l es v V A IH|s l v N A IH]; intros b B; inversion B as [|s' l' es' v' V' B'|s' l' v' N' B']; subst; try reflexivity.
  - rewrite (valid_source_fun _ _ _ _ _ _ _ V V'). f_equal. apply IH, B'.
  - destruct (N' _ V).
  - destruct (N _ V').
  - apply IH, B'.
Qed.
Section ONE.
Variables (w : world) (f : bytes) (m : N) (t t' : nat).
Hypothesis ST : static w.
Hypothesis LE : t <= t'.
Lemma ok_valid s r : reported w f m t t' s r -> rp_code r = LICENSE_OK -> exists es x, valid_source w f m t s es /\ rp_told r = Some x /\ describes w t t' es x.
Proof using ST.
  intros R K. destruct (reported_ok _ _ _ _ _ _ _ R K) as [content [i [j [x [P [G [_ [_ [V [T D]]]]]]]]]]. exists (section_entries content f), x. split; [|auto]. exists content.
  split; [|split; [|split; [reflexivity|]]].
  - destruct s; cbn [present] in P; try reflexivity; destruct P as [k [_ P]]; rewrite (static_listed _ _ _ k ST); exact P.
  - apply given_supplies in G as [k G]. eapply static_supplies; eassumption.
  - destruct (ST i t) as [_ [_ [X _]]]. destruct (ST j t) as [_ [_ [_ Y]]]. rewrite X, Y in V. exact V.
Qed.
Lemma valid_ok s r es : reported w f m t t' s r -> valid_source w f m t s es -> rp_code r = LICENSE_OK.
Proof using ST LE.
  intros R [content [A [B [-> C]]]]. eapply valid_reported; [exact LE| | |exact R].
  - intros i _. rewrite (static_listed _ _ _ t ST). exact A.
  - intros content' i j G _ _. apply given_supplies in G as [k G]. apply (static_supplies _ _ _ t _ ST) in G. rewrite <- (supplies_fun _ _ _ _ _ B G). destruct (ST i t) as [_ [_ [X _]]]. destruct (ST j t) as [_ [_ [_ Y]]]. rewrite X, Y. exact C.
Qed.
Lemma reports_valid l rs : Forall2 (reported w f m t t') l rs -> exists v, valid_among w f m t l v /\ Forall2 (describes w t t') v (tolds true rs).
Proof using ST LE.
  induction 1 as [|s r l rs R _ [v [V D]]]; [exists []; split; constructor|]. destruct (event_eqb (rp_code r) LICENSE_OK) eqn:E.
  - assert (K : rp_code r = LICENSE_OK) by (destruct (rp_code r); first [reflexivity|discriminate E]). destruct (ok_valid s r R K) as [es [x [A [B C]]]]. exists (es :: v). split; [constructor; assumption|]. unfold tolds. cbn [flat_map]. rewrite B, E. cbn. constructor; assumption.
  - exists v. split; [apply va_other; [|exact V]; intros es K; rewrite (valid_ok _ _ _ R K) in E; discriminate E|]. unfold tolds. cbn [flat_map]. rewrite E. destruct (rp_told r); exact D.
Qed.
End ONE.
Lemma described_same w w' t u t1 t1' t2 t2' es a b : same_judge w t w' u -> static w -> static w' -> describes w t1 t1' es a -> describes w' t2 t2' es b -> a = b.
Proof.
  intros [_ [_ [M [_ [_ [_ [C _]]]]]]] S1 S2 [A1 [A2 A3]] [B1 [B2 B3]]. destruct a as [ae ad ah al ap], b as [be bd bh bl bp]. cbn [td_expiry td_days td_has_expiry td_linked td_proprietary] in *.
  assert (al = bl) as -> by (destruct al, bl; try reflexivity; exfalso; intuition discriminate). rewrite A2, B2. destruct (exact_value es (bs "valid-to")) as [d|].
  - destruct A3 as [-> [-> [s [i [q [_ [D [R ->]]]]]]]], B3 as [-> [-> [s' [i' [q' [_ [D' [R' ->]]]]]]]].
    assert (dated w es "valid-to" s') as D2 by (destruct D' as [e [y [mm [dd [X [Y Z]]]]]]; exists e, y, mm, dd; rewrite <- M; auto). rewrite <- (dated_fun _ _ _ _ _ D D2) in R'.
    destruct (S1 i t) as [_ [_ [X _]]]. destruct (S2 i' u) as [_ [_ [Y _]]]. rewrite X in R. rewrite Y, C in R'. rewrite (rounded_unique _ 86400 q q' eq_refl R R'). reflexivity.
  - destruct A3 as [-> [-> ->]], B3 as [-> [-> ->]]. reflexivity.
Qed.

Lemma told_of_ok w f m t t' l rs : static w -> Forall2 (reported w f m t t') l rs -> ((exists r, In r rs /\ rp_code r = LICENSE_OK) <-> tolds true rs <> []).
Proof.
  intros ST R. split.
  - intros [r [B A]] E. assert (P : exists s, reported w f m t t' s r).
    { clear E. revert B. induction R as [|s q l rs R _ IH]; intros B; [destruct B|destruct B as [<-|B]; eauto]. }
    destruct P as [s Rs]. destruct (ok_valid w f m t t' ST s r Rs A) as [es [x [_ [T _]]]]. assert (I : In x (tolds true rs)) by (apply Prop_Passing.tolds_in; eauto). rewrite E in I. destruct I.
  - intros N. destruct (tolds true rs) as [|x ts] eqn:E; [destruct (N eq_refl)|]. assert (I : In x (tolds true rs)) by (rewrite E; left; reflexivity). apply Prop_Passing.tolds_in in I as [r [A [B _]]]. eauto.
Qed.

(** Success and what is told then, in terms of the valid licenses alone: the others have
    no part in it. *)
Theorem C90_told w c hint out t code o t' v : (forall i, order_ok (w_machine w i)) -> static w ->
  acquire_license w c hint out t = Ok ((code, o), t') ->
  valid_among w (feature_of w (option_map ci_feature c)) (magic_of (option_map ci_magic c)) t (sources w hint) v ->
  (code = LICENSE_OK <-> v <> []) /\
  forall x y, code = LICENSE_OK -> out = Some x -> o = Some y ->
    exists ts z, Forall2 (describes w t t') v ts /\ best ts z /\
      license_fields y = (Some (td_expiry z), Some (td_days z), Some (td_has_expiry z), Some (td_linked z), td_proprietary z).
Proof.
  intros HO ST H V. destruct (acquire_outcome _ _ _ _ _ _ _ _ HO H) as [L [rss [log O]]]. pose proof (outcome_reports _ _ _ _ _ _ _ _ _ _ O) as R.
  destruct (reports_valid w _ _ t t' ST L _ _ R) as [v' [V' D]]. rewrite <- (valid_among_fun _ _ _ _ _ _ V _ V') in D. clear v' V'.
  pose proof (told_of_ok _ _ _ _ _ _ _ ST R) as P.
  assert (Q : code = LICENSE_OK <-> v <> []).
  { rewrite (oc_ok _ _ _ _ _ _ _ _ _ _ O), in_map_iff. transitivity (tolds true (concat rss) <> []); [rewrite <- P; split; intros [r [A B]]; exists r; auto|]. clear -D. destruct D; [tauto|]. split; intros _; discriminate. }
  split; [exact Q|]. intros x y K E1 E2. destruct (proj1 (oc_info _ _ _ _ _ _ _ _ _ _ O x y E1 E2)) as [N _ _ _ _ _|z B X1 X2 X3 X4 X5].
  - exfalso. apply (proj1 Q K). assert (T : tolds true (concat rss) = []).
    { clear -N. induction (concat rss) as [|r l IH]; [reflexivity|]. inversion N; subst. unfold tolds. cbn [flat_map]. rewrite H1. apply IH. assumption. }
    rewrite T in D. inversion D. reflexivity.
  - rewrite K in B. exists (tolds true (concat rss)), z. split; [exact D|]. split; [exact B|]. unfold license_fields. rewrite X1, X2, X3, X4, X5. reflexivity.
Qed.
(** Two calls that differ in files, environment, hint or places, but find the same valid
    licenses in the same order, have the same success, and tell the same. *)
Theorem C90_only_valid_matter w w' c hint hint' out out' t u code code' o o' t' u' v :
  (forall i, order_ok (w_machine w i)) -> (forall i, order_ok (w_machine w' i)) -> static w -> static w' -> same_judge w t w' u ->
  let feature := feature_of w (option_map ci_feature c) in let magic := magic_of (option_map ci_magic c) in
  valid_among w feature magic t (sources w hint) v -> valid_among w' feature magic u (sources w' hint') v ->
  acquire_license w c hint out t = Ok ((code, o), t') -> acquire_license w' c hint' out' u = Ok ((code', o'), u') ->
  (code = LICENSE_OK <-> code' = LICENSE_OK) /\
  forall x y x' y', code = LICENSE_OK -> out = Some x -> o = Some y -> out' = Some x' -> o' = Some y' -> license_fields y = license_fields y'.
Proof.
  intros HO HO' ST ST' J f m V V' H H'. assert (F : feature_of w' (option_map ci_feature c) = f) by (unfold f, feature_of; rewrite (proj1 J); reflexivity).
  destruct (C90_told w c hint out t code o t' v HO ST H V) as [A B]. destruct (C90_told w' c hint' out' u code' o' u' v HO' ST' H') as [A' B']; [rewrite F; exact V'|]. split; [rewrite A, A'; reflexivity|].
  intros x y x' y' K E1 E2 E3 E4. destruct (B x y K E1 E2) as [ts [z [D [Z1 Z2]]]]. destruct (B' x' y' (proj2 A' (proj1 A K)) E3 E4) as [ts' [z' [D' [Z1' Z2']]]].
  assert (ts = ts') as <-.
  { clear -D D' J ST ST'. revert ts' D'. induction D as [|es a v ts D _ IH]; intros ts' D'; inversion D' as [|es' b v' ts'' D1 D2]; subst; [reflexivity|]. rewrite (described_same w w' t u _ _ _ _ _ _ _ J ST ST' D D1). f_equal. apply IH, D2. }
  rewrite (best_unique _ _ _ Z1 Z1') in Z2. congruence.
Qed.
(** In particular one source more, anywhere in the order of the search, without a valid
    license: missing, unreadable, forged, expired, for another product or machine. *)
Theorem C90_one_more w w' c hint hint' out out' t u code code' o o' t' u' a s b :
  (forall i, order_ok (w_machine w i)) -> static w -> same_surroundings w w' ->
  sources w hint = a ++ b -> sources w' hint' = a ++ s :: b ->
  (forall es, ~ valid_source w (feature_of w (option_map ci_feature c)) (magic_of (option_map ci_magic c)) t s es) ->
  acquire_license w c hint out t = Ok ((code, o), t') -> acquire_license w' c hint' out' u = Ok ((code', o'), u') ->
  (code = LICENSE_OK <-> code' = LICENSE_OK) /\
  forall x y x' y', code = LICENSE_OK -> out = Some x -> o = Some y -> out' = Some x' -> o' = Some y' -> license_fields y = license_fields y'.
Proof.
  intros HO ST SS E E' N H H'. assert (SS' := SS). destruct SS' as [S1 [S2 [S3 [S4 [S5 [S6 [S7 [S8 [S9 S10]]]]]]]]].
  assert (HO' : forall i, order_ok (w_machine w' i)) by (intros i; rewrite S10; apply HO). assert (ST' : static w') by (intros i j; rewrite S3, S4, S5, S10; apply ST).
  assert (J : same_judge w t w' u). { unfold same_judge. rewrite S1, S2, S5, S6, S7, S8, S9, S10. destruct (ST u t) as [_ [_ [A B]]]. rewrite A, B. repeat (split; [reflexivity|]). reflexivity. }
  set (f := feature_of w (option_map ci_feature c)) in *. set (m := magic_of (option_map ci_magic c)) in *.
  (* valid in one, valid in the other *)
  assert (VS : forall x es, valid_source w f m t x es <-> valid_source w' f m u x es).
  { intros x es. unfold valid_source. destruct (ST u t) as [X1 [X2 [X3 X4]]].
    assert (LS : listed w' x u = listed w x t) by (destruct x; cbn [listed]; try reflexivity; rewrite S3, X1; reflexivity).
    assert (SU : forall k, supplies w t x k <-> supplies w' u x k).
    { intros k. split; intros Y; inversion Y; subst; try (econstructor; eassumption); constructor; [rewrite S4, X2; assumption|rewrite <- X2, <- S4; assumption]. }
    assert (VL : valid_license w f m es (w_clock w t) (w_machine w t) <-> valid_license w' f m es (w_clock w' u) (w_machine w' u)).
    { rewrite S5, S10, X3, X4. split; apply same_valid; [exact SS|]. unfold same_surroundings. rewrite S1, S2, S3, S4, S5, S6, S7, S8, S9, S10. repeat (split; [reflexivity|]). reflexivity. }
    split; intros [k [A [B [C D]]]]; exists k; (split; [congruence|]); (split; [apply SU, B|]); (split; [exact C|]); apply VL, D. }
  destruct (acquire_outcome _ _ _ _ _ _ _ _ HO H) as [L [rss [log O]]]. destruct (reports_valid w f m t t' ST L _ _ (outcome_reports _ _ _ _ _ _ _ _ _ _ O)) as [v [V _]].
  eapply (C90_only_valid_matter w w' c hint hint' out out' t u code code' o o' t' u' v); try eassumption. fold f m. rewrite E'. rewrite E in V. clear -V VS N.
  revert v V. induction a as [|x a IH]; cbn [app]; intros v V.
  - apply va_other; [intros es K; apply (N es), VS, K|]. induction V as [|y l es v K V IH|y l v K V IH]; [constructor|apply va_valid; [apply VS, K|exact IH]|apply va_other; [intros es Z; apply (K es), VS, Z|exact IH]].
  - inversion V as [|y l es v' K V'|y l v' K V']; subst; [apply va_valid; [apply VS, K|apply IH, V']|apply va_other; [intros es Z; apply (K es), VS, Z|apply IH, V']].
Qed.
Print Assumptions C90_told. Print Assumptions C90_only_valid_matter. Print Assumptions C90_one_more.

(** a license beside the executable, /a in LICENSE_LOCATION, and before it /d, for another machine *)
Definition fields_told (r : res ((event_type * option out_info) * nat)) := match r with Ok ((code, Some o), _) => Some (code, license_fields o) | _ => None end.
Example C90_case : let w := demo true true NOW files [("LICENSE_LOCATION"%string, bs "/a")] in let w' := demo true true NOW files [("LICENSE_LOCATION"%string, bs "/d;/a")] in
  static w /\ (forall i, order_ok (w_machine w i)) /\ same_surroundings w w' /\
  sources w None = [SFile (bs "/opt/demo.lic")] ++ [SFile (bs "/a")] /\ sources w' None = [SFile (bs "/opt/demo.lic")] ++ SFile (bs "/d") :: [SFile (bs "/a")] /\
  (forall es, ~ valid_source w (bs "demo") (ci_magic (asking "demo")) 0 (SFile (bs "/d")) es) /\
  fields_told (acquire_license w (Some (asking "demo")) None (Some blank_out) 0) = Some (LICENSE_OK, (Some [], Some 9999%Z, Some false, Some false, Some (bs "hello"))) /\
  fields_told (acquire_license w' (Some (asking "demo")) None (Some blank_out) 3) = Some (LICENSE_OK, (Some [], Some 9999%Z, Some false, Some false, Some (bs "hello"))).
Proof.
  cbv zeta. split; [apply demo_static|]. split; [apply demo_order|]. split; [repeat split|]. split; [vm_compute; reflexivity|]. split; [vm_compute; reflexivity|]. split; [|split; vm_compute; reflexivity].
  intros es [content [A [B [-> C]]]]. set (w0 := demo false false NOW files [] : world).
  assert (H : exists o t', acquire_license w0 (Some (asking "demo")) (Some (hint_of 0 (bs "/d"))) None 0 = Ok ((IDENTIFIERS_MISMATCH, o), t')) by (vm_compute; do 2 eexists; reflexivity). destruct H as [o [t' H]].
  assert (K : IDENTIFIERS_MISMATCH = LICENSE_OK); [|discriminate K]. apply (C02_static_exact w0 _ _ _ 0 _ _ _ (demo_order _ _ _ _ _) (demo_static _ _ _ _ _) H). exists (SFile (bs "/d")), content. split; [vm_compute; left; reflexivity|]. split; [exact A|]. split; [inversion B; subst; constructor; assumption|]. exact C.
Qed.
