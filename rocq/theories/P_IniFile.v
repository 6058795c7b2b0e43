(** What an INI object leaves in a file. *)
From Coq Require Import Lia.
From Verif Require Import Base P_Base CTypes StringUtils Dates Base64 HwId Registry Ini Network Disks ExecEnv Strategies Locate IniEdit Spec_IniEdit IniCalls IniFile Spec_Ini Spec_Cut P_Cut P_IniEdit11 Prop_IniEdit.

Lemma perform_all_app h h' st l st' : perform_all h st = Ok (l, st') ->
  perform_all (h ++ h') st = '(l', st2) <-- perform_all h' st' ;; Ok (l ++ l', st2).
Proof.
  revert st l. induction h as [|c h IH]; intros st l E.
  - cbn in E. injection E as <- <-. cbn [app]. destruct (perform_all h' st) as [[l' s]| | |]; reflexivity.
  - cbn [app perform_all] in *. unfold ebind in *. destruct (perform c st) as [[a s]| | |]; try discriminate. destruct (perform_all h s) as [[l1 s1]| | |] eqn:F; try discriminate.
    injection E as <- <-. rewrite (IH _ _ F). destruct (perform_all h' s1) as [[l' s2]| | |]; reflexivity.
Qed.
(** an object that calls made can be saved *)
Lemma saves m ml h l st : perform_all h (new_store m ml) = Ok (l, st) -> exists t, save st = Ok t /\ answers m ml (h ++ [CSave]) (l ++ [Written t]).
Proof.
  intros E. destruct (C102_document m ml (h ++ [CSave])) as [s A]. rewrite (perform_all_app _ _ _ _ _ E) in A. cbn [perform_all perform ask] in A. unfold ebind, ask, eret in A.
  destruct (save st) as [t| | |] eqn:T; try discriminate. exists t. split; [reflexivity|]. exists st. rewrite (perform_all_app _ _ _ _ _ E). cbn [perform_all perform]. unfold ebind, ask, eret. rewrite T. reflexivity.
Qed.

Lemma concat_parts sizes t : concat (parts sizes t) = t.
Proof. revert t. induction sizes as [|n r IH]; intros t; cbn [parts concat]; [apply app_nil_r|]. rewrite IH. apply firstn_skipn. Qed.
Lemma taken_all takes : forall l i, (forall j p, nth_error l j = Some p -> length p <= takes (i + j)) -> taken takes i l = concat l.
Proof.
  induction l as [|p l IH]; intros i H; [reflexivity|]. cbn [taken concat]. rewrite firstn_all2 by (specialize (H 0 p eq_refl); rewrite Nat.add_0_r in H; exact H).
  f_equal. apply IH. intros j q Q. specialize (H (S j) q Q). rewrite Nat.add_succ_r in H. exact H.
Qed.
Lemma taken_none takes : forall l i, (forall j, takes (i + j) = 0) -> taken takes i l = [].
Proof.
  induction l as [|p l IH]; intros i H; [reflexivity|]. cbn [taken]. specialize (H 0) as H0. rewrite Nat.add_0_r in H0. rewrite H0. cbn [firstn app]. apply IH. intros j. specialize (H (S j)). rewrite Nat.add_succ_r in H. exact H.
Qed.
Lemma taken_begins takes : forall l i, (forall a b p, a < b -> nth_error l a = Some p -> takes (i + a) < length p -> takes (i + b) = 0) -> begins (taken takes i l) (concat l).
Proof.
  induction l as [|p l IH]; intros i H; [apply begins_nil|]. cbn [taken concat]. destruct (Nat.ltb_spec (takes i) (length p)) as [L|L].
  - rewrite (taken_none takes l (S i)). { rewrite app_nil_r. exists (skipn (takes i) p ++ concat l). rewrite app_assoc, firstn_skipn. reflexivity. }
    intros j. specialize (H 0 (S j) p ltac:(lia) eq_refl). rewrite Nat.add_0_r, Nat.add_succ_r in H. apply H, L.
  - rewrite firstn_all2 by exact L. destruct (IH (S i)) as (x & E). { intros a b q AB Q. specialize (H (S a) (S b) q ltac:(lia) Q). rewrite !Nat.add_succ_r in H. exact H. }
    exists x. rewrite E, app_assoc. reflexivity.
Qed.
Lemma concat_firstn {A} n (l : list (list A)) : exists x, concat l = concat (firstn n l) ++ x.
Proof. exists (concat (skipn n l)). rewrite <- concat_app, firstn_skipn. reflexivity. Qed.
