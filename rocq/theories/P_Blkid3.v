From Verif Require Import Base CTypes StringUtils Network Disks P_Base P_Strings Spec_Disks P_Disks P_Blkid P_Blkid2.

Lemma blkid_loop_prefix fuel content oldpos num out m out' m' : parse_blkid_loop fuel content oldpos num out m = Ok (out', m') -> exists new, out' = out ++ new.
Proof.
  revert oldpos num out m; induction fuel as [|fuel IH]; intros oldpos num out m; cbn [parse_blkid_loop]; destruct (str_find _ _ _); try discriminate;
    try (intros [= <- <-]; exists []; rewrite app_nil_r; reflexivity).
  intros H. do 6 (apply rbind_ok in H as [? [_ H]]). apply IH in H as [new ->]. eexists. rewrite <- app_assoc. reflexivity.
Qed.
(** the name of the first device *)
Lemma first_device content ds m pre name rest : parse_blkid content = Ok (ds, m) ->
  first_at (bs "</device>") content (pre ++ ">"%char :: name) rest -> ~ In ">"%char name ->
  exists d ds', ds = d :: ds' /\ dk_device d = firstn 1023 (cstr name).
Proof.
  intros H F Hn. unfold parse_blkid in H. cbn [parse_blkid_loop] in H. rewrite str_find_at in H by lia. cbn [skipn] in H.
  rewrite (find_here_first _ _ _ _ F) in H. cbn [option_map Nat.add] in H. rewrite substr_ok in H by lia. cbn [skipn rbind] in H.
  assert (Ec : firstn (length (pre ++ ">"%char :: name)) content = pre ++ ">"%char :: name) by (destruct F as [E _]; rewrite E at 1; apply firstn_len).
  rewrite Ec in H.
  assert (Ef : find_last (fun c => Ascii.eqb c ">") (pre ++ ">"%char :: name) = Some (length pre)).
  { apply find_last_some. exists pre, ">"%char, name. repeat split; try reflexivity.
    apply forallb_forall. intros c Hc. apply negb_true_iff, Ascii.eqb_neq. intros ->. exact (Hn Hc). }
  rewrite Ef in H. rewrite substr_ok in H by (rewrite app_length; cbn; lia). cbn [rbind] in H.
  replace (skipn (length pre + 1) (pre ++ ">"%char :: name)) with name in H.
  2: { rewrite <- skipn_skipn', skipn_len. reflexivity. }
  rewrite firstn_all2 in H by (rewrite app_length; cbn; lia).
  apply rbind_ok in H as [lab [_ H]]. apply rbind_ok in H as [u [_ H]]. apply rbind_ok in H as [sn [_ H]]. apply rbind_ok in H as [ty [_ H]].
  apply blkid_loop_prefix in H as [new ->]. eexists _, new. split; [reflexivity|]. reflexivity.
Qed.
