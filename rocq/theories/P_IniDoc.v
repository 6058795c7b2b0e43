(** Laws of the reference document of Spec_IniEdit.v. *)
From Coq Require Import Lia.
From Verif Require Import Base P_Base Spec_Ini Spec_IniEdit.

Lemma same_refl a : same_nameb a a = true.
Proof. apply beqb_refl. Qed.
Lemma same_is a b : same_nameb a b = true <-> same_name a b.
Proof. unfold same_nameb, same_name. apply beqb_eq. Qed.
Lemma same_congr a b x : same_name a b -> same_nameb x a = same_nameb x b.
Proof. unfold same_nameb, same_name. intros ->. reflexivity. Qed.
Lemma name_congr s s' p : same_name s s' -> of_name s p = of_name s' p.
Proof. apply same_congr. Qed.
Lemma key_congr s s' p : same_name s s' -> of_key s p = of_key s' p.
Proof. apply same_congr. Qed.
Lemma name_apart s s' p : ~ same_name s s' -> of_name s p = true -> of_name s' p = false.
Proof. intros N H. destruct (of_name s' p) eqn:E; [|reflexivity]. exfalso. apply N. apply same_is in H, E. unfold same_name in *. congruence. Qed.
Lemma key_apart s s' p : ~ same_name s s' -> of_key s p = true -> of_key s' p = false.
Proof. intros N H. destruct (of_key s' p) eqn:E; [|reflexivity]. exfalso. apply N. apply same_is in H, E. unfold same_name in *. congruence. Qed.

Lemma find_ext {A} (P Q : A -> bool) l : (forall a, P a = Q a) -> List.find P l = List.find Q l.
Proof. intros H. induction l as [|a l IH]; cbn; [reflexivity|]. rewrite H, IH. reflexivity. Qed.
Lemma filter_ext_all {A} (P Q : A -> bool) l : (forall a, P a = Q a) -> filter P l = filter Q l.
Proof. intros H. apply filter_ext. exact H. Qed.
Lemma part_congr s s' d : same_name s s' -> part_of s d = part_of s' d.
Proof. intros H. apply find_ext. intros p. apply name_congr. exact H. Qed.
Lemma lines_congr k k' p : same_name k k' -> lines_of k p = lines_of k' p.
Proof. intros H. apply filter_ext_all. intros l. apply key_congr. exact H. Qed.
Lemma values_congr s s' k k' d : same_name s s' -> same_name k k' -> values_of s k d = values_of s' k' d.
Proof. intros HS HK. unfold values_of. rewrite (part_congr s s' d HS). destruct (part_of s' d) as [p|]; [|reflexivity]. rewrite (lines_congr k k' p HK). reflexivity. Qed.

Lemma find_change_same {A} (P : A -> bool) f l : (forall a, P (f a) = P a) -> List.find P (change_first P f l) = option_map f (List.find P l).
Proof.
  intros H. induction l as [|a l IH]; cbn; [reflexivity|]. destruct (P a) eqn:E; cbn; [rewrite H, E; reflexivity|]. rewrite E. exact IH.
Qed.
Lemma find_change_other {A} (P Q : A -> bool) f l : (forall a, P a = true -> Q a = false /\ Q (f a) = false) -> List.find Q (change_first P f l) = List.find Q l.
Proof.
  intros H. induction l as [|a l IH]; cbn; [reflexivity|]. destruct (P a) eqn:E; cbn; [destruct (H a E) as [-> ->]; reflexivity|]. rewrite IH. reflexivity.
Qed.
Lemma filter_change_other {A} (P Q : A -> bool) f l : (forall a, P a = true -> Q a = false /\ Q (f a) = false) -> filter Q (change_first P f l) = filter Q l.
Proof.
  intros H. induction l as [|a l IH]; cbn; [reflexivity|]. destruct (P a) eqn:E; cbn; [destruct (H a E) as [-> ->]; reflexivity|]. rewrite IH. reflexivity.
Qed.
Lemma filter_change_same {A} (P : A -> bool) f l : (forall a, P (f a) = P a) -> filter P (change_first P f l) = match filter P l with [] => [] | a :: r => f a :: r end.
Proof.
  intros H. induction l as [|a l IH]; cbn; [reflexivity|]. destruct (P a) eqn:E; cbn; [rewrite H, E; reflexivity|]. rewrite E. exact IH.
Qed.
Lemma filter_filter_none {A} (P : A -> bool) l : filter P (filter (fun b => negb (P b)) l) = [].
Proof. induction l as [|a l IH]; cbn; [reflexivity|]. destruct (P a) eqn:E; cbn; [exact IH|]. rewrite E. exact IH. Qed.
Lemma filter_filter_other {A} (P Q : A -> bool) l : (forall a, P a = true -> Q a = false) -> filter Q (filter (fun b => negb (P b)) l) = filter Q l.
Proof.
  intros H. induction l as [|a l IH]; cbn; [reflexivity|]. destruct (P a) eqn:E; cbn; [rewrite (H a E); exact IH|]. rewrite IH. reflexivity.
Qed.
Lemma filter_only_same {A} (P : A -> bool) f l : (forall a, P a = true -> P (f a) = true) -> filter P (only_first P f l) = match filter P l with [] => [] | a :: _ => [f a] end.
Proof.
  intros H. induction l as [|a l IH]; cbn; [reflexivity|]. destruct (P a) eqn:E; cbn; [rewrite (H a E), filter_filter_none; reflexivity|]. rewrite E. exact IH.
Qed.
Lemma filter_only_other {A} (P Q : A -> bool) f l : (forall a, P a = true -> Q a = false /\ Q (f a) = false) -> filter Q (only_first P f l) = filter Q l.
Proof.
  intros H. induction l as [|a l IH]; cbn; [reflexivity|]. destruct (P a) eqn:E; cbn.
  - destruct (H a E) as [-> ->]. apply filter_filter_other. intros b Hb. apply (H b Hb).
  - rewrite IH. reflexivity.
Qed.
Lemma exists_filter {A} (P : A -> bool) l : existsb P l = match filter P l with [] => false | _ => true end.
Proof. induction l as [|a l IH]; cbn; [reflexivity|]. destruct (P a); [reflexivity|exact IH]. Qed.

(** ** giving a value *)
Lemma give_same multi force k v c ls :
  filter (of_key k) (give multi force k v c ls) =
  match filter (of_key k) ls with
  | [] => [{| l_key := k; l_comment := c; l_value := v |}]
  | a :: r => if multi then if force then [{| l_key := k; l_comment := match l_comment a with Some x => Some x | None => c end; l_value := v |}]
                            else (a :: r) ++ [{| l_key := k; l_comment := c; l_value := v |}]
              else {| l_key := l_key a; l_comment := l_comment a; l_value := v |} :: r
  end.
Proof.
  unfold give. rewrite exists_filter. destruct (filter (of_key k) ls) as [|a r] eqn:E.
  - rewrite filter_app, E. cbn [filter]. unfold of_key. cbn [l_key]. rewrite same_refl. reflexivity.
  - destruct multi; [destruct force|].
    + rewrite filter_only_same, E; [reflexivity|]. intros x _. unfold of_key. cbn. apply same_refl.
    + rewrite filter_app, E. cbn [filter]. unfold of_key. cbn [l_key]. rewrite same_refl. reflexivity.
    + rewrite filter_change_same, E; [reflexivity|]. intros x. reflexivity.
Qed.
Lemma give_other multi force k k' v c ls : ~ same_name k k' -> filter (of_key k') (give multi force k v c ls) = filter (of_key k') ls.
Proof.
  intros N. assert (NK : same_nameb k k' = false) by (destruct (same_nameb k k') eqn:E; [apply same_is in E; contradiction|reflexivity]).
  unfold give. destruct (existsb (of_key k) ls); [destruct multi; [destruct force|]|].
  - apply filter_only_other. intros a H. split; [apply (key_apart k); assumption|]. exact NK.
  - rewrite filter_app. cbn [filter]. replace (of_key k' {| l_key := k; l_comment := c; l_value := v |}) with false by (symmetry; exact NK). rewrite app_nil_r. reflexivity.
  - apply filter_change_other. intros a H. split; [apply (key_apart k); assumption|]. exact (key_apart k k' a N H).
  - rewrite filter_app. cbn [filter]. replace (of_key k' {| l_key := k; l_comment := c; l_value := v |}) with false by (symmetry; exact NK). rewrite app_nil_r. reflexivity.
Qed.

Lemma find_with_part s s' c ps : List.find (of_name s') (with_part s c ps) =
  match List.find (of_name s') ps with
  | Some p => Some p
  | None => if existsb (of_name s) ps then None else if same_nameb s s' then Some {| p_name := s; p_comment := c; p_lines := [] |} else None
  end.
Proof.
  unfold with_part. destruct (existsb (of_name s) ps) eqn:E; [destruct (List.find (of_name s') ps); reflexivity|].
  clear E. induction ps as [|p ps IH]; cbn; [reflexivity|]. destruct (of_name s' p); [reflexivity|exact IH].
Qed.
Lemma exists_find {A} (P : A -> bool) l : existsb P l = match List.find P l with Some _ => true | None => false end.
Proof. induction l as [|a l IH]; cbn; [reflexivity|]. destruct (P a); [reflexivity|exact IH]. Qed.
Definition lines_at (s : bytes) (d : edoc) : list eline := match part_of s d with Some p => p_lines p | None => [] end.
Lemma values_at s k d : values_of s k d = (if d_multi d then filter (of_key k) (lines_at s d) else firstn 1 (filter (of_key k) (lines_at s d))).
Proof. unfold values_of, lines_at, lines_of. destruct (part_of s d); [reflexivity|]. cbn. destruct (d_multi d); reflexivity. Qed.
Lemma set_multi_same s kv c force d : d_multi (set_doc s kv c force d) = d_multi d.
Proof. unfold set_doc. destruct kv as [[? ?]|]; reflexivity. Qed.
Lemma lines_set_same s k v c force d : lines_at s (set_doc s (Some (k, v)) c force d) = give (d_multi d) force k v c (lines_at s d).
Proof.
  unfold lines_at, part_of, set_doc. cbn [d_parts with_parts]. rewrite find_change_same by reflexivity. rewrite find_with_part, same_refl, exists_find.
  destruct (List.find (of_name s) (d_parts d)) as [p|]; reflexivity.
Qed.
Lemma lines_set_other s s' k v c force d : ~ same_name s s' -> lines_at s' (set_doc s (Some (k, v)) c force d) = lines_at s' d.
Proof.
  intros N. assert (NS : same_nameb s s' = false) by (destruct (same_nameb s s') eqn:E; [apply same_is in E; contradiction|reflexivity]).
  unfold lines_at, part_of, set_doc. cbn [d_parts with_parts]. rewrite (find_change_other (of_name s)).
  - rewrite find_with_part, NS. destruct (List.find (of_name s') (d_parts d)); [reflexivity|]. destruct (existsb _ _); reflexivity.
  - intros p H. split; apply (name_apart s s' _ N); exact H.
Qed.
Lemma lines_set_section s s' c force d : lines_at s' (set_doc s None c force d) = lines_at s' d.
Proof.
  unfold lines_at, part_of, set_doc. cbn [d_parts with_parts]. rewrite find_with_part. destruct (List.find (of_name s') (d_parts d)); [reflexivity|].
  destruct (existsb _ _); [reflexivity|]. destruct (same_nameb s s'); reflexivity.
Qed.

(** ** deleting *)
Lemma delete_multi s k prune d : d_multi (snd (delete_doc s k prune d)) = d_multi d.
Proof.
  unfold delete_doc. destruct (part_of s d) as [p|]; [|reflexivity]. destruct k as [k|]; [|reflexivity].
  destruct (existsb _ _); [|reflexivity]. destruct (prune && _); reflexivity.
Qed.
Lemma find_drop_same s ps : List.find (of_name s) (filter (fun q => negb (of_name s q)) ps) = None.
Proof. induction ps as [|p ps IH]; cbn; [reflexivity|]. destruct (of_name s p) eqn:E; cbn; [exact IH|]. rewrite E. exact IH. Qed.
Lemma find_drop_other s s' ps : ~ same_name s s' -> List.find (of_name s') (filter (fun q => negb (of_name s q)) ps) = List.find (of_name s') ps.
Proof.
  intros N. induction ps as [|p ps IH]; cbn; [reflexivity|]. destruct (of_name s p) eqn:E; cbn; [rewrite (name_apart s s' p N E); exact IH|]. rewrite IH. reflexivity.
Qed.
Lemma lines_delete_key s k prune d : lines_at s (snd (delete_doc s (Some k) prune d)) = filter (fun l => negb (of_key k l)) (lines_at s d).
Proof.
  unfold delete_doc, lines_at. destruct (part_of s d) as [p|] eqn:EP; [|cbn [snd]; rewrite EP; reflexivity].
  destruct (existsb (of_key k) (p_lines p)) eqn:EX.
  - destruct (prune && _) eqn:PR; cbn [snd].
    + unfold part_of. cbn [d_parts with_parts]. rewrite find_drop_same. apply andb_true_iff in PR. destruct PR as [_ PR]. destruct (filter (fun l => negb (of_key k l)) (p_lines p)); [reflexivity|discriminate].
    + unfold part_of in *. cbn [d_parts with_parts]. rewrite find_change_same by reflexivity. rewrite EP. reflexivity.
  - cbn [snd]. rewrite EP. symmetry. clear EP. induction (p_lines p) as [|l ls IH]; cbn in *; [reflexivity|]. apply orb_false_iff in EX. destruct EX as [-> EX]. cbn. rewrite (IH EX). reflexivity.
Qed.
Lemma lines_delete_other s s' k prune d : ~ same_name s s' -> lines_at s' (snd (delete_doc s k prune d)) = lines_at s' d.
Proof.
  intros N. unfold delete_doc, lines_at. destruct (part_of s d) as [p|] eqn:EP; [|reflexivity].
  assert (DROP : List.find (of_name s') (d_parts (with_parts (filter (fun q => negb (of_name s q)) (d_parts d)) d)) = part_of s' d) by (cbn; apply (find_drop_other s s' _ N)).
  destruct k as [k|]; [|cbn [snd]; unfold part_of at 1; rewrite DROP; reflexivity].
  destruct (existsb (of_key k) (p_lines p)); [|reflexivity]. destruct (prune && _); cbn [snd]; unfold part_of at 1; [rewrite DROP; reflexivity|].
  cbn [d_parts with_parts]. rewrite (find_change_other (of_name s)); [reflexivity|]. intros q H. split; apply (name_apart s s' _ N); exact H.
Qed.
Lemma lines_delete_section s prune d : lines_at s (snd (delete_doc s None prune d)) = [].
Proof.
  unfold delete_doc, lines_at. destruct (part_of s d) as [p|] eqn:EP; [|cbn [snd]; rewrite EP; reflexivity]. cbn [snd]. unfold part_of. cbn [d_parts with_parts]. rewrite find_drop_same. reflexivity.
Qed.

Lemma expect_app h h' d : expect_all (h ++ h') d =
  (fst (expect_all h d) ++ fst (expect_all h' (snd (expect_all h d))), snd (expect_all h' (snd (expect_all h d)))).
Proof.
  revert d. induction h as [|c h IH]; intros d; cbn; [destruct (expect_all h' d); reflexivity|]. destruct (expect c d) as [a d1]. rewrite (IH d1).
  destruct (expect_all h d1) as [l d2]. reflexivity.
Qed.
