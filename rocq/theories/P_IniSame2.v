(** Loading the entries of a document makes a document that cannot be told from it. *)
From Coq Require Import Lia.
From Verif Require Import Base P_Base Ini Spec_Ini P_Ini P_IniSave Spec_IniEdit P_IniDoc P_IniText P_IniMultiText P_IniCom3 P_IniCom4 P_IniSame.

Definition one_each (ls : list eline) : Prop := forall k, length (filter (of_key k) ls) <= 1.
Definition respell (k : bytes) (l : eline) : eline := {| l_key := k; l_comment := l_comment l; l_value := l_value l |}.
Definition regroup (d : edoc) (p : epart) : list eline := flat_map (fun l => map (respell (l_key l)) (if d_multi d then lines_of (l_key l) p else [l])) (first_lines [] (p_lines p)).
Definition regrouped (d : edoc) (p : epart) : epart := {| p_name := p_name p; p_comment := p_comment p; p_lines := regroup d p |}.

Lemma respell_id l : respell (l_key l) l = l.
Proof. destruct l; reflexivity. Qed.
Lemma key_refl l : of_key (l_key l) l = true.
Proof. unfold of_key. apply same_is. reflexivity. Qed.
Lemma one_first ls : one_each ls -> forall seen, (forall l, In l ls -> existsb (same_nameb (l_key l)) seen = false) -> first_lines seen ls = ls.
Proof.
  induction ls as [|a ls IH]; intros O seen N; [reflexivity|]. cbn [first_lines]. rewrite (N a (or_introl eq_refl)). f_equal. apply IH.
  - intros k. specialize (O k). cbn [filter] in O. destruct (of_key k a); cbn [length] in O; lia.
  - intros l I. cbn [existsb]. rewrite (N l (or_intror I)), orb_false_r. apply not_true_iff_false. intros X. specialize (O (l_key a)). cbn [filter] in O. rewrite key_refl in O. cbn [length] in O.
    assert (Y : In l (filter (of_key (l_key a)) ls)) by (apply filter_In; split; [exact I|exact X]). destruct (filter (of_key (l_key a)) ls); [destruct Y|cbn in O; lia].
Qed.
Lemma one_regroup d p : d_multi d = false -> one_each (p_lines p) -> regroup d p = p_lines p.
Proof.
  intros M O. unfold regroup. rewrite M, (one_first _ O []) by reflexivity. induction (p_lines p) as [|l ls IH]; [reflexivity|]. cbn [flat_map]. rewrite IH; [cbn [map app]; rewrite respell_id; reflexivity|]. intros k. specialize (O k). cbn [filter] in O. destruct (of_key k l); cbn [length] in O; lia.
Qed.

(** *** regrouping cannot be told *)
Lemma first_key_in seen ls l : In l (first_lines seen ls) -> existsb (same_nameb (l_key l)) seen = false.
Proof.
  revert seen. induction ls as [|a ls IH]; intros seen; [intros []|]. cbn [first_lines]. destruct (existsb (same_nameb (l_key a)) seen) eqn:E; [apply IH|]. intros [<-|H]; [exact E|]. apply IH in H. cbn [existsb] in H. apply orb_false_iff in H. apply H.
Qed.
Lemma group_length seen ls : length (flat_map (fun l => filter (of_key (l_key l)) ls) (first_lines seen ls)) = length (filter (fun l => negb (existsb (same_nameb (l_key l)) seen)) ls).
Proof.
  revert seen. induction ls as [|a ls IH]; intros seen; [reflexivity|]. cbn [first_lines filter].
  assert (D : forall fl, (forall l, In l fl -> same_nameb (l_key a) (l_key l) = false) -> flat_map (fun l => filter (of_key (l_key l)) (a :: ls)) fl = flat_map (fun l => filter (of_key (l_key l)) ls) fl).
  { induction fl as [|l fl IHf]; intros H; [reflexivity|]. cbn [flat_map filter]. unfold of_key at 1. rewrite (H l (or_introl eq_refl)). f_equal. apply IHf. intros; apply H; right; assumption. }
  destruct (existsb (same_nameb (l_key a)) seen) eqn:E; cbn [negb].
  - etransitivity; [|apply IH]. f_equal. apply D. intros l I. apply first_key_in in I. apply not_true_iff_false. intros X. apply not_true_iff_false in I. apply I. apply existsb_exists in E as (s & S1 & S2). apply existsb_exists. exists s. split; [exact S1|]. rewrite (name_trans _ _ s X). exact S2.
  - cbn [flat_map filter]. rewrite key_refl. rewrite D; [|intros l I; apply first_key_in in I; cbn [existsb] in I; apply orb_false_iff in I as [I _]; rewrite same_sym; exact I]. cbn [length app]. rewrite app_length, IH. f_equal. clear D IH.
    change (length (filter (of_key (l_key a)) ls) + length (filter (fun l => negb (same_nameb (l_key l) (l_key a) || existsb (same_nameb (l_key l)) seen)) ls) = length (filter (fun l => negb (existsb (same_nameb (l_key l)) seen)) ls)).
    induction ls as [|b ls IH]; [reflexivity|]. cbn [filter]. unfold of_key at 1. destruct (same_nameb (l_key b) (l_key a)) eqn:K; cbn [orb negb].
    + assert (X : existsb (same_nameb (l_key b)) seen = false). { rewrite <- E. clear IH E. induction seen as [|s seen IHs]; [reflexivity|]. cbn [existsb]. rewrite IHs. f_equal. symmetry. apply name_trans, K. } rewrite X. cbn [negb length plus]. rewrite <- IH. reflexivity.
    + destruct (existsb (same_nameb (l_key b)) seen); cbn [negb length]; [exact IH|]. rewrite Nat.add_succ_r. rewrite IH. reflexivity.
Qed.
Lemma first_hd seen ls l : In l (first_lines seen ls) -> exists r, filter (of_key (l_key l)) ls = l :: r.
Proof.
  revert seen. induction ls as [|a ls IH]; intros seen; [intros []|]. cbn [first_lines]. destruct (existsb (same_nameb (l_key a)) seen) eqn:E.
  - intros H. pose proof (first_key_in _ _ _ H) as N. cbn [filter]. replace (of_key (l_key l) a) with false; [apply (IH _ H)|]. symmetry. apply not_true_iff_false. intros X. unfold of_key in X. apply not_true_iff_false in N. apply N. apply existsb_exists in E as (s & S1 & S2). apply existsb_exists. exists s. split; [exact S1|]. rewrite (name_trans _ _ s X). exact S2.
  - intros [<-|H]; [cbn [filter]; rewrite key_refl; eauto|]. pose proof (first_key_in _ _ _ H) as N. cbn [existsb] in N. apply orb_false_iff in N as [N _]. cbn [filter]. unfold of_key at 1. rewrite same_sym, N. apply (IH _ H).
Qed.
Definition groups (ls fl : list eline) : list eline := flat_map (fun l => map (respell (l_key l)) (filter (of_key (l_key l)) ls)) fl.
Lemma first_skip k seen a b : existsb (same_nameb k) seen = true -> Forall (fun l => l_key l = k) a -> first_lines seen (a ++ b) = first_lines seen b.
Proof. intros H F. induction F as [|l a E F IH]; [reflexivity|]. cbn [app first_lines]. rewrite E, H. exact IH. Qed.
Fixpoint keys_apart (seen : list bytes) (fl : list eline) : Prop := match fl with [] => True | l :: r => existsb (same_nameb (l_key l)) seen = false /\ keys_apart (l_key l :: seen) r end.
Lemma first_apart seen ls : keys_apart seen (first_lines seen ls).
Proof. revert seen. induction ls as [|a ls IH]; intros seen; [exact I|]. cbn [first_lines]. destruct (existsb (same_nameb (l_key a)) seen) eqn:E; [apply IH|]. split; [exact E|apply IH]. Qed.
Lemma first_groups ls fl : forall seen, keys_apart seen fl -> (forall l, In l fl -> exists r, filter (of_key (l_key l)) ls = l :: r) -> first_lines seen (groups ls fl) = fl.
Proof.
  induction fl as [|l fl IH]; intros seen A H; [reflexivity|]. destruct A as [A1 A2]. destruct (H l (or_introl eq_refl)) as [r E]. unfold groups. cbn [flat_map]. rewrite E. cbn [map app]. rewrite respell_id. cbn [first_lines]. rewrite A1. f_equal.
  rewrite (first_skip (l_key l)); [apply IH; [exact A2|intros; apply H; right; assumption]|cbn [existsb]; replace (same_nameb (l_key l) (l_key l)) with true by (symmetry; apply same_is; reflexivity); reflexivity|]. apply Forall_forall. intros x X. apply in_map_iff in X as (y & <- & _). reflexivity.
Qed.
Lemma filter_group k l xs : filter (of_key k) (map (respell (l_key l)) xs) = if of_key k l then map (respell (l_key l)) xs else [].
Proof. induction xs as [|x xs IH]; [destruct (of_key k l); reflexivity|]. cbn [map filter]. change (of_key k (respell (l_key l) x)) with (of_key k l). rewrite IH. destruct (of_key k l); reflexivity. Qed.
Lemma filter_groups k ls fl : filter (of_key k) (groups ls fl) = groups ls (filter (of_key k) fl).
Proof. induction fl as [|l fl IH]; [reflexivity|]. unfold groups. cbn [flat_map filter]. rewrite filter_app, filter_group. fold (groups ls fl). rewrite IH. destruct (of_key k l); reflexivity. Qed.
Lemma regroup_same d p : d_multi d = true \/ one_each (p_lines p) -> same_lines (p_lines p) (regroup d p).
Proof.
  intros H. destruct (d_multi d) eqn:M; [|destruct H as [H|H]; [discriminate|rewrite (one_regroup d p M H); apply same_refl]]. clear H. unfold regroup. rewrite M. set (ls := p_lines p).
  split; [|split].
  - assert (X : length (groups ls (first_lines [] ls)) = length (flat_map (fun l => filter (of_key (l_key l)) ls) (first_lines [] ls))) by (unfold groups; induction (first_lines [] ls) as [|l fl IH]; [reflexivity|]; cbn [flat_map]; rewrite !app_length, IH, map_length; reflexivity).
    change (flat_map (fun l => map (respell (l_key l)) (lines_of (l_key l) p)) (first_lines [] ls)) with (groups ls (first_lines [] ls)). rewrite X, group_length. cbn [existsb negb]. clear X. induction ls as [|a l IH]; [reflexivity|]. cbn [filter length]. rewrite <- IH. reflexivity.
  - symmetry. apply (first_groups ls); [apply first_apart|]. intros l I. apply (first_hd _ _ _ I).
  - intros k. change (flat_map (fun l => map (respell (l_key l)) (lines_of (l_key l) p)) (first_lines [] ls)) with (groups ls (first_lines [] ls)). rewrite filter_groups, first_lines_one by reflexivity. destruct (filter (of_key k) ls) as [|l r] eqn:E; [reflexivity|]. cbn [firstn]. unfold groups. cbn [flat_map]. rewrite app_nil_r, map_map. cbn.
    assert (K : of_key k l = true) by (apply (filter_In (of_key k) l ls); rewrite E; left; reflexivity). assert (C : filter (of_key (l_key l)) ls = filter (of_key k) ls) by (apply (lines_congr (l_key l) k p), same_is, K). rewrite C, E. reflexivity.
Qed.
