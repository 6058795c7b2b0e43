(** Documents that no caller can tell apart. *)
From Coq Require Import Lia.
From Verif Require Import Base P_Base Spec_Ini P_Ini P_IniSave Spec_IniEdit P_IniDoc P_IniText.

Definition same_lines (a b : list eline) : Prop :=
  length a = length b /\ first_lines [] a = first_lines [] b /\ forall k, map value_told (filter (of_key k) a) = map value_told (filter (of_key k) b).
Definition same_part (p q : epart) : Prop := p_name p = p_name q /\ p_comment p = p_comment q /\ same_lines (p_lines p) (p_lines q).
Definition same_doc (d e : edoc) : Prop :=
  d_multi d = d_multi e /\ d_multiline d = d_multiline e /\ d_spaces d = d_spaces e /\ d_comment d = d_comment e /\ Forall2 same_part (d_parts d) (d_parts e).

(** ** lines *)
Lemma same_exists a b k : same_lines a b -> existsb (of_key k) a = existsb (of_key k) b.
Proof.
  intros (_ & _ & H). specialize (H k). apply (f_equal (@length _)) in H. rewrite !map_length in H.
  assert (X : forall l, existsb (of_key k) l = negb (Nat.eqb (length (filter (of_key k) l)) 0)). { induction l as [|x l IH]; [reflexivity|]. cbn [existsb filter]. destruct (of_key k x); [reflexivity|exact IH]. }
  rewrite !X, H. reflexivity.
Qed.
Lemma of_key_same k k' l : same_nameb (l_key l) k = true -> of_key k' l = same_nameb k k'.
Proof. intros H. unfold of_key. symmetry. apply name_trans, H. Qed.
Lemma first_snoc ls l : forall seen, first_lines seen (ls ++ [l]) = first_lines seen ls ++ (if existsb (same_nameb (l_key l)) seen || existsb (of_key (l_key l)) ls then [] else [l]).
Proof.
  induction ls as [|a ls IH]; intros seen; cbn [app first_lines existsb].
  - rewrite orb_false_r. destruct (existsb _ seen); reflexivity.
  - destruct (existsb (same_nameb (l_key a)) seen) eqn:E.
    + rewrite IH. f_equal. destruct (of_key (l_key l) a) eqn:K; [|reflexivity]. cbn [orb]. rewrite orb_true_r. unfold of_key in K. assert (X : existsb (same_nameb (l_key l)) seen = true); [|rewrite X; reflexivity].
      apply existsb_exists in E as (s & I & E). apply existsb_exists. exists s. split; [exact I|]. rewrite (name_trans (l_key a) (l_key l) s K). exact E.
    + rewrite IH. cbn [app existsb]. f_equal. f_equal. unfold of_key at 2. rewrite (same_sym (l_key l) (l_key a)). destruct (same_nameb (l_key a) (l_key l)), (existsb (same_nameb (l_key l)) seen); reflexivity.
Qed.
Lemma same_add a b l : same_lines a b -> same_lines (a ++ [l]) (b ++ [l]).
Proof.
  intros S0. pose proof (same_exists a b (l_key l) S0) as X. destruct S0 as (L & F & V). split; [rewrite !app_length; lia|]. split; [rewrite !first_snoc, F, X; reflexivity|]. intros k. rewrite !filter_app, !map_app, V. reflexivity.
Qed.
Definition keeps (key : bytes) (f : eline -> eline) : Prop := forall l, of_key key l = true -> of_key key (f l) = true.
Lemma seen_same k f seen l : keeps k f -> of_key k l = true -> existsb (same_nameb (l_key (f l))) seen = existsb (same_nameb (l_key l)) seen.
Proof.
  intros KF K. pose proof (KF l K) as K'. unfold of_key in K, K'. induction seen as [|s seen IH]; [reflexivity|]. cbn [existsb]. rewrite IH. f_equal. rewrite <- (name_trans _ _ s K), <- (name_trans _ _ s K'). reflexivity.
Qed.
Lemma first_seen_same k f ls l : keeps k f -> of_key k l = true -> forall pre seen, first_lines (pre ++ l_key (f l) :: seen) ls = first_lines (pre ++ l_key l :: seen) ls.
Proof.
  intros KF K. pose proof (KF l K) as K'. unfold of_key in K, K'. induction ls as [|a ls IH]; intros pre seen; [reflexivity|]. cbn [first_lines]. assert (E : existsb (same_nameb (l_key a)) (pre ++ l_key (f l) :: seen) = existsb (same_nameb (l_key a)) (pre ++ l_key l :: seen)).
  { rewrite !existsb_app. cbn [existsb]. f_equal. f_equal. rewrite (same_sym (l_key a)), (same_sym (l_key a) (l_key l)), <- (name_trans _ _ (l_key a) K), <- (name_trans _ _ (l_key a) K'). reflexivity. }
  rewrite E. destruct (existsb _ (pre ++ l_key l :: seen)); [apply IH|]. f_equal. apply (IH (l_key a :: pre)).
Qed.
Lemma first_change k f ls : keeps k f -> forall seen, existsb (fun s => same_nameb k s) seen = false -> first_lines seen (change_first (of_key k) f ls) = change_first (of_key k) f (first_lines seen ls).
Proof.
  intros KF. induction ls as [|a ls IH]; intros seen N; [reflexivity|]. cbn [change_first]. destruct (of_key k a) eqn:K.
  - cbn [first_lines]. rewrite (seen_same k f seen a KF K). assert (E : existsb (same_nameb (l_key a)) seen = false).
    { rewrite <- N. clear N IH. induction seen as [|s seen IH]; [reflexivity|]. cbn [existsb]. rewrite IH. f_equal. unfold of_key in K. symmetry. apply name_trans, K. }
    rewrite E. cbn [change_first]. rewrite K. f_equal. apply (first_seen_same k f ls a KF K []).
  - cbn [first_lines]. destruct (existsb (same_nameb (l_key a)) seen); [apply IH, N|]. cbn [change_first]. rewrite K. f_equal. apply IH. cbn [existsb]. rewrite N. unfold of_key in K. rewrite same_sym, K. reflexivity.
Qed.
Lemma filter_change k f ls j : keeps k f -> filter (of_key j) (change_first (of_key k) f ls) = if same_nameb k j then change_first (of_key k) f (filter (of_key j) ls) else filter (of_key j) ls.
Proof.
  intros KF. induction ls as [|a ls IH]; [destruct (same_nameb k j); reflexivity|]. cbn [change_first]. destruct (of_key k a) eqn:K; cbn [filter].
  - rewrite (of_key_same k j a K), (of_key_same k j (f a) (KF a K)). destruct (same_nameb k j); [|reflexivity]. cbn [change_first]. rewrite K. reflexivity.
  - rewrite IH. destruct (same_nameb k j) eqn:E; [|reflexivity]. destruct (of_key j a) eqn:J; [|reflexivity]. exfalso. unfold of_key in *. rewrite same_sym in E, K, J. rewrite (name_trans j k (l_key a) E) in K. congruence.
Qed.

Lemma first_only k f ls : keeps k f -> forall seen, existsb (fun s => same_nameb k s) seen = false -> first_lines seen (only_first (of_key k) f ls) = change_first (of_key k) f (first_lines seen ls).
Proof.
  intros KF.
  assert (D : forall ls seen, existsb (fun s => same_nameb k s) seen = true -> first_lines seen (filter (fun b => negb (of_key k b)) ls) = first_lines seen ls).
  { clear ls. induction ls as [|a ls IH]; intros seen H; [reflexivity|]. cbn [filter]. destruct (of_key k a) eqn:K; cbn [negb first_lines].
    - replace (existsb (same_nameb (l_key a)) seen) with true; [apply IH, H|]. rewrite <- H. clear H IH. induction seen as [|s seen IH]; [reflexivity|]. cbn [existsb]. rewrite IH. f_equal. unfold of_key in K. apply name_trans, K.
    - destruct (existsb (same_nameb (l_key a)) seen); [apply IH, H|]. f_equal. apply IH. cbn [existsb]. rewrite H, orb_true_r. reflexivity. }
  induction ls as [|a ls IH]; intros seen N; [reflexivity|]. cbn [only_first]. destruct (of_key k a) eqn:K.
  - cbn [first_lines]. rewrite (seen_same k f seen a KF K). assert (E : existsb (same_nameb (l_key a)) seen = false).
    { rewrite <- N. clear N IH. induction seen as [|s seen IH]; [reflexivity|]. cbn [existsb]. rewrite IH. f_equal. unfold of_key in K. symmetry. apply name_trans, K. }
    rewrite E. cbn [change_first]. rewrite K. f_equal. etransitivity; [apply (first_seen_same k f _ a KF K [])|]. apply D. cbn [app existsb]. unfold of_key in K. rewrite same_sym, K. reflexivity.
  - cbn [first_lines]. destruct (existsb (same_nameb (l_key a)) seen); [apply IH, N|]. cbn [change_first]. rewrite K. f_equal. apply IH. cbn [existsb]. rewrite N. unfold of_key in K. rewrite same_sym, K. reflexivity.
Qed.
Lemma filter_not k j ls : filter (of_key j) (filter (fun b => negb (of_key k b)) ls) = if same_nameb k j then [] else filter (of_key j) ls.
Proof.
  induction ls as [|a ls IH]; [destruct (same_nameb k j); reflexivity|]. cbn [filter]. destruct (of_key k a) eqn:K; cbn [negb filter]; rewrite IH.
  - rewrite (of_key_same k j a K). destruct (same_nameb k j); reflexivity.
  - destruct (same_nameb k j) eqn:E; [|reflexivity]. destruct (of_key j a) eqn:J; [|reflexivity]. exfalso. unfold of_key in *. rewrite same_sym in E, K, J. rewrite (name_trans j k (l_key a) E) in K. congruence.
Qed.
Lemma filter_only k f ls j : keeps k f -> filter (of_key j) (only_first (of_key k) f ls) = if same_nameb k j then firstn 1 (change_first (of_key k) f (filter (of_key j) ls)) else filter (of_key j) ls.
Proof.
  intros KF. induction ls as [|a ls IH]; [destruct (same_nameb k j); reflexivity|]. cbn [only_first]. destruct (of_key k a) eqn:K; cbn [filter].
  - rewrite (of_key_same k j a K), (of_key_same k j (f a) (KF a K)), filter_not. destruct (same_nameb k j); [|reflexivity]. cbn [change_first]. rewrite K. reflexivity.
  - rewrite IH. destruct (same_nameb k j) eqn:E; [|reflexivity]. destruct (of_key j a) eqn:J; [|reflexivity]. exfalso. unfold of_key in *. rewrite same_sym in E, K, J. rewrite (name_trans j k (l_key a) E) in K. congruence.
Qed.
Lemma change_length {A} P (f : A -> A) l : length (change_first P f l) = length l.
Proof. induction l as [|a l IH]; [reflexivity|]. cbn. destruct (P a); cbn; [reflexivity|rewrite IH; reflexivity]. Qed.
Lemma only_length {A} P (f : A -> A) l : length (only_first P f l) + length (filter P l) = length l + (if existsb P l then 1 else 0).
Proof.
  assert (N : forall l, length (filter (fun b => negb (P b)) l) + length (filter P l) = length l) by (clear l; induction l as [|a l IH]; [reflexivity|]; cbn [filter]; destruct (P a); cbn [negb length] in *; lia).
  induction l as [|a l IH]; [reflexivity|]. cbn [only_first filter existsb]. destruct (P a); cbn [orb length] in *; [specialize (N l); lia|lia].
Qed.
(** changing the first line of a key: what is told afterwards depends on what was told *)
Lemma change_told k (f : eline -> eline) a b : keeps k f -> (forall x y, value_told x = value_told y -> value_told (f x) = value_told (f y)) ->
  Forall (fun l => of_key k l = true) a -> Forall (fun l => of_key k l = true) b -> map value_told a = map value_told b ->
  map value_told (change_first (of_key k) f a) = map value_told (change_first (of_key k) f b).
Proof.
  intros KF G A B H. destruct a as [|x a], b as [|y b]; try discriminate; [reflexivity|]. cbn [change_first]. rewrite (Forall_inv A), (Forall_inv B). cbn [map] in *. injection H as H1 H2 H3. f_equal; [apply G; unfold value_told; congruence|exact H3].
Qed.
Lemma filter_keys k j ls : same_nameb k j = true -> Forall (fun l => of_key k l = true) (filter (of_key j) ls).
Proof. intros E. apply Forall_forall. intros l I. apply filter_In in I as [_ I]. unfold of_key in *. rewrite same_sym in E. rewrite same_sym in I. rewrite same_sym. rewrite (name_trans j k (l_key l) E). exact I. Qed.
Lemma same_change k f a b : keeps k f -> (forall x y, value_told x = value_told y -> value_told (f x) = value_told (f y)) -> same_lines a b -> same_lines (change_first (of_key k) f a) (change_first (of_key k) f b).
Proof.
  intros KF G (L & F & V). split; [rewrite !change_length; exact L|]. split; [rewrite !(first_change k f _ KF [] eq_refl), F; reflexivity|]. intros j. rewrite !(filter_change k f _ j KF). destruct (same_nameb k j) eqn:E; [|apply V]. apply change_told; [exact KF|exact G|apply filter_keys, E|apply filter_keys, E|apply V].
Qed.
Lemma same_only k f a b : keeps k f -> (forall x y, value_told x = value_told y -> value_told (f x) = value_told (f y)) -> same_lines a b -> same_lines (only_first (of_key k) f a) (only_first (of_key k) f b).
Proof.
  intros KF G S0. pose proof (same_exists a b k S0) as X. destruct S0 as (L & F & V). split.
  - pose proof (only_length (of_key k) f a). pose proof (only_length (of_key k) f b). rewrite X in *. specialize (V k). apply (f_equal (@length _)) in V. rewrite !map_length in V. lia.
  - split; [rewrite !(first_only k f _ KF [] eq_refl), F; reflexivity|]. intros j. rewrite !(filter_only k f _ j KF). destruct (same_nameb k j) eqn:E; [|apply V]. rewrite <- !firstn_map. f_equal. apply change_told; [exact KF|exact G|apply filter_keys, E|apply filter_keys, E|apply V].
Qed.
Lemma same_give multi force k v c a b : same_lines a b -> same_lines (give multi force k v c a) (give multi force k v c b).
Proof.
  intros S0. unfold give. rewrite (same_exists a b k S0). destruct (existsb (of_key k) b); [|apply same_add, S0]. destruct multi; [destruct force|].
  - apply same_only; [|intros x y H; unfold value_told in *; cbn; injection H as _ H2; rewrite H2; reflexivity|exact S0]. intros l _. unfold of_key. cbn. apply same_is. reflexivity.
  - apply same_add, S0.
  - apply same_change; [|intros x y H; unfold value_told in *; cbn; injection H as _ H2; rewrite H2; reflexivity|exact S0]. intros l K. exact K.
Qed.
Lemma first_not k ls : forall seen, first_lines seen (filter (fun l => negb (of_key k l)) ls) = filter (fun l => negb (of_key k l)) (first_lines seen ls).
Proof.
  induction ls as [|a ls IH]; intros seen; [reflexivity|]. cbn [filter first_lines]. destruct (of_key k a) eqn:K; cbn [negb].
  - destruct (existsb (same_nameb (l_key a)) seen); [apply IH|]. cbn [filter]. rewrite K. cbn [negb]. rewrite <- IH.
    clear IH. assert (D : forall pre, first_lines (pre ++ seen) (filter (fun l => negb (of_key k l)) ls) = first_lines (pre ++ l_key a :: seen) (filter (fun l => negb (of_key k l)) ls)); [|apply (D [])].
    induction ls as [|b ls IH]; intros pre; [reflexivity|]. cbn [filter]. destruct (of_key k b) eqn:KB; cbn [negb]; [apply IH|]. cbn [first_lines]. rewrite !existsb_app. cbn [existsb].
    replace (same_nameb (l_key b) (l_key a)) with false; [|symmetry; unfold of_key in *; rewrite same_sym, <- (name_trans _ _ (l_key b) K), same_sym; exact KB]. cbn [orb]. destruct (_ || _); [apply IH|]. f_equal. apply (IH (l_key b :: pre)).
  - cbn [first_lines]. destruct (existsb (same_nameb (l_key a)) seen); [apply IH|]. cbn [filter]. rewrite K. cbn [negb]. f_equal. apply IH.
Qed.
Lemma same_not k a b : same_lines a b -> same_lines (filter (fun l => negb (of_key k l)) a) (filter (fun l => negb (of_key k l)) b).
Proof.
  intros (L & F & V). assert (N : forall l, length (filter (fun b => negb (of_key k b)) l) + length (filter (of_key k) l) = length l) by (induction l as [|x l IH]; [reflexivity|]; cbn [filter]; destruct (of_key k x); cbn [negb length] in *; lia).
  split; [pose proof (N a); pose proof (N b); pose proof (f_equal (@length _) (V k)) as X; rewrite !map_length in X; lia|]. split; [rewrite !first_not, F; reflexivity|]. intros j. rewrite !filter_not. destruct (same_nameb k j); [reflexivity|apply V].
Qed.
Lemma same_refl a : same_lines a a.
Proof. split; [reflexivity|]. split; reflexivity. Qed.

(** ** documents *)
Lemma same_named n p q : same_part p q -> of_name n p = of_name n q.
Proof. intros (N & _). unfold of_name. rewrite N. reflexivity. Qed.
Lemma same_has n ps qs : Forall2 same_part ps qs -> existsb (of_name n) ps = existsb (of_name n) qs.
Proof. induction 1 as [|p q ps qs H _ IH]; [reflexivity|]. cbn. rewrite IH, (same_named n p q H). reflexivity. Qed.
Lemma same_find n ps qs : Forall2 same_part ps qs -> match List.find (of_name n) ps, List.find (of_name n) qs with Some p, Some q => same_part p q | None, None => True | _, _ => False end.
Proof. induction 1 as [|p q ps qs H _ IH]; [exact I|]. cbn. rewrite (same_named n p q H). destruct (of_name n q); [exact H|exact IH]. Qed.
Lemma same_parts_change n f g ps qs : (forall p q, same_part p q -> same_part (f p) (g q)) -> Forall2 same_part ps qs -> Forall2 same_part (change_first (of_name n) f ps) (change_first (of_name n) g qs).
Proof. intros G. induction 1 as [|p q ps qs H F IH]; [constructor|]. cbn. rewrite (same_named n p q H). destruct (of_name n q); constructor; auto. Qed.
Lemma same_parts_filter n ps qs : Forall2 same_part ps qs -> Forall2 same_part (filter (fun q => negb (of_name n q)) ps) (filter (fun q => negb (of_name n q)) qs).
Proof. induction 1 as [|p q ps qs H F IH]; [constructor|]. cbn. rewrite (same_named n p q H). destruct (of_name n q); cbn [negb]; [exact IH|constructor; assumption]. Qed.
Lemma same_with n c ps qs : Forall2 same_part ps qs -> Forall2 same_part (with_part n c ps) (with_part n c qs).
Proof. intros H. unfold with_part. rewrite (same_has n ps qs H). destruct (existsb _ qs); [exact H|]. apply Forall2_app; [exact H|]. constructor; [|constructor]. split; [reflexivity|]. split; [reflexivity|apply same_refl]. Qed.
Lemma same_with_parts d e ps qs : same_doc d e -> Forall2 same_part ps qs -> same_doc (with_parts ps d) (with_parts qs e).
Proof. intros (A & B & C & D & _) H. split; [exact A|]. split; [exact B|]. split; [exact C|]. split; [exact D|exact H]. Qed.
Lemma same_set n kv c force d e : same_doc d e -> same_doc (set_doc n kv c force d) (set_doc n kv c force e).
Proof.
  intros S0. pose proof S0 as (M & _ & _ & _ & P). unfold set_doc. destruct kv as [[k v]|]; apply same_with_parts; try exact S0; [|apply same_with, P]. apply same_parts_change; [|apply same_with, P].
  intros p q (N & C & L). split; [exact N|]. split; [exact C|]. cbn. rewrite M. apply same_give, L.
Qed.
Lemma same_load es : forall d e, same_doc d e -> same_doc (load_doc es d) (load_doc es e).
Proof. induction es as [|[[s kv] c] es IH]; intros d e H; [exact H|]. cbn [load_doc]. apply IH, same_set, H. Qed.
Lemma same_values n k d e : same_doc d e -> map value_told (values_of n k d) = map value_told (values_of n k e).
Proof.
  intros (M & _ & _ & _ & P). unfold values_of, part_of. pose proof (same_find n _ _ P) as F. destruct (List.find _ (d_parts d)) as [p|], (List.find _ (d_parts e)) as [q|]; try contradiction; [|reflexivity]. destruct F as (_ & _ & (_ & _ & V)). specialize (V k). unfold lines_of. rewrite M. destruct (d_multi e); [exact V|]. rewrite <- !firstn_map, V. reflexivity.
Qed.
Lemma write_key_told d e p q l : d_multi d = d_multi e -> d_multiline d = d_multiline e -> d_spaces d = d_spaces e -> same_part p q -> write_key d p l = write_key e q l.
Proof.
  intros M ML SP (_ & _ & _ & _ & V). unfold write_key. rewrite M. assert (W : forall x y, value_told x = value_told y -> write_value d (l_key l) x = write_value e (l_key l) y) by (intros x y H; unfold value_told in H; injection H as H1 H2; unfold write_value; rewrite H1, H2, ML, SP; reflexivity).
  destruct (d_multi e); [|cbn [map]; rewrite (W l l eq_refl); reflexivity]. specialize (V (l_key l)). unfold lines_of. revert V. generalize (filter (of_key (l_key l)) (p_lines p)) (filter (of_key (l_key l)) (p_lines q)). induction l0 as [|x xs IH]; intros [|y ys] H; try discriminate; [reflexivity|]. cbn [map concat] in *.
  assert (HX : value_told x = value_told y) by (unfold value_told in *; congruence). assert (HT : map value_told xs = map value_told ys) by congruence. rewrite (W x y HX), (IH ys HT). reflexivity.
Qed.
Lemma same_write d e : same_doc d e -> write_doc d = write_doc e.
Proof.
  intros (M & ML & SP & C & P). unfold write_doc. rewrite C. f_equal. f_equal. generalize (match d_comment e with Some _ => true | None => false end). induction P as [|p q ps qs H F IH]; intros gap; [reflexivity|]. cbn [write_parts]. rewrite IH. f_equal. f_equal.
  pose proof H as (N & PC & (_ & FL & _)). unfold write_part. rewrite N, PC, FL. f_equal. f_equal. f_equal. apply map_ext. intros l. apply write_key_told; assumption.
Qed.
Lemma same_delete n k prune d e : same_doc d e -> fst (delete_doc n k prune d) = fst (delete_doc n k prune e) /\ same_doc (snd (delete_doc n k prune d)) (snd (delete_doc n k prune e)).
Proof.
  intros S0. pose proof S0 as (_ & _ & _ & _ & P). unfold delete_doc, part_of. pose proof (same_find n _ _ P) as F. destruct (List.find _ (d_parts d)) as [p|], (List.find _ (d_parts e)) as [q|]; try contradiction; [|split; [reflexivity|exact S0]]. destruct F as (_ & _ & L).
  assert (X : same_doc (with_parts (filter (fun q => negb (of_name n q)) (d_parts d)) d) (with_parts (filter (fun q => negb (of_name n q)) (d_parts e)) e)) by (apply same_with_parts; [exact S0|apply same_parts_filter, P]).
  destruct k as [k|]; [|split; [reflexivity|exact X]]. rewrite (same_exists _ _ k L). destruct (existsb (of_key k) (p_lines q)); [|split; [reflexivity|exact S0]]. pose proof (same_not k _ _ L) as LN.
  assert (EM : (match filter (fun l => negb (of_key k l)) (p_lines p) with [] => true | _ => false end) = (match filter (fun l => negb (of_key k l)) (p_lines q) with [] => true | _ => false end)) by (destruct LN as (LL & _); destruct (filter _ (p_lines p)), (filter _ (p_lines q)); try discriminate LL; reflexivity). rewrite EM.
  destruct (prune && _); (split; [reflexivity|]); [exact X|]. apply same_with_parts; [exact S0|]. apply same_parts_change; [|exact P]. intros a b (A1 & A2 & _). split; [exact A1|]. split; [exact A2|exact LN].
Qed.
Lemma same_expect c d e : same_doc d e -> fst (expect c d) = fst (expect c e) /\ same_doc (snd (expect c d)) (snd (expect c e)).
Proof.
  intros S0. pose proof S0 as (M & ML & SP & C & P). destruct c; cbn [expect].
  - split; [|apply same_set, S0]. cbn [fst]. unfold added, part_of. pose proof (same_find sec _ _ P) as F. destruct (List.find _ (d_parts d)) as [p|], (List.find _ (d_parts e)) as [q|]; try contradiction; [|reflexivity]. destruct F as (_ & _ & L). destruct (both key value) as [[k v]|]; [|reflexivity]. rewrite M, (same_exists _ _ k L). reflexivity.
  - destruct sec as [n|]; [|split; [reflexivity|exact S0]]. destruct (same_delete n key prune d e S0) as [A B]. destruct (delete_doc n key prune d) as [b1 d1], (delete_doc n key prune e) as [b2 e1]. cbn in *. subst b1. split; [reflexivity|exact B].
  - split; [|exact S0]. cbn [fst]. destruct (both sec key) as [[n k]|]; [|reflexivity]. pose proof (same_values n k d e S0) as V. destruct (values_of n k d) as [|x [|x2 xs]], (values_of n k e) as [|y [|y2 ys]]; try discriminate V; try reflexivity; unfold value_told in V; cbn in V; congruence.
  - split; [|exact S0]. cbn [fst]. destruct (both sec key) as [[n k]|]; [|reflexivity]. pose proof (same_values n k d e S0) as V. destruct (values_of n k d) as [|x xs], (values_of n k e) as [|y ys]; try discriminate V; [reflexivity|]. rewrite V. reflexivity.
  - split; [|exact S0]. cbn [fst]. destruct sec as [n|]; [|reflexivity]. f_equal. unfold size_of, part_of. pose proof (same_find n _ _ P) as F. destruct (List.find _ (d_parts d)) as [p|], (List.find _ (d_parts e)) as [q|]; try contradiction; [|reflexivity]. destruct F as (_ & _ & L & FL & _). rewrite M, FL. destruct (d_multi e); [reflexivity|rewrite L; reflexivity].
  - split; [|exact S0]. cbn [fst]. f_equal. f_equal. f_equal. clear S0. induction P as [|p q ps qs H F IH]; [reflexivity|]. cbn [map]. destruct H as (N & PC & _). rewrite N, PC, IH. reflexivity.
  - split; [|exact S0]. cbn [fst]. destruct sec as [n|]; [|reflexivity]. unfold has_section. rewrite (same_has n _ _ P). destruct (existsb _ (d_parts e)); [|reflexivity]. f_equal. f_equal. unfold keys_of, part_of. pose proof (same_find n _ _ P) as F. destruct (List.find _ (d_parts d)) as [p|], (List.find _ (d_parts e)) as [q|]; try contradiction; [|reflexivity]. destruct F as (_ & _ & _ & FL & _). rewrite FL. reflexivity.
  - split; [|exact S0]. cbn [fst]. f_equal. apply same_write, S0.
  - split; [reflexivity|]. split; [exact M|]. split; [exact ML|]. split; [exact SP|]. split; [reflexivity|constructor].
  - split; [reflexivity|]. split; [reflexivity|]. split; [exact ML|]. split; [exact SP|]. split; [exact C|exact P].
  - split; [reflexivity|]. split; [exact M|]. split; [reflexivity|]. split; [exact SP|]. split; [exact C|exact P].
  - split; [reflexivity|]. split; [exact M|]. split; [exact ML|]. split; [reflexivity|]. split; [exact C|exact P].
  - split; [reflexivity|]. apply same_load. split; [exact M|]. split; [exact ML|]. split; [exact SP|]. split; [cbn; rewrite C; reflexivity|exact P].
Qed.
Lemma same_expect_all h : forall d e, same_doc d e -> fst (expect_all h d) = fst (expect_all h e).
Proof.
  induction h as [|c h IH]; intros d e H; [reflexivity|]. cbn [expect_all]. destruct (same_expect c d e H) as [A B]. destruct (expect c d) as [a d1], (expect c e) as [a' e1]. cbn [fst snd] in *. subst a'. specialize (IH d1 e1 B). destruct (expect_all h d1), (expect_all h e1). cbn [fst] in *. rewrite IH. reflexivity.
Qed.
