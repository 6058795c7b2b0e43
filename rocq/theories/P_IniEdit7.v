(** Lemmas about IniEdit.v: the sections, and the document in load order. *)
From Coq Require Import Permutation Sorting.Sorted Lia.
From Verif Require Import Base P_Base CTypes StringUtils Ini P_Ini IniEdit Spec_Ini Spec_IniEdit P_IniEdit P_IniEdit2 P_IniEdit3 P_IniEdit4 P_IniEdit5 P_IniEdit6.

Definition part (e : rnamed * vkeyed) : epart := {| p_name := r_name (fst e); p_comment := r_comment (fst e); p_lines := lines (snd e) |}.
Definition parts (v : vdata) : list epart := map part (byord v).
Record vinv (o : nat) (v : vdata) : Prop := {
  vi_sorted : StronglySorted sec_before (map fst v); vi_tidy : tidy v; vi_below : below o v;
  vi_keys : Forall (fun e => kinv o (snd e)) v }.
Lemma vinv_vsorted o v : vinv o v -> vsorted v.
Proof. intros [A B C D]. split; [exact A|]. eapply Forall_impl; [|exact D]. intros e He. apply (ki_sorted _ _ He). Qed.
Lemma vinv_orders o v : vinv o v -> orders_below o v.
Proof.
  intros [A B C D]. unfold orders_below, below in *. rewrite Forall_forall in *. intros e He. split; [apply C; exact He|]. apply (ki_below _ _ (D e He)).
Qed.
Lemma vinv_le o o' v : o <= o' -> vinv o v -> vinv o' v.
Proof. intros H [A B C D]. split; auto. apply (below_le o); assumption. eapply Forall_impl; [|exact D]. intros e He. apply (kinv_le o); assumption. Qed.

Lemma secs_part (v : vdata) s : StronglySorted sec_before (map fst v) -> v = Lt vn s v ++ Eqs vn s v ++ Gt vn s v.
Proof. intros K. apply partition_sorted. apply secs_weak. exact K. Qed.
Lemma filter_secs o v s : vinv o v -> filter (is_eq vn s) (byord v) = Eqs vn s v.
Proof.
  intros I. apply sorted_unique.
  - apply sorted_filter. apply byord_sorted. apply (vi_tidy _ _ I).
  - destruct (one_section v s (vi_sorted _ _ I)) as [->|(x & ->)]; repeat constructor.
  - apply perm_filter. apply Permutation_sym. apply byord_perm.
Qed.
Lemma filter_parts o v s : vinv o v -> filter (of_name s) (parts v) = map part (Eqs vn s v).
Proof. intros I. unfold parts. rewrite filter_map. f_equal. apply (filter_secs o v s I). Qed.
Lemma part_found o v s d : vinv o v -> d_parts d = parts v -> part_of s d = match Eqs vn s v with [] => None | x :: _ => Some (part x) end.
Proof. intros I E. unfold part_of. rewrite E, find_filter, (filter_parts o v s I). destruct (Eqs vn s v); reflexivity. Qed.
Lemma exists_part o v s : vinv o v -> existsb (of_name s) (parts v) = match Eqs vn s v with [] => false | _ => true end.
Proof. intros I. rewrite existsb_filter, (filter_parts o v s I). destruct (Eqs vn s v); reflexivity. Qed.
Lemma without_secs (v : vdata) s : StronglySorted sec_before (map fst v) -> Lt vn s v ++ Gt vn s v = filter (fun e => negb (is_eq vn s e)) v.
Proof.
  intros K. rewrite (secs_part v s K) at 3. rewrite !filter_app.
  rewrite (filter_all _ (Lt vn s v)), (filter_none _ (Eqs vn s v)), (filter_all _ (Gt vn s v)); [reflexivity| | |].
  - eapply Forall_impl; [|apply Gt_all]. intros e He. destruct (three vn s e) as [(X1 & X2 & X3)|[(X1 & X2 & X3)|(X1 & X2 & X3)]]; rewrite X2; congruence || reflexivity.
  - apply Forall_forall. intros e He. apply filter_In in He. destruct He as [_ ->]. reflexivity.
  - eapply Forall_impl; [|apply Lt_all]. intros e He. destruct (three vn s e) as [(X1 & X2 & X3)|[(X1 & X2 & X3)|(X1 & X2 & X3)]]; rewrite X2; congruence || reflexivity.
Qed.

(** the lines of one section changed *)
Lemma change_section o o' v s x l' : vinv o v -> o <= o' -> Eqs vn s v = [x] -> kinv o' l' ->
  vinv o' (Lt vn s v ++ (fst x, l') :: Gt vn s v) /\
  forall f, f (part x) = part (fst x, l') -> parts (Lt vn s v ++ (fst x, l') :: Gt vn s v) = change_first (of_name s) f (parts v).
Proof.
  intros I LE EX KI. destruct (vinv_le _ _ _ LE I) as [A B C D]. pose proof (secs_part v s A) as PT. rewrite EX in PT. cbn [app] in PT.
  pose proof (filter_secs _ _ s I) as FS. rewrite EX in FS. destruct (filter_split _ _ _ _ FS) as (X & Y & BXY & FX & HX & FY).
  split; [split|].
  - rewrite PT in A. rewrite !map_app in *. exact A.
  - unfold tidy in *. rewrite PT in B. rewrite !map_app in *. exact B.
  - unfold below in *. rewrite PT in C. rewrite Forall_app in *. destruct C as [C1 C2]. split; [exact C1|]. inversion C2; subst. constructor; assumption.
  - rewrite PT in D. rewrite Forall_app in *. destruct D as [D1 D2]. split; [exact D1|]. inversion D2; subst. constructor; [exact KI|assumption].
  - intros f Hf. unfold parts. rewrite BXY. assert (BR : byord (Lt vn s v ++ (fst x, l') :: Gt vn s v) = X ++ (fst x, l') :: Y).
    { apply (byord_replace _ x); [rewrite <- PT; exact B|reflexivity|rewrite <- PT; exact BXY]. }
    rewrite BR, !map_app. cbn [map]. rewrite change_first_mid; [rewrite Hf; reflexivity|apply Forall_map; exact FX|exact HX].
Qed.
(** a section removed *)
Lemma drop_section o v s : vinv o v -> vinv o (Lt vn s v ++ Gt vn s v) /\ parts (Lt vn s v ++ Gt vn s v) = filter (fun q => negb (of_name s q)) (parts v).
Proof.
  intros I. pose proof I as [A B C D]. rewrite (without_secs v s A). split; [split|].
  - pose proof (proj1 (sorted_map fst sec_before v) A) as A1. apply (sorted_map fst sec_before). clear -A1. induction A1 as [|a v S IH F]; cbn; [constructor|].
    destruct (negb _); [|exact IH]. constructor; [exact IH|]. apply Forall_forall. intros b Hb. apply filter_In in Hb. rewrite Forall_forall in F. apply F. apply Hb.
  - apply (ord_tidy _ (byord (filter (fun e => negb (is_eq vn s e)) v))); [apply byord_perm|]. rewrite (byord_filter _ v B). apply sorted_filter. apply byord_sorted. exact B.
  - unfold below in *. rewrite Forall_forall in *. intros e He. apply filter_In in He. apply C. apply He.
  - rewrite Forall_forall in *. intros e He. apply filter_In in He. apply D. apply He.
  - unfold parts. rewrite (byord_filter _ v B). rewrite filter_map. reflexivity.
Qed.
(** a section made *)
Lemma make_section o v s c : vinv o v -> Eqs vn s v = [] ->
  vinv (S o) (Lt vn s v ++ (rnew s c (S o), []) :: Gt vn s v) /\
  parts (Lt vn s v ++ (rnew s c (S o), []) :: Gt vn s v) = parts v ++ [{| p_name := s; p_comment := c; p_lines := [] |}].
Proof.
  intros I EX. pose proof I as [A B C D]. pose proof (secs_part v s A) as PT. rewrite EX in PT. cbn [app] in PT.
  set (x := (rnew s c (S o), []) : rnamed * vkeyed).
  assert (PM : Permutation (Lt vn s v ++ x :: Gt vn s v) (x :: v)).
  { rewrite <- Permutation_middle. apply Permutation.perm_skip. rewrite PT at 3. apply Permutation_refl. }
  destruct (byord_last _ x v o PM B C eq_refl) as [E1 E2]. split; [split|].
  - apply (secs_insert v x A EX).
  - apply (ord_tidy _ (byord v ++ [x])); [|exact E2]. rewrite <- E1. apply byord_perm.
  - apply (below_perm _ _ _ PM). constructor; [cbn; lia|]. apply (below_le o); [lia|exact C].
  - eapply Permutation_Forall; [apply Permutation_sym; exact PM|]. constructor; [split; constructor|].
    eapply Forall_impl; [|exact D]. intros e He. apply (kinv_le o); [lia|exact He].
  - unfold parts. change (map part (byord (Lt vn s v ++ x :: Gt vn s v)) = map part (byord v) ++ [part x]). rewrite E1, map_app. reflexivity.
Qed.

Lemma vsection_ok o v s c v1 made : vinv o v -> vsection s c o v = (v1, made) ->
  vinv (if made then S o else o) v1 /\ parts v1 = with_part s c (parts v) /\ exists x, Eqs vn s v1 = [x].
Proof.
  intros I H. unfold vsection in H. unfold with_part. rewrite (exists_part o v s I).
  destruct (one_section v s (vi_sorted _ _ I)) as [E|(x & E)]; rewrite E in H |- *; injection H as <- <-.
  - destruct (make_section o v s c I E) as [M1 M2]. split; [exact M1|]. split; [exact M2|].
    exists (rnew s c (S o), []). apply Eq_mid; [apply Lt_all|apply self_eq|apply Gt_all].
  - split; [exact I|]. split; [reflexivity|]. exists x. exact E.
Qed.

Lemma vset_ok multi force s kv c o v d : vinv o v -> d_parts d = parts v -> d_multi d = multi ->
  vinv (vorder s kv o v) (vset multi force s kv c o v) /\ parts (vset multi force s kv c o v) = d_parts (set_doc s kv c force d)
  /\ vadded multi s kv v = added s kv d.
Proof.
  intros I EP EM. split; [|split].
  - unfold vset, vorder. destruct kv as [[k val]|].
    + destruct (vsection s None o v) as [v1 made] eqn:EV. destruct (vsection_ok o v s None v1 made I EV) as (I1 & P1 & x & EX). rewrite EX.
      assert (HO : (match Eqs vn s v with [] => 1 | _ => 0 end) + 1 + o = S (if made then S o else o)).
      { unfold vsection in EV. destruct (Eqs vn s v); injection EV as _ <-; lia. }
      rewrite HO.
      assert (KX : kinv (if made then S o else o) (snd x)).
      { pose proof (vi_keys _ _ I1) as KK. rewrite Forall_forall in KK. apply KK.
        assert (In x (Eqs vn s v1)) by (rewrite EX; left; reflexivity). apply filter_In in H. apply H. }
      destruct (vkeys_ok multi force k val c _ _ KX) as [KI _].
      apply (change_section _ _ v1 s x _ I1 (Nat.le_succ_diag_r _) EX KI).
    + destruct (vsection s c o v) as [v1 made] eqn:EV. destruct (vsection_ok o v s c v1 made I EV) as (I1 & P1 & x & EX). cbn [fst].
      unfold vsection in EV. destruct (Eqs vn s v); injection EV as <- <-; exact I1.
  - unfold vset, set_doc. destruct kv as [[k val]|].
    + destruct (vsection s None o v) as [v1 made] eqn:EV. destruct (vsection_ok o v s None v1 made I EV) as (I1 & P1 & x & EX). rewrite EX. cbn [d_parts with_parts].
      rewrite EP, EM, <- P1.
      assert (KX : kinv (if made then S o else o) (snd x)).
      { pose proof (vi_keys _ _ I1) as KK. rewrite Forall_forall in KK. apply KK.
        assert (In x (Eqs vn s v1)) by (rewrite EX; left; reflexivity). apply filter_In in H. apply H. }
      destruct (vkeys_ok multi force k val c _ _ KX) as [KI KL].
      destruct (change_section _ (S (if made then S o else o)) v1 s x _ I1 (Nat.le_succ_diag_r _) EX KI) as [_ CH]. apply CH.
      unfold part. cbn [p_name p_comment p_lines fst snd]. rewrite KL. reflexivity.
    + destruct (vsection s c o v) as [v1 made] eqn:EV. destruct (vsection_ok o v s c v1 made I EV) as (I1 & P1 & x & EX). cbn [fst d_parts with_parts]. rewrite P1, EP. reflexivity.
  - unfold vadded, added. rewrite (part_found o v s d I EP). destruct (Eqs vn s v) as [|x r] eqn:EX; [reflexivity|]. destruct kv as [[k val]|]; [|reflexivity].
    rewrite EM. f_equal. cbn [part p_lines]. assert (KX : kinv o (snd x)).
    { pose proof (vi_keys _ _ I) as KK. rewrite Forall_forall in KK. apply KK. assert (In x (Eqs vn s v)) by (rewrite EX; left; reflexivity). apply filter_In in H. apply H. }
    rewrite existsb_filter, (filter_lines _ k (ki_sorted _ _ KX) (ki_tidy _ _ KX)). destruct (Eqs vn k (snd x)); reflexivity.
Qed.

Lemma lines_nil l : lines l = [] <-> l = [].
Proof.
  unfold lines. split; [|intros ->; reflexivity]. intros H. apply map_eq_nil in H. pose proof (byord_perm l) as P. rewrite H in P. apply Permutation_sym, Permutation_nil in P. exact P.
Qed.
Lemma kinv_filter o l P : kinv o l -> kinv o (filter P l) /\ lines (filter P l) = map line (filter P (byord l)).
Proof.
  intros [A B C]. split; [split|].
  - unfold keys_sorted in *. pose proof (proj1 (sorted_map fst key_before l) A) as A1. apply (sorted_map fst key_before). clear -A1. induction A1 as [|a v S IH F]; cbn; [constructor|].
    destruct (P a); [|exact IH]. constructor; [exact IH|]. apply Forall_forall. intros b Hb. apply filter_In in Hb. rewrite Forall_forall in F. apply F. apply Hb.
  - apply (ord_tidy _ (byord (filter P l))); [apply byord_perm|]. rewrite (byord_filter _ l B). apply sorted_filter. apply byord_sorted. exact B.
  - unfold below in *. rewrite Forall_forall in *. intros e He. apply filter_In in He. apply C. apply He.
  - unfold lines. rewrite (byord_filter _ l B). reflexivity.
Qed.
Lemma vdelete_ok s k prune o v d : vinv o v -> d_parts d = parts v ->
  vinv o (snd (vdelete s k prune v)) /\ fst (delete_doc s k prune d) = fst (vdelete s k prune v)
  /\ snd (delete_doc s k prune d) = with_parts (parts (snd (vdelete s k prune v))) d.
Proof.
  intros I EP. assert (WD : with_parts (parts v) d = d) by (rewrite <- EP; destruct d; reflexivity).
  unfold vdelete, delete_doc. rewrite (part_found o v s d I EP).
  destruct (one_section v s (vi_sorted _ _ I)) as [E|(x & E)]; rewrite E.
  { cbn [fst snd]. rewrite WD. auto. }
  destruct (drop_section o v s I) as [D1 D2].
  assert (KX : kinv o (snd x)).
  { pose proof (vi_keys _ _ I) as KK. rewrite Forall_forall in KK. apply KK. assert (In x (Eqs vn s v)) by (rewrite E; left; reflexivity). apply filter_In in H. apply H. }
  destruct k as [k|]; [|cbn [fst snd]; rewrite EP, D2; auto].
  cbn [part p_lines]. rewrite existsb_filter, (filter_lines _ k (ki_sorted _ _ KX) (ki_tidy _ _ KX)).
  destruct (Eqs vn k (snd x)) as [|e r] eqn:EK; cbn [map].
  { cbn [fst snd]. rewrite WD. auto. }
  rewrite (without_eqs _ k (ki_sorted _ _ KX)).
  destruct (kinv_filter o (snd x) (fun e => negb (is_eq vn k e)) KX) as [KF KL].
  assert (RL : filter (fun l => negb (of_key k l)) (lines (snd x)) = lines (filter (fun e => negb (is_eq vn k e)) (snd x))).
  { rewrite KL. unfold lines at 1. rewrite filter_map. reflexivity. }
  rewrite RL. set (f := filter (fun e => negb (is_eq vn k e)) (snd x)) in *.
  destruct (change_section o o v s x f I (le_n _) E KF) as [C1 C2].
  clearbody f. destruct f as [|y f].
  - change (lines []) with (@nil eline). rewrite andb_true_r. destruct prune; cbn [fst snd].
    + rewrite EP, D2. auto.
    + split; [exact C1|]. split; [reflexivity|]. rewrite EP. f_equal. symmetry. apply C2. reflexivity.
  - assert (NN : match lines (y :: f) with [] => true | _ => false end = false).
    { destruct (lines (y :: f)) eqn:EN; [|reflexivity]. apply lines_nil in EN. discriminate. }
    rewrite NN, andb_false_r. cbn [fst snd]. split; [exact C1|]. split; [reflexivity|]. rewrite EP. f_equal. symmetry. apply C2. reflexivity.
Qed.
