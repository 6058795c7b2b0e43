(** Lemmas about IniEdit.v: AddEntry. *)
From Coq Require Import Permutation Sorting.Sorted Lia.
From Verif Require Import Base P_Base CTypes StringUtils Ini P_Ini IniEdit Spec_Ini Spec_IniEdit P_IniEdit P_IniEdit2 P_IniEdit3.

(** * What AddEntry does to the contents *)
Definition rnew (s : bytes) (c : option bytes) (o : nat) : rnamed := {| r_name := s; r_comment := c; r_order := o |}.
Definition vkeys (multi force : bool) (k val : bytes) (c : option bytes) (o : nat) (l : vkeyed) : vkeyed :=
  match Eqs vn k l with
  | [] => Lt vn k l ++ (rnew k c o, val) :: Gt vn k l
  | e :: r =>
      if multi then
        if force then Lt vn k l ++ (rnew k (match r_comment (fst e) with Some x => Some x | None => c end) (r_order (fst e)), val) :: Gt vn k l
        else Lt vn k l ++ (e :: r) ++ (rnew k c o, val) :: Gt vn k l
      else Lt vn k l ++ ((fst e, val) :: r) ++ Gt vn k l
  end.
Definition vsection (s : bytes) (c : option bytes) (o : nat) (v : vdata) : vdata * bool :=
  match Eqs vn s v with
  | [] => (Lt vn s v ++ (rnew s c (S o), []) :: Gt vn s v, true)
  | _ => (v, false)
  end.
Definition vset (multi force : bool) (s : bytes) (kv : option (bytes * bytes)) (c : option bytes) (o : nat) (v : vdata) : vdata :=
  match kv with
  | None => fst (vsection s c o v)
  | Some (k, val) =>
      let '(v1, made) := vsection s None o v in
      let o1 := if made then S o else o in
      match Eqs vn s v1 with
      | x :: _ => Lt vn s v1 ++ (fst x, vkeys multi force k val c (S o1) (snd x)) :: Gt vn s v1
      | [] => v1
      end
  end.
Definition vadded (multi : bool) (s : bytes) (kv : option (bytes * bytes)) (v : vdata) : bool :=
  match Eqs vn s v, kv with
  | [], _ => true
  | _, None => false
  | x :: _, Some (k, _) => multi || match Eqs vn k (snd x) with [] => true | _ => false end
  end.
Definition vorder (s : bytes) (kv : option (bytes * bytes)) (o : nat) (v : vdata) : nat :=
  (match Eqs vn s v with [] => 1 | _ => 0 end) + (match kv with Some _ => 1 | None => 0 end) + o.

Lemma own_order P st o : own P st -> own P (with_order o st).
Proof. intros [A B C D F]. split; assumption. Qed.
Lemma view_order st o : view (with_order o st) = view st.
Proof. reflexivity. Qed.
(** the table gets new elements made of held pointers, and may lose some *)
Lemma own_put P st G P' d' : own P st -> live_data st d' -> Forall (live st) P' ->
  Permutation (ids P ++ id_opt (st_comment st) ++ ids_data (st_data st)) (G ++ ids P' ++ id_opt (st_comment st) ++ ids_data d') ->
  own P' (with_data d' st) /\ view (with_data d' st) = view_data st d'.
Proof.
  intros O LD LP PM. destruct (own_shrink P st st [] G P' d' O (moved_refl st)) as (A & B & _); auto. intros i [].
Qed.

Definition held (c : option ptr) : list ptr := match c with Some p => [p] | None => [] end.
Definition settle_order (st st' : store) : Prop := settled st st'.
Lemma copy_if_ok copy P st p : own P st -> live st p -> (copy = false -> id_of p = []) ->
  exists q st', copy_if copy p st = Ok (q, st') /\ moved [] st st' /\ own (q :: P) st' /\ text st' q = text st p /\ view st' = view st.
Proof.
  intros O L H. destruct copy; cbn [copy_if].
  - destruct (own_copy P st p O L) as (st' & E & M & O' & T & V & _). exists (Copied (st_fresh st)), st'. auto.
  - exists p, st. split; [reflexivity|]. split; [apply moved_refl|]. split; [|auto]. destruct O as [A B C D F]. split; auto.
    unfold ids. cbn [flat_map]. rewrite (H eq_refl). exact D.
Qed.
Lemma copy_opt_ok copy P st c : own P st -> live_opt st c -> (copy = false -> id_opt c = []) ->
  exists q st', copy_opt copy c st = Ok (q, st') /\ moved [] st st' /\ own (held q ++ P) st' /\ option_map (text st') q = option_map (text st) c /\ view st' = view st.
Proof.
  intros O L H. destruct c as [p|]; cbn [copy_opt].
  - destruct (copy_if_ok copy P st p O L H) as (q & st' & E & M & O' & T & V). rewrite (ebind_ok _ _ _ _ _ E). exists (Some q), st'.
    split; [reflexivity|]. split; [exact M|]. split; [exact O'|]. cbn. rewrite T. auto.
  - exists None, st. split; [reflexivity|]. split; [apply moved_refl|]. auto.
Qed.
Lemma moved_all st st' p : moved [] st st' -> live st p -> live st' p /\ text st' p = text st p.
Proof. intros M L. apply (mv_keep _ _ _ M p L). intros i _ []. Qed.
Lemma view_moved P st st' : moved [] st st' -> own P st -> view st' = view st.
Proof. intros M O. unfold view. rewrite (mv_data _ _ _ M). apply (keep_data _ _ _ _ M (own_live _ _ O)). intros i _ []. Qed.

(** ** the section *)
Definition section_comment (key value comment : option ptr) : option ptr := match key, value with Some _, Some _ => None | _, _ => comment end.
Lemma secs_insert (v : vdata) x : StronglySorted sec_before (map fst v) -> Eqs vn (r_name (fst x)) v = [] ->
  StronglySorted sec_before (map fst (Lt vn (r_name (fst x)) v ++ x :: Gt vn (r_name (fst x)) v)).
Proof.
  intros S N. set (s := r_name (fst x)) in *. pose proof (partition_sorted vn s v (secs_weak _ S)) as P. rewrite N in P. cbn [app] in P.
  assert (HL : forall e, In e (Lt vn s v) -> nocase_less (vn e) s = true) by (intros e He; apply filter_In in He; apply He).
  assert (HG : forall e, In e (Gt vn s v) -> nocase_less s (vn e) = true) by (intros e He; apply filter_In in He; apply He).
  rewrite P in S. set (a := Lt vn s v) in *. set (b := Gt vn s v) in *. clearbody a b. clear P N. revert S. induction a as [|e a IH]; cbn [app map]; intros S.
  - constructor; [exact S|]. apply Forall_forall. intros r Hr. apply in_map_iff in Hr. destruct Hr as (e & <- & He). apply (HG e He).
  - inversion S as [|? ? S1 F]; subst. constructor; [apply IH; [intros e' He'; apply HL; right; exact He'|exact S1]|].
    rewrite map_app in *. cbn [map]. apply Forall_app in F. apply Forall_app. split; [apply F|]. constructor; [|apply F]. apply (HL e). left. reflexivity.
Qed.
Lemma Lt_mid {V} s (A : list (rnamed * V)) x B : Forall (fun e => is_lt vn s e = true) A -> is_lt vn s x = false -> Forall (fun e => is_gt vn s e = true) B -> Lt vn s (A ++ x :: B) = A.
Proof.
  intros HA HX HB. unfold Lt. rewrite filter_app. cbn [filter]. rewrite HX. rewrite (filter_all _ _ HA).
  rewrite (filter_none _ B); [apply app_nil_r|]. eapply Forall_impl; [|exact HB]. intros e He. destruct (three vn s e) as [(X1 & X2 & X3)|[(X1 & X2 & X3)|(X1 & X2 & X3)]]; congruence.
Qed.
Lemma Eq_mid {V} s (A : list (rnamed * V)) x B : Forall (fun e => is_lt vn s e = true) A -> is_eq vn s x = true -> Forall (fun e => is_gt vn s e = true) B -> Eqs vn s (A ++ x :: B) = [x].
Proof.
  intros HA HX HB. unfold Eqs. rewrite filter_app. cbn [filter]. rewrite HX.
  rewrite (filter_none _ A), (filter_none _ B); [reflexivity| |].
  - eapply Forall_impl; [|exact HB]. intros e He. destruct (three vn s e) as [(X1 & X2 & X3)|[(X1 & X2 & X3)|(X1 & X2 & X3)]]; congruence.
  - eapply Forall_impl; [|exact HA]. intros e He. destruct (three vn s e) as [(X1 & X2 & X3)|[(X1 & X2 & X3)|(X1 & X2 & X3)]]; congruence.
Qed.
Lemma Gt_mid {V} s (A : list (rnamed * V)) x B : Forall (fun e => is_lt vn s e = true) A -> is_gt vn s x = false -> Forall (fun e => is_gt vn s e = true) B -> Gt vn s (A ++ x :: B) = B.
Proof.
  intros HA HX HB. unfold Gt. rewrite filter_app. cbn [filter]. rewrite HX. rewrite (filter_all _ _ HB).
  rewrite (filter_none _ A); [reflexivity|]. eapply Forall_impl; [|exact HA]. intros e He. apply Lt_not_gt. exact He.
Qed.
Lemma Lt_all {V} s (l : list (rnamed * V)) : Forall (fun e => is_lt vn s e = true) (Lt vn s l).
Proof. apply Forall_forall. intros e He. apply filter_In in He. apply He. Qed.
Lemma Gt_all {V} s (l : list (rnamed * V)) : Forall (fun e => is_gt vn s e = true) (Gt vn s l).
Proof. apply Forall_forall. intros e He. apply filter_In in He. apply He. Qed.
Lemma self_eq {V} (x : rnamed * V) : is_eq vn (r_name (fst x)) x = true.
Proof. unfold is_eq, same_nameb, vn. apply beqb_refl. Qed.
Lemma same_three {V} s (x : rnamed * V) : is_eq vn s x = true -> is_lt vn s x = false /\ is_gt vn s x = false.
Proof. intros H. destruct (three vn s x) as [(X1 & X2 & X3)|[(X1 & X2 & X3)|(X1 & X2 & X3)]]; try congruence. auto. Qed.

Lemma add_section_ok st sec key value comment copy :
  own (held comment) st -> vsorted (view st) -> live st sec -> (copy = false -> id_of sec = []) ->
  exists made st' A n l B, add_section sec key value comment copy st = Ok ((length A, made), st')
    /\ st_data st' = A ++ (n, l) :: B
    /\ own (match both key value with Some _ => held comment | None => [] end) st'
    /\ (view st', made) = vsection (text st sec) (option_map (text st) (section_comment key value comment)) (st_order st) (view st)
    /\ vsorted (view st')
    /\ view_data st' A = Lt vn (text st sec) (view st') /\ view_data st' B = Gt vn (text st sec) (view st')
    /\ Eqs vn (text st sec) (view st') = [(view_named st' n, view_keyed st' l)]
    /\ settled st st' /\ st_order st' = (if made then S (st_order st) else st_order st)
    /\ (made = true -> l = [])
    /\ (forall p, live st p -> live st' p /\ text st' p = text st p).
Proof.
  intros O V K NI. unfold add_section.
  destruct (section_search _ st sec O V K) as [[F N]|(A & n & l & B & DA & F & VA & VB & N & SN)]; rewrite (ebind_ask _ _ _ _ F).
  - destruct (copy_if_ok copy _ st sec O K NI) as (q & st1 & E1 & M1 & O1 & T1 & V1). rewrite (ebind_ok _ _ _ _ _ E1).
    unfold ebind at 1, next_order at 1. cbn iota. fold (section_comment key value comment).
    set (c := section_comment key value comment). set (st2 := with_order (S (st_order st1)) st1).
    set (n := {| n_item := q; n_comment := c; n_order := S (st_order st1) |}).
    assert (Lq : live st2 q). { pose proof (own_held _ _ O1) as H. inversion H; subst. assumption. }
    assert (V2 : view st2 = view st) by exact V1.
    pose proof (own_order _ _ (S (st_order st1)) O1) as O2. fold st2 in O2.
    assert (SV : vsorted (view st2)) by (rewrite V2; exact V).
    pose proof (secs_weak_a _ _ (vs_secs _ SV)) as W. pose proof (live_data_names _ _ (own_live _ _ O2)) as LN.
    assert (TQ : text st2 q = text st sec) by exact T1.
    rewrite (ebind_ask _ _ _ _ (lower_bound_ok st2 q (st_data st2) 0 Lq LN W)).
    rewrite (ebind_ask _ _ _ _ (@insert_ok keyed st2 n [] (st_data st2) Lq LN W)). change (text st2 (n_item n)) with (text st2 q). cbn [Nat.add].
    assert (EQ0 : Eqs (nm_of st2) (text st2 q) (st_data st2) = []).
    { rewrite TQ. rewrite <- V2 in N. unfold view in N. rewrite <- Eqs_view_data in N. destruct (Eqs (nm_of st2) (text st sec) (st_data st2)); [reflexivity|discriminate]. }
    rewrite EQ0. cbn [app].
    pose proof (partition_sorted (nm_of st2) (text st2 q) _ W) as P0. rewrite EQ0 in P0. cbn [app] in P0.
    set (A := Lt (nm_of st2) (text st2 q) (st_data st2)) in *. set (B := Gt (nm_of st2) (text st2 q) (st_data st2)) in *.
    assert (LAB : live_data st2 A /\ live_data st2 B). { apply live_data_app. rewrite <- P0. apply (own_live _ _ O2). }
    set (P' := match both key value with Some _ => held comment | None => [] end).
    assert (LC : live_opt st2 c /\ (Permutation (ids (held comment)) (id_opt c ++ ids P')) /\ incl P' (held comment)).
    { unfold c, P', section_comment, both. pose proof (own_held _ _ O2) as H. inversion H as [|? ? H1 H2]; subst.
      assert (IH : Permutation (ids (held comment)) (id_opt comment ++ ids [])).
      { unfold ids. destruct comment as [p|]; cbn; [rewrite !app_nil_r; apply Permutation_refl|constructor]. }
      assert (HL : live_opt st2 comment) by (destruct comment; [inversion H2; assumption|exact I]).
      destruct key, value; cbn; (split; [first [exact I|exact HL]|split; [first [apply Permutation_refl|exact IH]|first [apply incl_refl|intros ? []]]]). }
    destruct LC as (LC & PC & IC).
    destruct (own_put (q :: held comment) st2 [] P' (A ++ (n, []) :: B) O2) as [O3 V3].
    { apply live_data_app. split; [apply LAB|]. apply live_data_cons. split; [split; [split; [exact Lq|exact LC]|constructor]|apply LAB]. }
    { pose proof (own_held _ _ O2) as H. inversion H as [|? ? H1 H2]; subst. apply Forall_forall. intros p Hp. rewrite Forall_forall in H2. apply H2. apply IC. exact Hp. }
    { cbn [app]. rewrite P0 at 1. rewrite !ids_data_app, ids_data_cons. unfold ids at 1. cbn [flat_map]. fold (ids (held comment)). rewrite PC.
      unfold n. unfold ids_named. cbn [n_item n_comment ids_keyed flat_map app]. perm. }
    set (st3 := with_data (A ++ (n, []) :: B) st2) in *.
    assert (KEEP : forall p, live st p -> live st3 p /\ text st3 p = text st p) by (intros p Lp; apply (moved_all _ _ p M1 Lp)).
    assert (VN : view_named st2 n = rnew (text st sec) (option_map (text st) c) (S (st_order st))).
    { unfold view_named, n, rnew. cbn [n_item n_comment n_order]. rewrite TQ. rewrite (mv_order _ _ _ M1). f_equal.
      unfold c, section_comment. assert (CC : option_map (text st2) comment = option_map (text st) comment).
      { pose proof (own_held _ _ O) as H. destruct comment as [p|]; [|reflexivity]. cbn. f_equal. inversion H; subst. apply (moved_all _ _ p M1). assumption. }
      destruct key, value; first [exact CC|reflexivity]. }
    assert (VIEW3 : view st3 = Lt vn (text st sec) (view st) ++ (rnew (text st sec) (option_map (text st) c) (S (st_order st)), []) :: Gt vn (text st sec) (view st)).
    { rewrite V3. unfold view_data. rewrite map_app. cbn [map]. unfold view_part at 2. cbn [fst snd view_keyed map]. rewrite VN.
      fold (view_data st2 A). fold (view_data st2 B). unfold A, B. rewrite Lt_view_data, Gt_view_data. fold (view st2). rewrite V2, TQ. reflexivity. }
    assert (SE : is_eq vn (text st sec) (rnew (text st sec) (option_map (text st) c) (S (st_order st)), @nil (rnamed * bytes)) = true) by apply self_eq.
    destruct (same_three _ _ SE) as [SL SG].
    exists true, st3, A, n, [], B. split; [reflexivity|]. split; [reflexivity|]. split; [exact O3|].
    split; [|split; [|split; [|split; [|split; [|split; [|split; [|split]]]]]]].
    + unfold vsection. rewrite N, VIEW3. reflexivity.
    + rewrite VIEW3. split.
      * apply (secs_insert (view st) (rnew (text st sec) (option_map (text st) c) (S (st_order st)), @nil (rnamed * bytes)) (vs_secs _ V) N).
      * pose proof (vs_keys _ V) as H. apply Forall_app. split; [apply Forall_forall; intros e He; apply filter_In in He; rewrite Forall_forall in H; apply H; apply He|].
        constructor; [constructor|apply Forall_forall; intros e He; apply filter_In in He; rewrite Forall_forall in H; apply H; apply He].
    + rewrite VIEW3, Lt_mid; [|apply Lt_all|exact SL|apply Gt_all]. unfold A. change (view_data st3) with (view_data st2). rewrite Lt_view_data. fold (view st2). rewrite V2, TQ. reflexivity.
    + rewrite VIEW3, Gt_mid; [|apply Lt_all|exact SG|apply Gt_all]. unfold B. change (view_data st3) with (view_data st2). rewrite Gt_view_data. fold (view st2). rewrite V2, TQ. reflexivity.
    + rewrite VIEW3, Eq_mid; [|apply Lt_all|exact SE|apply Gt_all]. change (view_named st3 n) with (view_named st2 n). rewrite VN. reflexivity.
    + pose proof (moved_comment _ _ _ M1 O) as CM. destruct M1. split; assumption.
    + cbn. f_equal. apply (mv_order _ _ _ M1).
    + reflexivity.
    + exact KEEP.
  - exists false, st, A, n, l, B. split; [reflexivity|]. split; [exact DA|]. split; [|split; [|split; [exact V|split; [exact VA|split; [exact VB|split; [exact N|split; [split; reflexivity|split; [reflexivity|split; [discriminate|auto]]]]]]]]].
    + destruct (both key value); [exact O|]. apply (own_drop _ _ _ O); [intros ? []|constructor].
    + unfold vsection. rewrite N. reflexivity.
Qed.
