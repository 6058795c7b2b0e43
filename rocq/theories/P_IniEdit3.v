(** Lemmas about IniEdit.v: Delete. *)
From Coq Require Import Permutation Sorting.Sorted Lia.
From Verif Require Import Base P_Base CTypes StringUtils Ini P_Ini IniEdit Spec_Ini Spec_IniEdit P_IniEdit P_IniEdit2.

(** * Lists *)
Lemma nth_mid {A} (a : list A) x b : nth_error (a ++ x :: b) (length a) = Some x.
Proof. rewrite nth_error_app2 by lia. rewrite Nat.sub_diag. reflexivity. Qed.
Lemma replace_mid {A} (a : list A) x y b : replace_at (length a) y (a ++ x :: b) = a ++ y :: b.
Proof.
  unfold replace_at. rewrite firstn_app, Nat.sub_diag, firstn_all. cbn [firstn]. rewrite app_nil_r. f_equal. f_equal.
  rewrite skipn_app. rewrite (skipn_all2 a) by lia. replace (S (length a) - length a) with 1 by lia. reflexivity.
Qed.
Lemma erase_mid {A} (a : list A) x b : erase_at (length a) (a ++ x :: b) = a ++ b.
Proof.
  unfold erase_at. rewrite firstn_app, Nat.sub_diag, firstn_all. cbn [firstn]. rewrite app_nil_r. f_equal.
  rewrite skipn_app. rewrite (skipn_all2 a) by lia. replace (S (length a) - length a) with 1 by lia. reflexivity.
Qed.
Lemma skipn_mid {A} (a b : list A) : skipn (length a) (a ++ b) = b.
Proof. rewrite skipn_app, skipn_all, Nat.sub_diag. reflexivity. Qed.
Lemma firstn_mid {A} (a b : list A) : firstn (length a) (a ++ b) = a.
Proof. rewrite firstn_app, Nat.sub_diag, firstn_all. cbn. apply app_nil_r. Qed.
Lemma perm_front {A} (a b c : list A) : Permutation (a ++ b ++ c) (b ++ a ++ c).
Proof. apply Permutation_app_swap_app. Qed.
Lemma perm_here {A} (a r : list A) : Permutation (a ++ r) (a ++ r). Proof. apply Permutation_refl. Qed.
Lemma perm_atom {A} (a : list A) : Permutation a (a ++ []). Proof. rewrite app_nil_r. apply Permutation_refl. Qed.
Lemma perm_skip {A} (a b r r' : list A) : Permutation r (a ++ r') -> Permutation (b ++ r) (a ++ b ++ r').
Proof. intros H. rewrite H. apply Permutation_app_swap_app. Qed.
Lemma perm_skip_last {A} (a b : list A) r : r = a -> Permutation (b ++ r) (a ++ b).
Proof. intros ->. apply Permutation_app_comm. Qed.
Lemma perm_step {A} (a l r r' : list A) : Permutation r (a ++ r') -> Permutation l r' -> Permutation (a ++ l) r.
Proof. intros H1 H2. rewrite H1, H2. apply Permutation_refl. Qed.
Ltac perm_find := first [apply perm_here | apply perm_skip_last; reflexivity | apply perm_skip; perm_find | apply perm_atom].
Ltac perm := cbn [app]; rewrite <- ?app_assoc; cbn [app]; rewrite ?app_nil_r;
  repeat first [apply Permutation_refl | eapply perm_step; [perm_find|]].
Lemma ids_data_app a b : ids_data (a ++ b) = ids_data a ++ ids_data b.
Proof. apply flat_map_app. Qed.
Lemma ids_data_cons n l b : ids_data ((n, l) :: b) = ids_named n ++ ids_keyed l ++ ids_data b.
Proof. unfold ids_data. cbn. rewrite app_assoc. reflexivity. Qed.
Lemma ids_keyed_app a b : ids_keyed (a ++ b) = ids_keyed a ++ ids_keyed b.
Proof. apply flat_map_app. Qed.
Lemma ids_keyed_cons n v b : ids_keyed ((n, v) :: b) = ids_named n ++ id_of v ++ ids_keyed b.
Proof. unfold ids_keyed. cbn. rewrite app_assoc. reflexivity. Qed.
Lemma live_data_app st a b : live_data st (a ++ b) <-> live_data st a /\ live_data st b.
Proof. apply Forall_app. Qed.
Lemma live_keyed_app st a b : live_keyed st (a ++ b) <-> live_keyed st a /\ live_keyed st b.
Proof. apply Forall_app. Qed.
Lemma live_data_cons st n l b : live_data st ((n, l) :: b) <-> (live_named st n /\ live_keyed st l) /\ live_data st b.
Proof. split; intros H; [inversion H; subst; auto|constructor; [apply H|apply H]]. Qed.
Lemma live_keyed_cons st n v b : live_keyed st ((n, v) :: b) <-> (live_named st n /\ live st v) /\ live_keyed st b.
Proof. split; intros H; [inversion H; subst; auto|constructor; [apply H|apply H]]. Qed.
Lemma live_data_names st d : live_data st d -> live_names st d.
Proof. apply Forall_impl. intros e [[H _] _]. exact H. Qed.
Lemma live_keyed_names st l : live_keyed st l -> live_names st l.
Proof. apply Forall_impl. intros e [[H _] _]. exact H. Qed.

Lemma app_inj_len {A} (a b a' b' : list A) : length a = length a' -> a ++ b = a' ++ b' -> a = a' /\ b = b'.
Proof.
  revert a'. induction a as [|x a IH]; intros [|y a'] L H; cbn in *; try discriminate; [auto|].
  injection H as -> H. injection L as L. destruct (IH _ L H) as [-> ->]. auto.
Qed.
(** * Ownership after a change *)
(** the table becomes [d'], the call holds [P']; what went away is [G] *)
Lemma own_shrink P st st' F G P' d' : own P st -> moved F st st' -> incl F G -> live_data st d' -> Forall (live st) P' ->
  Permutation (ids P ++ id_opt (st_comment st) ++ ids_data (st_data st)) (G ++ ids P' ++ id_opt (st_comment st) ++ ids_data d') ->
  own P' (with_data d' st') /\ view (with_data d' st') = view_data st d' /\ (forall p, In p P' -> text st' p = text st p)
  /\ option_map (text st') (st_comment st) = option_map (text st) (st_comment st).
Proof.
  intros O M I LD LP PM. pose proof (Permutation_NoDup PM (own_once _ _ O)) as ND. destruct (nodup_app _ _ ND) as (_ & ND2 & DIS).
  assert (NF : forall i, In i (ids P' ++ id_opt (st_comment st) ++ ids_data d') -> ~ In i F).
  { intros i Hi Hf. apply (DIS i); [apply I; exact Hf|exact Hi]. }
  destruct (keep_data _ _ _ d' M LD) as [LD' VD']; [intros i Hi; apply NF; rewrite !in_app_iff; auto|].
  assert (HP : forall p, In p P' -> live st' p /\ text st' p = text st p).
  { intros p Hp. rewrite Forall_forall in LP. apply (mv_keep _ _ _ M p (LP p Hp)). intros i Hi. apply NF. rewrite !in_app_iff. left.
    unfold ids. apply in_flat_map. exists p. auto. }
  split; [|split; [exact VD'|split; [intros p Hp; apply HP; exact Hp|]]].
  2:{ pose proof (own_comment _ _ O) as C. destruct (st_comment st) as [c|]; [|reflexivity]. cbn [option_map]. f_equal.
      apply (mv_keep _ _ _ M c C). intros i Hi. apply NF. cbn. rewrite !in_app_iff. auto. }
  split.
  - exact LD'.
  - change (live_opt st' (st_comment st')). rewrite (mv_comment _ _ _ M). pose proof (own_comment _ _ O) as C.
    destruct (st_comment st) as [c|]; [|exact Logic.I]. apply (mv_keep _ _ _ M c C). intros i Hi. apply NF. cbn. rewrite !in_app_iff. auto.
  - apply Forall_forall. intros p Hp. apply HP. exact Hp.
  - change (NoDup (ids P' ++ id_opt (st_comment st') ++ ids_data d')). rewrite (mv_comment _ _ _ M). exact ND2.
  - apply (mv_fresh _ _ _ M). apply (own_fresh _ _ O).
Qed.
Lemma own_drop P P' st : own P st -> incl P' P -> NoDup (ids P') -> own P' st.
Proof.
  intros O I N. destruct O as [O1 O2 O3 O4 O5]. split; auto.
  - apply Forall_forall. rewrite Forall_forall in O3. auto.
  - destruct (nodup_app _ _ O4) as (_ & A & B). apply nodup_app_intro; auto. intros x Hx. apply B. unfold ids in *. rewrite in_flat_map in *.
    destruct Hx as (p & Hp & Hx). exists p. auto.
Qed.
Lemma own_tail p P st : own (p :: P) st -> own P st.
Proof. intros O. apply (own_drop _ _ _ O); [intros q; right; assumption|]. pose proof (own_once _ _ O) as N. unfold ids in *. cbn in N. rewrite <- app_assoc in N. apply nodup_app in N. destruct N as (_ & N & _). apply nodup_app in N. apply N. Qed.
Lemma own_perm P P' st : Permutation P P' -> own P st -> own P' st.
Proof.
  intros PM O. destruct O as [O1 O2 O3 O4 O5]. split; auto.
  - eapply Permutation_Forall; [exact PM|exact O3].
  - eapply Permutation_NoDup; [|exact O4]. apply Permutation_app_tail. unfold ids. apply Permutation_flat_map. exact PM.
Qed.
(** a copy is made *)
Lemma own_copy P st p : own P st -> live st p ->
  exists st', copy_string p st = Ok (Copied (st_fresh st), st') /\ moved [] st st' /\ own (Copied (st_fresh st) :: P) st' /\ text st' (Copied (st_fresh st)) = text st p
              /\ view st' = view st /\ st_fresh st' = S (st_fresh st).
Proof.
  intros O L. destruct (copy_string_ok st p (own_fresh _ _ O) L) as (st' & E & M & L' & T & F). exists st'.
  split; [exact E|]. split; [exact M|].
  assert (KEEP : forall q, live st q -> live st' q /\ text st' q = text st q) by (intros q Hq; apply (mv_keep _ _ _ M q Hq); intros i _ []).
  destruct (keep_data _ _ _ (st_data st) M (own_live _ _ O)) as [LD VD]; [intros i _ []|].
  split; [|split; [exact T|split; [unfold view; rewrite (mv_data _ _ _ M); exact VD|exact F]]]. split.
  - rewrite (mv_data _ _ _ M). exact LD.
  - rewrite (mv_comment _ _ _ M). pose proof (own_comment _ _ O) as C. destruct (st_comment st) as [c|]; [apply KEEP; exact C|exact I].
  - constructor; [exact L'|]. eapply Forall_impl; [|apply (own_held _ _ O)]. intros q Hq. apply KEEP. exact Hq.
  - rewrite (mv_comment _ _ _ M), (mv_data _ _ _ M). unfold ids. cbn [flat_map id_of app]. constructor; [|apply (own_once _ _ O)].
    intros H. fold (ids P) in H. rewrite !in_app_iff in H.
    assert (forall q, live st q -> In (st_fresh st) (id_of q) -> False) as NO by (intros q Hq Hi; pose proof (live_lt _ _ _ _ O Hq Hi); lia).
    destruct H as [H|[H|H]].
    + unfold ids in H. apply in_flat_map in H. destruct H as (q & Hq & Hi). pose proof (own_held _ _ O) as HH. rewrite Forall_forall in HH. apply (NO q (HH q Hq) Hi).
    + pose proof (own_comment _ _ O) as C. destruct (st_comment st) as [c|]; [apply (NO c C H)|exact H].
    + pose proof (own_live _ _ O) as LL. unfold ids_data in H. apply in_flat_map in H. destruct H as ([n l] & He & Hi).
      unfold live_data in LL. rewrite Forall_forall in LL. destruct (LL _ He) as [[L1 L2] L3]. cbn [fst snd] in *. unfold ids_named in Hi. rewrite !in_app_iff in Hi.
      destruct Hi as [[Hi|Hi]|Hi].
      * apply (NO _ L1 Hi).
      * destruct (n_comment n) as [c|]; [apply (NO c L2 Hi)|exact Hi].
      * unfold ids_keyed in Hi. apply in_flat_map in Hi. destruct Hi as ([m v] & He' & Hi). unfold live_keyed in L3. rewrite Forall_forall in L3.
        destruct (L3 _ He') as [[K1 K2] K3]. cbn [fst snd] in *. unfold ids_named in Hi. rewrite !in_app_iff in Hi. destruct Hi as [[Hi|Hi]|Hi].
        -- apply (NO _ K1 Hi).
        -- destruct (n_comment m) as [c|]; [apply (NO c K2 Hi)|exact Hi].
        -- apply (NO _ K3 Hi).
  - apply (mv_fresh _ _ _ M). apply (own_fresh _ _ O).
Qed.

(** * Finding a section *)
Lemma Lt_not_gt {X} (nm : X -> bytes) s a : is_lt nm s a = true -> is_gt nm s a = false.
Proof. intros H. destruct (three nm s a) as [(A & B & C)|[(A & B & C)|(A & B & C)]]; congruence. Qed.
Lemma eq_not_gt {X} (nm : X -> bytes) s a : is_eq nm s a = true -> is_gt nm s a = false.
Proof. intros H. destruct (three nm s a) as [(A & B & C)|[(A & B & C)|(A & B & C)]]; congruence. Qed.
Lemma section_search P st sec : own P st -> vsorted (view st) -> live st sec ->
  (find_name st sec (st_data st) = Ok None /\ Eqs vn (text st sec) (view st) = []) \/
  exists A n l B, st_data st = A ++ (n, l) :: B /\ find_name st sec (st_data st) = Ok (Some (length A))
    /\ view_data st A = Lt vn (text st sec) (view st) /\ view_data st B = Gt vn (text st sec) (view st)
    /\ Eqs vn (text st sec) (view st) = [(view_named st n, view_keyed st l)]
    /\ same_name (text st (n_item n)) (text st sec).
Proof.
  intros O V K. pose proof (secs_weak_a _ _ (vs_secs _ V)) as W. pose proof (live_data_names _ _ (own_live _ _ O)) as LN.
  pose proof (find_name_ok st sec (st_data st) K LN W) as F. pose proof (partition_sorted (nm_of st) (text st sec) _ W) as P0.
  destruct (one_section (view st) (text st sec) (vs_secs _ V)) as [N|[x N]]; unfold view in N; rewrite <- Eqs_view_data in N.
  - left. split; [|unfold view; rewrite <- Eqs_view_data; exact N]. rewrite F. destruct (Eqs (nm_of st) (text st sec) (st_data st)); [reflexivity|discriminate].
  - right. destruct (Eqs (nm_of st) (text st sec) (st_data st)) as [|[n l] r] eqn:Ee; [discriminate|]. destruct r; [|discriminate].
    exists (Lt (nm_of st) (text st sec) (st_data st)), n, l, (Gt (nm_of st) (text st sec) (st_data st)).
    split; [exact P0|]. split; [exact F|]. unfold view. rewrite Lt_view_data, Gt_view_data, <- Eqs_view_data, Ee. split; [reflexivity|]. split; [reflexivity|].
    split; [reflexivity|].
    assert (In (n, l) (Eqs (nm_of st) (text st sec) (st_data st))) as HI by (rewrite Ee; left; reflexivity). unfold Eqs in HI. apply filter_In in HI.
    destruct HI as [_ HI]. unfold is_eq, same_nameb, nm_of in HI. cbn [fst] in HI. apply beqb_eq in HI. exact HI.
Qed.
Lemma keys_split st k l : keys_sorted (view_keyed st l) -> l = Lt (nm_of st) k l ++ Eqs (nm_of st) k l ++ Gt (nm_of st) k l.
Proof. intros H. apply partition_sorted. apply keys_weak_a. exact H. Qed.
Lemma Gt_forall {X} (nm : X -> bytes) s l : Forall (fun e => is_gt nm s e = true) (Gt nm s l).
Proof. apply Forall_forall. intros e He. apply filter_In in He. apply He. Qed.
Lemma Eqs_forall {X} (nm : X -> bytes) s l : Forall (fun e => is_gt nm s e = false) (Eqs nm s l).
Proof. apply Forall_forall. intros e He. apply filter_In in He. apply eq_not_gt. apply He. Qed.

(** * Delete *)
Definition vdelete (s : bytes) (k : option bytes) (prune : bool) (v : vdata) : bool * vdata :=
  match Eqs vn s v with
  | [] => (false, v)
  | x :: _ =>
      match k with
      | None => (true, Lt vn s v ++ Gt vn s v)
      | Some k =>
          match Eqs vn k (snd x) with
          | [] => (false, v)
          | _ => match Lt vn k (snd x) ++ Gt vn k (snd x) with
                 | [] => if prune then (true, Lt vn s v ++ Gt vn s v) else (true, Lt vn s v ++ (fst x, []) :: Gt vn s v)
                 | r => (true, Lt vn s v ++ (fst x, r) :: Gt vn s v)
                 end
          end
      end
  end.
(** the settings, and everything else Delete leaves alone *)
Record settled (st st' : store) : Prop := {
  se_multi : st_multi st' = st_multi st; se_line : st_multiline st' = st_multiline st; se_spaces : st_spaces st' = st_spaces st;
  se_block : st_block st' = st_block st; se_comment : st_comment st' = st_comment st;
  se_text : option_map (text st') (st_comment st) = option_map (text st) (st_comment st) }.
Lemma moved_settled F st st' d : moved F st st' -> option_map (text st') (st_comment st) = option_map (text st) (st_comment st) -> settled st (with_data d st').
Proof. intros [? ? ? ? ? ? ? ? ? ?] ?. split; assumption. Qed.
Lemma moved_comment P st st' : moved [] st st' -> own P st -> option_map (text st') (st_comment st) = option_map (text st) (st_comment st).
Proof.
  intros M O. pose proof (own_comment _ _ O) as C. destruct (st_comment st) as [c|]; [|reflexivity]. cbn. f_equal. apply (mv_keep _ _ _ M c C). intros i _ [].
Qed.
Lemma settled_trans a b c : settled a b -> settled b c -> settled a c.
Proof. intros [? ? ? ? ? ?] [? ? ? ? ? ?]. split; congruence. Qed.

Lemma delete_ok P st sec key prune : own P st -> vsorted (view st) -> live st sec -> live_opt st key ->
  (forall k, key = Some k -> forall i n l, In i (id_of k) -> In (n, l) (st_data st) -> ~ In i (freed l)) ->
  exists st', delete (Some sec) key prune st = Ok (fst (vdelete (text st sec) (option_map (text st) key) prune (view st)), st')
    /\ own P st' /\ view st' = snd (vdelete (text st sec) (option_map (text st) key) prune (view st))
    /\ settled st st' /\ st_order st' = st_order st
    /\ (forall p, live st p -> (forall i n l, In i (id_of p) -> In (n, l) (st_data st) -> ~ In i (id_of (n_item n) ++ freed l)) -> live st' p /\ text st' p = text st p)
    /\ (forall p, In p P -> text st' p = text st p).
Proof.
  intros O V K KK D. unfold delete, vdelete.
  destruct (section_search P st sec O V K) as [[F N]|(A & n & l & B & DA & F & VA & VB & N & SN)].
  { rewrite (ebind_ask _ _ _ _ F), N. exists st. split; [reflexivity|]. split; [exact O|]. split; [reflexivity|]. split; [split; reflexivity|]. auto. }
  rewrite (ebind_ask _ _ _ _ F), N. cbn [option_map].
  rewrite (ebind_ask _ _ _ (Some (n, l))) by (rewrite DA; f_equal; apply nth_mid).
  assert (KS : keys_sorted (view_keyed st l)).
  { pose proof (vs_keys _ V) as H. unfold view in H. rewrite DA in H. unfold view_data in H. rewrite map_app in H. apply Forall_app in H. destruct H as [_ H]. cbn in H.
    inversion H; assumption. }
  pose proof (own_live _ _ O) as LD. rewrite DA in LD. apply live_data_app in LD. destruct LD as [LA LB]. apply live_data_cons in LB. destruct LB as [[LN LK] LB].
  pose proof (own_held _ _ O) as LP.
  assert (INN : In (n, l) (st_data st)) by (rewrite DA; apply in_or_app; right; left; reflexivity).
  destruct key as [k|]; cbn [live_opt option_map] in *.
  - pose proof (find_name_ok st k l KK (live_keyed_names _ _ LK) (keys_weak_a _ _ KS)) as G. rewrite (ebind_ask _ _ _ _ G). cbn [fst snd].
    rewrite <- Eqs_view_keyed. pose proof (keys_split st (text st k) l KS) as SP.
    rewrite <- Lt_view_keyed, <- Gt_view_keyed.
    set (a := Lt (nm_of st) (text st k) l) in *. set (b := Eqs (nm_of st) (text st k) l) in *. set (c := Gt (nm_of st) (text st k) l) in *.
    destruct b as [|e b0] eqn:Eb.
    { exists st. split; [reflexivity|]. split; [exact O|]. split; [reflexivity|]. split; [split; reflexivity|]. auto. }
    cbn [view_keyed map]. cbv beta iota. assert (SK : skipn (length a) l = (e :: b0) ++ c) by (rewrite SP; apply skipn_mid). rewrite SK.
    assert (LS : live_keyed st (a ++ (e :: b0) ++ c)) by (rewrite <- SP; exact LK).
    apply live_keyed_app in LS. destruct LS as [LSa LSbc]. pose proof LSbc as LSbc'. apply live_keyed_app in LSbc'. destruct LSbc' as [LSb LSc].
    pose proof (own_once _ _ O) as ND.
    assert (NDI : NoDup (ids_keyed l)).
    { rewrite DA, ids_data_app, ids_data_cons in ND. apply nodup_app in ND. destruct ND as (_ & ND & _). apply nodup_app in ND. destruct ND as (_ & ND & _).
      apply nodup_app in ND. destruct ND as (_ & ND & _). apply nodup_app in ND. destruct ND as (_ & ND & _). apply nodup_app in ND. apply ND. }
    assert (NDbc : NoDup (ids_keyed ((e :: b0) ++ c))).
    { rewrite SP, ids_keyed_app in NDI. apply nodup_app in NDI. apply NDI. }
    assert (FB : incl (freed (e :: b0)) (freed l)).
    { rewrite SP. unfold freed. rewrite !flat_map_app. intros i Hi. rewrite !in_app_iff. auto. }
    destruct (delete_run_ok k (e :: b0) c st) as (st1 & E1 & M1 & F1).
    + discriminate.
    + exact KK.
    + intros i Hi Hf. apply (D k eq_refl i n l Hi INN). apply FB. exact Hf.
    + exact LSbc.
    + exact NDbc.
    + rewrite <- Eb. apply Eqs_forall.
    + apply Gt_forall.
    + rewrite (ebind_ok _ _ _ _ _ E1). cbn [change]. unfold ebind at 1. unfold change at 1. cbn iota.
      rewrite (mv_data _ _ _ M1), DA, replace_mid. rewrite <- ?DA.
      assert (firstn (length a) l ++ c = a ++ c) as ->. { f_equal. rewrite SP. apply firstn_mid. }
      assert (LD' : live_data st (A ++ (n, a ++ c) :: B)).
      { apply live_data_app. split; [exact LA|]. apply live_data_cons. split; [split; [exact LN|apply live_keyed_app; auto]|exact LB]. }
      assert (PM : Permutation (ids P ++ id_opt (st_comment st) ++ ids_data (st_data st))
                               (ids_keyed (e :: b0) ++ ids P ++ id_opt (st_comment st) ++ ids_data (A ++ (n, a ++ c) :: B))).
      { rewrite DA, !ids_data_app, !ids_data_cons. rewrite SP at 1. rewrite !ids_keyed_app. rewrite <- !app_assoc.
        perm. }
      destruct (own_shrink P st st1 _ _ P _ O M1 (freed_ids _) LD' LP PM) as (O1 & V1 & T1 & C1).
      set (st2 := with_data (A ++ (n, a ++ c) :: B) st1) in *.
      assert (KEEP1 : forall p, live st p -> (forall i n0 l0, In i (id_of p) -> In (n0, l0) (st_data st) -> ~ In i (id_of (n_item n0) ++ freed l0)) -> live st2 p /\ text st2 p = text st p).
      { intros p Lp Hp. change (live st1 p /\ text st1 p = text st p). apply (mv_keep _ _ _ M1 p Lp). intros i Hi Hf. apply (Hp i n l Hi INN). apply in_or_app. right. apply FB. exact Hf. }
      assert (VIEW2 : view st2 = Lt vn (text st sec) (view st) ++ (view_named st n, view_keyed st a ++ view_keyed st c) :: Gt vn (text st sec) (view st)).
      { rewrite V1, <- VA, <- VB. unfold view_data. rewrite map_app. cbn [map]. unfold view_part at 2. cbn [fst snd]. unfold view_keyed. rewrite map_app. reflexivity. }
      assert (DONE : eret true st2 = Ok (true, st2) /\ own P st2 /\ settled st st2 /\ st_order st2 = st_order st) by
        (split; [reflexivity|split; [exact O1|split; [apply (moved_settled _ _ _ _ M1 C1)|apply (mv_order _ _ _ M1)]]]).
      destruct DONE as (DN1 & DN2 & DN3 & DN4).
      destruct (a ++ c) as [|x r] eqn:Eac.
      * apply app_eq_nil in Eac. destruct Eac as [Ea Ec]. rewrite Ea, Ec in *. cbn [view_keyed map app] in *. destruct prune.
        -- (* the empty section goes too *)
           unfold delete_section. destruct (delete_string_ok st2 (n_item n)) as (st3 & E3 & M3 & F3). rewrite (ebind_ok _ _ _ _ _ E3).
           unfold ebind, change, eret. rewrite (mv_data _ _ _ M3). unfold st2 at 1. cbn [st_data with_data]. rewrite erase_mid.
           assert (PM3 : Permutation (ids P ++ id_opt (st_comment st2) ++ ids_data (st_data st2))
                               (ids_named n ++ ids P ++ id_opt (st_comment st2) ++ ids_data (A ++ B))).
           { unfold st2. cbn [st_data with_data]. rewrite !ids_data_app, ids_data_cons. cbn [ids_keyed flat_map app].
             perm. }
           assert (LAB : live_data st2 (A ++ B)).
           { pose proof (own_live _ _ O1) as H. unfold st2 in H at 2. cbn [st_data with_data] in H. apply live_data_app in H. destruct H as [H1 H2]. apply live_data_cons in H2. apply live_data_app. split; [exact H1|apply H2]. }
           destruct (own_shrink P st2 st3 _ (ids_named n) P (A ++ B) O1 M3) as (O3 & V3 & T3 & C3).
           { intros i Hi. unfold ids_named. apply in_or_app. auto. }
           { exact LAB. }
           { apply (own_held _ _ O1). }
           { exact PM3. }
           eexists. split; [reflexivity|]. split; [exact O3|]. split; [|split; [|split; [|split]]].
           ++ cbn [snd]. change (view (with_data (A ++ B) st3) = Lt vn (text st sec) (view st) ++ Gt vn (text st sec) (view st)). rewrite V3. rewrite <- VA, <- VB.
              unfold view_data. rewrite map_app. 
              assert (X : view_data st2 (A ++ (n, []) :: B) = view_data st (A ++ (n, []) :: B)) by exact V1.
              unfold view_data in X. rewrite !map_app in X. cbn [map] in X.
              assert (LE : length (map (view_part st2) A) = length (map (view_part st) A)) by (rewrite !map_length; reflexivity).
              destruct (app_inj_len _ _ _ _ LE X) as [X1 X2]. apply (f_equal (@tl _)) in X2. cbn [tl] in X2. rewrite X1, X2. reflexivity.
           ++ apply (settled_trans _ _ _ DN3). apply (moved_settled _ _ _ _ M3 C3).
           ++ cbn. rewrite (mv_order _ _ _ M3). exact DN4.
           ++ intros p Lp Hp. destruct (KEEP1 p Lp Hp) as [Y1 Y2]. change (live st3 p /\ text st3 p = text st p). rewrite <- Y2.
              apply (mv_keep _ _ _ M3 p Y1). intros i Hi Hf. apply (Hp i n l Hi INN). apply in_or_app. auto.
           ++ intros p Hp. change (text st3 p = text st p). rewrite (T3 p Hp). apply (T1 p Hp).
        -- exists st2. split; [exact DN1|]. split; [exact DN2|]. split; [exact VIEW2|]. auto.
      * cbn [app]. exists st2.
        assert (VR : view_keyed st a ++ view_keyed st c = view_line st x :: map (view_line st) r).
        { unfold view_keyed. rewrite <- map_app, Eac. reflexivity. }
        unfold view_keyed in VR |- *. rewrite VR. cbn [fst snd]. split; [exact DN1|]. split; [exact DN2|]. split; [|auto].
        rewrite VIEW2. unfold view_keyed. rewrite VR. reflexivity.
  - destruct (delete_strings_ok l st) as (st1 & E1 & M1 & F1). rewrite (ebind_ok _ _ _ _ _ E1).
    unfold delete_section. destruct (delete_string_ok st1 (n_item n)) as (st2 & E2 & M2 & F2). rewrite (ebind_ok _ _ _ _ _ E2).
    pose proof (moved_trans _ _ _ _ _ M1 M2) as M. unfold ebind, change, eret. rewrite (mv_data _ _ _ M), DA, erase_mid. rewrite <- ?DA.
    destruct (own_shrink P st st2 _ (ids_keyed l ++ ids_named n) P (A ++ B) O M) as (O3 & V3 & T3 & C3).
    { intros i Hi. rewrite in_app_iff in *. destruct Hi as [Hi|Hi]; [left; apply freed_ids; exact Hi|right; unfold ids_named; apply in_or_app; auto]. }
    { apply live_data_app. auto. }
    { exact LP. }
    { rewrite DA, !ids_data_app, ids_data_cons. perm. }
    eexists. split; [reflexivity|]. split; [exact O3|]. split; [|split; [|split; [|split]]].
    + cbn [snd]. rewrite V3, <- VA, <- VB. unfold view_data. apply map_app.
    + apply (moved_settled _ _ _ _ M C3).
    + apply (mv_order _ _ _ M).
    + intros p Lp Hp. apply (mv_keep _ _ _ M p Lp). intros i Hi Hf. apply (Hp i n l Hi INN). rewrite in_app_iff in *. tauto.
    + intros p Hp. apply (T3 p Hp).
Qed.
