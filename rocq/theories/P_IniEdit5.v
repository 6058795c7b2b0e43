(** Lemmas about IniEdit.v: AddEntry, continued. *)
From Coq Require Import Permutation Sorting.Sorted Lia.
From Verif Require Import Base P_Base CTypes StringUtils Ini P_Ini IniEdit Spec_Ini Spec_IniEdit P_IniEdit P_IniEdit2 P_IniEdit3 P_IniEdit4.

Lemma keys_at_mid st A n l B : st_data st = A ++ (n, l) :: B -> keys_at (length A) st = l.
Proof. intros H. unfold keys_at. rewrite H, nth_mid. reflexivity. Qed.
Lemma set_keys_mid st A n l B l' : st_data st = A ++ (n, l) :: B -> set_keys (length A) l' st = with_data (A ++ (n, l') :: B) st.
Proof. intros H. unfold set_keys. rewrite H, nth_mid, replace_mid. reflexivity. Qed.
Lemma view_mid st d A n l B : d = A ++ (n, l) :: B -> view_data st d = view_data st A ++ (view_named st n, view_keyed st l) :: view_data st B.
Proof. intros ->. unfold view_data. rewrite map_app. reflexivity. Qed.
Lemma view_split st d X y Z : view_data st d = X ++ y :: Z ->
  exists A n l B, d = A ++ (n, l) :: B /\ length A = length X /\ view_data st A = X /\ (view_named st n, view_keyed st l) = y /\ view_data st B = Z.
Proof.
  intros H. unfold view_data in H. apply map_eq_app in H. destruct H as (A & R & -> & <- & H). destruct R as [|[n l] B]; [discriminate|].
  cbn [map] in H. injection H as <- <-. exists A, n, l, B. rewrite map_length. auto.
Qed.

(** the entry put into the multimap *)
Definition put_entry (i : nat) (key value : ptr) (comment : option ptr) (o : nat) (copy : bool) : E si_code :=
  key <! copy_if copy key ;;
  value <! copy_if copy value ;;
  l <! ask (fun st => insert st {| n_item := key; n_comment := comment; n_order := o |} value (keys_at i st)) ;;
  _ <! change (set_keys i l) ;;
  eret SI_INSERTED.
Lemma put_entry_ok st A n l B key value comment o copy :
  own (held comment) st -> st_data st = A ++ (n, l) :: B -> keys_sorted (view_keyed st l) ->
  live st key -> live st value -> (copy = false -> id_of key = [] /\ id_of value = []) ->
  exists st', put_entry (length A) key value comment o copy st = Ok (SI_INSERTED, st') /\ own [] st'
    /\ view st' = view_data st A ++ (view_named st n,
         Lt vn (text st key) (view_keyed st l) ++ Eqs vn (text st key) (view_keyed st l) ++
         (rnew (text st key) (option_map (text st) comment) o, text st value) :: Gt vn (text st key) (view_keyed st l)) :: view_data st B
    /\ settled st st' /\ st_order st' = st_order st.
Proof.
  intros O DA KS LK LV NI. unfold put_entry.
  destruct (copy_if_ok copy _ st key O LK (fun H => proj1 (NI H))) as (k & st1 & E1 & M1 & O1 & T1 & V1). rewrite (ebind_ok _ _ _ _ _ E1).
  destruct (moved_all _ _ value M1 LV) as [LV1 TV1].
  destruct (copy_if_ok copy _ st1 value O1 LV1 (fun H => proj2 (NI H))) as (v & st2 & E2 & M2 & O2 & T2 & V2). rewrite (ebind_ok _ _ _ _ _ E2).
  pose proof (moved_trans _ _ _ _ _ M1 M2) as M. cbn [app] in M.
  assert (D2 : st_data st2 = A ++ (n, l) :: B) by (rewrite (mv_data _ _ _ M); exact DA).
  assert (LD2 : live_data st2 (A ++ (n, l) :: B)) by (rewrite <- D2; apply (own_live _ _ O2)).
  pose proof LD2 as LD2'. apply live_data_app in LD2'. destruct LD2' as [LA LB]. apply live_data_cons in LB. destruct LB as [[LN LL] LB].
  pose proof (own_live _ _ O) as LD0. rewrite DA in LD0. pose proof LD0 as LD0'. apply live_data_app in LD0'. destruct LD0' as [LA0 LB0]. apply live_data_cons in LB0. destruct LB0 as [[LN0 LL0] LB0].
  assert (NO : forall (x : list nat) i, In i x -> ~ In i []) by (intros x i _ []).
  destruct (keep_keyed _ _ _ l M LL0) as [_ VL]; [intros i _ []|].
  destruct (keep_data _ _ _ A M LA0) as [_ VA]; [intros i _ []|]. destruct (keep_data _ _ _ B M LB0) as [_ VB]; [intros i _ []|].
  destruct (keep_named _ _ _ n M LN0) as (_ & N1 & N2); [intros i _ []|].
  pose proof (own_held _ _ O2) as HH. inversion HH as [|? ? Hv HH1]; subst. inversion HH1 as [|? ? Hk HH2]; subst.
  assert (TK : text st2 k = text st key). { rewrite <- T1. apply (moved_all _ _ k M2). pose proof (own_held _ _ O1) as H. inversion H; assumption. }
  assert (TV : text st2 v = text st value) by congruence.
  assert (TC : option_map (text st2) comment = option_map (text st) comment).
  { pose proof (own_held _ _ O) as H. destruct comment as [p|]; [|reflexivity]. cbn. f_equal. inversion H; subst. apply (moved_all _ _ p M). assumption. }
  assert (KS2 : keys_sorted (view_keyed st2 l)) by (rewrite VL; exact KS).
  set (e := {| n_item := k; n_comment := comment; n_order := o |}).
  rewrite (ebind_ask _ _ _ _ (eq_trans (f_equal (insert st2 e v) (keys_at_mid _ _ _ _ _ D2)) (insert_ok st2 e v l Hk (live_keyed_names _ _ LL) (keys_weak_a _ _ KS2)))).
  unfold ebind at 1, change at 1. cbn iota. rewrite (set_keys_mid _ _ _ _ _ _ D2).
  change (text st2 (n_item e)) with (text st2 k).
  pose proof (keys_split st2 (text st2 k) l KS2) as SP.
  set (a := Lt (nm_of st2) (text st2 k) l) in *. set (b := Eqs (nm_of st2) (text st2 k) l) in *. set (c := Gt (nm_of st2) (text st2 k) l) in *.
  assert (LS : live_keyed st2 (a ++ b ++ c)) by (rewrite <- SP; exact LL).
  apply live_keyed_app in LS. destruct LS as [LSa LS]. apply live_keyed_app in LS. destruct LS as [LSb LSc].
  destruct (own_put (v :: k :: held comment) st2 [] [] (A ++ (n, a ++ b ++ (e, v) :: c) :: B) O2) as [O3 V3].
  { apply live_data_app. split; [exact LA|]. apply live_data_cons. split; [|exact LB]. split; [exact LN|].
    apply live_keyed_app. split; [exact LSa|]. apply live_keyed_app. split; [exact LSb|]. apply live_keyed_cons. split; [|exact LSc].
    split; [|exact Hv]. split; [exact Hk|]. unfold e. cbn. destruct comment; [|exact I]. cbn. inversion HH2; assumption. }
  { constructor. }
  { rewrite D2, !ids_data_app, !ids_data_cons. rewrite SP at 1. rewrite !ids_keyed_app, ids_keyed_cons. unfold ids. cbn [flat_map app].
    unfold ids_named, e. cbn [n_item n_comment].
    assert (flat_map id_of (held comment) = id_opt comment) as -> by (destruct comment; cbn; [apply app_nil_r|reflexivity]). perm. }
  exists (with_data (A ++ (n, a ++ b ++ (e, v) :: c) :: B) st2). split; [reflexivity|]. split; [exact O3|]. split; [|split].
  - rewrite V3, (view_mid st2 _ _ _ _ _ eq_refl), VA, VB. f_equal. f_equal. f_equal.
    + unfold view_named. rewrite N1, N2. reflexivity.
    + unfold view_keyed at 1. rewrite !map_app. cbn [map]. fold (view_keyed st2 a) (view_keyed st2 b) (view_keyed st2 c).
      unfold a, b, c. rewrite Lt_view_keyed, Eqs_view_keyed, Gt_view_keyed, TK, VL. f_equal. f_equal. f_equal.
      unfold view_line, view_named, e, rnew. cbn [fst snd n_item n_comment n_order]. rewrite TK, TV, TC. reflexivity.
  - apply (moved_settled _ _ _ _ M (moved_comment _ _ _ M O)).
  - apply (mv_order _ _ _ M).
Qed.

(** the entry with the smallest load order is the first of its key *)
Lemma oldest_first (e : named * ptr) r o : StronglySorted (fun a b => n_order (fst a) < n_order (fst b)) (e :: r) ->
  n_order (fst e) < o -> oldest (e :: r) o None = (n_order (fst e), n_comment (fst e)).
Proof.
  intros S H. destruct e as [n v]. cbn [oldest fst] in *. destruct (Nat.ltb_spec (n_order n) o); [|lia].
  inversion S as [|? ? S1 F]; subst. cbn [fst] in F. clear S H H0. induction r as [|[m w] r IH]; [reflexivity|]. cbn [oldest].
  inversion F as [|? ? F1 F2]; subst. cbn [fst] in F1. destruct (Nat.ltb_spec (n_order m) (n_order n)); [lia|]. apply IH; [|exact F2].
  inversion S1; assumption.
Qed.
Lemma eqs_orders st k l : keys_sorted (view_keyed st l) -> StronglySorted (fun a b => n_order (fst a) < n_order (fst b)) (Eqs (nm_of st) k l).
Proof.
  intros H. pose proof (proj1 (sorted_map fst key_before (view_keyed st l)) H) as H0.
  pose proof (proj1 (sorted_map (view_line st) _ l) H0) as H1. clear H H0. unfold Eqs. induction H1 as [|a l S IH F]; [constructor|]. cbn [filter].
  destruct (is_eq (nm_of st) k a) eqn:Ea; [|exact IH]. constructor; [exact IH|]. apply Forall_forall. intros b Hb. apply filter_In in Hb. destruct Hb as [Hb Eb].
  rewrite Forall_forall in F. specialize (F b Hb). destruct F as [F|[_ F]]; [|exact F]. exfalso. cbn in F. unfold is_eq, same_nameb, nm_of in *.
  apply beqb_eq in Ea, Eb. rewrite (nocase_less_irrefl (text st (n_item (fst a))) (text st (n_item (fst b)))) in F; [discriminate|]. unfold same_name. congruence.
Qed.

Definition orders_below (o : nat) (v : vdata) : Prop :=
  Forall (fun e => r_order (fst e) <= o /\ Forall (fun x => r_order (fst x) <= o) (snd e)) v.

Definition kv_of (st : store) (key value : option ptr) : option (bytes * bytes) :=
  option_map (fun kv => (text st (fst kv), text st (snd kv))) (both key value).
Lemma option_map_both st key value : kv_of st key value = both (option_map (text st) key) (option_map (text st) value).
Proof. destruct key, value; reflexivity. Qed.

Lemma add_entry_ok st sec key value comment force copy :
  own [] st -> vsorted (view st) -> orders_below (st_order st) (view st) ->
  live st sec -> live_opt st key -> live_opt st value -> live_opt st comment ->
  (copy = false -> id_of sec = [] /\ id_opt key = [] /\ id_opt value = [] /\ id_opt comment = []) ->
  (st_multi st && force = true -> id_of sec = [] /\ id_opt key = [] /\ id_opt value = []) ->
  let s := text st sec in let kv := kv_of st key value in let c := option_map (text st) comment in
  exists st', add_entry sec key value comment force copy st = Ok (if vadded (st_multi st) s kv (view st) then SI_INSERTED else SI_UPDATED, st')
    /\ own [] st' /\ view st' = vset (st_multi st) force s kv c (st_order st) (view st)
    /\ settled st st' /\ st_order st' = vorder s kv (st_order st) (view st).
Proof.
  intros O V OB LS LK LV LC NI NF s kv c. unfold add_entry.
  destruct (copy_opt_ok copy [] st comment O LC (fun H => proj2 (proj2 (proj2 (NI H))))) as (co & st1 & E1 & M1 & O1 & T1 & V1).
  rewrite (ebind_ok _ _ _ _ _ E1). rewrite app_nil_r in O1.
  destruct (moved_all _ _ sec M1 LS) as [LS1 TS1].
  assert (SV1 : vsorted (view st1)) by (rewrite V1; exact V).
  destruct (add_section_ok st1 sec key value co copy O1 SV1 LS1 (fun H => proj1 (NI H)))
    as (made & st2 & A & n & l & B & E2 & D2 & O2 & V2 & SV2 & VA & VB & N2 & SE2 & OR2 & ML & KEEP2).
  rewrite (ebind_ok _ _ _ _ _ E2). rewrite TS1 in *. fold s in V2, VA, VB, N2. rewrite V1, (mv_order _ _ _ M1) in V2. rewrite (mv_order _ _ _ M1) in OR2.
  assert (SE02 : settled st st2). { apply (settled_trans _ st1); [|exact SE2]. pose proof (moved_comment _ _ _ M1 O) as CM. destruct M1. split; assumption. }
  assert (MADE : made = match Eqs vn s (view st) with [] => true | _ => false end).
  { unfold vsection in V2. destruct (Eqs vn s (view st)); injection V2 as _ ->; reflexivity. }
  assert (KEEP02 : forall p, live st p -> live st2 p /\ text st2 p = text st p).
  { intros p Lp. destruct (moved_all _ _ p M1 Lp) as [X1 X2]. destruct (KEEP2 p X1) as [X3 X4]. split; [exact X3|congruence]. }
  destruct (both key value) as [[k v]|] eqn:EB.
  2:{ (* a section by itself *)
      assert (KV0 : kv = None) by (unfold kv, kv_of; rewrite EB; reflexivity). rewrite KV0.
      assert (SC : section_comment key value co = co) by (destruct key, value; try discriminate; reflexivity). rewrite SC in V2.
      exists st2. split; [|split; [exact O2|split; [|split; [exact SE02|]]]].
      - unfold vadded. rewrite MADE. destruct (Eqs vn s (view st)); destruct key, value; try discriminate; reflexivity.
      - unfold vset. rewrite T1 in V2. fold c in V2. rewrite <- V2. reflexivity.
      - unfold vorder. rewrite OR2, MADE. destruct (Eqs vn s (view st)); reflexivity. }
  destruct key as [k'|], value as [v'|]; try discriminate. injection EB as -> ->. cbn [live_opt id_opt] in *.
  assert (KV1 : kv = Some (text st k, text st v)) by reflexivity. rewrite KV1. clear KV1 kv.
  destruct (KEEP02 k LK) as [LK2 TK2]. destruct (KEEP02 v LV) as [LV2 TV2].
  cbn [section_comment option_map] in V2.
  pose proof (own_live _ _ O2) as LD. rewrite D2 in LD. pose proof LD as LD'. apply live_data_app in LD'. destruct LD' as [LA LB]. apply live_data_cons in LB. destruct LB as [[LN LL] LB].
  assert (KS : keys_sorted (view_keyed st2 l)).
  { pose proof (vs_keys _ SV2) as H. unfold view in H. rewrite (view_mid _ _ _ _ _ _ D2) in H. apply Forall_app in H. destruct H as [_ H]. inversion H; assumption. }
  pose proof (find_name_ok st2 k l LK2 (live_keyed_names _ _ LL) (keys_weak_a _ _ KS)) as G.
  rewrite (ebind_ask _ _ _ _ (eq_trans (f_equal (find_name st2 k) (keys_at_mid _ _ _ _ _ D2)) G)). clear G.
  unfold ebind at 1, next_order at 1. cbn iota.
  set (st3 := with_order (S (st_order st2)) st2).
  pose proof (own_order _ _ (S (st_order st2)) O2) as O3. fold st3 in O3.
  unfold ebind at 1, ask at 1. cbn [rbind]. change (st_multi st3) with (st_multi st2). rewrite (se_multi _ _ SE02).
  set (multi := st_multi st) in *. 
  (* the contents after the key is entered *)
  assert (FIN : forall l', vset multi force s (Some (text st k, text st v)) c (st_order st) (view st) =
     view_data st2 A ++ (view_named st2 n, l') :: view_data st2 B <-> vkeys multi force (text st k) (text st v) c (S (st_order st2)) (view_keyed st2 l) = l').
  { intros l'. unfold vset. rewrite <- V2. rewrite OR2. rewrite N2, <- VA, <- VB. cbn [fst snd]. split; intros H; [|rewrite H; reflexivity].
    apply app_inj_len in H; [|reflexivity]. destruct H as [_ H]. injection H as H. exact H. }
  assert (ORD : S (st_order st2) = vorder s (Some (text st k, text st v)) (st_order st) (view st)).
  { unfold vorder. rewrite OR2, MADE. destruct (Eqs vn s (view st)); reflexivity. }
  assert (ADD : vadded multi s (Some (text st k, text st v)) (view st) = made || multi || match Eqs vn (text st k) (view_keyed st2 l) with [] => true | _ => false end).
  { unfold vadded. unfold vsection in V2. rewrite MADE. destruct (Eqs vn s (view st)) as [|x r] eqn:EX; [reflexivity|]. injection V2 as V2 _. rewrite V2, EX in N2. injection N2 as -> _. reflexivity. }
  rewrite TK2. rewrite <- Eqs_view_keyed, <- TK2 in ADD. unfold vkeys in FIN. 
  assert (TC2 : option_map (text st2) co = c).
  { try (unfold c; rewrite <- T1). pose proof (own_held _ _ O1) as H. destruct co as [p|]; [|reflexivity]. cbn. f_equal. inversion H; subst. apply (KEEP2 p). assumption. }
  assert (PUT : forall q o', own (held q) st3 -> exists st', put_entry (length A) k v q o' copy st3 = Ok (SI_INSERTED, st') /\ own [] st'
    /\ view st' = view_data st2 A ++ (view_named st2 n, Lt vn (text st k) (view_keyed st2 l) ++ Eqs vn (text st k) (view_keyed st2 l) ++
         (rnew (text st k) (option_map (text st2) q) o', text st v) :: Gt vn (text st k) (view_keyed st2 l)) :: view_data st2 B
    /\ settled st st' /\ st_order st' = S (st_order st2)).
  { intros q o' Oq. destruct (put_entry_ok st3 A n l B k v q o' copy Oq D2 KS LK2 LV2) as (st' & P1 & P2 & P3 & P4 & P5).
    { intros H. destruct (NI H) as (_ & H1 & H2 & _). auto. }
    exists st'. split; [exact P1|]. split; [exact P2|]. split; [|split; [apply (settled_trans _ _ _ SE02); destruct P4; split; assumption|exact P5]].
    change (text st3) with (text st2) in P3. rewrite TK2, TV2 in P3. exact P3. }
  pose proof (keys_split st2 (text st2 k) l KS) as SP.
  rewrite <- TK2 in *. 
  destruct (Eqs (nm_of st2) (text st2 k) l) as [|[ne ve] r] eqn:EE.
  - (* a new key *)
    unfold ebind at 1, eret at 1. cbn iota beta.
    destruct (PUT co (S (st_order st2)) O3) as (st' & P1 & P2 & P3 & P4 & P5). 
    exists st'. split; [|split; [exact P2|split; [|split; [exact P4|rewrite <- ORD; exact P5]]]].
    + unfold put_entry in P1. rewrite ADD. rewrite !orb_true_r. exact P1.
    + rewrite P3. symmetry. apply FIN. rewrite <- Eqs_view_keyed, EE. cbn [view_keyed map app]. rewrite TC2. reflexivity.
  - destruct (multi && force) eqn:MF.
    + (* all values replaced *)
      destruct (NF eq_refl) as (NS & NK & NV). apply andb_true_iff in MF. destruct MF as [MU FO]. 
      assert (MD : made = false) by (destruct made; [rewrite (ML eq_refl) in EE; discriminate|reflexivity]).
      assert (V02 : view st2 = view st). { unfold vsection in V2. rewrite MD in V2. destruct (Eqs vn s (view st)); [discriminate|]. injection V2 as V2. exact V2. }
      set (a := Lt (nm_of st2) (text st2 k) l) in *. set (b := Gt (nm_of st2) (text st2 k) l) in *.
      rewrite ebind_assoc.
      assert (EQ : equals st3 k (skipn (length a) (keys_at (length A) st3)) = Ok ((ne, ve) :: r)).
      { rewrite (keys_at_mid st3 _ _ _ _ D2). rewrite SP at 1. rewrite skipn_mid. apply equals_ok; [exact LK2| | |].
        - pose proof (live_keyed_names _ _ LL) as H. unfold live_names in H |- *. rewrite SP in H. apply Forall_app in H. apply H.
        - rewrite <- EE. apply Eqs_forall.
        - apply Gt_forall. }
      rewrite (ebind_ask _ _ _ _ EQ).
      assert (INE : In (ne, ve) l) by (rewrite SP; apply in_or_app; right; left; reflexivity).
      assert (LT : n_order ne < S (st_order st2)).
      { rewrite OR2, MD. unfold view in V02. rewrite (view_mid _ _ _ _ _ _ D2) in V02. unfold orders_below, view in OB. rewrite <- V02 in OB. apply Forall_app in OB. destruct OB as [_ OB].
        apply Forall_inv in OB. destruct OB as [_ OB1]. cbn [snd] in OB1. rewrite Forall_forall in OB1. 
        specialize (OB1 (view_line st2 (ne, ve)) (in_map (view_line st2) _ _ INE)). cbn in OB1. lia. }
      assert (OL : oldest ((ne, ve) :: r) (S (st_order st2)) None = (n_order ne, n_comment ne)).
      { apply (oldest_first (ne, ve) r _); [|exact LT]. rewrite <- EE. apply eqs_orders. exact KS. }
      rewrite OL. cbn iota beta. rewrite ebind_assoc.
      assert (LNE : live_named st2 ne). { pose proof LL as H. unfold live_keyed in H. rewrite Forall_forall in H. apply (H _ INE). }
      assert (COM : exists q st5, (match n_comment ne with
                           | None => eret co
                           | Some c => _ <! (match co with Some q => delete_string q | None => eret tt end) ;; c <! copy_string c ;; eret (Some c)
                           end) st3 = Ok (q, st5) /\ own (held q) st5 /\ view st5 = view st2 /\ settled st3 st5 /\ st_order st5 = st_order st3
                  /\ option_map (text st5) q = match option_map (text st2) (n_comment ne) with Some x => Some x | None => c end).
      { destruct (n_comment ne) as [cp|] eqn:NC.
        2:{ exists co, st3. split; [reflexivity|]. split; [exact O3|]. split; [reflexivity|]. split; [split; reflexivity|]. split; [reflexivity|]. exact TC2. }
        assert (D4 : exists st4, (match co with Some q => delete_string q | None => eret tt end) st3 = Ok (tt, st4) /\ moved (ids (held co)) st3 st4).
        { destruct co as [q|]; cbn [held]; [|exists st3; split; [reflexivity|apply moved_refl]].
          destruct (delete_string_ok st3 q) as (st4 & X1 & X2 & _). exists st4. split; [exact X1|]. unfold ids. cbn. rewrite app_nil_r. exact X2. }
        destruct D4 as (st4 & E4 & M4). rewrite (ebind_ok _ _ _ _ _ E4).
        destruct (own_shrink (held co) st3 st4 (ids (held co)) (ids (held co)) [] (st_data st3) O3 M4 (incl_refl _) (own_live _ _ O3) (Forall_nil _)) as (O4 & V4 & _ & C4).
        { apply Permutation_refl. }
        assert (WD : with_data (st_data st3) st4 = st4) by (rewrite <- (mv_data _ _ _ M4); destruct st4; reflexivity).
        rewrite WD in O4, V4. fold (view st3) in V4. 
        assert (D4 : st_data st4 = A ++ (n, a ++ (ne, ve) :: r ++ b) :: B) by (rewrite (mv_data _ _ _ M4); change (st_data st3) with (st_data st2); rewrite D2, SP at 1; reflexivity).
        assert (LC4 : live st4 cp /\ text st4 cp = text st2 cp).
        { split.
          - pose proof (own_live _ _ O4) as H. rewrite D4 in H. apply live_data_app in H. destruct H as [_ H]. apply live_data_cons in H. destruct H as [[_ H] _].
            apply live_keyed_app in H. destruct H as [_ H]. apply live_keyed_cons in H. destruct H as [[[_ H] _] _]. rewrite NC in H. exact H.
          - unfold view in V4. rewrite (view_mid _ _ _ _ _ _ D4) in V4. change (view_data st3 (st_data st3)) with (view_data st2 (st_data st2)) in V4.
            assert (D2' : st_data st2 = A ++ (n, a ++ (ne, ve) :: r ++ b) :: B) by (rewrite D2, SP at 1; reflexivity).
            rewrite (view_mid _ _ _ _ _ _ D2') in V4. apply app_inj_len in V4; [|unfold view_data; rewrite !map_length; reflexivity]. destruct V4 as [_ V4].
            apply (f_equal (fun x => match x with (_, y) :: _ => y | [] => [] end)) in V4. unfold view_keyed in V4. rewrite !map_app in V4. cbn [map] in V4.
            apply app_inj_len in V4; [|rewrite !map_length; reflexivity]. destruct V4 as [_ V4].
            apply (f_equal (fun x => match x with (y, _) :: _ => r_comment y | [] => None end)) in V4. cbn in V4. rewrite NC in V4. cbn in V4. injection V4 as V4. exact V4. }
        destruct (own_copy [] st4 cp O4 (proj1 LC4)) as (st5 & E5 & M5 & O5 & T5 & V5 & _). rewrite (ebind_ok _ _ _ _ _ E5).
        exists (Some (Copied (st_fresh st4))), st5. split; [reflexivity|]. split; [exact O5|]. split; [rewrite V5, V4; reflexivity|].
        pose proof (moved_comment _ _ _ M5 O4) as C5. destruct M4, M5. split; [split; congruence|]. split; [congruence|]. cbn. rewrite T5, (proj2 LC4). reflexivity. }
      destruct COM as (q & st5 & E5 & O5 & V5 & SE5 & OR5 & TQ5).
      rewrite (ebind_ok _ _ _ _ _ E5). rewrite ebind_assoc.
      assert (IDL : forall p x y, id_of p = [] -> live x p /\ text x p = text y p) by (intros [z|z|i] x y H; [split; reflexivity|split; reflexivity|discriminate]).
      assert (SV5 : vsorted (view st5)) by (rewrite V5; exact SV2).
      destruct (delete_ok (held q) st5 sec (Some k) false O5 SV5 (proj1 (IDL sec st5 st NS)) (proj1 (IDL k st5 st NK))) as (st6 & E6 & O6 & V6 & SE6 & OR6 & _ & TX6).
      { intros k0 H. injection H as <-. intros i n0 l0 Hi. rewrite NK in Hi. destruct Hi. }
      rewrite (ebind_ok _ _ _ _ _ E6). unfold ebind at 1, eret at 1. cbn iota beta.
      cbn [option_map] in V6. rewrite (proj2 (IDL sec st5 st NS)), (proj2 (IDL k st5 st2 NK)) in V6. fold s in V6. rewrite V5 in V6.
      unfold vdelete in V6. rewrite N2 in V6. cbn [fst snd] in V6. rewrite <- Eqs_view_keyed, EE in V6. cbn [view_keyed map] in V6.
      assert (V6' : view st6 = view_data st2 A ++ (view_named st2 n, Lt vn (text st2 k) (view_keyed st2 l) ++ Gt vn (text st2 k) (view_keyed st2 l)) :: view_data st2 B).
      { rewrite V6, VA, VB. destruct (Lt vn (text st2 k) (view_keyed st2 l) ++ Gt vn (text st2 k) (view_keyed st2 l)); reflexivity. }
      destruct (view_split _ _ _ _ _ V6') as (A' & n' & l' & B' & D6 & LA' & VA6 & VX6 & VB6). 
      assert (LAA : length A' = length A) by (rewrite LA'; unfold view_data; apply map_length).
      assert (VN6 := f_equal fst VX6). assert (VL6 := f_equal snd VX6). cbn [fst snd] in VN6, VL6.
      assert (KS6 : keys_sorted (view_keyed st6 l')).
      { rewrite VL6. unfold keys_sorted in KS |- *. rewrite map_app. pose proof (partition_sorted vn (text st2 k) (view_keyed st2 l) (keys_weak _ KS)) as PP. rewrite PP in KS. rewrite !map_app in KS.
        clear -KS. set (x := map fst (Lt _ _ _)) in *. set (y := map fst (Eqs _ _ _)) in *. set (z := map fst (Gt _ _ _)) in *. clearbody x y z.
        induction x as [|i x IH]; cbn [app] in *.
        - induction y as [|j y IH]; [exact KS|]. apply IH. inversion KS; assumption.
        - inversion KS as [|? ? X1 X2]; subst. constructor; [apply IH; exact X1|]. apply Forall_app in X2. destruct X2 as [X2 X3]. apply Forall_app in X3. apply Forall_app. split; [exact X2|apply X3]. }
      destruct (put_entry_ok st6 A' n' l' B' k v q (n_order ne) copy O6 D6 KS6 (proj1 (IDL k st6 st NK)) (proj1 (IDL v st6 st NV)) (fun _ => conj NK NV)) as (st' & P1 & P2 & P3 & P4 & P5).
      exists st'. split; [|split; [exact P2|split; [|split]]].
      * unfold put_entry in P1. rewrite ADD, MU. rewrite orb_true_r. rewrite LAA in P1. exact P1.
      * rewrite P3. rewrite VA6, VB6, VN6, VL6. symmetry. apply FIN. rewrite (proj2 (IDL k st6 st2 NK)), (proj2 (IDL v st6 st NV)).
        assert (HL := Lt_all (text st2 k) (view_keyed st2 l)). assert (HG := Gt_all (text st2 k) (view_keyed st2 l)).
        assert (G1 : Lt vn (text st2 k) (Lt vn (text st2 k) (view_keyed st2 l) ++ Gt vn (text st2 k) (view_keyed st2 l)) = Lt vn (text st2 k) (view_keyed st2 l)).
        { unfold Lt at 1. rewrite filter_app. rewrite (filter_all _ _ HL), (filter_none _ (Gt _ _ _)); [apply app_nil_r|]. eapply Forall_impl; [|exact HG].
          intros e He. destruct (three vn (text st2 k) e) as [(X1 & X2 & X3)|[(X1 & X2 & X3)|(X1 & X2 & X3)]]; congruence. }
        assert (G2 : Gt vn (text st2 k) (Lt vn (text st2 k) (view_keyed st2 l) ++ Gt vn (text st2 k) (view_keyed st2 l)) = Gt vn (text st2 k) (view_keyed st2 l)).
        { unfold Gt at 1. rewrite filter_app. rewrite (filter_all _ _ HG), (filter_none _ (Lt _ _ _)); [reflexivity|]. eapply Forall_impl; [|exact HL].
          intros e He. destruct (three vn (text st2 k) e) as [(X1 & X2 & X3)|[(X1 & X2 & X3)|(X1 & X2 & X3)]]; congruence. }
        assert (G3 : Eqs vn (text st2 k) (Lt vn (text st2 k) (view_keyed st2 l) ++ Gt vn (text st2 k) (view_keyed st2 l)) = []).
        { unfold Eqs. rewrite filter_app. rewrite (filter_none _ (Lt _ _ _)), (filter_none _ (Gt _ _ _)); [reflexivity| |].
          - eapply Forall_impl; [|exact HG]. intros e He. destruct (three vn (text st2 k) e) as [(X1 & X2 & X3)|[(X1 & X2 & X3)|(X1 & X2 & X3)]]; congruence.
          - eapply Forall_impl; [|exact HL]. intros e He. destruct (three vn (text st2 k) e) as [(X1 & X2 & X3)|[(X1 & X2 & X3)|(X1 & X2 & X3)]]; congruence. }
        rewrite G1, G2, G3. cbn [app]. rewrite <- Eqs_view_keyed, EE, MU, FO. cbn [view_keyed map]. unfold view_line at 1. cbn [fst snd]. unfold view_named. cbn [r_comment r_order].
        assert (TQ6 : option_map (text st6) q = option_map (text st5) q) by (destruct q as [q|]; [|reflexivity]; cbn; f_equal; apply TX6; left; reflexivity).
        rewrite TQ6, TQ5. reflexivity.
      * apply (settled_trans _ _ _ SE02). apply (settled_trans _ st3); [split; reflexivity|]. apply (settled_trans _ _ _ SE5). apply (settled_trans _ _ _ SE6 P4).
      * rewrite P5, OR6, OR5, <- ORD. reflexivity.
    + unfold ebind at 1, eret at 1. cbn iota beta. destruct (multi && negb force) eqn:CR.
      * (* one more value *)
        apply andb_true_iff in CR. destruct CR as [MU FO]. apply negb_true_iff in FO.
        destruct (PUT co (S (st_order st2)) O3) as (st' & P1 & P2 & P3 & P4 & P5).
        exists st'. split; [|split; [exact P2|split; [|split; [exact P4|rewrite <- ORD; exact P5]]]].
        -- unfold put_entry in P1. rewrite ADD, MU. rewrite orb_true_r. exact P1.
        -- rewrite P3. symmetry. apply FIN. rewrite <- Eqs_view_keyed, EE. cbn [view_keyed map app]. rewrite MU, FO, TC2. reflexivity.
      * (* the value changed *)
        assert (MU : multi = false) by (destruct multi, force; cbn in *; congruence).
        unfold ebind at 1, eret at 1. cbn iota beta.
        destruct (copy_if_ok copy _ st3 v O3 LV2 (fun H => proj1 (proj2 (proj2 (NI H))))) as (q & st4 & E4 & M4 & O4 & T4 & V4). rewrite (ebind_ok _ _ _ _ _ E4).
        assert (D4 : st_data st4 = A ++ (n, l) :: B) by (rewrite (mv_data _ _ _ M4); exact D2).
        set (a := Lt (nm_of st2) (text st2 k) l) in *. set (b := Gt (nm_of st2) (text st2 k) l) in *.
        unfold ebind at 1, change at 1. cbn iota.
        rewrite (keys_at_mid _ _ _ _ _ D4).
        assert (SP' : l = a ++ (ne, ve) :: (r ++ b)) by exact SP.
        assert (NT : nth_error l (length a) = Some (ne, ve)) by (clearbody a b; rewrite SP'; apply nth_mid).
        assert (RT : replace_at (length a) (ne, q) l = a ++ (ne, q) :: (r ++ b)) by (clearbody a b; rewrite SP'; apply replace_mid).
        rewrite NT, RT, (set_keys_mid _ _ _ _ _ _ D4).
        assert (LD4 : live_data st4 (A ++ (n, l) :: B)) by (rewrite <- D4; apply (own_live _ _ O4)).
        apply live_data_app in LD4. destruct LD4 as [LA4 LB4]. apply live_data_cons in LB4. destruct LB4 as [[LN4 LL4] LB4].
        assert (LL4' := LL4). rewrite SP' in LL4'. apply live_keyed_app in LL4'. destruct LL4' as [La4 LL4']. apply live_keyed_cons in LL4'. destruct LL4' as [[Lne Lve] Lrb].
        pose proof (Forall_inv (own_held _ _ O4)) as Hq.
        destruct (own_put (q :: held co) st4 (ids (held co) ++ id_of ve) [] (A ++ (n, a ++ (ne, q) :: (r ++ b)) :: B) O4) as [O5 V5].
        { apply live_data_app. split; [exact LA4|]. apply live_data_cons. split; [|exact LB4]. split; [exact LN4|]. apply live_keyed_app. split; [exact La4|]. apply live_keyed_cons. auto. }
        { constructor. }
        { rewrite D4, !ids_data_app, !ids_data_cons. rewrite SP' at 1. rewrite !ids_keyed_app, !ids_keyed_cons. unfold ids. cbn [flat_map app]. perm. }
        eexists. split; [|split; [exact O5|split; [|split; [|]]]].
        -- rewrite ADD, MU. cbn [orb]. destruct made; [|reflexivity]. rewrite (ML eq_refl) in SP'. destruct a; discriminate.
        -- rewrite V5. symmetry. assert (KEEP4 : forall p, live st2 p -> live st4 p /\ text st4 p = text st2 p) by (intros p Lp; apply (moved_all st3 st4 p M4 Lp)).
           destruct (keep_data st3 st4 _ A M4 LA) as [_ VA4]; [intros i _ []|]. destruct (keep_data st3 st4 _ B M4 LB) as [_ VB4]; [intros i _ []|].
           destruct (keep_named st3 st4 _ n M4 LN) as (_ & N41 & N42); [intros i _ []|].
           assert (LL2 := LL). rewrite SP' in LL2. destruct (keep_keyed st3 st4 _ _ M4 LL2) as [_ VL4]; [intros i _ []|].
           rewrite (view_mid st4 _ _ _ _ _ eq_refl). rewrite VA4, VB4. 
           assert (VNN : view_named st4 n = view_named st2 n) by (unfold view_named; rewrite N41, N42; reflexivity). rewrite VNN.
           apply FIN. rewrite <- Eqs_view_keyed, <- Lt_view_keyed, <- Gt_view_keyed, EE, MU. fold a b. cbn [view_keyed map]. fold (view_keyed st2 r).
           unfold view_keyed in VL4 |- *. rewrite !map_app in VL4. cbn [map] in VL4. rewrite !map_app in VL4 |- *. cbn [map]. rewrite !map_app.
           apply app_inj_len in VL4; [|rewrite !map_length; reflexivity]. destruct VL4 as [X1 X2]. injection X2 as X2 X3 X4 X5. 
           rewrite X1. cbn [app]. f_equal. f_equal; [|symmetry; rewrite map_app in X5; exact X5].
           unfold view_line. cbn [fst snd]. f_equal.
           ++ unfold view_named. rewrite X2, X3. reflexivity.
           ++ rewrite T4. change (text st3 v) with (text st2 v). symmetry. exact TV2.
        -- apply (settled_trans _ _ _ SE02). pose proof (moved_comment _ _ _ M4 O3) as CM. destruct M4. split; assumption.
        -- rewrite <- ORD. apply (mv_order _ _ _ M4).
Qed.
