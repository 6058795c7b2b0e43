(** Lemmas about IniEdit.v: Save. *)
From Coq Require Import Permutation Sorting.Sorted Lia.
From Verif Require Import Base P_Base CTypes StringUtils Ini P_Ini IniEdit IniCalls Spec_Ini Spec_IniEdit P_IniEdit P_IniEdit2 P_IniEdit3 P_IniEdit4 P_IniEdit5 P_IniEdit6 P_IniEdit7 P_IniEdit8 P_IniEdit9.

(** * Sorting by load order *)
Definition nord (a b : named) : Prop := n_order a < n_order b.
Lemma load_less_ok st a b : n_order a <> n_order b -> load_less st a b = Ok (Nat.ltb (n_order a) (n_order b)).
Proof. intros H. unfold load_less. destruct (Nat.eqb_spec (n_order a) (n_order b)); [contradiction|reflexivity]. Qed.
Lemma sort_insert_ok st a l : StronglySorted nord l -> ~ In (n_order a) (map n_order l) ->
  exists l', sort_insert st a l = Ok l' /\ Permutation (a :: l) l' /\ StronglySorted nord l'.
Proof.
  induction 1 as [|b r S IH F]; cbn [sort_insert map In]; intros N.
  - exists [a]. split; [reflexivity|]. split; [apply Permutation_refl|repeat constructor].
  - rewrite load_less_ok by tauto. cbn [rbind]. destruct (Nat.ltb_spec (n_order b) (n_order a)) as [L|L].
    + destruct IH as (l' & E & P & S'); [tauto|]. rewrite E. exists (b :: l'). split; [reflexivity|]. split.
      * eapply perm_trans; [apply perm_swap|]. apply Permutation.perm_skip. exact P.
      * constructor; [exact S'|]. eapply Permutation_Forall; [exact P|]. constructor; [exact L|exact F].
    + exists (a :: b :: r). split; [reflexivity|]. split; [apply Permutation_refl|]. assert (n_order a < n_order b) by lia.
      constructor; [constructor; assumption|]. constructor; [exact H|]. eapply Forall_impl; [|exact F]. intros c Hc. unfold nord in *. lia.
Qed.
Lemma sort_load_ok st l : NoDup (map n_order l) -> exists l', sort_load st l = Ok l' /\ Permutation l l' /\ StronglySorted nord l'.
Proof.
  induction l as [|a l IH]; intros N; [exists []; repeat split; constructor|]. cbn [map] in N. inversion N as [|? ? N1 N2]; subst.
  destruct (IH N2) as (l' & E & P & S'). cbn [sort_load]. rewrite E. cbn [rbind]. destruct (sort_insert_ok st a l' S') as (m & E2 & P2 & S2).
  - intros H. apply N1. eapply Permutation_in; [|exact H]. apply Permutation_map. apply Permutation_sym. exact P.
  - exists m. split; [exact E2|]. split; [|exact S2]. eapply perm_trans; [apply Permutation.perm_skip; exact P|exact P2].
Qed.
Definition rord (a b : rnamed) : Prop := r_order a < r_order b.
(** sorted names are the names of a list in load order *)
Lemma sort_names {V} st ns (M : list (rnamed * V)) : StronglySorted ord M -> Permutation (map (view_named st) ns) (map fst M) ->
  exists ns', sort_load st ns = Ok ns' /\ Permutation ns ns' /\ map (view_named st) ns' = map fst M.
Proof.
  intros S P. assert (N : NoDup (map n_order ns)).
  { assert (map n_order ns = map r_order (map (view_named st) ns)) as -> by (rewrite map_map; reflexivity).
    eapply Permutation_NoDup; [apply Permutation_map; apply Permutation_sym; exact P|]. rewrite map_map. apply (sorted_tidy _ S). }
  destruct (sort_load_ok st ns N) as (ns' & E & P' & S'). exists ns'. split; [exact E|]. split; [exact P'|].
  apply (strict_unique rord); [unfold rord; lia| | |].
  - apply (sorted_map (view_named st) rord). exact S'.
  - apply (sorted_map fst rord). exact S.
  - eapply perm_trans; [|exact P]. apply Permutation_map. apply Permutation_sym. exact P'.
Qed.
Lemma firsts_sub {X} (nm : X -> bytes) (R : X -> X -> Prop) seen l : StronglySorted R l -> StronglySorted R (firsts nm seen l).
Proof.
  intros S. revert seen. induction S as [|a l S IH F]; intros seen; cbn [firsts]; [constructor|]. destruct (existsb _ seen); [apply IH|]. constructor; [apply IH|].
  apply Forall_forall. intros b Hb. apply firsts_in in Hb. destruct Hb as [(r & Hb) _]. rewrite Forall_forall in F. apply F.
  assert (H : In b (filter (is_eq nm (nm b)) l)) by (rewrite Hb; left; reflexivity). apply filter_In in H. apply H.
Qed.

(** * Writing *)
Lemma concat_res_ok {A} (f : A -> res bytes) (g : A -> bytes) l : Forall (fun a => f a = Ok (g a)) l -> concat_res f l = Ok (concat (map g l)).
Proof. induction 1 as [|a l H _ IH]; [reflexivity|]. cbn [concat_res map concat]. rewrite H. cbn [rbind]. rewrite IH. reflexivity. Qed.

Record same_doc (st : store) (d : edoc) : Prop := {
  sd_own : own [] st; sd_inv : vinv (st_order st) (view st);
  sd_multi : d_multi d = st_multi st; sd_line : d_multiline d = st_multiline st; sd_spaces : d_spaces d = st_spaces st;
  sd_comment : d_comment d = option_map (text st) (st_comment st); sd_parts : d_parts d = parts (view st) }.

Lemma save_value_ok st d key e : same_doc st d -> live_named st (fst e) -> live st (snd e) ->
  save_value st key (value_entry e) = Ok (write_value d key (line (view_line st e))).
Proof.
  intros D [L1 L2] L3. unfold save_value, value_entry, write_value. cbn [n_comment n_item].
  assert (C : (match n_comment (fst e) with Some p => s <-- deref st p ;; Ok (LF :: out_text s) | None => Ok [] end)
              = Ok (match option_map (text st) (n_comment (fst e)) with Some c => LF :: write_text c | None => [] end)).
  { destruct (n_comment (fst e)) as [p|]; [|reflexivity]. cbn in L2 |- *. rewrite L2. cbn [rbind]. rewrite out_text_spec. reflexivity. }
  rewrite C. cbn [rbind]. rewrite L3. cbn [rbind]. rewrite out_text_spec, multi_line_spec, (sd_spaces _ _ D), (sd_line _ _ D). reflexivity.
Qed.
Lemma save_key_ok st d sec k : same_doc st d -> live st sec -> live_named st k ->
  save_key st sec k = Ok (concat (map (write_value d (text st (n_item k))) (values_of (text st sec) (text st (n_item k)) d))).
Proof.
  intros D LS [LK _]. unfold save_key. rewrite (get_all_ok _ _ st sec (n_item k) (sd_own _ _ D) (sd_inv _ _ D) LS LK). cbn [rbind]. rewrite LK. cbn [rbind].
  destruct (values_state _ _ st sec (n_item k) d (sd_own _ _ D) (sd_inv _ _ D) LS LK (sd_parts _ _ D) (sd_multi _ _ D)) as [V1 V2]. rewrite <- V1.
  assert (E : match (match held_values st sec (n_item k) with [] => None | l => Some (map value_entry l) end) with Some l => l | None => [] end = map value_entry (held_values st sec (n_item k)))
    by (destruct (held_values st sec (n_item k)); reflexivity).
  rewrite E. rewrite (concat_res_ok _ (fun v => write_value d (text st (n_item k)) {| l_key := []; l_comment := option_map (text st) (n_comment v); l_value := text st (n_item v) |})).
  - rewrite !map_map. reflexivity.
  - apply Forall_map. unfold live_keyed in V2. eapply Forall_impl; [|exact V2]. intros e [H1 H2]. rewrite (save_value_ok st d _ e D H1 H2). reflexivity.
Qed.
Lemma write_key_values st d s x e : same_doc st d -> Eqs vn s (view st) = [x] -> In e (firsts vn [] (byord (snd x))) ->
  write_key d (part x) (line e) = concat (map (write_value d (r_name (fst e))) (values_of s (r_name (fst e)) d)).
Proof.
  intros D EX He. unfold write_key, values_of. rewrite (part_found _ _ s d (sd_inv _ _ D) (sd_parts _ _ D)), EX. destruct (d_multi d); [reflexivity|].
  cbn [line l_key]. f_equal. f_equal. unfold lines_of. cbn [part p_lines]. unfold P_IniEdit6.lines. rewrite filter_map.
  apply firsts_in in He. destruct He as [(r & He) _]. change (filter (fun a => of_key (r_name (fst e)) (line a)) (byord (snd x))) with (filter (is_eq vn (vn e)) (byord (snd x))).
  rewrite He. reflexivity.
Qed.
Lemma sec_kinv st d s x : same_doc st d -> Eqs vn s (view st) = [x] -> kinv (st_order st) (snd x).
Proof.
  intros D EX. pose proof (vi_keys _ _ (sd_inv _ _ D)) as KK. rewrite Forall_forall in KK. apply KK.
  assert (H : In x (Eqs vn s (view st))) by (rewrite EX; left; reflexivity). apply filter_In in H. apply H.
Qed.
Lemma save_part_ok st d nl n x : same_doc st d -> live_named st n -> Eqs vn (text st (n_item n)) (view st) = [x] -> fst x = view_named st n ->
  save_part st nl n = Ok ((if nl then [LF; LF] else []) ++ write_part d (part x)).
Proof.
  intros D [LN LC] EX FX. unfold save_part.
  assert (C : (match n_comment n with Some p => s <-- deref st p ;; Ok (out_text s) | None => Ok [] end)
              = Ok (match option_map (text st) (n_comment n) with Some c => write_text c | None => [] end)).
  { destruct (n_comment n) as [p|]; [|reflexivity]. cbn in LC |- *. rewrite LC. cbn [rbind]. rewrite out_text_spec. reflexivity. }
  rewrite C. cbn [rbind]. rewrite LN. cbn [rbind].
  pose proof (all_keys_ok _ _ st (n_item n) d (sd_own _ _ D) (sd_inv _ _ D) LN (sd_parts _ _ D)) as AK. rewrite EX in AK. destruct AK as (ks & AK & LK & VK). rewrite AK. cbn [rbind].
  pose proof (sec_kinv st d _ x D EX) as KI. pose proof (keys_heads _ _ KI) as KH.
  destruct (sort_names st ks (firsts vn [] (byord (snd x)))) as (ks' & SL & SP & SV).
  { apply firsts_sub. apply byord_sorted. apply (ki_tidy _ _ KI). }
  { rewrite VK. apply Permutation_map. exact KH. }
  rewrite SL. cbn [rbind].
  assert (LK' : Forall (live_named st) ks') by (eapply Permutation_Forall; [exact SP|exact LK]).
  rewrite (concat_res_ok _ (fun k => concat (map (write_value d (text st (n_item k))) (values_of (text st (n_item n)) (text st (n_item k)) d)))).
  2:{ eapply Forall_impl; [|exact LK']. intros k Hk. apply (save_key_ok st d _ k D LN Hk). }
  cbn [rbind]. f_equal. f_equal. unfold write_part. cbn [part p_comment p_name p_lines]. rewrite FX. cbn [view_named r_name r_comment]. f_equal.
  f_equal; [destruct (text st (n_item n)); reflexivity|].
  unfold P_IniEdit6.lines. rewrite first_lines_map, map_map. f_equal.
  assert (M1 : map (fun k => concat (map (write_value d (text st (n_item k))) (values_of (text st (n_item n)) (text st (n_item k)) d))) ks'
       = map (fun r => concat (map (write_value d (r_name r)) (values_of (text st (n_item n)) (r_name r) d))) (map (view_named st) ks')) by (rewrite map_map; reflexivity).
  etransitivity; [exact M1|]. rewrite SV, map_map. apply map_ext_in. intros e He. symmetry. apply (write_key_values st d _ x e D EX He).
Qed.

Lemma save_ok st d : same_doc st d -> save st = Ok (write_doc d).
Proof.
  intros D. unfold save, write_doc.
  destruct (sort_names st (all_sections st) (byord (view st))) as (ns & SL & SP & SV).
  { apply byord_sorted. apply (vi_tidy _ _ (sd_inv _ _ D)). }
  { unfold all_sections. rewrite map_map. assert (map (fun e => view_named st (fst e)) (st_data st) = map fst (view st)) as -> by (unfold view, view_data; rewrite map_map; reflexivity).
    apply Permutation_map. apply byord_perm. }
  rewrite SL. cbn [rbind]. rewrite (sd_comment _ _ D).
  assert (C : (match st_comment st with Some p => s <-- deref st p ;; Ok (out_text s) | None => Ok [] end)
              = Ok (match option_map (text st) (st_comment st) with Some c => write_text c | None => [] end)).
  { pose proof (own_comment _ _ (sd_own _ _ D)) as LC. destruct (st_comment st) as [p|]; [|reflexivity]. cbn in LC |- *. rewrite LC. cbn [rbind]. rewrite out_text_spec. reflexivity. }
  rewrite C. cbn [rbind].
  assert (NL : match st_comment st with Some _ => true | None => false end = match option_map (text st) (st_comment st) with Some _ => true | None => false end) by (destruct (st_comment st); reflexivity).
  rewrite NL. set (nl := match option_map (text st) (st_comment st) with Some _ => true | None => false end). clearbody nl.
  assert (ONE : forall e, In e (view st) -> Eqs vn (r_name (fst e)) (view st) = [e]).
  { intros e He. destruct (one_section (view st) (r_name (fst e)) (vi_sorted _ _ (sd_inv _ _ D))) as [E|(x & E)].
    - assert (H : In e (Eqs vn (r_name (fst e)) (view st))) by (apply filter_In; split; [exact He|apply self_eq]). rewrite E in H. destruct H.
    - assert (H : In e (Eqs vn (r_name (fst e)) (view st))) by (apply filter_In; split; [exact He|apply self_eq]). rewrite E in H |- *. destruct H as [->|[]]. reflexivity. }
  assert (LNS : Forall (live_named st) ns).
  { eapply Permutation_Forall; [exact SP|]. unfold all_sections. apply Forall_map. pose proof (own_live _ _ (sd_own _ _ D)) as H. eapply Forall_impl; [|exact H]. intros e He. apply He. }
  assert (BODY : save_parts st nl ns = Ok (write_parts d nl (parts (view st)))).
  { unfold parts. assert (INV : forall e, In e (byord (view st)) -> In e (view st)) by (intros e He; eapply Permutation_in; [apply Permutation_sym; apply byord_perm|exact He]).
    clear SL SP C NL. revert nl ns LNS SV INV. induction (byord (view st)) as [|e M IH]; intros nl ns LNS SV INV.
    - destruct ns; [reflexivity|discriminate].
    - destruct ns as [|n ns]; [discriminate|]. cbn [map] in SV. assert (SV1 := f_equal (@tl _) SV). assert (SV0 := f_equal (hd (fst e)) SV). cbn [tl hd] in SV0, SV1.
      inversion LNS as [|? ? L1 L2]; subst. cbn [save_parts map write_parts].
      rewrite (save_part_ok st d nl n e D L1); [|rewrite <- (ONE e (INV e (or_introl eq_refl))), <- SV0; reflexivity|symmetry; exact SV0].
      cbn [rbind]. rewrite (IH true ns L2 SV1); [|intros y Hy; apply INV; right; exact Hy]. cbn [rbind]. rewrite <- app_assoc. reflexivity. }
  rewrite BODY. cbn [rbind]. rewrite (sd_parts _ _ D). reflexivity.
Qed.
