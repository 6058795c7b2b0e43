(** C103: the strings an INI object hands out. Which returned pointers stay readable, which may
    be passed back, and which calls read memory the object has just freed. *)
From Coq Require Import Lia.
From Verif Require Import Base P_Base CTypes StringUtils Ini P_Ini Spec_Ini IniEdit Spec_IniEdit IniCalls
  P_IniEdit P_IniEdit2 P_IniEdit3 P_IniEdit4 P_IniEdit5 P_IniEdit6 P_IniEdit7 P_IniEdit8 P_IniEdit9 P_IniEdit10 P_IniEdit11 P_IniMem.

(** an object after the calls [h] *)
Definition reached (multi multiline : bool) (h : list call) (st : store) : Prop :=
  exists l, perform_all h (new_store multi multiline) = Ok (l, st).
Lemma reached_doc multi multiline h st : reached multi multiline h st -> same_doc st (snd (expect_all h (blank multi multiline))).
Proof.
  intros [l E]. destruct (perform_all_ok h _ _ (new_doc multi multiline)) as (st' & E' & D). rewrite E in E'. injection E' as _ <-. exact D.
Qed.

(** Calls after which every pointer the object has returned can still be read, with the text it
    had: anything but Delete, Reset and a SetValue that replaces all values; the last is harmless
    too as long as keys have one value. *)
Definition harmless (c : call) : Prop :=
  match c with CDelete _ _ _ | CReset | CSet _ _ _ _ true => False | _ => True end.
Definition harmless_single (c : call) : Prop :=
  match c with CDelete _ _ _ | CReset | CMultiKey true => False | _ => True end.
Theorem C103_pointers_stay : forall multi multiline h st p s h',
  reached multi multiline h st -> deref st p = Ok s ->
  (Forall harmless h' \/ st_multi st = false /\ Forall harmless_single h') ->
  exists l st', perform_all h' st = Ok (l, st') /\ deref st' p = Ok s.
Proof.
  intros m ml h st p s h' R P G. destruct (perform_all_ok h' st _ (reached_doc _ _ _ _ R)) as (st' & E & _). eexists _, st'. split; [exact E|].
  refine (lasting_all h' st _ st' _ E p s P). destruct G as [G|[M G]]; [left|right; split; [exact M|]]; exact G.
Qed.

(** Any pointer that can be read may be passed to SetValue, as section, key, value or comment, if
    the values are not replaced: it does what it does with a copy of the text, now and later. *)
Theorem C103_pass_back : forall multi multiline h st sec key value comment s k v c force h',
  reached multi multiline h st ->
  deref st sec = Ok s -> read_opt st key = Ok k -> read_opt st value = Ok v -> read_opt st comment = Ok c ->
  st_multi st = false \/ force = false ->
  exists code st1 l st2 st3,
    set_value (Some sec) key value comment force st = Ok (code, st1) /\ perform_all h' st1 = Ok (l, st2)
    /\ perform_all (CSet s k v c force :: h') st = Ok (code_answer code :: l, st3).
Proof.
  intros m ml h st sec key value comment s k v c force h' R S0 K V C MF. pose proof (reached_doc _ _ _ _ R) as D. set (d := snd _) in D. clearbody d.
  assert (OPT : forall p t, read_opt st p = Ok t -> live_opt st p /\ option_map (text st) p = t).
  { intros [p|] t H; cbn in *; [|injection H as <-; auto]. destruct (deref st p) eqn:E; try discriminate. cbn [rbind] in H. injection H as <-. destruct (deref_live _ _ _ E) as [L ->]. auto. }
  destruct (deref_live _ _ _ S0) as [LS TS]. destruct (OPT _ _ K) as [LK TK], (OPT _ _ V) as [LV TV], (OPT _ _ C) as [LC TC].
  destruct (add_entry_doc st d sec key value comment force true D LS LK LV LC) as (st1 & E & D1 & _).
  { discriminate. } { intros X. destruct MF as [M|F]; [rewrite M in X; discriminate|rewrite F, andb_false_r in X; discriminate]. }
  rewrite TS, TK, TV in E. rewrite TS, TK, TV, TC in D1.
  destruct (perform_all_ok h' st1 _ D1) as (st2 & E2 & _).
  destruct (perform_all_ok (CSet s k v c force :: h') st d D) as (st3 & E3 & _).
  cbn [expect_all expect] in E3. destruct (expect_all h' (set_doc s (both k v) c force d)) as [l d2] eqn:EX. cbn [fst] in E2, E3.
  exists (if added s (both k v) d then SI_INSERTED else SI_UPDATED), st1, l, st2, st3. split; [exact E|]. split; [exact E2|]. rewrite E3.
  destruct (added s (both k v) d); reflexivity.
Qed.

(** Deleting every section through the pointers GetAllSections returned *)
Theorem C103_delete_sections : forall multi multiline h st prune,
  reached multi multiline h st ->
  exists st', delete_each prune (all_sections st) st = Ok (map (fun _ => true) (all_sections st), st')
    /\ perform CSections st' = Ok (Told (Some []), st').
Proof.
  intros m ml h st prune R. destruct (delete_each_ok prune (all_sections st) st _ (reached_doc _ _ _ _ R) eq_refl) as (st' & d' & E & D & N).
  exists st'. split; [exact E|]. cbn [perform]. unfold ebind, ask. cbn. unfold all_sections. rewrite N. reflexivity.
Qed.

(** *** use after free *)
Definition loads_nothing (h : list call) : Prop := Forall (fun c => match c with CLoad _ _ => False | _ => True end) h.
Lemma reached_copied multi multiline h st : loads_nothing h -> reached multi multiline h st -> all_copied st.
Proof. intros N [l E]. apply (unloaded h N (new_store multi multiline) l st); [constructor|exact E]. Qed.
Lemma key_told_first st d sec ks a k b : same_doc st d -> all_copied st -> all_keys (Some (Given sec)) st = Ok (Some ks) -> ks = a ++ k :: b ->
  exists i n l1 v l2, find_name st (Given sec) (st_data st) = Ok (Some i) /\ nth_error (st_data st) i = Some (n, l1 ++ (k, v) :: l2)
    /\ find_name st (n_item k) (l1 ++ (k, v) :: l2) = Ok (Some (length l1)) /\ (b <> [] -> l2 <> []) /\ (exists c, n_item k = Copied c) /\ live st (n_item k).
Proof.
  intros D C A EK. pose proof (sd_own _ _ D) as O. unfold all_keys in A.
  assert (LG : live st (Given sec)) by reflexivity.
  destruct (section_state [] _ st (Given sec) O (sd_inv _ _ D) LG) as [[F N]|(i & n & l & F & IN & KA & N & KI & LL)]; rewrite F in A; cbn [rbind] in A; [discriminate|].
  rewrite KA, (distinct_ok st l (live_keyed_names _ _ LL) None I) in A. cbn [rbind option_map] in A. injection A as A. rewrite EK in A.
  assert (SP : exists a' x b', vheads (nm_of st) None l = a' ++ x :: b' /\ fst x = k /\ map fst b' = b).
  { clear -A. set (w := vheads _ _ _) in *. clearbody w. revert a A. induction w as [|y w IH]; intros a A; [destruct a; discriminate|]. destruct a as [|z a]; cbn in A.
    - injection A as <- <-. exists [], y, w. auto.
    - injection A as _ A. destruct (IH a A) as (a' & x & b' & -> & X). exists (y :: a'), x, b'. auto. }
  destruct SP as (a' & [k0 v] & b' & SP & K0 & B0). cbn [fst] in K0. subst k0.
  destruct (heads_split (nm_of st) (k, v) b' l None a' SP) as [(l1 & l2 & EL & FL & NE) _].
  assert (NI : exists n', nth_error (st_data st) i = Some (n', l)).
  { unfold keys_at in KA. destruct (nth_error (st_data st) i) as [[n' x]|]; [exists n'; rewrite KA; reflexivity|]. rewrite EL in KA. destruct l1; discriminate. }
  destruct NI as [n' NI]. exists i, n', l1, v, l2. rewrite <- EL. split; [exact F|]. split; [exact NI|]. split.
  - pose proof (find_first st (k, v) l2 l1) as FF. rewrite <- EL in FF. apply FF; [apply live_keyed_names; exact LL|exact FL].
  - split; [intros NB; apply NE; intros X; apply NB; rewrite <- B0, X; reflexivity|]. 
    assert (IK : In (k, v) l) by (rewrite EL; apply in_or_app; right; left; reflexivity). split.
    + pose proof (nth_forall _ _ _ _ C NI) as [_ CL]. rewrite Forall_forall in CL. apply (CL _ IK).
    + unfold live_keyed in LL. rewrite Forall_forall in LL. apply (LL _ IK).
Qed.
(** Deleting a key through the pointer GetAllKeys returned, when it is not the last of the keys
    returned: the name is compared with the next key after it was freed. *)
Theorem C103_delete_key_uaf : forall multi multiline h st sec a k b prune,
  loads_nothing h -> reached multi multiline h st ->
  all_keys (Some (Given sec)) st = Ok (Some (a ++ k :: b)) -> b <> [] ->
  delete (Some (Given sec)) (Some (n_item k)) prune st = Undef UbRead.
Proof.
  intros m ml h st sec a k b prune NL R A NB. pose proof (reached_doc _ _ _ _ R) as D.
  destruct (key_told_first st _ sec _ a k b D (reached_copied _ _ _ _ NL R) A eq_refl) as (i & n & l1 & v & l2 & F & NI & FK & L2 & (c & KC) & LK).
  unfold delete. rewrite (ebind_ask _ _ _ _ F), (ebind_ask (fun st => Ok (nth_error (st_data st) i)) _ st _ eq_refl), NI, (ebind_ask _ _ _ _ FK).
  assert (SK : skipn (length l1) (l1 ++ (k, v) :: l2) = (k, v) :: l2) by apply skipn_mid. rewrite SK.
  destruct l2 as [|[m' w] l2]; [exfalso; apply (L2 NB); reflexivity|]. unfold ebind at 1. rewrite (run_own (n_item k) c k v m' w l2 st KC KC). reflexivity.
Qed.
(** SetValue replacing all values, with the key pointer GetAllKeys returned: freed, then copied *)
Theorem C103_replace_key_uaf : forall multi multiline h st sec a k b value comment,
  loads_nothing h -> reached multi multiline h st -> st_multi st = true ->
  all_keys (Some (Given sec)) st = Ok (Some (a ++ k :: b)) ->
  set_value (Some (Given sec)) (Some (n_item k)) (Some (Given value)) (given comment) true st = Undef UbRead.
Proof.
  intros m ml h st sec a k b value comment NL R MU A. pose proof (reached_doc _ _ _ _ R) as D.
  destruct (key_told_first st _ sec _ a k b D (reached_copied _ _ _ _ NL R) A eq_refl) as (i & n & l1 & v & l2 & F & NI & FK & L2 & (c & KC) & LK).
  cbn [set_value]. apply (forced_reads st (Given sec) (n_item k) (Given value) (given comment) i (l1 ++ (k, v) :: l2) k v (length l1)); try exact F; try exact FK; try exact LK; try exact MU; try reflexivity.
  - apply (sd_own _ _ D).
  - apply given_live.
  - unfold keys_at. rewrite NI. reflexivity.
  - apply nth_mid.
  - exists c. auto.
Qed.
(** ... and with the value GetValue returned for the same key *)
Theorem C103_replace_value_uaf : forall multi multiline h st sec key v more comment,
  loads_nothing h -> reached multi multiline h st -> st_multi st = true ->
  get_value_at (Some (Given sec)) (Some (Given key)) None st = Ok (Some v, more) ->
  set_value (Some (Given sec)) (Some (Given key)) (Some v) (given comment) true st = Undef UbRead.
Proof.
  intros m ml h st sec key v more comment NL R MU G. pose proof (reached_doc _ _ _ _ R) as D. pose proof (reached_copied _ _ _ _ NL R) as C.
  assert (LS : live st (Given sec)) by reflexivity. assert (LK : live st (Given key)) by reflexivity.
  unfold get_value_at in G.
  destruct (section_state [] _ st (Given sec) (sd_own _ _ D) (sd_inv _ _ D) LS) as [[F N]|(i & n & l & F & IN & KA & N & KI & LL)]; rewrite F in G; cbn [rbind] in G; [discriminate|].
  rewrite KA in G. destruct (find_name st (Given key) l) as [[j|]| | |] eqn:FK; try discriminate. cbn [rbind] in G.
  match type of G with rbind ?x _ = _ => destruct x as [mo| | |]; try discriminate end. cbn [rbind] in G. injection G as G _.
  destruct (nth_error l j) as [[n' v']|] eqn:NJ; [|discriminate]. injection G as ->.
  assert (LV : live st v) by (apply nth_error_In in NJ; unfold live_keyed in LL; rewrite Forall_forall in LL; apply (LL _ NJ)).
  cbn [set_value]. apply (forced_reads st (Given sec) (Given key) v (given comment) i l n' v j (sd_own _ _ D) MU LS LK LV (given_live _ _) F KA FK NJ).
  pose proof (keys_copied i st C) as CK. rewrite KA in CK. destruct (nth_forall _ _ _ _ CK NJ) as [_ [c Hc]]. exists c. right. split; exact Hc.
Qed.

(** *** memory: a value that is overwritten is kept until Reset *)
Lemma grow_repeat sec key value comment force n : forall st d, same_doc st d -> st_multi st = false ->
  exists l st', perform_all (repeat (CSet sec (Some key) (Some value) comment force) n) st = Ok (l, st') /\ copies st + n <= copies st'.
Proof.
  induction n as [|n IH]; intros st d D MU; cbn [repeat]; [exists [], st; split; [reflexivity|lia]|].
  destruct (perform_ok (CSet sec (Some key) (Some value) comment force) st d D) as (st1 & E1 & D1). cbn [perform_all].
  assert (G : copies st + 1 <= copies st1 /\ st_multi st1 = false).
  { cbn [perform set_value given option_map] in E1. apply ebind_inv in E1. destruct E1 as (c & stx & X & Y). injection Y as _ <-. apply (grows_add _ _ _ _ _ _ _ _ MU X). }
  destruct (IH st1 _ D1 (proj2 G)) as (l & st' & E & L). rewrite (ebind_ok _ _ _ _ _ E1), (ebind_ok _ _ _ _ _ E). eexists _, st'. split; [reflexivity|lia].
Qed.
Theorem C103_growth : forall multi multiline h st sec key value comment force n,
  reached multi multiline h st -> st_multi st = false ->
  exists st', reached multi multiline (h ++ repeat (CSet sec (Some key) (Some value) comment force) n) st' /\ length (st_strings st) + n <= length (st_strings st').
Proof.
  intros m ml h st s k v c f n R MU. destruct (grow_repeat s k v c f n st _ (reached_doc _ _ _ _ R) MU) as (l & st' & E & L). exists st'. split; [|exact L].
  destruct R as [l0 E0]. exists (l0 ++ l). revert E0 E. generalize (new_store m ml). generalize (repeat (CSet s (Some k) (Some v) c f) n). clear. intros h' st0. revert st0 l0.
  induction h as [|x h IH]; intros st0 l0 E0 E; [injection E0 as <- <-; exact E|]. cbn [perform_all app] in *.
  apply ebind_inv in E0. destruct E0 as (a & st1 & A1 & E0). apply ebind_inv in E0. destruct E0 as (r & st2 & A2 & E0). injection E0 as <- <-.
  rewrite (ebind_ok _ _ _ _ _ A1), (ebind_ok _ _ _ _ _ (IH _ _ A2 E)). reflexivity.
Qed.
Theorem C103_reset_frees : forall multi multiline h st, reached multi multiline (h ++ [CReset]) st -> st_strings st = [].
Proof.
  intros m ml h st [l E]. revert E. generalize (new_store m ml). revert l. induction h as [|x h IH]; intros l st0 E; cbn [perform_all app] in E.
  - apply ebind_inv in E. destruct E as (a & st1 & A1 & E). injection E as _ <-. injection A1 as _ <-. reflexivity.
  - apply ebind_inv in E. destruct E as (a & st1 & A1 & E). apply ebind_inv in E. destruct E as (r & st2 & A2 & E). injection E as _ <-. apply (IH _ _ A2).
Qed.

(** concrete objects *)
Definition two_keys : list call :=
  [CMultiKey true; CSet (bs "s") (Some (bs "a")) (Some (bs "1")) None false; CSet (bs "s") (Some (bs "b")) (Some (bs "2")) None false].
Example C103_example : exists st k1 k2 v,
  reached false false two_keys st /\ st_multi st = true /\
  all_keys (Some (Given (bs "S"))) st = Ok (Some [k1; k2]) /\
  delete (Some (Given (bs "s"))) (Some (n_item k1)) false st = Undef UbRead /\
  (exists st', delete (Some (Given (bs "s"))) (Some (n_item k2)) false st = Ok (true, st')) /\
  get_value_at (Some (Given (bs "s"))) (Some (Given (bs "b"))) None st = Ok (Some v, false) /\
  set_value (Some (Given (bs "s"))) (Some (Given (bs "b"))) (Some v) None true st = Undef UbRead /\
  (exists st', set_value (Some (Given (bs "s"))) (Some (Given (bs "b"))) (Some v) None false st = Ok (SI_INSERTED, st')).
Proof.
  eexists _, _, _, _. split; [eexists; vm_compute; reflexivity|]. split; [reflexivity|]. split; [vm_compute; reflexivity|]. split; [vm_compute; reflexivity|].
  split; [eexists; vm_compute; reflexivity|]. split; [vm_compute; reflexivity|]. split; [vm_compute; reflexivity|]. eexists; vm_compute; reflexivity.
Qed.
(** a text loaded first is never freed by Delete: there the same calls are harmless *)
Example C103_example_loaded : exists st k1 k2,
  reached true false [CLoad None [(bs "s", Some (bs "a", bs "1"), None); (bs "s", Some (bs "b", bs "2"), None)]] st /\
  all_keys (Some (Given (bs "s"))) st = Ok (Some [k1; k2]) /\
  exists st', delete (Some (Given (bs "s"))) (Some (n_item k1)) false st = Ok (true, st').
Proof. eexists _, _, _. split; [eexists; vm_compute; reflexivity|]. split; [vm_compute; reflexivity|]. eexists; vm_compute; reflexivity. Qed.
