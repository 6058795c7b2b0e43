(** Lemmas about IniEdit.v: every call. *)
From Coq Require Import Permutation Sorting.Sorted Lia.
From Verif Require Import Base P_Base CTypes StringUtils Ini P_Ini IniEdit IniCalls Spec_Ini Spec_IniEdit P_IniEdit P_IniEdit2 P_IniEdit3 P_IniEdit4 P_IniEdit5 P_IniEdit6 P_IniEdit7 P_IniEdit8 P_IniEdit9 P_IniEdit10.

(** ** adding *)
Lemma add_entry_doc st d sec key value comment force copy : same_doc st d ->
  live st sec -> live_opt st key -> live_opt st value -> live_opt st comment ->
  (copy = false -> id_of sec = [] /\ id_opt key = [] /\ id_opt value = [] /\ id_opt comment = []) ->
  (st_multi st && force = true -> id_of sec = [] /\ id_opt key = [] /\ id_opt value = []) ->
  let s := text st sec in let kv := both (option_map (text st) key) (option_map (text st) value) in let c := option_map (text st) comment in
  exists st', add_entry sec key value comment force copy st = Ok (if added s kv d then SI_INSERTED else SI_UPDATED, st')
    /\ same_doc st' (set_doc s kv c force d) /\ settled st st'.
Proof.
  intros D LS LK LV LC NI NF s kv c.
  destruct (add_entry_ok st sec key value comment force copy (sd_own _ _ D) (vinv_vsorted _ _ (sd_inv _ _ D)) (vinv_orders _ _ (sd_inv _ _ D)) LS LK LV LC NI NF)
    as (st' & E & O & V & SE & OR). rewrite option_map_both in *. fold s kv c in E, V, OR.
  destruct (vset_ok (st_multi st) force s kv c (st_order st) (view st) d (sd_inv _ _ D) (sd_parts _ _ D) (sd_multi _ _ D)) as (V1 & V2 & V3).
  exists st'. split; [rewrite <- V3; exact E|]. split; [|exact SE].
  assert (SD : d_multi (set_doc s kv c force d) = d_multi d /\ d_multiline (set_doc s kv c force d) = d_multiline d /\ d_spaces (set_doc s kv c force d) = d_spaces d
               /\ d_comment (set_doc s kv c force d) = d_comment d) by (unfold set_doc; destruct kv as [[? ?]|]; cbn; auto).
  destruct SD as (S1 & S2 & S3 & S4). destruct D as [D1 D2 D3 D4 D5 D6 D7], SE as [E1 E2 E3 E4 E5 E6]. split; congruence.
Qed.

Lemma given_live st (s : option bytes) : live_opt st (given s).
Proof. destruct s; reflexivity || exact I. Qed.
Lemma given_id (s : option bytes) : id_opt (given s) = [].
Proof. destruct s; reflexivity. Qed.
Lemma given_text st (s : option bytes) : option_map (text st) (given s) = s.
Proof. destruct s; reflexivity. Qed.

(** ** loading *)
Lemma load_found_doc copy es : forall st d, same_doc st d ->
  exists st', load_found copy (map found_of es) st = Ok (tt, st') /\ same_doc st' (load_doc es d) /\ settled st st'.
Proof.
  induction es as [|[[sec kv] comment] es IH]; intros st d D.
  - exists st. split; [reflexivity|]. split; [exact D|split; reflexivity].
  - cbn [map load_found found_of f_sec f_kv f_comment load_doc].
    set (p := fun s : bytes => if copy then Given s else InBlock s).
    assert (PL : forall s, live st (p s) /\ text st (p s) = s /\ id_of (p s) = []) by (intros s; unfold p; destruct copy; repeat split).
    assert (PO : forall o : option bytes, live_opt st (option_map p o) /\ option_map (text st) (option_map p o) = o /\ id_opt (option_map p o) = []).
    { intros [s|]; cbn; [|auto]. destruct (PL s) as (A & B & C). rewrite B, C. auto. }
    destruct (PO (option_map fst kv)) as (K1 & K2 & K3). destruct (PO (option_map snd kv)) as (W1 & W2 & W3). destruct (PO comment) as (C1 & C2 & C3). destruct (PL sec) as (S1 & S2 & S3).
    destruct (add_entry_doc st d (p sec) (option_map p (option_map fst kv)) (option_map p (option_map snd kv)) (option_map p comment) false copy D S1 K1 W1 C1) as (st1 & E1 & D1 & SE1).
    { auto. } { auto. }
    rewrite S2, K2, W2, C2 in D1.
    assert (KV : both (option_map fst kv) (option_map snd kv) = kv) by (destruct kv as [[? ?]|]; reflexivity). rewrite KV in D1.
    match type of E1 with _ = ?R => match goal with |- context [ebind (add_entry ?a ?b ?c ?e ?f ?g) _] =>
      assert (E1' : add_entry a b c e f g st = R) by (destruct kv; exact E1) end end.
    rewrite (ebind_ok _ _ _ _ _ E1'). destruct (IH st1 _ D1) as (st2 & E2 & D2 & SE2). exists st2. split; [exact E2|]. split; [exact D2|]. apply (settled_trans _ _ _ SE1 SE2).
Qed.
Definition commented (c : option bytes) (d : edoc) : edoc :=
  {| d_multi := d_multi d; d_multiline := d_multiline d; d_spaces := d_spaces d;
     d_comment := match d_comment d with Some x => Some x | None => c end; d_parts := d_parts d |}.
Lemma file_comment st d fc copy : same_doc st d -> exists st',
  (match st_comment st, fc with
   | None, Some s => p <! copy_if copy (if copy then Given s else InBlock s) ;; change (with_comment (Some p))
   | _, _ => eret tt
   end) st = Ok (tt, st') /\ same_doc st' (commented fc d).
Proof.
  intros D. assert (NOP : d_comment (commented fc d) = d_comment d -> same_doc st (commented fc d)).
  { intros H. destruct D. split; try assumption. congruence. }
  destruct (st_comment st) as [p|] eqn:SC.
  { exists st. split; [reflexivity|]. apply NOP. cbn. rewrite (sd_comment _ _ D), SC. reflexivity. }
  destruct fc as [s|].
  2:{ exists st. split; [reflexivity|]. apply NOP. cbn. destruct (d_comment d); reflexivity. }
  destruct (copy_if_ok copy [] st (if copy then Given s else InBlock s) (sd_own _ _ D)) as (q & st1 & E & M & O & T & V).
  { destruct copy; reflexivity. } { intros ->. reflexivity. }
  rewrite (ebind_ok _ _ _ _ _ E). eexists. split; [reflexivity|].
  destruct O as [O1 O2 O3 O4 O5]. rewrite (mv_comment _ _ _ M), SC in O4. cbn [id_opt app] in O4.
  destruct D as [D1 D2 D3 D4 D5 D6 D7]. split; cbn.
  - split; cbn; auto. apply (Forall_inv O3). unfold ids in O4. cbn in O4. rewrite app_nil_r in O4. exact O4.
  - change (vinv (st_order st1) (view st1)). rewrite V, (mv_order _ _ _ M). exact D2.
  - rewrite (mv_multi _ _ _ M). exact D3.
  - rewrite (mv_line _ _ _ M). exact D4.
  - rewrite (mv_spaces _ _ _ M). exact D5.
  - rewrite D6, SC. cbn. change (Some s = Some (text st1 q)). rewrite T. destruct copy; reflexivity.
  - change (d_parts d = parts (view st1)). rewrite V. exact D7.
Qed.
Lemma load_ok st d fc es : same_doc st d -> exists st', load fc (map found_of es) st = Ok (tt, st') /\ same_doc st' (load_doc es (commented fc d)).
Proof.
  intros D. unfold load. unfold ebind at 1, ask at 1. cbn [rbind]. unfold ebind at 1, ask at 1. cbn [rbind].
  destruct (file_comment st d fc (st_block st) D) as (st1 & E1 & D1). rewrite (ebind_ok _ _ _ _ _ E1).
  destruct (load_found_doc (st_block st) es st1 _ D1) as (st2 & E2 & D2 & _). rewrite (ebind_ok _ _ _ _ _ E2).
  destruct (st_block st); [exists st2; auto|]. eexists. split; [reflexivity|]. destruct D2 as [A B C1 C2 C3 C4 C5]. split; auto.
  destruct A. split; assumption.
Qed.

(** ** every call *)
Lemma perform_ok c st d : same_doc st d -> exists st', perform c st = Ok (fst (expect c d), st') /\ same_doc st' (snd (expect c d)).
Proof.
  intros D. pose proof (sd_own _ _ D) as O. pose proof (sd_inv _ _ D) as I.
  assert (LG : forall s, live st (Given s)) by reflexivity.
  destruct c as [sec key value comment force|sec key prune|sec key|sec key|sec| |sec| | |b|b|b|comment es]; cbn [perform expect].
  - (* CSet *)
    unfold set_value. destruct (add_entry_doc st d (Given sec) (given key) (given value) (given comment) force true D) as (st' & E & D' & _);
      [reflexivity|apply given_live|apply given_live|apply given_live|discriminate|intros _; rewrite !given_id; auto|].
    rewrite !given_text in E. rewrite 3 given_text in D'. rewrite (ebind_ok _ _ _ _ _ E). exists st'. cbn [fst snd]. split; [|exact D']. unfold eret.
    change (text st (Given sec)) with sec. destruct (added sec (both key value) d); reflexivity.
  - (* CDelete *)
    destruct sec as [s|]; [|exists st; auto]. cbn [given option_map].
    destruct (delete_ok [] st (Given s) (given key) prune O (vinv_vsorted _ _ I)) as (st' & E & O' & V & SE & OR & _).
    { reflexivity. } { apply given_live. } { intros k H i n l Hi. destruct key; [|discriminate]. injection H as <-. destruct Hi. }
    rewrite given_text in E, V. change (text st (Given s)) with s in E, V. unfold given in E. rewrite (ebind_ok _ _ _ _ _ E).
    destruct (vdelete_ok s key prune (st_order st) (view st) d I (sd_parts _ _ D)) as (V1 & V2 & V3).
    destruct (delete_doc s key prune d) as [b d'] eqn:ED. cbn [fst snd] in *. exists st'. split; [rewrite V2; reflexivity|]. rewrite V3.
    destruct D as [D1 D2 D3 D4 D5 D6 D7], SE as [E1 E2 E3 E4 E5 E6]. split; cbn; try congruence.
  - (* CGet *)
    exists st. split; [|destruct sec, key; exact D].
    destruct sec as [s|]; [|reflexivity]. destruct key as [k|]; [|reflexivity]. cbn [given option_map both].
    rewrite (ebind_ask _ _ _ _ (get_value_ok _ _ st (Given s) (Given k) None O I (LG s) (LG k))).
    destruct (values_state _ _ st (Given s) (Given k) d O I (LG s) (LG k) (sd_parts _ _ D) (sd_multi _ _ D)) as [V1 V2]. change (text st (Given s)) with s in V1. change (text st (Given k)) with k in V1.
    rewrite <- V1. destruct (held_values st (Given s) (Given k)) as [|[ne ve] r]; [reflexivity|]. inversion V2 as [|? ? [_ LV] _]; subst. cbn [snd] in LV.
    rewrite (ebind_ask _ _ _ _ (read_opt_ok st (Some ve) LV)). destruct r; reflexivity.
  - (* CAll *)
    exists st. split; [|destruct sec, key; exact D].
    destruct sec as [s|]; [|reflexivity]. destruct key as [k|]; [|reflexivity]. cbn [given option_map both].
    rewrite (ebind_ask _ _ _ _ (get_all_ok _ _ st (Given s) (Given k) O I (LG s) (LG k))).
    destruct (values_state _ _ st (Given s) (Given k) d O I (LG s) (LG k) (sd_parts _ _ D) (sd_multi _ _ D)) as [V1 V2]. change (text st (Given s)) with s in V1. change (text st (Given k)) with k in V1.
    rewrite <- V1. destruct (held_values st (Given s) (Given k)) as [|e r] eqn:HV; [reflexivity|]. rewrite <- HV in *. 
    assert (R : read_list st (Some (map value_entry (held_values st (Given s) (Given k)))) = Ok (Told (Some (map value_told (map (fun e => line (view_line st e)) (held_values st (Given s) (Given k))))))).
    { unfold read_list. rewrite read_all_ok; [cbn [rbind]; rewrite !map_map; reflexivity|]. apply Forall_map. eapply Forall_impl; [|exact V2]. intros x [[H1 H2] H3]. split; assumption. }
    unfold ask at 1. rewrite R. cbn [rbind fst]. rewrite HV. reflexivity.
  - (* CSize *)
    exists st. split; [|exact D]. destruct sec as [s|]; [|reflexivity]. cbn [given option_map].
    rewrite (ebind_ask _ _ _ _ (section_size_ok _ _ st (Given s) d O I (LG s) (sd_parts _ _ D) (sd_multi _ _ D))). reflexivity.
  - (* CSections *)
    exists st. split; [|exact D]. unfold ebind, ask. cbn [rbind]. rewrite (sd_parts _ _ D), (secs_told _ _ I).
    unfold read_list, all_sections. rewrite read_all_ok; [|apply Forall_map; eapply Forall_impl; [|exact (own_live _ _ O)]; intros e He; apply He].
    cbn [rbind fst]. unfold view, view_data. rewrite !map_map. reflexivity.
  - (* CKeys *)
    exists st. split; [|destruct sec; exact D]. destruct sec as [s|]; [|reflexivity]. cbn [given option_map].
    pose proof (all_keys_ok _ _ st (Given s) d O I (LG s) (sd_parts _ _ D)) as AK. change (text st (Given s)) with s in AK.
    unfold has_section, keys_of. rewrite (part_found _ _ s d I (sd_parts _ _ D)), (sd_parts _ _ D), (exists_part _ _ s I).
    destruct (one_section (view st) s (vi_sorted _ _ I)) as [E|(x & E)]; rewrite E in AK |- *.
    + rewrite (ebind_ask _ _ _ _ AK). reflexivity.
    + destruct AK as (ks & AK & LK & VK). rewrite (ebind_ask _ _ _ _ AK). unfold ask, read_list. rewrite (read_all_ok _ _ LK). cbn [rbind fst part p_lines].
      rewrite (keys_told _ _ (sec_kinv st d s x D E)).
      assert (M : map (told_of st) ks = map (fun r => (r_name r, r_comment r)) (map (view_named st) ks)) by (rewrite map_map; reflexivity).
      rewrite M, VK, map_map. reflexivity.
  - (* CSave *)
    exists st. split; [|exact D]. rewrite (ebind_ask _ _ _ _ (save_ok st d D)). reflexivity.
  - (* CReset *)
    eexists. split; [reflexivity|]. destruct D as [D1 D2 D3 D4 D5 D6 D7]. split; cbn; auto.
    + split; cbn; try constructor.
    + split; cbn; constructor.
  - eexists. split; [reflexivity|]. destruct D as [[A1 A2 A3 A4 A5] D2 D3 D4 D5 D6 D7]. split; cbn; auto. split; assumption.
  - eexists. split; [reflexivity|]. destruct D as [[A1 A2 A3 A4 A5] D2 D3 D4 D5 D6 D7]. split; cbn; auto. split; assumption.
  - eexists. split; [reflexivity|]. destruct D as [[A1 A2 A3 A4 A5] D2 D3 D4 D5 D6 D7]. split; cbn; auto. split; assumption.
  - (* CLoad *)
    destruct (load_ok st d comment es D) as (st' & E & D'). rewrite (ebind_ok _ _ _ _ _ E). exists st'. auto.
Qed.
Lemma new_doc multi multiline : same_doc (new_store multi multiline) (blank multi multiline).
Proof. split; try reflexivity; [split; cbn; try constructor|split; cbn; constructor]. Qed.
Lemma perform_all_ok h : forall st d, same_doc st d -> exists st', perform_all h st = Ok (fst (expect_all h d), st') /\ same_doc st' (snd (expect_all h d)).
Proof.
  induction h as [|c h IH]; intros st d D; [exists st; auto|]. cbn [perform_all expect_all].
  destruct (perform_ok c st d D) as (st1 & E1 & D1). rewrite (ebind_ok _ _ _ _ _ E1). destruct (expect c d) as [a d1]. cbn [fst snd] in D1 |- *.
  destruct (IH st1 d1 D1) as (st2 & E2 & D2). rewrite (ebind_ok _ _ _ _ _ E2). destruct (expect_all h d1) as [l d2]. cbn [fst snd] in *. exists st2. auto.
Qed.
