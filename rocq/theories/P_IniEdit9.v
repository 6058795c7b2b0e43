(** Lemmas about IniEdit.v: questions, and the text that is written. *)
From Coq Require Import Permutation Sorting.Sorted Lia.
From Verif Require Import Base P_Base CTypes StringUtils Ini P_Ini IniEdit IniCalls Spec_Ini Spec_IniEdit P_IniEdit P_IniEdit2 P_IniEdit3 P_IniEdit4 P_IniEdit5 P_IniEdit6 P_IniEdit7 P_IniEdit8.

(** * Texts *)
Lemma out_lines_spec s : out_lines s = concat (map (fun l => l ++ [LF]) (text_lines s)).
Proof.
  induction s as [|c s IH]; [reflexivity|]. cbn [out_lines text_lines]. destruct (Ascii.eqb_spec c LF) as [->|N].
  - cbn [map concat app]. rewrite IH. reflexivity.
  - rewrite IH. destruct (text_lines s) as [|l ls] eqn:E; [destruct s; cbn in E; [discriminate|destruct (Ascii.eqb a LF); [discriminate|destruct (text_lines s); discriminate]]|].
    reflexivity.
Qed.
Lemma out_text_spec s : out_text s = write_text s.
Proof. destruct s; [reflexivity|]. unfold out_text, write_text. apply out_lines_spec. Qed.
Lemma lstrip_length s : length (lstrip s) <= length s.
Proof. induction s as [|c s IH]; cbn [lstrip]; [lia|]. destruct (is_gap c); cbn [length]; lia. Qed.
Lemma lstrip_fix s : lstrip s = s <-> match s with c :: _ => is_gap c = false | [] => True end.
Proof.
  destruct s as [|c s]; [split; auto|]. cbn [lstrip]. destruct (is_gap c); [|split; auto]. split; [|discriminate].
  intros H. pose proof (lstrip_length s) as L. rewrite H in L. cbn [length] in L. lia.
Qed.
Lemma strip_fix s : strip s = s <-> (match s with c :: _ => is_gap c = false | [] => True end) /\ (match rev s with c :: _ => is_gap c = false | [] => True end).
Proof.
  unfold strip. split.
  - intros H. assert (L : lstrip s = s).
    { pose proof (lstrip_length s) as L1. pose proof (lstrip_length (rev (lstrip s))) as L2. pose proof (f_equal (@length _) H) as L3. rewrite rev_length in L3, L2.
      destruct s as [|c s]; [reflexivity|]. cbn [lstrip] in *. destruct (is_gap c); [|reflexivity]. pose proof (lstrip_length s) as L4. cbn [length] in *. lia. }
    rewrite L in H. split; [apply lstrip_fix; exact L|]. apply lstrip_fix. apply (f_equal (@rev _)) in H. rewrite rev_involutive in H. exact H.
  - intros [A B]. apply lstrip_fix in A. apply lstrip_fix in B. rewrite A, B. apply rev_involutive.
Qed.
Lemma space_gap c : ini_space c = is_gap c || is_eol c.
Proof.
  unfold ini_space, is_gap, is_eol. change SP with " "%char. change TAB with "009"%char. change CR with "013"%char. change LF with "010"%char.
  destruct (Ascii.eqb c " "), (Ascii.eqb c "009"), (Ascii.eqb c "013"), (Ascii.eqb c "010"); reflexivity.
Qed.
Lemma multi_line_spec s : multi_line_data s = needs_lines s.
Proof.
  unfold needs_lines. destruct s as [|c s]; [reflexivity|]. cbn [multi_line_data]. set (t := c :: s) in *.
  assert (E1 : existsb is_nl t = existsb is_eol t).
  { induction t as [|a t IH]; [reflexivity|]. cbn [existsb]. rewrite IH. reflexivity. }
  rewrite E1. destruct (existsb is_eol t) eqn:EE; [rewrite orb_true_r; reflexivity|]. cbn [orb]. rewrite orb_false_r.
  assert (NE : forall a, In a t -> is_eol a = false).
  { intros a Ha. destruct (is_eol a) eqn:X; [|reflexivity]. rewrite <- EE. symmetry. apply existsb_exists. exists a. auto. }
  assert (NR : match rev t with d :: _ => is_eol d = false | [] => True end).
  { destruct (rev t) as [|d r] eqn:R; [exact I|]. apply NE. apply in_rev. rewrite R. left. reflexivity. }
  rewrite space_gap, (NE c (or_introl eq_refl)), orb_false_r.
  pose proof (strip_fix t) as SF. unfold t in SF at 3. 
  destruct (rev t) as [|d r] eqn:R; [apply (f_equal (@length _)) in R; rewrite rev_length in R; discriminate|].
  rewrite space_gap, NR, orb_false_r.
  destruct (beqb (strip t) t) eqn:BE.
  - apply beqb_eq in BE. apply SF in BE. destruct BE as [-> ->]. reflexivity.
  - destruct (is_gap c); [reflexivity|]. destruct (is_gap d); [reflexivity|]. exfalso. assert (strip t = t) by (apply SF; auto). rewrite H, beqb_refl in BE. discriminate.
Qed.

(** * Questions *)
Definition told_of (st : store) (n : named) : told := (text st (n_item n), option_map (text st) (n_comment n)).
Lemma read_opt_ok st p : live_opt st p -> read_opt st p = Ok (option_map (text st) p).
Proof. intros H. destruct p as [q|]; [|reflexivity]. cbn. rewrite H. reflexivity. Qed.
Lemma read_all_ok st l : Forall (live_named st) l -> read_all st l = Ok (map (told_of st) l).
Proof.
  induction 1 as [|n l [H1 H2] _ IH]; [reflexivity|]. cbn [read_all map]. unfold read_named. rewrite H1. cbn [rbind]. rewrite (read_opt_ok _ _ H2). cbn [rbind]. rewrite IH. reflexivity.
Qed.

Lemma section_state P o st sec : own P st -> vinv o (view st) -> live st sec ->
  (find_name st sec (st_data st) = Ok None /\ Eqs vn (text st sec) (view st) = []) \/
  exists i n l, find_name st sec (st_data st) = Ok (Some i) /\ In (n, l) (st_data st) /\ keys_at i st = l
    /\ Eqs vn (text st sec) (view st) = [(view_named st n, view_keyed st l)] /\ kinv o (view_keyed st l) /\ live_keyed st l.
Proof.
  intros O I K. destruct (section_search P st sec O (vinv_vsorted _ _ I) K) as [H|(A & n & l & B & DA & F & VA & VB & N & SN)]; [left; exact H|]. right.
  exists (length A), n, l. split; [exact F|]. split; [rewrite DA; apply in_or_app; right; left; reflexivity|]. split; [apply (keys_at_mid _ _ _ _ _ DA)|]. split; [exact N|]. split.
  - pose proof (vi_keys _ _ I) as KK. rewrite Forall_forall in KK.
    assert (H : In (view_named st n, view_keyed st l) (Eqs vn (text st sec) (view st))) by (rewrite N; left; reflexivity). apply filter_In in H. apply (KK _ (proj1 H)).
  - pose proof (own_live _ _ O) as LD. rewrite DA in LD. apply live_data_app in LD. destruct LD as [_ LD]. apply live_data_cons in LD. apply LD.
Qed.

(** the values of a key as pointers *)
Definition shown (multi : bool) {A} (l : list A) : list A := if multi then l else firstn 1 l.
Definition held_values (st : store) (sec key : ptr) : keyed :=
  match find_name st sec (st_data st) with
  | Ok (Some i) => shown (st_multi st) (Eqs (nm_of st) (text st key) (keys_at i st))
  | _ => []
  end.
Lemma values_state P o st sec key d : own P st -> vinv o (view st) -> live st sec -> live st key -> d_parts d = parts (view st) -> d_multi d = st_multi st ->
  map (fun e => line (view_line st e)) (held_values st sec key) = values_of (text st sec) (text st key) d /\ live_keyed st (held_values st sec key).
Proof.
  intros O I LS LK EP EM. unfold held_values, values_of. rewrite (part_found o (view st) (text st sec) d I EP).
  destruct (section_state P o st sec O I LS) as [[F N]|(i & n & l & F & IN & KA & N & KI & LL)]; rewrite F, N; [split; [reflexivity|constructor]|].
  rewrite KA, EM. unfold lines_of. cbn [part p_lines snd]. rewrite (filter_lines _ (text st key) (ki_sorted _ _ KI) (ki_tidy _ _ KI)). rewrite <- Eqs_view_keyed.
  unfold view_keyed. rewrite map_map. split.
  - unfold shown. destruct (st_multi st); [reflexivity|]. rewrite firstn_map. reflexivity.
  - assert (H : live_keyed st (Eqs (nm_of st) (text st key) l)).
    { unfold live_keyed in *. rewrite Forall_forall in *. intros e He. apply filter_In in He. apply LL. apply He. }
    unfold shown. destruct (st_multi st); [exact H|]. unfold live_keyed in *. rewrite Forall_forall in *. intros e He. apply H. rewrite <- (firstn_skipn 1). apply in_or_app. left. exact He.
Qed.
Lemma get_all_ok P o st sec key : own P st -> vinv o (view st) -> live st sec -> live st key ->
  get_all_values (Some sec) (Some key) st = Ok (match held_values st sec key with [] => None | l => Some (map value_entry l) end).
Proof.
  intros O I LS LK. unfold get_all_values, held_values.
  destruct (section_state P o st sec O I LS) as [[F N]|(i & n & l & F & IN & KA & N & KI & LL)]; rewrite F; cbn [rbind]; [reflexivity|].
  rewrite KA. rewrite (find_name_ok st key l LK (live_keyed_names _ _ LL) (keys_weak_a _ _ (ki_sorted _ _ KI))). cbn [rbind].
  pose proof (keys_split st (text st key) l (ki_sorted _ _ KI)) as SP.
  set (a := Lt (nm_of st) (text st key) l) in *. set (c := Gt (nm_of st) (text st key) l) in *. destruct (Eqs (nm_of st) (text st key) l) as [|e r] eqn:EE.
  { unfold shown. destruct (st_multi st); reflexivity. }
  assert (NT : nth_error l (length a) = Some e) by (clearbody a c; rewrite SP; apply nth_mid). rewrite NT.
  assert (SK : skipn (S (length a)) l = r ++ c).
  { clearbody a c. rewrite SP. rewrite skipn_app. rewrite skipn_all2 by lia. replace (S (length a) - length a) with 1 by lia. reflexivity. }
  unfold shown. destruct (st_multi st); [|reflexivity].
  rewrite SK, (equals_ok st key r c); [reflexivity|exact LK| | |].
  - pose proof (live_keyed_names _ _ LL) as H. unfold live_names in *. rewrite SP in H. apply Forall_app in H. destruct H as [_ H]. inversion H; assumption.
  - pose proof (Eqs_forall (nm_of st) (text st key) l) as H. rewrite EE in H. inversion H; assumption.
  - apply Gt_forall.
Qed.
Lemma get_value_ok P o st sec key def : own P st -> vinv o (view st) -> live st sec -> live st key ->
  get_value_at (Some sec) (Some key) def st =
  Ok (match held_values st sec key with [] => (def, false) | (_, v) :: r => (Some v, match r with [] => false | _ => true end) end).
Proof.
  intros O I LS LK. unfold get_value_at, held_values.
  destruct (section_state P o st sec O I LS) as [[F N]|(i & n & l & F & IN & KA & N & KI & LL)]; rewrite F; cbn [rbind]; [reflexivity|].
  rewrite KA. rewrite (find_name_ok st key l LK (live_keyed_names _ _ LL) (keys_weak_a _ _ (ki_sorted _ _ KI))). cbn [rbind].
  pose proof (keys_split st (text st key) l (ki_sorted _ _ KI)) as SP.
  set (a := Lt (nm_of st) (text st key) l) in *. set (c := Gt (nm_of st) (text st key) l) in *. destruct (Eqs (nm_of st) (text st key) l) as [|e r] eqn:EE.
  { unfold shown. destruct (st_multi st); reflexivity. }
  assert (NT : nth_error l (length a) = Some e) by (clearbody a c; rewrite SP; apply nth_mid). rewrite NT.
  assert (NS : nth_error l (S (length a)) = nth_error (r ++ c) 0).
  { clearbody a c. rewrite SP. rewrite nth_error_app2 by lia. replace (S (length a) - length a) with 1 by lia. reflexivity. }
  unfold shown. destruct e as [ne ve]. destruct (st_multi st); [|reflexivity]. rewrite NS.
  pose proof (live_keyed_names _ _ LL) as LN. unfold live_names in LN. rewrite SP in LN. apply Forall_app in LN. destruct LN as [_ LN]. apply Forall_inv_tail in LN. apply Forall_app in LN. destruct LN as [LR LC].
  destruct r as [|[m w] r]; cbn [app nth_error].
  - destruct c as [|[m w] c'] eqn:EC; [reflexivity|]. apply Forall_inv in LC. cbn [fst] in LC. rewrite is_less_ok by assumption. cbn [rbind].
    pose proof (Gt_forall (nm_of st) (text st key) l) as H. fold c in H. rewrite EC in H. apply Forall_inv in H. unfold is_gt, nm_of in H. cbn [fst] in H. rewrite H. reflexivity.
  - apply Forall_inv in LR. cbn [fst] in LR. rewrite is_less_ok by assumption. cbn [rbind].
    pose proof (Eqs_forall (nm_of st) (text st key) l) as H. rewrite EE in H. apply Forall_inv_tail in H. apply Forall_inv in H. unfold is_gt, nm_of in H. cbn [fst] in H. rewrite H. reflexivity.
Qed.

Lemma distinct_ok {V} st (l : list (named * V)) : live_names st l -> forall last, live_opt st last ->
  distinct st last l = Ok (map fst (vheads (nm_of st) (option_map (text st) last) l)).
Proof.
  induction 1 as [|[n v] l H _ IH]; intros last LL; [reflexivity|]. cbn [distinct vheads fst] in *.
  assert (B : (match last with None => Ok true | Some q => is_less st q (n_item n) end) =
              Ok (match option_map (text st) last with None => true | Some q => nocase_less q (nm_of st (n, v)) end)).
  { destruct last as [q|]; [|reflexivity]. cbn [option_map]. apply is_less_ok; assumption. }
  rewrite B. cbn [rbind]. destruct (match option_map (text st) last with None => true | Some q => nocase_less q (nm_of st (n, v)) end).
  - rewrite (IH (Some (n_item n)) H). reflexivity.
  - apply (IH last LL).
Qed.
Lemma all_keys_ok P o st sec d : own P st -> vinv o (view st) -> live st sec -> d_parts d = parts (view st) ->
  match Eqs vn (text st sec) (view st) with
  | [] => all_keys (Some sec) st = Ok None
  | x :: _ => exists ks, all_keys (Some sec) st = Ok (Some ks) /\ Forall (live_named st) ks /\ map (view_named st) ks = map fst (vheads vn None (snd x))
  end.
Proof.
  intros O I LS EP. unfold all_keys.
  destruct (section_state P o st sec O I LS) as [[F N]|(i & n & l & F & IN & KA & N & KI & LL)]; rewrite F, N; cbn [rbind]; [reflexivity|].
  rewrite KA, (distinct_ok st l (live_keyed_names _ _ LL) None Logic.I). cbn [rbind option_map snd].
  eexists. split; [reflexivity|]. split.
  - apply Forall_map. apply Forall_forall. intros e He. unfold live_keyed in LL. rewrite Forall_forall in LL.
    apply (vheads_in0 _ _ _ (keys_weak_a _ _ (ki_sorted _ _ KI))) in He. destruct He as (r & He).
    assert (In e (Eqs (nm_of st) (nm_of st e) l)) by (rewrite He; left; reflexivity). apply filter_In in H. apply (LL e (proj1 H)).
  - unfold view_keyed. rewrite (vheads_map (view_line st) vn). rewrite !map_map. reflexivity.
Qed.
Lemma section_size_ok P o st sec d : own P st -> vinv o (view st) -> live st sec -> d_parts d = parts (view st) -> d_multi d = st_multi st ->
  section_size (Some sec) st = Ok (size_of (text st sec) d).
Proof.
  intros O I LS EP EM. unfold section_size, size_of. rewrite (part_found o (view st) (text st sec) d I EP).
  destruct (section_state P o st sec O I LS) as [[F N]|(i & n & l & F & IN & KA & N & KI & LL)]; rewrite F, N; cbn [rbind]; [reflexivity|].
  rewrite KA, EM. cbn [part p_lines snd]. destruct (st_multi st); cbn [negb].
  - rewrite (distinct_ok st l (live_keyed_names _ _ LL) None Logic.I). cbn [rbind option_map]. f_equal. f_equal. rewrite map_length.
    unfold P_IniEdit6.lines. rewrite first_lines_map, map_length. rewrite <- (Permutation_length (keys_heads o _ KI)).
    unfold view_keyed. rewrite (vheads_map (view_line st) vn), map_length. reflexivity.
  - f_equal. f_equal. unfold P_IniEdit6.lines. rewrite map_length, <- (Permutation_length (byord_perm _)). unfold view_keyed. rewrite map_length. reflexivity.
Qed.
