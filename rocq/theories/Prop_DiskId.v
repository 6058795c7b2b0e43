(** C120: parse_disk_id. *)
From Verif Require Import Base CTypes StringUtils Network Disks DiskId P_Base P_Strings Spec_Disks P_Disks Spec_DiskId Prop_Disks.

Fixpoint col (size k i : nat) (l : bytes) : N :=
  match l with
  | [] => 0%N
  | b :: r => N.lxor (if Nat.eqb (i mod size) k then N_of_ascii b else 0%N) (col size k (S i) r)
  end.
Lemma col_app size k a : forall i b, col size k i (a ++ b) = N.lxor (col size k i a) (col size k (i + length a) b).
Proof.
  induction a as [|c a IH]; intros i b; cbn [app col length]; [rewrite N.lxor_0_l, Nat.add_0_r; reflexivity|].
  rewrite IH, N.lxor_assoc. replace (S i + length a) with (i + S (length a)) by lia. reflexivity.
Qed.
Lemma col_spec size k l : forall pre,
  xor_all (map (fun j => N_of_ascii (nth j (pre ++ l) NUL)) (filter (fun j => Nat.eqb (j mod size) k) (seq (length pre) (length l)))) = col size k (length pre) l.
Proof.
  induction l as [|c l IH]; intros pre; [reflexivity|]. cbn [length seq filter col].
  specialize (IH (pre ++ [c])). rewrite app_length in IH. cbn [length] in IH. rewrite Nat.add_1_r, <- app_assoc in IH. cbn [app] in IH.
  destruct (Nat.eqb (length pre mod size) k); cbn [map]; [|rewrite IH, N.lxor_0_l; reflexivity].
  unfold xor_all in *. cbn [fold_right]. rewrite IH. f_equal. rewrite app_nth2 by lia. rewrite Nat.sub_diag. reflexivity.
Qed.
Lemma disk_byte_col size u k : disk_byte size u k = col size k 0 u.
Proof. exact (col_spec size k u []). Qed.
Lemma col_shift size k l : size > 0 -> forall i j, i mod size = j mod size -> col size k i l = col size k j l.
Proof.
  intros P. induction l as [|c l IH]; intros i j E; [reflexivity|]. cbn [col]. rewrite E. f_equal. apply IH.
  rewrite <- (Nat.add_1_r i), <- (Nat.add_1_r j). rewrite <- (Nat.add_mod_idemp_l i), <- (Nat.add_mod_idemp_l j), E by lia. reflexivity.
Qed.
Lemma col_lt size k l : forall i, (col size k i l < 256)%N.
Proof. induction l as [|c l IH]; intros i; cbn [col]; [reflexivity|]. apply lxor_byte; [|apply IH]. destruct (Nat.eqb _ _); [apply N_ascii_bounded|reflexivity]. Qed.
Lemma code_len size u : length (disk_code size u) = size.
Proof. unfold disk_code. rewrite map_length, seq_length. reflexivity. Qed.
Lemma code_nth size u k : k < size -> nth k (disk_code size u) NUL = ascii_of_N (col size k 0 u).
Proof.
  intros H. unfold disk_code. rewrite (nth_indep _ NUL (ascii_of_N (disk_byte size u 0))) by (rewrite map_length, seq_length; exact H).
  rewrite (map_nth (fun k => ascii_of_N (disk_byte size u k))), seq_nth, disk_byte_col by exact H. reflexivity.
Qed.
Lemma code_ext size u v : (forall k, k < size -> col size k 0 u = col size k 0 v) -> disk_code size u = disk_code size v.
Proof. intros H. apply list_nth_ext; [rewrite !code_len; reflexivity|]. rewrite code_len. intros k L. rewrite !code_nth, H by exact L. reflexivity. Qed.
Lemma code_inv size u v : disk_code size u = disk_code size v -> forall k, k < size -> col size k 0 u = col size k 0 v.
Proof.
  intros E k L. pose proof (f_equal (fun l => nth k l NUL) E) as X. cbn beta in X. rewrite !code_nth in X by exact L.
  rewrite <- (N_ascii_embedding (col size k 0 u)), <- (N_ascii_embedding (col size k 0 v)), X by apply col_lt. reflexivity.
Qed.
Lemma firstn_S i (u : bytes) : i < length u -> firstn (S i) u = firstn i u ++ [nth i u NUL].
Proof. revert i; induction u as [|c u IH]; intros [|i] H; cbn in *; try lia; [reflexivity|]. rewrite <- IH by lia. reflexivity. Qed.
Lemma code_step size u i : size > 0 -> i < length u ->
  xor_at (i mod size) (nth i u NUL) (disk_code size (firstn i u)) = disk_code size (firstn (S i) u).
Proof.
  intros P H. assert (B : i mod size < size) by (apply Nat.mod_upper_bound; lia).
  apply list_nth_ext; [rewrite xor_at_length, !code_len; reflexivity|]. rewrite xor_at_length, code_len. intros k L.
  rewrite xor_at_nth by (rewrite code_len; exact B). rewrite !code_nth by exact L. rewrite firstn_S by exact H. rewrite col_app.
  rewrite firstn_length, Nat.min_l by lia. cbn [col plus]. rewrite N.lxor_0_r.
  destruct (Nat.eqb_spec (i mod size) k) as [E|E]; [|rewrite N.lxor_0_r; reflexivity].
  rewrite <- (ascii_N_embedding (nth i u NUL)) at 1. apply xor_byte_ascii; [apply col_lt|apply N_ascii_bounded].
Qed.
Lemma code_nil size : disk_code size [] = repeat NUL size.
Proof.
  apply list_nth_ext; [rewrite code_len, repeat_length; reflexivity|]. rewrite code_len. intros k L. rewrite code_nth by exact L.
  symmetry. cbn [col]. clear. revert k. induction size as [|n IH]; intros [|k]; try reflexivity. apply IH.
Qed.
Lemma loop_code size u : size > 0 -> short_enough u -> forall d i fuel, i + d = length u -> d < fuel ->
  did_loop fuel u size (N.of_nat i) (disk_code size (firstn i u)) = DBuf (disk_code size u).
Proof.
  intros P SE. unfold short_enough in SE. induction d as [|d IH]; intros i [|fuel] E F; try lia; cbn [did_loop].
  - destruct (N.ltb_spec (N.of_nat i) (N.of_nat (length u))) as [C|C]; [lia|]. replace i with (length u) by lia. rewrite firstn_all. reflexivity.
  - destruct (N.ltb_spec (N.of_nat i) (N.of_nat (length u))) as [C|C]; [|lia].
    destruct size as [|size]; [lia|]. rewrite Nat2N.id.
    replace (N.to_nat (N.of_nat i mod N.of_nat (S size))) with (i mod S size) by (rewrite N2Nat.inj_mod, !Nat2N.id; reflexivity).
    rewrite code_step by lia. rewrite N.mod_small by lia. replace (N.of_nat i + 1)%N with (N.of_nat (S i)) by lia. apply IH; lia.
Qed.

(** The bytes it leaves, whatever the text and the size of the buffer: after one round for
    each character it ends, and stays in the buffer (its length is [size]). *)
Theorem C120_value : forall (u : bytes) (size fuel : nat), nul_free u -> size > 0 -> short_enough u -> length u < fuel ->
  parse_disk_id fuel u size = DBuf (disk_code size u) /\ length (disk_code size u) = size.
Proof.
  intros u size fuel NF P SE F. split; [|apply code_len]. unfold parse_disk_id. rewrite (cstr_id _ NF), <- code_nil.
  change 0%N with (N.of_nat 0). change (@nil ascii) with (firstn 0 u) at 1. apply (loop_code size u P SE (length u)); [reflexivity|exact F].
Qed.
Print Assumptions C120_value.

(** It ends exactly for texts of fewer than 2^32 characters: the index is an unsigned int. *)
Theorem C120_ends_iff : forall (u : bytes) (size : nat), nul_free u -> size > 0 ->
  ((exists fuel, parse_disk_id fuel u size <> DRunning) <-> short_enough u).
Proof.
  intros u size NF P. split.
  - intros [fuel H]. destruct (N.ltb_spec (N.of_nat (length u)) 4294967296) as [L|L]; [exact L|exfalso; apply H].
    unfold parse_disk_id. rewrite (cstr_id _ NF). clear H. generalize (repeat NUL size).
    assert (0 < 4294967296)%N as I by reflexivity. revert I. generalize 0%N. induction fuel as [|fuel IH]; intros i I buf; [reflexivity|]. cbn [did_loop].
    destruct (N.ltb_spec i (N.of_nat (length u))) as [C|C]; [|lia]. destruct size as [|size]; [lia|]. apply IH. apply N.mod_lt. discriminate.
  - intros SE. exists (S (length u)). destruct (C120_value u size (S (length u)) NF P SE ltac:(lia)) as [-> _]. discriminate.
Qed.
Print Assumptions C120_ends_iff.

Lemma loop_more u size n fuel : forall i buf c, did_loop fuel u size i buf = DBuf c -> did_loop (fuel + n) u size i buf = DBuf c.
Proof.
  induction fuel as [|fuel IH]; intros i buf c H; [discriminate H|]. cbn [plus did_loop] in *. destruct (N.ltb _ _); [|exact H].
  destruct size; [discriminate H|]. apply IH, H.
Qed.
(** whenever it ends, the buffer holds the code *)
Theorem C120_result : forall (u c : bytes) (size fuel : nat), nul_free u -> size > 0 -> parse_disk_id fuel u size = DBuf c -> c = disk_code size u.
Proof.
  intros u c size fuel NF P H. assert (SE : short_enough u) by (apply (C120_ends_iff u size NF P); exists fuel; rewrite H; discriminate).
  apply (loop_more _ _ (S (length u))) in H. destruct (C120_value u size (fuel + S (length u)) NF P SE ltac:(lia)) as [V _].
  unfold parse_disk_id in V. rewrite V in H. injection H as ->. reflexivity.
Qed.
Print Assumptions C120_result.

(** With a buffer of no bytes it divides by zero, unless the text is empty. *)
Theorem C120_no_buffer : forall (u : bytes) (fuel : nat), nul_free u -> fuel > 0 ->
  parse_disk_id fuel u 0 = match u with [] => DBuf [] | _ => DDivZero end.
Proof.
  intros u [|fuel] NF F; [lia|]. unfold parse_disk_id. rewrite (cstr_id _ NF). destruct u as [|c u]; reflexivity.
Qed.
Print Assumptions C120_no_buffer.

(** A text that fits is left unchanged and padded with zeros, so two such texts have the same
    code only if they are equal. *)
Lemma col_small size k l : forall i, k < size -> i + length l <= size ->
  col size k i l = if Nat.leb i k then N_of_ascii (nth (k - i) l NUL) else 0%N.
Proof.
  induction l as [|c l IH]; intros i K L; cbn [col length] in *; [destruct (Nat.leb i k); [destruct (k - i)|]; reflexivity|].
  rewrite Nat.mod_small, IH by lia. destruct (Nat.eqb_spec i k) as [->|N].
  - rewrite Nat.leb_refl, Nat.sub_diag. destruct (Nat.leb_spec (S k) k); [lia|]. apply N.lxor_0_r.
  - rewrite N.lxor_0_l. destruct (Nat.leb_spec (S i) k), (Nat.leb_spec i k); try lia. replace (k - i) with (S (k - S i)) by lia. reflexivity.
Qed.
Lemma fits : forall (u : bytes) (size : nat), length u <= size -> disk_code size u = u ++ repeat NUL (size - length u).
Proof.
  intros u size L. apply list_nth_ext; [rewrite code_len, app_length, repeat_length; lia|]. rewrite code_len. intros k K.
  rewrite code_nth, col_small by (cbn; lia). cbn [Nat.leb]. rewrite Nat.sub_0_r, ascii_N_embedding.
  destruct (Nat.ltb_spec k (length u)) as [C|C]; [rewrite app_nth1 by lia; reflexivity|]. rewrite nth_overflow, app_nth2 by lia.
  generalize (k - length u) (size - length u). clear. intros a b. revert a. induction b as [|b IH]; intros [|a]; try reflexivity. apply IH.
Qed.
Lemma cut_zeros u n : nul_free u -> cstr (u ++ repeat NUL n) = u.
Proof.
  unfold nul_free, cstr. induction u as [|c u IH]; cbn [app forallb span]; intros H; [destruct n; reflexivity|].
  apply andb_true_iff in H as [A B]. unfold nonnul in A. rewrite A. specialize (IH B). destruct (span _ _) as [p q]. cbn [fst] in *. rewrite IH. reflexivity.
Qed.
Lemma short_texts_differ : forall (u v : bytes) (size : nat), nul_free u -> nul_free v -> length u <= size -> length v <= size ->
  disk_code size u = disk_code size v -> u = v.
Proof.
  intros u v size NU NV LU LV E. rewrite !fits in E by assumption.
  rewrite <- (cut_zeros u (size - length u) NU), E. apply cut_zeros, NV.
Qed.

(** One changed character always shows. *)
Lemma one_character : forall (a b : bytes) (x y : ascii) (size : nat), size > 0 -> x <> y ->
  disk_code size (a ++ x :: b) <> disk_code size (a ++ y :: b).
Proof.
  intros a b x y size P N E. apply N. pose proof (code_inv _ _ _ E (length a mod size) (Nat.mod_upper_bound (length a) size ltac:(lia))) as H.
  rewrite !col_app in H. cbn [col plus] in H. rewrite Nat.eqb_refl in H.
  set (p := col size (length a mod size) 0 a) in H. set (q := col size (length a mod size) (S (length a)) b) in H. clearbody p q.
  assert (X : forall s, N.lxor (N.lxor p (N.lxor p (N.lxor s q))) q = s).
  { intros s. rewrite <- (N.lxor_assoc p p), N.lxor_nilpotent, N.lxor_0_l, N.lxor_assoc, N.lxor_nilpotent, N.lxor_0_r. reflexivity. }
  rewrite <- (ascii_N_embedding x), <- (ascii_N_embedding y), <- (X (N_of_ascii x)), <- (X (N_of_ascii y)), H. reflexivity.
Qed.

(** But longer texts may share a code: characters a multiple of [size] apart can change places ... *)
Lemma places_exchanged : forall (a b c : bytes) (x y : ascii) (size : nat), size > 0 -> S (length b) mod size = 0 ->
  disk_code size (a ++ x :: b ++ y :: c) = disk_code size (a ++ y :: b ++ x :: c).
Proof.
  intros a b c x y size P M. apply code_ext. intros k _. rewrite !col_app. cbn [col plus]. rewrite !col_app. cbn [col]. f_equal.
  assert ((S (length a) + length b) mod size = length a mod size) as ->.
  { replace (S (length a) + length b) with (length a + S (length b)) by lia. rewrite <- Nat.add_mod_idemp_r, M, Nat.add_0_r by lia. reflexivity. }
  destruct (Nat.eqb _ _); [|reflexivity]. set (B := col _ _ _ b). set (C := col _ _ _ c).
  rewrite <- !N.lxor_assoc. f_equal. rewrite (N.lxor_comm (N_of_ascii x) B), (N.lxor_comm (N_of_ascii y) B), !N.lxor_assoc. f_equal. apply N.lxor_comm.
Qed.
(** ... and a part of [size] characters that comes twice in a row does not count at all. *)
Lemma repeated_part : forall (a w b : bytes) (size : nat), size > 0 -> length w mod size = 0 ->
  disk_code size (a ++ w ++ w ++ b) = disk_code size (a ++ b).
Proof.
  intros a w b size P M. apply code_ext. intros k _. rewrite !col_app.
  assert (H : forall n, (n + length w) mod size = n mod size) by (intros n; rewrite <- Nat.add_mod_idemp_r, M, Nat.add_0_r by lia; reflexivity).
  rewrite (col_shift size k w P (0 + length a + length w) (0 + length a)) by apply H.
  rewrite (col_shift size k b P (0 + length a + length w + length w) (0 + length a)) by (rewrite !H; reflexivity).
  f_equal. rewrite <- N.lxor_assoc, N.lxor_nilpotent, N.lxor_0_l. reflexivity.
Qed.

(** ** The same of the calls *)
(** A text that fits is left as it is, followed by zeros; so two texts that fit have the same
    code only if they are equal. *)
Theorem C120_fits : forall (u c : bytes) (size fuel : nat), nul_free u -> size > 0 -> parse_disk_id fuel u size = DBuf c ->
  length u <= size -> c = u ++ repeat NUL (size - length u).
Proof. intros u c size fuel NF P H L. rewrite (C120_result _ _ _ _ NF P H). apply fits, L. Qed.
Print Assumptions C120_fits.
Theorem C120_short_texts_differ : forall (u v c : bytes) (size f g : nat), nul_free u -> nul_free v -> size > 0 ->
  length u <= size -> length v <= size -> parse_disk_id f u size = DBuf c -> parse_disk_id g v size = DBuf c -> u = v.
Proof.
  intros u v c size f g NU NV P LU LV HU HV. apply (short_texts_differ u v size NU NV LU LV).
  rewrite <- (C120_result _ _ _ _ NU P HU). exact (C120_result _ _ _ _ NV P HV).
Qed.
Print Assumptions C120_short_texts_differ.
(** One changed character always shows, however long the text. *)
Theorem C120_one_character : forall (a b : bytes) (x y : ascii) (c d : bytes) (size f g : nat), size > 0 -> x <> y ->
  nul_free (a ++ x :: b) -> nul_free (a ++ y :: b) ->
  parse_disk_id f (a ++ x :: b) size = DBuf c -> parse_disk_id g (a ++ y :: b) size = DBuf d -> c <> d.
Proof.
  intros a b x y c d size f g P N NU NV HU HV. rewrite (C120_result _ _ _ _ NU P HU), (C120_result _ _ _ _ NV P HV). apply one_character; assumption.
Qed.
Print Assumptions C120_one_character.
(** But longer texts can share a code: characters a multiple of [size] apart may change places,
    and a part of [size] characters that comes twice in a row does not count. *)
Theorem C120_places_exchanged : forall (a b r : bytes) (x y : ascii) (c d : bytes) (size f g : nat), size > 0 -> S (length b) mod size = 0 ->
  nul_free (a ++ x :: b ++ y :: r) -> nul_free (a ++ y :: b ++ x :: r) ->
  parse_disk_id f (a ++ x :: b ++ y :: r) size = DBuf c -> parse_disk_id g (a ++ y :: b ++ x :: r) size = DBuf d -> c = d.
Proof.
  intros a b r x y c d size f g P M NU NV HU HV. rewrite (C120_result _ _ _ _ NU P HU), (C120_result _ _ _ _ NV P HV). apply places_exchanged; assumption.
Qed.
Print Assumptions C120_places_exchanged.
Theorem C120_repeated_part : forall (a w b c d : bytes) (size f g : nat), size > 0 -> length w mod size = 0 ->
  nul_free (a ++ w ++ w ++ b) -> nul_free (a ++ b) ->
  parse_disk_id f (a ++ w ++ w ++ b) size = DBuf c -> parse_disk_id g (a ++ b) size = DBuf d -> c = d.
Proof.
  intros a w b c d size f g P M NU NV HU HV. rewrite (C120_result _ _ _ _ NU P HU), (C120_result _ _ _ _ NV P HV). apply repeated_part; assumption.
Qed.
Print Assumptions C120_repeated_part.
(** Unlike parseUUID (C38) it needs no scratch buffer, so the texts that overrun that one do no
    harm here: any text of hexadecimal digits has a code. *)
Theorem C120_no_overrun : forall (u : bytes) (size fuel : nat), size > 0 -> short_enough u -> length u < fuel -> forallb isxdigit u = true ->
  parse_uuid u = Undef UbWrite /\ parse_disk_id fuel u size = DBuf (disk_code size u).
Proof.
  intros u size fuel P SE F H. split; [apply C38_no_separator_overruns, H|]. refine (proj1 (C120_value u size fuel _ P SE F)).
  unfold nul_free. apply forallb_forall. intros c I. rewrite forallb_forall in H. apply H in I. unfold nonnul.
  destruct (Ascii.eqb_spec c NUL) as [->|]; [discriminate I|reflexivity].
Qed.
Print Assumptions C120_no_overrun.

(** a disk as /dev/disk/by-id names it: the hypotheses hold, and the value *)
Example C120_case : let u := bs "ata-VBOX_HARDDISK_VB1" in nul_free u /\ short_enough u /\ length u < 100 /\
  parse_disk_id 100 u 8 = DBuf (disk_code 8 u) /\ disk_code 8 (bs "ab") = ["a"; "b"; NUL; NUL; NUL; NUL; NUL; NUL]%char /\
  disk_code 2 (bs "abab") = [NUL; NUL] /\ disk_code 8 u = map ascii_of_nat [117; 99; 118; 61; 35; 6; 6; 11].
Proof. cbn zeta. refine (conj eq_refl (conj eq_refl (conj _ _))); [cbn; lia|]. vm_compute. repeat (refine (conj eq_refl _)). reflexivity. Qed.
Example C120_cases : parse_disk_id 9 (bs "sda1sda1") 4 = DBuf [NUL; NUL; NUL; NUL] /\ parse_disk_id 9 (bs "sda1") 0 = DDivZero /\
  parse_disk_id 9 (bs "ab12cd34") 2 = parse_disk_id 9 (bs "1bc2ad34") 2 /\ parse_disk_id 9 (bs "ab12cd34") 2 <> parse_disk_id 9 (bs "ab12cd35") 2 /\
  parse_uuid (bs "ab12cd34") = Undef UbWrite.
Proof. refine (conj eq_refl (conj eq_refl (conj eq_refl (conj _ _)))); [vm_compute; discriminate|reflexivity]. Qed.
