From Verif Require Import Base CTypes StringUtils Network Disks P_Base P_Strings Spec_Disks.

(** ** parseUUID *)
Lemma xdigit_hex c : isxdigit c = match hex_digit c with Some _ => true | None => false end.
Proof. apply eqb_prop. revert c. apply byte_sweep. vm_compute. reflexivity. Qed.
Lemma hex_val_digit c : match hex_digit c with Some d => hex_val c = d /\ (d < 16)%N | None => True end.
Proof.
  assert (H : forall c, match hex_digit c with Some d => N.eqb (hex_val c) d && N.ltb d 16 | None => true end = true).
  { apply byte_sweep. vm_compute. reflexivity. }
  specialize (H c). destruct (hex_digit c); [|exact I]. apply andb_true_iff in H as [H1 H2]. apply N.eqb_eq in H1. apply N.ltb_lt in H2. auto.
Qed.
Lemma filter_hex s : map hex_val (filter isxdigit s) = hex_digits s.
Proof.
  induction s as [|c s IH]; [reflexivity|]. cbn [filter hex_digits]. rewrite xdigit_hex. pose proof (hex_val_digit c) as H.
  destruct (hex_digit c); [|exact IH]. cbn [map]. rewrite IH. destruct H as [-> _]. reflexivity.
Qed.
Lemma filter_len s : length (filter isxdigit s) = length (hex_digits s).
Proof. rewrite <- filter_hex, map_length. reflexivity. Qed.
Lemma hex_bytes_pairs n h : length h <= n -> hex_bytes (if Nat.eqb (length h mod 2) 1 then h ++ ["0"%char] else h) = map ascii_of_N (hex_pairs (map hex_val h)).
Proof.
  revert h; induction n as [|n IH]; intros h Hn.
  - destruct h; [reflexivity|cbn in Hn; lia].
  - destruct h as [|a [|b h]]; [reflexivity| |].
    + cbn [length]. change (1 mod 2) with 1. cbn [Nat.eqb app hex_bytes map hex_pairs]. change (hex_val "0") with 0%N. rewrite N.add_0_r, N.mul_comm. reflexivity.
    + cbn [length] in *. replace (S (S (length h)) mod 2) with (length h mod 2).
      2: { replace (S (S (length h))) with (length h + 1 * 2) by lia. rewrite Nat.mod_add by lia. reflexivity. }
      specialize (IH h ltac:(lia)). destruct (Nat.eqb (length h mod 2) 1); cbn [app hex_bytes map hex_pairs]; rewrite IH, (N.mul_comm (hex_val a)); reflexivity.
Qed.

Lemma xor_at_length i b buf : length (xor_at i b buf) = length buf.
Proof. revert i; induction buf; intros [|i]; cbn; try reflexivity. rewrite IHbuf. reflexivity. Qed.
Lemma xor_at_nth i b buf k : i < length buf -> nth k (xor_at i b buf) NUL = if Nat.eqb i k then xor_byte (nth k buf NUL) b else nth k buf NUL.
Proof.
  revert i k; induction buf as [|x buf IH]; intros i k Hi; [cbn in Hi; lia|].
  destruct i as [|i], k as [|k]; cbn [xor_at nth Nat.eqb]; try reflexivity. apply IH. cbn in Hi. lia.
Qed.
Lemma xor_fold_length i l buf : length (xor_fold i l buf) = length buf.
Proof. revert i buf; induction l; intros i buf; cbn; [reflexivity|]. rewrite IHl, xor_at_length. reflexivity. Qed.
Lemma lxor_byte a b : (a < 256 -> b < 256 -> N.lxor a b < 256)%N.
Proof.
  intros Ha Hb. assert (E : forall x, (x < 256)%N -> (x / 2 ^ 8 = 0)%N) by (intros; apply N.div_small; assumption).
  assert (N.lxor a b / 2 ^ 8 = 0)%N.
  { rewrite <- N.shiftr_div_pow2, N.shiftr_lxor, !N.shiftr_div_pow2, (E a Ha), (E b Hb). reflexivity. }
  apply N.div_small_iff in H; [exact H|discriminate].
Qed.
Lemma xor_byte_ascii a b : (a < 256 -> b < 256 -> xor_byte (ascii_of_N a) (ascii_of_N b) = ascii_of_N (N.lxor a b))%N.
Proof. intros Ha Hb. unfold xor_byte, code. rewrite !N_ascii_embedding by assumption. reflexivity. Qed.
Lemma column_lt k i l : Forall (fun b => (b < 256)%N) l -> (column k i l < 256)%N.
Proof. intros F. revert i; induction F; intros i; cbn [column]; [lia|]. apply lxor_byte; [destruct (Nat.eqb _ _); lia|apply IHF]. Qed.
Lemma xor_fold_nth i l buf k : length buf = 8 -> k < 8 -> Forall (fun b => (b < 256)%N) l -> (forall c, In c buf -> True) ->
  nth k (xor_fold i (map ascii_of_N l) buf) NUL = ascii_of_N (N.lxor (N_of_ascii (nth k buf NUL)) (column k i l)).
Proof.
  intros Hb Hk F _. revert i buf Hb; induction F as [|b l Hlt F IH]; intros i buf Hb; cbn [map xor_fold column].
  - rewrite N.lxor_0_r, ascii_N_embedding. reflexivity.
  - rewrite IH by (rewrite xor_at_length; exact Hb). rewrite xor_at_nth by (rewrite Hb; apply Nat.mod_upper_bound; lia).
    rewrite Hb. destruct (Nat.eqb (i mod 8) k); [|rewrite N.lxor_0_l; reflexivity].
    unfold xor_byte, code. rewrite (N_ascii_embedding b) by exact Hlt.
    rewrite N_ascii_embedding by (apply lxor_byte; [apply N_ascii_bounded|exact Hlt]). rewrite N.lxor_assoc. reflexivity.
Qed.
Lemma hex_digits_lt s : Forall (fun d => (d < 16)%N) (hex_digits s).
Proof.
  induction s as [|c s IH]; cbn [hex_digits]; [constructor|]. pose proof (hex_val_digit c) as H. destruct (hex_digit c); [|exact IH].
  constructor; [tauto|exact IH].
Qed.
Lemma hex_pairs_lt n l : length l <= n -> Forall (fun d => (d < 16)%N) l -> Forall (fun d => (d < 256)%N) (hex_pairs l).
Proof.
  revert l; induction n as [|n IH]; intros [|a [|b l]] Hn F; cbn [length] in Hn; try (exfalso; lia); cbn [hex_pairs]; try solve [constructor].
  - inversion F as [|? ? Ha F']; subst. constructor; [lia|constructor].
  - inversion F as [|? ? Ha F']; subst. inversion F' as [|? ? Hb F'']; subst. constructor; [lia|]. apply IH; [lia|assumption].
Qed.

Lemma hex_pad_len (h : bytes) : length (if Nat.eqb (length h mod 2) 1 then h ++ ["0"%char] else h) = length h + length h mod 2.
Proof.
  pose proof (Nat.mod_upper_bound (length h) 2 ltac:(lia)). destruct (Nat.eqb_spec (length h mod 2) 1); [rewrite app_length; cbn [length]|]; lia.
Qed.
Lemma hex_digits_le s : length (hex_digits s) <= length s.
Proof. induction s as [|c s IH]; cbn [hex_digits length]; [lia|]. destruct (hex_digit c); cbn [length]; lia. Qed.

Lemma list_nth_ext (l l' : bytes) : length l = length l' -> (forall k, k < length l -> nth k l NUL = nth k l' NUL) -> l = l'.
Proof.
  revert l'; induction l as [|a l IH]; intros [|b l'] Hl H; cbn in Hl; try lia; [reflexivity|].
  f_equal; [apply (H 0); cbn; lia|]. apply IH; [lia|]. intros k Hk. apply (H (S k)). cbn. lia.
Qed.

Theorem parse_uuid_spec u : parse_uuid u =
  if Nat.ltb (length (hex_digits (cstr u)) mod 2) (others (cstr u)) then Ok (serial_of (cstr u)) else Undef UbWrite.
Proof.
  unfold parse_uuid. set (s := cstr u). rewrite hex_pad_len, filter_len. unfold others. pose proof (hex_digits_le s).
  destruct (Nat.leb_spec (length s) (length (hex_digits s) + length (hex_digits s) mod 2)) as [H1|H1];
    destruct (Nat.ltb_spec (length (hex_digits s) mod 2) (length s - length (hex_digits s))) as [H2|H2]; try lia; [reflexivity|].
  f_equal. rewrite <- (filter_len s). rewrite (hex_bytes_pairs _ _ (le_n _)), filter_hex.
  apply list_nth_ext.
  - rewrite xor_fold_length, repeat_length. unfold serial_of. rewrite map_length, seq_length. reflexivity.
  - rewrite xor_fold_length, repeat_length. intros k Hk.
    rewrite xor_fold_nth; [|apply repeat_length|exact Hk|eapply hex_pairs_lt; [apply le_n|apply hex_digits_lt]|trivial].
    rewrite nth_repeat. unfold serial_of. rewrite (nth_indep _ NUL (ascii_of_N (column 0 0 (hex_pairs (hex_digits s))))) by (rewrite map_length, seq_length; exact Hk).
    rewrite (map_nth (fun k => ascii_of_N (column k 0 (hex_pairs (hex_digits s))))), seq_nth by exact Hk. reflexivity.
Qed.

(** a serial of at most 16 digits is the number itself, zero padded *)
Lemma column_hit k i l : i + length l <= 8 -> column k i l = if Nat.ltb k i then 0%N else nth (k - i) l 0%N.
Proof.
  revert i; induction l as [|b l IH]; intros i H; cbn [length column] in *.
  - destruct (Nat.ltb k i); [reflexivity|]. destruct (k - i); reflexivity.
  - rewrite Nat.mod_small by lia. rewrite IH by lia. destruct (Nat.eqb_spec i k) as [->|Hne].
    + rewrite Nat.ltb_irrefl, Nat.sub_diag. cbn [nth]. destruct (Nat.ltb_spec k (S k)); [apply N.lxor_0_r|lia].
    + rewrite N.lxor_0_l. destruct (Nat.ltb_spec k (S i)), (Nat.ltb_spec k i); try (exfalso; lia); [reflexivity|].
      replace (k - i) with (S (k - S i)) by lia. reflexivity.
Qed.
Lemma serial_short u : length (hex_pairs (hex_digits u)) <= 8 ->
  serial_of u = firstn 8 (map ascii_of_N (hex_pairs (hex_digits u)) ++ repeat NUL 8).
Proof.
  intros H. set (l := hex_pairs (hex_digits u)) in *. apply list_nth_ext; unfold serial_of.
  - rewrite map_length, seq_length, firstn_length, app_length, repeat_length. lia.
  - rewrite map_length, seq_length. intros k Hk. fold l.
    rewrite (nth_indep _ NUL (ascii_of_N (column 0 0 l))) by (rewrite map_length, seq_length; exact Hk).
    rewrite (map_nth (fun k => ascii_of_N (column k 0 l))), seq_nth by exact Hk. cbn [Nat.add].
    rewrite column_hit by (cbn; lia). rewrite Nat.sub_0_r. cbn [Nat.ltb Nat.leb].
    assert (E : forall (a : bytes), k < 8 -> nth k (firstn 8 a) NUL = nth k a NUL).
    { clear. intros a Hk. revert a Hk. generalize 8. induction k as [|k IH]; intros [|n] a Hk; try lia; destruct a; cbn; try reflexivity. apply IH. lia. }
    rewrite E by exact Hk. destruct (Nat.lt_ge_cases k (length l)) as [Hl|Hl].
    + rewrite app_nth1 by (rewrite map_length; exact Hl). change NUL with (ascii_of_N 0). rewrite map_nth. reflexivity.
    + rewrite app_nth2 by (rewrite map_length; exact Hl). rewrite nth_repeat, nth_overflow by exact Hl. reflexivity.
Qed.
