(** Lemmas on the conversions of ConvertUtf.v *)
From Coq Require Import ZArith Lia Bool.
From Verif Require Import Base ConvertUtf Spec_Utf.
Local Open Scope Z_scope.

Ltac zdm := Z.div_mod_to_equations; lia.
Ltac cmp :=
  repeat match goal with
         | H : context [?a <? ?b] |- _ => destruct (Z.ltb_spec a b)
         | |- context [?a <? ?b] => destruct (Z.ltb_spec a b)
         | H : context [?a <=? ?b] |- _ => destruct (Z.leb_spec a b)
         | |- context [?a <=? ?b] => destruct (Z.leb_spec a b)
         | H : context [?a =? ?b] |- _ => destruct (Z.eqb_spec a b)
         | |- context [?a =? ?b] => destruct (Z.eqb_spec a b)
         end.

(** ** arrays *)
Lemma get_at : forall (a : list Z) x b, get (a ++ x :: b) (length a) = Ok x.
Proof. intros. unfold get. rewrite nth_error_app2 by lia. rewrite Nat.sub_diag. reflexivity. Qed.
Lemma get_plus : forall (a b : list Z) n, get (a ++ b) (length a + n) = get b n.
Proof. intros. unfold get. rewrite nth_error_app2 by lia. replace (length a + n - length a)%nat with n by lia. reflexivity. Qed.
Lemma set_at : forall (a : list Z) x b v, set (a ++ x :: b) (length a) v = Ok (a ++ v :: b).
Proof.
  intros. unfold set. rewrite app_length. cbn [length].
  replace (Nat.ltb (length a) (length a + S (length b))) with true by (symmetry; apply Nat.ltb_lt; lia).
  rewrite firstn_app, Nat.sub_diag, firstn_all. cbn [firstn]. rewrite app_nil_r.
  rewrite skipn_app, skipn_all2 by lia. replace (S (length a) - length a)%nat with 1%nat by lia. reflexivity.
Qed.
Lemma set_end : forall (a b : list Z) v, b <> [] -> set (a ++ b) (length a) v = Ok ((a ++ [v]) ++ skipn 1 b).
Proof. intros a [|x b] v H; [contradiction|]. rewrite set_at. rewrite <- app_assoc. reflexivity. Qed.
Lemma skipn_skipn' : forall (l : list Z) m n, skipn m (skipn n l) = skipn (n + m) l.
Proof. induction l; intros m n; destruct n; simpl; auto; destruct m; auto. Qed.

(** ** bits *)
Lemma u8_small : forall x, 0 <= x < 256 -> u8 x = x. Proof. intros. apply Z.mod_small; lia. Qed.
Lemma u16_small : forall x, 0 <= x < 65536 -> u16 x = x. Proof. intros. apply Z.mod_small; lia. Qed.
Lemma u32_small : forall x, 0 <= x < 4294967296 -> u32 x = x. Proof. intros. apply Z.mod_small; lia. Qed.

Lemma all_below : forall n (P : Z -> bool), forallb P (map Z.of_nat (seq 0 n)) = true -> forall x, 0 <= x < Z.of_nat n -> P x = true.
Proof.
  intros n P H x X. rewrite forallb_forall in H. apply H. apply in_map_iff.
  exists (Z.to_nat x). split; [lia|]. apply in_seq. lia.
Qed.
Lemma land_low : forall x, 0 <= x -> Z.land x 191 = Z.land (x mod 256) 191.
Proof.
  intros. apply Z.bits_inj'. intros n N. rewrite !Z.land_spec.
  destruct (Z.ltb_spec n 8).
  - change 256 with (2 ^ 8). rewrite Z.mod_pow2_bits_low by lia. reflexivity.
  - replace (Z.testbit 191 n) with false; [rewrite !andb_false_r; reflexivity|].
    symmetry. apply Z.bits_above_log2; [lia|]. replace (Z.log2 191) with 7 by reflexivity. lia.
Qed.
Lemma lor_mod : forall x, 0 <= x -> (Z.lor x 128) mod 256 = Z.lor (x mod 256) 128.
Proof.
  intros. apply Z.bits_inj'. intros n N. change 256 with (2 ^ 8). rewrite Z.lor_spec.
  destruct (Z.ltb_spec n 8).
  - rewrite !Z.mod_pow2_bits_low by lia. rewrite Z.lor_spec. reflexivity.
  - rewrite !Z.mod_pow2_bits_high by lia.
    replace (Z.testbit 128 n) with false; [reflexivity|].
    symmetry. apply Z.bits_above_log2; [lia|]. replace (Z.log2 128) with 7 by reflexivity. lia.
Qed.
Lemma tail_byte_ok : forall ch, 0 <= ch -> tail_byte ch = 128 + ch mod 64.
Proof.
  intros ch H. unfold tail_byte.
  rewrite land_low by (apply Z.lor_nonneg; lia). rewrite lor_mod by assumption.
  assert (B : 0 <= ch mod 256 < 256) by (apply Z.mod_pos_bound; lia).
  pose proof (all_below 256 (fun x => u8 (Z.land (Z.lor x 128) 191) =? 128 + x mod 64) ltac:(vm_compute; reflexivity) _ B) as K.
  apply Z.eqb_eq in K. rewrite K. f_equal. zdm.
Qed.
Lemma shiftr_6 : forall c, Z.shiftr c 6 = c / 64.
Proof. intros. rewrite Z.shiftr_div_pow2 by lia. reflexivity. Qed.
Lemma first_2 : forall c, 0 <= c < 32 -> u8 (Z.lor c 192) = 192 + c.
Proof. intros. apply Z.eqb_eq. apply (all_below 32 (fun c => u8 (Z.lor c 192) =? 192 + c)); [reflexivity|lia]. Qed.
Lemma first_3 : forall c, 0 <= c < 16 -> u8 (Z.lor c 224) = 224 + c.
Proof. intros. apply Z.eqb_eq. apply (all_below 16 (fun c => u8 (Z.lor c 224) =? 224 + c)); [reflexivity|lia]. Qed.
Lemma first_4 : forall c, 0 <= c < 8 -> u8 (Z.lor c 240) = 240 + c.
Proof. intros. apply Z.eqb_eq. apply (all_below 8 (fun c => u8 (Z.lor c 240) =? 240 + c)); [reflexivity|lia]. Qed.
Lemma land_1023 : forall c, Z.land c 1023 = c mod 1024.
Proof. intros. replace 1023 with (Z.ones 10) by reflexivity. rewrite Z.land_ones by lia. reflexivity. Qed.
Lemma shiftr_10 : forall c, Z.shiftr c 10 = c / 1024.
Proof. intros. rewrite Z.shiftr_div_pow2 by lia. reflexivity. Qed.
Lemma shiftl_6 : forall c, Z.shiftl c 6 = c * 64.
Proof. intros. rewrite Z.shiftl_mul_pow2 by lia. reflexivity. Qed.
Lemma shiftl_10 : forall c, Z.shiftl c 10 = c * 1024.
Proof. intros. rewrite Z.shiftl_mul_pow2 by lia. reflexivity. Qed.

(** ** encoding *)
Lemma len_utf8 : forall c, 0 <= c <= 1114111 -> length (utf8_of c) = bytesToWrite c.
Proof. intros. unfold utf8_of, bytesToWrite. cmp; reflexivity || lia. Qed.
Lemma len_utf8_range : forall c, (1 <= length (utf8_of c) <= 4)%nat.
Proof. intros. unfold utf8_of. cmp; cbn; lia. Qed.
Lemma write_back_ok : forall c out free, 0 <= c <= 1114111 -> (bytesToWrite c <= length free)%nat ->
  write_back (bytesToWrite c) (firstByteMark (bytesToWrite c)) c (length out + bytesToWrite c) (out ++ free) =
  Ok ((out ++ utf8_of c) ++ skipn (bytesToWrite c) free).
Proof.
  intros c out free R L.
  unfold bytesToWrite in *. unfold utf8_of.
  destruct (Z.ltb_spec c 128); [|destruct (Z.ltb_spec c 2048); [|destruct (Z.ltb_spec c 65536); [|destruct (Z.ltb_spec c 1114112); [|lia]]]].
  - destruct free as [|x free]; [cbn in L; lia|].
    replace (length out + 1)%nat with (S (length out)) by lia. cbn [write_back prev rbind].
    rewrite set_at. cbn [firstByteMark nth skipn]. rewrite Z.lor_0_r, u8_small by lia. rewrite <- app_assoc. reflexivity.
  - destruct free as [|x [|x2 free]]; try (cbn in L; lia).
    replace (length out + 2)%nat with (S (S (length out))) by lia. cbn [write_back prev rbind].
    change (out ++ x :: x2 :: free) with (out ++ [x] ++ x2 :: free). rewrite app_assoc.
    replace (S (length out)) with (length (out ++ [x])) by (rewrite app_length; cbn; lia).
    rewrite set_at. cbn [rbind].
    rewrite <- app_assoc. cbn [app]. rewrite set_at. cbn [firstByteMark nth skipn].
    rewrite tail_byte_ok, shiftr_6 by lia. rewrite first_2 by zdm. rewrite <- app_assoc. reflexivity.
  - destruct free as [|x [|x2 [|x3 free]]]; try (cbn in L; lia).
    replace (length out + 3)%nat with (S (S (S (length out)))) by lia. cbn [write_back prev rbind].
    change (out ++ x :: x2 :: x3 :: free) with (out ++ [x; x2] ++ x3 :: free). rewrite app_assoc.
    replace (S (S (length out))) with (length (out ++ [x; x2])) by (rewrite app_length; cbn; lia).
    rewrite set_at. cbn [rbind].
    rewrite <- app_assoc. cbn [app].
    match goal with |- context [out ++ x :: x2 :: ?r] => change (out ++ x :: x2 :: r) with (out ++ [x] ++ x2 :: r) end. rewrite app_assoc.
    replace (S (length out)) with (length (out ++ [x])) by (rewrite app_length; cbn; lia).
    rewrite set_at. cbn [rbind].
    rewrite <- app_assoc. cbn [app]. rewrite set_at. cbn [firstByteMark nth skipn].
    rewrite !shiftr_6. rewrite !tail_byte_ok by (try apply Z.div_pos; lia). rewrite first_3 by zdm.
    rewrite <- app_assoc. cbn [app]. rewrite Z.div_div by lia. reflexivity.
  - destruct free as [|x [|x2 [|x3 [|x4 free]]]]; try (cbn in L; lia).
    replace (length out + 4)%nat with (S (S (S (S (length out))))) by lia. cbn [write_back prev rbind].
    change (out ++ x :: x2 :: x3 :: x4 :: free) with (out ++ [x; x2; x3] ++ x4 :: free). rewrite app_assoc.
    replace (S (S (S (length out)))) with (length (out ++ [x; x2; x3])) by (rewrite app_length; cbn; lia).
    rewrite set_at. cbn [rbind].
    rewrite <- app_assoc. cbn [app].
    match goal with |- context [out ++ x :: x2 :: x3 :: ?r] => change (out ++ x :: x2 :: x3 :: r) with (out ++ [x; x2] ++ x3 :: r) end. rewrite app_assoc.
    replace (S (S (length out))) with (length (out ++ [x; x2])) by (rewrite app_length; cbn; lia).
    rewrite set_at. cbn [rbind].
    rewrite <- app_assoc. cbn [app].
    match goal with |- context [out ++ x :: x2 :: ?r] => change (out ++ x :: x2 :: r) with (out ++ [x] ++ x2 :: r) end. rewrite app_assoc.
    replace (S (length out)) with (length (out ++ [x])) by (rewrite app_length; cbn; lia).
    rewrite set_at. cbn [rbind].
    rewrite <- app_assoc. cbn [app]. rewrite set_at. cbn [firstByteMark nth skipn].
    rewrite !shiftr_6. rewrite !tail_byte_ok by (repeat apply Z.div_pos; lia).
    rewrite <- app_assoc. cbn [app]. rewrite !Z.div_div by lia. rewrite first_4 by zdm. reflexivity.
Qed.

(** a supplementary character in UTF-16 *)
Lemma pair_first : forall c, 65536 <= c <= 1114111 -> u16 (u32 (Z.shiftr (u32 (c - halfBase)) halfShift + HIGH_START)) = 55296 + (c - 65536) / 1024.
Proof.
  intros. unfold halfBase, halfShift, HIGH_START. rewrite (u32_small (c - 65536)) by lia. rewrite shiftr_10.
  rewrite u32_small by zdm. rewrite u16_small by zdm. lia.
Qed.
Lemma pair_second : forall c, 65536 <= c <= 1114111 -> u16 (u32 (Z.land (u32 (c - halfBase)) halfMask + LOW_START)) = 56320 + (c - 65536) mod 1024.
Proof.
  intros. unfold halfBase, halfMask, LOW_START. rewrite (u32_small (c - 65536)) by lia. rewrite land_1023.
  rewrite u32_small by zdm. rewrite u16_small by zdm. lia.
Qed.

(** ** reading UTF-8 *)
Lemma announced_trailing : forall b, announced b = S (trailing b).
Proof. intros. unfold announced, trailing. cmp; reflexivity. Qed.

(** the value of a sequence as gather computes it *)
Lemma gather_1 : forall pre b0 rest, 0 <= b0 < 256 -> gather 0 (pre ++ b0 :: rest) (length pre) 0 = Ok (b0, S (length pre)).
Proof. intros. cbn [gather]. rewrite get_at. cbn [rbind]. rewrite u32_small by lia. reflexivity. Qed.
Lemma gather_2 : forall pre b0 b1 rest, 0 <= b0 < 256 -> 0 <= b1 < 256 ->
  gather 1 (pre ++ b0 :: b1 :: rest) (length pre) 0 = Ok (b0 * 64 + b1, (length pre + 2)%nat).
Proof.
  intros. cbn [gather]. rewrite get_at. cbn [rbind].
  replace (S (length pre)) with (length pre + 1)%nat by lia. rewrite get_plus. cbn [get nth_error rbind].
  rewrite (u32_small (0 + b0)) by lia. rewrite shiftl_6. rewrite (u32_small (_ * 64)) by lia. rewrite u32_small by lia.
  f_equal; f_equal; lia.
Qed.
Lemma gather_3 : forall pre b0 b1 b2 rest, 0 <= b0 < 256 -> 0 <= b1 < 256 -> 0 <= b2 < 256 ->
  gather 2 (pre ++ b0 :: b1 :: b2 :: rest) (length pre) 0 = Ok (b0 * 4096 + b1 * 64 + b2, (length pre + 3)%nat).
Proof.
  intros. cbn [gather]. rewrite get_at. cbn [rbind].
  replace (S (length pre)) with (length pre + 1)%nat by lia. rewrite get_plus. cbn [get nth_error rbind].
  replace (S (length pre + 1)) with (length pre + 2)%nat by lia. rewrite get_plus. cbn [get nth_error rbind].
  rewrite (u32_small (0 + b0)) by lia. rewrite !shiftl_6.
  replace (0 + b0) with b0 by lia.
  rewrite (u32_small (b0 * 64)) by lia. rewrite (u32_small (b0 * 64 + b1)) by lia.
  rewrite (u32_small ((b0 * 64 + b1) * 64)) by lia. rewrite u32_small by lia. f_equal; f_equal; lia.
Qed.
Lemma gather_4 : forall pre b0 b1 b2 b3 rest, 0 <= b0 < 256 -> 0 <= b1 < 256 -> 0 <= b2 < 256 -> 0 <= b3 < 256 ->
  gather 3 (pre ++ b0 :: b1 :: b2 :: b3 :: rest) (length pre) 0 = Ok (b0 * 262144 + b1 * 4096 + b2 * 64 + b3, (length pre + 4)%nat).
Proof.
  intros. cbn [gather]. rewrite get_at. cbn [rbind].
  replace (S (length pre)) with (length pre + 1)%nat by lia. rewrite get_plus. cbn [get nth_error rbind].
  replace (S (length pre + 1)) with (length pre + 2)%nat by lia. rewrite get_plus. cbn [get nth_error rbind].
  replace (S (length pre + 2)) with (length pre + 3)%nat by lia. rewrite get_plus. cbn [get nth_error rbind].
  rewrite (u32_small (0 + b0)) by lia. rewrite !shiftl_6. replace (0 + b0) with b0 by lia.
  rewrite (u32_small (b0 * 64)) by lia. rewrite (u32_small (b0 * 64 + b1)) by lia.
  rewrite (u32_small ((b0 * 64 + b1) * 64)) by lia. rewrite (u32_small ((b0 * 64 + b1) * 64 + b2)) by lia.
  rewrite (u32_small (((b0 * 64 + b1) * 64 + b2) * 64)) by lia. rewrite u32_small by lia.
  f_equal; f_equal; lia.
Qed.

Lemma utf8_of_1 : forall b, 0 <= b < 128 -> utf8_of b = [b].
Proof. intros. unfold utf8_of. cmp; reflexivity || lia. Qed.
Lemma utf8_of_2 : forall x y, 2 <= x < 32 -> 0 <= y < 64 -> utf8_of (x * 64 + y) = [192 + x; 128 + y].
Proof. intros. unfold utf8_of. cmp; try lia. replace ((x * 64 + y) / 64) with x by zdm. replace ((x * 64 + y) mod 64) with y by zdm. reflexivity. Qed.
Lemma utf8_of_3 : forall x y z, 0 <= x < 16 -> 0 <= y < 64 -> 0 <= z < 64 -> 32 <= x * 64 + y -> utf8_of (x * 4096 + y * 64 + z) = [224 + x; 128 + y; 128 + z].
Proof.
  intros. unfold utf8_of. cmp; try lia.
  replace ((x * 4096 + y * 64 + z) / 4096) with x by zdm. replace ((x * 4096 + y * 64 + z) / 64 mod 64) with y by zdm.
  replace ((x * 4096 + y * 64 + z) mod 64) with z by zdm. reflexivity.
Qed.
Lemma utf8_of_4 : forall x y z v, 0 <= x < 8 -> 0 <= y < 64 -> 0 <= z < 64 -> 0 <= v < 64 -> 16 <= x * 64 + y ->
  utf8_of (x * 262144 + y * 4096 + z * 64 + v) = [240 + x; 128 + y; 128 + z; 128 + v].
Proof.
  intros. unfold utf8_of. cmp; try lia.
  replace ((x * 262144 + y * 4096 + z * 64 + v) / 262144) with x by zdm.
  replace ((x * 262144 + y * 4096 + z * 64 + v) / 4096 mod 64) with y by zdm.
  replace ((x * 262144 + y * 4096 + z * 64 + v) / 64 mod 64) with z by zdm.
  replace ((x * 262144 + y * 4096 + z * 64 + v) mod 64) with v by zdm. reflexivity.
Qed.

(** every sequence that is read, with its bytes *)
Inductive shape8 : list Z -> Z -> Prop :=
  | sh1 : forall b, 0 <= b < 128 -> shape8 [b] b
  | sh2 : forall b0 b1, 194 <= b0 < 224 -> 128 <= b1 <= 191 -> shape8 [b0; b1] (b0 * 64 + b1 - 12416)
  | sh3 : forall b0 b1 b2, 224 <= b0 < 240 -> b1 <= 191 -> 128 <= b2 <= 191 ->
      (b0 = 224 -> 160 <= b1) -> (b0 = 237 -> 0 <= b1 <= 159) -> (b0 <> 237 -> 128 <= b1) ->
      shape8 [b0; b1; b2] (b0 * 4096 + b1 * 64 + b2 - 925824)
  | sh4 : forall b0 b1 b2 b3, 240 <= b0 <= 244 -> b1 <= 191 -> 128 <= b2 <= 191 -> 128 <= b3 <= 191 ->
      (b0 = 240 -> 144 <= b1) -> (b0 = 244 -> 0 <= b1 <= 143) -> (b0 <> 244 -> 128 <= b1) ->
      shape8 [b0; b1; b2; b3] (b0 * 262144 + b1 * 4096 + b2 * 64 + b3 - 63447168).

Lemma shape_reads : forall su c after, shape8 su c -> reads8 su after c.
Proof.
  intros su c after H. destruct H.
  - rewrite <- utf8_of_1 by assumption. apply read_proper. split; [lia|]. unfold surrogate, high, low. lia.
  - replace [b0; b1] with (utf8_of (b0 * 64 + b1 - 12416)).
    + apply read_proper. split; [lia|]. unfold surrogate, high, low. lia.
    + replace (b0 * 64 + b1 - 12416) with ((b0 - 192) * 64 + (b1 - 128)) by lia. rewrite utf8_of_2 by lia.
      repeat (f_equal; try lia).
  - destruct (Z.ltb_spec b1 128).
    + assert (b0 = 237) by lia. subst b0.
      replace (237 * 4096 + b1 * 64 + b2 - 925824) with (45056 + 64 * b1 + (b2 - 128)) by lia.
      apply read_ED; lia.
    + replace [b0; b1; b2] with (utf8_of (b0 * 4096 + b1 * 64 + b2 - 925824)).
      * apply read_proper. split; [lia|]. unfold surrogate, high, low. lia.
      * replace (b0 * 4096 + b1 * 64 + b2 - 925824) with ((b0 - 224) * 4096 + (b1 - 128) * 64 + (b2 - 128)) by lia.
        rewrite utf8_of_3 by lia. repeat (f_equal; try lia).
  - destruct (Z.ltb_spec b1 128).
    + assert (b0 = 244) by lia. subst b0.
      replace (244 * 262144 + b1 * 4096 + b2 * 64 + b3 - 63447168) with (524288 + 4096 * b1 + 64 * (b2 - 128) + (b3 - 128)) by lia.
      apply read_F4; lia.
    + replace [b0; b1; b2; b3] with (utf8_of (b0 * 262144 + b1 * 4096 + b2 * 64 + b3 - 63447168)).
      * apply read_proper. split; [lia|]. unfold surrogate, high, low. lia.
      * replace (b0 * 262144 + b1 * 4096 + b2 * 64 + b3 - 63447168) with ((b0 - 240) * 262144 + (b1 - 128) * 4096 + (b2 - 128) * 64 + (b3 - 128)) by lia.
        rewrite utf8_of_4 by lia. repeat (f_equal; try lia).
Qed.
Lemma reads_shape : forall su c after, reads8 su after c -> shape8 su c.
Proof.
  intros su c after H. destruct H as [c after H|a b after|a b d after].
  - destruct H as [R N]. unfold surrogate, high, low in N. unfold utf8_of.
    destruct (Z.ltb_spec c 128); [constructor; lia|].
    destruct (Z.ltb_spec c 2048).
    { replace c with ((192 + c / 64) * 64 + (128 + c mod 64) - 12416) at 3 by zdm. constructor; zdm. }
    destruct (Z.ltb_spec c 65536).
    { replace c with ((224 + c / 4096) * 4096 + (128 + c / 64 mod 64) * 64 + (128 + c mod 64) - 925824) at 4 by zdm.
      constructor; zdm. }
    replace c with ((240 + c / 262144) * 262144 + (128 + c / 4096 mod 64) * 4096 + (128 + c / 64 mod 64) * 64 + (128 + c mod 64) - 63447168) at 5 by zdm.
    constructor; zdm.
  - replace (45056 + 64 * a + (b - 128)) with (237 * 4096 + a * 64 + b - 925824) by lia. constructor; lia.
  - replace (524288 + 4096 * a + 64 * (b - 128) + (d - 128)) with (244 * 262144 + a * 4096 + b * 64 + d - 63447168) by lia.
    constructor; lia.
Qed.
Lemma shape_announced : forall su c, shape8 su c -> exists b more, su = b :: more /\ length su = announced b.
Proof. intros su c H. destruct H; eexists; eexists; (split; [reflexivity|]); unfold announced; cmp; reflexivity || lia. Qed.
Lemma shape_scalar : forall su c, shape8 su c -> scalar c.
Proof. intros su c H. destruct H; (split; [lia|]); unfold surrogate, high, low; lia. Qed.
Lemma shape_fun : forall su c c', shape8 su c -> shape8 su c' -> c = c'.
Proof. intros su c c' H K. destruct H; inversion K; subst; reflexivity. Qed.
Lemma app_inj_length : forall (a b c d : list Z), length a = length c -> a ++ b = c ++ d -> a = c /\ b = d.
Proof. induction a; intros b [|x c] d L E; cbn in *; try lia; auto. inversion E; subst. destruct (IHa b c d) as [-> ->]; auto. Qed.
Lemma shape_prefix : forall su c su' c' after after', shape8 su c -> shape8 su' c' -> su ++ after = su' ++ after' -> su = su' /\ c = c' /\ after = after'.
Proof.
  intros su c su' c' after after' H K E.
  destruct (shape_announced _ _ H) as (b & more & E1 & L1), (shape_announced _ _ K) as (b' & more' & E2 & L2).
  assert (b = b') by (subst su su'; cbn in E; congruence). subst b'.
  assert (L : length su = length su') by congruence.
  apply app_inj_length in E; [|assumption]. destruct E as [-> ->].
  split; [reflexivity|]. split; [|reflexivity]. eapply shape_fun; eassumption.
Qed.

(** isLegalUTF8 *)
Definition tail (a : Z) : bool := negb ((a <? 128) || (191 <? a)).
Lemma legal_4 : forall pre b0 b1 b2 b3 rest, isLegalUTF8 (pre ++ b0 :: b1 :: b2 :: b3 :: rest) (length pre) 4 =
  Ok (tail b3 && (tail b2 && legal_2 b0 b1)).
Proof.
  intros. unfold isLegalUTF8. replace (length pre + 4)%nat with (S (length pre + 3)) by lia. cbn [prev rbind].
  rewrite get_plus. cbn [get nth_error rbind]. unfold tail.
  destruct ((b3 <? 128) || (191 <? b3)); [reflexivity|].
  replace (length pre + 3)%nat with (S (length pre + 2)) by lia. cbn [prev rbind]. rewrite get_plus. cbn [get nth_error rbind].
  destruct ((b2 <? 128) || (191 <? b2)); [reflexivity|].
  replace (length pre + 2)%nat with (S (length pre + 1)) by lia. cbn [prev rbind]. rewrite get_plus. cbn [get nth_error rbind].
  rewrite get_at. cbn [rbind negb andb]. unfold legal_2. destruct (191 <? b1); reflexivity.
Qed.
Lemma legal_3 : forall pre b0 b1 b2 rest, isLegalUTF8 (pre ++ b0 :: b1 :: b2 :: rest) (length pre) 3 = Ok (tail b2 && legal_2 b0 b1).
Proof.
  intros. unfold isLegalUTF8. unfold tail.
  replace (length pre + 3)%nat with (S (length pre + 2)) by lia. cbn [prev rbind]. rewrite get_plus. cbn [get nth_error rbind].
  destruct ((b2 <? 128) || (191 <? b2)); [reflexivity|].
  replace (length pre + 2)%nat with (S (length pre + 1)) by lia. cbn [prev rbind]. rewrite get_plus. cbn [get nth_error rbind].
  rewrite get_at. cbn [rbind negb andb]. unfold legal_2. destruct (191 <? b1); reflexivity.
Qed.
Lemma legal_2' : forall pre b0 b1 rest, isLegalUTF8 (pre ++ b0 :: b1 :: rest) (length pre) 2 = Ok (legal_2 b0 b1).
Proof.
  intros. unfold isLegalUTF8.
  replace (length pre + 2)%nat with (S (length pre + 1)) by lia. cbn [prev rbind]. rewrite get_plus. cbn [get nth_error rbind].
  rewrite get_at. cbn [rbind negb andb]. unfold legal_2. destruct (191 <? b1); reflexivity.
Qed.
Lemma legal_1' : forall pre b0 rest, isLegalUTF8 (pre ++ b0 :: rest) (length pre) 1 = Ok (legal_1 b0).
Proof. intros. unfold isLegalUTF8. rewrite get_at. reflexivity. Qed.

Lemma legal_1_iff : forall b, legal_1 b = true <-> b < 128 \/ 194 <= b <= 244.
Proof. intros. unfold legal_1. cmp; cbn [andb]; split; intro; reflexivity || discriminate || lia. Qed.
Lemma legal_2_iff : forall b a, legal_2 b a = true <->
  a <= 191 /\ (b = 224 -> 160 <= a) /\ (b = 237 -> a <= 159) /\ (b = 240 -> 144 <= a) /\ (b = 244 -> a <= 143) /\
  (b <> 237 -> b <> 244 -> 128 <= a) /\ (b < 128 \/ 194 <= b <= 244).
Proof.
  intros. rewrite <- legal_1_iff. unfold legal_2.
  destruct (Z.ltb_spec 191 a); [split; [discriminate|intuition lia]|].
  destruct (Z.eqb_spec b 224); [subst; destruct (Z.ltb_spec a 160); cbn; intuition (lia || discriminate)|].
  destruct (Z.eqb_spec b 237); [subst; destruct (Z.ltb_spec 159 a); cbn; intuition (lia || discriminate)|].
  destruct (Z.eqb_spec b 240); [subst; destruct (Z.ltb_spec a 144); cbn; intuition (lia || discriminate)|].
  destruct (Z.eqb_spec b 244); [subst; destruct (Z.ltb_spec 143 a); cbn; intuition (lia || discriminate)|].
  destruct (Z.ltb_spec a 128); intuition (lia || discriminate).
Qed.
Lemma tail_iff : forall a, tail a = true <-> 128 <= a <= 191.
Proof. intros. unfold tail. cmp; cbn; split; intro; reflexivity || discriminate || lia. Qed.

Lemma units_cons : forall n x l, units n (x :: l) -> 0 <= x < 2 ^ n /\ units n l.
Proof. intros n x l H. inversion H; auto. Qed.

(** a first byte with all the bytes it announces *)
Lemma legal_shape : forall pre rest b more, rest = b :: more -> units 8 rest -> (announced b <= length rest)%nat ->
  (exists su c after, rest = su ++ after /\ shape8 su c /\ length su = announced b /\ isLegalUTF8 (pre ++ rest) (length pre) (announced b) = Ok true /\
     gather (trailing b) (pre ++ rest) (length pre) 0 = Ok (c + offset (trailing b), (length pre + length su)%nat)) \/
  ((forall su c after, rest = su ++ after -> ~ shape8 su c) /\ isLegalUTF8 (pre ++ rest) (length pre) (announced b) = Ok false).
Proof.
  intros pre rest b more E U L. subst rest.
  apply units_cons in U. destruct U as [B U]. change (2 ^ 8) with 256 in B.
  assert (NO : forall n, announced b = n -> (forall su c after, b :: more = su ++ after -> shape8 su c -> length su = n)).
  { intros n A su c after E S. destruct (shape_announced _ _ S) as (b' & m' & E' & L'). subst su. cbn in E. inversion E; subst. congruence. }
  unfold announced, trailing in *.
  destruct (Z.ltb_spec b 192); [|destruct (Z.ltb_spec b 224); [|destruct (Z.ltb_spec b 240); [|destruct (Z.ltb_spec b 248); [|destruct (Z.ltb_spec b 252)]]]].
  - rewrite legal_1'. destruct (Z.ltb_spec b 128).
    + left. exists [b], b, more. split; [reflexivity|]. split; [constructor; lia|]. split; [reflexivity|]. split.
      * unfold legal_1. cmp; cbn [andb]; reflexivity || lia.
      * rewrite gather_1 by lia. cbn [offset nth length]. f_equal. f_equal; lia.
    + right. split.
      * intros su c after E S. pose proof (NO _ eq_refl _ _ _ E S). destruct S; try discriminate. inversion E; subst. lia.
      * unfold legal_1. cmp; cbn [andb]; reflexivity || lia.
  - destruct more as [|b1 more]; [cbn in L; lia|]. apply units_cons in U. destruct U as [B1 U]. change (2 ^ 8) with 256 in B1.
    rewrite legal_2'. destruct (legal_2 b b1) eqn:G.
    + left. exists [b; b1], (b * 64 + b1 - 12416), more. split; [reflexivity|].
      split; [rewrite legal_2_iff in G; constructor; lia|]. split; [reflexivity|]. split; [reflexivity|].
      rewrite gather_2 by lia. cbn [offset nth length]. f_equal. f_equal; lia.
    + right. split; [|reflexivity].
      intros su c after E S. pose proof (NO _ eq_refl _ _ _ E S). destruct S; try discriminate. inversion E; subst.
      apply not_true_iff_false in G. apply G. apply legal_2_iff. lia.
  - destruct more as [|b1 [|b2 more]]; try (cbn in L; lia).
    apply units_cons in U. destruct U as [B1 U]. apply units_cons in U. destruct U as [B2 U]. change (2 ^ 8) with 256 in *.
    rewrite legal_3. destruct (tail b2 && legal_2 b b1) eqn:G.
    + left. exists [b; b1; b2], (b * 4096 + b1 * 64 + b2 - 925824), more. split; [reflexivity|].
      split; [rewrite !andb_true_iff, ?tail_iff, legal_2_iff in G; constructor; lia|]. split; [reflexivity|]. split; [reflexivity|].
      rewrite gather_3 by lia. cbn [offset nth length]. f_equal. f_equal; lia.
    + right. split; [|reflexivity].
      intros su c after E S. pose proof (NO _ eq_refl _ _ _ E S). destruct S; try discriminate. inversion E; subst.
      apply not_true_iff_false in G. apply G. rewrite !andb_true_iff, ?tail_iff, legal_2_iff. lia.
  - destruct more as [|b1 [|b2 [|b3 more]]]; try (cbn in L; lia).
    apply units_cons in U. destruct U as [B1 U]. apply units_cons in U. destruct U as [B2 U]. apply units_cons in U. destruct U as [B3 U]. change (2 ^ 8) with 256 in *.
    rewrite legal_4. destruct (tail b3 && (tail b2 && legal_2 b b1)) eqn:G.
    + left. exists [b; b1; b2; b3], (b * 262144 + b1 * 4096 + b2 * 64 + b3 - 63447168), more. split; [reflexivity|].
      split; [rewrite !andb_true_iff, ?tail_iff, legal_2_iff in G; constructor; lia|]. split; [reflexivity|]. split; [reflexivity|].
      rewrite gather_4 by lia. cbn [offset nth length]. f_equal. f_equal; lia.
    + right. split; [|reflexivity].
      intros su c after E S. pose proof (NO _ eq_refl _ _ _ E S). destruct S; try discriminate. inversion E; subst.
      apply not_true_iff_false in G. apply G. rewrite !andb_true_iff, ?tail_iff, legal_2_iff. lia.
  - right. split; [|reflexivity]. intros su c after E S. pose proof (NO _ eq_refl _ _ _ E S). destruct S; discriminate.
  - right. split; [|reflexivity]. intros su c after E S. pose proof (NO _ eq_refl _ _ _ E S). destruct S; discriminate.
Qed.

Lemma next_8_ok : forall pre rest, rest <> [] -> units 8 rest ->
  (cut8 rest /\ next_8 (pre ++ rest) (length pre) = Ok (inl (SourceExhausted, length pre))) \/
  (malformed8 rest /\ next_8 (pre ++ rest) (length pre) = Ok (inl (SourceIllegal, length pre))) \/
  (exists su c after extra, rest = su ++ after /\ reads8 su after c /\ scalar c /\ su <> [] /\ length su = (extra + 1)%nat /\
     next_8 (pre ++ rest) (length pre) = Ok (inr (c, extra, length (pre ++ su)))).
Proof.
  intros pre rest N U. destruct rest as [|b more]; [contradiction|]. unfold next_8. rewrite get_at. cbn [rbind].
  rewrite app_length.
  destruct (Nat.leb_spec (length pre + length (b :: more)) (length pre + trailing b)).
  - left. split; [|reflexivity]. exists b, more. split; [reflexivity|]. rewrite announced_trailing. lia.
  - right. pose proof (announced_trailing b) as A. replace (trailing b + 1)%nat with (announced b) by lia.
    destruct (legal_shape pre (b :: more) b more eq_refl U) as [(su & c & after & E & S & L & G & V)|[NO G]]; [lia| |].
    + right. exists su, c, after, (trailing b). rewrite G. cbn [rbind negb]. rewrite V. cbn [rbind].
      split; [assumption|]. split; [apply shape_reads; assumption|]. split; [eapply shape_scalar; eassumption|].
      split; [destruct S; discriminate|]. split; [lia|].
      replace (c + offset (trailing b) - offset (trailing b)) with c by lia.
      destruct (shape_scalar _ _ S). rewrite u32_small by lia. rewrite app_length. reflexivity.
    + left. rewrite G. cbn [rbind negb]. split; [|reflexivity]. split; [discriminate|]. split.
      * intros (b' & m' & E & L). inversion E; subst. lia.
      * intros su after c E R. exact (NO su c after E (reads_shape _ _ _ R)).
Qed.
