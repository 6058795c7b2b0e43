(** Lemmas about the Windows signature verifier. *)
From Verif Require Import Base Base64 Network Spec_Der WinSignature P_Base.
From Coq Require Import Lia.
Local Open Scope N_scope.

Lemma code_lt b : N_of_ascii b < 256.
Proof. apply N_ascii_bounded. Qed.

Lemma be_from acc l : be_value_from acc l = acc * 256 ^ N.of_nat (length l) + be_value l.
Proof.
  revert acc. unfold be_value. induction l as [|b l IH]; intros acc.
  - cbn. lia.
  - cbn [be_value_from length]. rewrite (IH (256 * acc + N_of_ascii b)), (IH (256 * 0 + N_of_ascii b)).
    rewrite Nat2N.inj_succ, N.pow_succ_r'. lia.
Qed.
Lemma be_cons b l : be_value (b :: l) = N_of_ascii b * 256 ^ N.of_nat (length l) + be_value l.
Proof. unfold be_value at 1. cbn [be_value_from]. rewrite be_from. lia. Qed.
Lemma be_bound l : be_value l < 256 ^ N.of_nat (length l).
Proof.
  induction l as [|b l IH]; [cbn; lia|]. rewrite be_cons. cbn [length]. rewrite Nat2N.inj_succ, N.pow_succ_r'.
  pose proof (code_lt b). nia.
Qed.
Lemma pow_mono a b : (a <= b)%nat -> 256 ^ N.of_nat a <= 256 ^ N.of_nat b.
Proof. intros H. apply N.pow_le_mono_r; lia. Qed.
(** how many octets: between two powers *)
Lemma be_length l lo b r : l = b :: r -> N_of_ascii b <> 0 -> be_value l < 256 ^ N.of_nat lo -> (length l <= lo)%nat.
Proof.
  intros -> Hb H. rewrite be_cons in H. destruct (Nat.le_gt_cases (length (b :: r)) lo) as [X|X]; [exact X|exfalso]. cbn [length] in X.
  assert (P : 256 ^ N.of_nat lo <= 256 ^ N.of_nat (length r)) by (apply pow_mono; lia). nia.
Qed.
Lemma be_length_ge l lo : 256 ^ N.of_nat lo <= be_value l -> (lo < length l)%nat.
Proof.
  intros H. pose proof (be_bound l) as B. destruct (Nat.le_gt_cases (length l) lo) as [X|X]; [exfalso|lia]. pose proof (pow_mono _ _ X). lia.
Qed.

(** content of an integer whose top octet is full *)
Lemma content_full n l k : der_content n l -> 2 ^ (8 * N.of_nat k + 7) <= n < 256 ^ N.of_nat (S k) ->
  exists m, l = "000"%char :: m /\ length m = S k /\ be_value m = n.
Proof.
  intros [V [b [r [E [Hb Hz]]]]] [L U]. assert (L2 : 256 ^ N.of_nat k <= n).
  { etransitivity; [|exact L]. change 256 with (2 ^ 8). rewrite <- N.pow_mul_r. apply N.pow_le_mono_r; lia. }
  destruct (N.eq_dec (N_of_ascii b) 0) as [Z|Z].
  - assert (b = "000"%char) by (rewrite <- (ascii_N_embedding b), Z; reflexivity). subst b. exists r. split; [exact E|].
    subst l. rewrite be_cons in V. change (N_of_ascii "000") with 0 in V. rewrite N.mul_0_l, N.add_0_l in V.
    destruct (Hz Z) as [->|[b' [r' [-> Hb']]]].
    + cbn in V. subst n. assert (0 < 256 ^ N.of_nat k) by (apply N.neq_0_lt_0, N.pow_nonzero; discriminate). lia.
    + split; [|exact V]. assert (A : (length (b' :: r') <= S k)%nat) by (eapply be_length; [reflexivity|lia|lia]).
      assert (B : (k < length (b' :: r'))%nat) by (apply be_length_ge; lia). lia.
  - exfalso. assert (A : (length l <= S k)%nat) by (eapply be_length; [exact E|exact Z|lia]). assert (B : (k < length l)%nat) by (apply be_length_ge; lia).
    subst l. cbn [length] in A, B. assert (length r = k) by lia. subst k. rewrite be_cons in V. pose proof (be_bound r) as BR.
    rewrite N.pow_add_r in L. rewrite N.pow_mul_r in L. change (2 ^ 8) with 256 in L. change (2 ^ 7) with 128 in L. nia.
Qed.

(** reading *)
Lemma key_at_app pre b post : key_at (pre ++ b :: post) (length pre) = Ok b.
Proof. unfold key_at. rewrite nth_error_app2, Nat.sub_diag by lia. reflexivity. Qed.
Lemma key_at_k k pre l : key_at (pre ++ l) (k + length pre) = key_at l k.
Proof. unfold key_at. rewrite nth_error_app2 by lia. replace (k + length pre - length pre)%nat with k by lia. reflexivity. Qed.
Lemma code_ascii n : n < 256 -> code (ascii_of_N n) = n.
Proof. intros H. unfold code. apply N_ascii_embedding, H. Qed.

Lemma land_high n : n < 128 -> N.land n 0x80 = 0.
Proof.
  intros H. apply N.bits_inj. intros i. rewrite N.land_spec, N.bits_0. change 0x80 with (2 ^ 7). rewrite N.pow2_bits_eqb.
  destruct (N.eqb_spec 7 i) as [<-|]; [|apply andb_false_r]. rewrite andb_true_r.
  destruct (N.eq_dec n 0) as [->|Z]; [reflexivity|]. apply N.bits_above_log2. apply N.log2_lt_pow2; lia.
Qed.
Lemma land_low n : N.land n 0x7f = n mod 128.
Proof. change 0x7f with (N.ones 7). rewrite N.land_ones. reflexivity. Qed.
Lemma land_high_set k : k < 128 -> N.land (128 + k) 0x80 = 128.
Proof.
  intros H. apply N.bits_inj. intros i. rewrite N.land_spec. change 0x80 with (2 ^ 7). rewrite N.pow2_bits_eqb.
  destruct (N.eqb_spec 7 i) as [<-|N7].
  - rewrite andb_true_r. apply N.b2n_inj. rewrite N.testbit_spec'. change (2 ^ 7) with 128.
    replace ((128 + k) / 128) with 1; [reflexivity|]. apply (N.div_unique _ _ _ k); lia.
  - apply andb_false_r.
Qed.

Lemma read_length_short pre n post : n < 128 -> read_length (pre ++ ascii_of_N n :: post) (length pre) = Ok (n, S (length pre)).
Proof.
  intros H. unfold read_length. rewrite key_at_app. cbn [rbind]. rewrite code_ascii by lia. rewrite land_high by exact H. reflexivity.
Qed.
Lemma read_length_one pre b post :
  read_length (pre ++ "129"%char :: b :: post) (length pre) = Ok (code b, S (S (length pre))).
Proof.
  unfold read_length. rewrite key_at_app. cbn [rbind]. change (0 <? N.land (code "129") 128) with true. cbv iota.
  change (N.to_nat (N.land (code "129") 127)) with 1%nat. cbn [length_octets].
  change (S (length pre)) with (1 + length pre)%nat. rewrite key_at_k. change (key_at ("129"%char :: b :: post) 1) with (Ok b). cbn [rbind]. unfold shifted. cbn [Nat.leb].
  change (2 ^ (8 * N.of_nat 0)) with 1. rewrite N.mul_1_r. pose proof (code_lt b) as B. fold (code b) in B.
  destruct (N.ltb_spec (code b) (2 ^ 31)) as [L|L]; [|exfalso; change (2 ^ 31) with 2147483648 in L; lia].
  cbn [rbind]. rewrite N.add_0_l, N.mod_small by (unfold SIZE_T; change (2 ^ 64) with 18446744073709551616; lia). reflexivity.
Qed.
Lemma read_length_two pre b c post :
  read_length (pre ++ "130"%char :: b :: c :: post) (length pre) = Ok (code b + 256 * code c, (3 + length pre)%nat).
Proof.
  unfold read_length. rewrite key_at_app. cbn [rbind]. change (0 <? N.land (code "130") 128) with true. cbv iota.
  change (N.to_nat (N.land (code "130") 127)) with 2%nat. cbn [length_octets].
  change (S (length pre)) with (1 + length pre)%nat. rewrite key_at_k. change (key_at ("130"%char :: b :: c :: post) 1) with (Ok b). cbn [rbind]. unfold shifted. cbn [Nat.leb].
  change (2 ^ (8 * N.of_nat 0)) with 1. change (2 ^ (8 * N.of_nat 1)) with 256. rewrite N.mul_1_r.
  pose proof (code_lt b) as B. fold (code b) in B. pose proof (code_lt c) as C. fold (code c) in C.
  unfold SIZE_T. change (2 ^ 31) with 2147483648. change (2 ^ 64) with 18446744073709551616.
  destruct (N.ltb_spec (code b) 2147483648) as [L|L]; [|exfalso; lia]. cbn [rbind].
  change (S (1 + length pre)) with (2 + length pre)%nat. rewrite key_at_k. change (key_at ("130"%char :: b :: c :: post) 2) with (Ok c). cbn [rbind].
  destruct (N.ltb_spec (code c * 256) 2147483648) as [L2|L2]; [|exfalso; lia]. cbn [rbind].
  rewrite N.add_0_l, (N.mod_small (code b)) by lia. rewrite N.mod_small by lia. f_equal. f_equal. lia.
Qed.

(** the octets of a length *)
Lemma length_one n l : 128 <= n < 256 -> der_length n l -> l = ["129"%char; ascii_of_N n].
Proof.
  intros H [[X _]|[_ [o [b [r [-> [E [Hb [_ V]]]]]]]]]; [lia|].
  assert (A : (length o <= 1)%nat) by (eapply be_length; [exact E|exact Hb|rewrite V; change (256 ^ N.of_nat 1) with 256; lia]).
  subst o. destruct r; [|cbn in A; lia]. unfold be_value in V. cbn [be_value_from] in V. change (256 * 0 + N_of_ascii b) with (N_of_ascii b) in V. subst n. rewrite ascii_N_embedding. reflexivity.
Qed.
Lemma length_two n l : 256 <= n < 65536 -> der_length n l -> l = ["130"%char; ascii_of_N (n / 256); ascii_of_N (n mod 256)].
Proof.
  intros H [[X _]|[_ [o [b [r [-> [E [Hb [_ V]]]]]]]]]; [lia|].
  assert (A : (length o <= 2)%nat) by (eapply be_length; [exact E|exact Hb|rewrite V; change (256 ^ N.of_nat 2) with 65536; lia]).
  assert (B : (1 < length o)%nat) by (apply be_length_ge; rewrite V; change (256 ^ N.of_nat 1) with 256; lia).
  subst o. destruct r as [|c [|]]; cbn in A, B; try lia. rewrite be_cons in V. unfold be_value in V. cbn [be_value_from length] in V. change (256 ^ N.of_nat 1) with 256 in V.
  pose proof (code_lt c). cbn [length app]. change (128 + N.of_nat 2) with 130. change (ascii_of_N 130) with "130"%char.
  assert (E1 : n / 256 = N_of_ascii b) by (symmetry; apply (N.div_unique _ _ _ (N_of_ascii c)); lia).
  assert (E2 : n mod 256 = N_of_ascii c) by (symmetry; apply (N.mod_unique _ _ (N_of_ascii b)); lia).
  rewrite E1, E2, !ascii_N_embedding. reflexivity.
Qed.

(** copying *)
Lemma copy_ok pre data : forall post i loc, (i + length data <= length loc)%nat ->
  copy_bytes (pre ++ data ++ post) (length data) i (length pre) loc = Ok (firstn i loc ++ map Some data ++ skipn (i + length data) loc, (length pre + length data)%nat).
Proof.
  revert pre. induction data as [|b data IH]; intros pre post i loc H.
  - cbn [length copy_bytes map app]. rewrite Nat.add_0_r, firstn_skipn. f_equal. f_equal. lia.
  - cbn [length copy_bytes app map]. rewrite key_at_app. cbn [rbind]. cbn [length] in H. destruct (Nat.ltb_spec i (length loc)) as [_|X]; [|lia].
    assert (E : (pre ++ b :: data ++ post = (pre ++ [b]) ++ data ++ post)%list) by (rewrite <- app_assoc; reflexivity). rewrite E.
    replace (S (length pre)) with (length (pre ++ [b])) by (rewrite app_length; cbn; lia).
    assert (L : length (firstn i loc ++ Some b :: skipn (S i) loc) = length loc) by (rewrite app_length, firstn_length; cbn [length]; rewrite skipn_length; lia).
    rewrite IH by (rewrite L; lia). f_equal. f_equal.
    + assert (F : firstn i loc ++ Some b :: skipn (S i) loc = (firstn i loc ++ [Some b]) ++ skipn (S i) loc) by (rewrite <- app_assoc; reflexivity).
      assert (FL : length (firstn i loc ++ [Some b]) = S i) by (rewrite app_length, firstn_length; cbn [length]; lia).
      rewrite F. rewrite firstn_app, FL, Nat.sub_diag, firstn_all2 by (rewrite FL; lia). cbn [firstn]. rewrite app_nil_r.
      rewrite skipn_app, FL. replace (S i + length data - S i)%nat with (length data) by lia. rewrite skipn_all2 by (rewrite FL; lia). cbn [app].
      rewrite <- app_assoc. cbn [app]. do 3 f_equal.
      replace (i + S (length data))%nat with (length data + S i)%nat by lia. clear. generalize (S i). intros k. generalize (length data). intros d. revert k. induction loc as [|x l IH]; intros k; [rewrite !skipn_nil; reflexivity|].
      destruct k; [cbn [skipn]; rewrite Nat.add_0_r; reflexivity|]. cbn [skipn]. rewrite IH. rewrite Nat.add_succ_r. reflexivity.
    + rewrite app_length. cbn [length]. lia.
Qed.
Lemma read_len pre n l post : der_length n l -> n < 256 -> read_length (pre ++ l ++ post) (length pre) = Ok (n, (length pre + length l)%nat).
Proof.
  intros H B. destruct (N.lt_ge_cases n 128) as [X|X].
  - destruct H as [[_ ->]|[Y _]]; [|lia]. cbn [app length]. rewrite read_length_short by exact X. f_equal. f_equal. lia.
  - apply length_one in H; [|lia]. subst l. cbn [app length]. rewrite read_length_one, code_ascii by lia. f_equal. f_equal. lia.
Qed.
Lemma at_eq (l : bytes) p q : p = q -> key_at l p = key_at l q. Proof. intros ->. reflexivity. Qed.
(** reading an integer: what counts is the first octet of its content *)
Lemma read_int pre len b r post loc :
  der_length (N.of_nat (length (b :: r))) len -> N.of_nat (length (b :: r)) < 256 ->
  let digits := if code b =? 0 then r else b :: r in
  (length digits <= length loc)%nat ->
  read_integer (pre ++ ("002"%char :: len ++ b :: r) ++ post) (length pre) loc =
  Ok (FUNC_RET_OK, (length pre + length ("002"%char :: len ++ b :: r))%nat, map Some digits ++ skipn (length digits) loc).
Proof.
  intros HL B digits Hd. unfold read_integer. cbn [app]. rewrite key_at_app. cbn [rbind]. change (negb (code "002" =? 2)) with false. cbv iota.
  assert (E : forall x, (pre ++ "002"%char :: x = (pre ++ ["002"%char]) ++ x)%list) by (intros; rewrite <- app_assoc; reflexivity). rewrite E.
  assert (L1 : length (pre ++ ["002"%char]) = S (length pre)) by (rewrite app_length; cbn [length]; lia).
  set (p1 := (pre ++ ["002"%char])%list) in *. rewrite <- L1. rewrite <- !app_assoc. rewrite (read_len p1 _ _ _ HL B). cbn [rbind].
  rewrite (app_assoc p1). set (p2 := (p1 ++ len)%list). assert (L2 : length p2 = (length p1 + length len)%nat) by (unfold p2; apply app_length). rewrite <- L2.
  cbn [app]. rewrite key_at_app. cbn [rbind]. unfold digits in *. clear digits. destruct (N.eqb_spec (code b) 0) as [Z|Z].
  - replace ((N.of_nat (length (b :: r)) + (SIZE_T - 1)) mod SIZE_T) with (N.of_nat (length r)).
    2:{ cbn [length]. rewrite Nat2N.inj_succ. apply (N.mod_unique _ _ 1); unfold SIZE_T; cbn [length] in B; change (2 ^ 64) with 18446744073709551616; lia. }
    destruct (N.ltb_spec (N.of_nat (length loc)) (N.of_nat (length r))) as [X|X]; [lia|]. rewrite Nat2N.id.
    assert (E2 : (p2 ++ b :: r ++ post = (p2 ++ [b]) ++ r ++ post)%list) by (rewrite <- app_assoc; reflexivity). rewrite E2.
    replace (S (length p2)) with (length (p2 ++ [b])) by (rewrite app_length; cbn [length]; lia). rewrite copy_ok by lia. cbn [rbind firstn app Nat.add]. f_equal. f_equal. f_equal.
    rewrite app_length, L2, L1. cbn [length]. rewrite app_length. cbn [length]. lia.
  - destruct (N.ltb_spec (N.of_nat (length loc)) (N.of_nat (length (b :: r)))) as [X|X]; [lia|]. rewrite Nat2N.id.
    pose proof (copy_ok p2 (b :: r) post 0 loc ltac:(lia)) as C. cbn [app firstn Nat.add] in C. rewrite C. cbn [rbind app]. f_equal. f_equal. f_equal.
    rewrite L2, L1. cbn [length]. rewrite app_length. cbn [length]. lia.
Qed.
Lemma code0 b : code b = 0 -> b = "000"%char.
Proof. intros Z. rewrite <- (ascii_N_embedding b). unfold code in Z. rewrite Z. reflexivity. Qed.
(** the significant octets of the content: as many as the number needs *)
Lemma digits_of n b r : der_content n (b :: r) -> n <> 0 ->
  let digits := if code b =? 0 then r else b :: r in
  be_value digits = n /\ exists c q, digits = c :: q /\ N_of_ascii c <> 0.
Proof.
  intros [V [b' [r' [[= <- <-] [Hb Hz]]]]] N0. cbv zeta. destruct (N.eqb_spec (code b) 0) as [Z|Z].
  - rewrite be_cons in V. fold (code b) in V. rewrite Z, N.mul_0_l, N.add_0_l in V. split; [exact V|]. destruct (Hz Z) as [->|[c [q [-> Hc]]]]; [cbn in V; lia|]. exists c, q. split; [reflexivity|lia].
  - split; [exact V|]. exists b, r. auto.
Qed.
Lemma content_length b r : (length (b :: r) <= S (length (if (code b =? 0)%N then r else b :: r)))%nat.
Proof. destruct (code b =? 0)%N; cbn; lia. Qed.

(** a number of at most [length loc] octets *)
Lemma read_int_number pre n a post loc :
  der_integer n a -> n <> 0 -> n < 256 ^ N.of_nat (length loc) -> (length loc <= 254)%nat ->
  exists digits, be_value digits = n /\ (exists c q, digits = c :: q /\ N_of_ascii c <> 0) /\ (length digits <= length loc)%nat /\
    (length a <= 4 + length digits)%nat /\
  read_integer (pre ++ a ++ post) (length pre) loc =
  Ok (FUNC_RET_OK, (length pre + length a)%nat, map Some digits ++ skipn (length digits) loc).
Proof.
  intros [len [content [-> [HL HC]]]] N0 B Hs. pose proof HC as [_ [b [r [-> _]]]]. destruct (digits_of _ _ _ HC N0) as [V [c [q [E Hc]]]].
  set (digits := if (code b =? 0)%N then r else b :: r) in *. assert (D : (length digits <= length loc)%nat) by (eapply be_length; [exact E|exact Hc|lia]).
  pose proof (content_length b r) as CL. fold digits in CL. exists digits. split; [exact V|]. split; [exists c, q; auto|]. split; [exact D|]. split.
  - assert (LL : (length len <= 2)%nat).
    { destruct (N.lt_ge_cases (N.of_nat (length (b :: r))) 128) as [X|X]; [destruct HL as [[_ ->]|[Y _]]; [cbn; lia|lia]|]. apply length_one in HL; [subst len; cbn; lia|lia]. }
    cbn [length] in *. rewrite app_length. cbn [length]. lia.
  - apply read_int; [exact HL|lia|exact D].
Qed.
(** a number of 256 octets, the top bit set: nothing is written *)
Lemma read_int_large pre n a post loc :
  der_integer n a -> 2 ^ 2047 <= n < 2 ^ 2048 -> (length loc < 256)%nat ->
  exists m, length m = 256%nat /\ be_value m = n /\
  read_integer (pre ++ a ++ post) (length pre) loc = Ok (FUNC_RET_ERROR, (length pre + 5)%nat, loc) /\
  a = (bs "" ++ ["002"%char; "130"%char; "001"%char; "001"%char; "000"%char] ++ m)%list.
Proof.
  intros [len [content [-> [HL HC]]]] B Hs.
  destruct (content_full n content 255 HC) as [m [-> [Lm V]]].
  { replace (8 * N.of_nat 255 + 7) with 2047 by reflexivity. change 256 with (2 ^ 8). rewrite <- N.pow_mul_r. replace (8 * N.of_nat 256) with 2048 by reflexivity. exact B. }
  exists m. split; [exact Lm|]. split; [exact V|]. cbn [length] in HL. rewrite Lm in HL. change (N.of_nat 257) with 257 in HL. apply length_two in HL; [|lia].
  change (ascii_of_N (257 / 256)) with "001"%char in HL. change (ascii_of_N (257 mod 256)) with "001"%char in HL. subst len. split; [|reflexivity].
  unfold read_integer. cbn [app]. rewrite key_at_app. cbn [rbind]. change (negb (code "002" =? 2)) with false. cbv iota.
  assert (E : forall x, (pre ++ "002"%char :: x = (pre ++ ["002"%char]) ++ x)%list) by (intros; rewrite <- app_assoc; reflexivity). rewrite E.
  assert (L1 : length (pre ++ ["002"%char]) = S (length pre)) by (rewrite app_length; cbn [length]; lia). rewrite <- L1. rewrite read_length_two. cbn [rbind].
  rewrite key_at_k. change (key_at ("130"%char :: "001"%char :: "001"%char :: "000"%char :: m ++ post) 3) with (Ok "000"%char). cbn [rbind]. change (code "000" =? 0) with true. cbv iota.
  change ((code "001" + 256 * code "001" + (SIZE_T - 1)) mod SIZE_T) with 256. destruct (N.ltb_spec (N.of_nat (length loc)) 256) as [X|X]; [|lia]. f_equal. f_equal. f_equal. rewrite L1. lia.
Qed.

Lemma sequence_ok len body : der_length (N.of_nat (length body)) len -> N.of_nat (length body) < 256 ->
  forall tail, read_sequence (("048"%char :: len ++ body) ++ tail) 0 = Ok (FUNC_RET_OK, S (length len)).
Proof.
  intros HL B tail. unfold read_sequence. cbn [app key_at nth_error rbind]. change (negb (code "048" =? 48)) with false. cbv iota.
  pose proof (read_len ["048"%char] _ len (body ++ tail) HL B) as R. cbn [app length] in R. rewrite <- app_assoc. rewrite R. reflexivity.
Qed.
Lemma sequence_large len body : der_length (N.of_nat (length body)) len -> 256 <= N.of_nat (length body) < 65536 ->
  forall tail, read_sequence (("048"%char :: len ++ body) ++ tail) 0 = Ok (FUNC_RET_OK, 4%nat) /\ length len = 3%nat.
Proof.
  intros HL B tail. apply length_two in HL; [|lia]. subst len. split; [|reflexivity]. unfold read_sequence. cbn [app key_at nth_error rbind]. change (negb (code "048" =? 48)) with false. cbv iota.
  pose proof (read_length_two ["048"%char] (ascii_of_N (N.of_nat (length body) / 256)) (ascii_of_N (N.of_nat (length body) mod 256)) (body ++ tail)) as R. cbn [app length] in R. rewrite R. reflexivity.
Qed.

(** the whole key *)
Lemma read_key_ok n e l tail : der_public_key n e l -> n <> 0 -> e <> 0 -> n < 256 ^ N.of_nat 128 -> e < 256 ^ N.of_nat 3 ->
  exists dn de, be_value dn = n /\ be_value de = e /\
    (exists c q, dn = c :: q /\ N_of_ascii c <> 0) /\ (exists c q, de = c :: q /\ N_of_ascii c <> 0) /\
    (length dn <= 128)%nat /\ (length de <= 3)%nat /\
    read_key (l ++ tail) = Ok {| kb_exponent := map Some de ++ repeat None (3 - length de); kb_modulus := map Some dn ++ repeat None (128 - length dn) |}.
Proof.
  intros [len [a [b [-> [Ha [Hb HL]]]]]] Nn Ne Bn Be. set (pre := ("048"%char :: len)%list).
  pose proof (read_int_number pre n a (b ++ tail) (repeat None 128) Ha Nn) as R1. rewrite repeat_length in R1. destruct R1 as [dn [Vn [Sn [Ln [La R1]]]]]; [exact Bn|lia|].
  pose proof (read_int_number (pre ++ a) e b tail (repeat None 3) Hb Ne) as R2. rewrite repeat_length in R2. destruct R2 as [de [Ve [Se [Le [Lb R2]]]]]; [exact Be|lia|].
  exists dn, de. repeat (split; [assumption|]). unfold read_key. rewrite (sequence_ok len (a ++ b)); [|exact HL|rewrite app_length; lia]. cbn [rbind].
  assert (E1 : (("048"%char :: len ++ a ++ b) ++ tail = pre ++ a ++ b ++ tail)%list) by (unfold pre; cbn [app]; rewrite <- !app_assoc; reflexivity). rewrite E1.
  change (S (length len)) with (length pre). rewrite R1. cbn [rbind]. rewrite (app_assoc pre a). rewrite <- app_length. rewrite R2. cbn [rbind].
  f_equal. f_equal.
  - f_equal. clear -Le. destruct (length de) as [|[|[|[|]]]]; reflexivity.
  - f_equal. generalize (length dn) Ln. generalize 128%nat. clear. intros k m. revert m. induction k as [|k IH]; intros [|m] H; try reflexivity; try lia. cbn [repeat skipn]. rewrite IH by lia. reflexivity.
Qed.
Lemma read_key_large n e l tail : der_public_key n e l -> 2 ^ 2047 <= n < 2 ^ 2048 -> e <> 0 -> e < 256 ^ N.of_nat 32 ->
  read_key (l ++ tail) = Ok {| kb_exponent := repeat None 3; kb_modulus := repeat None 128 |}.
Proof.
  intros [len [a [b [-> [Ha [Hb HL]]]]]] Bn Ne Be. set (pre := ("048"%char :: len)%list).
  destruct (read_int_large pre n a (b ++ tail) (repeat None 128) Ha Bn) as [m [Lm [Vm [R1 Ea]]]]; [rewrite repeat_length; lia|].
  assert (Lb : (2 <= length b <= 36)%nat).
  { pose proof (read_int_number [] e b [] (repeat None 32) Hb Ne) as R. rewrite repeat_length in R. destruct R as [d [_ [_ [Ld [Lb _]]]]]; [exact Be|lia|]. split; [|lia]. destruct Hb as [l2 [c [-> [_ [_ [b2 [r2 [-> _]]]]]]]]. cbn [length]. rewrite app_length. cbn [length]. lia. }
  assert (La : length a = 261%nat) by (rewrite Ea; cbn [bs list_ascii_of_string app length]; rewrite Lm; reflexivity).
  destruct (sequence_large len (a ++ b) HL ltac:(rewrite app_length; lia) tail) as [RS L3].
  unfold read_key. rewrite RS. cbn [rbind].
  assert (E1 : (("048"%char :: len ++ a ++ b) ++ tail = pre ++ a ++ b ++ tail)%list) by (unfold pre; cbn [app]; rewrite <- !app_assoc; reflexivity). rewrite E1.
  assert (LP : length pre = 4%nat) by (unfold pre; cbn [length]; lia). rewrite <- LP at 1. rewrite R1. cbn [rbind]. unfold read_integer.
  rewrite Nat.add_comm, key_at_k. subst a. destruct m as [|c m]; [discriminate|]. cbn [bs list_ascii_of_string app]. unfold key_at. cbn [nth_error]. cbn [rbind].
  assert (HC : 128 <= N_of_ascii c).
  { cbn [length] in Lm. injection Lm as Lm. rewrite be_cons, Lm in Vm. pose proof (be_bound m) as BM. rewrite Lm in BM. replace (2 ^ 2047) with (128 * 256 ^ N.of_nat 255) in Bn. 2:{ change 256 with (2 ^ 8). rewrite <- N.pow_mul_r. change 128 with (2 ^ 7). rewrite <- N.pow_add_r. reflexivity. }
    set (P := 256 ^ N.of_nat 255) in *. clearbody P. nia. }
  destruct (N.eqb_spec (code c) 2) as [X|X]; [unfold code in X; lia|]. cbn [negb rbind]. reflexivity.
Qed.

(** ** outcomes and resources *)
Lemma seen_all stack d : seen stack (map Some d) = d.
Proof. revert stack. induction d as [|b d IH]; intros stack; [reflexivity|]. cbn [map seen]. rewrite IH. reflexivity. Qed.
