(** The Windows signature verifier (C72, C73). *)
From Verif Require Import Base Base64 Network Spec_Strings Spec_Base64 P_Base P_Decode Spec_Der Trace Spec_Resources WinSignature P_WinSig.
From Coq Require Import Lia.
Local Open Scope N_scope.

(** ** C72: the public key *)
(** A key of 1024 bits (128 octets) with an exponent of 3 octets: the blob given to the
    provider holds exactly these numbers. [tail]: what follows the key in memory. *)
Theorem C72_key_read n e key tail :
  der_public_key n e key -> 2 ^ 1016 <= n < 2 ^ 1024 -> 2 ^ 16 <= e < 2 ^ 24 ->
  exists modulus exponent,
    read_key (key ++ tail) = Ok {| kb_exponent := map Some exponent; kb_modulus := map Some modulus |} /\
    length modulus = 128%nat /\ be_value modulus = n /\ length exponent = 3%nat /\ be_value exponent = e.
Proof.
  intros H Bn Be. destruct (read_key_ok n e key tail H) as [dn [de [Vn [Ve [Sn [Se [Ln [Le R]]]]]]]].
  - assert (0 < 2 ^ 1016) by reflexivity. lia.
  - change (2 ^ 16) with 65536 in Be. lia.
  - change (256 ^ N.of_nat 128) with (2 ^ 1024). lia.
  - change (256 ^ N.of_nat 3) with (2 ^ 24). lia.
  - assert (Ln2 : (127 < length dn)%nat) by (apply be_length_ge; rewrite Vn; change (256 ^ N.of_nat 127) with (2 ^ 1016); lia).
    assert (Le2 : (2 < length de)%nat) by (apply be_length_ge; rewrite Ve; change (256 ^ N.of_nat 2) with (2 ^ 16); lia).
    exists dn, de. rewrite R. replace (128 - length dn)%nat with O by lia. replace (3 - length de)%nat with O by lia. cbn [repeat]. rewrite !app_nil_r. repeat split; try assumption; lia.
Qed.
Print Assumptions C72_key_read.
(** refuted for shorter numbers: with an exponent below 2^16 (3, 17, 257) the last octet
    of the exponent is never written, and the first one holds the highest digit *)
Theorem C72_short_exponent_refuted n e key tail :
  der_public_key n e key -> 2 ^ 1016 <= n < 2 ^ 1024 -> 0 < e < 2 ^ 16 ->
  exists modulus digits blob, read_key (key ++ tail) = Ok blob /\
    kb_modulus blob = map Some modulus /\ be_value modulus = n /\
    be_value digits = e /\ kb_exponent blob = map Some digits ++ repeat None (3 - length digits) /\ (length digits < 3)%nat.
Proof.
  intros H Bn Be. destruct (read_key_ok n e key tail H) as [dn [de [Vn [Ve [Sn [[c [q [Se Hc]]] [Ln [Le R]]]]]]]].
  - assert (0 < 2 ^ 1016) by reflexivity. lia.
  - lia.
  - change (256 ^ N.of_nat 128) with (2 ^ 1024). lia.
  - change (256 ^ N.of_nat 3) with (2 ^ 24). assert (2 ^ 16 < 2 ^ 24) by reflexivity. lia.
  - assert (Ln2 : (127 < length dn)%nat) by (apply be_length_ge; rewrite Vn; change (256 ^ N.of_nat 127) with (2 ^ 1016); lia).
    assert (Le2 : (length de <= 2)%nat) by (eapply be_length; [exact Se|exact Hc|change (256 ^ N.of_nat 2) with (2 ^ 16); lia]).
    eexists dn, de, _. split; [exact R|]. cbn [kb_modulus kb_exponent]. replace (128 - length dn)%nat with O by lia. cbn [repeat]. rewrite app_nil_r. repeat split; try assumption. lia.
Qed.
Print Assumptions C72_short_exponent_refuted.
(** refuted for 2048 bits: nothing at all is written, and the key is imported all the same *)
Theorem C72_large_key_refuted n e key tail :
  der_public_key n e key -> 2 ^ 2047 <= n < 2 ^ 2048 -> 0 < e < 2 ^ 256 ->
  read_key (key ++ tail) = Ok {| kb_exponent := repeat None 3; kb_modulus := repeat None 128 |} /\
  forall v, pv_import v (map (fun i => pv_stack v i) (seq 0 3)) (map (fun i => pv_stack v i) (seq 3 128)) = true ->
            exists blob, fst (read_public_key v (key ++ tail)) = Ok (FUNC_RET_OK, fst blob, snd blob) /\
                         fst blob ++ snd blob = map (fun i => pv_stack v i) (seq 0 131).
Proof.
  intros H Bn Be. assert (R : read_key (key ++ tail) = Ok {| kb_exponent := repeat None 3; kb_modulus := repeat None 128 |}).
  { apply (read_key_large n e); [exact H|exact Bn|lia|change (256 ^ N.of_nat 32) with (2 ^ 256); lia]. }
  split; [exact R|]. intros v HI. exists (map (fun i => pv_stack v i) (seq 0 3), map (fun i => pv_stack v i) (seq 3 128)). cbn [fst snd]. split; [|reflexivity].
  unfold read_public_key, tlift, tbind. rewrite R. cbn [fst].
  change (seen_exponent v {| kb_exponent := repeat None 3; kb_modulus := repeat None 128 |}) with (map (fun i => pv_stack v i) (seq 0 3)).
  change (seen_modulus v {| kb_exponent := repeat None 3; kb_modulus := repeat None 128 |}) with (map (fun i => pv_stack v i) (seq 3 128)).
  rewrite HI. reflexivity.
Qed.
Print Assumptions C72_large_key_refuted.

(** the hypotheses can be met: 2^1023 + 1 with exponent 65537, and 2^2047 + 1 *)
Definition odd_modulus (k : nat) : bytes := "128"%char :: repeat "000"%char k ++ ["001"%char].
Definition some_key : bytes :=
  ["048"%char; "129"%char; "137"%char; "002"%char; "129"%char; "129"%char; "000"%char] ++ odd_modulus 126 ++
  ["002"%char; "003"%char; "001"%char; "000"%char; "001"%char].
Definition cubic_key : bytes :=
  ["048"%char; "129"%char; "135"%char; "002"%char; "129"%char; "129"%char; "000"%char] ++ odd_modulus 126 ++
  ["002"%char; "001"%char; "003"%char].
Definition large_key : bytes :=
  ["048"%char; "130"%char; "001"%char; "010"%char; "002"%char; "130"%char; "001"%char; "001"%char; "000"%char] ++ odd_modulus 254 ++
  ["002"%char; "003"%char; "001"%char; "000"%char; "001"%char].
Lemma short_length n : n < 128 -> der_length n [ascii_of_N n].
Proof. left. auto. Qed.
Lemma small_int c : 0 < N_of_ascii c < 128 -> der_integer (N_of_ascii c) ["002"%char; "001"%char; c].
Proof.
  intros H. exists ["001"%char], [c]. split; [reflexivity|]. split; [apply (short_length 1); reflexivity|]. split; [reflexivity|]. exists c, []. split; [reflexivity|]. split; lia.
Qed.
Lemma int_65537 : der_integer 65537 ["002"%char; "003"%char; "001"%char; "000"%char; "001"%char].
Proof.
  exists ["003"%char], ["001"%char; "000"%char; "001"%char]. split; [reflexivity|]. split; [apply (short_length 3); reflexivity|]. split; [reflexivity|]. eexists _, _. split; [reflexivity|]. split; [reflexivity|discriminate].
Qed.
Lemma int_1024 : der_integer (2 ^ 1023 + 1) (["002"%char; "129"%char; "129"%char; "000"%char] ++ odd_modulus 126).
Proof.
  exists ["129"%char; "129"%char], ("000"%char :: odd_modulus 126). split; [reflexivity|]. split.
  - right. split; [vm_compute; discriminate|]. exists ["129"%char], "129"%char, []. repeat split; try reflexivity; [discriminate|cbn; lia].
  - split; [vm_compute; reflexivity|]. eexists _, _. split; [reflexivity|]. split; [reflexivity|]. intros _. right. eexists _, _. split; [reflexivity|]. vm_compute. discriminate.
Qed.
Lemma int_2048 : der_integer (2 ^ 2047 + 1) (["002"%char; "130"%char; "001"%char; "001"%char; "000"%char] ++ odd_modulus 254).
Proof.
  exists ["130"%char; "001"%char; "001"%char], ("000"%char :: odd_modulus 254). split; [reflexivity|]. split.
  - right. split; [vm_compute; discriminate|]. exists ["001"%char; "001"%char], "001"%char, ["001"%char]. repeat split; try reflexivity; [discriminate|cbn; lia].
  - split; [vm_compute; reflexivity|]. eexists _, _. split; [reflexivity|]. split; [reflexivity|]. intros _. right. eexists _, _. split; [reflexivity|]. vm_compute. discriminate.
Qed.
(** ** The lengths *)
(** A length of more than 127 is announced by 128 plus the number of octets that follow. They
    are summed with the FIRST octet as the lowest (DER has it as the highest): with up to
    four octets, below 2^31, the result is that sum; five or more are undefined behaviour. *)
Fixpoint le_value (l : bytes) : N := match l with [] => 0 | b :: r => code b + 256 * le_value r end.
Lemma le_bound l : le_value l < 256 ^ N.of_nat (length l).
Proof.
  induction l as [|b l IH]; [reflexivity|]. cbn [le_value length]. rewrite Nat2N.inj_succ, N.pow_succ_r'. pose proof (N_ascii_bounded b). unfold code. lia.
Qed.
Lemma octets_sum before l after : forall k i p acc, p = length before -> k = length l -> (i + k <= 4)%nat -> acc + 256 ^ N.of_nat i * le_value l < 2 ^ 31 ->
  length_octets (before ++ l ++ after) k i p acc = Ok (acc + 256 ^ N.of_nat i * le_value l, (length before + length l)%nat).
Proof.
  revert before. induction l as [|b l IH]; intros before k i p acc -> -> Hi B; cbn [length length_octets app].
  - cbn [le_value]. rewrite N.mul_0_r, N.add_0_r, Nat.add_0_r. reflexivity.
  - unfold key_at. rewrite nth_error_app2, Nat.sub_diag by lia. cbn [nth_error rbind]. unfold shifted. cbn [length] in Hi. assert (X : (4 <=? i)%nat = false) by (apply Nat.leb_gt; lia). rewrite X. cbn [le_value] in B.
    assert (Q : 2 ^ (8 * N.of_nat i) = 256 ^ N.of_nat i) by (change 256 with (2 ^ 8); rewrite <- N.pow_mul_r; reflexivity).
    assert (Y : (code b * 2 ^ (8 * N.of_nat i) <? 2 ^ 31) = true) by (apply N.ltb_lt; rewrite Q; nia). cbn zeta. rewrite Y. cbn [rbind]. rewrite Q.
    rewrite N.mod_small by (unfold SIZE_T; assert (2 ^ 31 < 2 ^ 64) by reflexivity; nia).
    replace (before ++ b :: l ++ after) with ((before ++ [b]) ++ l ++ after) by (rewrite <- app_assoc; reflexivity).
    rewrite (IH (before ++ [b]) (length l) (S i) (S (length before)) (acc + code b * 256 ^ N.of_nat i)); [|rewrite app_length; cbn; lia|reflexivity|lia|].
    + f_equal. f_equal; [|rewrite app_length; cbn [length]; lia]. cbn [le_value]. replace (N.of_nat (S i)) with (N.succ (N.of_nat i)) by lia. rewrite N.pow_succ_r'. nia.
    + replace (N.of_nat (S i)) with (N.succ (N.of_nat i)) by lia. rewrite N.pow_succ_r'. nia.
Qed.
Theorem C72_long_length before head octets after : (1 <= length octets <= 4)%nat -> code head = 128 + N.of_nat (length octets) -> le_value octets < 2 ^ 31 ->
  read_length (before ++ head :: octets ++ after) (length before) = Ok (le_value octets, (length before + S (length octets))%nat).
Proof.
  intros L H B. unfold read_length, key_at. rewrite nth_error_app2, Nat.sub_diag by lia. cbn [nth_error rbind]. rewrite H.
  assert (X : (0 <? N.land (128 + N.of_nat (length octets)) 128) = true /\ N.to_nat (N.land (128 + N.of_nat (length octets)) 127) = length octets) by (destruct octets as [|? [|? [|? [|? [|]]]]]; cbn in L; try lia; split; reflexivity).
  destruct X as [-> ->]. replace (before ++ head :: octets ++ after) with ((before ++ [head]) ++ octets ++ after) by (rewrite <- app_assoc; reflexivity).
  rewrite (octets_sum (before ++ [head]) octets after _ 0 (S (length before)) 0); [|rewrite app_length; cbn; lia|reflexivity|lia|change (256 ^ N.of_nat 0) with 1; lia].
  change (256 ^ N.of_nat 0) with 1. rewrite N.mul_1_l, N.add_0_l, app_length. cbn [length]. f_equal. f_equal. lia.
Qed.
Print Assumptions C72_long_length.
(** Four octets from 2^31 on: the last one is shifted into the sign of an int, and the length
    becomes a huge size_t. *)
Theorem C72_long_length_negative before head a b c d after : code head = 132 -> 128 <= code d ->
  read_length (before ++ head :: [a; b; c; d] ++ after) (length before) = Ok (2 ^ 64 - 2 ^ 32 + le_value [a; b; c; d], (length before + 5)%nat).
Proof.
  intros H D. unfold read_length, key_at. rewrite nth_error_app2, Nat.sub_diag by lia. cbn [nth_error rbind]. rewrite H.
  change (0 <? N.land 132 128) with true. change (N.to_nat (N.land 132 127)) with 4%nat. cbv iota. 
  assert (G : forall k x, nth_error (head :: [a; b; c; d] ++ after) k = Some x -> key_at (before ++ head :: [a; b; c; d] ++ after) (k + length before) = Ok x).
  { intros k x K. unfold key_at. rewrite nth_error_app2 by lia. replace (k + length before - length before)%nat with k by lia. rewrite K. reflexivity. }
  pose proof (N_ascii_bounded a). pose proof (N_ascii_bounded b). pose proof (N_ascii_bounded c). pose proof (N_ascii_bounded d). unfold code in *.
  assert (X0 : (N_of_ascii a * 2 ^ (8 * N.of_nat 0) <? 2 ^ 31) = true) by (apply N.ltb_lt; change (2 ^ (8 * N.of_nat 0)) with 1; change (2 ^ 31) with 2147483648; lia).
  assert (X1 : (N_of_ascii b * 2 ^ (8 * N.of_nat 1) <? 2 ^ 31) = true) by (apply N.ltb_lt; change (2 ^ (8 * N.of_nat 1)) with 256; change (2 ^ 31) with 2147483648; lia).
  assert (X2 : (N_of_ascii c * 2 ^ (8 * N.of_nat 2) <? 2 ^ 31) = true) by (apply N.ltb_lt; change (2 ^ (8 * N.of_nat 2)) with 65536; change (2 ^ 31) with 2147483648; lia).
  assert (X3 : (N_of_ascii d * 2 ^ (8 * N.of_nat 3) <? 2 ^ 31) = false) by (apply N.ltb_ge; change (2 ^ (8 * N.of_nat 3)) with 16777216; change (2 ^ 31) with 2147483648; lia).
  cbn [length_octets].
  rewrite (G 1%nat a eq_refl : key_at _ (S (length before)) = _). cbn [rbind]. unfold shifted at 1. cbn [Nat.leb rbind]. unfold code. rewrite X0. cbn [rbind].
  rewrite (G 2%nat b eq_refl : key_at _ (S (S (length before))) = _). cbn [rbind]. unfold shifted at 1. cbn [Nat.leb rbind]. unfold code. rewrite X1. cbn [rbind].
  rewrite (G 3%nat c eq_refl : key_at _ (S (S (S (length before)))) = _). cbn [rbind]. unfold shifted at 1. cbn [Nat.leb rbind]. unfold code. rewrite X2. cbn [rbind].
  rewrite (G 4%nat d eq_refl : key_at _ (S (S (S (S (length before))))) = _). cbn [rbind]. unfold shifted at 1. cbn [Nat.leb rbind]. unfold code. rewrite X3. cbn [rbind].
  f_equal. f_equal; [|lia].
  change (2 ^ (8 * N.of_nat 0)) with 1. change (2 ^ (8 * N.of_nat 1)) with 256. change (2 ^ (8 * N.of_nat 2)) with 65536. change (2 ^ (8 * N.of_nat 3)) with 16777216.
  unfold SIZE_T. change (2 ^ 64) with 18446744073709551616. change (2 ^ 32) with 4294967296. cbn [le_value]. unfold code.
  rewrite !(N.mod_small _ 18446744073709551616); lia || (rewrite !(N.mod_small _ 18446744073709551616) by lia; lia).
Qed.
Print Assumptions C72_long_length_negative.
Example C72_negative_case : read_length ["048"%char; "132"%char; "000"%char; "000"%char; "000"%char; "128"%char] 1 = Ok (2 ^ 64 - 2 ^ 31, 6%nat).
Proof. vm_compute. reflexivity. Qed.
Theorem C72_length_overflow before head octets after : (5 <= length octets < 128)%nat -> code head = 128 + N.of_nat (length octets) ->
  read_length (before ++ head :: octets ++ after) (length before) = Undef UbOverflow.
Proof.
  intros L H. unfold read_length, key_at. rewrite nth_error_app2, Nat.sub_diag by lia. cbn [nth_error rbind]. rewrite H.
  assert (X : (0 <? N.land (128 + N.of_nat (length octets)) 128) = true /\ N.to_nat (N.land (128 + N.of_nat (length octets)) 127) = length octets).
  { assert (Q : forall n, (n < 128)%nat -> (0 <? N.land (128 + N.of_nat n) 128) = true /\ N.to_nat (N.land (128 + N.of_nat n) 127) = n); [|apply Q; lia].
    intros n Hn. assert (F : forallb (fun n => (0 <? N.land (128 + N.of_nat n) 128) && Nat.eqb (N.to_nat (N.land (128 + N.of_nat n) 127)) n) (seq 0 128) = true) by (vm_compute; reflexivity).
    rewrite forallb_forall in F. specialize (F n). rewrite in_seq in F. specialize (F ltac:(lia)). apply andb_true_iff in F as [F1 F2]. apply Nat.eqb_eq in F2. auto. }
  destruct X as [-> ->]. destruct octets as [|o0 [|o1 [|o2 [|o3 [|o4 r]]]]]; cbn [length] in L; try lia. replace (before ++ head :: (o0 :: o1 :: o2 :: o3 :: o4 :: r) ++ after) with ((before ++ [head; o0; o1; o2; o3]) ++ o4 :: r ++ after) by (rewrite <- app_assoc; reflexivity).
  assert (G : forall k x, nth_error [head; o0; o1; o2; o3] k = Some x -> key_at ((before ++ [head; o0; o1; o2; o3]) ++ o4 :: r ++ after) (k + length before) = Ok x).
  { intros k x K. unfold key_at. rewrite <- app_assoc. rewrite nth_error_app2 by lia. replace (k + length before - length before)%nat with k by lia. rewrite nth_error_app1 by (apply nth_error_Some; congruence). rewrite K. reflexivity. }
  cbn [length length_octets]. rewrite (G 1%nat o0 eq_refl : key_at _ (S (length before)) = _). cbn [rbind]. unfold shifted at 1. cbn [Nat.leb rbind].
  rewrite (G 2%nat o1 eq_refl : key_at _ (S (S (length before))) = _). cbn [rbind]. unfold shifted at 1. cbn [Nat.leb rbind].
  rewrite (G 3%nat o2 eq_refl : key_at _ (S (S (S (length before)))) = _). cbn [rbind]. unfold shifted at 1. cbn [Nat.leb rbind].
  rewrite (G 4%nat o3 eq_refl : key_at _ (S (S (S (S (length before))))) = _). cbn [rbind]. unfold shifted at 1. cbn [Nat.leb rbind].
  unfold key_at. rewrite nth_error_app2 by (rewrite app_length; cbn [length]; lia). rewrite app_length. cbn [length]. replace (S (S (S (S (S (length before))))) - (length before + 5))%nat with O by lia. reflexivity.
Qed.
Print Assumptions C72_length_overflow.

(** ** An array that ends too early *)
Definition cut {A} (m m' : res A) : Prop := m = Undef UbRead \/ m' = m.
Lemma cut_bind {A B} (m m' : res A) (k k' : A -> res B) : cut m m' -> (forall a, m = Ok a -> cut (k a) (k' a)) -> cut (rbind m k) (rbind m' k').
Proof. intros [->| ->] H; [left; reflexivity|]. destruct m as [a|e|u|]; cbn [rbind]; [apply H; reflexivity|right; reflexivity..]. Qed.
Lemma cut_at_key a b p : cut (key_at a p) (key_at (a ++ b) p).
Proof.
  unfold key_at. destruct (nth_error a p) as [c|] eqn:E; [|left; reflexivity]. right. rewrite nth_error_app1; [rewrite E; reflexivity|]. apply nth_error_Some. congruence.
Qed.
Lemma cut_octets a b k i p r : cut (length_octets a k i p r) (length_octets (a ++ b) k i p r).
Proof. revert i p r. induction k as [|k IH]; intros i p r; [right; reflexivity|]. cbn [length_octets]. apply cut_bind; [apply cut_at_key|]. intros c _. apply cut_bind; [right; reflexivity|]. intros v _. apply IH. Qed.
Lemma cut_length a b p : cut (read_length a p) (read_length (a ++ b) p).
Proof. unfold read_length. apply cut_bind; [apply cut_at_key|]. intros c _. destruct (_ <? _); [apply cut_octets|right; reflexivity]. Qed.
Lemma cut_copy a b k i p l : cut (copy_bytes a k i p l) (copy_bytes (a ++ b) k i p l).
Proof. revert i p l. induction k as [|k IH]; intros i p l; [right; reflexivity|]. cbn [copy_bytes]. apply cut_bind; [apply cut_at_key|]. intros c _. destruct (_ <? _)%nat; [apply IH|right; reflexivity]. Qed.
Lemma cut_integer a b p l : cut (read_integer a p l) (read_integer (a ++ b) p l).
Proof.
  unfold read_integer. apply cut_bind; [apply cut_at_key|]. intros c _. destruct (negb _); [right; reflexivity|]. apply cut_bind; [apply cut_length|]. intros [n q] _. apply cut_bind; [apply cut_at_key|]. intros d _.
  destruct (code d =? 0); (destruct (_ <? _); [right; reflexivity|]); (apply cut_bind; [apply cut_copy|]); intros [l' q'] _; right; reflexivity.
Qed.
(** What lies behind the array does not matter, unless it is read: then the reader left the
    array (undefined). *)
Theorem C72_stays_inside key after : read_key key = Undef UbRead \/ read_key (key ++ after) = read_key key.
Proof.
  apply (cut_bind (read_sequence key 0) (read_sequence (key ++ after) 0)).
  - unfold read_sequence. apply cut_bind; [apply cut_at_key|]. intros c _. destruct (negb _); [right; reflexivity|]. apply cut_bind; [apply cut_length|]. intros [n q] _. right. reflexivity.
  - intros [f p] _. apply cut_bind; [apply cut_integer|]. intros [[f1 p1] m] _. apply cut_bind; [apply cut_integer|]. intros [[f2 p2] e] _. right. reflexivity.
Qed.
Print Assumptions C72_stays_inside.
Example C72_cut_case : read_key [] = Undef UbRead /\ read_key (bs "0") = Undef UbRead.
Proof. split; reflexivity. Qed.

Theorem C72_nonempty :
  der_public_key (2 ^ 1023 + 1) 65537 some_key /\ der_public_key (2 ^ 1023 + 1) 3 cubic_key /\ der_public_key (2 ^ 2047 + 1) 65537 large_key.
Proof.
  split; [|split].
  - eexists ["129"%char; "137"%char], _, _. split; [|split; [exact int_1024|split; [exact int_65537|]]]; [reflexivity|]. right. split; [vm_compute; discriminate|]. exists ["137"%char], "137"%char, []. repeat split; try reflexivity; [discriminate|cbn; lia].
  - eexists ["129"%char; "135"%char], _, _. split; [|split; [exact int_1024|split; [apply (small_int "003"); vm_compute; auto|]]]; [reflexivity|]. right. split; [vm_compute; discriminate|]. exists ["135"%char], "135"%char, []. repeat split; try reflexivity; [discriminate|cbn; lia].
  - eexists ["130"%char; "001"%char; "010"%char], _, _. split; [|split; [exact int_2048|split; [exact int_65537|]]]; [reflexivity|]. right. split; [vm_compute; discriminate|]. exists ["001"%char; "010"%char], "001"%char, ["010"%char]. repeat split; try reflexivity; [discriminate|cbn; lia].
Qed.
Print Assumptions C72_nonempty.

(** ** C73: the verdict and the resources *)
Lemma be_inj a : forall b, length a = length b -> be_value a = be_value b -> a = b.
Proof.
  induction a as [|x a IH]; intros [|y b] L V; try reflexivity; try discriminate. injection L as L. rewrite !be_cons, L in V.
  pose proof (be_bound a) as A. pose proof (be_bound b) as B. rewrite L in A. set (P := 256 ^ N.of_nat (length b)) in *. clearbody P.
  assert (X : N_of_ascii x = N_of_ascii y) by nia. f_equal; [rewrite <- (ascii_N_embedding x), <- (ascii_N_embedding y), X; reflexivity|]. apply IH; [exact L|nia].
Qed.
(** the provider hashes the text, to h *)
Definition hashes (v : provider) (text h : bytes) : Prop :=
  pv_open_hash v = true /\ pv_object_length v = true /\ pv_hash_length v = true /\ pv_alloc_object v = true /\
  pv_alloc_data v = true /\ pv_create_hash v = true /\ pv_sha256 v text = Some h.
(** a well-formed key of 1024 bits, and its numbers as octets *)
Definition key_1024 (key modulus exponent : bytes) : Prop :=
  length modulus = 128%nat /\ 2 ^ 1016 <= be_value modulus /\ length exponent = 3%nat /\ 2 ^ 16 <= be_value exponent /\
  exists der tail, key = der ++ tail /\ der_public_key (be_value modulus) (be_value exponent) der.
Lemma key_1024_read key modulus exponent : key_1024 key modulus exponent ->
  read_key key = Ok {| kb_exponent := map Some exponent; kb_modulus := map Some modulus |}.
Proof.
  intros [Lm [Bm [Le [Be [der [tail [-> H]]]]]]]. pose proof (be_bound modulus) as Um. pose proof (be_bound exponent) as Ue. rewrite Lm in Um. rewrite Le in Ue.
  destruct (C72_key_read _ _ der tail H) as [m [x [R [Lm2 [Vm [Lx Vx]]]]]].
  - split; [exact Bm|]. change (2 ^ 1024) with (256 ^ N.of_nat 128). exact Um.
  - split; [exact Be|]. change (2 ^ 24) with (256 ^ N.of_nat 3). exact Ue.
  - rewrite R. rewrite (be_inj m modulus), (be_inj x exponent) by congruence. reflexivity.
Qed.
Lemma truncated_id d : N.of_nat (length d) < 2 ^ 32 -> truncated d = d.
Proof. intros H. unfold truncated. rewrite N.mod_small, Nat2N.id by exact H. apply firstn_all. Qed.

Ltac hold := repeat (apply holds_acquire; [cbn; intuition discriminate|]).
Lemma tlift_ok {R A B} (a : A) (k : A -> T R B) : tbind (tlift (Ok a)) k = k a.
Proof. unfold tbind, tlift. cbn [fst snd app]. destruct (k a). reflexivity. Qed.
(** everything the function can do, once. The API takes lengths of 32 bits: of longer texts
    it is given the beginning. *)
Lemma win_cases_any v key text sig modulus exponent :
  key_1024 key modulus exponent ->
  let r := fst (win_verify_signature v key text sig) in
  let t := snd (win_verify_signature v key text sig) in
  (pv_open_hash v = false /\ r = Throw ExLogic /\ t = []) \/
  (pv_open_hash v = true /\ pv_object_length v && pv_hash_length v = false /\ r = Ok FUNC_RET_NOT_AVAIL /\ all_released t) \/
  (pv_open_hash v = true /\ pv_object_length v && pv_hash_length v = true /\ pv_alloc_object v && pv_alloc_data v = false /\ r = Ok FUNC_RET_BUFFER_TOO_SMALL /\ all_released t) \/
  (pv_open_hash v = true /\ pv_object_length v && pv_hash_length v = true /\ pv_alloc_object v && pv_alloc_data v = true /\
   (pv_create_hash v = false \/ pv_sha256 v (truncated text) = None) /\ r = Ok FUNC_RET_NOT_AVAIL /\ all_released t) \/
  (exists h, hashes v (truncated text) h /\
    ((over_read sig /\ r = Undef UbRead) \/
     (strip_lf sig = bs "==" /\ r = Throw ExLength /\ leaves t [RHash; RHashData; RHashObject; RHashAlg]) \/
     (decodable sig /\ decoded sig = [] /\ r = Undef UbNull) \/
     (decodable sig /\ decoded sig <> [] /\ pv_open_rsa v = false /\ r = Ok FUNC_RET_NOT_AVAIL /\ all_released t) \/
     (decodable sig /\ decoded sig <> [] /\ pv_open_rsa v = true /\ all_released t /\
      r = Ok (if pv_import v exponent modulus && pv_verify v exponent modulus h (truncated (decoded sig)) then FUNC_RET_OK else FUNC_RET_ERROR)))).
Proof.
  intros HK. cbv zeta. pose proof (key_1024_read _ _ _ HK) as RK. unfold win_verify_signature.
  destruct (pv_open_hash v) eqn:E1; cbn [negb]; [|left; repeat split].
  destruct (pv_object_length v && pv_hash_length v) eqn:E2.
  2:{ right; left. split; [reflexivity|]. split; [reflexivity|]. split; [reflexivity|]. cbn. unfold all_released. hold. apply (holds_release [] RHashAlg []). constructor. }
  right. right. destruct (pv_alloc_object v) eqn:E3, (pv_alloc_data v) eqn:E4; cbn [andb negb].
  2:{ left. repeat (split; [reflexivity|]). cbn. unfold all_released, leaves. hold. apply (holds_release [] RHashObject). apply (holds_release [] RHashAlg). constructor. }
  2:{ left. repeat (split; [reflexivity|]). cbn. unfold all_released, leaves. hold. apply (holds_release [] RHashData). apply (holds_release [] RHashAlg). constructor. }
  2:{ left. repeat (split; [reflexivity|]). cbn. unfold all_released, leaves. hold. apply (holds_release [] RHashAlg). constructor. }
  right. destruct (pv_create_hash v) eqn:E5; cbn [negb].
  2:{ left. repeat (split; [reflexivity|]). split; [auto|]. split; [reflexivity|]. cbn. unfold all_released, leaves. hold. apply (holds_release [RHashData] RHashObject). apply (holds_release [] RHashData). apply (holds_release [] RHashAlg). constructor. }
  destruct (pv_sha256 v (truncated text)) as [h|] eqn:E6.
  2:{ left. repeat (split; [reflexivity|]). split; [auto|]. split; [reflexivity|]. cbn. unfold all_released, leaves. hold. apply (holds_release [] RHash). apply (holds_release [RHashData] RHashObject). apply (holds_release [] RHashData). apply (holds_release [] RHashAlg). constructor. }
  right. exists h. split; [apply andb_prop in E2 as [E2 E2']; repeat split; assumption|]. unfold verify_hash.
  destruct (unbase64_outcome sig) as [[HS ->]|[[HS ->]|[HS ->]]].
  - left. split; [exact HS|]. reflexivity.
  - right; left. split; [exact HS|]. split; [reflexivity|]. cbn. unfold all_released, leaves. hold. constructor.
  - right; right. destruct (decoded sig) as [|d0 ds] eqn:ED; [left; split; [exact HS|]; split; reflexivity|]. right. rewrite <- ED in *. assert (NE : decoded sig <> []) by (rewrite ED; discriminate).
    rewrite tlift_ok. replace (match decoded sig with [] => Undef UbNull | _ => Ok tt end) with (Ok tt : res unit) by (rewrite ED; reflexivity). rewrite tlift_ok. clear ED d0 ds.
    destruct (pv_open_rsa v) eqn:E7.
    2:{ left. split; [exact HS|]. split; [exact NE|]. split; [reflexivity|]. split; [reflexivity|]. cbn. unfold all_released, leaves. hold. apply (holds_release [] RHash). apply (holds_release [RHashData] RHashObject). apply (holds_release [] RHashData). apply (holds_release [] RHashAlg). constructor. }
    right. split; [exact HS|]. split; [exact NE|]. split; [reflexivity|]. unfold read_public_key. rewrite RK, tlift_ok.
    unfold seen_exponent, seen_modulus. cbn [kb_exponent kb_modulus]. rewrite !seen_all. destruct (pv_import v exponent modulus) eqn:E8; cbn [andb].
    + cbn. split; [|destruct (pv_verify v exponent modulus h (truncated (decoded sig))); reflexivity]. unfold all_released. hold. apply (holds_release [] RKey). apply (holds_release [] RSignAlg). apply (holds_release [] RHash). apply (holds_release [RHashData] RHashObject). apply (holds_release [] RHashData). apply (holds_release [] RHashAlg). constructor.
    + cbn. split; [|reflexivity]. unfold all_released. hold. apply (holds_release [] RSignAlg). apply (holds_release [] RHash). apply (holds_release [RHashData] RHashObject). apply (holds_release [] RHashData). apply (holds_release [] RHashAlg). constructor.
Qed.
Lemma win_cases v key text sig modulus exponent :
  key_1024 key modulus exponent -> N.of_nat (length text) < 2 ^ 32 -> N.of_nat (length (decoded sig)) < 2 ^ 32 ->
  let r := fst (win_verify_signature v key text sig) in
  let t := snd (win_verify_signature v key text sig) in
  (pv_open_hash v = false /\ r = Throw ExLogic /\ t = []) \/
  (pv_open_hash v = true /\ pv_object_length v && pv_hash_length v = false /\ r = Ok FUNC_RET_NOT_AVAIL /\ all_released t) \/
  (pv_open_hash v = true /\ pv_object_length v && pv_hash_length v = true /\ pv_alloc_object v && pv_alloc_data v = false /\ r = Ok FUNC_RET_BUFFER_TOO_SMALL /\ all_released t) \/
  (pv_open_hash v = true /\ pv_object_length v && pv_hash_length v = true /\ pv_alloc_object v && pv_alloc_data v = true /\
   (pv_create_hash v = false \/ pv_sha256 v text = None) /\ r = Ok FUNC_RET_NOT_AVAIL /\ all_released t) \/
  (exists h, hashes v text h /\
    ((over_read sig /\ r = Undef UbRead) \/
     (strip_lf sig = bs "==" /\ r = Throw ExLength /\ leaves t [RHash; RHashData; RHashObject; RHashAlg]) \/
     (decodable sig /\ decoded sig = [] /\ r = Undef UbNull) \/
     (decodable sig /\ decoded sig <> [] /\ pv_open_rsa v = false /\ r = Ok FUNC_RET_NOT_AVAIL /\ all_released t) \/
     (decodable sig /\ decoded sig <> [] /\ pv_open_rsa v = true /\ all_released t /\
      r = Ok (if pv_import v exponent modulus && pv_verify v exponent modulus h (decoded sig) then FUNC_RET_OK else FUNC_RET_ERROR)))).
Proof. intros HK HT HD. pose proof (win_cases_any v key text sig modulus exponent HK) as C. rewrite (truncated_id text HT), (truncated_id _ HD) in C. exact C. Qed.
Section Verdict.
Variables (v : provider) (key text sig modulus exponent : bytes).
Hypothesis HK : key_1024 key modulus exponent.
Hypothesis HT : N.of_nat (length text) < 2 ^ 32.
Hypothesis HD : N.of_nat (length (decoded sig)) < 2 ^ 32.
Local Notation outcome := (fst (win_verify_signature v key text sig)).
Local Notation history := (snd (win_verify_signature v key text sig)).
Ltac cases := let C := fresh in pose proof (win_cases v key text sig modulus exponent HK HT HD) as C; cbv zeta in C;
  destruct C as [[? [? ?]]|[[? [? [? ?]]]|[[? [? [? [? ?]]]]|[[? [? [? [? [? ?]]]]]|[h [Hh [[Ho Hr]|[[Ho [Hr Hl]]|[[Ho [He Hr]]|[[Ho [He [Hx [Hr Hl]]]]|[Ho [He [Hx [Hl Hr]]]]]]]]]]]]]].
Lemma hashes_fun h h' : hashes v text h -> hashes v text h' -> h = h'.
Proof. intros [_ [_ [_ [_ [_ [_ A]]]]]] [_ [_ [_ [_ [_ [_ B]]]]]]. congruence. Qed.
Ltac nohash := match goal with H : exists h, hashes v text h /\ _ |- _ => destruct H as [? [[? [? [? [? [? [? ?]]]]]] _]] end.
Lemma unready : (pv_open_hash v = false \/ pv_object_length v && pv_hash_length v = false \/ pv_alloc_object v && pv_alloc_data v = false \/ pv_create_hash v = false \/ pv_sha256 v text = None) ->
  forall h, ~ hashes v text h.
Proof.
  intros H h [A [B [C [D [E [F G]]]]]]. rewrite A, B, C, D, E, F, G in H. cbn in H. intuition discriminate.
Qed.

(** accepted exactly when the provider is there and the decoded signature is one of the
    hash of the text under this key *)
Theorem C73_accepts :
  outcome = Ok FUNC_RET_OK <->
  exists h, hashes v text h /\ decodable sig /\ decoded sig <> [] /\ pv_open_rsa v = true /\
            pv_import v exponent modulus = true /\ pv_verify v exponent modulus h (decoded sig) = true.
Proof using HK HT HD.
  split; intros Q.
  - cases; try congruence. exists h. rewrite Hr in Q. destruct (pv_import _ _ _ && _) eqn:E; [|discriminate]. apply andb_prop in E as [E1 E2]. auto 10.
  - destruct Q as [h' [Hh' [[Q0 Q0'] [Q1 [Q2 [Q3 Q4]]]]]]. cases; try (exfalso; revert Hh'; apply unready; tauto); try congruence; try tauto.
    rewrite (hashes_fun _ _ Hh Hh') in Hr. rewrite Q3, Q4 in Hr. exact Hr.
Qed.
(** refused as an error exactly when everything is there and the key or the signature is not good *)
Theorem C73_refuses :
  outcome = Ok FUNC_RET_ERROR <->
  exists h, hashes v text h /\ decodable sig /\ decoded sig <> [] /\ pv_open_rsa v = true /\
            (pv_import v exponent modulus = false \/ pv_verify v exponent modulus h (decoded sig) = false).
Proof using HK HT HD.
  split; intros Q.
  - cases; try congruence. exists h. rewrite Hr in Q. destruct (pv_import _ _ _ && _) eqn:E; [discriminate|]. apply andb_false_iff in E. auto 10.
  - destruct Q as [h' [Hh' [[Q0 Q0'] [Q1 [Q2 Q3]]]]]. cases; try (exfalso; revert Hh'; apply unready; tauto); try congruence; try tauto.
    rewrite (hashes_fun _ _ Hh Hh') in Hr. apply andb_false_iff in Q3. rewrite Q3 in Hr. exact Hr.
Qed.
(** left by an exception exactly when there is no hash provider, or the signature is "==" *)
Theorem C73_throws e :
  outcome = Throw e <->
  (pv_open_hash v = false /\ e = ExLogic) \/ (exists h, hashes v text h /\ strip_lf sig = bs "==" /\ e = ExLength).
Proof using HK HT HD.
  split; intros Q.
  - cases; try congruence; [left; split; [assumption|congruence]|]. right. exists h. split; [exact Hh|]. split; [exact Ho|congruence].
  - destruct Q as [[Q1 Q2]|[h' [Hh' [Q1 Q2]]]].
    + cases; try congruence; destruct Hh as [Hh _]; congruence.
    + cases; try (exfalso; revert Hh'; apply unready; tauto).
      * exfalso. destruct Ho as [_ [Ho _]]. exact (Ho Q1).
      * congruence.
      * exfalso. destruct Ho as [_ Ho]. exact (Ho Q1).
      * exfalso. destruct Ho as [_ Ho]. exact (Ho Q1).
      * exfalso. destruct Ho as [_ Ho]. exact (Ho Q1).
Qed.
(** undefined exactly when the text can be hashed and the signature text is one the
    decoder reads beyond, or decodes to nothing *)
Theorem C73_undefined :
  (exists u, outcome = Undef u) <->
  exists h, hashes v text h /\ (over_read sig \/ (decodable sig /\ decoded sig = [])).
Proof using HK HT HD.
  split; intros Q.
  - destruct Q as [u Q]. cases; try congruence; exists h; auto.
  - destruct Q as [h' [Hh' Q]]. cases; try (exfalso; revert Hh'; apply unready; tauto); try (eexists; eassumption); exfalso.
    + destruct Q as [[_ [Q _]]|[[_ Q] _]]; exact (Q Ho).
    + destruct Q as [Q|[_ Q]]; [destruct Ho as [Ho _]; exact (Ho Q)|exact (He Q)].
    + destruct Q as [Q|[_ Q]]; [destruct Ho as [Ho _]; exact (Ho Q)|exact (He Q)].
Qed.
(** whatever it returns, every handle and heap block is released, once *)
Theorem C73_released r : outcome = Ok r -> all_released history.
Proof using HK HT HD. intros Q. cases; congruence || assumption. Qed.
(** refuted when it is left by an exception: with the signature "==" the hash, its two
    heap blocks and the provider stay behind *)
Theorem C73_leak_refuted h0 : hashes v text h0 -> strip_lf sig = bs "==" ->
  outcome = Throw ExLength /\ leaves history [RHash; RHashData; RHashObject; RHashAlg].
Proof using HK HT HD.
  intros Hh0 Q. cases; try (exfalso; revert Hh0; apply unready; tauto).
  - exfalso. destruct Ho as [_ [Ho _]]. exact (Ho Q).
  - auto.
  - exfalso. destruct Ho as [_ Ho]. exact (Ho Q).
  - exfalso. destruct Ho as [_ Ho]. exact (Ho Q).
  - exfalso. destruct Ho as [_ Ho]. exact (Ho Q).
Qed.
End Verdict.
Print Assumptions C73_accepts. Print Assumptions C73_refuses. Print Assumptions C73_throws. Print Assumptions C73_undefined.
Print Assumptions C73_released. Print Assumptions C73_leak_refuted.

(** a provider whose hash is the text and whose good signature is the hash *)
Definition some_provider : provider :=
  {| pv_open_hash := true; pv_object_length := true; pv_hash_length := true; pv_alloc_object := true; pv_alloc_data := true;
     pv_create_hash := true; pv_sha256 := fun t => Some t; pv_open_rsa := true; pv_import := fun _ _ => true;
     pv_verify := fun e n h s => beqb h s; pv_stack := fun _ => "170"%char |}.
Theorem C73_nonempty :
  key_1024 some_key (odd_modulus 126) ["001"%char; "000"%char; "001"%char] /\
  fst (win_verify_signature some_provider some_key (bs "TEST") (bs "VEVTVA==")) = Ok FUNC_RET_OK /\
  fst (win_verify_signature some_provider some_key (bs "TEST") (bs "VEVTVB==")) = Ok FUNC_RET_OK /\
  fst (win_verify_signature some_provider some_key (bs "TEST") (bs "AEVTVA==")) = Ok FUNC_RET_ERROR /\
  fst (win_verify_signature some_provider some_key (bs "TEST") (bs "==")) = Throw ExLength /\
  fst (win_verify_signature some_provider some_key (bs "TEST") (bs "")) = Undef UbNull /\
  (* a key of 2048 bits is replaced by what is on the stack *)
  fst (win_verify_signature some_provider large_key (bs "TEST") (bs "VEVTVA==")) = Ok FUNC_RET_OK.
Proof.
  split; [|repeat split; vm_compute; reflexivity]. destruct C72_nonempty as [H _]. repeat split; try (vm_compute; (reflexivity || discriminate)).
  exists some_key, []. split; [rewrite app_nil_r; reflexivity|]. exact H.
Qed.
Print Assumptions C73_nonempty.
