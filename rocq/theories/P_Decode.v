(** What the decoder of Base64.v computes, for every text. *)
From Verif Require Import Base CTypes Base64 P_Base Spec_Strings Spec_Base64 P_Base64.

Lemma sextet_eq c : sextet c = unb64 c.
Proof. apply N.eqb_eq. revert c. apply byte_sweep. vm_compute. reflexivity. Qed.
Lemma unb64_lt c : (unb64 c < 64)%N.
Proof. apply N.ltb_lt. revert c. apply byte_sweep. vm_compute. reflexivity. Qed.

Lemma sweep64 (p : N -> N -> bool) : forallb (fun a => forallb (p a) (nrange 64)) (nrange 64) = true ->
  forall a b, (a < 64)%N -> (b < 64)%N -> p a b = true.
Proof.
  intros H a b Ha Hb. rewrite forallb_forall in H. specialize (H a (nrange_in 64 a Ha)). rewrite forallb_forall in H. exact (H b (nrange_in 64 b Hb)).
Qed.
Definition bit (n : N) (k : N) : bool := N.testbit n k.
Lemma octet0 A B : (A < 64)%N -> (B < 64)%N ->
  ascii_of_N (number 0 [bit A 5; bit A 4; bit A 3; bit A 2; bit A 1; bit A 0; bit B 5; bit B 4]) = dec0 A B.
Proof.
  intros HA HB. apply Ascii.eqb_eq. revert A B HA HB. apply sweep64. vm_compute. reflexivity.
Qed.
Lemma octet1 B C : (B < 64)%N -> (C < 64)%N ->
  ascii_of_N (number 0 [bit B 3; bit B 2; bit B 1; bit B 0; bit C 5; bit C 4; bit C 3; bit C 2]) = dec1 B C.
Proof.
  intros HA HB. apply Ascii.eqb_eq. revert B C HA HB. apply sweep64. vm_compute. reflexivity.
Qed.
Lemma octet2 C D : (C < 64)%N -> (D < 64)%N ->
  ascii_of_N (number 0 [bit C 1; bit C 0; bit D 5; bit D 4; bit D 3; bit D 2; bit D 1; bit D 0]) = dec2 C D.
Proof.
  intros HA HB. apply Ascii.eqb_eq. revert C D HA HB. apply sweep64. vm_compute. reflexivity.
Qed.

Definition bit_text (s : bytes) : list bool := concat (map (fun c => bits_of 6 (sextet c)) s).
Lemma octets_quad k A B C D rest : (A < 64)%N -> (B < 64)%N -> (C < 64)%N -> (D < 64)%N ->
  octets (3 + k) (bits_of 6 A ++ bits_of 6 B ++ bits_of 6 C ++ bits_of 6 D ++ rest) = dec0 A B :: dec1 B C :: dec2 C D :: octets k rest.
Proof.
  intros HA HB HC HD. rewrite <- octet0, <- octet1, <- octet2 by assumption. reflexivity.
Qed.
Lemma octets_quads q : forall j k rest, length q = 4 * k -> octets (3 * k + j) (bit_text q ++ rest) = dec_quads q ++ octets j rest.
Proof.
  intros j k. revert q. induction k as [|k IH]; intros q rest H.
  - destruct q; [reflexivity|discriminate].
  - destruct q as [|a [|b [|c [|d q]]]]; cbn [length] in H; try lia.
    unfold bit_text. cbn [map concat]. rewrite <- !app_assoc. replace (3 * S k + j) with (3 + (3 * k + j)) by lia.
    rewrite octets_quad by (rewrite sextet_eq; apply unb64_lt). rewrite !sextet_eq. cbn [dec_quads app]. do 3 f_equal. apply IH. lia.
Qed.
Lemma bit_text_app a b : bit_text (a ++ b) = bit_text a ++ bit_text b.
Proof. unfold bit_text. rewrite map_app, concat_app. reflexivity. Qed.

Lemma octets_two a b r : octets 2 (bit_text (a :: b :: r)) = [dec0 (unb64 a) (unb64 b); dec1 (unb64 b) (unb64 (nth 0 r NUL))].
Proof.
  rewrite <- octet0, <- octet1 by apply unb64_lt. rewrite <- !sextet_eq. destruct r as [|c r]; [|reflexivity]. cbn [nth]. reflexivity.
Qed.
Lemma octets_one a b r : octets 1 (bit_text (a :: b :: r)) = [dec0 (unb64 a) (unb64 b)].
Proof. rewrite <- octet0 by apply unb64_lt. rewrite <- !sextet_eq. reflexivity. Qed.

Lemma str_at_tail s k i c r : skipn k s = r -> nth_error r i = Some c -> str_at s (k + i) = Ok c.
Proof. intros <- H. apply str_at_ok. rewrite <- H. symmetry. clear. revert s. induction k as [|k IH]; intros s; [reflexivity|]. destruct s; [cbn; destruct i; reflexivity|]. cbn. apply IH. Qed.

Lemma core_decoded s : ~ (length s < 4 + pad_count s \/ (pad_count s = 1 /\ length s mod 4 = 1)) -> 2 <= length s ->
  unbase64_core s = Ok (octets (3 * ((length s - pad_count s) / 4) + match pad_count s with 1 => 2 | 2 => 1 | _ => 0 end) (bit_text s)).
Proof.
  intros HN H2. pose proof (pad_le s) as Hp.
  assert (Hl : 4 + pad_count s <= length s) by lia.
  destruct (unbase64_loop s (pad_count s) Hl Hp) as [k [K1 [K2 [K3 [K4 E]]]]].
  assert (Ek : (length s - pad_count s) / 4 = k) by (symmetry; apply (Nat.div_unique _ 4 k (length s - pad_count s - 4 * k)); lia). rewrite Ek.
  assert (Q : forall j, octets (3 * k + j) (bit_text s) = dec_quads (firstn (4 * k) s) ++ octets j (bit_text (skipn (4 * k) s))).
  { intros j. rewrite <- (firstn_skipn (4 * k) s) at 1. rewrite bit_text_app. apply octets_quads. rewrite firstn_length. lia. }
  rewrite Q. unfold unbase64_core. destruct (Nat.ltb_spec (length s) 2); [lia|].
  assert (H3 : 2 <= 3 * length s / 4) by (apply Nat.div_le_lower_bound; lia).
  destruct (Nat.ltb_spec (3 * length s / 4) (pad_count s)); [lia|]. cbv zeta. rewrite E. cbn [rbind].
  assert (Hdm : length s = 4 * (length s / 4) + length s mod 4) by (apply Nat.div_mod; lia).
  assert (Hmu : length s mod 4 < 4) by (apply Nat.mod_upper_bound; lia).
  assert (Lt : length (skipn (4 * k) s) = length s - 4 * k) by apply skipn_length.
  assert (T : pad_count s = 1 \/ pad_count s = 2 -> exists a b r, skipn (4 * k) s = a :: b :: r).
  { intros HP. destruct (skipn (4 * k) s) as [|a [|b r]]; [cbn in Lt; lia|cbn in Lt; lia|eauto]. }
  destruct (Nat.eqb_spec (pad_count s) 1) as [P1|P1].
  - destruct T as [a [b [r T]]]; [auto|]. rewrite P1. rewrite T, octets_two.
    rewrite <- (Nat.add_0_r (4 * k)) at 1. rewrite (str_at_tail s (4 * k) 0 a _ T eq_refl), (str_at_tail s (4 * k) 1 b _ T eq_refl). cbn [rbind].
    destruct r as [|c r].
    + assert (L2 : 4 * k + 2 = length s) by (rewrite T in Lt; cbn in Lt; lia). rewrite L2. unfold str_at. rewrite (proj2 (nth_error_None s (length s))) by lia. rewrite Nat.eqb_refl. reflexivity.
    + rewrite (str_at_tail s (4 * k) 2 c _ T eq_refl). reflexivity.
  - destruct (Nat.eqb_spec (pad_count s) 2) as [P2|P2].
    + destruct T as [a [b [r T]]]; [auto|]. rewrite P2. rewrite T, octets_one.
      rewrite <- (Nat.add_0_r (4 * k)) at 1. rewrite (str_at_tail s (4 * k) 0 a _ T eq_refl), (str_at_tail s (4 * k) 1 b _ T eq_refl). reflexivity.
    + assert (P0 : pad_count s = 0) by lia. rewrite P0. cbn [octets]. rewrite app_nil_r. reflexivity.
Qed.

(** the outcome for every text *)
Lemma unbase64_outcome text :
  (over_read text /\ unbase64 text = Undef UbRead) \/
  (strip_lf text = bs "==" /\ unbase64 text = Throw ExLength) \/
  (decodable text /\ unbase64 text = Ok (decoded text)).
Proof.
  unfold decodable, over_read, decoded. rewrite unbase64_strip. generalize (strip_lf text). intros s. cbv zeta. destruct (unbase64_cases s) as [[H1 H2]|[[H1 H2]|[H1 [H2 [[H3 H4]|[H3 [out H4]]]]]]].
  - right; right. split; [split; [lia|intros ->; cbn in H1; lia]|]. rewrite H2. destruct (Nat.ltb_spec (length s) 2); [reflexivity|lia].
  - right; left. auto.
  - left. auto.
  - right; right. split; [split; [tauto|exact H2]|]. destruct (Nat.ltb_spec (length s) 2); [lia|]. apply core_decoded; [exact H3|exact H1].
Qed.
Lemma unbase64_ok text raw : unbase64 text = Ok raw <-> decodable text /\ raw = decoded text.
Proof.
  destruct (unbase64_outcome text) as [[H E]|[[H E]|[H E]]]; rewrite E; split.
  - discriminate.
  - intros [[H2 _] _]. exfalso. exact (H2 H).
  - discriminate.
  - intros [[_ H2] _]. exfalso. exact (H2 H).
  - intros [= <-]. auto.
  - intros [_ ->]. reflexivity.
Qed.
