(** Division of doubles followed by rounding to an integer is exact division
    followed by rounding, in the range of int. *)
From Verif Require Import Base Doubles.
From Coq Require Import ZArith Lia Bool Floats.SpecFloat.
Local Open Scope Z_scope.

Lemma digits_bounds m : 2 ^ (Zpos (digits2_pos m) - 1) <= Zpos m < 2 ^ Zpos (digits2_pos m).
Proof.
  induction m as [m IH|m IH|]; cbn [digits2_pos].
  - rewrite Pos2Z.inj_succ. replace (Z.succ (Zpos (digits2_pos m)) - 1) with (Z.succ (Zpos (digits2_pos m) - 1)) by lia.
    rewrite !Z.pow_succ_r by lia. lia.
  - rewrite Pos2Z.inj_succ. replace (Z.succ (Zpos (digits2_pos m)) - 1) with (Z.succ (Zpos (digits2_pos m) - 1)) by lia.
    rewrite !Z.pow_succ_r by lia. lia.
  - cbn. lia.
Qed.
Lemma digits_unique m d : 0 < m -> 0 < d -> 2 ^ (d - 1) <= m < 2 ^ d -> Zdigits2 m = d.
Proof.
  intros Hm Hd B. destruct m as [|m|m]; try lia. cbn [Zdigits2]. assert (D := digits_bounds m). set (k := Zpos (digits2_pos m)) in *. assert (0 < k) by (subst k; lia).
  destruct (Z.lt_trichotomy k d) as [L|[L|L]]; [|exact L|].
  - assert (2 ^ k <= 2 ^ (d - 1)) by (apply Z.pow_le_mono_r; lia). lia.
  - assert (2 ^ d <= 2 ^ (k - 1)) by (apply Z.pow_le_mono_r; lia). lia.
Qed.

(** [x] with its two extra bits stands for the fraction a/b *)
Definition bits_of (x : shr_record) (a b : Z) : Prop :=
  exists k, a = shr_m x * b + k /\ 0 <= k < b /\ shr_r x = (b <=? 2 * k) /\ shr_s x = negb ((k =? 0) || (2 * k =? b)).
Lemma shr_1_bits x a b : 0 <= shr_m x -> bits_of x a b -> bits_of (shr_1 x) a (2 * b) /\ 0 <= shr_m (shr_1 x).
Proof.
  intros Hx [k [Ha [Hk [Hr Hs]]]]. destruct x as [m r s]. cbn [shr_m shr_r shr_s] in *.
  assert (HS : r || s = negb (k =? 0)).
  { subst r s. destruct (Z.leb_spec b (2 * k)), (Z.eqb_spec k 0), (Z.eqb_spec (2 * k) b); cbn; try reflexivity; lia. }
  unfold bits_of. destruct m as [|[p|p|]|m]; cbn [shr_1]; try rewrite HS; cbn [shr_m shr_r shr_s]; (split; [|lia]).
  - exists k. split; [lia|]. split; [lia|]. split; [symmetry; apply Z.leb_gt; lia|]. f_equal. destruct (Z.eqb_spec k 0), (Z.eqb_spec (2 * k) (2 * b)); cbn; try reflexivity; lia.
  - exists (b + k). split; [lia|]. split; [lia|]. split; [symmetry; apply Z.leb_le; lia|]. f_equal. destruct (Z.eqb_spec k 0), (Z.eqb_spec (b + k) 0), (Z.eqb_spec (2 * (b + k)) (2 * b)); cbn; try reflexivity; lia.
  - exists k. split; [lia|]. split; [lia|]. split; [symmetry; apply Z.leb_gt; lia|]. f_equal. destruct (Z.eqb_spec k 0), (Z.eqb_spec (2 * k) (2 * b)); cbn; try reflexivity; lia.
  - exists (b + k). split; [lia|]. split; [lia|]. split; [symmetry; apply Z.leb_le; lia|]. f_equal. destruct (Z.eqb_spec k 0), (Z.eqb_spec (b + k) 0), (Z.eqb_spec (2 * (b + k)) (2 * b)); cbn; try reflexivity; lia.
  - lia.
Qed.
Lemma shr_iter_bits n : forall x a b, 0 <= shr_m x -> bits_of x a b ->
  bits_of (iter_pos shr_1 n x) a (2 ^ Zpos n * b) /\ 0 <= shr_m (iter_pos shr_1 n x).
Proof.
  induction n as [n IH|n IH|]; intros x a b Hx H; cbn [iter_pos].
  - destruct (shr_1_bits x a b Hx H) as [H1 P1]. destruct (IH _ _ _ P1 H1) as [H2 P2]. destruct (IH _ _ _ P2 H2) as [H3 P3]. split; [|exact P3].
    replace (2 ^ Zpos n~1 * b) with (2 ^ Zpos n * (2 ^ Zpos n * (2 * b))); [exact H3|].
    replace (Zpos n~1) with (Zpos n + Zpos n + 1) by lia. rewrite !Z.pow_add_r by lia. change (2 ^ 1) with 2. ring.
  - destruct (IH _ _ _ Hx H) as [H2 P2]. destruct (IH _ _ _ P2 H2) as [H3 P3]. split; [|exact P3].
    replace (2 ^ Zpos n~0 * b) with (2 ^ Zpos n * (2 ^ Zpos n * b)); [exact H3|].
    replace (Zpos n~0) with (Zpos n + Zpos n) by lia. rewrite !Z.pow_add_r by lia. ring.
  - apply shr_1_bits; assumption.
Qed.
Lemma shr_bits x e n a b : 0 <= n -> 0 <= shr_m x -> bits_of x a b ->
  bits_of (fst (shr x e n)) a (2 ^ n * b) /\ 0 <= shr_m (fst (shr x e n)) /\ snd (shr x e n) = e + n.
Proof.
  intros Hn Hx H. destruct n as [|n|n]; [| |lia]; cbn [shr fst snd].
  - change (2 ^ 0) with 1. rewrite Z.mul_1_l. split; [exact H|]. split; [exact Hx|lia].
  - destruct (shr_iter_bits n x a b Hx H) as [A B]. auto.
Qed.

(** the nearest integer to a/b *)
Definition near (r a b : Z) : Prop := Z.abs (2 * (r * b - a)) <= b.
Lemma nearest_near x a b : bits_of x a b -> near (round_nearest_even (shr_m x) (loc_of_shr_record x)) a b /\
  shr_m x <= round_nearest_even (shr_m x) (loc_of_shr_record x) <= shr_m x + 1.
Proof.
  intros [k [Ha [Hk [Hr Hs]]]]. destruct x as [m r s]. cbn [shr_m shr_r shr_s loc_of_shr_record] in *. unfold near.
  assert (m * b <= a < (m + 1) * b) by lia. subst a.
  destruct (Z.leb_spec b (2 * k)) as [L|L], (Z.eqb_spec k 0) as [K|K], (Z.eqb_spec (2 * k) b) as [E|E]; subst r s; cbn [orb negb round_nearest_even]; try lia; try (split; [|lia]; apply Z.abs_le; lia).
  destruct (Z.even m); split; try lia; apply Z.abs_le; lia.
Qed.

(** What [binary_round_aux] computes from (mx, lx) standing for a/b, with at least 53
    digits and no underflow *)
Definition loc_bits (m : Z) (l : location) (a b : Z) : Prop := bits_of (shr_record_of_loc m l) a b.
Definition value (m : positive) (e r f : Z) : Prop := (Zpos m = r /\ r < 2 ^ 53 /\ e = f) \/ (r = 2 ^ 53 /\ Zpos m = 2 ^ 52 /\ e = f + 1).
Lemma round_aux_spec m e l a b : 0 < b -> loc_bits m l a b -> 53 <= Zdigits2 m -> 0 < m -> emin 53 1024 <= e ->
  exists j r, 0 <= j /\ near r a (2 ^ j * b) /\ 2 ^ 52 * (2 ^ j * b) <= a < 2 ^ 53 * (2 ^ j * b) /\ 2 ^ 52 <= r <= 2 ^ 53 /\
    exists p f, value p f r (e + j) /\
      forall s, binary_round_aux 53 1024 s m e l = if Zle_bool f 971 then S754_finite s p f else S754_infinity s.
Proof.
  intros Hb HL Hd Hm He. unfold binary_round_aux.
  set (d := Zdigits2 m) in *. assert (Hshift : fexp 53 1024 (d + e) - e = d - 53) by (unfold fexp; lia).
  assert (Sm : shr_m (shr_record_of_loc m l) = m) by (destruct l as [|[]]; reflexivity).
  unfold shr_fexp at 1. fold d. rewrite Hshift.
  destruct (shr_bits (shr_record_of_loc m l) e (d - 53) a b ltac:(lia) ltac:(rewrite Sm; lia) HL) as [HB [HP HE]].
  destruct (shr (shr_record_of_loc m l) e (d - 53)) as [x e1]. cbn [fst snd] in HB, HP, HE. subst e1.
  assert (Dm : 2 ^ (d - 1) <= m < 2 ^ d) by (unfold d; destruct m as [|m|m]; try lia; apply digits_bounds).
  assert (Ham : m * b <= a < (m + 1) * b) by (destruct HL as [k [Ha [Hk _]]]; rewrite Sm in Ha; nia).
  assert (P1 : 2 ^ (d - 1) = 2 ^ 52 * 2 ^ (d - 53)) by (rewrite <- Z.pow_add_r by lia; f_equal; lia).
  assert (P2 : 2 ^ d = 2 ^ 53 * 2 ^ (d - 53)) by (rewrite <- Z.pow_add_r by lia; f_equal; lia).
  set (J := 2 ^ (d - 53)) in *. assert (HJ : 0 < J) by (apply Z.pow_pos_nonneg; lia).
  assert (HA : 2 ^ 52 * (J * b) <= a < 2 ^ 53 * (J * b)).
  { split; [apply Z.le_trans with (m * b); [rewrite Z.mul_assoc; apply Z.mul_le_mono_nonneg_r; lia|lia]|].
    apply Z.lt_le_trans with ((m + 1) * b); [lia|]. rewrite Z.mul_assoc. apply Z.mul_le_mono_nonneg_r; lia. }
  assert (HX : 2 ^ 52 <= shr_m x < 2 ^ 53).
  { destruct HB as [k [Ha [Hk _]]]. assert (0 < J * b) by lia. split; [|nia]. assert (2 ^ 52 * (J * b) < (shr_m x + 1) * (J * b)) by nia. nia. }
  destruct (nearest_near x a (J * b) HB) as [HN HR]. set (r := round_nearest_even (shr_m x) (loc_of_shr_record x)) in *.
  exists (d - 53), r. split; [lia|]. split; [exact HN|]. split; [exact HA|]. split; [lia|].
  assert (C : r < 2 ^ 53 \/ r = 2 ^ 53) by lia. destruct C as [C|C].
  - assert (D : Zdigits2 r = 53) by (apply digits_unique; cbn in *; lia). unfold shr_fexp. rewrite D.
    replace (fexp 53 1024 (53 + (e + (d - 53))) - (e + (d - 53))) with 0 by (unfold fexp; lia). cbn [shr shr_record_of_loc shr_m].
    destruct r as [|p|p]; try lia. exists p, (e + (d - 53)). split; [left; split; [reflexivity|split; [exact C|reflexivity]]|]. intros s. reflexivity.
  - assert (D : Zdigits2 r = 54) by (apply digits_unique; cbn in *; lia). unfold shr_fexp. rewrite D.
    replace (fexp 53 1024 (54 + (e + (d - 53))) - (e + (d - 53))) with 1 by (unfold fexp; lia). rewrite C.
    exists (2 ^ 52)%positive, (e + (d - 53) + 1). split; [right; auto|]. intros s. reflexivity.
Qed.

Lemma shift_pos_mul d m : Zpos (shift_pos d m) = Zpos m * 2 ^ Zpos d.
Proof. rewrite Zpower.shift_pos_correct, Z.mul_comm. reflexivity. Qed.
Lemma exact_bits m : loc_bits m loc_Exact m 1.
Proof. exists 0. cbn. lia. Qed.
Lemma value_bounds p f r g : value p f r g -> 2 ^ 52 <= r <= 2 ^ 53 -> 2 ^ 52 <= Zpos p < 2 ^ 53 /\ g <= f.
Proof. intros [[H1 [H2 H3]]|[H1 [H2 H3]]] Hr; cbn in *; lia. Qed.

(** an integer as a double *)
Lemma double_of_pos m : exists p f, (forall s : bool, double_of (if s then Zneg m else Zpos m) = if Zle_bool f 971 then S754_finite s p f else S754_infinity s) /\
  2 ^ 52 <= Zpos p < 2 ^ 53 /\ ((-52 <= f <= 0 /\ Zpos p = Zpos m * 2 ^ (- f)) \/ (1 <= f /\ 2 ^ 53 <= Zpos m)).
Proof.
  set (d := Zpos (digits2_pos m)). assert (D := digits_bounds m). fold d in D.
  assert (HS : forall s : bool, double_of (if s then Zneg m else Zpos m) = binary_round 53 1024 s m 0) by (intros []; reflexivity).
  unfold binary_round in HS. fold d in HS. unfold shl_align in HS.
  assert (HF : fexp 53 1024 (d + 0) - 0 = d - 53) by (unfold fexp, emin; lia). rewrite HF in HS.
  assert (C : d <= 53 \/ 54 <= d) by lia. destruct C as [C|C].
  - assert (A : exists mz, (forall s : bool, double_of (if s then Zneg m else Zpos m) = binary_round_aux 53 1024 s (Zpos mz) (d - 53) loc_Exact) /\ Zpos mz = Zpos m * 2 ^ (53 - d)).
    { assert (d = 53 \/ d < 53) as [E|E] by lia.
      - exists m. rewrite E in *. change (53 - 53) with 0 in *. split; [exact HS|]. change (2 ^ 0) with 1. lia.
      - remember (d - 53) as k eqn:Ek. destruct k as [|k|k]; try lia. exists (shift_pos k m). split; [intros s; rewrite HS; f_equal; unfold fexp, emin; lia|].
        rewrite shift_pos_mul. f_equal. f_equal. lia. }
    destruct A as [mz [HS' Hmz]]. clear HS HF.
    assert (P0 : 2 ^ 52 = 2 ^ (d - 1) * 2 ^ (53 - d)) by (rewrite <- Z.pow_add_r by (subst d; lia); f_equal; lia).
    assert (P1 : 2 ^ 53 = 2 ^ d * 2 ^ (53 - d)) by (rewrite <- Z.pow_add_r by (subst d; lia); f_equal; lia).
    assert (PP : 0 < 2 ^ (53 - d)) by (apply Z.pow_pos_nonneg; lia).
    assert (B : 2 ^ 52 <= Zpos mz < 2 ^ 53) by (rewrite Hmz, P0, P1; nia). clear P0 P1.
    destruct (round_aux_spec (Zpos mz) (d - 53) loc_Exact (Zpos mz) 1) as [j [r [Hj [HN [HA [HR [p [f [HV HE]]]]]]]]].
    + lia.
    + apply exact_bits.
    + rewrite (digits_unique (Zpos mz) 53); cbn in *; lia.
    + lia.
    + unfold emin. subst d. lia.
    + assert (j = 0). { assert (j = 0 \/ 1 <= j) as [|J] by lia; [assumption|]. assert (H : 2 ^ 1 <= 2 ^ j) by (apply Z.pow_le_mono_r; lia). clear - H HA B. rewrite Z.mul_1_r in HA. destruct HA as [HA _]. revert H HA B. generalize (2 ^ j) as x. change (2 ^ 1) with 2. change (2 ^ 52) with 4503599627370496. change (2 ^ 53) with 9007199254740992. intros. lia. }
      subst j. unfold near in HN. change (2 ^ 0 * 1) with 1 in *. assert (r = Zpos mz) by lia. subst r.
      exists p, f. split; [intros s; rewrite HS'; apply HE|]. destruct (value_bounds _ _ _ _ HV HR) as [V1 V2]. split; [exact V1|]. left.
      destruct HV as [[V3 [V4 V5]]|[V3 _]]; [|lia]. assert (0 < d) by (subst d; lia). split; [lia|]. rewrite V3, Hmz. f_equal. f_equal. lia.
  - assert (HS' : forall s : bool, double_of (if s then Zneg m else Zpos m) = binary_round_aux 53 1024 s (Zpos m) 0 loc_Exact).
    { intros s. rewrite HS. destruct (d - 53) eqn:E; try lia; reflexivity. }
    clear HS HF. assert (B : 2 ^ 53 <= Zpos m) by (assert (2 ^ 53 <= 2 ^ (d - 1)) by (apply Z.pow_le_mono_r; lia); lia).
    destruct (round_aux_spec (Zpos m) 0 loc_Exact (Zpos m) 1) as [j [r [Hj [HN [HA [HR [p [f [HV HE]]]]]]]]].
    + lia.
    + apply exact_bits.
    + cbn [Zdigits2]. fold d. lia.
    + lia.
    + unfold emin. lia.
    + exists p, f. split; [intros s; rewrite HS'; apply HE|]. destruct (value_bounds _ _ _ _ HV HR) as [V1 V2]. split; [exact V1|]. right. split; [|exact B].
      assert (j = 0 \/ 1 <= j) as [J|J] by lia; [|lia]. subst j. cbn in HA. cbn in B. lia.
Qed.

(** the quotient *)
Definition day : positive := (86400 * 2 ^ 36)%positive.
Lemma day_double : double_of 86400 = S754_finite false day (-36).
Proof. vm_compute. reflexivity. Qed.
Lemma day_location a : 0 <= a -> loc_bits (a / Zpos day) (new_location (Zpos day) (a mod Zpos day)) a (Zpos day).
Proof.
  intros Ha. set (b := Zpos day). assert (Hb : 0 < b) by (subst b; lia). assert (Hm := Z.mod_pos_bound a b Hb). assert (Hd := Z.div_mod a b ltac:(lia)).
  set (k := a mod b) in *. set (q := a / b) in *. exists k.
  assert (Hq : shr_m (shr_record_of_loc q (new_location b k)) = q) by (destruct (new_location b k) as [|[]]; reflexivity).
  split; [rewrite Hq; lia|]. split; [exact Hm|]. unfold new_location. change (Z.even b) with true. unfold new_location_even.
  assert (K : Zeq_bool k 0 = (k =? 0)) by (unfold Zeq_bool; rewrite Z.eqb_compare; reflexivity). rewrite K.
  destruct (Z.eqb_spec k 0) as [E|E]; [rewrite E; cbn [shr_record_of_loc shr_r shr_s]; split; [symmetry; apply Z.leb_gt; lia|reflexivity]|].
  destruct (Z.compare_spec (2 * k) b) as [C|C|C]; cbn [shr_record_of_loc shr_r shr_s].
  - split; [symmetry; apply Z.leb_le; lia|]. replace (2 * k =? b) with true by (symmetry; apply Z.eqb_eq; exact C). reflexivity.
  - split; [symmetry; apply Z.leb_gt; lia|]. replace (2 * k =? b) with false by (symmetry; apply Z.eqb_neq; lia). reflexivity.
  - split; [symmetry; apply Z.leb_le; lia|]. replace (2 * k =? b) with false by (symmetry; apply Z.eqb_neq; lia). reflexivity.
Qed.
Lemma double_div_day p f : 2 ^ 52 <= Zpos p < 2 ^ 53 -> -52 <= f ->
  exists j r P F, 0 <= j /\ near r (Zpos p * 2 ^ 53) (2 ^ j * Zpos day) /\ 2 ^ 52 * (2 ^ j * Zpos day) <= Zpos p * 2 ^ 53 < 2 ^ 53 * (2 ^ j * Zpos day) /\
    2 ^ 52 <= r <= 2 ^ 53 /\ value P F r (f - 17 + j) /\
    forall s : bool, double_div (S754_finite s p f) (S754_finite false day (-36)) = if Zle_bool F 971 then S754_finite s P F else S754_infinity s.
Proof.
  intros Hp Hf. unfold double_div, SFdiv, SFdiv_core_binary.
  rewrite (digits_unique (Zpos p) 53) by (cbn in *; lia). change (Zdigits2 (Zpos day)) with 53.
  replace (Z.min (fexp 53 1024 (53 + f - (53 + -36))) (f - -36)) with (f - 17) by (unfold fexp, emin; lia).
  replace (f - -36 - (f - 17)) with 53 by lia. cbv beta iota zeta. rewrite Z.shiftl_mul_pow2 by lia.
  set (a := Zpos p * 2 ^ 53). assert (Ha : 0 <= a) by (subst a; lia). assert (HL := day_location a Ha).
  unfold Z.div in HL. unfold Z.modulo in HL. destruct (Z.div_eucl a (Zpos day)) as [q k] eqn:EQ.
  assert (Hq : q = a / Zpos day) by (unfold Z.div; rewrite EQ; reflexivity).
  assert (Q : 2 ^ 52 <= q). { rewrite Hq. apply Z.div_le_lower_bound; [lia|]. subst a. change (Zpos day) with 5937362789990400. cbn in *. lia. }
  destruct (round_aux_spec q (f - 17) (new_location (Zpos day) k) a (Zpos day)) as [j [r [Hj [HN [HA [HR [P [F [HV HE]]]]]]]]].
  - lia.
  - exact HL.
  - assert (0 < q) by (cbn in Q; lia). destruct q as [|q|q]; try lia. cbn [Zdigits2]. assert (D := digits_bounds q). set (d := Zpos (digits2_pos q)) in *.
    assert (53 <= d \/ d <= 52) as [|C] by lia; [assumption|]. assert (2 ^ d <= 2 ^ 52) by (apply Z.pow_le_mono_r; lia). lia.
  - cbn in Q. lia.
  - unfold emin. lia.
  - exists j, r, P, F. repeat (split; [assumption|]). intros s. rewrite <- HE. destruct s; reflexivity.
Qed.

(** rounding to an integer *)
Lemma value_round s P F r K : value P F r (- K) -> 1 <= K -> 2 ^ 52 <= r ->
  double_round (S754_finite s P F) = Some (let q := (2 * r + 2 ^ K) / (2 * 2 ^ K) in if s then - q else q).
Proof.
  intros V HK Hr. cbn [double_round]. destruct V as [[E [_ ->]]|[E1 [E2 ->]]].
  - replace (0 <=? - K) with false by (symmetry; apply Z.leb_gt; lia). rewrite Z.opp_involutive, E. reflexivity.
  - destruct (Z.leb_spec 0 (- K + 1)) as [L|L].
    + assert (K = 1) by lia. subst K. rewrite E1, E2. reflexivity.
    + replace (- (- K + 1)) with (K - 1) by lia.
      assert (PK : 2 ^ K = 2 * 2 ^ (K - 1)) by (rewrite <- Z.pow_succ_r by lia; f_equal; lia).
      assert (PP : 0 < 2 ^ (K - 1)) by (apply Z.pow_pos_nonneg; lia).
      assert (X : (2 * Zpos P + 2 ^ (K - 1)) / (2 * 2 ^ (K - 1)) = (2 * r + 2 ^ K) / (2 * 2 ^ K)).
      { rewrite E1, E2, PK. replace (2 * 2 ^ 53 + 2 * 2 ^ (K - 1)) with (2 * (2 * 2 ^ 52 + 2 ^ (K - 1))) by lia.
        rewrite Z.div_mul_cancel_l by lia. reflexivity. }
      rewrite X. reflexivity.
Qed.
Lemma value_big s P F r E : value P F r E -> -16 <= E -> 2 ^ 52 <= r -> exists z, double_round (S754_finite s P F) = Some (if s then - z else z) /\ 2 ^ 36 <= z.
Proof.
  intros V HE Hr. assert (HP : 2 ^ 52 <= Zpos P) by (destruct V as [[E1 _]|[_ [E1 _]]]; lia). assert (HF : -16 <= F) by (destruct V as [[_ [_ E1]]|[_ [_ E1]]]; lia).
  cbn [double_round]. eexists. split; [reflexivity|]. destruct (Z.leb_spec 0 F) as [L|L].
  - assert (2 ^ 0 <= 2 ^ F) by (apply Z.pow_le_mono_r; lia). change (2 ^ 0) with 1 in *. change (2 ^ 52) with (2 ^ 36 * 2 ^ 16) in HP. nia.
  - assert (0 < 2 ^ (- F)) by (apply Z.pow_pos_nonneg; lia). assert (2 ^ (- F) <= 2 ^ 16) by (apply Z.pow_le_mono_r; lia).
    apply Z.div_le_lower_bound; [lia|]. change (2 ^ 52) with (2 ^ 36 * 2 ^ 16) in HP. nia.
Qed.

(** dividing by a day in double arithmetic and rounding *)
Lemma days_abs (s : bool) m : let D := (2 * Zpos m + 86400) / 172800 in let x := double_div (double_of (if s then Zneg m else Zpos m)) (double_of 86400) in
  double_round x = Some (if s then - D else D) \/
  (2 ^ 36 <= D /\ (double_round x = None \/ exists z, double_round x = Some (if s then - z else z) /\ 2 ^ 36 <= z)).
Proof.
  cbv zeta. set (D := (2 * Zpos m + 86400) / 172800). rewrite day_double. destruct (double_of_pos m) as [p [f [HD [Hp HC]]]]. rewrite HD.
  assert (HM := Z.mod_pos_bound (2 * Zpos m + 86400) 172800 ltac:(lia)). assert (HQ := Z.div_mod (2 * Zpos m + 86400) 172800 ltac:(lia)). fold D in HQ.
  set (rem := (2 * Zpos m + 86400) mod 172800) in *.
  destruct HC as [[Hf HC]|[Hf HC]].
  2:{ right. split; [cbn in HC |- *; lia|]. destruct (Zle_bool f 971); [|left; reflexivity].
      destruct (double_div_day p f Hp ltac:(lia)) as [j [r [P [F [Hj [_ [_ [Hr [V HE]]]]]]]]]. rewrite HE. destruct (Zle_bool F 971); [|left; reflexivity].
      right. eapply value_big; [exact V|lia|lia]. }
  assert (HL : Zle_bool f 971 = true) by (apply Zle_imp_le_bool; lia). rewrite HL.
  destruct (double_div_day p f Hp ltac:(lia)) as [j [r [P [F [Hj [HN [HA [Hr [V HE]]]]]]]]]. rewrite HE.
  (* the common factor 2^(36+j) *)
  assert (E1 : Zpos p * 2 ^ 53 = Zpos m * 2 ^ (53 - f)). { rewrite HC, <- Z.mul_assoc, <- Z.pow_add_r by lia. f_equal. f_equal. lia. }
  assert (E2 : 2 ^ j * Zpos day = 86400 * 2 ^ (36 + j)). { rewrite Z.pow_add_r by lia. change (Zpos day) with (86400 * 2 ^ 36). ring. }
  rewrite E1, E2 in HA. unfold near in HN. rewrite E1, E2 in HN. clear E1 E2.
  assert (C : f - 17 + j <= -17 \/ -16 <= f - 17 + j) by lia. destruct C as [C|C].
  - left. set (K := 17 - f - j) in *. assert (HK : 17 <= K) by lia. replace (f - 17 + j) with (- K) in V by lia.
    assert (HF : Zle_bool F 971 = true) by (apply Zle_imp_le_bool; destruct V as [[_ [_ V]]|[_ [_ V]]]; lia). rewrite HF.
    rewrite (value_round s P F r K V) by lia. cbv zeta. f_equal.
    assert (X : (2 * r + 2 ^ K) / (2 * 2 ^ K) = D); [|rewrite X; reflexivity].
    assert (E : 2 ^ (53 - f) = 2 ^ K * 2 ^ (36 + j)) by (rewrite <- Z.pow_add_r by lia; f_equal; lia). rewrite E in HN.
    set (c := 2 ^ (36 + j)) in *. assert (Hc : 0 < c) by (apply Z.pow_pos_nonneg; lia).
    assert (N : Z.abs (2 * (r * 86400 - Zpos m * 2 ^ K)) <= 86400).
    { replace (2 * (r * (86400 * c) - Zpos m * (2 ^ K * c))) with (2 * (r * 86400 - Zpos m * 2 ^ K) * c) in HN by ring. rewrite Z.abs_mul, (Z.abs_eq c) in HN by lia. nia. }
    clear HN HA E. assert (K2 : 2 ^ K = 2 * 2 ^ (K - 1)) by (rewrite <- Z.pow_succ_r by lia; f_equal; lia).
    assert (K3 : 2 ^ 17 <= 2 ^ K) by (apply Z.pow_le_mono_r; lia). change (2 ^ 17) with 131072 in K3. set (k := 2 ^ K) in *. set (h := 2 ^ (K - 1)) in *.
    symmetry. apply Z.div_unique with (2 * r + k - D * (2 * k)); [|lia]. left.
    assert (L1 : (2 * D - 1) * 86400 <= 2 * Zpos m) by lia. assert (L2 : 2 * Zpos m <= (2 * D + 1) * 86400 - 2) by lia.
    assert (L3 : (2 * D - 1) * 86400 * k <= 2 * Zpos m * k) by (apply Z.mul_le_mono_nonneg_r; lia).
    assert (L4 : 2 * Zpos m * k <= ((2 * D + 1) * 86400 - 2) * k) by (apply Z.mul_le_mono_nonneg_r; lia).
    assert (L5 : ((2 * D - 1) * k) * 86400 <= (2 * r + 1) * 86400) by lia.
    assert (L6 : (2 * D - 1) * k <= 2 * r + 1) by lia.
    assert (L7 : (2 * D - 1) * k = 2 * ((2 * D - 1) * h)) by (rewrite K2; ring).
    assert (L8 : 2 * r * 86400 < (2 * D + 1) * k * 86400) by lia. lia.
  - right. assert (B : 2 ^ 36 <= D).
    { assert (E : 2 ^ (36 + j) <= 2 ^ 16 * 2 ^ (53 - f) -> False \/ True) by auto. clear E.
      assert (X : 2 ^ (53 - f) <= 2 ^ 16 * 2 ^ (36 + j)) by (rewrite <- Z.pow_add_r by lia; apply Z.pow_le_mono_r; lia).
      set (c := 2 ^ (36 + j)) in *. assert (Hc : 0 < c) by (apply Z.pow_pos_nonneg; lia).
      assert (Y : 2 ^ 52 * 86400 * c <= Zpos m * 2 ^ 16 * c) by (destruct HA as [HA _]; nia).
      assert (Y2 : 2 ^ 52 * 86400 <= Zpos m * 2 ^ 16) by nia. cbn in Y2 |- *. lia. }
    split; [exact B|]. destruct (Zle_bool F 971); [|left; reflexivity]. right. eapply value_big; [exact V|exact C|lia].
Qed.

(** rounding of the exact quotient *)
Definition round_div (n d : Z) : Z := Z.sgn n * ((2 * Z.abs n + d) / (2 * d)).
Lemma days_exact n : double_to_int (double_round (double_div (double_of n) (double_of 86400))) =
  if (INT_MAX <? round_div n 86400) || (round_div n 86400 <? INT_MIN) then Undef UbOverflow else Ok (round_div n 86400).
Proof.
  assert (H : forall (s : bool) m, n = (if s then Zneg m else Zpos m) -> round_div n 86400 = (if s then - ((2 * Zpos m + 86400) / 172800) else (2 * Zpos m + 86400) / 172800)).
  { intros [] m ->; unfold round_div; cbn [Z.sgn Z.abs]; change (2 * 86400) with 172800; lia. }
  destruct n as [|m|m]; [reflexivity| |].
  - rewrite (H false m eq_refl). destruct (days_abs false m) as [E|[B [E|[z [E Z]]]]]; cbv zeta beta iota in *; rewrite E; cbn [double_to_int]; [reflexivity| |].
    + change (2 ^ 36) with 68719476736 in B. unfold INT_MAX, INT_MIN. destruct (Z.ltb_spec 2147483647 ((2 * Zpos m + 86400) / 172800)); [reflexivity|lia].
    + change (2 ^ 36) with 68719476736 in B, Z. unfold INT_MAX, INT_MIN. destruct (Z.ltb_spec 2147483647 ((2 * Zpos m + 86400) / 172800)), (Z.ltb_spec 2147483647 z); try lia. reflexivity.
  - rewrite (H true m eq_refl). destruct (days_abs true m) as [E|[B [E|[z [E Z]]]]]; cbv zeta beta iota in *; rewrite E; cbn [double_to_int]; [reflexivity| |].
    + change (2 ^ 36) with 68719476736 in B. unfold INT_MAX, INT_MIN. destruct (Z.ltb_spec (- ((2 * Zpos m + 86400) / 172800)) (-2147483648)); [rewrite orb_true_r; reflexivity|lia].
    + change (2 ^ 36) with 68719476736 in B, Z. unfold INT_MAX, INT_MIN. destruct (Z.ltb_spec (- ((2 * Zpos m + 86400) / 172800)) (-2147483648)), (Z.ltb_spec (- z) (-2147483648)); try lia. rewrite !orb_true_r. reflexivity.
Qed.
