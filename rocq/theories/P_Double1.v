(** Rounding to the nearest double. *)
From Coq Require Import Lia QArith Qabs.
From Verif Require Import Base IniEdit StrToD Spec_Double.

(** * in whole numbers: [a] / [d] against multiples of powers of two *)
Section Round.
Local Open Scope Z_scope.
(** rounding of a/b, half to even *)
Lemma round_near (a b m0 r : Z) : 0 < b -> a = b * m0 + r -> 0 <= r < b ->
  let m := if (b <? 2 * r) || ((2 * r =? b) && Z.odd m0) then m0 + 1 else m0 in
  2 * Z.abs (a - b * m) <= b /\ (2 * Z.abs (a - b * m) = b -> Z.odd m = false) /\ m0 <= m <= m0 + 1.
Proof.
  intros B E R m. subst m. destruct (Z.ltb_spec b (2 * r)); cbn [orb].
  - assert (X : a - b * (m0 + 1) = r - b) by lia. rewrite X. lia.
  - destruct (Z.eqb_spec (2 * r) b); cbn [andb].
    + destruct (Z.odd m0) eqn:O.
      * assert (X : a - b * (m0 + 1) = r - b) by lia. rewrite X. split; [lia|]. split; [intros _|lia]. replace (m0 + 1) with (Z.succ m0) by lia. rewrite Z.odd_succ, <- Z.negb_odd, O. reflexivity.
      * assert (X : a - b * m0 = r) by lia. rewrite X. split; [lia|]. split; [intros _; exact O|lia].
    + assert (X : a - b * m0 = r) by lia. rewrite X. lia.
Qed.
Lemma other_multiple (a b m k : Z) : 0 < b -> 2 * Z.abs (a - b * m) <= b -> (2 * Z.abs (a - b * m) = b -> Z.odd m = false) ->
  Z.abs (a - b * m) <= Z.abs (a - b * k) /\ (Z.abs (a - b * m) = Z.abs (a - b * k) -> k = m \/ Z.odd m = false).
Proof.
  intros B H O. destruct (Z.eq_dec k m) as [->|N]; [split; [lia|auto]|].
  assert (K : b <= Z.abs (b * m - b * k)) by nia. split; [lia|]. intros X. right. apply O. lia.
Qed.
End Round.

Lemma nearest_spec n d : (0 < d)%N -> exists m s,
  nearest_double n d = (if N.ltb 2045 s then None else Some (m, s)) /\ (m < 2 ^ 53)%N /\ ((2 ^ 52 <= m)%N \/ s = 0%N) /\
  ((2045 < s)%N <-> (d * ((2 ^ 54 - 1) * 2 ^ 2044) <= n * 2 ^ 1074)%N) /\
  forall m' s', (m' < 2 ^ 53)%N ->
    (Z.abs (Z.of_N (n * 2 ^ 1074) - Z.of_N (d * (m * 2 ^ s))) <= Z.abs (Z.of_N (n * 2 ^ 1074) - Z.of_N (d * (m' * 2 ^ s'))))%Z /\
    (Z.abs (Z.of_N (n * 2 ^ 1074) - Z.of_N (d * (m * 2 ^ s))) = Z.abs (Z.of_N (n * 2 ^ 1074) - Z.of_N (d * (m' * 2 ^ s'))) -> (m' * 2 ^ s' = m * 2 ^ s)%N \/ N.odd m = false).
Proof.
  intros D. unfold nearest_double. set (a := (n * 2 ^ 1074)%N). clearbody a. cbv zeta.
  set (s := (N.log2 (a / d) - 52)%N). set (b := (d * 2 ^ s)%N). set (m0 := (a / b)%N). set (r := (a mod b)%N).
  assert (P : forall k, (0 < 2 ^ k)%N) by (intros k; apply N.neq_0_lt_0, N.pow_nonzero; discriminate).
  assert (B : (0 < b)%N) by (unfold b; pose proof (P s); nia).
  assert (AE : (a = b * m0 + r)%N) by (apply N.div_mod; lia). assert (RB : (r < b)%N) by (apply N.mod_lt; lia).
  assert (M0 : (m0 < 2 ^ 53)%N /\ ((2 ^ 52 <= m0)%N \/ s = 0%N)).
  { unfold m0, b. rewrite <- N.div_div by (try lia; pose proof (P s); lia). destruct (N.eq_dec (a / d) 0) as [Z|Z].
    - rewrite Z. rewrite N.div_0_l by (pose proof (P s); lia). split; [apply N.ltb_lt; reflexivity|right]. unfold s. rewrite Z. reflexivity.
    - pose proof (N.log2_spec (a / d) (proj1 (N.neq_0_lt_0 _) Z)) as [L1 L2]. destruct (N.le_gt_cases (N.log2 (a / d)) 52) as [L|L].
      + assert (S0 : s = 0%N) by (unfold s; lia). rewrite S0, N.pow_0_r, N.div_1_r. split; [|right; reflexivity]. eapply N.lt_le_trans; [exact L2|]. apply N.pow_le_mono_r; lia.
      + assert (SL : N.log2 (a / d) = (52 + s)%N) by (unfold s; lia). rewrite SL in L1, L2. rewrite <- N.add_succ_l in L2. change (N.succ 52) with 53%N in L2. rewrite N.pow_add_r in L1, L2. split.
        * apply N.div_lt_upper_bound; [pose proof (P s); lia|]. rewrite N.mul_comm. exact L2.
        * left. apply N.div_le_lower_bound; [pose proof (P s); lia|]. rewrite N.mul_comm. exact L1. }
  pose proof (round_near (Z.of_N a) (Z.of_N b) (Z.of_N m0) (Z.of_N r) ltac:(lia) ltac:(lia) ltac:(lia)) as RN. cbv zeta in RN.
  set (m := (if N.ltb b (2 * r) || (N.eqb (2 * r) b && N.odd m0) then m0 + 1 else m0)%N).
  assert (ME : (if (Z.of_N b <? 2 * Z.of_N r) || ((2 * Z.of_N r =? Z.of_N b) && Z.odd (Z.of_N m0)) then Z.of_N m0 + 1 else Z.of_N m0)%Z = Z.of_N m).
  { unfold m. replace (Z.of_N b <? 2 * Z.of_N r)%Z with (N.ltb b (2 * r)) by (destruct (N.ltb_spec b (2 * r)), (Z.ltb_spec (Z.of_N b) (2 * Z.of_N r)); try reflexivity; lia).
    replace (2 * Z.of_N r =? Z.of_N b)%Z with (N.eqb (2 * r) b) by (destruct (N.eqb_spec (2 * r) b), (Z.eqb_spec (2 * Z.of_N r) (Z.of_N b)); try reflexivity; lia).
    replace (Z.odd (Z.of_N m0)) with (N.odd m0) by (destruct m0 as [|[]]; reflexivity).
    destruct (N.ltb b (2 * r) || (N.eqb (2 * r) b && N.odd m0)); lia. }
  rewrite ME in RN. destruct RN as (R1 & R2 & R3).
  assert (R4 : (m = m0 + 1)%N -> (b <= 2 * r)%N).
  { unfold m. destruct (N.ltb_spec b (2 * r)); cbn [orb]; [lia|]. destruct (N.eqb_spec (2 * r) b); cbn [andb]; [lia|lia]. }
  assert (R5 : (m = m0)%N -> (2 * r <= b)%N /\ ((2 * r)%N = b -> N.odd m0 = false)).
  { unfold m. destruct (N.ltb_spec b (2 * r)); cbn [orb]; [lia|]. destruct (N.eqb_spec (2 * r) b); cbn [andb]; [destruct (N.odd m0); [lia|auto]|lia]. }
  assert (OD : Z.odd (Z.of_N m) = N.odd m) by (destruct m as [|[]]; reflexivity).
  clearbody m. clear ME.
  assert (NEAR : forall m' s', (m' < 2 ^ 53)%N ->
    (Z.abs (Z.of_N a - Z.of_N (b * m)) <= Z.abs (Z.of_N a - Z.of_N (d * (m' * 2 ^ s'))))%Z /\
    (Z.abs (Z.of_N a - Z.of_N (b * m)) = Z.abs (Z.of_N a - Z.of_N (d * (m' * 2 ^ s'))) -> (m' * 2 ^ s' = m * 2 ^ s)%N \/ N.odd m = false)).
  { intros m' s' Hm. destruct (N.le_gt_cases s s') as [L|L].
    - assert (X : (d * (m' * 2 ^ s') = b * (m' * 2 ^ (s' - s)))%N).
      { unfold b. replace s' with (s + (s' - s))%N at 1 by lia. rewrite N.pow_add_r. lia. }
      rewrite X. set (k := (m' * 2 ^ (s' - s))%N) in *.
      destruct (other_multiple (Z.of_N a) (Z.of_N b) (Z.of_N m) (Z.of_N k) ltac:(lia) R1 R2) as [O1 O2]. rewrite !N2Z.inj_mul. split; [exact O1|].
      intros E. destruct (O2 E) as [K|K]; [left|right; congruence]. assert (Km : k = m) by lia. rewrite Km in X. unfold b in X. clear - X D. nia.
    - assert (S0 : (2 ^ 52 <= m0)%N) by (destruct M0 as [_ [M0|M0]]; [exact M0|lia]).
      assert (U : (m' * 2 ^ s' < 2 ^ 52 * 2 ^ s)%N).
      { replace s with (s' + 1 + (s - s' - 1))%N by lia. rewrite !N.pow_add_r. change (2 ^ 1)%N with 2%N. replace (2 ^ 53)%N with (2 ^ 52 * 2)%N in Hm by reflexivity.
        set (c := (2 ^ 52)%N) in *. clearbody c. pose proof (P s') as P1. pose proof (P (s - s' - 1)%N) as P2. set (x := (2 ^ s')%N) in *. set (y := (2 ^ (s - s' - 1))%N) in *. clearbody x y.
        assert (m' * x < c * 2 * x)%N by (apply N.mul_lt_mono_pos_r; lia). assert (c * 2 * x * 1 <= c * 2 * x * y)%N by (apply N.mul_le_mono_l; lia). lia. }
      assert (V : (d * (m' * 2 ^ s') < b * 2 ^ 52)%N).
      { unfold b. replace (d * 2 ^ s * 2 ^ 52)%N with (d * (2 ^ 52 * 2 ^ s))%N by lia. apply N.mul_lt_mono_pos_l; assumption. }
      assert (W : (b * 2 ^ 52 <= a)%N) by (rewrite AE; assert (b * 2 ^ 52 <= b * m0)%N by (apply N.mul_le_mono_l; exact S0); lia).
      destruct (other_multiple (Z.of_N a) (Z.of_N b) (Z.of_N m) (Z.of_N (2 ^ 52)) ltac:(lia) R1 R2) as [O1 _]. rewrite <- !N2Z.inj_mul in O1.
      set (u := (d * (m' * 2 ^ s'))%N) in *. clearbody u. split; [lia|]. intros E. lia. }
  destruct (N.eqb_spec m (2 ^ 53)) as [M|M].
  - exists (2 ^ 52)%N, (s + 1)%N. split; [reflexivity|]. split; [reflexivity|]. split; [left; lia|].
    assert (X : (d * (2 ^ 52 * 2 ^ (s + 1)) = b * m)%N) by (rewrite M, N.pow_add_r; unfold b; change (2 ^ 53)%N with (2 ^ 52 * 2 ^ 1)%N; lia). rewrite X. split.
    + assert (m0 = 2 ^ 53 - 1)%N as E0 by lia. specialize (R4 ltac:(lia)). split; intros H.
      * assert (S : (2045 <= s)%N) by lia.
        assert (G : (d * ((2 ^ 54 - 1) * 2 ^ 2044) <= d * ((2 ^ 54 - 1) * 2 ^ (s - 1)))%N) by (apply N.mul_le_mono_l, N.mul_le_mono_l, N.pow_le_mono_r; lia).
        eapply N.le_trans; [exact G|]. assert (b = d * 2 ^ (s - 1) * 2)%N as BE.
        { unfold b. replace s with (s - 1 + 1)%N at 1 by lia. rewrite N.pow_add_r. change (2 ^ 1)%N with 2%N. lia. }
        rewrite AE, E0, BE in *. set (e := (d * 2 ^ (s - 1))%N) in *. replace (d * ((2 ^ 54 - 1) * 2 ^ (s - 1)))%N with ((2 ^ 54 - 1) * e)%N by (unfold e; lia). clearbody e.
        change (2 ^ 54 - 1)%N with ((2 ^ 53 - 1) * 2 + 1)%N. set (c := (2 ^ 53 - 1)%N). clearbody c. nia.
      * destruct (N.le_gt_cases s 2044) as [L|L]; [exfalso|lia].
        assert (A1 : (a < b * 2 ^ 53)%N) by (rewrite AE, E0; change (2 ^ 53)%N with (2 ^ 53 - 1 + 1)%N at 2; set (c := (2 ^ 53 - 1)%N); clearbody c; lia).
        assert (A2 : (b * 2 ^ 53 <= d * (2 ^ 53 * 2 ^ 2044))%N).
        { unfold b. replace (d * 2 ^ s * 2 ^ 53)%N with (d * (2 ^ 53 * 2 ^ s))%N by lia. apply N.mul_le_mono_l, N.mul_le_mono_l, N.pow_le_mono_r; lia. }
        assert (A3 : (d * (2 ^ 53 * 2 ^ 2044) <= d * ((2 ^ 54 - 1) * 2 ^ 2044))%N) by (apply N.mul_le_mono_l, N.mul_le_mono_r; apply N.leb_le; reflexivity).
        set (u := (d * ((2 ^ 54 - 1) * 2 ^ 2044))%N) in *. set (v := (d * (2 ^ 53 * 2 ^ 2044))%N) in *. clearbody u v. lia.
    + intros m' s' Hm. destruct (NEAR m' s' Hm) as [N1 N2]. split; [exact N1|]. intros E. right. reflexivity.
  - exists m, s. split; [reflexivity|]. split; [destruct M0; lia|]. split; [destruct M0 as [_ [M0|M0]]; [left; lia|right; exact M0]|].
    assert (X : (d * (m * 2 ^ s) = b * m)%N) by (unfold b; lia). rewrite X. split; [|exact NEAR].
    split; intros H.
    + assert (G : (d * ((2 ^ 54 - 1) * 2 ^ 2044) <= d * (2 ^ 52 * 2 ^ s))%N).
      { apply N.mul_le_mono_l. apply N.le_trans with (2 ^ 54 * 2 ^ 2044)%N; [apply N.mul_le_mono_r; apply N.leb_le; reflexivity|]. rewrite <- !N.pow_add_r. apply N.pow_le_mono_r; lia. }
      eapply N.le_trans; [exact G|]. assert (S0 : (2 ^ 52 <= m0)%N) by (destruct M0 as [_ [M0|M0]]; [exact M0|lia]).
      replace (d * (2 ^ 52 * 2 ^ s))%N with (b * 2 ^ 52)%N by (unfold b; lia). rewrite AE. assert (b * 2 ^ 52 <= b * m0)%N by (apply N.mul_le_mono_l; exact S0). lia.
    + destruct (N.le_gt_cases s 2045) as [L|L]; [exfalso|exact L]. destruct (N.eq_dec s 2045) as [S|S].
      * assert (BE : (b = d * 2 ^ 2044 * 2)%N).
        { unfold b. rewrite S. change 2045%N with (2044 + 1)%N. rewrite N.pow_add_r. change (2 ^ 1)%N with 2%N. lia. }
        replace (d * ((2 ^ 54 - 1) * 2 ^ 2044))%N with ((2 ^ 54 - 1) * (d * 2 ^ 2044))%N in H by lia. set (e := (d * 2 ^ 2044)%N) in *. clearbody e. clearbody b. subst b.
        destruct M0 as [M0 _]. assert (O : N.odd (2 ^ 53 - 1) = true) by reflexivity. change (2 ^ 54 - 1)%N with ((2 ^ 53 - 1) * 2 + 1)%N in H. change (2 ^ 53)%N with (2 ^ 53 - 1 + 1)%N in M, M0. set (c := (2 ^ 53 - 1)%N) in *. clearbody c.
        destruct (N.eq_dec m0 c) as [MC|MC].
        -- assert (m = m0) by lia. destruct (R5 H0) as [R6 R7]. rewrite MC in *. rewrite AE in H. assert (2 * r = e * 2)%N by nia. rewrite (R7 H1) in O. discriminate.
        -- rewrite AE in H. nia.
      * assert (A1 : (a < b * 2 ^ 53)%N) by (rewrite AE; destruct M0 as [M0 _]; set (c := (2 ^ 53)%N) in *; clearbody c; clear - M0 RB; nia).
        assert (A2 : (b * 2 ^ 53 <= d * (2 ^ 53 * 2 ^ 2044))%N).
        { unfold b. replace (d * 2 ^ s * 2 ^ 53)%N with (d * (2 ^ 53 * 2 ^ s))%N by lia. apply N.mul_le_mono_l, N.mul_le_mono_l, N.pow_le_mono_r; lia. }
        assert (A3 : (d * (2 ^ 53 * 2 ^ 2044) <= d * ((2 ^ 54 - 1) * 2 ^ 2044))%N) by (apply N.mul_le_mono_l, N.mul_le_mono_r; apply N.leb_le; reflexivity).
        set (u := (d * ((2 ^ 54 - 1) * 2 ^ 2044))%N) in *. set (v := (d * (2 ^ 53 * 2 ^ 2044))%N) in *. clearbody u v. lia.
Qed.
