(** C110: doubles read from an INI object. *)
From Coq Require Import Lia QArith Qabs Qpower Qfield.
From Verif Require Import Base P_Base CTypes StringUtils Ini P_Ini Spec_Ini IniEdit Spec_IniEdit IniCalls InspectorOut Spec_Report Prop_Report
  P_IniEdit P_IniEdit3 P_IniMem P_IniNum Prop_IniEdit Prop_IniMem Prop_IniTyped StrToD Spec_Double P_Double1 P_Double2 P_Double3 P_Double4.
Local Open Scope nat_scope.

(** *** a text is the text of one number at most *)
Theorem C110_one_number : forall s x y, number_text x s -> number_text y s -> x = y.
Proof. intros s x y X Y. apply strtod_all in X, Y. congruence. Qed.

(** *** the number read: that of the text found, if it is the text of a number of at most 63 characters *)
Theorem C110_read : forall sec key def st p more s,
  get_value_at sec key None st = Ok (Some p, more) -> deref st p = Ok s ->
  exists r, get_double_at sec key def st = Ok r /\
    ((length s <= 63 /\ number_text r s) \/ (~ (length s <= 63 /\ exists x, number_text x s) /\ r = def)).
Proof.
  intros sec key def st p more s G D. exists (double_of s def). unfold get_double_at. rewrite G. cbn [rbind]. rewrite D. split; [reflexivity|].
  unfold double_of. destruct (list_eq_dec ascii_dec s []) as [->|NE].
  - right. split; [|reflexivity]. intros (_ & x & X). apply strtod_all in X. discriminate.
  - destruct s as [|c0 s0]; [congruence|]. set (s := c0 :: s0) in *. destruct (Nat.ltb_spec 64 (length s + 1)).
    + right. split; [|reflexivity]. intros (L & _). lia.
    + destruct (strtod s) as [[x|] [|d r]] eqn:E.
      * left. split; [lia|]. apply strtod_inv. exact E.
      * right. split; [|reflexivity]. intros (_ & y & Y). apply strtod_all in Y. congruence.
      * right. split; [|reflexivity]. intros (_ & y & Y). apply strtod_all in Y. congruence.
      * right. split; [|reflexivity]. intros (_ & y & Y). apply strtod_all in Y. congruence.
Qed.
Theorem C110_missing : forall sec key def st more, get_value_at sec key None st = Ok (None, more) -> get_double_at sec key def st = Ok def.
Proof. intros sec key def st more G. unfold get_double_at. rewrite G. reflexivity. Qed.

(** *** a text given to a key is read as its number *)
Theorem C110_given : forall multi multiline h st sec key s x comment force sec' key' def,
  reached multi multiline h st -> st_multi st = false \/ force = true -> same_name sec sec' -> same_name key key' ->
  length s <= 63 -> number_text x s ->
  exists code st', set_value (Some (Given sec)) (Some (Given key)) (Some (Given s)) (given comment) force st = Ok (code, st')
    /\ get_double_at (Some (Given sec')) (Some (Given key')) def st' = Ok x.
Proof.
  intros m ml h st sec key s x c f s' k' def R MF HS HK L X. destruct (text_found m ml h st sec key s c f s' k' R MF HS HK) as (code & st' & p & E & G & T). exists code, st'. split; [exact E|].
  destruct (C110_read _ _ def st' p false s G T) as (r & -> & [[_ Y]|[N _]]); [|exfalso; apply N; eauto]. f_equal. eapply C110_one_number; eassumption.
Qed.

(** ** what SetDoubleValue stores *)
Lemma numeral_figures i t : numeral 10 i t -> exists ds, figures 10 t ds /\ in_base 10 ds = i /\ ds <> [].
Proof.
  intros (ds & NE & F & _ & E & ->). exists ds. split; [|split; [exact E|exact NE]]. clear NE E. unfold figures. induction F as [|d ds H _ IH]; [constructor|]. cbn [map]. constructor; [|exact IH]. split; [exact H|].
  left. rewrite <- (N2Nat.id d) in H. set (n := N.to_nat d) in *. clearbody n. do 10 (destruct n as [|n]; [reflexivity|]). lia.
Qed.
Lemma six_figures f : (f < 1000000)%N -> exists es, figures 10 (six_digits f) es /\ length es = 6 /\ forall acc, fold_left (fun a d => a * 10 + d)%N es acc = (acc * 1000000 + f)%N.
Proof.
  intros H. exists (map (fun d => (f / d) mod 10)%N [100000; 10000; 1000; 100; 10; 1]%N). split; [|split; [reflexivity|]].
  - unfold six_digits. assert (X : forall d, (d < 10)%N -> (d < 10)%N /\ (nth_error (bs "0123456789abcdef") (N.to_nat d) = Some (digit_char d) \/ nth_error (bs "0123456789ABCDEF") (N.to_nat d) = Some (digit_char d))).
    { intros d L. split; [exact L|]. left. rewrite <- (N2Nat.id d) in *. set (n := N.to_nat d) in *. clearbody n. rewrite Nat2N.id. do 10 (destruct n as [|n]; [reflexivity|]). lia. }
    cbn [map]. repeat (constructor; [apply X, N.mod_lt; discriminate|]). constructor.
  - intros acc. cbn [map fold_left]. rewrite N.div_1_r.
    assert (D : forall a, (f / (a * 10) = f / a / 10)%N \/ a = 0%N) by (intros a; destruct (N.eq_dec a 0); [auto|left; rewrite N.div_div by lia; reflexivity]).
    destruct (D 1%N) as [D1|]; [|discriminate]. destruct (D 10%N) as [D2|]; [|discriminate]. destruct (D 100%N) as [D3|]; [|discriminate]. destruct (D 1000%N) as [D4|]; [|discriminate]. destruct (D 10000%N) as [D5|]; [|discriminate].
    cbn [N.mul Pos.mul Pos.add] in D1, D2, D3, D4, D5. rewrite N.div_1_r in D1.
    assert (M : forall a, (a = 10 * (a / 10) + a mod 10)%N) by (intros a; apply N.div_mod; discriminate).
    assert (Z5 : (f / 100000 < 10)%N) by (apply N.div_lt_upper_bound; lia). rewrite (N.mod_small (f / 100000) 10 Z5).
    pose proof (M f) as M0. pose proof (M (f / 10)%N) as M1. pose proof (M (f / 100)%N) as M2. pose proof (M (f / 1000)%N) as M3. pose proof (M (f / 10000)%N) as M4.
    change (1 * 10)%N with 10%N in D1. change (10 * 10)%N with 100%N in D2. change (100 * 10)%N with 1000%N in D3. change (1000 * 10)%N with 10000%N in D4. change (10000 * 10)%N with 100000%N in D5.
    rewrite <- D2 in M1. rewrite <- D3 in M2. rewrite <- D4 in M3. rewrite <- D5 in M4. lia.
Qed.
Lemma stored_text neg i f t : numeral 10 i t -> (f < 1000000)%N ->
  let q := (inject_Z (Z.of_N (i * 1000000 + f)) * 10 ^ (0 - Z.of_nat 6))%Q in
  forall x, stands_for neg q x -> number_text x ((if neg then bs "-" else []) ++ t ++ bs "." ++ six_digits f).
Proof.
  intros N F q x S. destruct (numeral_figures i t N) as (ds & D & V & NE). destruct (six_figures f F) as (es & E & L & W).
  change ((if neg then bs "-" else []) ++ t ++ bs "." ++ six_digits f) with ([] ++ (if neg then bs "-" else []) ++ (t ++ bs "." ++ six_digits f)).
  apply nt_number with (q := q) (neg := neg); [constructor|destruct neg; cbn; auto| |exact S].
  rewrite <- (app_nil_r (t ++ bs "." ++ six_digits f)). unfold q. rewrite <- L.
  replace (i * 1000000 + f)%N with (in_base 10 (ds ++ es)) by (unfold in_base in *; rewrite fold_left_app, V, W; reflexivity).
  apply ut_decimal; [|constructor]. apply ft_point; [exact D|exact E|]. destruct ds; [congruence|discriminate].
Qed.
(** six places: the distance of the text from the double *)
Local Open Scope Q_scope.
Definition million : Q := 1000000 # 1.
Lemma six_q v : inject_Z (Z.of_N v) * 10 ^ (0 - Z.of_nat 6) == inject_Z (Z.of_N v) / million.
Proof. change (0 - Z.of_nat 6)%Z with (-6)%Z. change (10 ^ (-6)) with (1 # 1000000). unfold million. field. Qed.
Lemma pow2_neg e : (e < 0)%Z -> 2 ^ e * inject_Z (Z.of_N (2 ^ Z.to_N (- e))) == 1.
Proof.
  intros E. rewrite <- pow_nat, Z2N.id by lia. change (inject_Z (Z.of_N 2)) with 2. rewrite <- Qpower_plus by (intros H; discriminate H). replace (e + - e)%Z with 0%Z by lia. reflexivity.
Qed.
Lemma pow2_pos e : (0 <= e)%Z -> 2 ^ e == inject_Z (Z.of_N (2 ^ Z.to_N e)).
Proof. intros E. rewrite <- pow_nat, Z2N.id by lia. reflexivity. Qed.
Lemma abs_le z k : (Z.abs z <= k)%Z -> Qabs (inject_Z z) <= inject_Z k.
Proof. intros H. change (Qabs (inject_Z z)) with (inject_Z (Z.abs z)). rewrite <- Zle_Qle. exact H. Qed.
Lemma text_near x v : nearest x v -> Qabs (inject_Z (Z.of_N v) / million - magnitude x) <= 1 # 2000000.
Proof.
  intros H. unfold nearest in H. destruct (Z.leb_spec 0 (db_e x)) as [E|E].
  - assert (Z : inject_Z (Z.of_N v) / million - magnitude x == 0).
    { unfold magnitude. rewrite (pow2_pos _ E), H, !N2Z.inj_mul, !inject_Z_mult. change (inject_Z (Z.of_N 1000000)) with million. unfold million. field. }
    rewrite Z. discriminate.
  - set (d := (2 ^ Z.to_N (- db_e x))%N) in *. pose proof (pow2_neg _ E) as P. fold d in P. assert (D : (0 < d)%N) by apply pow_pos. clearbody d. destruct H as [[H1 H2] _].
    assert (K : 0 < inject_Z (Z.of_N d) * 2 * million) by (apply Qmult_lt_0_compat; [apply Qmult_lt_0_compat; [change 0 with (inject_Z 0); rewrite <- Zlt_Qlt; lia|reflexivity]|reflexivity]).
    apply (scale_le _ _ _ K). rewrite <- (Qabs_pos (inject_Z (Z.of_N d) * 2 * million)) at 1 by (apply Qlt_le_weak; exact K). rewrite <- Qabs_Qmult.
    assert (EQ : (inject_Z (Z.of_N v) / million - magnitude x) * (inject_Z (Z.of_N d) * 2 * million) == inject_Z (2 * Z.of_N (v * d) - 2 * Z.of_N (db_m x * 1000000))).
    { unfold Zminus. rewrite inject_Z_plus, inject_Z_opp, !inject_Z_mult, !N2Z.inj_mul, !inject_Z_mult. change (inject_Z (Z.of_N 1000000)) with million. change (inject_Z 2) with 2.
      unfold magnitude. transitivity (inject_Z (Z.of_N v) / million * (inject_Z (Z.of_N d) * 2 * million) - inject_Z (Z.of_N (db_m x)) * (2 ^ db_e x * inject_Z (Z.of_N d)) * 2 * million); [ring|]. rewrite P. unfold million. field. }
    rewrite EQ. setoid_replace ((1 # 2000000) * (inject_Z (Z.of_N d) * 2 * million)) with (inject_Z (Z.of_N d)) by (unfold million; ring). apply abs_le. lia.
Qed.
Lemma close_integers a b : Qabs (inject_Z a - inject_Z b) < 1 -> a = b.
Proof.
  intros H. setoid_replace (inject_Z a - inject_Z b) with (inject_Z (a - b)) in H by (unfold Zminus; rewrite inject_Z_plus, inject_Z_opp; reflexivity).
  change (Qabs (inject_Z (a - b))) with (inject_Z (Z.abs (a - b))) in H. change 1 with (inject_Z 1) in H. rewrite <- Zlt_Qlt in H. lia.
Qed.
Lemma close_scaled k a b e : 0 < k -> Qabs (a - b) <= e -> Qabs (a * k - b * k) <= e * k.
Proof.
  intros K H. setoid_replace (a * k - b * k) with ((a - b) * k) by ring. rewrite Qabs_Qmult, (Qabs_pos k) by (apply Qlt_le_weak; exact K). apply Qmult_le_compat_r; [exact H|apply Qlt_le_weak; exact K].
Qed.
(** a whole number of 64ths is printed exactly *)
Lemma text_exact x v k : nearest x v -> magnitude x == inject_Z k * (1 # 64) -> inject_Z (Z.of_N v) / million == magnitude x.
Proof.
  intros H E. pose proof (close_scaled million _ _ _ eq_refl (text_near x v H)) as C. rewrite E in C.
  assert (X1 : inject_Z (Z.of_N v) / million * million == inject_Z (Z.of_N v)) by (unfold million; field). assert (X2 : inject_Z k * (1 # 64) * million == inject_Z (k * 15625)) by (rewrite inject_Z_mult; change (inject_Z 15625) with (15625 # 1); unfold million; ring).
  rewrite X1, X2 in C. assert (V : Z.of_N v = (k * 15625)%Z) by (apply close_integers; eapply Qle_lt_trans; [exact C|reflexivity]).
  rewrite E, V, inject_Z_mult. change (inject_Z 15625) with (15625 # 1). unfold million. field.
Qed.
(** from 2 ^ 33 on a double is a whole number of 2 ^ -19 *)
Lemma coarse x : is_double x -> 2 ^ 33 <= magnitude x -> exists z, magnitude x * (524288 # 1) == inject_Z z.
Proof.
  intros [M _] H. assert (E : (-19 <= db_e x)%Z).
  { destruct (Z.le_gt_cases (-19) (db_e x)) as [G|G]; [exact G|exfalso]. apply (Qle_not_lt _ _ H). unfold magnitude. apply Qlt_le_trans with (inject_Z (2 ^ 53) * 2 ^ db_e x).
    - apply Qmult_lt_compat_r; [apply Qpower_0_lt; reflexivity|]. rewrite <- Zlt_Qlt. lia.
    - setoid_replace (2 ^ 33) with (inject_Z (2 ^ 53) * 2 ^ (-20)) by reflexivity. apply Qmult_le_l; [reflexivity|]. apply Qpower_le_compat_l; [lia|discriminate]. }
  exists (Z.of_N (db_m x * 2 ^ Z.to_N (db_e x + 19))). unfold magnitude. rewrite N2Z.inj_mul, inject_Z_mult, <- pow_nat, Z2N.id by lia. change (inject_Z (Z.of_N 2)) with 2. rewrite Qpower_plus by (intros X; discriminate X). change (2 ^ 19) with (524288 # 1). ring.
Qed.

(** *** what SetDoubleValue stores and GetDoubleValue reads: the same number up to a millionth, and exactly
    the same if it is a whole number of 64ths or has ten digits before the point *)
Theorem C110_round_trip : forall multi multiline h st sec key x comment force sec' key' def,
  reached multi multiline h st -> st_multi st = false \/ force = true -> same_name sec sec' -> same_name key key' ->
  is_double x -> at_most x (10 ^ 54) ->
  exists code st' r, set_double_value (Some (Given sec)) (Some (Given key)) x (given comment) force st = Ok (code, st')
    /\ get_double_at (Some (Given sec')) (Some (Given key')) def st' = Ok (Num r)
    /\ is_double r /\ db_neg r = db_neg x /\ Qabs (value r - value x) <= 1 # 1000000
    /\ ((exists k, value x == inject_Z k * (1 # 64)) \/ 2 ^ 33 <= Qabs (value x) -> value r == value x).
Proof.
  intros m ml h st sec key x c fo s' k' def R MF HS HK DX AM.
  destruct (C104_double_fits m ml h st sec key x c fo s' k' R MF HS HK AM) as (code & st' & p & i & f & t & E & G & T & N & F & NR).
  exists code, st'. set (v := (i * 1000000 + f)%N) in *. set (q := inject_Z (Z.of_N v) * 10 ^ (0 - Z.of_nat 6)).
  pose proof (round_number_ok (db_neg x) 10 v (0 - Z.of_nat 6) ltac:(lia)) as SF. change (inject_Z (Z.of_N 10)) with 10 in SF. fold q in SF.
  pose proof (stored_text (db_neg x) i f t N F _ SF) as NT.
  (* the length *)
  assert (L : (length ((if db_neg x then bs "-" else []) ++ t ++ bs "." ++ six_digits f) <= 63)%nat).
  { destruct (text_found m ml h st sec key (print_double x) c fo s' k' R MF HS HK) as (code2 & st2 & p2 & E2 & G2 & T2).
    unfold set_double_value in E. destruct (Nat.ltb_spec 64 (length (print_double x) + 1)); [discriminate|]. rewrite E2 in E. injection E as -> ->. rewrite G2 in G. injection G as ->. rewrite T2 in T. assert (TE : print_double x = (if db_neg x then bs "-" else []) ++ t ++ bs "." ++ six_digits f) by congruence. rewrite <- TE. lia. }
  destruct (C110_read _ _ def st' p false _ G T) as (r & GD & [[_ RT]|[C _]]); [|exfalso; apply C; eauto].
  assert (r = round_number (db_neg x) 10 v (0 - Z.of_nat 6)) as -> by (eapply C110_one_number; eassumption).
  pose proof (text_near x v NR) as NQ. assert (QE : q == inject_Z (Z.of_N v) / million) by apply six_q. rewrite <- QE in NQ.
  (* it is finite *)
  destruct (round_number (db_neg x) 10 v (0 - Z.of_nat 6)) as [r|n|n] eqn:RN; cbn [stands_for] in SF; [| |contradiction].
  2:{ exfalso. destruct SF as [SF _]. assert (B : magnitude x <= inject_Z (Z.of_N (10 ^ 54))).
      { unfold at_most in AM. destruct (Z.leb_spec 0 (db_e x)) as [EX|EX].
        - unfold magnitude. rewrite (pow2_pos _ EX), <- inject_Z_mult, <- N2Z.inj_mul, <- Zle_Qle. apply N2Z.inj_le. exact AM.
        - unfold magnitude. pose proof (pow2_neg _ EX) as P. set (d := (2 ^ Z.to_N (- db_e x))%N) in *. assert (D : (0 < d)%N) by apply pow_pos. clearbody d. set (b := (10 ^ 54)%N) in *. clearbody b.
          assert (K : 0 < inject_Z (Z.of_N d)) by (change 0 with (inject_Z 0); rewrite <- Zlt_Qlt; lia). apply (scale_le _ _ _ K). rewrite <- Qmult_assoc, P, Qmult_1_r, <- inject_Z_mult, <- N2Z.inj_mul, <- Zle_Qle. lia. }
      assert (Q1 : q <= inject_Z (Z.of_N (10 ^ 54)) + (1 # 2000000)).
      { setoid_replace q with (magnitude x + (q - magnitude x)) by ring. apply Qplus_le_compat; [exact B|]. eapply Qle_trans; [apply Qle_Qabs|exact NQ]. }
      apply (Qle_not_lt _ _ (Qle_trans _ _ _ SF Q1)). vm_compute. reflexivity. }
  exists r. destruct SF as (_ & SN & DR & NFR & RR). split; [exact E|]. split; [exact GD|]. split; [exact DR|]. split; [exact SN|].
  destruct (RR x DX) as [R1 _].
  assert (CL : Qabs (magnitude r - magnitude x) <= 1 # 1000000).
  { setoid_replace (magnitude r - magnitude x) with (- (q - magnitude r) + (q - magnitude x)) by ring. eapply Qle_trans; [apply Qabs_triangle|]. rewrite Qabs_opp. setoid_replace (1 # 1000000) with ((1 # 2000000) + (1 # 2000000)) by reflexivity.
    apply Qplus_le_compat; [eapply Qle_trans; [exact R1|exact NQ]|exact NQ]. }
  assert (VR : value r == (if db_neg x then - magnitude r else magnitude r)) by (unfold value; rewrite SN; reflexivity). split.
  - unfold value. rewrite SN. destruct (db_neg x); [|exact CL]. setoid_replace (- magnitude r - - magnitude x) with (- (magnitude r - magnitude x)) by ring. rewrite Qabs_opp. exact CL.
  - intros H. assert (M0 : 0 <= magnitude x).
    { unfold magnitude. apply Qmult_le_0_compat; [change 0 with (inject_Z 0); rewrite <- Zle_Qle; lia|]. apply Qlt_le_weak, Qpower_0_lt. reflexivity. }
    assert (EXACT : (exists k, magnitude x == inject_Z k * (1 # 64)) -> magnitude r == magnitude x).
    { intros (k & K). pose proof (text_exact x v k NR K) as X. rewrite <- QE in X. rewrite X in R1. setoid_replace (magnitude x - magnitude x) with 0 in R1 by ring. change (Qabs 0) with 0 in R1.
      assert (Z : magnitude x - magnitude r == 0) by (assert (Z0 : Qabs (magnitude x - magnitude r) == 0) by (apply Qle_antisym; [exact R1|apply Qabs_nonneg]); revert Z0; apply Qabs_case; intros _ Y; [exact Y|]; setoid_replace (magnitude x - magnitude r) with (- - (magnitude x - magnitude r)) by ring; rewrite Y; reflexivity).
      setoid_replace (magnitude r) with (magnitude x - (magnitude x - magnitude r)) by ring. rewrite Z. ring. }
    assert (GOAL : magnitude r == magnitude x).
    { destruct H as [(k & K)|B].
      - apply EXACT. unfold value in K. destruct (db_neg x); [exists (- k)%Z; rewrite inject_Z_opp; setoid_replace (magnitude x) with (- - magnitude x) by ring; rewrite K; ring|exists k; exact K].
      - assert (BX : 2 ^ 33 <= magnitude x).
        { unfold value in B. destruct (db_neg x); [rewrite Qabs_opp in B|]; rewrite Qabs_pos in B by exact M0; exact B. }
        destruct (coarse x DX BX) as (zx & ZX). destruct (Qlt_le_dec (magnitude r) (2 ^ 33)) as [RL|RL].
        + (* the double is 2^33 itself *)
          apply EXACT. exists (2 ^ 39)%Z. assert (XE : zx = (2 ^ 52)%Z).
          { apply close_integers. rewrite <- ZX. setoid_replace (inject_Z (2 ^ 52)) with (2 ^ 33 * (524288 # 1)) by reflexivity.
            eapply Qle_lt_trans; [apply (close_scaled (524288 # 1) (magnitude x) (2 ^ 33) (1 # 1000000) eq_refl)|reflexivity].
            rewrite Qabs_pos by (setoid_replace 0 with (2 ^ 33 - 2 ^ 33) by reflexivity; unfold Qminus; apply Qplus_le_l; exact BX).
            apply Qle_trans with (magnitude x - magnitude r); [unfold Qminus; apply Qplus_le_r, Qopp_le_compat, Qlt_le_weak; exact RL|]. eapply Qle_trans; [|exact CL]. setoid_replace (magnitude r - magnitude x) with (- (magnitude x - magnitude r)) by ring. rewrite Qabs_opp. apply Qle_Qabs. }
          rewrite XE in ZX. apply (scale_eq (524288 # 1) _ _ eq_refl). rewrite ZX. reflexivity.
        + destruct (coarse r DR RL) as (zr & ZR). assert (ZE : zr = zx).
          { apply close_integers. rewrite <- ZX, <- ZR. eapply Qle_lt_trans; [apply (close_scaled (524288 # 1) _ _ (1 # 1000000) eq_refl CL)|reflexivity]. }
          apply (scale_eq (524288 # 1) _ _ eq_refl). rewrite ZX, ZR, ZE. reflexivity. }
    unfold value. rewrite SN. destruct (db_neg x); rewrite GOAL; reflexivity.
Qed.
(** concrete cases: 0.1; beyond the greatest double; hexadecimal; text after the number; 0.3 stored and read: not the same double, but 2.5 is *)
Definition read_of (s : string) : res number :=
  match set_value sec_a key_k (Some (Given (bs s))) None true (new_store false false) with Ok (_, st) => get_double_at sec_a key_k (NotANumber true) st | _ => OutOfFuel end.
Example C110_example :
  read_of "0.1" = Ok (Num {| db_neg := false; db_m := 7205759403792794; db_e := -56 |}) /\
  read_of " -1e400" = Ok (Infinite true) /\ read_of "0x1.8p1" = Ok (Num {| db_neg := false; db_m := 6755399441055744; db_e := -51 |}) /\
  read_of "1.5 euro" = Ok (NotANumber true) /\ read_of "" = Ok (NotANumber true) /\ read_of "Infinity" = Ok (Infinite false) /\
  read_of "4.9e-324" = Ok (Num {| db_neg := false; db_m := 1; db_e := -1074 |}).
Proof. repeat (refine (conj _ _); [vm_compute; reflexivity|]). vm_compute. reflexivity. Qed.
(** 1 / 3 *)
Definition third : double := {| db_neg := false; db_m := 6004799503160661; db_e := -54 |}.
Definition two_and_a_half : double := {| db_neg := true; db_m := 5629499534213120; db_e := -51 |}.
Example C110_example_store : is_double third /\ at_most third (10 ^ 54) /\ exists code st,
  set_double_value sec_a key_k third None true (new_store false false) = Ok (code, st) /\
  get_double_at sec_a key_k (NotANumber true) st = Ok (Num {| db_neg := false; db_m := 6004793498361158; db_e := -54 |}) /\
  ~ value {| db_neg := false; db_m := 6004793498361158; db_e := -54 |} == value third.
Proof. refine (conj _ (conj _ _)); [split; [reflexivity|split; discriminate]|apply N.leb_le; vm_compute; reflexivity|]. eexists _, _. refine (conj _ (conj _ _)); [vm_compute; reflexivity|vm_compute; reflexivity|]. vm_compute. discriminate. Qed.
Example C110_example_exact : value two_and_a_half == inject_Z (-160) * (1 # 64) /\ exists code st,
  set_double_value sec_a key_k two_and_a_half None true (new_store false false) = Ok (code, st) /\
  get_double_at sec_a key_k (NotANumber true) st = Ok (Num two_and_a_half).
Proof. split; [reflexivity|]. eexists _, _. refine (conj _ _); [vm_compute; reflexivity|vm_compute; reflexivity]. Qed.
