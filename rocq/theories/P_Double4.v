(** The texts of numbers against strtod; a text is the text of one number only. *)
From Coq Require Import Lia QArith Qabs.
From Verif Require Import Base P_Base CTypes StringUtils IniEdit StrToD Spec_Double P_Double1 P_Double2 P_Double3.
Local Open Scope nat_scope.

(** * two doubles for the same number *)
Lemma mag_le x y : (-1074 <= db_e x)%Z -> (-1074 <= db_e y)%Z -> (magnitude x <= magnitude y)%Q <-> (units x <= units y)%N.
Proof. intros X Y. rewrite (scale_le unit_ _ _ unit_pos), !mag_units by assumption. rewrite <- Zle_Qle. lia. Qed.
Lemma mag_eq x y : (-1074 <= db_e x)%Z -> (-1074 <= db_e y)%Z -> (magnitude x == magnitude y)%Q <-> units x = units y.
Proof.
  intros X Y. rewrite (scale_eq unit_ _ _ unit_pos), !mag_units by assumption. split; [|intros ->; reflexivity]. intros H. apply N2Z.inj. unfold inject_Z in H. unfold Qeq in H. cbn in H. lia.
Qed.
Lemma pow_pos k : (0 < 2 ^ k)%N.
Proof. apply N.neq_0_lt_0, N.pow_nonzero. discriminate. Qed.
(** a smaller exponent means a smaller double *)
Lemma lower_exponent x y : is_double x -> is_double y -> normal_form y -> (db_e x < db_e y)%Z -> (units x < units y)%N.
Proof.
  intros [X1 X2] [Y1 Y2] NF L. destruct NF as [NF|NF]; [|lia]. unfold units.
  replace (Z.to_N (db_e y + 1074)) with (Z.to_N (db_e x + 1074) + 1 + Z.to_N (db_e y - db_e x - 1))%N by lia. rewrite !N.pow_add_r. change (2 ^ 1)%N with 2%N.
  pose proof (pow_pos (Z.to_N (db_e x + 1074))) as P1. pose proof (pow_pos (Z.to_N (db_e y - db_e x - 1))) as P2. set (a := (2 ^ Z.to_N (db_e x + 1074))%N) in *. set (b := (2 ^ Z.to_N (db_e y - db_e x - 1))%N) in *. clearbody a b.
  change (2 ^ 53)%N with (2 ^ 52 * 2)%N in X1. set (c := (2 ^ 52)%N) in *. clearbody c.
  assert (db_m x * a < c * 2 * a)%N by (apply N.mul_lt_mono_pos_r; lia). assert (c * (a * 2 * 1) <= db_m y * (a * 2 * b))%N by (apply N.mul_le_mono; [exact NF|apply N.mul_le_mono_l; lia]). lia.
Qed.
Lemma same_units x y : is_double x -> is_double y -> normal_form x -> normal_form y -> units x = units y -> db_m x = db_m y /\ db_e x = db_e y.
Proof.
  intros X Y NX NY E. destruct (Z.lt_trichotomy (db_e x) (db_e y)) as [L|[L|L]].
  - pose proof (lower_exponent x y X Y NY L). lia.
  - split; [|exact L]. unfold units in E. rewrite L in E. pose proof (pow_pos (Z.to_N (db_e y + 1074))). apply N.mul_cancel_r in E; [exact E|lia].
  - pose proof (lower_exponent y x Y X NX L). lia.
Qed.
(** between two doubles with even significands there is another *)
Lemma between x y : is_double x -> is_double y -> normal_form x -> normal_form y -> N.odd (db_m x) = false -> N.odd (db_m y) = false -> (units x < units y)%N ->
  exists z, is_double z /\ (units x < units z < units y)%N.
Proof.
  intros X Y NX NY OX OY L. exists {| db_neg := false; db_m := db_m x + 1; db_e := db_e x |}.
  assert (D : is_double {| db_neg := false; db_m := db_m x + 1; db_e := db_e x |}).
  { destruct X as [X1 X2]. split; [|exact X2]. cbn [db_m]. destruct (N.eq_dec (db_m x) (2 ^ 53 - 1)) as [E|E]; [rewrite E in OX; discriminate|lia]. }
  split; [exact D|]. assert (UZ : units {| db_neg := false; db_m := db_m x + 1; db_e := db_e x |} = (units x + 2 ^ Z.to_N (db_e x + 1074))%N) by (unfold units; cbn [db_m db_e]; lia).
  rewrite UZ. pose proof (pow_pos (Z.to_N (db_e x + 1074))) as P. split; [lia|].
  destruct (Z.lt_ge_cases (db_e y) (db_e x)) as [E|E]; [pose proof (lower_exponent y x Y X NX E); lia|].
  assert (NE : units y <> (units x + 2 ^ Z.to_N (db_e x + 1074))%N).
  { intros C. rewrite <- UZ in C. destruct (same_units y _ Y D NY) as [M _]; [|exact C|].
    - destruct NX as [NX|NX]; [left; cbn [db_m]; lia|right; exact NX].
    - cbn [db_m] in M. rewrite M in OY. replace (db_m x + 1)%N with (N.succ (db_m x)) in OY by lia. rewrite N.odd_succ, <- N.negb_odd, OX in OY. discriminate. }
  unfold units in *. destruct X as [X1 X2]. replace (Z.to_N (db_e y + 1074)) with (Z.to_N (db_e x + 1074) + Z.to_N (db_e y - db_e x))%N in * by lia. rewrite N.pow_add_r in *.
  set (a := (2 ^ Z.to_N (db_e x + 1074))%N) in *. set (b := (2 ^ Z.to_N (db_e y - db_e x))%N) in *. clearbody a b.
  replace (db_m y * (a * b))%N with (db_m y * b * a)%N in * by lia. set (k := (db_m y * b)%N) in *. clearbody k. clear OX OY.
  assert (db_m x < k)%N by (apply N.mul_lt_mono_pos_r with a; assumption). assert (k <> db_m x + 1)%N by (intros ->; apply NE; lia).
  replace (db_m x * a + a)%N with ((db_m x + 1) * a)%N by lia. apply N.mul_lt_mono_pos_r; [exact P|lia].
Qed.
Lemma dist_lt (q a b c : Q) : (a < b < c)%Q -> (Qabs (q - a) == Qabs (q - c))%Q -> (Qabs (q - b) < Qabs (q - a))%Q.
Proof.
  intros [H1 H2] E. assert (E1 : (q - a == c - q)%Q).
  { destruct (Qlt_le_dec q a) as [L|L].
    - exfalso. rewrite (Qabs_neg (q - a)), (Qabs_neg (q - c)) in E by (apply Qlt_le_weak; setoid_replace 0%Q with (q - q)%Q by ring; unfold Qminus; apply Qplus_lt_r; apply Qopp_lt_compat; first [exact L|apply (Qlt_trans _ a); [exact L|apply (Qlt_trans _ b); assumption]]).
      assert (a == c)%Q by (setoid_replace a with (q + - (q - a))%Q by ring; rewrite E; ring). rewrite H in H1. apply (Qlt_irrefl b). apply (Qlt_trans _ c); assumption.
    - destruct (Qlt_le_dec c q) as [K|K].
      + exfalso. rewrite (Qabs_pos (q - a)), (Qabs_pos (q - c)) in E by (setoid_replace 0%Q with (q - q)%Q by ring; unfold Qminus; apply Qplus_le_r, Qopp_le_compat; first [exact L|apply Qlt_le_weak; exact K]).
        assert (a == c)%Q by (setoid_replace a with (q - (q - a))%Q by ring; rewrite E; ring). rewrite H in H1. apply (Qlt_irrefl b). apply (Qlt_trans _ c); assumption.
      + rewrite (Qabs_pos (q - a)) in E by (setoid_replace 0%Q with (q - q)%Q by ring; unfold Qminus; apply Qplus_le_r, Qopp_le_compat; exact L).
        rewrite (Qabs_neg (q - c)) in E by (setoid_replace 0%Q with (c - c)%Q by ring; unfold Qminus; rewrite (Qplus_le_l _ _ (- c)); exact K). rewrite E. ring. }
  assert (QA : (a <= q)%Q).
  { apply Qnot_lt_le. intros L. assert (c < a)%Q by (setoid_replace c with (q + (c - q))%Q by ring; rewrite <- E1; setoid_replace (q + (q - a))%Q with (q + q - a)%Q by ring; setoid_replace a with (a + a - a)%Q at 2 by ring; unfold Qminus; rewrite Qplus_lt_l; apply Qplus_lt_le_compat; [exact L|apply Qlt_le_weak; exact L]).
    apply (Qlt_irrefl c). apply (Qlt_trans _ a); [assumption|]. apply (Qlt_trans _ b); assumption. }
  rewrite (Qabs_pos (q - a)) by (setoid_replace 0%Q with (q - q)%Q by ring; unfold Qminus; apply Qplus_le_r, Qopp_le_compat; exact QA).
  apply Qabs_case; intros _; [unfold Qminus; apply Qplus_lt_r, Qopp_lt_compat; exact H1|]. rewrite E1. setoid_replace (- (q - b))%Q with (b - q)%Q by ring. unfold Qminus. apply Qplus_lt_l. exact H2.
Qed.
Lemma mag_lt x y : (-1074 <= db_e x)%Z -> (-1074 <= db_e y)%Z -> (units x < units y)%N -> (magnitude x < magnitude y)%Q.
Proof. intros X Y L. apply Qnot_le_lt. rewrite mag_le by assumption. lia. Qed.
Lemma rounded_once q x y : rounded q x -> rounded q y -> db_m x = db_m y /\ db_e x = db_e y.
Proof.
  intros (DX & NX & RX) (DY & NY & RY). assert (EX : (-1074 <= db_e x)%Z) by (destruct DX; lia). assert (EY : (-1074 <= db_e y)%Z) by (destruct DY; lia).
  destruct (RX y DY) as [X1 X2]. destruct (RY x DX) as [Y1 Y2]. assert (E : (Qabs (q - magnitude x) == Qabs (q - magnitude y))%Q) by (apply Qle_antisym; assumption).
  destruct (N.eq_dec (units x) (units y)) as [U|U]; [apply same_units; assumption|]. exfalso.
  assert (OX : N.odd (db_m x) = false) by (destruct (X2 E) as [M|O]; [apply mag_eq in M; [congruence|assumption|assumption]|exact O]).
  assert (OY : N.odd (db_m y) = false) by (destruct (Y2 (Qeq_sym _ _ E)) as [M|O]; [apply mag_eq in M; [congruence|assumption|assumption]|exact O]).
  destruct (N.lt_gt_cases (units x) (units y)) as [C _]. destruct (C U) as [L|L].
  - destruct (between x y DX DY NX NY OX OY L) as (z & DZ & Z1 & Z2). destruct (RX z DZ) as [F _]. assert (EZ : (-1074 <= db_e z)%Z) by (destruct DZ; lia).
    apply (Qle_not_lt _ _ F). apply (dist_lt q (magnitude x) (magnitude z) (magnitude y)); [split; apply mag_lt; assumption|exact E].
  - destruct (between y x DY DX NY NX OY OX L) as (z & DZ & Z1 & Z2). destruct (RY z DZ) as [F _]. assert (EZ : (-1074 <= db_e z)%Z) by (destruct DZ; lia).
    apply (Qle_not_lt _ _ F). apply (dist_lt q (magnitude y) (magnitude z) (magnitude x)); [split; apply mag_lt; assumption|apply Qeq_sym; exact E].
Qed.
Lemma stands_once neg q x y : stands_for neg q x -> stands_for neg q y -> x = y.
Proof.
  destruct x as [x|n|n], y as [y|k|k]; cbn [stands_for]; try contradiction.
  - intros (_ & N1 & R1) (_ & N2 & R2). destruct (rounded_once q x y R1 R2). destruct x, y; cbn in *. congruence.
  - intros (L & _) (G & _). destruct (Qle_not_lt _ _ G L).
  - intros (G & _) (L & _). destruct (Qle_not_lt _ _ G L).
  - intros (_ & ->) (_ & ->). reflexivity.
Qed.

(** * every text of a number is accepted *)
Lemma take_word_short w s : length s < length w -> take_word w s = None.
Proof.
  revert s. induction w as [|u w IH]; intros s H; [cbn in H; lia|]. destruct s as [|c s]; [reflexivity|]. cbn [take_word]. destruct (Ascii.eqb (toupper c) u); [|reflexivity]. apply IH. cbn in H. lia.
Qed.
Definition number_head (s : bytes) : Prop := exists c r, s = c :: r /\ (is_base_digit 16 c = true \/ c = "."%char).
Lemma base_up b c : (b <= 16)%N -> is_base_digit b c = true -> is_base_digit 16 c = true.
Proof. intros B. unfold is_base_digit. destruct (digit_val c); [|discriminate]. rewrite !N.ltb_lt. lia. Qed.
Lemma figures_text_head b v k s : (b <= 16)%N -> figures_text b v k s -> number_head s.
Proof.
  intros B H. inversion H as [s0 ds D NE|s0 ds t es D1 D2 NE]; subst.
  - destruct (figures_head _ _ _ D NE) as (c & r & -> & X). exists c, r. split; [reflexivity|left; apply (base_up b c B X)].
  - destruct ds as [|d ds].
    + inversion D1. subst. exists "."%char, t. auto.
    + destruct (figures_head _ _ _ D1 ltac:(discriminate)) as (c & r & -> & X). exists c, (r ++ bs "." ++ t). split; [reflexivity|left; apply (base_up b c B X)].
Qed.
Lemma head_app s t : number_head s -> number_head (s ++ t).
Proof. intros (c & r & -> & H). exists c, (r ++ t). auto. Qed.
Lemma unsigned_head q s : unsigned_text q s -> number_head s.
Proof.
  intros [v k t x e F E|v k t x e p F E P].
  - apply head_app, (figures_text_head 10 v k t); [lia|exact F].
  - cbn in P. destruct P as [<-|[<-|[]]]; eexists _, _; (split; [reflexivity|left; reflexivity]).
Qed.
Lemma head_stops s : number_head s -> stops isspace s /\ no_sign s.
Proof. intros (c & r & -> & H). destruct (digit_plain c H) as (A & B & _). split; [exact A|exact B]. Qed.
Lemma head_words s : number_head s -> take_word (bs "INFINITY") s = None /\ take_word (bs "INF") s = None /\ take_word (bs "NAN") s = None.
Proof. intros (c & r & -> & H). destruct (digit_plain c H) as (_ & _ & C & D & _). cbn. rewrite C, D. auto. Qed.
Lemma eUp c : In c (letters "E" "e") -> toupper c = "E"%char.
Proof. intros [<-|[<-|[]]]; reflexivity. Qed.
Lemma pUp c : In c (letters "P" "p") -> toupper c = "P"%char.
Proof. intros [<-|[<-|[]]]; reflexivity. Qed.
Lemma exp_after10 x e : exponent_text (letters "E" "e") x e -> after_mantissa 10 e.
Proof. intros H. inversion H as [|c neg sg t ds C SG D NE]; subst; [split; exact I|]. destruct C as [<-|[<-|[]]]; split; reflexivity. Qed.
Lemma exp_after16 x e : exponent_text (letters "P" "p") x e -> after_mantissa 16 e.
Proof. intros H. inversion H as [|c neg sg t ds C SG D NE]; subst; [split; exact I|]. destruct C as [<-|[<-|[]]]; split; reflexivity. Qed.
(** no x in a decimal number *)
Definition no_x (c : ascii) : Prop := Ascii.eqb (toupper c) "X" = false.
Lemma figures_no_x b s ds : (b <= 16)%N -> figures b s ds -> Forall no_x s.
Proof. intros B H. eapply Forall_impl; [|apply (figures_digits _ _ _ H)]. intros c X. apply digit_plain. left. apply (base_up b c B X). Qed.
Lemma decimal_no_x v k s x e : figures_text 10 v k s -> exponent_text (bs "eE") x e -> Forall no_x (s ++ e).
Proof.
  intros F E. apply Forall_app. split.
  - inversion F as [s0 ds D NE|s0 ds t es D1 D2 NE]; subst; [apply (figures_no_x 10 s ds); [lia|exact D]|]. apply Forall_app. split; [apply (figures_no_x 10 _ _ ltac:(lia) D1)|]. constructor; [reflexivity|apply (figures_no_x 10 _ _ ltac:(lia) D2)].
  - inversion E as [|c neg sg t ds C SG D NE]; subst; [constructor|]. constructor; [destruct C as [<-|[<-|[]]]; reflexivity|]. apply Forall_app. split; [|apply (figures_no_x 10 _ _ ltac:(lia) D)].
    destruct neg; cbn in SG; [subst; repeat constructor|destruct SG as [->| ->]; repeat constructor].
Qed.
Lemma hex_none neg s : Forall no_x s -> take_hex neg s = None.
Proof.
  intros F. destruct s as [|z [|y t]]; [reflexivity|reflexivity|]. cbn [take_hex]. pose proof (Forall_inv (Forall_inv_tail F)) as X. unfold no_x in X. rewrite X, andb_false_r. reflexivity.
Qed.
Lemma unsigned_taken neg q s x : unsigned_text q s -> stands_for neg q x ->
  match take_hex neg s with Some (y, r) => (Some y, r) | None => match take_decimal neg s with Some (y, r) => (Some y, r) | None => (None, s) end end = (Some x, []).
Proof.
  intros U S. destruct U as [v k t e ex F E|v k t e ex p F E P].
  - rewrite (hex_none neg _ (decimal_no_x _ _ _ _ _ F E)). unfold take_decimal.
    destruct (mantissa_all 10 v k t ex F (exp_after10 _ _ E) eq_refl) as (w & f & -> & V & L). rewrite (exponent_all _ _ _ _ eUp E), V, L.
    f_equal. f_equal. eapply stands_once; [|exact S]. apply (round_number_ok neg 10). reflexivity.
  - assert (TH : take_hex neg (p ++ t ++ ex) = Some (round_number neg 2 v (e - 4 * Z.of_nat k), [])).
    { destruct (mantissa_all 16 v k t ex F (exp_after16 _ _ E) eq_refl) as (w & f & M & V & L).
      cbn in P. destruct P as [<-|[<-|[]]]; cbn [app bs list_ascii_of_string take_hex]; (match goal with |- (if ?b then _ else _) = _ => change b with true end); cbv iota; rewrite M, (exponent_all _ _ _ _ pUp E), V, L; reflexivity. }
    rewrite TH. f_equal. f_equal. eapply stands_once; [|exact S]. apply (round_number_ok neg 2). reflexivity.
Qed.
Lemma letter_head up low s u us l ls : bs up = u :: us -> bs low = l :: ls -> word_text up low s -> exists c r, s = c :: r /\ (c = u \/ c = l).
Proof. unfold word_text. intros -> -> H. cbn [combine] in H. inversion H as [|c p s' ps C W]; subst. exists c, s'. auto. Qed.
Lemma start ws neg sg t : Forall white ws -> sign_text neg sg -> stops isspace t -> no_sign t -> take_sign (drop_while isspace (ws ++ sg ++ t)) = (neg, t).
Proof.
  intros W SG S N. rewrite spaces_all; [apply sign_all; assumption|exact W|]. destruct neg; cbn in SG; [subst; reflexivity|destruct SG as [->| ->]; [exact S|reflexivity]].
Qed.
Lemma strtod_all s x : number_text x s -> strtod s = (Some x, []).
Proof.
  intros [ws neg sg q t y W SG U S|ws neg sg t W SG T|ws neg sg t u W SG T P]; unfold strtod.
  - destruct (head_stops t (unsigned_head q t U)) as [H1 H2]. rewrite (start ws neg sg t W SG H1 H2). destruct (head_words t (unsigned_head q t U)) as (-> & -> & ->).
    pose proof (unsigned_taken neg q t y U S) as X. destruct (take_hex neg t) as [[a b]|]; [exact X|]. destruct (take_decimal neg t) as [[a b]|]; [exact X|discriminate].
  - assert (H : exists c r, t = c :: r /\ (c = "I" \/ c = "i")%char) by (destruct T as [T|T]; [exact (letter_head "INF" "inf" t _ _ _ _ eq_refl eq_refl T)|exact (letter_head "INFINITY" "infinity" t _ _ _ _ eq_refl eq_refl T)]). destruct H as (c & r & E & C).
    assert (S1 : stops isspace t) by (rewrite E; destruct C as [->| ->]; reflexivity). assert (S2 : no_sign t) by (rewrite E; destruct C as [->| ->]; reflexivity).
    rewrite (start ws neg sg t W SG S1 S2). destruct T as [T|T].
    + rewrite take_word_short; [|assert (L : length t = 3) by (clear - T; unfold word_text in T; cbn in T; repeat match goal with H : Forall2 _ _ _ |- _ => inversion H; clear H; subst end; reflexivity); rewrite L; cbn; lia].
      pose proof (inf_all t [] T) as X. rewrite app_nil_r in X. rewrite X. reflexivity.
    + pose proof (infinity_all t [] T) as X. rewrite app_nil_r in X. rewrite X. reflexivity.
  - assert (H : exists c r, t = c :: r /\ (c = "N" \/ c = "n")%char) by exact (letter_head "NAN" "nan" t _ _ _ _ eq_refl eq_refl T). destruct H as (c & r & E & C).
    assert (S1 : stops isspace (t ++ u)) by (rewrite E; destruct C as [->| ->]; reflexivity). assert (S2 : no_sign (t ++ u)) by (rewrite E; destruct C as [->| ->]; reflexivity).
    rewrite (start ws neg sg (t ++ u) W SG S1 S2).
    assert (W1 : take_word (bs "INFINITY") (t ++ u) = None) by (rewrite E; destruct C as [->| ->]; reflexivity). assert (W2 : take_word (bs "INF") (t ++ u) = None) by (rewrite E; destruct C as [->| ->]; reflexivity).
    rewrite W1, W2, (nan_all t u T), (payload_all u P). reflexivity.
Qed.
