(** C91-C94: the conversions between the encoding forms of Unicode *)
From Coq Require Import ZArith Lia Bool.
From Verif Require Import Base ConvertUtf Spec_Utf P_Utf P_Utf2 P_Utf3 P_Utf4.
Local Open Scope Z_scope.

(** C91: every conversion accounts for what it reads and writes *)
Theorem C91_utf8_utf16 : forall src tgt f, units 8 src ->
  accounts reads8 utf16_of cut8 malformed8 src tgt (ConvertUTF8toUTF16 src tgt f).
Proof.
  intros. apply goes_accounts. apply (loop_8_16_ok (S (length src)) [] src f [] tgt); auto with arith.
Qed.
Theorem C91_utf8_utf32 : forall src tgt f, units 8 src ->
  accounts reads8 utf32_of cut8 malformed8 src tgt (ConvertUTF8toUTF32 src tgt f).
Proof.
  intros. apply goes_accounts. apply (loop_8_32_ok (S (length src)) [] src f [] tgt); auto with arith.
Qed.
Theorem C91_utf16_utf32 : forall src tgt f, units 16 src ->
  accounts (reads16 (is_strict f)) utf32_of cut16 (fun rest => f = Strict /\ unpaired rest) src tgt (ConvertUTF16toUTF32 src tgt f).
Proof.
  intros. apply goes_accounts. apply (loop_16_32_ok (S (length src)) [] src f [] tgt); auto with arith.
Qed.
Theorem C91_utf16_utf8 : forall src tgt f, units 16 src ->
  accounts (reads16 (is_strict f)) utf8_of cut16 (fun rest => f = Strict /\ unpaired rest) src tgt (ConvertUTF16toUTF8 src tgt f).
Proof.
  intros. apply goes_accounts. apply (loop_16_8_ok (S (length src)) [] src f [] tgt); auto with arith.
Qed.
Theorem C91_utf32_utf16 : forall src tgt f, units 32 src ->
  accounts32 (is_strict f) (as_utf16 (is_strict f)) (fun c => f = Strict /\ 1114111 < c)
    (fun c => Nat.max 1 (length (as_utf16 (is_strict f) c))) true src tgt (ConvertUTF32toUTF16 src tgt f).
Proof.
  intros. pose proof (goes_accounts32 _ _ _ _ _ _ _ _ (loop_32_16_ok (S (length src)) [] src f ConversionOK [] tgt ltac:(auto with arith) H ltac:(cbn; auto with arith) ltac:(auto))) as (r & cs & rest & R & E & L & W).
  exists r, cs, rest. split; [exact R|]. split; [exact E|]. split; [exact L|].
  assert (Q : forall c, counted16 (is_strict f) c <-> f = Strict /\ 1114111 < c) by (intro; unfold counted16; destruct f; cbn; intuition discriminate).
  destruct r; [|exact W|exact W|].
  - destruct W as [W1 W2]. split; [exact W1|]. eapply Forall_impl; [|exact W2]. cbn. intros. rewrite <- Q. assumption.
  - destruct W as [[W1 W2]|W]; [|right; exact W]. left. split; [exact W1|]. eapply Exists_impl; [|exact W2]. intros. apply Q. assumption.
Qed.
Theorem C91_utf32_utf8 : forall src tgt f, units 32 src ->
  accounts32 (is_strict f) as_utf8 (fun c => 1114111 < c) (fun c => length (as_utf8 c)) false src tgt (ConvertUTF32toUTF8 src tgt f).
Proof.
  intros. apply goes_accounts32. apply (loop_32_8_ok (S (length src)) [] src f ConversionOK [] tgt); auto with arith.
Qed.
(** all five kinds of ends occur: two characters, the second one not fitting, cut, and
    malformed; a value above all characters in the middle *)
Example C91_case :
  ConvertUTF8toUTF16 [195; 164; 240; 159; 152; 128; 65] [0; 0; 0; 0; 0] Strict = Ok (ConversionOK, 7%nat, 4%nat, [228; 55357; 56832; 65; 0]) /\
  ConvertUTF8toUTF16 [195; 164; 240; 159; 152; 128; 65] [0; 0] Strict = Ok (TargetExhausted, 2%nat, 1%nat, [228; 0]) /\
  ConvertUTF8toUTF16 [195; 164; 240; 159; 152] [0; 0; 0] Strict = Ok (SourceExhausted, 2%nat, 1%nat, [228; 0; 0]) /\
  ConvertUTF8toUTF16 [195; 164; 195; 65] [0; 0; 0] Lenient = Ok (SourceIllegal, 2%nat, 1%nat, [228; 0; 0]) /\
  ConvertUTF16toUTF8 [228; 55357; 65] (repeat 7 6) Strict = Ok (SourceIllegal, 1%nat, 2%nat, [195; 164; 7; 7; 7; 7]) /\
  ConvertUTF16toUTF8 [228; 55357; 65] (repeat 7 6) Lenient = Ok (ConversionOK, 3%nat, 6%nat, [195; 164; 237; 160; 189; 65]) /\
  ConvertUTF32toUTF8 [65; 1114112; 66] (repeat 7 6) Strict = Ok (SourceIllegal, 3%nat, 5%nat, [65; 239; 191; 189; 66; 7]) /\
  units 8 [195; 164; 240; 159; 152; 128; 65].
Proof. repeat split; try (vm_compute; reflexivity). repeat constructor; lia. Qed.

(** C92: a text is converted exactly, as far as it fits *)
Theorem C92_from_utf8 : forall cs, Forall scalar cs -> forall tgt f,
  (exists ds es, longest utf16_of (length tgt) cs ds es /\
    ConvertUTF8toUTF16 (utf8 cs) tgt f =
    Ok (match es with [] => ConversionOK | _ => TargetExhausted end, length (utf8 ds), length (utf16 ds), utf16 ds ++ skipn (length (utf16 ds)) tgt)) /\
  (exists ds es, longest utf32_of (length tgt) cs ds es /\
    ConvertUTF8toUTF32 (utf8 cs) tgt f =
    Ok (match es with [] => ConversionOK | _ => TargetExhausted end, length (utf8 ds), length ds, ds ++ skipn (length ds) tgt)).
Proof.
  intros cs F tgt f. split.
  - apply (accounts_text reads8 utf8_of utf16_of cut8 malformed8 cs tgt _ (fun cs ds rest F => read_text8 cs ds rest F) reads8_proper utf8_of_ne reads8_ne not_cut8 not_malformed8 F).
    apply C91_utf8_utf16. apply utf8_text_units. assumption.
  - pose proof (accounts_text reads8 utf8_of utf32_of cut8 malformed8 cs tgt _ (fun cs ds rest F => read_text8 cs ds rest F) reads8_proper utf8_of_ne reads8_ne not_cut8 not_malformed8 F
      (C91_utf8_utf32 (utf8 cs) tgt f (utf8_text_units _ F))) as (ds & es & LO & E).
    exists ds, es. split; [assumption|]. rewrite E. unfold utf32_of. rewrite flat_one. reflexivity.
Qed.
Theorem C92_from_utf16 : forall cs, Forall scalar cs -> forall tgt f,
  (exists ds es, longest utf8_of (length tgt) cs ds es /\
    ConvertUTF16toUTF8 (utf16 cs) tgt f =
    Ok (match es with [] => ConversionOK | _ => TargetExhausted end, length (utf16 ds), length (utf8 ds), utf8 ds ++ skipn (length (utf8 ds)) tgt)) /\
  (exists ds es, longest utf32_of (length tgt) cs ds es /\
    ConvertUTF16toUTF32 (utf16 cs) tgt f =
    Ok (match es with [] => ConversionOK | _ => TargetExhausted end, length (utf16 ds), length ds, ds ++ skipn (length ds) tgt)).
Proof.
  intros cs F tgt f.
  assert (NB : forall cs, Forall scalar cs -> ~ (f = Strict /\ unpaired (utf16 cs))) by (intros es FE [_ X]; exact (not_unpaired es FE X)).
  split.
  - apply (accounts_text (reads16 (is_strict f)) utf16_of utf8_of cut16 (fun rest => f = Strict /\ unpaired rest) cs tgt _ (fun cs ds rest F => read_text16 _ cs ds rest F) (reads16_proper _) utf16_of_ne (reads16_ne _) not_cut16 NB F).
    apply C91_utf16_utf8. apply utf16_text_units. assumption.
  - pose proof (accounts_text (reads16 (is_strict f)) utf16_of utf32_of cut16 (fun rest => f = Strict /\ unpaired rest) cs tgt _ (fun cs ds rest F => read_text16 _ cs ds rest F) (reads16_proper _) utf16_of_ne (reads16_ne _) not_cut16 NB F
      (C91_utf16_utf32 (utf16 cs) tgt f (utf16_text_units _ F))) as (ds & es & LO & E).
    exists ds, es. split; [assumption|]. rewrite E. unfold utf32_of. rewrite flat_one. reflexivity.
Qed.
Lemma as_utf16_scalar : forall strict c, scalar c -> as_utf16 strict c = utf16_of c.
Proof.
  intros strict c [R N]. unfold surrogate, high, low in N. unfold as_utf16.
  replace (c <=? 1114111) with true by (cmp; reflexivity || lia).
  replace ((55296 <=? c) && (c <=? 57343)) with false; [reflexivity|]. symmetry. apply andb_false_iff. rewrite !Z.leb_gt. lia.
Qed.
Lemma as_utf8_scalar : forall c, scalar c -> as_utf8 c = utf8_of c.
Proof. intros c [R N]. unfold as_utf8. cmp; reflexivity || lia. Qed.
Lemma flat_same : forall (e e' : Z -> list Z), (forall c, scalar c -> e c = e' c) -> forall cs, Forall scalar cs -> flat_map e cs = flat_map e' cs.
Proof. intros e e' H cs F. induction F; cbn; [reflexivity|]. rewrite H, IHF by assumption. reflexivity. Qed.
Lemma longest_same : forall (e e' : Z -> list Z), (forall c, scalar c -> e c = e' c) -> forall n cs ds es, Forall scalar cs -> longest e n cs ds es -> longest e' n cs ds es.
Proof.
  intros e e' H n cs ds es F (E & A & B). rewrite E in F. apply Forall_app in F. destruct F as [FD FE].
  split; [assumption|]. unfold fits in *. rewrite <- (flat_same e e') by assumption. split; [assumption|].
  destruct es; [exact I|]. inversion FE; subst. rewrite <- (flat_same e e'); auto. apply Forall_app. auto.
Qed.
Theorem C92_from_utf32 : forall cs, Forall scalar cs -> forall tgt f,
  (exists ds es, longest utf8_of (length tgt) cs ds es /\
    ConvertUTF32toUTF8 cs tgt f =
    Ok (match es with [] => ConversionOK | _ => TargetExhausted end, length ds, length (utf8 ds), utf8 ds ++ skipn (length (utf8 ds)) tgt)) /\
  (exists ds es, longest utf16_of (length tgt) cs ds es /\
    ConvertUTF32toUTF16 cs tgt f =
    Ok (match es with [] => ConversionOK | _ => TargetExhausted end, length ds, length (utf16 ds), utf16 ds ++ skipn (length (utf16 ds)) tgt)).
Proof.
  intros cs F tgt f. pose proof (utf32_text_units _ F) as U. unfold utf32 in U. split.
  - destruct (accounts32_text (is_strict f) as_utf8 (fun c => 1114111 < c) (fun c => length (as_utf8 c)) false cs tgt (ConvertUTF32toUTF8 cs tgt f) ltac:(intros c [R _]; cbn; lia) ltac:(reflexivity) F (C91_utf32_utf8 cs tgt f U)) as (ds & es & LO & E).
    exists ds, es. split; [eapply longest_same; [exact as_utf8_scalar| |]; eassumption|]. rewrite E.
    destruct LO as (EC & _). rewrite EC in F. apply Forall_app in F. destruct F as [FD _].
    rewrite (flat_same as_utf8 utf8_of as_utf8_scalar ds FD). reflexivity.
  - destruct (accounts32_text (is_strict f) (as_utf16 (is_strict f)) (fun c => f = Strict /\ 1114111 < c) (fun c => Nat.max 1 (length (as_utf16 (is_strict f) c))) true cs tgt (ConvertUTF32toUTF16 cs tgt f) ltac:(intros c [R _]; cbn; lia)
      ltac:(intros c C; cbn beta; rewrite as_utf16_scalar by assumption; pose proof (len_utf16 c); lia) F (C91_utf32_utf16 cs tgt f U)) as (ds & es & LO & E).
    exists ds, es. split; [eapply longest_same; [exact (as_utf16_scalar (is_strict f))| |]; eassumption|]. rewrite E.
    destruct LO as (EC & _). rewrite EC in F. apply Forall_app in F. destruct F as [FD _].
    rewrite (flat_same (as_utf16 (is_strict f)) utf16_of (as_utf16_scalar (is_strict f)) ds FD). reflexivity.
Qed.

Lemma longest_all : forall enc n cs ds es, fits enc n cs -> longest enc n cs ds es -> es = [] /\ ds = cs.
Proof.
  intros enc n cs ds es F (E & _ & B). destruct es as [|c es]; [rewrite app_nil_r in E; auto|]. exfalso. apply B.
  unfold fits in *. rewrite E in F. rewrite flat_map_app, app_length in F. cbn in F. rewrite flat_snoc, !app_length in *. lia.
Qed.
Lemma prefix_back : forall (a b : list Z), firstn (length a) (a ++ b) = a.
Proof. intros. rewrite firstn_app, Nat.sub_diag, firstn_all. cbn. apply app_nil_r. Qed.
(** there and back again *)
Theorem C92_round_trip : forall cs, Forall scalar cs -> forall f g wide back,
  (length (utf16 cs) <= length wide -> length (utf8 cs) <= length back -> exists out n,
    ConvertUTF8toUTF16 (utf8 cs) wide f = Ok (ConversionOK, length (utf8 cs), n, out) /\
    ConvertUTF16toUTF8 (firstn n out) back g = Ok (ConversionOK, n, length (utf8 cs), utf8 cs ++ skipn (length (utf8 cs)) back))%nat /\
  (length cs <= length wide -> length (utf8 cs) <= length back -> exists out n,
    ConvertUTF8toUTF32 (utf8 cs) wide f = Ok (ConversionOK, length (utf8 cs), n, out) /\
    ConvertUTF32toUTF8 (firstn n out) back g = Ok (ConversionOK, n, length (utf8 cs), utf8 cs ++ skipn (length (utf8 cs)) back))%nat /\
  (length cs <= length wide -> length (utf16 cs) <= length back -> exists out n,
    ConvertUTF16toUTF32 (utf16 cs) wide f = Ok (ConversionOK, length (utf16 cs), n, out) /\
    ConvertUTF32toUTF16 (firstn n out) back g = Ok (ConversionOK, n, length (utf16 cs), utf16 cs ++ skipn (length (utf16 cs)) back))%nat.
Proof.
  intros cs F f g wide back.
  assert (F32 : forall n, (length cs <= n)%nat -> fits utf32_of n cs) by (intros n L; unfold fits, utf32_of; rewrite flat_one; assumption).
  destruct (C92_from_utf8 cs F wide f) as [(d1 & e1 & L1 & E1) (d2 & e2 & L2 & E2)].
  destruct (C92_from_utf16 cs F back g) as [(d3 & e3 & L3 & E3) _].
  destruct (C92_from_utf16 cs F wide f) as [_ (d4 & e4 & L4 & E4)].
  destruct (C92_from_utf32 cs F back g) as [(d5 & e5 & L5 & E5) (d6 & e6 & L6 & E6)].
  split; [|split]; intros A B.
  - destruct (longest_all _ _ _ _ _ A L1) as [-> ->]. destruct (longest_all _ _ _ _ _ B L3) as [-> ->].
    eexists _, _. split; [exact E1|]. rewrite prefix_back. exact E3.
  - destruct (longest_all _ _ _ _ _ (F32 _ A) L2) as [-> ->]. destruct (longest_all _ _ _ _ _ B L5) as [-> ->].
    eexists _, _. split; [exact E2|]. rewrite prefix_back. exact E5.
  - destruct (longest_all _ _ _ _ _ (F32 _ A) L4) as [-> ->]. destruct (longest_all _ _ _ _ _ B L6) as [-> ->].
    eexists _, _. split; [exact E4|]. rewrite prefix_back. exact E6.
Qed.
Example C92_case : Forall scalar [228; 128512; 65] /\ utf8 [228; 128512; 65] = [195; 164; 240; 159; 152; 128; 65] /\
  utf16 [228; 128512; 65] = [228; 55357; 56832; 65] /\ longest utf16_of 2 [228; 128512; 65] [228] [128512; 65].
Proof.
  repeat split; try reflexivity; try (cbv; lia).
  repeat constructor; try lia; unfold surrogate, high, low; lia.
Qed.

(** C93: which sequences count as legal *)
Theorem C93_legal : forall src, units 8 src -> src <> [] ->
  exists b, isLegalUTF8Sequence src = Ok b /\ (b = true <-> exists su after c, src = su ++ after /\ reads8 su after c).
Proof.
  intros src U N. destruct src as [|b more]; [contradiction|]. unfold isLegalUTF8Sequence. cbn [get nth_error rbind].
  rewrite <- announced_trailing.
  destruct (Nat.ltb_spec (length (b :: more)) (announced b)).
  - exists false. split; [reflexivity|]. split; [discriminate|]. intros (su & after & c & E & R).
    destruct (shape_announced _ _ (reads_shape _ _ _ R)) as (b' & m' & E' & L').
    exfalso. assert (b = b') by (rewrite E' in E; inversion E; reflexivity). subst b'. rewrite E, app_length in H. lia.
  - destruct (legal_shape [] (b :: more) b more eq_refl U H) as [(su & c & after & E & S & _ & G & _)|[NO G]].
    + exists true. split; [exact G|]. split; [|reflexivity]. intros _. exists su, after, c. split; [assumption|]. apply shape_reads. assumption.
    + exists false. split; [exact G|]. split; [discriminate|]. intros (su & after & c & E & R). exfalso. exact (NO su c after E (reads_shape _ _ _ R)).
Qed.
(** every character is legal *)
Theorem C93_proper : forall c rest, scalar c -> units 8 rest -> isLegalUTF8Sequence (utf8_of c ++ rest) = Ok true.
Proof.
  intros c rest C U. destruct (C93_legal (utf8_of c ++ rest)) as (b & -> & H).
  - apply Forall_app. split; [apply utf8_units; apply C|assumption].
  - intros E. apply app_eq_nil in E. destruct E as [E _]. exact (utf8_of_ne _ E).
  - f_equal. apply H. exists (utf8_of c), rest, c. split; [reflexivity|]. constructor. assumption.
Qed.
(** but not only characters: these sequences are not UTF-8, nor do they begin with it;
    they count as legal, and even strict conversions turn them into one character *)
Definition starts_properly (src : list Z) : Prop := exists c rest, scalar c /\ src = utf8_of c ++ rest.
Lemma improper : forall b0 a rest, (b0 = 237 \/ b0 = 244) -> 0 <= a < 128 -> ~ starts_properly (b0 :: a :: rest).
Proof.
  intros b0 a rest B A (c & r & [R N] & E). unfold utf8_of in E.
  destruct (Z.ltb_spec c 128); [apply cons_eq in E; lia|].
  assert (exists x t, b0 :: a :: rest = x :: (128 + t mod 64) :: tl (tl (b0 :: a :: rest))).
  { destruct (Z.ltb_spec c 2048); [exists (192 + c / 64), c|destruct (Z.ltb_spec c 65536); [exists (224 + c / 4096), (c / 64)|exists (240 + c / 262144), (c / 4096)]]; rewrite E; reflexivity. }
  destruct H0 as (x & t & E'). apply cons_eq in E'. destruct E' as [_ E']. apply cons_eq in E'. destruct E' as [E' _].
  assert (0 <= t mod 64 < 64) by (apply Z.mod_pos_bound; lia). lia.
Qed.
Theorem C93_improper_accepted : forall a b d, 0 <= a < 128 -> 128 <= b <= 191 -> 128 <= d <= 191 ->
  (isLegalUTF8Sequence [237; a; b] = Ok true /\ ~ starts_properly [237; a; b] /\
   ConvertUTF8toUTF32 [237; a; b] [0] Strict = Ok (ConversionOK, 3%nat, 1%nat, [45056 + 64 * a + (b - 128)])) /\
  (isLegalUTF8Sequence [244; a; b; d] = Ok true /\ ~ starts_properly [244; a; b; d] /\
   ConvertUTF8toUTF32 [244; a; b; d] [0] Strict = Ok (ConversionOK, 4%nat, 1%nat, [524288 + 4096 * a + 64 * (b - 128) + (d - 128)])).
Proof.
  intros a b d A B D.
  assert (U1 : units 8 [237; a; b]) by (repeat constructor; change (2 ^ 8) with 256; lia).
  assert (U2 : units 8 [244; a; b; d]) by (repeat constructor; change (2 ^ 8) with 256; lia).
  pose proof (read_ED a b [] A B) as R1. pose proof (read_F4 a b d [] A B D) as R2.
  assert (ONE : forall su c, reads8 su [] c -> units 8 su -> su <> [] -> isLegalUTF8Sequence su = Ok true /\
                ConvertUTF8toUTF32 su [0] Strict = Ok (ConversionOK, length su, 1%nat, [c])).
  { intros su c R U N. split.
    - destruct (C93_legal su U N) as (x & -> & H). f_equal. apply H. exists su, [], c. rewrite app_nil_r. auto.
    - destruct (C91_utf8_utf32 su [0] Strict U) as (r & cs & rest & RD & E & L & W). cbn zeta in *. unfold utf32_of in *. rewrite flat_one in *.
      assert (SHP : forall s' a' d', su = s' ++ a' -> reads8 s' a' d' -> s' = su /\ a' = [] /\ d' = c).
      { intros s' a' d' EE RR. pose proof (reads_shape _ _ _ R) as S1. pose proof (reads_shape _ _ _ RR) as S2.
        destruct (shape_prefix _ _ _ _ [] a' S1 S2) as (-> & -> & ->); [rewrite app_nil_r; assumption|]. auto. }
      inversion RD as [rest' E1 E2 E3|s' a' d' cs' rest' RR RD' E1 E2 E3]; subst.
      + exfalso. destruct r.
        * contradiction.
        * destruct W as (b0 & m0 & E1 & L1). destruct (shape_announced _ _ (reads_shape _ _ _ R)) as (b1 & m1 & E2 & L2).
          assert (b0 = b1) by congruence. subst b1. lia.
        * destruct W as (s' & a' & d' & E1 & RR & LT). cbn in LT. lia.
        * destruct W as (_ & _ & W). apply (W rest [] c); [rewrite app_nil_r; reflexivity|assumption].
      + destruct (SHP _ _ _ eq_refl RR) as (E4 & -> & ->). rewrite app_nil_r in *.
        inversion RD'; subst.
        * cbn [length] in *. rewrite Nat.sub_0_r in E. rewrite E. cbn [app skipn]. destruct r; try reflexivity; exfalso.
          -- destruct W as (b2 & m2 & E2 & _); discriminate E2.
          -- destruct W as (s2 & a2 & d2 & E1 & RR2 & _). symmetry in E1. apply app_eq_nil in E1. destruct E1 as [-> _]. exact (reads8_ne _ _ _ RR2 eq_refl).
          -- destruct W as (W & _). contradiction.
        * exfalso. match goal with H : _ ++ _ = [] |- _ => apply app_eq_nil in H; destruct H as [H _]; subst end.
          match goal with H : reads8 [] _ _ |- _ => exact (reads8_ne _ _ _ H eq_refl) end. }
  destruct (ONE _ _ R1 U1 ltac:(discriminate)) as [X1 Y1]. destruct (ONE _ _ R2 U2 ltac:(discriminate)) as [X2 Y2].
  repeat split; auto; apply improper; auto.
Qed.
(** what the conversions from UTF-8 read does not depend on whether they are strict *)
Lemma loop_8_16_flag : forall fuel src s t tgt f g, units 8 src -> (s <= length src)%nat -> loop_8_16 fuel src f s t tgt = loop_8_16 fuel src g s t tgt.
Proof.
  induction fuel as [|fuel IH]; intros src s t tgt f g U L; [reflexivity|]. cbn [loop_8_16].
  destruct (Nat.ltb_spec s (length src)); cbn [negb]; [|reflexivity].
  rewrite <- (firstn_skipn s src) in U. apply units_app in U. destruct U as [U1 U2].
  assert (LP : length (firstn s src) = s) by (apply firstn_length_le; lia).
  assert (NE : skipn s src <> []) by (apply skipn_free; assumption).
  pose proof (next_8_ok (firstn s src) (skipn s src) NE U2) as H8. rewrite firstn_skipn, LP in H8.
  destruct H8 as [[_ ->]|[[_ ->]|(su & c & after & extra & E & R & [RC NS] & N & LE & ->)]]; cbn [rbind]; try reflexivity.
  destruct (Nat.leb (length tgt) t); [reflexivity|].
  assert (US : units 8 src) by (rewrite <- (firstn_skipn s src); apply Forall_app; auto).
  assert (LS : (length (firstn s src ++ su) <= length src)%nat).
  { rewrite <- (firstn_skipn s src) at 2. rewrite E. rewrite !app_length. lia. }
  unfold surrogate, high, low in NS. unfold MAX_BMP, HIGH_START, LOW_END, MAX_UTF16.
  replace ((55296 <=? c) && (c <=? 57343)) with false by (symmetry; apply andb_false_iff; rewrite !Z.leb_gt; lia).
  replace (1114111 <? c) with false by (cmp; reflexivity || lia).
  destruct (c <=? 65535).
  - destruct (set tgt t (u16 c)); cbn [rbind]; auto.
  - destruct (Nat.leb (length tgt) (t + 1)); [reflexivity|]. destruct (set tgt t _) as [t1| | |]; cbn [rbind]; auto.
    destruct (set t1 _ _); cbn [rbind]; auto.
Qed.
Lemma loop_8_32_flag : forall fuel src r s t tgt f g, units 8 src -> (s <= length src)%nat -> loop_8_32 fuel src f r s t tgt = loop_8_32 fuel src g r s t tgt.
Proof.
  induction fuel as [|fuel IH]; intros src r0 s t tgt f g U L; [reflexivity|]. cbn [loop_8_32].
  destruct (Nat.ltb_spec s (length src)); cbn [negb]; [|reflexivity].
  rewrite <- (firstn_skipn s src) in U. apply units_app in U. destruct U as [U1 U2].
  assert (LP : length (firstn s src) = s) by (apply firstn_length_le; lia).
  assert (NE : skipn s src <> []) by (apply skipn_free; assumption).
  pose proof (next_8_ok (firstn s src) (skipn s src) NE U2) as H8. rewrite firstn_skipn, LP in H8.
  destruct H8 as [[_ ->]|[[_ ->]|(su & c & after & extra & E & R & [RC NS] & N & LE & ->)]]; cbn [rbind]; try reflexivity.
  destruct (Nat.leb (length tgt) t); [reflexivity|].
  assert (US : units 8 src) by (rewrite <- (firstn_skipn s src); apply Forall_app; auto).
  assert (LS : (length (firstn s src ++ su) <= length src)%nat).
  { rewrite <- (firstn_skipn s src) at 2. rewrite E. rewrite !app_length. lia. }
  unfold surrogate, high, low in NS. unfold MAX_LEGAL, HIGH_START, LOW_END.
  replace ((55296 <=? c) && (c <=? 57343)) with false by (symmetry; apply andb_false_iff; rewrite !Z.leb_gt; lia).
  destruct (c <=? 1114111); [|lia || idtac].
  - destruct (set tgt t c); cbn [rbind]; auto.
  - destruct (set tgt t REPLACEMENT); cbn [rbind]; auto.
Qed.
Theorem C93_strict_ignored : forall src tgt, units 8 src ->
  ConvertUTF8toUTF16 src tgt Strict = ConvertUTF8toUTF16 src tgt Lenient /\ ConvertUTF8toUTF32 src tgt Strict = ConvertUTF8toUTF32 src tgt Lenient.
Proof. intros. split; [apply loop_8_16_flag|apply loop_8_32_flag]; auto with arith. Qed.
(** a strict conversion from UTF-32 to UTF-16 leaves out values above all characters and
    goes on *)
Lemma read32_app : forall strict src cs rest, read_as (reads32 strict) src cs rest -> src = cs ++ rest.
Proof. intros strict src cs rest R. induction R as [|su after c cs rest RR R IH]; [reflexivity|]. destruct RR. cbn. rewrite IH. reflexivity. Qed.
Theorem C93_strict_drops : forall xs c ys tgt, Forall scalar xs -> Forall scalar ys -> 1114111 < c < 2 ^ 32 ->
  (length (utf16 (xs ++ ys)) < length tgt)%nat ->
  ConvertUTF32toUTF16 (xs ++ c :: ys) tgt Strict =
  Ok (SourceIllegal, length (xs ++ c :: ys), length (utf16 (xs ++ ys)), utf16 (xs ++ ys) ++ skipn (length (utf16 (xs ++ ys))) tgt).
Proof.
  intros xs c ys tgt FX FY C L.
  assert (U : units 32 (xs ++ c :: ys)).
  { apply Forall_app. split; [exact (utf32_text_units _ FX)|]. constructor; [lia|exact (utf32_text_units _ FY)]. }
  assert (AC : as_utf16 true c = []) by (unfold as_utf16; cmp; reflexivity || lia).
  assert (ALL : flat_map (as_utf16 true) (xs ++ c :: ys) = utf16 (xs ++ ys)).
  { unfold utf16. rewrite !flat_map_app. cbn [flat_map]. rewrite AC. cbn [app].
    rewrite !(flat_same (as_utf16 true) utf16_of (as_utf16_scalar true)) by assumption. reflexivity. }
  destruct (C91_utf32_utf16 (xs ++ c :: ys) tgt Strict U) as (r & cs & rest & R & E & LE & W). cbn zeta in *. cbn [is_strict] in *.
  pose proof (read32_app _ _ _ _ R) as SR.
  assert (OUT : (length (flat_map (as_utf16 true) cs) + length (flat_map (as_utf16 true) rest) = length (utf16 (xs ++ ys)))%nat).
  { rewrite <- ALL, SR, flat_map_app, app_length. reflexivity. }
  assert (NS : forall x, In x (xs ++ c :: ys) -> ~ surrogate x).
  { intros x IN. apply in_app_or in IN. destruct IN as [IN|[<-|IN]].
    - rewrite Forall_forall in FX. apply (FX _ IN).
    - unfold surrogate, high, low. lia.
    - rewrite Forall_forall in FY. apply (FY _ IN). }
  assert (DONE : rest = [] -> r = SourceIllegal -> ConvertUTF32toUTF16 (xs ++ c :: ys) tgt Strict =
    Ok (SourceIllegal, length (xs ++ c :: ys), length (utf16 (xs ++ ys)), utf16 (xs ++ ys) ++ skipn (length (utf16 (xs ++ ys))) tgt)).
  { intros -> ->. rewrite app_nil_r in SR. subst cs. rewrite ALL in E. rewrite E. cbn [length]. rewrite Nat.sub_0_r. reflexivity. }
  destruct r.
  - exfalso. destruct W as [-> W]. rewrite app_nil_r in SR. subst cs. apply Forall_app in W. destruct W as [_ W]. apply Forall_inv in W. apply W. split; [reflexivity|lia].
  - contradiction.
  - exfalso. destruct W as (x & after & -> & LT & _). cbn [flat_map] in OUT. rewrite app_length in OUT. lia.
  - destruct W as [[-> _]|(_ & x & after & -> & SU & _)]; [auto|]. exfalso. apply (NS x); [|assumption]. rewrite SR. apply in_or_app. right. left. reflexivity.
Qed.
(** and if the target is too small after that, the result does not tell *)
Example C93_not_told : ConvertUTF32toUTF16 [65; 1114112; 66; 67] [0; 0] Strict = Ok (TargetExhausted, 3%nat, 2%nat, [65; 66]).
Proof. reflexivity. Qed.
Example C93_case : isLegalUTF8Sequence [240; 159; 152; 128; 65] = Ok true /\ isLegalUTF8Sequence [237; 160; 128] = Ok false /\
  isLegalUTF8Sequence [192; 128] = Ok false /\ isLegalUTF8Sequence [240; 159; 152] = Ok false /\ isLegalUTF8Sequence [248; 128; 128; 128; 128] = Ok false /\
  isLegalUTF8Sequence [237; 34; 128] = Ok true.
Proof. repeat split. Qed.
