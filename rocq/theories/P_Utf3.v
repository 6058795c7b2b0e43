(** The conversions from UTF-32 *)
From Coq Require Import ZArith Lia Bool.
From Verif Require Import Base ConvertUtf Spec_Utf P_Utf P_Utf2.
Local Open Scope Z_scope.

Definition goes_on32 (strict : bool) (enc : Z -> list Z) (counted : Z -> Prop) (room : Z -> nat) (first : bool) (sofar : conversion) (pre rest out T : list Z) (a : res answer) : Prop :=
  exists r cs rest', let out' := out ++ flat_map enc cs in
    read_as (reads32 strict) rest cs rest' /\
    a = Ok (r, (length pre + length rest - length rest')%nat, length out', out' ++ skipn (length out') T) /\
    (length out' <= length T)%nat /\
    match r with
    | ConversionOK => rest' = [] /\ sofar = ConversionOK /\ Forall (fun c => ~ counted c) cs
    | TargetExhausted => exists c after, rest' = c :: after /\ (length T < length out' + room c)%nat /\
                                         (first = false -> strict = true -> ~ surrogate c)
    | SourceExhausted => False
    | SourceIllegal =>
        (rest' = [] /\ (sofar = SourceIllegal \/ Exists counted cs)) \/
        (strict = true /\ exists c after, rest' = c :: after /\ surrogate c /\ (first = true -> (length out' < length T)%nat))
    end.
Lemma goes_accounts32 : forall strict enc counted room first src tgt a,
  goes_on32 strict enc counted room first ConversionOK [] src [] tgt a -> accounts32 strict enc counted room first src tgt a.
Proof.
  intros strict enc counted room first src tgt a (r & cs & rest & R & E & L & W). exists r, cs, rest. cbn in *.
  repeat split; auto. destruct r; auto.
  - tauto.
  - destruct W as [[A [B|B]]|B]; auto; discriminate.
Qed.
Lemma goes_step32 : forall strict enc (counted : Z -> Prop) room first sofar sofar' pre c after out T a,
  (strict = true -> ~ surrogate c) ->
  (sofar' = ConversionOK -> sofar = ConversionOK /\ ~ counted c) -> (sofar' = SourceIllegal -> sofar = SourceIllegal \/ counted c) ->
  goes_on32 strict enc counted room first sofar' (pre ++ [c]) after (out ++ enc c) T a -> goes_on32 strict enc counted room first sofar pre (c :: after) out T a.
Proof.
  intros strict enc counted room first sofar sofar' pre c after out T a NS P1 P2 (r & cs & rest & H & E & L & W).
  exists r, (c :: cs), rest. cbn [flat_map]. rewrite app_assoc. cbn zeta in *.
  split; [change (c :: after) with ([c] ++ after); constructor; [constructor; assumption|assumption]|]. split; [|split; [assumption|]].
  - rewrite E. rewrite !(app_length pre). cbn [length]. f_equal. f_equal. f_equal. f_equal. lia.
  - destruct r; auto.
    + destruct W as (A & B & C). destruct (P1 B). repeat split; auto.
    + destruct W as [[A B]|B]; [|right; assumption]. left. split; [assumption|]. destruct B as [B|B]; [|right; right; assumption].
      destruct (P2 B); [left; assumption|right; left; assumption].
Qed.
Lemma goes_stop32 : forall strict enc counted room first sofar pre rest out T r,
  (length out <= length T)%nat ->
  match r with
  | ConversionOK => rest = [] /\ sofar = ConversionOK
  | TargetExhausted => exists c after, rest = c :: after /\ (length T < length out + room c)%nat /\ (first = false -> strict = true -> ~ surrogate c)
  | SourceExhausted => False
  | SourceIllegal => (rest = [] /\ sofar = SourceIllegal) \/ (strict = true /\ exists c after, rest = c :: after /\ surrogate c /\ (first = true -> (length out < length T)%nat))
  end ->
  goes_on32 strict enc counted room first sofar pre rest out T (Ok (r, length pre, length out, out ++ skipn (length out) T)).
Proof.
  intros. exists r, [], rest. cbn [flat_map]. rewrite !app_nil_r. split; [constructor|]. split; [|split; [assumption|]].
  - f_equal. f_equal. f_equal. f_equal. lia.
  - destruct r; auto. + destruct H0. repeat split; auto. + tauto.
Qed.

Definition room16 (strict : bool) (c : Z) : nat := Nat.max 1 (length (as_utf16 strict c)).
Definition counted16 (strict : bool) (c : Z) : Prop := strict = true /\ 1114111 < c.
Lemma loop_32_16_ok : forall fuel pre rest f sofar out T, (length rest < fuel)%nat -> units 32 rest -> (length out <= length T)%nat ->
  sofar = ConversionOK \/ sofar = SourceIllegal ->
  goes_on32 (is_strict f) (as_utf16 (is_strict f)) (counted16 (is_strict f)) (room16 (is_strict f)) true sofar pre rest out T
    (loop_32_16 fuel (pre ++ rest) f sofar (length pre) (length out) (out ++ skipn (length out) T)).
Proof.
  induction fuel as [|fuel IH]; intros pre rest f sofar out T F U L SF; [lia|]. cbn [loop_32_16]. rewrite not_end.
  destruct rest as [|c more]; cbn [negb].
  { apply goes_stop32; [assumption|]. destruct SF; subst; auto. }
  rewrite whole_length by assumption.
  apply units_cons in U. destruct U as [RC U]. change (2 ^ 32) with 4294967296 in RC.
  destruct (Nat.leb_spec (length T) (length out)).
  { apply goes_stop32; [assumption|]. exists c, more. unfold room16. repeat split; [lia|discriminate]. }
  rewrite get_at. cbn [rbind].
  assert (PC : pre ++ c :: more = (pre ++ [c]) ++ more) by (rewrite <- app_assoc; reflexivity).
  assert (PL : S (length pre) = length (pre ++ [c])) by (rewrite app_length; cbn; lia).
  assert (ST : forall v sofar', (is_strict f = true -> ~ surrogate c) -> as_utf16 (is_strict f) c = v -> (length out + length v <= length T)%nat ->
    (sofar' = ConversionOK -> sofar = ConversionOK /\ ~ counted16 (is_strict f) c) -> (sofar' = SourceIllegal -> sofar = SourceIllegal \/ counted16 (is_strict f) c) ->
    sofar' = ConversionOK \/ sofar' = SourceIllegal ->
    goes_on32 (is_strict f) (as_utf16 (is_strict f)) (counted16 (is_strict f)) (room16 (is_strict f)) true sofar pre (c :: more) out T
      (loop_32_16 fuel (pre ++ c :: more) f sofar' (S (length pre)) (length (out ++ v)) ((out ++ v) ++ skipn (length (out ++ v)) T))).
  { intros v sofar' NS AV LV P1 P2 P3. rewrite PC, PL. eapply goes_step32; eauto. rewrite AV. apply IH; auto.
    - cbn in F. lia. - rewrite app_length. lia. }
  unfold as_utf16, counted16 in ST. unfold MAX_BMP, HIGH_START, LOW_END, MAX_LEGAL.
  destruct (Z.leb_spec c 65535).
  - destruct ((55296 <=? c) && (c <=? 57343)) eqn:SU.
    + pose proof SU as SU'. apply andb_true_iff in SU'. rewrite !Z.leb_le in SU'.
      destruct f; cbn [is_strict] in *.
      * apply goes_stop32; [assumption|]. right. split; [reflexivity|]. exists c, more. repeat split; auto. unfold surrogate, high, low. lia.
      * change (u16 REPLACEMENT) with 65533. rewrite put_one by assumption. cbn [rbind].
        replace (S (length out)) with (length (out ++ [65533])) by (rewrite app_length; cbn; lia).
        apply ST; auto; try discriminate; try lia.
        -- replace (c <=? 1114111) with true by (cmp; reflexivity || lia). reflexivity.
        -- cbn. lia.
        -- intros ->. split; [reflexivity|]. lia.
    + pose proof SU as SU'. apply andb_false_iff in SU'. rewrite !Z.leb_gt in SU'.
      rewrite u16_small by lia. rewrite put_one by assumption. cbn [rbind].
      replace (S (length out)) with (length (out ++ [c])) by (rewrite app_length; cbn; lia).
      apply ST; auto.
      * intros _. unfold surrogate, high, low. lia.
      * replace (c <=? 1114111) with true by (cmp; reflexivity || lia). rewrite utf16_of_small by lia. reflexivity.
      * cbn. lia.
      * intros ->. split; [reflexivity|]. lia.
  - assert (NS : ~ surrogate c) by (unfold surrogate, high, low; lia).
    destruct (Z.ltb_spec 1114111 c).
    + destruct f; cbn [is_strict] in *.
      * replace (out ++ skipn (length out) T) with ((out ++ []) ++ skipn (length (out ++ [])) T) by (rewrite app_nil_r; reflexivity).
        replace (length out) with (length (out ++ [])) at 1 by (rewrite app_nil_r; reflexivity).
        apply ST; auto; try discriminate.
        -- replace (c <=? 1114111) with false by (cmp; reflexivity || lia). reflexivity.
        -- cbn. lia.
      * change (u16 REPLACEMENT) with 65533. rewrite put_one by assumption. cbn [rbind].
        replace (S (length out)) with (length (out ++ [65533])) by (rewrite app_length; cbn; lia).
        apply ST; auto; try discriminate.
        -- replace (c <=? 1114111) with false by (cmp; reflexivity || lia). reflexivity.
        -- cbn. lia.
        -- intros ->. split; [reflexivity|]. intros [? _]; discriminate.
    + assert (A16 : (if c <=? 1114111 then if (55296 <=? c) && (c <=? 57343) then [65533] else utf16_of c else if is_strict f then [] else [65533]) = utf16_of c).
      { replace (c <=? 1114111) with true by (cmp; reflexivity || lia). replace (c <=? 57343) with false by (cmp; reflexivity || lia). rewrite andb_false_r. reflexivity. }
      assert (L2 : length (utf16_of c) = 2%nat) by (unfold utf16_of; cmp; reflexivity || lia).
      destruct (Nat.leb_spec (length T) (length out + 1)).
      { cbn [prev rbind]. apply goes_stop32; [assumption|]. exists c, more. unfold room16, as_utf16. rewrite A16, L2. repeat split; [cbn; lia|discriminate]. }
      pose proof (put_pair out T c ltac:(lia) ltac:(lia)) as PP.
      destruct (set (out ++ skipn (length out) T) (length out) (u16 (u32 (Z.shiftr (u32 (c - halfBase)) halfShift + HIGH_START)))) as [t1| | |] eqn:S1; try discriminate PP.
      unfold HIGH_START in S1. rewrite S1. cbn [rbind] in *. rewrite PP. cbn [rbind].
      replace (S (S (length out))) with (length (out ++ utf16_of c)) by (rewrite app_length; lia).
      apply ST; auto. * lia. * intros ->. split; [reflexivity|]. lia.
Qed.

Definition counted8 (c : Z) : Prop := 1114111 < c.
Lemma loop_32_8_ok : forall fuel pre rest f sofar out T, (length rest < fuel)%nat -> units 32 rest -> (length out <= length T)%nat ->
  sofar = ConversionOK \/ sofar = SourceIllegal ->
  goes_on32 (is_strict f) as_utf8 counted8 (fun c => length (as_utf8 c)) false sofar pre rest out T
    (loop_32_8 fuel (pre ++ rest) f sofar (length pre) (length out) (out ++ skipn (length out) T)).
Proof.
  induction fuel as [|fuel IH]; intros pre rest f sofar out T F U L SF; [lia|]. cbn [loop_32_8]. rewrite not_end.
  destruct rest as [|c more]; cbn [negb].
  { apply goes_stop32; [assumption|]. destruct SF; subst; auto. }
  rewrite whole_length by assumption.
  apply units_cons in U. destruct U as [RC U]. change (2 ^ 32) with 4294967296 in RC.
  rewrite get_at. cbn [rbind]. unfold HIGH_START, LOW_END, MAX_LEGAL.
  destruct (is_strict f && ((55296 <=? c) && (c <=? 57343))) eqn:SU.
  { rewrite !andb_true_iff, !Z.leb_le in SU. cbn [prev rbind]. apply goes_stop32; [assumption|]. right. split; [tauto|].
    exists c, more. repeat split; [|discriminate]. unfold surrogate, high, low. lia. }
  assert (NS : is_strict f = true -> ~ surrogate c).
  { intros ST. rewrite ST in SU. cbn [andb] in SU. apply andb_false_iff in SU. rewrite !Z.leb_gt in SU. unfold surrogate, high, low. lia. }
  assert (PC : pre ++ c :: more = (pre ++ [c]) ++ more) by (rewrite <- app_assoc; reflexivity).
  assert (PL : S (length pre) = length (pre ++ [c])) by (rewrite app_length; cbn; lia).
  destruct (Z.leb_spec c 1114111).
  - assert (A8 : as_utf8 c = utf8_of c) by (unfold as_utf8; cmp; reflexivity || lia).
    destruct (Nat.ltb_spec (length T) (length out + bytesToWrite c)).
    { cbn [prev rbind]. rewrite Nat.add_sub. apply goes_stop32; [assumption|]. exists c, more. rewrite A8, len_utf8 by lia. auto. }
    rewrite put_utf8 by lia. cbn [rbind]. rewrite PC, PL.
    replace (length out + bytesToWrite c)%nat with (length (out ++ utf8_of c)) by (rewrite app_length, len_utf8 by lia; reflexivity).
    apply goes_step32 with (sofar' := sofar); auto.
    + intros ->. split; [reflexivity|]. unfold counted8. lia.
    + rewrite A8. apply IH; auto. * cbn in F. lia. * rewrite app_length, len_utf8 by lia. lia.
  - assert (A8 : as_utf8 c = [239; 191; 189]) by (unfold as_utf8; cmp; reflexivity || lia).
    assert (B : bytesToWrite c = bytesToWrite REPLACEMENT) by (unfold bytesToWrite; change (REPLACEMENT <? 128) with false; change (REPLACEMENT <? 2048) with false; change (REPLACEMENT <? 65536) with true; cmp; reflexivity || lia).
    rewrite B. change (bytesToWrite REPLACEMENT) with 3%nat at 1 2.
    destruct (Nat.ltb_spec (length T) (length out + 3)).
    { cbn [prev rbind]. rewrite Nat.add_sub. apply goes_stop32; [assumption|]. exists c, more. rewrite A8. auto. }
    change 3%nat with (bytesToWrite REPLACEMENT). rewrite put_utf8 by (unfold REPLACEMENT; cbn; lia).
    change (utf8_of REPLACEMENT) with [239; 191; 189]. cbn [rbind]. rewrite PC, PL.
    replace (length out + bytesToWrite REPLACEMENT)%nat with (length (out ++ [239; 191; 189])) by (rewrite app_length; reflexivity).
    apply goes_step32 with (sofar' := SourceIllegal); auto.
    + discriminate.
    + rewrite A8. apply IH; auto. * cbn in F. lia. * rewrite app_length. cbn. lia.
Qed.
