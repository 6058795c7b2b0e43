(** The loops of the conversions *)
From Coq Require Import ZArith Lia Bool.
From Verif Require Import Base ConvertUtf Spec_Utf P_Utf.
Local Open Scope Z_scope.

Lemma units_app : forall n a b, units n (a ++ b) -> units n a /\ units n b.
Proof. intros n a b H. apply Forall_app in H. exact H. Qed.
Lemma read_as_app : forall reads src cs rest, read_as reads src cs rest -> exists used, src = used ++ rest.
Proof. induction 1 as [|su after c cs rest R H [u ->]]; [exists []; reflexivity|]. exists (su ++ u). rewrite app_assoc. reflexivity. Qed.
Lemma read_as_length : forall reads src cs rest, read_as reads src cs rest -> (length rest <= length src)%nat.
Proof. intros. destruct (read_as_app _ _ _ _ H) as [u ->]. rewrite app_length. lia. Qed.
Lemma skipn_free : forall (T : list Z) n, (n < length T)%nat -> skipn n T <> [].
Proof. intros T n H E. assert (length (skipn n T) = 0%nat) by (rewrite E; reflexivity). rewrite skipn_length in *. lia. Qed.

(** one unit written at the end of what is written *)
Lemma put_one : forall out T v, (length out < length T)%nat ->
  set (out ++ skipn (length out) T) (length out) v = Ok ((out ++ [v]) ++ skipn (length (out ++ [v])) T).
Proof.
  intros. rewrite set_end by (apply skipn_free; assumption). rewrite skipn_skipn'. rewrite (app_length out). reflexivity.
Qed.
Lemma whole_length : forall (out T : list Z), (length out <= length T)%nat -> length (out ++ skipn (length out) T) = length T.
Proof. intros. rewrite app_length, skipn_length. lia. Qed.

(** what a loop that has read [pre] and written [out] still does *)
Definition goes_on (reads : list Z -> list Z -> Z -> Prop) (enc : Z -> list Z) (cut bad : list Z -> Prop) (pre rest out T : list Z) (a : res answer) : Prop :=
  exists r cs rest', let out' := out ++ flat_map enc cs in
    read_as reads rest cs rest' /\
    a = Ok (r, (length pre + length rest - length rest')%nat, length out', out' ++ skipn (length out') T) /\
    (length out' <= length T)%nat /\
    match r with
    | ConversionOK => rest' = []
    | TargetExhausted => exists su after c, rest' = su ++ after /\ reads su after c /\ (length T < length out' + length (enc c))%nat
    | SourceExhausted => cut rest'
    | SourceIllegal => bad rest'
    end.
Lemma goes_accounts : forall reads enc cut bad src tgt a, goes_on reads enc cut bad [] src [] tgt a -> accounts reads enc cut bad src tgt a.
Proof. intros reads enc cut bad src tgt a (r & cs & rest & R & E & L & W). exists r, cs, rest. cbn in *. auto. Qed.
Lemma goes_step : forall (reads : list Z -> list Z -> Z -> Prop) enc (cut bad : list Z -> Prop) pre su after c out T a,
  reads su after c -> goes_on reads enc cut bad (pre ++ su) after (out ++ enc c) T a -> goes_on reads enc cut bad pre (su ++ after) out T a.
Proof.
  intros reads enc cut bad pre su after c out T a R (r & cs & rest & H & E & L & W).
  exists r, (c :: cs), rest. cbn [flat_map]. rewrite app_assoc. cbn zeta in *.
  split; [constructor; assumption|]. split; [|split; assumption].
  rewrite E. rewrite !(app_length pre), (app_length su). f_equal. f_equal. f_equal. f_equal. lia.
Qed.
Lemma goes_stop : forall (reads : list Z -> list Z -> Z -> Prop) enc (cut bad : list Z -> Prop) pre rest out T r,
  (length out <= length T)%nat ->
  match r with
  | ConversionOK => rest = []
  | TargetExhausted => exists su after c, rest = su ++ after /\ reads su after c /\ (length T < length out + length (enc c))%nat
  | SourceExhausted => cut rest
  | SourceIllegal => bad rest
  end ->
  goes_on reads enc cut bad pre rest out T (Ok (r, length pre, length out, out ++ skipn (length out) T)).
Proof.
  intros. exists r, [], rest. cbn [flat_map]. rewrite !app_nil_r. split; [constructor|]. split; [|split; assumption].
  f_equal. f_equal. f_equal. f_equal. lia.
Qed.

Lemma not_end : forall (pre rest : list Z), Nat.ltb (length pre) (length (pre ++ rest)) = match rest with [] => false | _ => true end.
Proof.
  intros. rewrite app_length. destruct rest; cbn [length].
  - rewrite Nat.add_0_r. apply Nat.ltb_irrefl.
  - apply Nat.ltb_lt. lia.
Qed.
Lemma utf16_of_small : forall c, c < 65536 -> utf16_of c = [c].
Proof. intros. unfold utf16_of. cmp; reflexivity || lia. Qed.
Lemma len_utf16 : forall c, (1 <= length (utf16_of c) <= 2)%nat.
Proof. intros. unfold utf16_of. cmp; cbn; lia. Qed.
Lemma put_pair : forall out T c, 65536 <= c <= 1114111 -> (length out + 1 < length T)%nat ->
  (tgt <-- set (out ++ skipn (length out) T) (length out) (u16 (u32 (Z.shiftr (u32 (c - halfBase)) halfShift + HIGH_START))) ;;
   set tgt (S (length out)) (u16 (u32 (Z.land (u32 (c - halfBase)) halfMask + LOW_START)))) =
  Ok ((out ++ utf16_of c) ++ skipn (length (out ++ utf16_of c)) T).
Proof.
  intros out T c R L. rewrite put_one by lia. cbn [rbind].
  replace (S (length out)) with (length (out ++ [u16 (u32 (Z.shiftr (u32 (c - halfBase)) halfShift + HIGH_START))])) by (rewrite app_length; cbn; lia).
  rewrite put_one by (rewrite app_length; cbn; lia). rewrite pair_first, pair_second by assumption.
  unfold utf16_of. cmp; [lia|]. rewrite <- !(app_assoc out). reflexivity.
Qed.

(** ** UTF-8 to UTF-16 *)
Lemma loop_8_16_ok : forall fuel pre rest f out T, (length rest < fuel)%nat -> units 8 rest -> (length out <= length T)%nat ->
  goes_on reads8 utf16_of cut8 malformed8 pre rest out T (loop_8_16 fuel (pre ++ rest) f (length pre) (length out) (out ++ skipn (length out) T)).
Proof.
  induction fuel as [|fuel IH]; intros pre rest f out T F U L; [lia|]. cbn [loop_8_16]. rewrite not_end.
  destruct rest as [|b more]; cbn [negb].
  { apply goes_stop; auto. }
  destruct (next_8_ok pre (b :: more) ltac:(discriminate) U) as [[C ->]|[[M ->]|(su & c & after & extra & E & R & SC & N & LE & ->)]]; cbn [rbind].
  - apply goes_stop; auto.
  - apply goes_stop; auto.
  - rewrite E in *. rewrite whole_length by assumption.
    assert (BACK : (length (pre ++ su) - (extra + 1))%nat = length pre) by (rewrite app_length; lia). rewrite BACK.
    destruct SC as [RC NS]. unfold surrogate, high, low in NS.
    pose proof (len_utf16 c) as L16.
    destruct (Nat.leb_spec (length T) (length out)).
    { apply goes_stop; [assumption|]. exists su, after, c. repeat split; auto. lia. }
    rewrite app_assoc.
    destruct (Z.leb_spec c MAX_BMP) as [Q|Q]; unfold MAX_BMP, MAX_UTF16 in *.
    + replace ((HIGH_START <=? c) && (c <=? LOW_END)) with false by (unfold HIGH_START, LOW_END; cmp; cbn; reflexivity || lia).
      rewrite u16_small by lia. rewrite put_one by assumption. cbn [rbind].
      apply goes_step with (c := c); [assumption|]. rewrite utf16_of_small by lia.
      replace (S (length out)) with (length (out ++ [c])) by (rewrite app_length; cbn; lia).
      apply IH.
      * assert (length (su ++ after) = length (b :: more)) by (rewrite E; reflexivity). rewrite app_length in *. cbn in *. destruct su; [contradiction|cbn in *; lia].
      * apply units_app in U. apply U.
      * rewrite app_length. cbn. lia.
    + replace (1114111 <? c) with false by (cmp; reflexivity || lia).
      assert (L2 : length (utf16_of c) = 2%nat) by (unfold utf16_of; cmp; reflexivity || lia).
      destruct (Nat.leb_spec (length T) (length out + 1)).
      { apply goes_stop; [assumption|]. exists su, after, c. repeat split; auto. lia. }
      pose proof (put_pair out T c ltac:(lia) ltac:(lia)) as PP.
      destruct (set (out ++ skipn (length out) T) (length out) (u16 (u32 (Z.shiftr (u32 (c - halfBase)) halfShift + HIGH_START)))) as [t1| | |]; try discriminate PP.
      cbn [rbind] in *. rewrite PP. cbn [rbind].
      apply goes_step with (c := c); [assumption|].
      replace (S (S (length out))) with (length (out ++ utf16_of c)) by (rewrite app_length; lia).
      apply IH.
      * assert (length (su ++ after) = length (b :: more)) by (rewrite E; reflexivity). rewrite app_length in *. cbn in *. destruct su; [contradiction|cbn in *; lia].
      * apply units_app in U. apply U.
      * rewrite app_length. lia.
Qed.

(** ** UTF-8 to UTF-32 *)
Lemma loop_8_32_ok : forall fuel pre rest f out T, (length rest < fuel)%nat -> units 8 rest -> (length out <= length T)%nat ->
  goes_on reads8 utf32_of cut8 malformed8 pre rest out T (loop_8_32 fuel (pre ++ rest) f ConversionOK (length pre) (length out) (out ++ skipn (length out) T)).
Proof.
  induction fuel as [|fuel IH]; intros pre rest f out T F U L; [lia|]. cbn [loop_8_32]. rewrite not_end.
  destruct rest as [|b more]; cbn [negb].
  { apply goes_stop; auto. }
  destruct (next_8_ok pre (b :: more) ltac:(discriminate) U) as [[C ->]|[[M ->]|(su & c & after & extra & E & R & SC & N & LE & ->)]]; cbn [rbind].
  - apply goes_stop; auto.
  - apply goes_stop; auto.
  - rewrite E in *. rewrite whole_length by assumption.
    assert (BACK : (length (pre ++ su) - (extra + 1))%nat = length pre) by (rewrite app_length; lia). rewrite BACK.
    destruct SC as [RC NS]. unfold surrogate, high, low in NS.
    destruct (Nat.leb_spec (length T) (length out)).
    { apply goes_stop; [assumption|]. exists su, after, c. repeat split; auto. cbn. lia. }
    rewrite app_assoc.
    destruct (Z.leb_spec c MAX_LEGAL) as [Q|Q]; unfold MAX_LEGAL in *; [|lia].
    replace ((HIGH_START <=? c) && (c <=? LOW_END)) with false by (unfold HIGH_START, LOW_END; cmp; cbn; reflexivity || lia).
    rewrite put_one by assumption. cbn [rbind].
    apply goes_step with (c := c); [assumption|]. unfold utf32_of at 2.
    replace (S (length out)) with (length (out ++ [c])) by (rewrite app_length; cbn; lia).
    apply IH.
    + assert (length (su ++ after) = length (b :: more)) by (rewrite E; reflexivity). rewrite app_length in *. cbn in *. destruct su; [contradiction|cbn in *; lia].
    + apply units_app in U. apply U.
    + rewrite app_length. cbn. lia.
Qed.

(** ** reading UTF-16 *)
Lemma next_16_ok : forall pre rest f, rest <> [] -> units 16 rest ->
  (cut16 rest /\ next_16 (pre ++ rest) f (length pre) = Ok (inl (SourceExhausted, length pre))) \/
  (f = Strict /\ unpaired rest /\ next_16 (pre ++ rest) f (length pre) = Ok (inl (SourceIllegal, length pre))) \/
  (exists su c after, rest = su ++ after /\ reads16 (is_strict f) su after c /\ 0 <= c <= 1114111 /\ su <> [] /\
     next_16 (pre ++ rest) f (length pre) = Ok (inr (c, length (pre ++ su)))).
Proof.
  intros pre rest f N U. destruct rest as [|x more]; [contradiction|]. unfold next_16. rewrite get_at. cbn [rbind].
  apply units_cons in U. destruct U as [X U]. change (2 ^ 16) with 65536 in X.
  unfold HIGH_START, HIGH_END, LOW_START, LOW_END.
  assert (SELF : ~ surrogate x -> reads16 (is_strict f) [x] more x).
  { intro NS. rewrite <- (utf16_of_small x) at 1 by lia. constructor. split; [lia|assumption]. }
  assert (ONE : reads16 (is_strict f) [x] more x -> exists su c after, x :: more = su ++ after /\ reads16 (is_strict f) su after c /\ 0 <= c <= 1114111 /\ su <> [] /\
     Ok (inr (x, S (length pre))) = Ok (inr (c, length (pre ++ su))) :> res ((conversion * nat) + (Z * nat))).
  { intro R. exists [x], x, more. split; [reflexivity|]. split; [assumption|]. split; [lia|]. split; [discriminate|]. rewrite app_length, Nat.add_comm. reflexivity. }
  destruct ((55296 <=? x) && (x <=? 56319)) eqn:HI.
  2: { apply andb_false_iff in HI. rewrite !Z.leb_gt in HI. destruct f; cbn [is_strict] in *.
       - destruct ((56320 <=? x) && (x <=? 57343)) eqn:LO.
         + apply andb_true_iff in LO. rewrite !Z.leb_le in LO. right; left. split; [reflexivity|]. split; [|reflexivity].
           left. exists x, more. split; [reflexivity|unfold low; lia].
         + apply andb_false_iff in LO. rewrite !Z.leb_gt in LO. right; right. apply ONE, SELF. unfold surrogate, high, low. lia.
       - right; right. apply ONE. destruct ((56320 <=? x) && (x <=? 57343)) eqn:LO.
         + apply andb_true_iff in LO. rewrite !Z.leb_le in LO. apply read_low; [reflexivity|unfold low; lia].
         + apply andb_false_iff in LO. rewrite !Z.leb_gt in LO. apply SELF. unfold surrogate, high, low. lia. }
  apply andb_true_iff in HI. rewrite !Z.leb_le in HI. clear SELF ONE.
  (* a high surrogate *)
  replace (S (length pre)) with (length (pre ++ [x])) by (rewrite app_length; cbn; lia).
  change (pre ++ x :: more) with (pre ++ [x] ++ more). rewrite (app_assoc pre). rewrite not_end.
  destruct more as [|y more].
  - left. split; [exists x; split; [reflexivity|unfold high; lia]|]. rewrite app_length, Nat.add_comm. reflexivity.
  - rewrite get_at. cbn [rbind]. apply units_cons in U. destruct U as [Y U]. change (2 ^ 16) with 65536 in Y.
    destruct (Z.leb_spec 56320 y); destruct (Z.leb_spec y 57343); cbn [andb].
    { right; right. unfold halfShift, halfBase. rewrite shiftl_10.
      set (c := (x - 55296) * 1024 + (y - 56320) + 65536).
      exists [x; y], c, more. split; [reflexivity|]. split; [|split; [unfold c; lia|split; [discriminate|]]].
      - replace [x; y] with (utf16_of c); [constructor; split; [unfold c; lia|unfold surrogate, high, low, c; lia]|].
        unfold utf16_of, c. cmp; [lia|].
        replace (((x - 55296) * 1024 + (y - 56320) + 65536 - 65536) / 1024) with (x - 55296) by zdm.
        replace (((x - 55296) * 1024 + (y - 56320) + 65536 - 65536) mod 1024) with (y - 56320) by zdm.
        f_equal; [lia|f_equal; lia].
      - rewrite (u32_small (x - 55296)), (u32_small (y - 56320)) by lia.
        rewrite (u32_small ((x - 55296) * 1024)) by lia. rewrite (u32_small ((x - 55296) * 1024 + (y - 56320))) by lia. rewrite u32_small by lia.
        rewrite !app_length. cbn [length]. fold c. do 3 f_equal. lia. }
    all: destruct f; cbn [is_strict].
    1,3,5: right; left; (split; [reflexivity|]); (split; [right; exists x, y, more; (split; [reflexivity|]); unfold high, low; lia|]); rewrite app_length, Nat.add_comm; reflexivity.
    all: right; right; exists [x], x, (y :: more); (split; [reflexivity|]); (split; [|split; [lia|split; [discriminate|reflexivity]]]).
    all: apply read_high; [reflexivity|unfold high; lia|unfold low; lia].
Qed.

(** ** UTF-16 to UTF-32, UTF-16 to UTF-8 *)
Definition bad16 (f : flag) (rest : list Z) : Prop := f = Strict /\ unpaired rest.
Lemma loop_16_32_ok : forall fuel pre rest f out T, (length rest < fuel)%nat -> units 16 rest -> (length out <= length T)%nat ->
  goes_on (reads16 (is_strict f)) utf32_of cut16 (bad16 f) pre rest out T (loop_16_32 fuel (pre ++ rest) f (length pre) (length out) (out ++ skipn (length out) T)).
Proof.
  induction fuel as [|fuel IH]; intros pre rest f out T F U L; [lia|]. cbn [loop_16_32]. rewrite not_end.
  destruct rest as [|b more]; cbn [negb].
  { apply goes_stop; auto. }
  destruct (next_16_ok pre (b :: more) f ltac:(discriminate) U) as [[C ->]|[(ST & M & ->)|(su & c & after & E & R & SC & N & ->)]]; cbn [rbind].
  - apply goes_stop; auto.
  - apply goes_stop; [assumption|]. split; assumption.
  - rewrite E in *. rewrite whole_length by assumption.
    destruct (Nat.leb_spec (length T) (length out)).
    { apply goes_stop; [assumption|]. exists su, after, c. repeat split; auto. cbn. lia. }
    rewrite app_assoc. rewrite put_one by assumption. cbn [rbind].
    apply goes_step with (c := c); [assumption|]. unfold utf32_of at 2.
    replace (S (length out)) with (length (out ++ [c])) by (rewrite app_length; cbn; lia).
    apply IH.
    + assert (length (su ++ after) = length (b :: more)) by (rewrite E; reflexivity). rewrite app_length in *. cbn in *. destruct su; [contradiction|cbn in *; lia].
    + apply units_app in U. apply U.
    + rewrite app_length. cbn. lia.
Qed.
Lemma put_utf8 : forall c out T, 0 <= c <= 1114111 -> (length out + bytesToWrite c <= length T)%nat ->
  write_back (bytesToWrite c) (firstByteMark (bytesToWrite c)) c (length out + bytesToWrite c) (out ++ skipn (length out) T) =
  Ok ((out ++ utf8_of c) ++ skipn (length (out ++ utf8_of c)) T).
Proof.
  intros. rewrite write_back_ok; [|assumption|rewrite skipn_length; lia].
  rewrite skipn_skipn'. rewrite (app_length out), len_utf8 by assumption. reflexivity.
Qed.
Lemma loop_16_8_ok : forall fuel pre rest f out T, (length rest < fuel)%nat -> units 16 rest -> (length out <= length T)%nat ->
  goes_on (reads16 (is_strict f)) utf8_of cut16 (bad16 f) pre rest out T (loop_16_8 fuel (pre ++ rest) f (length pre) (length out) (out ++ skipn (length out) T)).
Proof.
  induction fuel as [|fuel IH]; intros pre rest f out T F U L; [lia|]. cbn [loop_16_8]. rewrite not_end.
  destruct rest as [|b more]; cbn [negb].
  { apply goes_stop; auto. }
  destruct (next_16_ok pre (b :: more) f ltac:(discriminate) U) as [[C ->]|[(ST & M & ->)|(su & c & after & E & R & SC & N & ->)]]; cbn [rbind].
  - apply goes_stop; auto.
  - apply goes_stop; [assumption|]. split; assumption.
  - rewrite E in *. rewrite whole_length by assumption.
    replace (c <? 1114112) with true by (cmp; reflexivity || lia).
    destruct (Nat.ltb_spec (length T) (length out + bytesToWrite c)).
    { rewrite Nat.add_sub. apply goes_stop; [assumption|]. exists su, after, c. repeat split; auto. rewrite len_utf8 by assumption. lia. }
    rewrite app_assoc. rewrite put_utf8 by assumption. cbn [rbind].
    apply goes_step with (c := c); [assumption|].
    replace (length out + bytesToWrite c)%nat with (length (out ++ utf8_of c)) by (rewrite app_length, len_utf8 by assumption; reflexivity).
    apply IH.
    + assert (length (su ++ after) = length (b :: more)) by (rewrite E; reflexivity). rewrite app_length in *. cbn in *. destruct su; [contradiction|cbn in *; lia].
    + apply units_app in U. apply U.
    + rewrite app_length, len_utf8 by assumption. lia.
Qed.
