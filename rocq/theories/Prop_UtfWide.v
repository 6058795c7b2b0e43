(** C94: texts in wide characters *)
From Coq Require Import ZArith Lia Bool.
From Verif Require Import Base ConvertUtf Spec_Utf P_Utf P_Utf2 P_Utf3 P_Utf4 Prop_Utf.
Local Open Scope Z_scope.

(** a text as an array of wide characters *)
Definition wide_text (w : wide) (cs : list Z) : list Z := match w with Wide16 => utf16 cs | Wide32 => cs end.
Definition wide_bits (w : wide) : Z := match w with Wide16 => 16 | Wide32 => 32 end.
(** the mark that may stand before a text in UTF-8 *)
Definition mark : list Z := [239; 187; 191].
(** data is a text with or without the mark *)
Definition unmarked (data body : list Z) : Prop :=
  data = mark ++ body \/ (body = data /\ forall rest, data <> mark ++ rest).

Lemma reads8_size : forall su after c, reads8 su after c -> (1 <= length (utf16_of c) <= length su)%nat.
Proof.
  intros su after c R. apply reads_shape in R. unfold utf16_of. destruct R; cmp; cbn; try lia.
Qed.
Lemma read_as_size : forall (enc : Z -> list Z), (forall su after c, reads8 su after c -> length (enc c) <= length su)%nat ->
  forall src cs rest, read_as reads8 src cs rest -> (length (flat_map enc cs) + length rest <= length src)%nat.
Proof.
  intros enc H src cs rest R. induction R as [|su after c cs rest R R' IH]; [cbn; lia|]. cbn. rewrite !app_length.
  pose proof (H _ _ _ R). lia.
Qed.
Lemma read_rest : forall src cs rest, read_as reads8 src cs rest -> forall ds, read_as reads8 src ds [] -> exists es, ds = cs ++ es /\ read_as reads8 rest es [].
Proof.
  induction 1 as [rest|su after c cs rest R H IH]; intros ds D.
  - exists ds. auto.
  - inversion D as [r E1 E2 E3|su' after' c' ds' rest' R' D' E1 E2 E3]; subst.
    + exfalso. match goal with X : _ = su ++ after |- _ => symmetry in X; apply app_eq_nil in X; destruct X as [X _]; exact (reads8_ne _ _ _ R X) | X : su ++ after = [] |- _ => apply app_eq_nil in X; destruct X as [X _]; exact (reads8_ne _ _ _ R X) end.
    + destruct (shape_prefix _ _ _ _ after' after (reads_shape _ _ _ R') (reads_shape _ _ _ R)) as (-> & -> & ->); [assumption|].
      destruct (IH _ D') as (es & -> & X). exists es. auto.
Qed.
Lemma no_reading : forall rest, cut8 rest \/ malformed8 rest -> forall es, ~ read_as reads8 rest es [].
Proof.
  intros rest H es R. inversion R as [r E1 E2 E3|su after c ds rest' R' D' E1 E2 E3]; subst.
  - destruct H as [(b & m & E & _)|(N & _)]; [discriminate E|contradiction].
  - destruct H as [(b & m & E & L)|(_ & _ & N)].
    + destruct (shape_announced _ _ (reads_shape _ _ _ R')) as (b' & m' & E' & L'). rewrite E' in E. inversion E; subst b'.
      rewrite app_length in L. lia.
    + exact (N _ _ _ eq_refl R').
Qed.
Lemma firstn_zeros : forall n, firstn n (repeat 0 (n + 1)) = repeat 0 n.
Proof. intros. rewrite repeat_app. rewrite <- (repeat_length 0 n) at 1. rewrite prefix_back. reflexivity. Qed.
Lemma skipn_zeros : forall n k, skipn k (repeat 0 n) = repeat 0 (n - k).
Proof. induction n; intros [|k]; cbn; auto. Qed.
Lemma zeros_end : forall n, repeat 0 n ++ [0] = repeat 0 (n + 1).
Proof. intros. rewrite repeat_app. reflexivity. Qed.

Lemma from_store : forall w body, units 8 body ->
  (exists cs, read_as reads8 body cs [] /\
     ConvertFromStore w body (repeat 0 (length body)) = Ok (true, wide_text w cs ++ repeat 0 (length body - length (wide_text w cs))) /\ (length (wide_text w cs) <= length body)%nat) \/
  ((forall cs, ~ read_as reads8 body cs []) /\ exists out, ConvertFromStore w body (repeat 0 (length body)) = Ok (false, out)).
Proof.
  intros w body U.
  assert (G : forall (enc : Z -> list Z) cs rest su after c, (forall su after c, reads8 su after c -> length (enc c) <= length su)%nat ->
     read_as reads8 body cs rest -> rest = su ++ after -> reads8 su after c -> (length body < length (flat_map enc cs) + length (enc c))%nat -> False).
  { intros enc cs rest su after c H R E RR LT. pose proof (read_as_size enc H _ _ _ R). pose proof (H _ _ _ RR). rewrite E, app_length in *. lia. }
  unfold ConvertFromStore. destruct w; cbn [wide_text].
  - assert (SZ : forall su after c, reads8 su after c -> (length (utf16_of c) <= length su)%nat) by (intros; apply (reads8_size su after c); assumption).
    destruct (C91_utf8_utf16 body (repeat 0 (length body)) Lenient U) as (r & cs & rest & R & E & L & W). cbn zeta in *. rewrite E. rewrite repeat_length in *. cbn [rbind is_ok array_of].
    destruct r.
    + subst rest. left. exists cs. split; [assumption|]. rewrite skipn_zeros. auto.
    + right. split; [|eauto]. intros ds D. destruct (read_rest _ _ _ R _ D) as (es & _ & X). exact (no_reading rest (or_introl W) _ X).
    + exfalso. destruct W as (su & after & c & EE & RR & LT). eapply (G utf16_of); eauto.
    + right. split; [|eauto]. intros ds D. destruct (read_rest _ _ _ R _ D) as (es & _ & X). exact (no_reading rest (or_intror W) _ X).
  - assert (SZ : forall su after c, reads8 su after c -> (length (utf32_of c) <= length su)%nat) by (intros su after c R; pose proof (reads8_size su after c R); cbn; lia).
    destruct (C91_utf8_utf32 body (repeat 0 (length body)) Lenient U) as (r & cs & rest & R & E & L & W). cbn zeta in *. rewrite E. rewrite repeat_length in *. cbn [rbind is_ok array_of].
    destruct r.
    + subst rest. left. exists cs. split; [assumption|]. rewrite skipn_zeros. unfold utf32_of in *. rewrite flat_one in *. auto.
    + right. split; [|eauto]. intros ds D. destruct (read_rest _ _ _ R _ D) as (es & _ & X). exact (no_reading rest (or_introl W) _ X).
    + exfalso. destruct W as (su & after & c & EE & RR & LT). eapply (G utf32_of); eauto.
    + right. split; [|eauto]. intros ds D. destruct (read_rest _ _ _ R _ D) as (es & _ & X). exact (no_reading rest (or_intror W) _ X).
Qed.

Lemma load_wide_eq : forall w data body, data <> [] -> unmarked data body ->
  load_wide w data = (r <-- ConvertFromStore w body (repeat 0 (length body)) ;; let '(ok, out) := r in Ok (if ok : bool then Some (out ++ [0]) else None)).
Proof.
  intros w data body N U. unfold load_wide. unfold SizeFromStore. rewrite firstn_zeros.
  destruct U as [->|[-> NM]]; [reflexivity|].
  destruct data as [|x l]; [contradiction|].
  assert (X : match x :: l with 239 :: 187 :: 191 :: rest => rest | _ => x :: l end = x :: l).
  { destruct (Z.eq_dec x 239) as [->|Nx].
    - destruct l as [|y l]; [reflexivity|]. destruct (Z.eq_dec y 187) as [->|Ny].
      + destruct l as [|z l]; [reflexivity|]. destruct (Z.eq_dec z 191) as [->|Nz].
        * exfalso. exact (NM l eq_refl).
        * clear -Nz. destruct z as [|p|p]; try reflexivity. repeat (destruct p as [p|p|]; try reflexivity). contradiction.
      + clear -Ny. destruct y as [|p|p]; try reflexivity. repeat (destruct p as [p|p|]; try reflexivity). contradiction.
    - clear -Nx. destruct x as [|p|p]; try reflexivity. repeat (destruct p as [p|p|]; try reflexivity). contradiction. }
  rewrite X. reflexivity.
Qed.

(** loading: no access outside the arrays, never too little room; the text is refused
    exactly if it cannot be read to its end *)
Theorem C94_load : forall w data body, units 8 data -> data <> [] -> unmarked data body ->
  (exists cs, read_as reads8 body cs [] /\
     load_wide w data = Ok (Some (wide_text w cs ++ repeat 0 (length body - length (wide_text w cs) + 1))) /\
     (length (wide_text w cs) <= length body)%nat) \/
  ((forall cs, ~ read_as reads8 body cs []) /\ load_wide w data = Ok None).
Proof.
  intros w data body U N UM. rewrite (load_wide_eq w data body N UM).
  assert (UB : units 8 body).
  { destruct UM as [->|[-> _]]; [|assumption]. apply units_app in U. apply U. }
  destruct (from_store w body UB) as [(cs & R & -> & L)|(NO & out & ->)]; cbn [rbind].
  - left. exists cs. rewrite <- app_assoc, zeros_end. auto.
  - right. auto.
Qed.

(** ** storing *)
Lemma wide_length_ok : forall text junk pre fuel, (length text < fuel)%nat -> Forall (fun c => c <> 0) text ->
  wide_length fuel (pre ++ text ++ 0 :: junk) (length pre) = Ok (length pre + length text)%nat.
Proof.
  induction text as [|c text IH]; intros junk pre fuel F N; (destruct fuel; [lia|]); cbn [wide_length app].
  - rewrite get_at. cbn. f_equal. lia.
  - rewrite get_at. cbn [rbind]. inversion N; subst. destruct (Z.eqb_spec c 0); [contradiction|].
    change (pre ++ c :: text ++ 0 :: junk) with (pre ++ [c] ++ text ++ 0 :: junk). rewrite app_assoc.
    replace (S (length pre)) with (length (pre ++ [c])) by (rewrite app_length; cbn; lia).
    rewrite IH; [|cbn in F; lia|assumption]. rewrite app_length. cbn. f_equal. lia.
Qed.
Lemma grow_ok : forall fuel n scratch, (1 <= length scratch)%nat -> (n < fuel + length scratch)%nat -> (0 < fuel)%nat ->
  exists more, grow fuel n scratch = Ok (scratch ++ more) /\ (n <= length (scratch ++ more))%nat.
Proof.
  induction fuel as [|fuel IH]; intros n scratch L H F; [lia|]. cbn [grow].
  destruct (Nat.ltb_spec (length scratch) n).
  - destruct fuel as [|fuel].
    + exfalso. lia.
    + destruct (IH n (scratch ++ repeat 0 (length scratch))) as (more & -> & LM).
      * rewrite app_length. lia.
      * rewrite app_length, repeat_length. lia.
      * lia.
      * exists (repeat 0 (length scratch) ++ more). rewrite <- app_assoc in *. auto.
  - exists []. rewrite app_nil_r. auto.
Qed.
Lemma store_wide_eq : forall w scratch text junk, (1 <= length scratch)%nat -> Forall (fun c => c <> 0) text ->
  exists sc, (length scratch <= length sc)%nat /\ (6 * length text + 1 <= length sc)%nat /\
    store_wide w scratch (text ++ 0 :: junk) =
    (a <-- match w with Wide32 => ConvertUTF32toUTF8 (text ++ [0]) sc Lenient | Wide16 => ConvertUTF16toUTF8 (text ++ [0]) sc Lenient end ;; Ok (is_ok a, array_of a)).
Proof.
  intros w scratch text junk L N. unfold store_wide, SizeToStore, ConvertToStore.
  assert (FU : (length text < S (length (text ++ 0%Z :: junk)))%nat) by (rewrite app_length; cbn; lia).
  pose proof (wide_length_ok text junk [] _ FU N) as WL. cbn [app length Nat.add] in WL. rewrite WL. cbn [rbind].
  destruct (grow_ok (S (6 * length text + 1)) (6 * length text + 1) scratch) as (more & G & LM); [assumption|lia|lia|].
  rewrite G. cbn [rbind]. exists (scratch ++ more). split; [rewrite app_length; lia|]. split; [assumption|].
  replace (firstn (S (length text)) (text ++ 0 :: junk)) with (text ++ [0]); [reflexivity|].
  change (0 :: junk) with ([0] ++ junk). rewrite app_assoc. replace (S (length text)) with (length (text ++ [0])) by (rewrite app_length; cbn; lia).
  rewrite prefix_back. reflexivity.
Qed.
Lemma utf8_size : forall c, (length (utf8_of c) <= 4)%nat. Proof. intro. apply len_utf8_range. Qed.
Lemma reads16_size : forall su after c, reads16 false su after c -> (length (utf8_of c) <= 3 * length su)%nat.
Proof.
  intros su after c R. destruct R as [c after [R _]|h x after _ H _|l after _ H].
  - unfold utf16_of. destruct (Z.ltb_spec c 65536); [|pose proof (utf8_size c); cbn; lia]. unfold utf8_of. cmp; cbn; lia.
  - unfold high in H. unfold utf8_of. cmp; cbn; lia.
  - unfold low in H. unfold utf8_of. cmp; cbn; lia.
Qed.
Lemma reads16_nul : forall after c, reads16 false [0] after c -> c = 0.
Proof.
  intros after c R. remember [0] as su eqn:E. destruct R as [c after C|h x after _ H _|l after _ H].
  - unfold utf16_of in E. destruct (c <? 65536); [apply cons_eq in E; apply E|discriminate E].
  - apply cons_eq in E. apply E.
  - apply cons_eq in E. apply E.
Qed.
Lemma reads16_two : forall su after c, reads16 false su after c -> (length su <= 2)%nat.
Proof. intros su after c R. destruct R; [apply len_utf16|cbn; lia|cbn; lia]. Qed.
Lemma reads16_pair : forall s' after c, reads16 false (s' ++ [0]) after c -> length (s' ++ [0]) = 2%nat -> False.
Proof.
  intros s' after c R L. remember (s' ++ [0]) as su eqn:E. destruct R as [c after [C _]|h x after _ H _|l after _ H]; try discriminate L.
  unfold utf16_of in *. destruct (Z.ltb_spec c 65536); [discriminate L|].
  match type of E with [?a; ?b] = _ => change [a; b] with ([a] ++ [b]) in E end.
  apply app_inj_tail in E. destruct E as [_ E]. pose proof (pair_range c). lia.
Qed.
Lemma read16_size : forall src cs rest, read_as (reads16 false) src cs rest -> (length (utf8 cs) + 3 * length rest <= 3 * length src)%nat.
Proof.
  intros src cs rest R. induction R as [|su after c cs rest R R' IH]; [cbn; lia|]. unfold utf8 in *. cbn. rewrite !app_length.
  pose proof (reads16_size _ _ _ R). lia.
Qed.
Lemma flat_size4 : forall (enc : Z -> list Z), (forall c, length (enc c) <= 4)%nat -> forall cs, (length (flat_map enc cs) <= 4 * length cs)%nat.
Proof. intros enc H cs. induction cs as [|c cs IH]; cbn; [lia|]. rewrite app_length. pose proof (H c). lia. Qed.
Lemma as_utf8_size : forall c, (length (as_utf8 c) <= 4)%nat.
Proof. intros. unfold as_utf8. destruct (c <=? 1114111); [apply utf8_size|cbn; lia]. Qed.
Lemma as_utf8_0 : as_utf8 0 = [0]. Proof. reflexivity. Qed.

(** Storing any array of wide characters that ends with a NUL: no access outside the
    arrays, never too little room; refused exactly if a value is above all characters *)
Theorem C94_store : forall w scratch text junk, (1 <= length scratch)%nat -> units (wide_bits w) text -> Forall (fun c => c <> 0) text ->
  exists ok out, store_wide w scratch (text ++ 0 :: junk) = Ok (ok, out) /\ (length scratch <= length out)%nat /\
    (ok = true <-> Forall (fun c => c <= 1114111) text).
Proof.
  intros w scratch text junk L U N. destruct (store_wide_eq w scratch text junk L N) as (sc & L1 & L2 & ->).
  assert (U0 : units (wide_bits w) (text ++ [0])) by (apply Forall_app; split; [assumption|constructor; [destruct w; cbn; lia|constructor]]).
  destruct w; cbn [wide_bits] in *.
  - assert (ALL : Forall (fun c => c <= 1114111) text) by (eapply Forall_impl; [|exact U]; cbn; intros; change (2 ^ 16) with 65536 in *; lia).
    destruct (C91_utf16_utf8 (text ++ [0]) sc Lenient U0) as (r & cs & rest & R & E & LE & W). cbn zeta in *. rewrite E. cbn [rbind is_ok array_of].
    eexists _, _. split; [reflexivity|]. split; [rewrite whole_length by assumption; assumption|].
    assert (r = ConversionOK); [|subst r; split; auto].
    cbn [is_strict] in *. pose proof (read16_size _ _ _ R) as SZ. unfold utf8 in SZ. rewrite app_length in SZ. cbn [length] in SZ.
    destruct r; auto; exfalso.
    + destruct W as (h & -> & H). destruct (read_as_app _ _ _ _ R) as (u & EU). apply app_inj_tail in EU. destruct EU as [_ EU]. unfold high in H. lia.
    + destruct W as (su & after & c & -> & RR & LT). pose proof (reads16_size _ _ _ RR) as S1. rewrite app_length in SZ.
      destruct (read_as_app _ _ _ _ R) as (u & EU).
      (* the last character is the NUL: one byte *)
      destruct (list_eq_dec Z.eq_dec after []) as [->|NA].
      * rewrite app_nil_r in EU.
        assert (SU : su = [0] \/ exists s', su = s' ++ [0] /\ s' <> []).
        { destruct (exists_last (reads16_ne _ _ _ _ RR)) as (s' & q & EQ). rewrite EQ in EU. rewrite app_assoc in EU.
          apply app_inj_tail in EU. destruct EU as [_ E0]. rewrite EQ, <- E0.
          destruct s'; [left; reflexivity|right; eexists; split; [reflexivity|discriminate]]. }
        destruct SU as [->|(s' & -> & NS)].
        -- assert (c = 0) by (exact (reads16_nul _ _ RR)).
           subst c. change (length (utf8_of 0)) with 1%nat in LT. cbn [length] in SZ. lia.
        -- assert (length (s' ++ [0]) = 2%nat -> False).
           { intros L'. exact (reads16_pair _ _ _ RR L'). }
           assert (LS : (length (s' ++ [0%Z]) <= 2)%nat).
           { exact (reads16_two _ _ _ RR). }
           rewrite app_length in *. destruct s'; [contradiction|]. cbn in *. lia.
      * destruct after as [|y after]; [contradiction|]. cbn [length] in SZ. lia.
    + destruct W as [W _]. discriminate W.
  - destruct (C91_utf32_utf8 (text ++ [0]) sc Lenient U0) as (r & cs & rest & R & E & LE & W). cbn zeta in *. rewrite E. cbn [rbind is_ok array_of].
    eexists _, _. split; [reflexivity|]. split; [rewrite whole_length by assumption; assumption|].
    cbn [is_strict] in *.
    assert (CS : text ++ [0] = cs ++ rest).
    { clear -R. induction R as [|su after c cs rest RR R IH]; [reflexivity|]. destruct RR. cbn. rewrite IH. reflexivity. }
    assert (F4 : (length (flat_map as_utf8 cs) <= 4 * length cs)%nat) by (apply flat_size4; exact as_utf8_size).
    destruct r.
    + destruct W as [-> W]. rewrite app_nil_r in CS. subst cs. apply Forall_app in W. destruct W as [W _].
      split; [intros _|reflexivity]. eapply Forall_impl; [|exact W]. cbn. intros. lia.
    + contradiction.
    + exfalso. destruct W as (c & after & -> & LT & _). pose proof (as_utf8_size c).
      assert (LL : (length cs + S (length after) = length text + 1)%nat).
      { pose proof (f_equal (@length Z) CS) as Q. rewrite !app_length in Q. cbn in Q. lia. }
      destruct after as [|y after].
      * apply app_inj_tail in CS. destruct CS as [-> <-]. rewrite as_utf8_0 in LT. cbn [length] in *. lia.
      * cbn [length] in *. lia.
    + split; [discriminate|]. intros F. exfalso. destruct W as [[-> W]|[W _]]; [|discriminate W].
      rewrite app_nil_r in CS. subst cs. apply Exists_app in W. destruct W as [W|W].
      * apply Exists_exists in W. destruct W as (x & IN & X). rewrite Forall_forall in F. pose proof (F _ IN). lia.
      * inversion W as [? ? X|? ? X]; subst; [lia|inversion X].
Qed.
Lemma wide_nonzero : forall w cs, Forall scalar cs -> Forall (fun c => c <> 0) cs -> Forall (fun c => c <> 0) (wide_text w cs).
Proof.
  intros [] cs F N; [|assumption]. cbn. unfold utf16. induction F as [|c cs [R NS] F IH]; [constructor|]. inversion N; subst. cbn.
  apply Forall_app. split; [|apply IH; assumption]. unfold utf16_of. pose proof (pair_range c). destruct (Z.ltb_spec c 65536).
  - constructor; [assumption|constructor].
  - constructor; [lia|]. constructor; [lia|constructor].
Qed.
(** a text is stored as UTF-8 with a NUL after it *)
Theorem C94_stored : forall w scratch cs junk, (1 <= length scratch)%nat -> Forall scalar cs -> Forall (fun c => c <> 0) cs ->
  exists more, store_wide w scratch (wide_text w cs ++ 0 :: junk) = Ok (true, utf8 cs ++ 0 :: more).
Proof.
  intros w scratch cs junk L F N. destruct (store_wide_eq w scratch (wide_text w cs) junk L (wide_nonzero w cs F N)) as (sc & L1 & L2 & ->).
  assert (S0 : scalar 0) by (split; [lia|unfold surrogate, high, low; lia]).
  assert (F0 : Forall scalar (cs ++ [0])) by (apply Forall_app; auto).
  assert (U8 : utf8 (cs ++ [0]) = utf8 cs ++ [0]) by (unfold utf8; rewrite flat_map_app; reflexivity).
  assert (LC : (length cs <= length (wide_text w cs))%nat).
  { destruct w; cbn; [|lia]. clear. induction cs as [|c cs IH]; cbn; [lia|]. unfold utf16 in *. cbn. rewrite app_length. pose proof (len_utf16 c). lia. }
  assert (FIT : fits utf8_of (length sc) (cs ++ [0])).
  { unfold fits. change (flat_map utf8_of (cs ++ [0])) with (utf8 (cs ++ [0])). rewrite U8, app_length. cbn [length].
    assert (length (utf8 cs) <= 4 * length cs)%nat by (apply flat_size4; exact utf8_size). lia. }
  destruct w; cbn [wide_text].
  - replace (utf16 cs ++ [0]) with (utf16 (cs ++ [0])) by (unfold utf16; rewrite flat_map_app; reflexivity).
    destruct (C92_from_utf16 (cs ++ [0]) F0 sc Lenient) as [(ds & es & LO & E) _].
    destruct (longest_all _ _ _ _ _ FIT LO) as [-> ->]. rewrite E. cbn [rbind is_ok array_of]. rewrite U8, <- app_assoc. eexists. reflexivity.
  - destruct (C92_from_utf32 (cs ++ [0]) F0 sc Lenient) as [(ds & es & LO & E) _].
    destruct (longest_all _ _ _ _ _ FIT LO) as [-> ->]. rewrite E. cbn [rbind is_ok array_of]. rewrite U8, <- app_assoc. eexists. reflexivity.
Qed.
(** loaded and stored again *)
Theorem C94_round_trip : forall w scratch cs data, (1 <= length scratch)%nat -> Forall scalar cs -> Forall (fun c => c <> 0) cs ->
  data <> [] -> unmarked data (utf8 cs) ->
  exists arr more, load_wide w data = Ok (Some arr) /\ store_wide w scratch arr = Ok (true, utf8 cs ++ 0 :: more).
Proof.
  intros w scratch cs data L F N ND UM.
  assert (UD : units 8 data).
  { destruct UM as [->|[<- _]]; [|apply utf8_text_units; assumption]. apply Forall_app. split; [|apply utf8_text_units; assumption].
    repeat constructor; cbn; lia. }
  destruct (C94_load w data (utf8 cs) UD ND UM) as [(ds & R & E & LE)|[NO _]].
  - destruct (read_text8 cs ds [] F R) as (es & EC & ER). assert (es = []) by (destruct es as [|e es]; [reflexivity|]; exfalso; cbn in ER; symmetry in ER; apply app_eq_nil in ER; destruct ER as [ER _]; exact (utf8_of_ne _ ER)).
    subst es. rewrite app_nil_r in EC. subst ds. rewrite E. rewrite Nat.add_comm. cbn [Nat.add repeat].
    destruct (C94_stored w scratch cs (repeat 0 (length (utf8 cs) - length (wide_text w cs))) L F N) as (more & X).
    eexists _, more. split; [reflexivity|exact X].
  - exfalso. apply (NO cs). pose proof (read_all8 cs [] F) as R. rewrite app_nil_r in R. exact R.
Qed.
Example C94_case :
  load_wide Wide16 ([239; 187; 191] ++ [195; 164; 240; 159; 152; 128]) = Ok (Some [228; 55357; 56832; 0; 0; 0; 0]) /\
  store_wide Wide16 (repeat 7 10) [228; 55357; 56832; 0; 0; 0; 0] = Ok (true, [195; 164; 240; 159; 152; 128; 0; 7; 7; 7] ++ repeat 0 10) /\
  load_wide Wide32 [65; 195] = Ok None /\ load_wide Wide32 [65; 237; 34; 128] = Ok (Some [65; 47232; 0; 0; 0]) /\
  unmarked ([239; 187; 191] ++ [195; 164; 240; 159; 152; 128]) (utf8 [228; 128512]).
Proof. repeat split; try reflexivity. left. reflexivity. Qed.
