(** LoadMultiLineText gives the lines up to the tag. *)
From Coq Require Import Lia.
From Verif Require Import Base P_Base CTypes StringUtils P_Strings Ini Spec_Ini P_Ini IniBuf P_IniBuf P_IniBuf2 P_IniSave IniMulti P_IniMulti P_IniMulti2 Spec_IniMulti.

Lemma one_line_free l : one_line l -> eol_free l.
Proof. intros H. unfold eol_free. apply forallb_forall. intros c I. rewrite not_nl_eol, (H c I). reflexivity. Qed.
Lemma line_end_cons n r : line_end_before n r -> exists c t, n ++ r = c :: t /\ is_eol c = true /\ skip_newline (n ++ r) = r.
Proof.
  intros [-> | [-> | [-> H]]].
  - exists LF, r. cbn. destruct r; auto.
  - exists CR, (LF :: r). auto.
  - exists CR, r. cbn. split; [reflexivity|]. split; [reflexivity|]. destruct r as [|d r]; [reflexivity|]. destruct (Ascii.eqb_spec d LF) as [->|X]; [destruct (H r); reflexivity|reflexivity].
Qed.
Lemma span_free l t : eol_free l -> (match t with [] => True | c :: _ => is_eol c = true end) -> span (fun x => negb (is_nl x)) (l ++ t) = (l, t).
Proof.
  intros L T. induction l as [|c l IH]; cbn [app].
  - destruct t as [|c t]; [reflexivity|]. cbn. rewrite is_eol_nl in T. rewrite T. reflexivity.
  - apply eol_free_cons in L as [C L]. cbn [span]. rewrite is_eol_nl in C. rewrite C. cbn [negb]. rewrite (IH L). reflexivity.
Qed.
Lemma move_seg to from x b b' : seg b from x -> move to from (length x) b = Ok (tt, b') -> seg b' to x.
Proof.
  intros H M. unfold move in M. destruct (Nat.ltb_spec (length b) (from + length x)); [discriminate|]. destruct (Nat.ltb_spec (length b) (to + length x)); [discriminate|]. injection M as <-.
  assert (S0 : firstn (length x) (skipn from b) = x).
  { clear -H. revert from H. induction x as [|c x IH]; intros from H; [reflexivity|]. cbn [seg] in H. destruct H as [H1 H2]. specialize (IH (S from) H2). cbn [length].
    replace (skipn from b) with (c :: skipn (S from) b); [cbn [firstn]; rewrite IH; reflexivity|]. clear -H1. revert b H1. induction from as [|f IHf]; intros [|d b] H1; cbn in *; try discriminate; [congruence|]. apply IHf, H1. }
  rewrite S0. assert (L : length (firstn to b) = to) by (apply firstn_length_le; lia). set (a := firstn to b) in *. set (t := skipn (to + length x) b). clearbody a t. subst to. clear. revert a. induction x as [|c x IH]; intros a; [exact I|].
  cbn [seg]. split; [rewrite nth_error_app2 by lia; rewrite Nat.sub_diag; reflexivity|]. specialize (IH (a ++ [c])). rewrite app_length in IH. cbn [length] in IH. rewrite Nat.add_1_r, <- app_assoc in IH. exact IH.
Qed.
Lemma at_end b p : at_ b p [] <-> nth_error b p = Some NUL.
Proof. reflexivity. Qed.
Lemma at_intro b p x : seg b p x -> nul_free x -> nth_error b (p + length x) = Some NUL -> at_ b p x.
Proof. intros S0 N E. rewrite <- (app_nil_r x). apply at_app. split; [exact S0|]. split; [exact N|exact E]. Qed.
Lemma put_seg b p c : p < length b -> seg (put p c b) p [c].
Proof. intros L. cbn. rewrite put_nth by exact L. rewrite Nat.eqb_refl. auto. Qed.

(** a line [l] at [p], moved down to [out]: 1749-1764 *)
Lemma line_ok b N out p l t : at_ b p (l ++ t) -> eol_free l -> (match t with [] => True | c :: _ => is_eol c = true end) -> out <= p -> length (l ++ t) < N ->
  exists b', (forall A (k : nat -> ascii -> B A), (e <# fwd N (fun x => negb (is_nl x)) p ;; _ <# (if Nat.ltb out p then _ <# move out p (e - p) ;; wr (out + (e - p)) NUL else bret tt) ;; ch <# rd e ;; _ <# wr e NUL ;; k e ch) b
      = k (p + length l) (match t with [] => NUL | c :: _ => c end) b')
    /\ at_ b' out l /\ same_below out b b' /\ nth_error b' (p + length l) = Some NUL /\ same_from (S (p + length l)) b b' /\ p + length l < length b.
Proof.
  intros A L T O F. pose proof (at_bound _ _ _ A) as LB. rewrite app_length in LB. pose proof (at_nul_free _ _ _ A) as NF. apply nul_free_app in NF. destruct NF as [NL NT].
  destruct (fwd_ok (fun x => negb (is_nl x)) b _ N p A F) as (e & E1 & E2 & E3 & E4). rewrite (span_free l t L T) in E2, E3, E4. cbn [fst snd] in E2, E3, E4. subst e.
  assert (C : nth_error b (p + length l) = Some (match t with [] => NUL | c :: _ => c end)) by (destruct t; [exact E3|apply E3]).
  assert (M : exists b1, (if Nat.ltb out p then _ <# move out p (p + length l - p) ;; wr (out + (p + length l - p)) NUL else bret tt) b = Ok (tt, b1) /\ seg b1 out l /\ same_below out b b1 /\ same_from (p + length l) b b1 /\ (out < p -> nth_error b1 (out + length l) = Some NUL)).
  { replace (p + length l - p) with (length l) by lia. destruct (Nat.ltb_spec out p) as [OP|OP].
    - destruct (move_ok b out p (length l) ltac:(lia) ltac:(lia)) as (b1 & M1 & S1 & S2). exists (put (out + length l) NUL b1). assert (LL : length b1 = length b) by apply S1.
      split; [rewrite (bbind_run _ _ _ _ _ M1); apply wr_ok; lia|]. pose proof (move_seg _ _ _ _ _ E4 M1) as SG. split; [apply (seg_same_below b1 _ (out + length l)); [apply put_below; lia|lia|exact SG]|].
      split; [eapply same_below_trans; [exact S2|apply put_below; lia]|]. split; [eapply same_from_trans; [eapply same_from_le; [|exact S1]; lia|apply put_from; lia]|]. intros _. rewrite put_nth by lia. rewrite Nat.eqb_refl. reflexivity.
    - assert (out = p) as -> by lia. exists b. split; [reflexivity|]. split; [exact E4|]. split; [apply same_below_refl|]. split; [apply same_from_refl|lia]. }
  destruct M as (b1 & M1 & SG & SB & SF & Z). assert (LL : length b1 = length b) by apply SB.
  exists (put (p + length l) NUL b1). split; [|split; [|split; [|split; [|split]]]].
  - intros X k. rewrite (bbind_run _ _ _ _ _ E1), (bbind_run _ _ _ _ _ M1). rewrite (bbind_run (rd (p + length l)) _ b1 (match t with [] => NUL | c :: _ => c end) b1); [|apply rd_ok; rewrite (proj2 SF) by lia; exact C].
    rewrite (bbind_run _ _ _ _ _ (wr_ok b1 (p + length l) NUL ltac:(lia))). reflexivity.
  - apply at_intro; [|exact NL|].
    + apply (seg_same_below b1 _ (p + length l)); [apply put_below; lia|lia|exact SG].
    + rewrite put_nth by lia. destruct (Nat.eqb_spec (out + length l) (p + length l)); [reflexivity|]. apply Z. lia.
  - eapply same_below_trans; [exact SB|apply put_below; lia].
  - rewrite put_nth by lia. rewrite Nat.eqb_refl. reflexivity.
  - eapply same_from_trans; [eapply same_from_le; [|exact SF]; lia|apply put_from; lia].
  - lia.
Qed.

Definition flat (ls : list bytes) : bytes := flat_map (fun l => l ++ [LF]) ls.
Lemma flat_snoc ls l : flat (ls ++ [l]) = flat ls ++ l ++ [LF].
Proof. unfold flat. rewrite flat_map_app. cbn. rewrite app_nil_r. reflexivity. Qed.
Lemma flat_value ls : ls <> [] -> flat ls = lines_value ls ++ [LF].
Proof.
  induction ls as [|l r IH]; intros N; [congruence|]. change (flat (l :: r)) with ((l ++ [LF]) ++ flat r). destruct r as [|l2 r]; [cbn; rewrite app_nil_r; reflexivity|].
  rewrite (IH ltac:(discriminate)). change (lines_value (l :: l2 :: r)) with (l ++ LF :: lines_value (l2 :: r)). rewrite <- !app_assoc. reflexivity.
Qed.
Lemma flat_last ls l : lines_value (ls ++ [l]) = flat ls ++ l.
Proof.
  assert (N : ls ++ [l] <> []) by (destruct ls; discriminate). pose proof (flat_value _ N) as F. rewrite flat_snoc in F. rewrite !app_assoc in F. apply app_inj_tail in F. symmetry. apply F.
Qed.
Lemma restore b b' e c t : at_ b e (c :: t) -> same_from (S e) b b' -> nth_error b' e = Some c -> at_ b' e (c :: t).
Proof. cbn [at_]. intros (_ & N & A) S0 E. split; [exact E|]. split; [exact N|]. eapply at_same_from; [exact S0|lia|exact A]. Qed.
Lemma nocase_says l t : negb (nocase_less l t) && negb (nocase_less t l) = same_nameb l t.
Proof. apply nocase_eqb_same. Qed.

Lemma multi_ok N tg t start s ls rest : multi t s ls rest -> forall done b out p fuel,
  seg b start (flat done) -> nul_free (flat done) -> out = start + length (flat done) -> out <= p -> at_ b p s -> at_ b tg t -> tg + length t < start -> length b <= N -> length s < fuel -> done ++ ls <> [] ->
  exists q b', multi_text fuel N tg start out p b = Ok ((q, Some start), b') /\ at_ b' start (lines_value (done ++ ls)) /\ at_ b' q rest /\ q + length rest = p + length s
    /\ same_below start b b' /\ same_from (S q) b b' /\ start + length (lines_value (done ++ ls)) <= q /\ (rest = [] \/ start + length (lines_value (done ++ ls)) < q).
Proof.
  intros M. induction M as [l H1 H2|l n r H1 H2 H3|l n r ls rest H1 H2 H3 M IH|l H1 H2]; intros done b out p fuel SG NF O OP A T TG LB F NE; (destruct fuel as [|f]; [lia|]); cbn [multi_text]; cbv zeta.
  - (* the tag, at the end of the text *)
    rewrite app_nil_r in *. pose proof (at_bound _ _ _ A) as PB. assert (LN : length l < N) by lia.
    rewrite <- (app_nil_r l) in A. destruct (line_ok b N out p l [] A (one_line_free l H1) I OP ltac:(rewrite app_nil_r; exact LN)) as (b1 & X & A1 & SB & Z & SF & PL). rewrite X. clear X.
    rewrite (bbind_run _ _ _ _ _ (rd_str_ok b1 l N out A1 LN)). pose proof (at_bound _ _ _ T) as TB. assert (TO : tg + length t < out) by lia. rewrite (bbind_run _ _ _ _ _ (rd_str_ok b1 t N tg (at_same_below _ _ _ _ _ SB TO T) ltac:(lia))).
    rewrite nocase_says. replace (same_nameb l t) with true by (symmetry; unfold same_nameb; rewrite H2; apply beqb_refl).
    assert (D : exists d, flat done = d ++ [LF] /\ lines_value done = d) by (exists (lines_value done); rewrite <- flat_value by exact NE; auto). destruct D as (d & D1 & D2). rewrite D1 in *. rewrite app_length in O. cbn [length] in O.
    destruct (Nat.eqb_spec start (p + length l)); [lia|]. assert (O' : out = S (start + length d)) by lia. rewrite O'. cbn [back]. rewrite bret_bind.
    assert (L1 : length b1 = length b) by apply SB. rewrite (bbind_run _ _ _ _ _ (wr_ok b1 (start + length d) NUL ltac:(lia))). rewrite Ascii.eqb_refl.
    eexists _, _. split; [reflexivity|]. apply seg_app in SG as [SG _]. apply nul_free_app in NF as [NF _]. rewrite D2. split; [|split; [|split; [|split; [|split; [|split]]]]].
    + apply at_intro; [|exact NF|rewrite put_nth by lia; rewrite Nat.eqb_refl; reflexivity]. apply (seg_same_below b1 _ (start + length d)); [apply put_below; lia|lia|]. apply (seg_same_below b _ out); [exact SB|lia|exact SG].
    + apply at_end. rewrite put_nth by lia. destruct (Nat.eqb_spec (p + length l) (start + length d)); [reflexivity|exact Z].
    + cbn. lia.
    + eapply same_below_trans; [eapply same_below_le; [|exact SB]; lia|apply put_below; lia].
    + eapply same_from_trans; [exact SF|apply put_from; lia].
    + lia.
    + left. reflexivity.
  - (* the tag, and more text *)
    rewrite app_nil_r in *. pose proof (at_bound _ _ _ A) as PB. assert (LN : length (l ++ n ++ r) < N) by lia.
    destruct (line_end_cons n r H3) as (c & t' & E & C & K). rewrite E in *.
    destruct (line_ok b N out p l (c :: t') A (one_line_free l H1) C OP LN) as (b1 & X & A1 & SB & Z & SF & PL). rewrite X. clear X. assert (LL : length l < N) by (rewrite app_length in LN; lia).
    rewrite (bbind_run _ _ _ _ _ (rd_str_ok b1 l N out A1 LL)). pose proof (at_bound _ _ _ T) as TB. assert (TO : tg + length t < out) by lia. rewrite (bbind_run _ _ _ _ _ (rd_str_ok b1 t N tg (at_same_below _ _ _ _ _ SB TO T) ltac:(lia))).
    rewrite nocase_says. replace (same_nameb l t) with true by (symmetry; unfold same_nameb; rewrite H2; apply beqb_refl).
    assert (D : exists d, flat done = d ++ [LF] /\ lines_value done = d) by (exists (lines_value done); rewrite <- flat_value by exact NE; auto). destruct D as (d & D1 & D2). rewrite D1 in *. rewrite app_length in O. cbn [length] in O.
    destruct (Nat.eqb_spec start (p + length l)); [lia|]. assert (O' : out = S (start + length d)) by lia. rewrite O'. cbn [back]. rewrite bret_bind.
    assert (L1 : length b1 = length b) by apply SB. rewrite (bbind_run _ _ _ _ _ (wr_ok b1 (start + length d) NUL ltac:(lia))).
    apply at_app in A as (_ & _ & A). assert (CN : c <> NUL) by (intros ->; discriminate C). destruct (Ascii.eqb_spec c NUL) as [->|_]; [congruence|].
    set (b2 := put (start + length d) NUL b1). assert (L2 : length b2 = length b) by (unfold b2; rewrite put_length by lia; exact L1). rewrite (bbind_run _ _ _ _ _ (wr_ok b2 (p + length l) c ltac:(lia))).
    set (b3 := put (p + length l) c b2). assert (S3 : same_from (S (p + length l)) b b3) by (eapply same_from_trans; [exact SF|]; apply (same_from_trans _ _ b2); apply put_from; lia).
    assert (A3 : at_ b3 (p + length l) (c :: t')) by (apply (restore b); [exact A|exact S3|unfold b3; rewrite put_nth by lia; rewrite Nat.eqb_refl; reflexivity]).
    destruct (skip_nl_ok b3 _ _ A3 ltac:(discriminate)) as (q & Q1 & Q2 & Q3 & Q4). rewrite (bbind_run _ _ _ _ _ Q1). rewrite K in Q2, Q3.
    eexists _, _. split; [reflexivity|]. apply seg_app in SG as [SG _]. apply nul_free_app in NF as [NF _]. rewrite D2. split; [|split; [|split; [|split; [|split; [|split]]]]].
    + apply at_intro; [|exact NF|].
      * apply (seg_same_below b2 _ (p + length l)); [apply put_below; lia|lia|]. apply (seg_same_below b1 _ (start + length d)); [apply put_below; lia|lia|]. apply (seg_same_below b _ out); [exact SB|lia|exact SG].
      * unfold b3. rewrite put_nth by lia. destruct (Nat.eqb_spec (start + length d) (p + length l)); [lia|]. unfold b2. rewrite put_nth by lia. rewrite Nat.eqb_refl. reflexivity.
    + exact Q2.
    + rewrite Q3, app_length. lia.
    + eapply same_below_trans; [eapply same_below_le; [|exact SB]; lia|]. apply (same_below_trans _ _ b2); apply put_below; lia.
    + eapply same_from_le; [|exact S3]. lia.
    + lia.
    + right. lia.
  - (* a line of the value *)
    pose proof (at_bound _ _ _ A) as PB. assert (LN : length (l ++ n ++ r) < N) by lia.
    destruct (line_end_cons n r H3) as (c & t' & E & C & K). rewrite E in *.
    destruct (line_ok b N out p l (c :: t') A (one_line_free l H1) C OP LN) as (b1 & X & A1 & SB & Z & SF & PL). rewrite X. clear X. assert (LL : length l < N) by (rewrite app_length in LN; lia).
    rewrite (bbind_run _ _ _ _ _ (rd_str_ok b1 l N out A1 LL)). pose proof (at_bound _ _ _ T) as TB. assert (TO : tg + length t < out) by lia. rewrite (bbind_run _ _ _ _ _ (rd_str_ok b1 t N tg (at_same_below _ _ _ _ _ SB TO T) ltac:(lia))).
    rewrite nocase_says. replace (same_nameb l t) with false by (destruct (same_nameb_spec l t); [contradiction|reflexivity]).
    assert (L1 : length b1 = length b) by apply SB.
    apply at_app in A as (_ & _ & A). assert (CN : c <> NUL) by (intros ->; discriminate C). destruct (Ascii.eqb_spec c NUL) as [->|_]; [congruence|].
    replace (out + (p + length l - p)) with (out + length l) by lia.
    rewrite (bbind_run _ _ _ _ _ (wr_ok b1 (p + length l) c ltac:(lia))). set (b2 := put (p + length l) c b1). assert (L2 : length b2 = length b) by (unfold b2; rewrite put_length by lia; exact L1).
    assert (S2 : same_from (S (p + length l)) b b2) by (eapply same_from_trans; [exact SF|apply put_from; lia]).
    assert (A2 : at_ b2 (p + length l) (c :: t')) by (apply (restore b); [exact A|exact S2|unfold b2; rewrite put_nth by lia; rewrite Nat.eqb_refl; reflexivity]).
    destruct (skip_nl_ok b2 _ _ A2 ltac:(discriminate)) as (q & Q1 & Q2 & Q3 & Q4). rewrite (bbind_run _ _ _ _ _ Q1). rewrite K in Q2, Q3.
    rewrite (bbind_run _ _ _ _ _ (wr_ok b2 (out + length l) LF ltac:(lia))). set (b3 := put (out + length l) LF b2). assert (L3 : length b3 = length b) by (unfold b3; rewrite put_length by lia; exact L2).
    assert (B3 : same_below start b b3) by (eapply same_below_trans; [eapply same_below_le; [|exact SB]; lia|]; apply (same_below_trans _ _ b2); apply put_below; lia).
    assert (S3 : same_from (S (p + length l)) b b3) by (eapply same_from_trans; [exact S2|apply put_from; lia]).
    destruct (IH (done ++ [l]) b3 (S (out + length l)) q f) as (q' & b' & Y1 & Y2 & Y3 & Y4 & Y5 & Y6 & Y7).
    + rewrite flat_snoc. apply seg_app. split; [|apply seg_app; split].
      * apply (seg_same_below b2 _ (out + length l)); [apply put_below; lia|lia|]. apply (seg_same_below b1 _ (p + length l)); [apply put_below; lia|lia|]. apply (seg_same_below b _ out); [exact SB|lia|exact SG].
      * rewrite <- O. apply (seg_same_below b2 _ (out + length l)); [apply put_below; lia|lia|]. apply (seg_same_below b1 _ (p + length l)); [apply put_below; lia|lia|]. apply at_seg, A1.
      * rewrite <- O. apply put_seg. lia.
    + rewrite flat_snoc. apply nul_free_app. split; [exact NF|]. apply nul_free_app. split; [exact (at_nul_free _ _ _ A1)|reflexivity].
    + rewrite flat_snoc, !app_length. cbn [length]. lia.
    + lia.
    + eapply at_same_from; [|apply Nat.le_refl|exact Q2]. apply put_from; lia.
    + eapply at_same_below; [exact B3|exact TG|exact T].
    + exact TG.
    + lia.
    + rewrite app_length in F. cbn [length] in F. assert (length r <= length t'). { destruct H3 as [-> | [-> | [-> _]]]; cbn in E; injection E as _ <-; cbn; lia. } lia.
    + destruct done; discriminate.
    + rewrite <- app_assoc in Y2, Y7. cbn [app] in Y2, Y7. exists q', b'. split; [exact Y1|]. split; [exact Y2|]. split; [exact Y3|]. split; [rewrite Y4, Q3, app_length; lia|]. split; [eapply same_below_trans; eassumption|].
      split; [|exact Y7]. eapply same_from_trans; [|exact Y6]. eapply same_from_le; [|exact S3]. assert (length rest <= length r); [|lia]. clear -M. induction M; cbn; rewrite ?app_length; lia.
  - (* the last line, no tag *)
    pose proof (at_bound _ _ _ A) as PB. assert (LN : length l < N) by lia.
    rewrite <- (app_nil_r l) in A. destruct (line_ok b N out p l [] A (one_line_free l H1) I OP ltac:(rewrite app_nil_r; exact LN)) as (b1 & X & A1 & SB & Z & SF & PL). rewrite X. clear X.
    rewrite (bbind_run _ _ _ _ _ (rd_str_ok b1 l N out A1 LN)). pose proof (at_bound _ _ _ T) as TB. assert (TO : tg + length t < out) by lia. rewrite (bbind_run _ _ _ _ _ (rd_str_ok b1 t N tg (at_same_below _ _ _ _ _ SB TO T) ltac:(lia))).
    rewrite nocase_says. replace (same_nameb l t) with false by (destruct (same_nameb_spec l t); [contradiction|reflexivity]). rewrite Ascii.eqb_refl.
    eexists _, _. split; [reflexivity|]. rewrite flat_last. split; [|split; [|split; [|split; [|split; [|split]]]]].
    + apply at_app. rewrite <- O. split; [|split; [exact NF|exact A1]]. apply (seg_same_below b _ out); [exact SB|lia|exact SG].
    + apply at_end, Z.
    + cbn. lia.
    + eapply same_below_le; [|exact SB]. lia.
    + exact SF.
    + rewrite app_length. lia.
    + left. reflexivity.
Qed.
