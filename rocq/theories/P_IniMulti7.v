(** Values of several lines that have no line: what the loader does with them. *)
From Coq Require Import Lia.
From Verif Require Import Base P_Base CTypes StringUtils P_Strings Ini Spec_Ini P_Ini P_IniSave IniBuf P_IniBuf P_IniBuf2 IniMulti Spec_IniMulti P_IniMulti P_IniMulti2 P_IniMulti3 P_IniMulti4 P_IniMulti5 P_IniMulti6.

Lemma fwd_to P b p x y N : at_ b p (x ++ y) -> forallb P x = true -> (match y with [] => True | c :: _ => P c = false end) -> length b <= N -> fwd N P p b = Ok (p + length x, b).
Proof.
  intros A X Y L. destruct (fwd_ok P b (x ++ y) N p A (at_lt_N _ _ _ _ A L)) as (q & E & Q & _). rewrite E, Q. rewrite (span_unique P x y X); [reflexivity|]. destruct y; [exact I|exact Y].
Qed.
Lemma at_tail b p x y : at_ b p (x ++ y) -> at_ b (p + length x) y.
Proof. intros A. apply at_app in A. apply A. Qed.
Lemma at_head b p c y : at_ b p (c :: y) -> nth_error b p = Some c.
Proof. intros A. apply A. Qed.
Lemma clean_no_space k c r : clean k -> k = c :: r -> ini_space c = false.
Proof. intros [A B] ->. rewrite ini_space_cases. rewrite (strip_id_head c r B). apply (A c). left. reflexivity. Qed.
Lemma rdrop_clean k : clean k -> rdrop_while ini_space k = k.
Proof. intros H. rewrite rdrop_while_free by (apply clean_eol_free, H). destruct H as [_ H]. destruct k as [|c r]; [reflexivity|]. pose proof (strip_id_head c r H) as G. rewrite <- strip_head by exact G. exact H. Qed.

(** an entry line that opens a value of several lines *)
Lemma find_multi F N p sp com b k t rest : clean_key k -> clean t -> 0 < N -> length b <= N -> at_ b p (k ++ bs " = <<<" ++ t ++ LF :: rest) ->
  let v := p + length k + 6 in let nx := S (v + length t) in
  exists b2, at_ b2 p k /\ at_ b2 v t /\ at_ b2 nx rest /\ same_below p b b2 /\ same_from nx b b2 /\
   find_entry_ml true (S F) N p sp com b = ('(q, val) <# multi_text N N v nx nx nx ;; bret (match val with Some x => Some {| e_sec := sp; e_kv := Some (p, x); e_comment := com |} | None => None end, q, sp)) b2.
Proof.
  intros [K1 [K2 (c & r & -> & K3)]] CT N0 LB A v nx. set (k := c :: r) in *. pose proof (clean_no_space k c r K1 eq_refl) as SP0. pose proof (clean_eol_free _ K1) as KE. pose proof (clean_eol_free _ CT) as TE.
  pose proof (clean_nul_free _ K1) as KN. pose proof (at_bound _ _ _ A) as BD. rewrite !app_length in BD. change (length (LF :: rest)) with (S (length rest)) in BD. change (Datatypes.length (bs " = <<<")) with 6 in BD.
  cbn [find_entry_ml]. cbv zeta.
  assert (C0 : nth_error b p = Some c) by exact (at_head _ _ _ _ A). assert (CN : c <> NUL) by (intros ->; unfold nul_free in KN; discriminate KN).
  rewrite (bbind_run _ _ _ _ _ (rd_ok _ _ _ C0)). destruct (Ascii.eqb_spec c NUL) as [|_]; [congruence|].
  assert (F1 : fwd N ini_space p b = Ok (p + length (@nil ascii), b)) by (apply (fwd_to ini_space b p [] _ N A); [reflexivity|exact SP0|exact LB]). cbn [length] in F1. rewrite Nat.add_0_r in F1. rewrite (bbind_run _ _ _ _ _ F1), (bbind_run _ _ _ _ _ (rd_ok _ _ _ C0)).
  destruct (Ascii.eqb_spec c NUL) as [|_]; [congruence|].
  assert (IC : ini_comment c = false) by (unfold ini_comment; apply orb_false_iff; split; apply Ascii.eqb_neq; intros ->; apply K3; cbn; auto). rewrite IC. destruct (Ascii.eqb_spec c "["%char) as [->|_]; [exfalso; apply K3; cbn; auto|].
  (* the key *)
  assert (A1 : at_ b p ((k ++ [SP]) ++ "="%char :: bs " <<<" ++ t ++ LF :: rest)) by (rewrite <- app_assoc; exact A).
  rewrite (bbind_run _ _ _ _ _ (fwd_to (fun x => negb (Ascii.eqb x "="%char) && negb (is_nl x)) b p (k ++ [SP]) _ N A1 ltac:(rewrite forallb_app; apply andb_true_iff; split; [|reflexivity]; apply forallb_forall; intros x X; apply andb_true_iff; split; [apply negb_true_iff, Ascii.eqb_neq; intros ->; exact (K2 X)|unfold eol_free in KE; rewrite forallb_forall in KE; exact (KE x X)]) eq_refl LB)).
  pose proof (at_tail _ _ _ _ A1) as A2. rewrite (bbind_run _ _ _ _ _ (rd_ok _ _ _ (at_head _ _ _ _ A2))). change (negb (Ascii.eqb "=" "=")) with false. cbv iota. set (q := p + length (k ++ [SP])) in *. assert (QL : q = p + length k + 1) by (unfold q; rewrite app_length; cbn [length]; lia). assert (KL : length k = S (length r)) by reflexivity.
  destruct (Nat.eqb_spec p q) as [|_]; [lia|].
  apply at_app in A1 as (SG & NG & _).
  assert (RD : rdrop_while ini_space (k ++ [SP]) = k) by (rewrite rdrop_while_app by reflexivity; apply rdrop_clean, K1).
  destruct (trim_end_ok b p (k ++ [SP]) q N SG NG ltac:(right; exists c, (r ++ [SP]); split; [reflexivity|exact SP0]) eq_refl ltac:(lia) ltac:(lia) ltac:(rewrite app_length; cbn [length]; lia)) as [T1 T2]. rewrite RD in T1, T2. rewrite (bbind_run _ _ _ _ _ T1). clear T1.
  set (b1 := put (p + length k) NUL b) in *. assert (L1 : length b1 = length b) by (apply put_length; lia).
  assert (F2 : same_from (S q) b b1) by (apply put_from; lia). assert (G1 : same_below p b b1) by (apply put_below; lia).
  assert (A3 : at_ b1 (S q) ([SP] ++ bs "<<<" ++ t ++ LF :: rest)) by (eapply at_same_from; [exact F2|apply le_n|apply A2]).
  assert (V : v = S q + 1 + 3) by (unfold v; lia).
  rewrite (bbind_run _ _ _ _ _ (fwd_to (fun x => negb (is_nl x) && ini_space x) b1 (S q) [SP] _ N A3 eq_refl eq_refl ltac:(lia))). cbn [length].
  apply at_tail in A3. cbn [length] in A3. set (w := S q + 1) in *. change (bs "<<<" ++ t ++ LF :: rest) with ((bs "<<<" ++ t) ++ LF :: rest) in A3.
  assert (VE : forallb (fun x => negb (is_nl x)) (bs "<<<" ++ t) = true) by (rewrite forallb_app; apply andb_true_iff; split; [reflexivity|exact TE]).
  rewrite (bbind_run _ _ _ _ _ (fwd_to (fun x => negb (is_nl x)) b1 w (bs "<<<" ++ t) _ N A3 VE eq_refl ltac:(lia))).
  assert (LV : length (bs "<<<" ++ t) = 3 + length t) by reflexivity. rewrite LV. set (e := w + (3 + length t)) in *.
  pose proof (at_tail _ _ _ _ A3) as A4. rewrite LV in A4. fold e in A4. destruct e as [|e'] eqn:Ee; [lia|]. cbn [back]. rewrite bret_bind. rewrite (bbind_run _ _ _ _ _ (rd_ok _ _ _ (at_head _ _ _ _ A4))). change (Ascii.eqb LF NUL) with false. cbv iota.
  destruct (skip_nl_ok b1 (S e') (LF :: rest) A4 ltac:(discriminate)) as (nn & S1 & S2 & S3 & S4). assert (SN : skip_newline (LF :: rest) = rest) by (destruct rest; reflexivity). rewrite SN in S2, S3. cbn [length] in S3. assert (nn = nx) as -> by (unfold nx; lia).
  rewrite (bbind_run _ _ _ _ _ S1).
  apply at_app in A3 as (SG3 & NG3 & _). assert (RV : rdrop_while ini_space (bs "<<<" ++ t) = bs "<<<" ++ t).
  { assert (CC : clean (bs "<<<" ++ t)). { split; [intros x X; apply in_app_or in X as [X|X]; [cbn in X; decompose [or] X; subst; try contradiction; (split; [reflexivity|discriminate])|apply CT, X]|].
      destruct CT as [_ CT]. rewrite strip_spec in *. change (drop_while is_gap (bs "<<<" ++ t)) with (bs "<<<" ++ t). destruct t as [|x t']; [reflexivity|]. pose proof (strip_id_head x t' ltac:(rewrite strip_spec; exact CT)) as GX. cbn [drop_while] in CT. rewrite GX in CT.
      apply rdrop_while_id. pose proof (rdrop_while_last is_gap (x :: t')) as LA. rewrite CT in LA. clear -LA. destruct (x :: t') as [|y z] eqn:E0 using rev_ind; [discriminate|]. rewrite app_assoc. apply last_not_app. apply last_not_app in LA. exact LA. }
    apply rdrop_clean, CC. }
  destruct (trail_ok b1 w (bs "<<<" ++ t) N e' SG3 ltac:(left; lia) ltac:(lia) ltac:(lia)) as (q4 & E4 & P6). rewrite RV, LV in P6. rewrite (bbind_run _ _ _ _ _ E4). rewrite P6. rewrite (bbind_run _ _ _ _ _ (wr_ok b1 (w + (3 + length t)) NUL ltac:(lia))).
  pose proof (cut_ok b1 w (bs "<<<" ++ t) (w + (3 + length t)) SG3 NG3 ltac:(rewrite LV; reflexivity) ltac:(lia)) as AV. cbv zeta in AV. rewrite RV, LV in AV. set (b2 := put (w + (3 + length t)) NUL b1) in *.
  rewrite (bbind_run (is_tag w) _ b2 true b2); [|rewrite (is_tag_ok b2 w (bs "<<<" ++ t) AV); reflexivity].
  exists b2. replace (w + 3) with v by lia. assert (X2 : same_below (S q) b1 b2) by (apply put_below; lia).
  split; [eapply at_same_below; [exact X2|lia|exact T2]|]. split; [apply at_tail in AV; change (length (bs "<<<")) with 3 in AV; replace (w + 3) with v in AV by lia; exact AV|].
  split; [eapply at_same_from; [apply (put_from b1 _ NUL nx); lia|apply le_n|exact S2]|]. split; [eapply same_below_trans; [exact G1|eapply same_below_le; [|exact X2]; lia]|].
  split; [eapply same_from_trans; [eapply same_from_le; [|exact F2]; lia|apply put_from; lia]|]. reflexivity.
Qed.
