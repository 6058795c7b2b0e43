(** The text of a comment, in the copy. *)
From Coq Require Import Lia.
From Verif Require Import Base P_Base CTypes StringUtils P_Strings Ini Spec_Ini P_Ini IniBuf P_IniBuf P_IniBuf2 P_IniSave IniMulti P_IniMulti P_IniMulti2 Spec_IniMulti P_IniMulti3.

(** line ends in the spaces at the beginning, CR LF once *)
Fixpoint nls (s : bytes) : nat :=
  match s with
  | [] => 0
  | c :: r => if ini_space c then
                if is_nl c then S (match r with d :: r' => if Ascii.eqb c CR && Ascii.eqb d LF then nls r' else nls r | [] => 0 end)
                else nls r
              else 0
  end.
(** the lines of the comment at the beginning of [s], and what follows *)
Fixpoint take_comment (fuel : nat) (blank : bool) (s : bytes) : option (list bytes * bytes) :=
  match s with
  | [] => Some ([], [])
  | c :: _ =>
      if ini_comment c then
        match fuel with
        | 0 => None
        | S f => let '(l, t) := span not_nl s in
                 match t with
                 | [] => Some ([l], [])
                 | _ => option_map (fun x => (l :: fst x, snd x)) (take_comment f blank (skip_newline t))
                 end
        end
      else if blank then
        match drop_while ini_space s with
        | d :: r => if ini_comment d then
                      match fuel with
                      | 0 => None
                      | S f => option_map (fun x => (repeat [] (nls s) ++ fst x, snd x)) (take_comment f blank (d :: r))
                      end
                    else Some ([], s)
        | [] => Some ([], s)
        end
      else Some ([], s)
  end.
Lemma ahead_is b : forall k s, length s <= k -> forall fuel p n, at_ b p s -> length s < fuel ->
  exists p', ahead fuel p n b = Ok ((p', n + nls s), b) /\ at_ b p' (drop_while ini_space s) /\ p' + length (drop_while ini_space s) = p + length s /\ nls s <= p' - p.
Proof.
  induction k as [|k IH]; intros s K fuel p n H L; destruct fuel as [|f]; try lia.
  - destruct s; [|cbn in K; lia]. cbn [ahead at_] in *. rewrite (bbind_run _ _ _ _ _ (rd_ok _ _ _ H)). exists p. cbn. rewrite Nat.add_0_r. split; [reflexivity|]. split; [exact H|lia].
  - destruct s as [|c s]; [cbn [ahead at_] in *; rewrite (bbind_run _ _ _ _ _ (rd_ok _ _ _ H)); exists p; cbn; rewrite Nat.add_0_r; split; [reflexivity|]; split; [exact H|lia]|].
    cbn [ahead]. pose proof H as H0. cbn [at_] in H. destruct H as [A [N H]]. rewrite (bbind_run _ _ _ _ _ (rd_ok _ _ _ A)). cbn [drop_while nls]. destruct (ini_space c) eqn:EC.
    + destruct (is_nl c) eqn:EN.
      * destruct (skip_nl_ok b p (c :: s) H0 ltac:(discriminate)) as [q [E1 [A1 [L1 Q1]]]]. rewrite (bbind_run _ _ _ _ _ E1). cbn [length] in *.
        assert (SK : length (skip_newline (c :: s)) <= length s) by (cbn [skip_newline tl]; destruct s as [|d s]; [cbn; lia|]; destruct (_ && _); cbn; lia).
        destruct (IH (skip_newline (c :: s)) ltac:(lia) f q (S n) A1 ltac:(lia)) as (p' & X1 & X2 & X3 & X4).
        assert (DR : drop_while ini_space (skip_newline (c :: s)) = drop_while ini_space s /\ nls (skip_newline (c :: s)) = match s with d :: r' => if Ascii.eqb c CR && Ascii.eqb d LF then nls r' else nls s | [] => 0 end).
        { cbn [skip_newline tl]. destruct s as [|d s]; [split; reflexivity|]. destruct (Ascii.eqb c CR && Ascii.eqb d LF) eqn:E; [|split; reflexivity]. apply andb_prop in E as [_ E]. apply Ascii.eqb_eq in E. subst d. split; reflexivity. }
        destruct DR as [DR DN]. rewrite <- DR. rewrite <- DN. exists p'. split; [rewrite X1; f_equal; f_equal; f_equal; lia|]. split; [exact X2|]. split; [lia|]. pose proof (drop_while_length ini_space (skip_newline (c :: s))). rewrite L1 in X3. lia.
      * destruct (IH s ltac:(cbn in K; lia) f (S p) n H ltac:(cbn in L; lia)) as (p' & X1 & X2 & X3 & X4). exists p'. split; [exact X1|]. split; [exact X2|]. cbn [length]. split; lia.
    + exists p. rewrite Nat.add_0_r. split; [reflexivity|]. split; [exact H0|]. split; lia.
Qed.
Lemma put_newlines_seg n : forall b p, p + n <= length b -> exists b', put_newlines n p b = Ok (p + n, b') /\ same_from (p + n) b b' /\ same_below p b b' /\ seg b' p (repeat LF n).
Proof.
  induction n as [|n IH]; intros b p L; cbn [put_newlines].
  - exists b. rewrite Nat.add_0_r. split; [reflexivity|]. split; [apply same_from_refl|]. split; [apply same_below_refl|exact I].
  - rewrite (bbind_run _ _ _ _ _ (wr_ok b p LF ltac:(lia))). destruct (IH (put p LF b) (S p)) as (b' & E & F & G & SG); [rewrite put_length; lia|].
    exists b'. rewrite E. split; [f_equal; f_equal; lia|]. replace (p + S n) with (S p + n) by lia. split; [|split].
    + apply (same_from_trans _ _ (put p LF b)); [apply put_from; lia|exact F].
    + apply (same_below_trans _ _ (put p LF b)); [apply put_below; lia|apply (same_below_le (S p)); [lia|exact G]].
    + cbn [repeat seg]. split; [|exact SG]. destruct G as [_ G]. rewrite G by lia. rewrite put_nth by lia. rewrite Nat.eqb_refl. reflexivity.
Qed.
Lemma flat_app a c : flat (a ++ c) = flat a ++ flat c.
Proof. apply flat_map_app. Qed.
Lemma flat_blank n : flat (repeat [] n) = repeat LF n.
Proof. induction n as [|n IH]; [reflexivity|]. cbn [repeat]. change (flat ([] :: repeat [] n)) with ([LF] ++ flat (repeat [] n)). rewrite IH. reflexivity. Qed.
Lemma nul_repeat n : nul_free (repeat LF n).
Proof. unfold nul_free. induction n; [reflexivity|]. cbn. exact IHn. Qed.
Lemma flat_pos d : d <> [] -> 0 < length (flat d).
Proof. destruct d as [|x d]; [congruence|]. intros _. change (flat (x :: d)) with ((x ++ [LF]) ++ flat d). rewrite !app_length. cbn. lia. Qed.

Definition com_text (b : bytes) (start p : nat) (s : bytes) (v : option nat) (ls : list bytes) : Prop :=
  match ls with
  | [] => v = None
  | _ => v = Some start /\ at_ b start (lines_value ls) /\ start + length (lines_value ls) <= p /\ (s = [] \/ start + length (lines_value ls) < p)
  end.
Lemma comment_is blank N f : forall s ls s', take_comment f blank s = Some (ls, s') ->
  forall fuel b start p done, at_ b p s -> seg b start (flat done) -> nul_free (flat done) -> start + length (flat done) <= p -> (done = [] -> start = p /\ (blank = true -> exists c r, s = c :: r /\ ini_comment c = true)) -> length s < fuel -> length b <= N ->
  exists p' v b', comment fuel N blank start (start + length (flat done)) p b = Ok ((p', v), b') /\ at_ b' p' s' /\ p' + length s' = p + length s /\ p <= p' /\ same_below start b b' /\ com_text b' start p' s' v (done ++ ls).
Proof.
  induction f as [|f IH]; intros s ls s' HS fuel b start p done HA HD NF HO H0 HF HN; destruct fuel as [|fu]; try lia.
  all: pose proof (at_bound _ _ _ HA) as HB.
  all: assert (FIN : exists p' v b', (if Nat.eqb start p then bret (p, None) else q <# back (start + length (flat done)) ;; _ <# wr q NUL ;; bret (p, Some start)) b = Ok ((p', v), b') /\ at_ b' p' s /\ p' + length s = p + length s /\ p <= p' /\ same_below start b b' /\ com_text b' start p' s v done)
    by (destruct done as [|d0 dn]; [destruct (H0 eq_refl) as [-> _]; rewrite Nat.eqb_refl; exists p, None, b; split; [reflexivity|]; split; [exact HA|]; split; [lia|]; split; [lia|]; split; [apply same_below_refl|reflexivity]|];
        set (dd := d0 :: dn) in *; assert (ND : dd <> []) by discriminate; pose proof (flat_value dd ND) as FV; rewrite FV in *; rewrite app_length in *; cbn [length] in *;
        destruct (Nat.eqb_spec start p) as [|_]; [lia|]; rewrite Nat.add_1_r, Nat.add_succ_r; cbn [back]; rewrite (bbind_run _ _ _ (start + length (lines_value dd)) b) by reflexivity; rewrite (bbind_run _ _ _ _ _ (wr_ok b (start + length (lines_value dd)) NUL ltac:(lia)));
        apply seg_app in HD as [HD _]; apply nul_free_app in NF as [NF _];
        eexists p, _, (put (start + length (lines_value dd)) NUL b); split; [reflexivity|]; split; [eapply at_same_from; [apply (put_from b (start + length (lines_value dd)) NUL p); lia|lia|exact HA]|]; split; [lia|]; split; [lia|]; split; [apply put_below; lia|];
        split; [reflexivity|]; split; [apply at_intro; [apply (seg_same_below b _ (start + length (lines_value dd))); [apply put_below; lia|lia|exact HD]|exact NF|rewrite put_nth by lia; rewrite Nat.eqb_refl; reflexivity]|]; split; [lia|right; lia]).
  all: cbn [comment].
  all: destruct s as [|c s]; [cbn [take_comment] in HS; injection HS as <- <-; rewrite app_nil_r; cbn [at_] in HA; rewrite (bbind_run _ _ _ _ _ (rd_ok _ _ _ HA));
       change (negb (ini_comment NUL)) with true; cbv iota; destruct blank; cbn [negb];
       [destruct (ahead_is b 0 [] (le_n 0) N p 0 HA ltac:(cbn; lia)) as [q [E [X Y]]]; rewrite (bbind_run _ _ _ _ _ E); cbn [at_ drop_while] in X; rewrite (bbind_run _ _ _ _ _ (rd_ok _ _ _ X)); exact FIN
       |exact FIN]|].
  all: cbn [take_comment] in HS; pose proof HA as HA0; cbn [at_] in HA; destruct HA as [A [NC HA]]; rewrite (bbind_run _ _ _ _ _ (rd_ok _ _ _ A)).
  all: destruct (ini_comment c) eqn:EC; cbn [negb]; [try discriminate HS|].
  (* no comment character *)
  1, 3: destruct blank; cbn [negb]; [|injection HS as <- <-; rewrite app_nil_r; exact FIN].
  1, 2: destruct (ahead_is b _ (c :: s) (le_n _) N p 0 HA0 ltac:(lia)) as [q [E [X [Y Z]]]]; rewrite (bbind_run _ _ _ _ _ E).
  1, 2: destruct (drop_while ini_space (c :: s)) as [|d r] eqn:ED; [cbn [at_] in X; rewrite (bbind_run _ _ _ _ _ (rd_ok _ _ _ X)); injection HS as <- <-; rewrite app_nil_r; exact FIN|].
  1, 2: pose proof X as X0; cbn [at_] in X; destruct X as [XA [XN X]]; rewrite (bbind_run _ _ _ _ _ (rd_ok _ _ _ XA)); destruct (ini_comment d) eqn:EDC; [try discriminate HS|injection HS as <- <-; rewrite app_nil_r; exact FIN].
  - (* blank lines, another comment *)
    assert (QP : p < q).
    { destruct (Nat.eq_dec q p) as [->|]; [|pose proof (drop_while_length ini_space (c :: s)); rewrite ED in *; lia]. exfalso. assert (LE : length (d :: r) = length (c :: s)) by lia.
      destruct (drop_while_split ini_space (c :: s)) as [x [Ex _]]. rewrite ED in Ex. rewrite Ex, app_length in LE. destruct x; [|cbn in LE; lia]. cbn in Ex. congruence. }
    assert (DN : done <> []) by (intros ->; destruct (H0 eq_refl) as [_ H1]; destruct (H1 eq_refl) as (c' & r' & X1 & X2); congruence).
    set (k := nls (c :: s)) in *. cbn [plus] in *. destruct (take_comment f true (d :: r)) as [[ls2 s2]|] eqn:ET; [|discriminate]. injection HS as <- <-.
    destruct (put_newlines_seg k b (start + length (flat done)) ltac:(lia)) as (b1 & E1 & F1 & G1 & SG1). rewrite (bbind_run _ _ _ _ _ E1).
    assert (FL : flat (done ++ repeat [] k) = flat done ++ repeat LF k) by (rewrite flat_app, flat_blank; reflexivity).
    destruct (IH (d :: r) ls2 s2 ET fu b1 start q (done ++ repeat [] k)) as (p' & v & b' & R1 & R2 & R3 & R4 & R5 & R6).
    + eapply at_same_from; [exact F1|lia|exact X0].
    + rewrite FL. apply seg_app. split; [eapply seg_same_below; [exact G1|lia|exact HD]|exact SG1].
    + rewrite FL. apply nul_free_app. split; [exact NF|apply nul_repeat].
    + rewrite FL, app_length, repeat_length. lia.
    + intros X1. destruct done; [congruence|discriminate].
    + lia.
    + destruct F1 as [F1 _]. lia.
    + rewrite FL, app_length, repeat_length, Nat.add_assoc in R1. exists p', v, b'. split; [exact R1|]. split; [exact R2|]. split; [lia|]. split; [lia|]. split; [eapply same_below_trans; [eapply same_below_le; [|exact G1]; lia|exact R5]|]. rewrite <- app_assoc in R6. exact R6.
  - (* a line of comment *)
    assert (SP : exists l t, span not_nl (c :: s) = (l, t) /\ c :: s = l ++ t /\ eol_free l /\ at_eol t /\ 0 < length l).
    { destruct (line_end (c :: s)) as (l & t & E & L1 & T1). exists l, t. rewrite E. split; [apply span_free; [exact L1|exact T1]|]. split; [reflexivity|]. split; [exact L1|]. split; [exact T1|]. destruct l as [|x l]; [|cbn; lia]. cbn in E. subst t. cbn in T1. exfalso. pose proof (comment_not_nl _ EC) as CN. rewrite <- is_eol_nl in CN. congruence. }
    destruct SP as (l & t & SP & SE & L1 & T1 & LP). rewrite SP in HS. rewrite SE in HA0, HB, HF |- *. set (out := start + length (flat done)) in *.
    destruct (line_ok b N out p l t HA0 L1 T1 HO ltac:(lia)) as (b1 & X & A1 & SB & Z & SF & PL). rewrite X. clear X. assert (LL : length b1 = length b) by apply SB.
    destruct t as [|ch r].
    + injection HS as <- <-. cbv iota. rewrite Ascii.eqb_refl. exists (p + length l), (Some start), b1. split; [reflexivity|]. split; [apply at_end, Z|]. split; [rewrite app_nil_r; cbn; lia|]. split; [lia|]. split; [eapply same_below_le; [|exact SB]; unfold out; lia|].
      unfold com_text. destruct (done ++ [l]) as [|x y] eqn:DL; [destruct done; discriminate|]. rewrite <- DL, flat_last. split; [reflexivity|]. split; [|rewrite app_length; unfold out in *; split; [lia|left; reflexivity]].
      apply at_app. split; [eapply seg_same_below; [exact SB|unfold out; lia|exact HD]|]. split; [exact NF|exact A1].
    + cbv iota. assert (CN : ch <> NUL) by (intros ->; discriminate T1). destruct (Ascii.eqb_spec ch NUL) as [->|_]; [congruence|]. replace (out + (p + length l - p)) with (out + length l) by lia.
      destruct (take_comment f blank (skip_newline (ch :: r))) as [[ls2 s2]|] eqn:ET; [|discriminate]. injection HS as <- <-. cbn [fst snd].
      rewrite (bbind_run _ _ _ _ _ (wr_ok b1 (p + length l) ch ltac:(lia))). set (b2 := put (p + length l) ch b1). assert (L2 : length b2 = length b) by (unfold b2; rewrite put_length by lia; exact LL).
      assert (S2 : same_from (S (p + length l)) b b2) by (eapply same_from_trans; [exact SF|apply put_from; lia]). apply at_app in HA0 as (_ & _ & HA1).
      assert (A2 : at_ b2 (p + length l) (ch :: r)) by (apply (restore b); [exact HA1|exact S2|unfold b2; rewrite put_nth by lia; rewrite Nat.eqb_refl; reflexivity]).
      destruct (skip_nl_ok b2 _ _ A2 ltac:(discriminate)) as (q & Q1 & Q2 & Q3 & Q4). rewrite (bbind_run _ _ _ _ _ Q1).
      rewrite (bbind_run _ _ _ _ _ (wr_ok b2 (out + length l) LF ltac:(lia))). set (b3 := put (out + length l) LF b2). assert (L3 : length b3 = length b) by (unfold b3; rewrite put_length by lia; exact L2).
      assert (FL : flat (done ++ [l]) = flat done ++ l ++ [LF]) by apply flat_snoc. cbn [length] in *. rewrite app_length in HF, HB. cbn [length] in HF, HB.
      destruct (IH (skip_newline (ch :: r)) ls2 s2 ET fu b3 start q (done ++ [l])) as (p' & v & b' & R1 & R2 & R3 & R4 & R5 & R6).
      * eapply at_same_from; [|apply Nat.le_refl|exact Q2]. apply put_from; lia.
      * rewrite FL. apply seg_app. split; [|apply seg_app; split].
        -- apply (seg_same_below b2 _ (out + length l)); [apply put_below; lia|unfold out; lia|]. apply (seg_same_below b1 _ (p + length l)); [apply put_below; lia|lia|]. apply (seg_same_below b _ out); [exact SB|lia|exact HD].
        -- fold out. apply (seg_same_below b2 _ (out + length l)); [apply put_below; lia|lia|]. apply (seg_same_below b1 _ (p + length l)); [apply put_below; lia|lia|]. apply at_seg, A1.
        -- fold out. apply put_seg. lia.
      * rewrite FL. apply nul_free_app. split; [exact NF|]. apply nul_free_app. split; [exact (at_nul_free _ _ _ A1)|reflexivity].
      * rewrite FL, !app_length. cbn [length]. unfold out in *. lia.
      * intros X1. destruct done; discriminate.
      * lia.
      * lia.
      * rewrite FL, !app_length in R1. cbn [length] in R1. replace (start + (length (flat done) + (length l + 1))) with (S (out + length l)) in R1 by (unfold out; lia). exists p', v, b'. split; [exact R1|]. split; [exact R2|]. split; [rewrite app_length; cbn [length]; lia|]. split; [lia|].
        split; [|rewrite <- app_assoc in R6; exact R6]. apply (same_below_trans _ _ b1); [eapply same_below_le; [|exact SB]; unfold out; lia|]. apply (same_below_trans _ _ b2); [apply put_below; unfold out in *; lia|]. apply (same_below_trans _ _ b3); [apply put_below; unfold out in *; lia|exact R5].
Qed.
