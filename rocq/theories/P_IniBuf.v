(** Proofs about IniBuf.v: the in-place loader refines the loader on texts. *)
From Verif Require Import Base CTypes StringUtils Ini IniBuf P_Base P_Text Spec_Ini P_Ini.
From Coq Require Import Lia.

(** ** The copy *)
Lemma bbind_run {A C} (m : B A) (k : A -> B C) b a b1 : m b = Ok (a, b1) -> bbind m k b = k a b1.
Proof. intros H. unfold bbind. rewrite H. reflexivity. Qed.
(** the C string at [p] is [s] *)
Fixpoint at_ (b : bytes) (p : nat) (s : bytes) : Prop :=
  match s with [] => nth_error b p = Some NUL | c :: r => nth_error b p = Some c /\ c <> NUL /\ at_ b (S p) r end.
(** the characters from [p] on are [s] *)
Fixpoint seg (b : bytes) (p : nat) (s : bytes) : Prop :=
  match s with [] => True | c :: r => nth_error b p = Some c /\ seg b (S p) r end.
Lemma at_app b p x y : at_ b p (x ++ y) <-> seg b p x /\ nul_free x /\ at_ b (p + length x) y.
Proof.
  revert p. induction x as [|c x IH]; intros p; cbn [app at_ seg length].
  - rewrite Nat.add_0_r. split; [intros H; repeat split; exact H|intros [_ [_ H]]; exact H].
  - rewrite IH. rewrite Nat.add_succ_r. cbn [Nat.add]. unfold nul_free. cbn [forallb]. rewrite andb_true_iff. unfold nonnul at 2. rewrite negb_true_iff, Ascii.eqb_neq. tauto.
Qed.
Lemma at_bound b p s : at_ b p s -> p + length s < length b.
Proof.
  revert p. induction s as [|c s IH]; intros p; cbn [at_ length].
  - intros H. apply nth_error_Some. rewrite Nat.add_0_r. congruence.
  - intros [_ [_ H]]. apply IH in H. lia.
Qed.
Lemma at_nul_free b p s : at_ b p s -> nul_free s.
Proof. intros H. rewrite <- (app_nil_r s) in H. apply at_app in H. apply H. Qed.
Lemma at_seg b p s : at_ b p s -> seg b p s.
Proof. intros H. rewrite <- (app_nil_r s) in H. apply at_app in H. apply H. Qed.
Lemma seg_app b p x y : seg b p (x ++ y) <-> seg b p x /\ seg b (p + length x) y.
Proof.
  revert p. induction x as [|c x IH]; intros p; cbn [app seg length]; [rewrite Nat.add_0_r; tauto|]. rewrite IH, Nat.add_succ_r. cbn [Nat.add]. tauto.
Qed.

(** the same size, and the same from or below a position *)
Definition same_from (p : nat) (b b' : bytes) : Prop := length b' = length b /\ forall i, p <= i -> nth_error b' i = nth_error b i.
Definition same_below (p : nat) (b b' : bytes) : Prop := length b' = length b /\ forall i, i < p -> nth_error b' i = nth_error b i.
Lemma same_from_trans p b b' b'' : same_from p b b' -> same_from p b' b'' -> same_from p b b''.
Proof. intros [L H] [L' H']. split; [congruence|]. intros i Hi. rewrite H', H by exact Hi. reflexivity. Qed.
Lemma same_below_trans p b b' b'' : same_below p b b' -> same_below p b' b'' -> same_below p b b''.
Proof. intros [L H] [L' H']. split; [congruence|]. intros i Hi. rewrite H', H by exact Hi. reflexivity. Qed.
Lemma same_below_le p q b b' : q <= p -> same_below p b b' -> same_below q b b'.
Proof. intros L [E H]. split; [exact E|]. intros i Hi. apply H. lia. Qed.
Lemma same_from_le p q b b' : p <= q -> same_from p b b' -> same_from q b b'.
Proof. intros L [E H]. split; [exact E|]. intros i Hi. apply H. lia. Qed.
Lemma same_below_refl p b : same_below p b b. Proof. split; reflexivity. Qed.
Lemma same_from_refl p b : same_from p b b. Proof. split; reflexivity. Qed.
Lemma at_same_from b b' p q s : same_from p b b' -> p <= q -> at_ b q s -> at_ b' q s.
Proof.
  intros [_ H]. revert q. induction s as [|c s IH]; intros q L; cbn [at_]; [rewrite H by exact L; auto|]. intros [A [N B]]. rewrite H by exact L. split; [exact A|]. split; [exact N|]. apply IH; [lia|exact B].
Qed.
Lemma seg_same_below b b' p q s : same_below p b b' -> q + length s <= p -> seg b q s -> seg b' q s.
Proof.
  intros [_ H]. revert q. induction s as [|c s IH]; intros q L; cbn [seg length] in *; [auto|]. intros [A B]. rewrite H by lia. split; [exact A|]. apply IH; [lia|exact B].
Qed.
Lemma at_same_below b b' p q s : same_below p b b' -> q + length s < p -> at_ b q s -> at_ b' q s.
Proof.
  intros [_ H]. revert q. induction s as [|c s IH]; intros q L; cbn [at_ length] in *; [rewrite H by lia; auto|]. intros [A [N B]]. rewrite H by lia. split; [exact A|]. split; [exact N|]. apply IH; [lia|exact B].
Qed.

(** ** Reading and writing *)
Lemma rd_ok b p c : nth_error b p = Some c -> rd p b = Ok (c, b).
Proof. intros H. unfold rd. rewrite H. reflexivity. Qed.
Lemma put_nth b p c i : p < length b -> nth_error (put p c b) i = if Nat.eqb i p then Some c else nth_error b i.
Proof.
  intros L. unfold put. destruct (Nat.eqb_spec i p) as [->|N].
  - rewrite nth_error_app2 by (rewrite firstn_length_le; lia). rewrite firstn_length_le by lia. rewrite Nat.sub_diag. reflexivity.
  - destruct (Nat.lt_ge_cases i p) as [H|H].
    + rewrite nth_error_app1 by (rewrite firstn_length_le; lia). rewrite <- (firstn_skipn p b) at 2. rewrite nth_error_app1 by (rewrite firstn_length_le; lia). reflexivity.
    + rewrite nth_error_app2 by (rewrite firstn_length_le; lia). rewrite firstn_length_le by lia. destruct (i - p) as [|k] eqn:E; [lia|]. cbn [nth_error].
      rewrite <- (firstn_skipn (S p) b) at 2. rewrite nth_error_app2 by (rewrite firstn_length_le; lia). rewrite firstn_length_le by lia. f_equal. lia.
Qed.
Lemma put_length b p c : p < length b -> length (put p c b) = length b.
Proof. intros L. unfold put. rewrite app_length. cbn [length]. rewrite firstn_length_le, skipn_length by lia. lia. Qed.
Lemma wr_ok b p c : p < length b -> wr p c b = Ok (tt, put p c b).
Proof. intros L. unfold wr. destruct (Nat.ltb_spec p (length b)); [reflexivity|lia]. Qed.
Lemma put_from b p c q : p < length b -> p < q -> same_from q b (put p c b).
Proof. intros L H. split; [apply put_length, L|]. intros i Hi. rewrite put_nth by exact L. destruct (Nat.eqb_spec i p); [lia|reflexivity]. Qed.
Lemma put_below b p c q : p < length b -> q <= p -> same_below q b (put p c b).
Proof. intros L H. split; [apply put_length, L|]. intros i Hi. rewrite put_nth by exact L. destruct (Nat.eqb_spec i p); [lia|reflexivity]. Qed.
Lemma move_ok b to from n : from + n <= length b -> to + n <= length b -> exists b', move to from n b = Ok (tt, b') /\ same_from (to + n) b b' /\ same_below to b b'.
Proof.
  intros L1 L2. unfold move. destruct (Nat.ltb_spec (length b) (from + n)); [lia|]. destruct (Nat.ltb_spec (length b) (to + n)); [lia|].
  eexists. split; [reflexivity|]. assert (LF : length (firstn n (skipn from b)) = n) by (rewrite firstn_length_le; [reflexivity|rewrite skipn_length; lia]).
  assert (LT : length (firstn to b) = to) by (apply firstn_length_le; lia).
  assert (LL : length (firstn to b ++ firstn n (skipn from b) ++ skipn (to + n) b) = length b) by (rewrite !app_length, LF, LT, skipn_length; lia).
  split; (split; [exact LL|]).
  - intros i Hi. rewrite nth_error_app2 by lia. rewrite nth_error_app2 by lia. rewrite LF, LT. rewrite <- (firstn_skipn (to + n) b) at 2. rewrite nth_error_app2 by (rewrite firstn_length_le; lia). rewrite firstn_length_le by lia. f_equal. lia.
  - intros i Hi. rewrite nth_error_app1 by lia. rewrite <- (firstn_skipn to b) at 2. rewrite nth_error_app1 by lia. reflexivity.
Qed.

(** ** Loops *)
Lemma fwd_ok P b s : forall fuel p, at_ b p s -> length s < fuel ->
  exists p', fwd fuel P p b = Ok (p', b) /\ p' = p + length (fst (span P s)) /\ at_ b p' (snd (span P s)) /\ seg b p (fst (span P s)).
Proof.
  induction s as [|c s IH]; intros fuel p H L; destruct fuel as [|f]; [cbn in L; lia| |cbn in L; lia|]; cbn [fwd at_ length] in *.
  - rewrite (bbind_run _ _ _ _ _ (rd_ok _ _ _ H)). rewrite Ascii.eqb_refl. cbn [negb andb]. exists p. cbn [span fst snd length seg at_]. rewrite Nat.add_0_r. auto.
  - destruct H as [A [N H]]. rewrite (bbind_run _ _ _ _ _ (rd_ok _ _ _ A)). destruct (Ascii.eqb_spec c NUL); [congruence|]. cbn [negb andb span].
    destruct (P c).
    + destruct (IH f (S p) H ltac:(lia)) as [p' [E [-> [X Y]]]]. destruct (span P s) as [x y]. cbn [fst snd] in *. exists (S p + length x). rewrite E. cbn [length seg]. split; [reflexivity|]. split; [lia|]. auto.
    + exists p. cbn [fst snd length seg at_]. rewrite Nat.add_0_r. auto 8.
Qed.
Lemma skip_nl_ok b p s : at_ b p s -> s <> [] -> exists p', skip_nl p b = Ok (p', b) /\ at_ b p' (skip_newline s) /\ p' + length (skip_newline s) = p + length s /\ p < p'.
Proof.
  destruct s as [|c s]; intros H N; [congruence|]. cbn [at_] in H. destruct H as [A [NC H]]. unfold skip_nl. rewrite (bbind_run _ _ _ _ _ (rd_ok _ _ _ A)).
  destruct s as [|d s]; cbn [at_ skip_newline tl length] in *.
  - destruct (Ascii.eqb c CR).
    + rewrite (bbind_run _ _ _ _ _ (rd_ok _ _ _ H)). exists (S p). cbn [Ascii.eqb]. split; [reflexivity|]. split; [exact H|lia].
    + exists (S p). split; [reflexivity|]. split; [exact H|lia].
  - destruct H as [A' [ND H]]. destruct (Ascii.eqb c CR); cbn [andb].
    + rewrite (bbind_run _ _ _ _ _ (rd_ok _ _ _ A')). destruct (Ascii.eqb d LF); cbn [length]; eexists; (split; [reflexivity|]); cbn [at_]; (split; [auto|lia]).
    + exists (S p). split; [reflexivity|]. cbn [at_ length]. split; [auto|lia].
Qed.
Lemma rdrop_snoc f l c : rdrop_while f (l ++ [c]) = if f c then rdrop_while f l else l ++ [c].
Proof. destruct (f c) eqn:E; [apply rdrop_while_app; cbn; rewrite E; reflexivity|]. apply rdrop_while_id. unfold last_not. rewrite rev_app_distr. exact E. Qed.
Lemma trail_ok b lo name : forall fuel p, seg b lo name -> (0 < lo \/ exists c r, name = c :: r /\ ini_space c = false) -> S p = lo + length name -> length name < fuel ->
  exists p', trail fuel lo p b = Ok (p', b) /\ S p' = lo + length (rdrop_while ini_space name).
Proof.
  induction name as [|c name IH] using rev_ind; intros fuel p HS HL HP HF; destruct fuel as [|f]; try lia; cbn [trail].
  - destruct HL as [HL|[c [r [X _]]]]; [|discriminate]. cbn [length] in HP. destruct (Nat.leb_spec lo p); [lia|]. exists p. split; [reflexivity|]. exact HP.
  - rewrite app_length in HP, HF. cbn [length] in HP, HF. destruct (Nat.leb_spec lo p); [|lia]. apply seg_app in HS as [HS HC]. cbn [seg] in HC. destruct HC as [HC _].
    assert (EP : p = lo + length name) by lia. subst p. rewrite (bbind_run _ _ _ _ _ (rd_ok _ _ _ HC)). rewrite rdrop_snoc. destruct (ini_space c) eqn:EC.
    + destruct (lo + length name) as [|q] eqn:EQ.
      * exfalso. destruct HL as [HL|[c' [r [X Y]]]]; [lia|]. destruct name; [|cbn in EQ; lia]. cbn in X. congruence.
      * cbn [back]. rewrite (bbind_run _ _ _ q b) by reflexivity. apply IH; [exact HS| |lia|lia].
        destruct HL as [HL|[c' [r [X Y]]]]; [left; exact HL|]. destruct name as [|n0 name]; [cbn in X; congruence|]. right. exists n0, name. cbn in X. split; [reflexivity|congruence].
    + eexists. split; [reflexivity|]. rewrite app_length. cbn [length]. lia.
Qed.
Lemma cut_ok b lo name hi : seg b lo name -> nul_free name -> hi = lo + length name -> hi < length b ->
  let k := rdrop_while ini_space name in at_ (put (lo + length k) NUL b) lo k.
Proof.
  intros HS HN HH HL k. destruct (rdrop_while_split ini_space name) as [sp [E _]]. fold k in E. assert (LK : length k <= length name) by apply rdrop_while_length.
  rewrite <- (app_nil_r k) at 2. apply at_app. rewrite E in HS, HN. apply seg_app in HS as [HS _].
  split; [|split].
  - eapply seg_same_below; [apply (put_below b (lo + length k) NUL (lo + length k)); lia|lia|exact HS].
  - unfold nul_free in *. rewrite forallb_app in HN. apply andb_true_iff in HN. apply HN.
  - cbn [at_]. rewrite put_nth by lia. rewrite Nat.eqb_refl. reflexivity.
Qed.
Lemma trim_end_ok b lo name hi fuel : seg b lo name -> nul_free name -> (0 < lo \/ exists c r, name = c :: r /\ ini_space c = false) -> hi = lo + length name -> 0 < hi -> hi < length b -> length name < fuel ->
  let k := rdrop_while ini_space name in
  trim_end fuel lo hi b = Ok (tt, put (lo + length k) NUL b) /\ at_ (put (lo + length k) NUL b) lo k.
Proof.
  intros HS HN HL HH H0 HB HF k. split; [|eapply cut_ok; eassumption]. unfold trim_end. destruct hi as [|q]; [lia|]. cbn [back]. rewrite (bbind_run _ _ _ q b) by reflexivity.
  destruct (trail_ok b lo name fuel q HS HL ltac:(lia) HF) as [p' [E P]]. rewrite (bbind_run _ _ _ _ _ E). rewrite P. fold k. apply wr_ok. assert (length k <= length name) by apply rdrop_while_length. lia.
Qed.

(** ** Comments *)
Lemma is_nl_space c : is_nl c = true -> ini_space c = true.
Proof. unfold is_nl, ini_space. intros H. apply orb_true_iff in H as [H|H]; rewrite H, ?orb_true_r; reflexivity. Qed.
Lemma comment_not_nl c : ini_comment c = true -> is_nl c = false.
Proof. unfold ini_comment. intros H. apply orb_true_iff in H as [H|H]; apply Ascii.eqb_eq in H; subst c; reflexivity. Qed.
Lemma span_suffix P s : exists x, s = x ++ snd (span P s) /\ x = fst (span P s).
Proof. exists (fst (span P s)). pose proof (span_app P s). destruct (span P s). auto. Qed.
Lemma ahead_ok b : forall k s, length s <= k -> forall fuel p n, at_ b p s -> length s < fuel ->
  exists p' n', ahead fuel p n b = Ok ((p', n'), b) /\ at_ b p' (drop_while ini_space s) /\ p' + length (drop_while ini_space s) = p + length s /\ n <= n' /\ n' - n <= p' - p.
Proof.
  induction k as [|k IH]; intros s K fuel p n H L; destruct fuel as [|f]; try lia.
  - destruct s; [|cbn in K; lia]. cbn [ahead at_] in *. rewrite (bbind_run _ _ _ _ _ (rd_ok _ _ _ H)). exists p, n. cbn. split; [reflexivity|]. split; [exact H|lia].
  - destruct s as [|c s]; [cbn [ahead at_] in *; rewrite (bbind_run _ _ _ _ _ (rd_ok _ _ _ H)); exists p, n; cbn; split; [reflexivity|]; split; [exact H|lia]|].
    cbn [ahead]. pose proof H as H0. cbn [at_] in H. destruct H as [A [N H]]. rewrite (bbind_run _ _ _ _ _ (rd_ok _ _ _ A)). cbn [drop_while]. destruct (ini_space c) eqn:EC.
    + destruct (is_nl c) eqn:EN.
      * destruct (skip_nl_ok b p (c :: s) H0 ltac:(discriminate)) as [q [E [X [Y Z]]]]. rewrite (bbind_run _ _ _ _ _ E).
        assert (D : drop_while ini_space s = drop_while ini_space (skip_newline (c :: s))).
        { cbn [skip_newline]. destruct s as [|d s]; [reflexivity|]. destruct (Ascii.eqb c CR && Ascii.eqb d LF) eqn:EE; [|reflexivity]. apply andb_true_iff in EE as [_ EE]. apply Ascii.eqb_eq in EE. subst d. reflexivity. }
        cbn [length] in *. destruct (IH (skip_newline (c :: s)) ltac:(lia) f q (S n) X ltac:(lia)) as [p' [n' [E' [X' [Y' Z']]]]]. exists p', n'. rewrite D. split; [exact E'|]. split; [exact X'|].
        pose proof (at_bound _ _ _ X'). pose proof (at_bound _ _ _ X). pose proof (drop_while_length ini_space (skip_newline (c :: s))). lia.
      * cbn [length] in *. destruct (IH s ltac:(lia) f (S p) n H ltac:(lia)) as [p' [n' [E' [X' [Y' Z']]]]]. exists p', n'. split; [exact E'|]. split; [exact X'|]. pose proof (drop_while_length ini_space s). lia.
    + exists p, n. split; [reflexivity|]. split; [exact H0|lia].
Qed.
Lemma put_newlines_ok lo n : forall b p, p + n <= length b -> lo <= p -> exists b', put_newlines n p b = Ok (p + n, b') /\ same_from (p + n) b b' /\ same_below lo b b'.
Proof.
  induction n as [|n IH]; intros b p L HL; cbn [put_newlines].
  - exists b. rewrite Nat.add_0_r. split; [reflexivity|]. split; [apply same_from_refl|apply same_below_refl].
  - rewrite (bbind_run _ _ _ _ _ (wr_ok b p LF ltac:(lia))). destruct (IH (put p LF b) (S p)) as [b' [E [F G]]]; [rewrite put_length; lia|lia|].
    exists b'. rewrite E. split; [f_equal; f_equal; lia|]. replace (p + S n) with (S p + n) by lia. split.
    + eapply same_from_trans; [|exact F]. apply put_from; lia.
    + eapply same_below_trans; [|exact G]. apply put_below; lia.
Qed.
Lemma to_eol_span s : to_eol s = snd (span (fun x => negb (is_nl x)) s).
Proof. unfold to_eol. apply drop_while_span. Qed.

(** [comment] leaves what follows the comment unread and what precedes it unchanged *)
Lemma comment_ok blank N f : forall s s', skip_comment f blank s = Some s' ->
  forall fuel b start out p, at_ b p s -> length s < fuel -> length b <= N -> start <= out -> out <= p -> (start < p -> S start < out) -> (blank = true -> start < p \/ exists c r, s = c :: r /\ ini_comment c = true) ->
  exists p' v b', comment fuel N blank start out p b = Ok ((p', v), b') /\ at_ b' p' s' /\ p' + length s' = p + length s /\ p <= p' /\ (v = None \/ v = Some start) /\ same_below (S start) b b'.
Proof.
  induction f as [|f IH]; intros s s' HS fuel b start out p HA HF HN H1 H2 H3 H4; destruct fuel as [|fu]; try lia.
  all: pose proof (at_bound _ _ _ HA) as HB.
  all: assert (FIN : exists p' v b', (if Nat.eqb start p then bret (p, None) else q <# back out ;; _ <# wr q NUL ;; bret (p, Some start)) b = Ok ((p', v), b') /\ at_ b' p' s /\ p' + length s = p + length s /\ p <= p' /\ (v = None \/ v = Some start) /\ same_below (S start) b b')
    by (destruct (Nat.eqb_spec start p) as [->|NE]; [eexists p, _, b; split; [reflexivity|]; split; [exact HA|]; split; [lia|]; split; [lia|]; split; [auto|apply same_below_refl]|];
        destruct out as [|q]; [lia|]; cbn [back]; rewrite (bbind_run _ _ _ q b) by reflexivity; rewrite (bbind_run _ _ _ _ _ (wr_ok b q NUL ltac:(lia)));
        eexists p, _, (put q NUL b); split; [reflexivity|]; split; [eapply at_same_from; [apply (put_from b q NUL p); lia|lia|exact HA]|]; split; [lia|]; split; [lia|]; split; [auto|]; apply put_below; lia).
  all: cbn [comment].
  all: destruct s as [|c s]; [cbn [skip_comment] in HS; injection HS as <-; cbn [at_] in HA; rewrite (bbind_run _ _ _ _ _ (rd_ok _ _ _ HA)); cbn [ini_comment];
       change (negb (ini_comment NUL)) with true; cbv iota; destruct blank; cbn [negb];
       [destruct (ahead_ok b 0 [] (le_n 0) N p 0 HA ltac:(cbn; lia)) as [q [n' [E [X [Y _]]]]]; rewrite (bbind_run _ _ _ _ _ E); cbn [at_ drop_while] in X; rewrite (bbind_run _ _ _ _ _ (rd_ok _ _ _ X)); exact FIN
       |exact FIN]|].
  all: cbn [skip_comment] in HS; pose proof HA as HA0; cbn [at_] in HA; destruct HA as [A [NC HA]]; rewrite (bbind_run _ _ _ _ _ (rd_ok _ _ _ A)).
  all: destruct (ini_comment c) eqn:EC; cbn [negb]; [try discriminate HS|].
  (* no comment character *)
  1, 3: destruct blank; cbn [negb]; [|injection HS as <-; exact FIN].
  1, 2: destruct (ahead_ok b _ (c :: s) (le_n _) N p 0 HA0 ltac:(lia)) as [q [n' [E [X [Y [_ Z]]]]]]; rewrite (bbind_run _ _ _ _ _ E).
  1, 2: destruct (drop_while ini_space (c :: s)) as [|d r] eqn:ED; [cbn [at_] in X; rewrite (bbind_run _ _ _ _ _ (rd_ok _ _ _ X)); injection HS as <-; exact FIN|].
  1, 2: pose proof X as X0; cbn [at_] in X; destruct X as [XA [XN X]]; rewrite (bbind_run _ _ _ _ _ (rd_ok _ _ _ XA)); destruct (ini_comment d) eqn:EDC; [try discriminate HS|injection HS as <-; exact FIN].
  - (* blank lines, another comment *)
    assert (QP : p < q).
    { destruct (Nat.eq_dec q p) as [->|]; [|pose proof (drop_while_length ini_space (c :: s)); rewrite ED in *; lia]. exfalso. assert (LE : length (d :: r) = length (c :: s)) by lia.
      destruct (drop_while_split ini_space (c :: s)) as [x [Ex _]]. rewrite ED in Ex. rewrite Ex, app_length in LE. destruct x; [|cbn in LE; lia]. cbn in Ex. congruence. }
    destruct (put_newlines_ok (S start) n' b out ltac:(lia) ltac:(destruct (H4 eq_refl) as [H5|[c' [r' [X1 X2]]]]; [specialize (H3 H5); lia|congruence])) as [b1 [E1 [F1 G1]]]. rewrite (bbind_run _ _ _ _ _ E1).
    destruct (IH (d :: r) s' HS fu b1 start (out + n') q) as [p' [v [b' [R1 [R2 [R3 [R4 [R6 R5]]]]]]]].
    + eapply at_same_from; [exact F1|lia|exact X0].
    + lia.
    + destruct F1 as [F1 _]. lia.
    + lia.
    + lia.
    + intros _. destruct (H4 eq_refl) as [H5|[c' [r' [X1 X2]]]]; [|congruence]. specialize (H3 H5). lia.
    + intros _. left. lia.
    + exists p', v, b'. split; [exact R1|]. split; [exact R2|]. split; [lia|]. split; [lia|]. split; [exact R6|]. eapply same_below_trans; eassumption.
  - (* a line of comment *)
    destruct (fwd_ok (fun x => negb (is_nl x)) b (c :: s) N p HA0 ltac:(lia)) as [e [E [EP [X _]]]]. rewrite (bbind_run _ _ _ _ _ E). rewrite <- to_eol_span in X.
    assert (LE : e + length (to_eol (c :: s)) = p + length (c :: s)) by (destruct (span_suffix (fun x => negb (is_nl x)) (c :: s)) as [x [Ex ->]]; rewrite <- to_eol_span in Ex; rewrite Ex at 2; rewrite app_length; lia).
    assert (PE : p < e) by (rewrite EP; cbn [span]; rewrite (comment_not_nl _ EC); cbn [negb]; destruct (span _ s); cbn [fst length]; lia).
    assert (M : exists b1, (if Nat.ltb out p then _ <# move out p (e - p) ;; wr (out + (e - p)) NUL else bret tt) b = Ok (tt, b1) /\ same_from e b b1 /\ same_below (S start) b b1).
    { destruct (Nat.ltb_spec out p) as [HO|HO].
      - destruct (move_ok b out p (e - p)) as [b1 [E1 [F1 G1]]]; [pose proof (at_bound _ _ _ X); lia|pose proof (at_bound _ _ _ X); lia|]. rewrite (bbind_run _ _ _ _ _ E1). assert (L1 : length b1 = length b) by apply F1. pose proof (at_bound _ _ _ X).
        rewrite wr_ok by lia. eexists. split; [reflexivity|]. split.
        + eapply same_from_trans; [eapply same_from_le; [|exact F1]; lia|apply put_from; lia].
        + eapply same_below_trans; [eapply same_below_le; [|exact G1]; lia|apply put_below; lia].
      - exists b. split; [reflexivity|]. split; [apply same_from_refl|apply same_below_refl]. }
    destruct M as [b1 [E1 [F1 G1]]]. rewrite (bbind_run _ _ _ _ _ E1). assert (L1 : length b1 = length b) by apply F1.
    pose proof (at_same_from _ _ _ _ _ F1 (le_n e) X) as X1. pose proof (at_bound _ _ _ X1) as B1.
    destruct (to_eol (c :: s)) as [|ch r] eqn:ET.
    + injection HS as <-. cbn [at_] in X1. rewrite (bbind_run _ _ _ _ _ (rd_ok _ _ _ X1)). cbn [length] in *. rewrite (bbind_run _ _ _ _ _ (wr_ok b1 e NUL ltac:(lia))). change (Ascii.eqb NUL NUL) with true. cbv iota.
      eexists e, _, _. split; [reflexivity|]. split; [cbn [at_]; rewrite put_nth by lia; rewrite Nat.eqb_refl; reflexivity|]. split; [cbn [length]; lia|]. split; [lia|]. split; [auto|].
      eapply same_below_trans; [exact G1|apply put_below; lia].
    + pose proof X1 as X2. cbn [at_] in X2. destruct X2 as [XA [XN X2]]. rewrite (bbind_run _ _ _ _ _ (rd_ok _ _ _ XA)). cbn [length] in B1. rewrite (bbind_run _ _ _ _ _ (wr_ok b1 e NUL ltac:(lia))).
      destruct (Ascii.eqb_spec ch NUL) as [|_]; [congruence|]. set (b2 := put e NUL b1). assert (L2 : length b2 = length b1) by (apply put_length; lia).
      rewrite (bbind_run _ _ _ _ _ (wr_ok b2 e ch ltac:(lia))). set (b3 := put e ch b2). assert (L3 : length b3 = length b2) by (apply put_length; lia).
      assert (F3 : same_from e b1 b3).
      { split; [lia|]. intros i Hi. unfold b3. rewrite put_nth by lia. unfold b2. rewrite put_nth by lia. destruct (Nat.eqb_spec i e) as [->|]; [symmetry; exact XA|reflexivity]. }
      assert (G3 : same_below (S start) b1 b3) by (eapply same_below_trans; [apply (put_below b1 e NUL (S start)); lia|apply put_below; fold b2; lia]).
      pose proof (at_same_from _ _ _ _ _ F3 (le_n e) X1) as X3.
      destruct (skip_nl_ok b3 e (ch :: r) X3 ltac:(discriminate)) as [q [E3 [X4 [Y4 Z4]]]]. rewrite (bbind_run _ _ _ _ _ E3). rewrite (bbind_run _ _ _ _ _ (wr_ok b3 (out + (e - p)) LF ltac:(lia))).
      set (b4 := put (out + (e - p)) LF b3).
      destruct (IH (skip_newline (ch :: r)) s' HS fu b4 start (S (out + (e - p))) q) as [p' [v [b' [R1 [R2 [R3 [R4 [R6 R5]]]]]]]].
      * eapply at_same_from; [apply (put_from b3 (out + (e - p)) LF q); lia|lia|exact X4].
      * cbn [length] in *. lia.
      * unfold b4. rewrite put_length; lia.
      * lia.
      * lia.
      * lia.
      * intros _. left. lia.
      * exists p', v, b'. split; [exact R1|]. split; [exact R2|]. split; [cbn [length] in *; lia|]. split; [lia|]. split; [exact R6|].
        eapply same_below_trans; [exact G1|]. eapply same_below_trans; [exact G3|]. eapply same_below_trans; [apply (put_below b3 (out + (e - p)) LF (S start)); lia|exact R5].
Qed.
