(** The loader with multi-line values stays inside its copy of the text, and ends. *)
From Coq Require Import Lia.
From Verif Require Import Base P_Base CTypes StringUtils P_Strings Ini Spec_Ini P_Ini IniBuf P_IniBuf P_IniBuf2 IniMulti.

(** the copy has [n] characters and a NUL *)
Definition ends (b : bytes) (n : nat) : Prop := length b = S n /\ nth_error b n = Some NUL.
Lemma ends_rd b n p : ends b n -> p <= n -> exists c, rd p b = Ok (c, b) /\ nth_error b p = Some c.
Proof. intros [L _] P. destruct (nth_error b p) as [c|] eqn:E; [exists c; split; [apply rd_ok, E|reflexivity]|]. apply nth_error_None in E. lia. Qed.
Lemma ends_last b n p c : ends b n -> p <= n -> nth_error b p = Some c -> c <> NUL -> p < n.
Proof. intros [_ E] P H N. assert (p <> n) by (intros ->; congruence). lia. Qed.
Lemma ends_wr b n p c : ends b n -> p <= n -> p < n \/ c = NUL -> exists b', wr p c b = Ok (tt, b') /\ ends b' n /\ (forall i, i <> p -> nth_error b' i = nth_error b i) /\ nth_error b' p = Some c.
Proof.
  intros [L E] P H. exists (put p c b). split; [apply wr_ok; lia|]. split; [split; [rewrite put_length by lia; exact L|]|].
  - rewrite put_nth by lia. destruct (Nat.eqb_spec n p) as [->|X]; [|exact E]. destruct H as [H|H]; [lia|congruence].
  - split; [intros i I|]; rewrite put_nth by lia; [destruct (Nat.eqb_spec i p); [contradiction|reflexivity]|]. rewrite Nat.eqb_refl. reflexivity.
Qed.
Lemma ends_move b n to from k : ends b n -> from + k <= n -> to + k <= n -> exists b', move to from k b = Ok (tt, b') /\ ends b' n /\ same_from (to + k) b b' /\ same_below to b b'.
Proof.
  intros [L E] A B. destruct (move_ok b to from k ltac:(lia) ltac:(lia)) as (b' & M & F & W). exists b'. split; [exact M|]. split; [|split; assumption]. destruct F as [F1 F2]. split; [congruence|]. rewrite F2 by lia. exact E.
Qed.
Lemma ends_fwd P b n : forall fuel p, ends b n -> p <= n -> n - p < fuel ->
  exists q c, fwd fuel P p b = Ok (q, b) /\ p <= q <= n /\ nth_error b q = Some c /\ (c = NUL \/ P c = false)
    /\ forall i, p <= i < q -> exists d, nth_error b i = Some d /\ d <> NUL /\ P d = true.
Proof.
  induction fuel as [|f IH]; intros p E L F; [lia|]. cbn [fwd]. destruct (ends_rd b n p E L) as (c & R & N). rewrite (bbind_run _ _ _ _ _ R).
  destruct (Ascii.eqb_spec c NUL) as [->|X]; cbn [negb andb].
  - exists p, NUL. split; [reflexivity|]. split; [lia|]. split; [exact N|]. split; [left; reflexivity|]. intros i I. lia.
  - destruct (P c) eqn:PC.
    + pose proof (ends_last b n p c E L N X). destruct (IH (S p) E ltac:(lia) ltac:(lia)) as (q & d & A & B & C & D & G). exists q, d. split; [exact A|]. split; [lia|]. split; [exact C|]. split; [exact D|].
      intros i I. destruct (Nat.eq_dec i p) as [->|Y]; [exists c; auto|]. apply G. lia.
    + exists p, c. split; [reflexivity|]. split; [lia|]. split; [exact N|]. split; [right; exact PC|]. intros i I. lia.
Qed.
Lemma ends_skip b n p c : ends b n -> p < n -> nth_error b p = Some c -> exists q, skip_nl p b = Ok (q, b) /\ p < q <= n.
Proof.
  intros E L N. unfold skip_nl. rewrite (bbind_run _ _ _ _ _ (rd_ok _ _ _ N)). destruct (Ascii.eqb c CR).
  - destruct (ends_rd b n (S p) E ltac:(lia)) as (d & R & M). rewrite (bbind_run _ _ _ _ _ R). destruct (Ascii.eqb_spec d LF) as [->|X].
    + pose proof (ends_last b n (S p) LF E ltac:(lia) M ltac:(discriminate)). exists (S (S p)). split; [reflexivity|lia].
    + exists (S p). split; [reflexivity|lia].
  - exists (S p). split; [reflexivity|lia].
Qed.
Lemma ends_trail b n lo : forall fuel p, ends b n -> p <= n -> 0 < lo \/ (exists c, nth_error b lo = Some c /\ ini_space c = false) -> p < fuel ->
  exists q, trail fuel lo p b = Ok (q, b) /\ q <= p.
Proof.
  induction fuel as [|f IH]; intros p E L H F; [lia|]. cbn [trail]. destruct (Nat.leb_spec lo p) as [LP|LP]; [|exists p; auto].
  destruct (ends_rd b n p E L) as (c & R & N). rewrite (bbind_run _ _ _ _ _ R). destruct (ini_space c) eqn:SC; [|exists p; auto].
  destruct p as [|p].
  - exfalso. destruct H as [H|(d & D1 & D2)]; [lia|]. assert (lo = 0) as -> by lia. congruence.
  - cbn [back]. rewrite (bbind_run (bret p) _ b p b eq_refl). destruct (IH p E ltac:(lia) H ltac:(lia)) as (q & A & B). exists q. split; [exact A|lia].
Qed.
Lemma ends_trim b n lo hi fuel : ends b n -> 0 < hi <= n -> 0 < lo \/ (exists c, nth_error b lo = Some c /\ ini_space c = false) -> hi < fuel ->
  exists b', trim_end fuel lo hi b = Ok (tt, b') /\ ends b' n /\ forall i, hi < i -> nth_error b' i = nth_error b i.
Proof.
  intros E H L F. unfold trim_end. destruct hi as [|p]; [lia|]. cbn [back]. rewrite (bbind_run (bret p) _ b p b eq_refl).
  destruct (ends_trail b n lo fuel p E ltac:(lia) L ltac:(lia)) as (q & A & B). rewrite (bbind_run _ _ _ _ _ A).
  destruct (ends_wr b n (S q) NUL E ltac:(lia) ltac:(right; reflexivity)) as (b' & W & E' & K & _). exists b'. split; [exact W|]. split; [exact E'|]. intros i I. apply K. lia.
Qed.
Lemma ends_ahead b n : forall fuel p k, ends b n -> p <= n -> n - p < fuel ->
  exists q m c, ahead fuel p k b = Ok ((q, m), b) /\ p <= q <= n /\ k <= m /\ m - k <= q - p /\ nth_error b q = Some c /\ ini_space c = false.
Proof.
  induction fuel as [|f IH]; intros p k E L F; [lia|]. cbn [ahead]. destruct (ends_rd b n p E L) as (c & R & N). rewrite (bbind_run _ _ _ _ _ R).
  destruct (ini_space c) eqn:SC.
  - pose proof (ends_last b n p c E L N ltac:(intros ->; discriminate)). destruct (is_nl c) eqn:NC.
    + destruct (ends_skip b n p c E ltac:(lia) N) as (q & A & B). rewrite (bbind_run _ _ _ _ _ A). destruct (IH q (S k) E ltac:(lia) ltac:(lia)) as (r & m & d & X1 & X2 & X3 & X4 & X5 & X6).
      exists r, m, d. split; [exact X1|]. repeat split; try lia; assumption.
    + destruct (IH (S p) k E ltac:(lia) ltac:(lia)) as (r & m & d & X1 & X2 & X3 & X4 & X5 & X6). exists r, m, d. split; [exact X1|]. repeat split; try lia; assumption.
  - exists p, k, c. split; [reflexivity|]. repeat split; try lia; assumption.
Qed.
Lemma ends_newlines n : forall k p b, ends b n -> p + k <= n -> exists b', put_newlines k p b = Ok (p + k, b') /\ ends b' n /\ forall i, p + k <= i -> nth_error b' i = nth_error b i.
Proof.
  induction k as [|k IH]; intros p b E L; cbn [put_newlines].
  - exists b. rewrite Nat.add_0_r. split; [reflexivity|]. split; [exact E|]. reflexivity.
  - destruct (ends_wr b n p LF E ltac:(lia) ltac:(left; lia)) as (b1 & W & E1 & K & _). rewrite (bbind_run _ _ _ _ _ W). destruct (IH (S p) b1 E1 ltac:(lia)) as (b2 & A & E2 & G).
    exists b2. rewrite Nat.add_succ_r. split; [exact A|]. split; [exact E2|]. intros i I. rewrite G by lia. apply K. lia.
Qed.
(** one line moved down and its end taken away: 1749-1764 *)
Lemma ends_line b n N out p : ends b n -> out <= p <= n -> n < N ->
  exists e ch b', (forall A (k : nat -> ascii -> B A), (e <# fwd N (fun x => negb (is_nl x)) p ;; _ <# (if Nat.ltb out p then _ <# move out p (e - p) ;; wr (out + (e - p)) NUL else bret tt) ;; ch <# rd e ;; _ <# wr e NUL ;; k e ch) b = k e ch b')
    /\ ends b' n /\ p <= e <= n /\ (ch = NUL \/ is_nl ch = true) /\ (ch <> NUL -> e < n) /\ (forall i, e < i -> nth_error b' i = nth_error b i)
    /\ ((exists c, nth_error b p = Some c /\ c <> NUL /\ is_nl c = false) -> p < e).
Proof.
  intros E L F. destruct (ends_fwd (fun x => negb (is_nl x)) b n N p E ltac:(lia) ltac:(lia)) as (e & ch & A & B & C & D & G).
  assert (M : exists b1, (if Nat.ltb out p then _ <# move out p (e - p) ;; wr (out + (e - p)) NUL else bret tt) b = Ok (tt, b1) /\ ends b1 n /\ forall i, e <= i -> nth_error b1 i = nth_error b i).
  { destruct (Nat.ltb_spec out p) as [OP|OP]; [|exists b; split; [reflexivity|split; [exact E|reflexivity]]].
    destruct (ends_move b n out p (e - p) E ltac:(lia) ltac:(lia)) as (b1 & M1 & E1 & S1 & S2). destruct (ends_wr b1 n (out + (e - p)) NUL E1 ltac:(lia) ltac:(right; reflexivity)) as (b2 & W & E2 & K & _).
    exists b2. split; [rewrite (bbind_run _ _ _ _ _ M1); exact W|]. split; [exact E2|]. intros i I. rewrite K by lia. apply S1. lia. }
  destruct M as (b1 & M1 & E1 & K1). assert (C1 : nth_error b1 e = Some ch) by (rewrite K1 by lia; exact C).
  destruct (ends_wr b1 n e NUL E1 ltac:(lia) ltac:(right; reflexivity)) as (b2 & W & E2 & K2 & _).
  exists e, ch, b2. split; [|split; [exact E2|split; [lia|split; [|split; [|split]]]]].
  - intros X k. rewrite (bbind_run _ _ _ _ _ A), (bbind_run _ _ _ _ _ M1), (bbind_run _ _ _ _ _ (rd_ok _ _ _ C1)), (bbind_run _ _ _ _ _ W). reflexivity.
  - destruct D as [D|D]; [left; exact D|right; apply negb_false_iff in D; exact D].
  - intros NN. apply (ends_last b n e ch E ltac:(lia) C NN).
  - intros i I. rewrite K2 by lia. apply K1. lia.
  - intros (c & C2 & C3 & C4). assert (e <> p); [|lia]. intros ->. assert (c = ch) as -> by congruence. destruct D as [D|D]; [congruence|]. rewrite C4 in D. discriminate.
Qed.
Lemma ends_comment n N blank : n < N -> forall fuel b start out p, ends b n -> out <= p <= n -> n - p < fuel ->
  p = start \/ (exists c, nth_error b p = Some c /\ ini_comment c = true) \/ 1 <= out ->
  exists q v b', comment fuel N blank start out p b = Ok ((q, v), b') /\ ends b' n /\ p <= q <= n
    /\ ((exists c, nth_error b p = Some c /\ ini_comment c = true) -> p < q).
Proof.
  intros NN. induction fuel as [|f IH]; intros b start out p E L F H; [lia|]. cbn [comment]. cbv zeta.
  destruct (ends_rd b n p E ltac:(lia)) as (c & R & C). rewrite (bbind_run _ _ _ _ _ R).
  destruct (ini_comment c) eqn:CC; cbn [negb].
  - destruct (ends_line b n N out p E L NN) as (e & ch & b1 & X & E1 & L1 & D & LT & K & G). rewrite X. clear X.
    assert (PE : p < e). { apply G. exists c. split; [exact C|]. split; [intros ->; discriminate|apply comment_not_nl, CC]. }
    destruct (Ascii.eqb_spec ch NUL) as [->|Y]; [exists e, (Some start), b1; repeat split; try lia; apply E1|].
    specialize (LT Y). destruct (ends_wr b1 n e ch E1 ltac:(lia) ltac:(left; lia)) as (b2 & W & E2 & K2 & C2). rewrite (bbind_run _ _ _ _ _ W).
    destruct (ends_skip b2 n e ch E2 LT C2) as (q & A & B). rewrite (bbind_run _ _ _ _ _ A). destruct (ends_wr b2 n (out + (e - p)) LF E2 ltac:(lia) ltac:(left; lia)) as (b3 & W3 & E3 & K3 & _). rewrite (bbind_run _ _ _ _ _ W3).
    destruct (IH b3 start (S (out + (e - p))) q E3 ltac:(lia) ltac:(lia) ltac:(right; right; lia)) as (r & v & b4 & Y1 & Y2 & Y3 & _). exists r, v, b4. split; [exact Y1|]. split; [exact Y2|]. split; [lia|]. intros _. lia.
  - assert (FIN : exists q v b', (if Nat.eqb start p then bret (p, None) else q <# back out ;; _ <# wr q NUL ;; bret (p, Some start)) b = Ok ((q, v), b') /\ ends b' n /\ p <= q <= n /\ ((exists c, nth_error b p = Some c /\ ini_comment c = true) -> p < q)).
    { assert (NC : ~ exists c, nth_error b p = Some c /\ ini_comment c = true) by (intros (d & D1 & D2); congruence).
      destruct (Nat.eqb_spec start p) as [->|SP]; [exists p, None, b; split; [reflexivity|]; split; [exact E|]; split; [lia|]; intros Z; destruct (NC Z)|].
      destruct H as [H|[H|H]]; [congruence|destruct (NC H)|]. destruct out as [|o]; [lia|]. cbn [back]. rewrite (bbind_run (bret o) _ b o b eq_refl).
      destruct (ends_wr b n o NUL E ltac:(lia) ltac:(right; reflexivity)) as (b1 & W & E1 & _). rewrite (bbind_run _ _ _ _ _ W). exists p, (Some start), b1. split; [reflexivity|]. split; [exact E1|]. split; [lia|]. intros Z; destruct (NC Z). }
    destruct blank; cbn [negb]; [|exact FIN].
    destruct (ends_ahead b n N p 0 E ltac:(lia) ltac:(lia)) as (q & m & d & A & B & _ & M & D & SD). rewrite (bbind_run _ _ _ _ _ A). cbv beta iota. rewrite (bbind_run _ _ _ _ _ (rd_ok _ _ _ D)).
    destruct (ini_comment d) eqn:CD; [|exact FIN].
    assert (PQ : p <> q) by (intros ->; congruence).
    destruct (ends_newlines n m out b E ltac:(lia)) as (b1 & W & E1 & K). rewrite (bbind_run _ _ _ _ _ W).
    destruct (IH b1 start (out + m) q E1 ltac:(lia) ltac:(lia)) as (r & v & b2 & Y1 & Y2 & Y3 & _).
    { right. left. exists d. split; [rewrite K by lia; exact D|exact CD]. }
    exists r, v, b2. split; [exact Y1|]. split; [exact Y2|]. split; [lia|]. intros (x & X1 & X2). congruence.
Qed.
