(** The loader with multi-line values, continued: entries. *)
From Coq Require Import Lia.
From Verif Require Import Base P_Base CTypes StringUtils P_Strings Ini Spec_Ini P_Ini IniBuf P_IniBuf P_IniBuf2 IniMulti P_IniMulti.

Lemma ends_str b n : forall fuel p, ends b n -> p <= n -> n - p < fuel -> exists s, rd_str fuel p b = Ok (s, b).
Proof.
  induction fuel as [|f IH]; intros p E L F; [lia|]. cbn [rd_str]. destruct (ends_rd b n p E L) as (c & R & N). rewrite (bbind_run _ _ _ _ _ R).
  destruct (Ascii.eqb_spec c NUL) as [->|X]; [exists []; reflexivity|]. pose proof (ends_last b n p c E L N X). destruct (IH (S p) E ltac:(lia) ltac:(lia)) as [s A]. rewrite (bbind_run _ _ _ _ _ A). exists (c :: s). reflexivity.
Qed.
Lemma ends_multi n N tag start : n < N -> tag <= n -> forall fuel b out p, ends b n -> 1 <= out -> out <= p <= n -> n - p < fuel ->
  exists q v b', multi_text fuel N tag start out p b = Ok ((q, v), b') /\ ends b' n /\ p <= q <= n /\ (forall t, v = Some t -> t = start).
Proof.
  intros NN TG. induction fuel as [|f IH]; intros b out p E O L F; [lia|]. cbn [multi_text]. cbv zeta.
  destruct (ends_line b n N out p E L NN) as (e & ch & b1 & X & E1 & L1 & D & LT & K & G). rewrite X. clear X.
  destruct (ends_str b1 n N out E1 ltac:(lia) ltac:(lia)) as [l SL]. rewrite (bbind_run _ _ _ _ _ SL). destruct (ends_str b1 n N tag E1 TG ltac:(lia)) as [t ST]. rewrite (bbind_run _ _ _ _ _ ST).
  destruct (negb (nocase_less l t) && negb (nocase_less t l)).
  - destruct (Nat.eqb start e); [exists e, None, b1; split; [reflexivity|]; split; [exact E1|]; split; [lia|discriminate]|].
    destruct out as [|o]; [lia|]. cbn [back]. rewrite (bbind_run (bret o) _ b1 o b1 eq_refl).
    destruct (ends_wr b1 n o NUL E1 ltac:(lia) ltac:(right; reflexivity)) as (b2 & W & E2 & K2 & _). rewrite (bbind_run _ _ _ _ _ W).
    destruct (Ascii.eqb_spec ch NUL) as [->|Y]; [exists e, (Some start), b2; split; [reflexivity|]; split; [exact E2|]; split; [lia|congruence]|].
    specialize (LT Y). destruct (ends_wr b2 n e ch E2 ltac:(lia) ltac:(left; lia)) as (b3 & W3 & E3 & K3 & C3). rewrite (bbind_run _ _ _ _ _ W3).
    destruct (ends_skip b3 n e ch E3 LT C3) as (q & A & B). rewrite (bbind_run _ _ _ _ _ A). exists q, (Some start), b3. split; [reflexivity|]. split; [exact E3|]. split; [lia|congruence].
  - destruct (Ascii.eqb_spec ch NUL) as [->|Y]; [exists e, (Some start), b1; split; [reflexivity|]; split; [exact E1|]; split; [lia|congruence]|].
    specialize (LT Y). destruct (ends_wr b1 n e ch E1 ltac:(lia) ltac:(left; lia)) as (b3 & W3 & E3 & K3 & C3). rewrite (bbind_run _ _ _ _ _ W3).
    destruct (ends_skip b3 n e ch E3 LT C3) as (q & A & B). rewrite (bbind_run _ _ _ _ _ A).
    destruct (ends_wr b3 n (out + (e - p)) LF E3 ltac:(lia) ltac:(left; lia)) as (b4 & W4 & E4 & _). rewrite (bbind_run _ _ _ _ _ W4).
    destruct (IH b4 (S (out + (e - p))) q E4 ltac:(lia) ltac:(lia) ltac:(lia)) as (r & v & b5 & Y1 & Y2 & Y3 & Y4). exists r, v, b5. split; [exact Y1|]. split; [exact Y2|]. split; [lia|exact Y4].
Qed.
Definition sec_in (n : nat) (s : sptr) : Prop := match s with SEmpty => True | SAt p => p <= n end.
Definition entry_in (n : nat) (e : entry) : Prop := sec_in n (e_sec e) /\ match e_kv e with Some (k, v) => k <= n /\ v <= n | None => True end.
Lemma ends_tag b n v c : ends b n -> v <= n -> nth_error b v = Some c -> exists t, is_tag v b = Ok (t, b) /\ (t = true -> v + 3 <= n).
Proof.
  intros E L N. unfold is_tag. rewrite (bbind_run _ _ _ _ _ (rd_ok _ _ _ N)). destruct (Ascii.eqb_spec c "<"%char) as [->|X]; cbn [negb]; [|exists false; split; [reflexivity|discriminate]].
  pose proof (ends_last b n v _ E L N ltac:(discriminate)). destruct (ends_rd b n (S v) E ltac:(lia)) as (c2 & R2 & N2). rewrite (bbind_run _ _ _ _ _ R2). destruct (Ascii.eqb_spec c2 "<"%char) as [->|X]; cbn [negb]; [|exists false; split; [reflexivity|discriminate]].
  pose proof (ends_last b n (S v) _ E ltac:(lia) N2 ltac:(discriminate)). destruct (ends_rd b n (S (S v)) E ltac:(lia)) as (c3 & R3 & N3). rewrite (bbind_run _ _ _ _ _ R3). exists (Ascii.eqb c3 "<"%char). split; [reflexivity|].
  intros T. apply Ascii.eqb_eq in T. subst c3. pose proof (ends_last b n (S (S v)) _ E ltac:(lia) N3 ltac:(discriminate)). lia.
Qed.
Lemma ends_find ml n N : n < N -> forall fuel b p sec com, ends b n -> p <= n -> sec_in n sec -> n - p < fuel ->
  exists e q sec' b', find_entry_ml ml fuel N p sec com b = Ok ((e, q, sec'), b') /\ ends b' n /\ p <= q <= n /\ sec_in n sec'
    /\ match e with Some e => p < q /\ entry_in n e | None => True end.
Proof.
  intros NN. induction fuel as [|f IH]; intros b p sec com E L SI F; [lia|]. cbn [find_entry_ml]. cbv zeta.
  destruct (ends_rd b n p E L) as (c & R & C). rewrite (bbind_run _ _ _ _ _ R). destruct (Ascii.eqb_spec c NUL) as [->|X]; [exists None, p, sec, b; split; [reflexivity|]; split; [exact E|]; split; [lia|]; split; [exact SI|exact I]|].
  clear R. destruct (ends_fwd ini_space b n N p E L ltac:(lia)) as (p1 & c1 & A1 & B1 & C1 & D1 & _). rewrite (bbind_run _ _ _ _ _ A1), (bbind_run _ _ _ _ _ (rd_ok _ _ _ C1)).
  destruct (Ascii.eqb_spec c1 NUL) as [->|X1]; [exists None, p1, sec, b; split; [reflexivity|]; split; [exact E|]; split; [lia|]; split; [exact SI|exact I]|].
  destruct D1 as [D1|D1]; [congruence|]. assert (RETRY : forall q b' sec' com', ends b' n -> p1 < q <= n -> sec_in n sec' -> exists e q' sec'' b'', find_entry_ml ml f N q sec' com' b' = Ok ((e, q', sec''), b'') /\ ends b'' n /\ p <= q' <= n /\ sec_in n sec''
    /\ match e with Some e => p < q' /\ entry_in n e | None => True end).
  { intros q b' sec' com' E' L' S'. destruct (IH b' q sec' com' E' ltac:(lia) S' ltac:(lia)) as (e & q' & sec'' & b'' & Y1 & Y2 & Y3 & Y4 & Y5). exists e, q', sec'', b''. split; [exact Y1|]. split; [exact Y2|]. split; [lia|]. split; [exact Y4|]. destruct e; [|exact I]. split; [lia|apply Y5]. }
  pose proof (ends_last b n p1 c1 E ltac:(lia) C1 X1) as P1.
  destruct (ini_comment c1) eqn:CC.
  { destruct (ends_comment n N true NN N b p1 p1 p1 E ltac:(lia) ltac:(lia) ltac:(left; reflexivity)) as (q & v & b' & Y1 & Y2 & Y3 & Y4). rewrite (bbind_run _ _ _ _ _ Y1). cbv beta iota. apply RETRY; [exact Y2| |exact SI].
    split; [|lia]. apply Y4. exists c1. auto. }
  destruct (Ascii.eqb_spec c1 "["%char) as [->|X2].
  { destruct (ends_fwd ini_space b n N (S p1) E ltac:(lia) ltac:(lia)) as (s & cs & A2 & B2 & C2 & _ & _). rewrite (bbind_run _ _ _ _ _ A2).
    destruct (ends_fwd (fun x => negb (Ascii.eqb x "]"%char) && negb (is_nl x)) b n N s E ltac:(lia) ltac:(lia)) as (q & cq & A3 & B3 & C3 & _ & _). rewrite (bbind_run _ _ _ _ _ A3), (bbind_run _ _ _ _ _ (rd_ok _ _ _ C3)).
    destruct (Ascii.eqb_spec cq "]"%char) as [->|X3]; cbn [negb]; [|apply RETRY; [exact E|lia|cbn; lia]].
    pose proof (ends_last b n q _ E ltac:(lia) C3 ltac:(discriminate)).
    destruct (ends_trim b n s q N E ltac:(lia) ltac:(left; lia) ltac:(lia)) as (b' & T & E' & _). rewrite (bbind_run _ _ _ _ _ T).
    destruct (ends_fwd (fun x => negb (is_nl x)) b' n N (S q) E' ltac:(lia) ltac:(lia)) as (r & cr & A4 & B4 & _). rewrite (bbind_run _ _ _ _ _ A4).
    eexists _, r, (SAt s), b'. split; [reflexivity|]. split; [exact E'|]. split; [lia|]. split; [cbn; lia|]. split; [lia|]. split; [cbn; lia|exact I]. }
  destruct (ends_fwd (fun x => negb (Ascii.eqb x "="%char) && negb (is_nl x)) b n N p1 E ltac:(lia) ltac:(lia)) as (q & cq & A3 & B3 & C3 & D3 & G3). rewrite (bbind_run _ _ _ _ _ A3), (bbind_run _ _ _ _ _ (rd_ok _ _ _ C3)).
  assert (NL : is_nl c1 = false) by (destruct (is_nl c1) eqn:Z; [apply is_nl_space in Z; congruence|reflexivity]).
  destruct (Ascii.eqb_spec cq "="%char) as [->|X3]; cbn [negb].
  2: { apply RETRY; [exact E| |exact SI]. split; [|lia]. assert (q <> p1); [|lia]. intros ->. assert (cq = c1) as -> by congruence. destruct D3 as [D3|D3]; [congruence|]. rewrite NL in D3. discriminate D3. }
  pose proof (ends_last b n q _ E ltac:(lia) C3 ltac:(discriminate)) as QN.
  destruct (Nat.eqb_spec p1 q) as [->|X4].
  { destruct (ends_fwd (fun x => negb (is_nl x)) b n N q E ltac:(lia) ltac:(lia)) as (r & cr & A4 & B4 & C4 & D4 & _). rewrite (bbind_run _ _ _ _ _ A4). apply RETRY; [exact E| |exact SI]. split; [|lia].
    assert (r <> q); [|lia]. intros ->. assert (cr = "="%char) as -> by congruence. destruct D4 as [D4|D4]; discriminate. }
  destruct (ends_trim b n p1 q N E ltac:(lia) ltac:(right; exists c1; split; assumption) ltac:(lia)) as (b' & T & E' & K'). rewrite (bbind_run _ _ _ _ _ T).
  destruct (ends_fwd (fun x => negb (is_nl x) && ini_space x) b' n N (S q) E' ltac:(lia) ltac:(lia)) as (v & cv & A5 & B5 & C5 & _). rewrite (bbind_run _ _ _ _ _ A5).
  destruct (ends_fwd (fun x => negb (is_nl x)) b' n N v E' ltac:(lia) ltac:(lia)) as (r & cr & A6 & B6 & C6 & D6 & _). rewrite (bbind_run _ _ _ _ _ A6).
  destruct r as [|r]; [lia|]. cbn [back]. rewrite (bbind_run (bret r) _ b' r b' eq_refl), (bbind_run _ _ _ _ _ (rd_ok _ _ _ C6)).
  assert (NX : exists next, (if Ascii.eqb cr NUL then bret (S r) else skip_nl (S r)) b' = Ok (next, b') /\ S r <= next <= n).
  { destruct (Ascii.eqb_spec cr NUL) as [->|Z]; [exists (S r); split; [reflexivity|lia]|]. pose proof (ends_last b' n (S r) cr E' ltac:(lia) C6 Z). destruct (ends_skip b' n (S r) cr E' ltac:(lia) C6) as (y & Y1 & Y2). exists y. split; [exact Y1|lia]. }
  destruct NX as (next & X6 & L6). rewrite (bbind_run _ _ _ _ _ X6).
  destruct (ends_trail b' n v N r E' ltac:(lia) ltac:(left; lia) ltac:(lia)) as (u & A7 & B7). rewrite (bbind_run _ _ _ _ _ A7).
  destruct (ends_wr b' n (S u) NUL E' ltac:(lia) ltac:(right; reflexivity)) as (b2 & W & E2 & K2 & _). rewrite (bbind_run _ _ _ _ _ W).
  assert (TG : exists t, (if ml then is_tag v else bret false) b2 = Ok (t, b2) /\ (t = true -> v + 3 <= n)).
  { destruct ml; [|exists false; split; [reflexivity|discriminate]]. destruct (ends_rd b2 n v E2 ltac:(lia)) as (cx & _ & CX). apply (ends_tag b2 n v cx E2 ltac:(lia) CX). }
  destruct TG as (t & X7 & L7). rewrite (bbind_run _ _ _ _ _ X7). destruct t.
  - destruct (ends_multi n N (v + 3) next NN (L7 eq_refl) N b2 next next E2 ltac:(lia) ltac:(lia) ltac:(lia)) as (y & val & b3 & Y1 & Y2 & Y3 & Y4). rewrite (bbind_run _ _ _ _ _ Y1). cbv beta iota.
    eexists _, y, sec, b3. split; [reflexivity|]. split; [exact Y2|]. split; [lia|]. split; [exact SI|]. destruct val as [tt'|]; [|exact I]. rewrite (Y4 _ eq_refl). split; [lia|]. split; [exact SI|]. cbn. lia.
  - eexists _, next, sec, b2. split; [reflexivity|]. split; [exact E2|]. split; [lia|]. split; [exact SI|]. split; [lia|]. split; [exact SI|]. cbn. lia.
Qed.
Lemma ends_see n N e b : n < N -> ends b n -> entry_in n e -> exists s, see N e b = Ok (s, b).
Proof.
  intros NN E [S0 K]. unfold see. assert (X : exists s, rd_sec N (e_sec e) b = Ok (s, b)) by (destruct (e_sec e) as [|p]; [exists []; reflexivity|apply (ends_str b n); [exact E|exact S0|lia]]).
  destruct X as [s X]. rewrite (bbind_run _ _ _ _ _ X). destruct (e_kv e) as [[k v]|]; [|eexists; reflexivity]. destruct K as [K V].
  destruct (ends_str b n N k E K ltac:(lia)) as [ks Y]. rewrite (bbind_run _ _ _ _ _ Y). destruct (ends_str b n N v E V ltac:(lia)) as [vs Z]. rewrite (bbind_run _ _ _ _ _ Z). eexists. reflexivity.
Qed.
Lemma ends_load ml n N : n < N -> forall fuel b p sec com, ends b n -> p <= n -> sec_in n sec -> n - p < fuel ->
  exists l b', load_entries_ml ml fuel N p sec com b = Ok (l, b') /\ ends b' n /\ Forall (fun es => entry_in n (fst es)) l.
Proof.
  intros NN. induction fuel as [|f IH]; intros b p sec com E L SI F; [lia|]. cbn [load_entries_ml].
  destruct (ends_find ml n N NN N b p sec com E L SI ltac:(lia)) as (e & q & sec' & b1 & Y1 & Y2 & Y3 & Y4 & Y5). rewrite (bbind_run _ _ _ _ _ Y1). cbv beta iota.
  destruct e as [e|]; [|exists [], b1; split; [reflexivity|]; split; [exact Y2|constructor]]. destruct Y5 as [Y5 Y6].
  destruct (ends_see n N e b1 NN Y2 Y6) as [s Z]. rewrite (bbind_run _ _ _ _ _ Z). destruct (IH b1 q sec' None Y2 ltac:(lia) Y4 ltac:(lia)) as (l & b2 & W1 & W2 & W3). rewrite (bbind_run _ _ _ _ _ W1).
  exists ((e, s) :: l), b2. split; [reflexivity|]. split; [exact W2|]. constructor; [exact Y6|exact W3].
Qed.
(** with multi-line values off it is the loader of IniBuf.v *)
Lemma bret_bind {A C} (a : A) (k : A -> B C) b : bbind (bret a) k b = k a b.
Proof. reflexivity. Qed.
Lemma off_find N fuel : forall p sec com b, find_entry_ml false fuel N p sec com b = find_entry fuel N p sec com b.
Proof.
  induction fuel as [|f IH]; intros p sec com b; [reflexivity|]. cbn [find_entry_ml find_entry]. cbv zeta. apply bbind_ext. intros c b1 _. destruct (Ascii.eqb c NUL); [reflexivity|]. apply bbind_ext. intros p1 b2 _. apply bbind_ext. intros c1 b3 _. destruct (Ascii.eqb c1 NUL); [reflexivity|].
  destruct (ini_comment c1); [apply bbind_ext; intros [q v] b4 _; apply IH|]. destruct (Ascii.eqb c1 "["%char).
  - apply bbind_ext. intros s b4 _. apply bbind_ext. intros q b5 _. apply bbind_ext. intros c2 b6 _. destruct (negb (Ascii.eqb c2 "]"%char)); [apply IH|reflexivity].
  - apply bbind_ext. intros q b4 _. apply bbind_ext. intros c2 b5 _. destruct (negb (Ascii.eqb c2 "="%char)); [apply IH|]. destruct (Nat.eqb p1 q); [apply bbind_ext; intros; apply IH|reflexivity].
Qed.
Lemma bbind_same {A C} (m m' : B A) (k k' : A -> B C) b : m b = m' b -> (forall a b1, k a b1 = k' a b1) -> bbind m k b = bbind m' k' b.
Proof. intros H K. unfold bbind. rewrite H. destruct (m' b) as [[a b1]| | |]; [apply K|reflexivity..]. Qed.
Lemma off_load N fuel : forall p sec com b, load_entries_ml false fuel N p sec com b = load_entries fuel N p sec com b.
Proof.
  induction fuel as [|f IH]; intros p sec com b; [reflexivity|]. cbn [load_entries_ml load_entries]. apply bbind_same; [apply off_find|]. intros [[e q] sec'] b1. destruct e as [e|]; [|reflexivity].
  apply bbind_same; [reflexivity|]. intros s b2. apply bbind_same; [apply IH|reflexivity].
Qed.
