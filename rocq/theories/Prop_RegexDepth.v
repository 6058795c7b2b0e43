(** C116: a stack that is enough for identify_format. *)
From Coq Require Import Lia.
From Verif Require Import Base CTypes StringUtils Spec_Strings Regex Spec_Regex P_Regex Prop_Regex.

(** calls that do not depend on the text, and calls for every character *)
Fixpoint own_calls (r : re) : nat :=
  match r with
  | Eps => 0
  | Set_ _ | Any | Bol | Eol => 1
  | Cat a b => own_calls a + own_calls b
  | Or a b => S (Nat.max (own_calls a) (own_calls b))
  | Star _ a => S (own_calls a)
  end.
Fixpoint calls_per_char (r : re) : nat :=
  match r with
  | Cat a b | Or a b => Nat.max (calls_per_char a) (calls_per_char b)
  | Star _ a => S (own_calls a + calls_per_char a)
  | _ => 0
  end.

Lemma dfs_depth r : loops_advance r = true -> forall c M fuel start s k, calls_per_char r <= c -> 1 <= M ->
  (forall st t, length t <= length s -> (advances r = true -> length t < length s) -> snd (k st t) <= M + c * length t) ->
  snd (dfs fuel r start s k) <= M + c * length s + own_calls r.
Proof.
  induction r as [|l| | | |a IHa b IHb|a IHa b IHb|g a IHa]; intros L c M fuel start s k C M1 K; cbn [dfs own_calls calls_per_char advances loops_advance] in *.
  - specialize (K start s ltac:(lia) ltac:(discriminate)). lia.
  - destruct s as [|x t]; [cbn; lia|]. destruct (in_set x l); [|cbn; lia]. unfold deeper. cbn [fst snd]. specialize (K false t ltac:(cbn; lia) ltac:(cbn; lia)). cbn [length]. nia.
  - destruct s as [|x t]; [cbn; lia|]. destruct (is_nl x); [cbn; lia|]. unfold deeper. cbn [fst snd]. specialize (K false t ltac:(cbn; lia) ltac:(cbn; lia)). cbn [length]. nia.
  - destruct start; [|cbn; lia]. unfold deeper. cbn [fst snd]. specialize (K true s ltac:(lia) ltac:(discriminate)). lia.
  - destruct s as [|x t]; [|cbn; lia]. unfold deeper. cbn [fst snd]. specialize (K start [] ltac:(lia) ltac:(discriminate)). lia.
  - apply andb_prop in L as [LA LB]. pose proof (IHa LA c (M + own_calls b) fuel start s (fun st t => dfs fuel b st t k) ltac:(lia) ltac:(lia)) as A.
    enough (snd (dfs fuel a start s (fun st t => dfs fuel b st t k)) <= M + own_calls b + c * length s + own_calls a) by lia. apply A. intros st t T TA.
    pose proof (IHb LB c M fuel st t k ltac:(lia) M1) as B. enough (snd (dfs fuel b st t k) <= M + c * length t + own_calls b) by lia. apply B. intros st' u U UB. apply K; [lia|].
    intros ADV. apply Bool.orb_prop in ADV as [ADV|ADV]; [specialize (TA ADV)|specialize (UB ADV)]; lia.
  - apply andb_prop in L as [LA LB]. unfold or_else.
    pose proof (IHa LA c M fuel start s k ltac:(lia) M1) as A. pose proof (IHb LB c M fuel start s k ltac:(lia) M1) as B.
    assert (snd (dfs fuel a start s k) <= M + c * length s + own_calls a) by (apply A; intros; apply K; [assumption|intros ADV; apply andb_prop in ADV as [X _]; auto]).
    assert (snd (dfs fuel b start s k) <= M + c * length s + own_calls b) by (apply B; intros; apply K; [assumption|intros ADV; apply andb_prop in ADV as [_ X]; auto]).
    destruct (fst (dfs fuel a start s k)); unfold deeper; cbn [fst snd]; lia.
  - apply andb_prop in L as [AA LA].
    set (loop := fix loop (n : nat) (start : bool) (s : bytes) {struct n} : bool * nat :=
      match n with
      | 0 => (false, 1)
      | S n0 => if g then or_else (dfs fuel a start s (fun st t => loop n0 st t)) (fun _ => k start s)
                else or_else (k start s) (fun _ => dfs fuel a start s (fun st t => loop n0 st t))
      end).
    enough (G : forall n st t, length t <= length s -> snd (loop n st t) <= M + c * length t + S (own_calls a)) by (apply G; lia).
    induction n as [|n IHn]; intros st t T; [cbn; lia|].
    assert (KK : snd (k st t) <= M + c * length t) by (apply K; [exact T|discriminate]).
    assert (D : snd (dfs fuel a st t (fun st t => loop n st t)) <= M + c * length t + own_calls a).
    { set (A := own_calls a) in *. set (p := calls_per_char a) in *. remember (c - S A) as c' eqn:EC.
      destruct t as [|x t].
      - pose proof (IHa LA c M fuel st [] (fun st t => loop n st t) ltac:(lia) M1) as D. apply D. intros st' u U UA. specialize (UA AA). cbn in UA. lia.
      - pose proof (IHa LA c' (M + S A + S A * length t) fuel st (x :: t) (fun st t => loop n st t) ltac:(lia) ltac:(lia)) as D.
        assert (EQ : c = c' + S A) by lia.
        assert (snd (dfs fuel a st (x :: t) (fun st t => loop n st t)) <= M + S A + S A * length t + c' * length (x :: t) + A).
        { apply D. intros st' u U UA. specialize (UA AA). cbn [length] in UA. pose proof (IHn st' u ltac:(lia)) as I. rewrite EQ in I.
          assert (S A * length u <= S A * length t) by (apply Nat.mul_le_mono_l; lia). lia. }
        rewrite EQ. cbn [length] in *. lia. }
    cbn [loop]. fold loop. unfold or_else. destruct g.
    + destruct (fst (dfs fuel a st t (fun st0 t0 => loop n st0 t0))); unfold deeper; cbn [fst snd]; lia.
    + destruct (fst (k st t)); unfold deeper; cbn [fst snd]; lia.
Qed.
(** For every expression whose loops go over at least one character: a stack that grows with the
    length of the text is enough. *)
Theorem C116_stack_enough : forall r s, loops_advance r = true ->
  snd (run_match r s) <= calls_per_char r * length s + own_calls r + 1 /\
  (forall start, search_calls r start s <= calls_per_char r * length s + own_calls r + 1).
Proof.
  intros r s L. split.
  - unfold run_match. pose proof (dfs_depth r L (calls_per_char r) 1 (S (length s)) true s (fun _ t => (match t with [] => true | _ => false end, 1)) ltac:(lia) ltac:(lia)) as D.
    enough (snd (dfs (S (length s)) r true s (fun _ t => (match t with [] => true | _ => false end, 1))) <= 1 + calls_per_char r * length s + own_calls r) by lia. apply D. intros. cbn. lia.
  - induction s as [|x s IH]; intros start; cbn [search_calls].
    + pose proof (dfs_depth r L (calls_per_char r) 1 (S (length (@nil ascii))) start [] (fun _ _ => (true, 1)) ltac:(lia) ltac:(lia)) as D.
      assert (E : snd (dfs (S (length (@nil ascii))) r start [] (fun _ _ => (true, 1))) <= 1 + calls_per_char r * length (@nil ascii) + own_calls r) by (apply D; intros; cbn; lia).
      destruct (fst _); lia.
    + pose proof (dfs_depth r L (calls_per_char r) 1 (S (length (x :: s))) start (x :: s) (fun _ _ => (true, 1)) ltac:(lia) ltac:(lia)) as D.
      assert (E : snd (dfs (S (length (x :: s))) r start (x :: s) (fun _ _ => (true, 1))) <= 1 + calls_per_char r * length (x :: s) + own_calls r) by (apply D; intros; cbn; lia).
      specialize (IH false). destruct (fst _); [lia|]. cbn [length] in *. lia.
Qed.
Print Assumptions C116_stack_enough.
(** The two expressions of the library. *)
Theorem C116_stack_format : forall license, exists n, format_calls license = Some n /\ n <= 5 * length license + 20.
Proof.
  intros s. destruct (compile B64) as [b64|] eqn:B; [|vm_compute in B; discriminate B]. destruct (compile INI_SECTION) as [ini|] eqn:I; [|vm_compute in I; discriminate I].
  unfold format_calls. rewrite B, I. cbv zeta. eexists. split; [reflexivity|].
  assert (LB : loops_advance b64 = true /\ calls_per_char b64 = 5 /\ own_calls b64 <= 19) by (vm_compute in B; injection B as <-; vm_compute; auto 20).
  assert (LI : loops_advance ini = true /\ calls_per_char ini <= 5 /\ own_calls ini <= 19) by (vm_compute in I; injection I as <-; vm_compute; auto 20).
  destruct LB as (L1 & L2 & L3), LI as (L4 & L5 & L6). destruct (C116_stack_enough b64 s L1) as [X _]. destruct (C116_stack_enough ini s L4) as [_ Y]. specialize (Y true).
  rewrite L2 in X. assert (calls_per_char ini * length s <= 5 * length s) by (apply Nat.mul_le_mono_r; exact L5). destruct (fst (run_match b64 s)); lia.
Qed.
Print Assumptions C116_stack_format.
Example C116_stack_case : map format_calls [bs "QUJD"; bs "[demo]"; bs "QUJDQUJDQUJDQUJD"; []] = map Some [10; 12; 25; 5].
Proof. vm_compute. reflexivity. Qed.
