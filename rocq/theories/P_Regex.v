(** The matcher of Regex.v finds what there is to find. *)
From Coq Require Import Lia.
From Verif Require Import Base P_Base CTypes StringUtils Spec_Strings P_Strings Regex Spec_Regex.

Definition nothing (p : bytes) : bool := match p with [] => true | _ => false end.
Lemma nothing_app p u : nothing (p ++ u) = nothing p && nothing u.
Proof. destruct p; reflexivity. Qed.
Lemma is_nl_break c : is_nl c = false <-> ~ line_break c.
Proof.
  unfold is_nl, line_break. destruct (Ascii.eqb_spec c LF) as [A|A], (Ascii.eqb_spec c CR) as [B|B]; cbn; (split; [intros H|intros H]); try discriminate; try reflexivity; try tauto; try (exfalso; apply H; tauto); try (exfalso; apply H; auto).
Qed.
Lemma in_set_spec c l : in_set c l = true <-> exists a b, In (a, b) l /\ (N_of_ascii a <= N_of_ascii c)%N /\ (N_of_ascii c <= N_of_ascii b)%N.
Proof.
  unfold in_set. rewrite existsb_exists. split.
  - intros ([a b] & I & H). cbn [fst snd] in H. apply andb_prop in H as [H1 H2]. apply N.leb_le in H1, H2. eauto.
  - intros (a & b & I & H1 & H2). exists (a, b). split; [exact I|]. cbn [fst snd]. apply N.leb_le in H1, H2. rewrite H1, H2. reflexivity.
Qed.
Lemma or_true x y : fst (or_else x y) = true <-> fst x = true \/ fst (y tt) = true.
Proof. unfold or_else. destruct (fst x) eqn:E; cbn; [rewrite E; tauto|]. split; [right; assumption|intros [H|H]; [discriminate|exact H]]. Qed.
Lemma deeper_true x : fst (deeper x) = true <-> fst x = true. Proof. reflexivity. Qed.

Definition looping (fuel : nat) (a : re) (g : bool) (k : bool -> bytes -> bool * nat) : nat -> bool -> bytes -> bool * nat :=
  fix loop (n : nat) (start : bool) (s : bytes) : bool * nat :=
    match n with
    | 0 => (false, 1)
    | S n =>
        if g then or_else (dfs fuel a start s (fun st t => loop n st t)) (fun _ => k start s)
        else or_else (k start s) (fun _ => dfs fuel a start s (fun st t => loop n st t))
    end.
Lemma looping_next fuel a g k n start s : looping fuel a g k (S n) start s =
  if g then or_else (dfs fuel a start s (looping fuel a g k n)) (fun _ => k start s)
  else or_else (k start s) (fun _ => dfs fuel a start s (looping fuel a g k n)).
Proof. reflexivity. Qed.
Lemma dfs_star fuel a g start s k : dfs fuel (Star g a) start s k = looping fuel a g k fuel start s.
Proof. reflexivity. Qed.
(** ** what it finds is there *)
Lemma dfs_sound fuel r : forall start s k, fst (dfs fuel r start s k) = true ->
  exists w t, s = w ++ t /\ (forall p, nothing p = start -> matches r p w t) /\ fst (k (start && nothing w) t) = true.
Proof.
  induction r as [|l| | | |a IHa b IHb|a IHa b IHb|g a IHa]; intros start s k H; cbn [dfs] in H.
  - exists [], s. split; [reflexivity|]. split; [intros; constructor|]. rewrite Bool.andb_true_r. exact H.
  - destruct s as [|c t]; [discriminate H|]. destruct (in_set c l) eqn:E; [|discriminate H]. apply in_set_spec in E as (a & b & I & A & B). exists [c], t. split; [reflexivity|]. split; [intros; econstructor; eassumption|]. rewrite Bool.andb_false_r. exact H.
  - destruct s as [|c t]; [discriminate H|]. destruct (is_nl c) eqn:E; [discriminate H|]. apply is_nl_break in E. exists [c], t. split; [reflexivity|]. split; [intros; constructor; exact E|]. rewrite Bool.andb_false_r. exact H.
  - destruct start; cbn [fst] in H; [|discriminate H]. exists [], s. split; [reflexivity|]. split; [intros p P; destruct p; [constructor|cbn in P; discriminate P]|exact H].
  - destruct s as [|c t]; [|discriminate H]. exists [], []. split; [reflexivity|]. split; [intros; constructor|]. rewrite Bool.andb_true_r. exact H.
  - apply IHa in H as (u & t & -> & MA & H). apply IHb in H as (v & t' & -> & MB & H). exists (u ++ v), t'. split; [apply app_assoc|]. split.
    + intros p P. constructor; [apply MA, P|]. apply MB. rewrite nothing_app, P. reflexivity.
    + rewrite nothing_app, Bool.andb_assoc. exact H.
  - apply or_true in H as [H|H]; [apply IHa in H|apply IHb in H]; destruct H as (w & t & -> & M & H); exists w, t; (split; [reflexivity|split; [|exact H]]); intros p P; [apply m_left|apply m_right]; apply M, P.
  - enough (X : forall n start s, fst (looping fuel a g k n start s) = true -> exists w t, s = w ++ t /\ (forall p, nothing p = start -> matches (Star g a) p w t) /\ fst (k (start && nothing w) t) = true) by exact (X fuel start s H).
    clear start s H. intros n. induction n as [|n IHn]; intros start s H; [discriminate H|].
    assert (D : fst (k start s) = true \/ fst (dfs fuel a start s (looping fuel a g k n)) = true).
    { rewrite looping_next in H. destruct g; apply or_true in H; tauto. }
    clear H. destruct D as [D|D].
    + exists [], s. split; [reflexivity|]. split; [intros; constructor|]. rewrite Bool.andb_true_r. exact D.
    + apply IHa in D as (u & t & -> & MA & D). apply IHn in D as (v & t' & -> & MB & D). exists (u ++ v), t'. split; [apply app_assoc|]. split.
      * intros p P. apply m_more; [apply MA, P|]. apply MB. rewrite nothing_app, P. reflexivity.
      * rewrite nothing_app, Bool.andb_assoc. exact D.
Qed.
(** ** what is there it finds *)
Lemma advances_some r p w q : matches r p w q -> advances r = true -> w <> [].
Proof.
  induction 1; intros A; cbn [advances] in A; try discriminate.
  - apply Bool.orb_prop in A as [A|A]; [specialize (IHmatches1 A); destruct u; [congruence|discriminate]|specialize (IHmatches2 A); destruct u; [exact IHmatches2|discriminate]].
  - apply andb_prop in A as [A _]. apply IHmatches, A.
  - apply andb_prop in A as [_ A]. apply IHmatches, A.
Qed.
Lemma dfs_complete r p w q : matches r p w q -> loops_advance r = true -> forall fuel k, length (w ++ q) < fuel -> fst (k (nothing (p ++ w)) q) = true ->
  fst (dfs fuel r (nothing p) (w ++ q) k) = true.
Proof.
  intros M. remember w as w0 eqn:W0. remember q as q0 eqn:Q0. revert M. subst w0 q0. intros M L fuel k F K.
  assert (X : forall r p w q, matches r p w q -> loops_advance r = true -> forall k, length (w ++ q) < fuel -> fst (k (nothing (p ++ w)) q) = true ->
    fst (dfs fuel r (nothing p) (w ++ q) k) = true /\
    match r with
    | Star g a => forall n, length (w ++ q) < n -> fst ((looping fuel a g k) n (nothing p) (w ++ q)) = true
    | _ => True
    end); [|exact (proj1 (X r p w q M L k F K))].
  clear r p w q M L k F K. intros r p w q M. induction M as [p q|l c a b p q I A B|c p q B|q|p|a b u v p q MA IHA MB IHB|a b w p q MA IHA|a b w p q MB IHB|g a p q|g a u v p q MA IHA MB IHB]; intros L k F K.
  - split; [|exact Logic.I]. cbn [dfs app]. rewrite app_nil_r in K. exact K.
  - split; [|exact Logic.I]. cbn [dfs app]. assert (E : in_set c l = true) by (apply in_set_spec; eauto). rewrite E. rewrite nothing_app, Bool.andb_false_r in K. exact K.
  - split; [|exact Logic.I]. cbn [dfs app]. apply is_nl_break in B. rewrite B. rewrite nothing_app, Bool.andb_false_r in K. exact K.
  - split; [|exact Logic.I]. exact K.
  - split; [|exact Logic.I]. cbn [dfs app]. rewrite app_nil_r in K. exact K.
  - split; [|exact Logic.I]. cbn [dfs loops_advance] in *. apply andb_prop in L as [LA LB]. rewrite <- app_assoc in *. apply IHA; [exact LA|exact F|]. apply IHB; [exact LB| |rewrite <- ?app_assoc in *; exact K]. rewrite !app_length in F. rewrite app_length. lia.
  - split; [|exact Logic.I]. cbn [dfs loops_advance] in *. apply andb_prop in L as [LA LB]. apply or_true. left. apply IHA; assumption.
  - split; [|exact Logic.I]. cbn [dfs loops_advance] in *. apply andb_prop in L as [LA LB]. apply or_true. right. apply IHB; assumption.
  - rewrite app_nil_r in K. cbn [app] in *. assert (G : forall n, length q < n -> fst ((looping fuel a g k) n (nothing p) q) = true).
    { intros [|n] N; [lia|]. rewrite looping_next. destruct g; apply or_true; tauto. }
    split; [exact (G fuel F)|exact G].
  - cbn [loops_advance] in L. apply andb_prop in L as [LA LB]. rewrite <- app_assoc in *. assert (FU : length u + (length v + length q) < fuel) by (rewrite !app_length in F; exact F).
    assert (G : forall n, length (u ++ v ++ q) < n -> fst ((looping fuel a g k) n (nothing p) (u ++ v ++ q)) = true).
    { intros [|n] N; [lia|]. rewrite looping_next. pose proof (advances_some _ _ _ _ MA LA) as U.
      assert (F' : length (v ++ q) < fuel) by (rewrite app_length; lia).
      destruct (IHB (ltac:(cbn [loops_advance]; rewrite LA, LB; reflexivity)) k F' K) as [_ G]. specialize (G n). assert (N' : length (v ++ q) < n) by (destruct u; [congruence|]; cbn in N; rewrite !app_length in *; lia). specialize (G N').
      destruct g; apply or_true; [left|right]; apply IHA; assumption. }
    split; [exact (G fuel F)|exact G].
Qed.
Lemma run_match_spec r s : loops_advance r = true -> (fst (run_match r s) = true <-> matches_all r s).
Proof.
  intros L. unfold run_match, matches_all. split.
  - intros H. apply dfs_sound in H as (w & t & -> & M & K). destruct t; [|cbn in K; discriminate K]. rewrite app_nil_r. apply M. reflexivity.
  - intros M. pose proof (dfs_complete r [] s [] M L (S (length s)) (fun _ t => (match t with [] => true | _ => false end, 1))) as X. rewrite app_nil_r in X. apply X; [lia|reflexivity].
Qed.
Lemma search_spec r : loops_advance r = true -> forall s p, search_from r (nothing p) s = true <-> exists u w q, s = u ++ w ++ q /\ matches r (p ++ u) w q.
Proof.
  intros L. induction s as [|c s IH]; intros p.
  - cbn [search_from]. rewrite Bool.orb_false_r. split.
    + intros H. apply dfs_sound in H as (w & t & E & M & _). exists [], w, t. split; [exact E|]. rewrite app_nil_r. apply M. reflexivity.
    + intros (u & w & q & E & M). symmetry in E. apply app_eq_nil in E as [-> E]. apply app_eq_nil in E as [-> ->]. rewrite app_nil_r in M.
      apply (dfs_complete r p [] [] M L); [cbn; lia|reflexivity].
  - cbn [search_from]. rewrite Bool.orb_true_iff. assert (IH' : search_from r false s = true <-> exists u w q, s = u ++ w ++ q /\ matches r ((p ++ [c]) ++ u) w q).
    { specialize (IH (p ++ [c])). rewrite nothing_app, Bool.andb_false_r in IH. exact IH. }
    rewrite IH'. clear IH IH'. split.
    + intros [H|(u & w & q & -> & M)].
      * apply dfs_sound in H as (w & t & E & M & _). exists [], w, t. split; [exact E|]. rewrite app_nil_r. apply M. reflexivity.
      * exists (c :: u), w, q. split; [reflexivity|]. rewrite <- app_assoc in M. exact M.
    + intros ([|x u] & w & q & E & M).
      * left. rewrite app_nil_r in M. cbn [app] in E. rewrite E. apply (dfs_complete r p w q M L); [lia|reflexivity].
      * right. injection E as <- ->. exists u, w, q. split; [reflexivity|]. rewrite <- app_assoc. exact M.
Qed.
Lemma run_search_spec r s : loops_advance r = true -> (run_search r s = true <-> matches_some r s).
Proof. intros L. apply (search_spec r L s []). Qed.

(** ** every character of a match costs a call *)
Lemma dfs_depth fuel r : forall start s k, fst (dfs fuel r start s k) = true ->
  exists w t st, s = w ++ t /\ fst (k st t) = true /\ snd (k st t) + length w <= snd (dfs fuel r start s k).
Proof.
  assert (OR : forall x y, fst (or_else x y) = true -> (fst x = true /\ snd x <= snd (or_else x y)) \/ (fst (y tt) = true /\ snd (y tt) <= snd (or_else x y))).
  { intros x y. unfold or_else. destruct (fst x) eqn:E; cbn [deeper fst snd]; intros H; [left; split; [reflexivity|lia]|right; split; [exact H|lia]]. }
  induction r as [|l| | | |a IHa b IHb|a IHa b IHb|g a IHa]; intros start s k H; cbn [dfs] in H |- *.
  - exists [], s, start. cbn [app length]. repeat split; [exact H|lia].
  - destruct s as [|c t]; [discriminate H|]. destruct (in_set c l); [|discriminate H]. exists [c], t, false. cbn [app length deeper snd]. repeat split; [exact H|lia].
  - destruct s as [|c t]; [discriminate H|]. destruct (is_nl c); [discriminate H|]. exists [c], t, false. cbn [app length deeper snd]. repeat split; [exact H|lia].
  - destruct start; [|discriminate H]. exists [], s, true. cbn [app length deeper snd]. repeat split; [exact H|lia].
  - destruct s as [|c t]; [|discriminate H]. exists [], [], start. cbn [app length deeper snd]. repeat split; [exact H|lia].
  - destruct (IHa _ _ _ H) as (u & t & st & -> & K & D). destruct (IHb _ _ _ K) as (v & t' & st' & -> & K' & D'). exists (u ++ v), t', st'. rewrite app_length. split; [apply app_assoc|]. split; [exact K'|lia].
  - apply OR in H as [[H D]|[H D]]; [apply IHa in H|apply IHb in H]; destruct H as (w & t & st & -> & K & D'); exists w, t, st; repeat split; try exact K; lia.
  - enough (X : forall n start s, fst (looping fuel a g k n start s) = true -> exists w t st, s = w ++ t /\ fst (k st t) = true /\ snd (k st t) + length w <= snd (looping fuel a g k n start s)) by exact (X fuel start s H).
    clear start s H. intros n. induction n as [|n IHn]; intros start s H; [discriminate H|]. rewrite looping_next in H |- *.
    destruct g; apply OR in H as [[H D]|[H D]].
    + destruct (IHa _ _ _ H) as (u & t & st & -> & K & D1). destruct (IHn _ _ K) as (v & t' & st' & -> & K' & D2). exists (u ++ v), t', st'. rewrite app_length. split; [apply app_assoc|]. split; [exact K'|lia].
    + exists [], s, start. cbn [app length]. repeat split; [exact H|lia].
    + exists [], s, start. cbn [app length]. repeat split; [exact H|lia].
    + destruct (IHa _ _ _ H) as (u & t & st & -> & K & D1). destruct (IHn _ _ K) as (v & t' & st' & -> & K' & D2). exists (u ++ v), t', st'. rewrite app_length. split; [apply app_assoc|]. split; [exact K'|lia].
Qed.
Lemma match_depth r s : fst (run_match r s) = true -> length s < snd (run_match r s).
Proof.
  intros H. destruct (dfs_depth _ _ _ _ _ H) as (w & t & st & E & K & D). destruct t; [|cbn in K; discriminate K]. rewrite app_nil_r in E. subst w. cbn [snd] in D. unfold run_match. lia.
Qed.
