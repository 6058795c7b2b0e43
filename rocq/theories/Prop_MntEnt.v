(** The object that getmntent shares between threads (C114). *)
From Verif Require Import Base CTypes StringUtils HwId Network Disks ExecEnv Strategies MntEnt Spec_MntEnt Prop_Hw.
From Coq Require Import Lia.

Lemma put_nth pool i x j : nth_error (mnt_put pool i x) j = if Nat.eqb i j then match nth_error pool i with Some _ => Some x | None => None end else nth_error pool j.
Proof. revert i j. induction pool as [|a l IH]; intros [|i] [|j]; cbn; try reflexivity; [destruct (i =? j); reflexivity|apply IH]. Qed.

(** * What a call alone comes to *)
Definition finish (m : list (bytes * Z)) (rest : list bytes) (r : res (list disk)) : res (func_ret * list disk) :=
  l <-- r ;; l' <-- prefer_entries m rest l ;; Ok (FUNC_RET_OK, l').
(** from here on, with [e] the entry in the object *)
Definition outcome (e : bytes) (c : mnt_call) : res (func_ret * list disk) :=
  match c with
  | MNext rest m l => finish m rest (Ok l)
  | MCopy rest m l => finish m rest (prefer_entry m e l)
  | MUuid name rest m l => finish m rest (prefer_entry m name l)
  | MLabel name rest m l => finish m rest (if is_prefix (bs "LABEL=") name then prefer_by_label (skipn 6 name) l else Ok l)
  | MDone r => r
  end.
(** the entry a call is at is the one in the object *)
Definition at_entry (e : bytes) (c : mnt_call) : Prop :=
  match c with MUuid name _ _ _ | MLabel name _ _ _ => name = e | _ => True end.
Lemma outcome_next e rest m r : outcome e (mnt_next rest m r) = finish m rest r.
Proof. destruct r; reflexivity. Qed.
Lemma outcome_start e env : outcome e (mnt_start env) = get_disk_infos env.
Proof.
  unfold mnt_start, get_disk_infos. destruct (get_disk_infos_dev env) as [[[r infos] m]| | |]; cbn [rbind]; try reflexivity.
  assert (X : forall m l, outcome e (mnt_open env m l) = (l' <-- set_preferred_disks env m l ;; Ok (FUNC_RET_OK, l'))).
  { intros m0 l0. unfold mnt_open, set_preferred_disks. destruct (de_fstab env); reflexivity. }
  destruct r; try (rewrite X; reflexivity); destruct (first_some (de_blkid env)) as [content|]; try reflexivity; destruct (parse_blkid content) as [[i2 m2]| | |]; cbn [rbind]; try reflexivity; apply X.
Qed.
Lemma at_entry_start e env : at_entry e (mnt_start env).
Proof.
  assert (X : forall m l, at_entry e (mnt_open env m l)) by (intros m0 l0; unfold mnt_open; destruct (de_fstab env); exact I).
  unfold mnt_start. destruct (get_disk_infos_dev env) as [[[r infos] m]| | |]; try exact I.
  destruct r; try apply X; destruct (first_some (de_blkid env)) as [content|]; try exact I; destruct (parse_blkid content) as [[i2 m2]| | |]; try exact I; apply X.
Qed.
Lemma at_entry_next e rest m r : at_entry e (mnt_next rest m r). Proof. destruct r; exact I. Qed.
Lemma prefix_length p s : is_prefix p s = true -> length p <= length s.
Proof. revert s. induction p as [|a p IH]; intros [|b s] H; cbn in *; try lia; try discriminate. apply Bool.andb_true_iff in H as [_ H]. specialize (IH s H). lia. Qed.
Lemma substr_tail s n : n <= length s -> substr s n (length s) = Ok (skipn n s).
Proof.
  intros H. unfold substr. destruct (Nat.ltb_spec (length s) n) as [X|_]; [lia|]. f_equal. apply firstn_all2. rewrite skipn_length. lia.
Qed.
(** one step of a call keeps what it comes to, if the object holds its entry *)
Lemma step_outcome left_ e c : at_entry e c -> outcome (fst (mnt_step left_ e c)) (snd (mnt_step left_ e c)) = outcome e c /\ at_entry (fst (mnt_step left_ e c)) (snd (mnt_step left_ e c)).
Proof.
  intros A. destruct c as [rest m l|rest m l|name rest m l|name rest m l|r]; cbn [mnt_step at_entry] in *.
  - destruct rest as [|x rest]; cbn [fst snd outcome at_entry]; (split; [|exact I]); [reflexivity|]. unfold finish. cbn [rbind prefer_entries]. destruct (prefer_entry m x l); reflexivity.
  - cbn [fst snd outcome at_entry]. split; reflexivity.
  - subst name. destruct (is_prefix (bs "UUID=") e) eqn:E; cbn [fst snd].
    + rewrite outcome_next. split; [|apply at_entry_next]. rewrite substr_tail by exact (prefix_length _ _ E). cbn [rbind outcome]. unfold prefer_entry. rewrite E. reflexivity.
    + cbn [outcome at_entry]. split; [|reflexivity]. unfold prefer_entry. rewrite E. reflexivity.
  - subst name. destruct (is_prefix (bs "LABEL=") e) eqn:E; cbn [fst snd].
    + rewrite outcome_next. split; [|apply at_entry_next]. rewrite substr_tail by exact (prefix_length _ _ E). cbn [rbind outcome]. rewrite E. reflexivity.
    + cbn [outcome at_entry]. rewrite E. split; [reflexivity|exact I].
  - cbn [fst snd]. split; [reflexivity|exact I].
Qed.
Lemma step_keeps left_ e c : ~ fetching c -> fst (mnt_step left_ e c) = e.
Proof. destruct c as [rest m l|rest m l|name rest m l|name rest m l|r]; intros N; try reflexivity. destruct N. unfold fetching. eauto. Qed.
(** what a thread that is not in the middle of an entry comes to does not depend on the object *)
Lemma not_reading c e e' : ~ reading c -> outcome e c = outcome e' c /\ at_entry e' c.
Proof.
  destruct c as [rest m l|rest m l|name rest m l|name rest m l|r]; intros N; try (split; [reflexivity|exact I]); destruct N; unfold reading; eauto 10.
Qed.
Lemma fetching_not_reading c : fetching c -> ~ reading c.
Proof. intros [rest [m [l ->]]] [[? [? [? X]]]|[? [? [? [? [X|X]]]]]]; discriminate X. Qed.
Lemma undisturbed_cons i left_ schedule shared pool : undisturbed ((i, left_) :: schedule) shared pool <->
  match nth_error pool i with
  | None => undisturbed schedule shared pool
  | Some c => (fetching c -> forall j d, j <> i -> nth_error pool j = Some d -> ~ reading d) /\
      undisturbed schedule (fst (mnt_step left_ shared c)) (mnt_put pool i (snd (mnt_step left_ shared c)))
  end.
Proof.
  split.
  - intros U. destruct (nth_error pool i) as [c|] eqn:E.
    + split. { intros F j d N H. exact (U [] i left_ schedule eq_refl c E F j d N H). }
      intros before j lf after Eq. specialize (U ((i, left_) :: before) j lf after). cbn [app mnt_run] in U. rewrite E in U. destruct (mnt_step left_ shared c) as [sh c']. apply U. rewrite Eq. reflexivity.
    + intros before j lf after Eq. specialize (U ((i, left_) :: before) j lf after). cbn [app mnt_run] in U. rewrite E in U. apply U. rewrite Eq. reflexivity.
  - intros X [|[i' lf'] before] j lf after Eq; cbn [app] in Eq.
    + injection Eq as -> -> ->. cbn [mnt_run snd]. intros c E F. rewrite E in X. exact (proj1 X F).
    + injection Eq as <- <- ->. cbn [mnt_run]. destruct (nth_error pool i) as [c|]; [destruct X as [_ X]|]; [destruct (mnt_step left_ shared c) as [sh c']|]; exact (X before j lf after eq_refl).
Qed.
Lemma fetching_dec c : fetching c \/ ~ fetching c.
Proof. destruct c; [left; unfold fetching; eauto|right; intros [? [? [? X]]]; discriminate X..]. Qed.
Lemma undisturbed_run envs : forall schedule shared pool, undisturbed schedule shared pool ->
  (forall i c, nth_error pool i = Some c -> at_entry shared c /\ exists env, nth_error envs i = Some env /\ outcome shared c = get_disk_infos env) ->
  forall i c, nth_error (snd (mnt_run schedule shared pool)) i = Some c ->
  exists env, nth_error envs i = Some env /\ outcome (fst (mnt_run schedule shared pool)) c = get_disk_infos env.
Proof.
  induction schedule as [|[i left_] schedule IH]; intros shared pool U I k c H; [exact (proj2 (I k c H))|].
  apply undisturbed_cons in U. cbn [mnt_run] in *. destruct (nth_error pool i) as [ci|] eqn:E; [|exact (IH shared pool U I k c H)].
  destruct U as [D U]. destruct (I i ci E) as [Ai [env [E0 O0]]]. destruct (step_outcome left_ shared ci Ai) as [SO SA].
  assert (K : ~ fetching ci -> fst (mnt_step left_ shared ci) = shared) by apply step_keeps.
  destruct (mnt_step left_ shared ci) as [sh' ci']. cbn [fst snd] in *. apply (IH sh' (mnt_put pool i ci') U); [|exact H].
  intros j d Hj. rewrite put_nth, E in Hj. destruct (Nat.eqb_spec i j) as [<-|Nij].
  - injection Hj as <-. split; [exact SA|]. exists env. split; [exact E0|]. rewrite SO. exact O0.
  - destruct (I j d Hj) as [Aj [denv [Ed0 Od0]]]. destruct (fetching_dec ci) as [F|F].
    + pose proof (D F j d (not_eq_sym Nij) Hj) as NR. destruct (not_reading d shared sh' NR) as [X Y]. split; [exact Y|]. exists denv. split; [exact Ed0|]. rewrite <- X. exact Od0.
    + rewrite (K F). split; [exact Aj|]. exists denv. split; [exact Ed0|exact Od0].
Qed.
(** If no thread asks for an entry of fstab while another is in the middle of one, every call of
    getDiskInfos returns what it returns alone. *)
Theorem C114_undisturbed envs schedule shared : undisturbed schedule shared (map mnt_start envs) ->
  forall i r, nth_error (snd (mnt_run schedule shared (map mnt_start envs))) i = Some (MDone r) ->
  exists env, nth_error envs i = Some env /\ r = get_disk_infos env.
Proof.
  intros U i r H. apply (undisturbed_run envs schedule shared (map mnt_start envs) U) in H; [exact H|].
  intros j c Hj. rewrite nth_error_map in Hj. destruct (nth_error envs j) as [env|]; [|discriminate Hj]. injection Hj as <-.
  split; [apply at_entry_start|]. exists env. split; [reflexivity|apply outcome_start].
Qed.
Print Assumptions C114_undisturbed.

(** * One thread; one after the other *)
Lemma one_undisturbed schedule : forall shared c, undisturbed schedule shared [c].
Proof.
  induction schedule as [|[i left_] schedule IH]; intros shared c; [intros [|? ?] ? ? ? X; discriminate X|].
  apply undisturbed_cons. destruct i as [|i]; cbn [nth_error mnt_put]; [|destruct i; apply IH].
  split; [|apply IH]. intros _ [|[|j]] d N H; [congruence|discriminate H..].
Qed.
Definition cost (c : mnt_call) : nat :=
  match c with
  | MNext rest _ _ => 4 * length rest + 1
  | MCopy rest _ _ => 4 * length rest + 4
  | MUuid _ rest _ _ => 4 * length rest + 3
  | MLabel _ rest _ _ => 4 * length rest + 2
  | MDone _ => 0
  end.
Lemma cost_next rest m r : cost (mnt_next rest m r) <= 4 * length rest + 1. Proof. destruct r; cbn [mnt_next cost]; lia. Qed.
Lemma cost_step left_ e c : cost (snd (mnt_step left_ e c)) <= cost c - 1.
Proof.
  destruct c as [[|x rest] m l|rest m l|name rest m l|name rest m l|r]; cbn [mnt_step snd cost length]; try lia.
  - destruct (is_prefix (bs "UUID=") e); [|cbn [cost]; lia]. etransitivity; [apply cost_next|lia].
  - destruct (is_prefix (bs "LABEL=") e); [|cbn [cost]; lia]. etransitivity; [apply cost_next|lia].
Qed.
Lemma cost_done c : cost c = 0 -> exists r, c = MDone r.
Proof. destruct c; cbn [cost]; intros; try lia. eauto. Qed.
Lemma cost_start env : cost (mnt_start env) <= 4 * entries_of env + 1.
Proof.
  assert (X : forall m l, cost (mnt_open env m l) <= 4 * entries_of env + 1) by (intros m0 l0; unfold mnt_open, entries_of; destruct (de_fstab env); cbn [cost]; lia).
  unfold mnt_start. destruct (get_disk_infos_dev env) as [[[r infos] m]| | |]; try (cbn [cost]; lia).
  destruct r; try apply X; destruct (first_some (de_blkid env)) as [content|]; try (cbn [cost]; lia); destruct (parse_blkid content) as [[i2 m2]| | |]; try (cbn [cost]; lia); apply X.
Qed.
Lemma cost_run schedule : forall shared pool i c, nth_error pool i = Some c ->
  exists c', nth_error (snd (mnt_run schedule shared pool)) i = Some c' /\ cost c' <= cost c - count_occ Nat.eq_dec (map fst schedule) i.
Proof.
  induction schedule as [|[j left_] schedule IH]; intros shared pool i c H; cbn [mnt_run map fst count_occ]; [exists c; split; [exact H|lia]|].
  destruct (Nat.eq_dec j i) as [->|N].
  - rewrite H. pose proof (cost_step left_ shared c) as L. destruct (mnt_step left_ shared c) as [sh c'] eqn:ES. cbn [snd] in L.
    destruct (IH sh (mnt_put pool i c') i c') as [c2 [E2 L2]]. { rewrite put_nth, Nat.eqb_refl, H. reflexivity. }
    exists c2. split; [exact E2|lia].
  - destruct (nth_error pool j) as [d|] eqn:Ed; [|apply IH, H]. destruct (mnt_step left_ shared d) as [sh d'] eqn:ES.
    apply IH. rewrite put_nth. destruct (Nat.eqb_spec j i); [congruence|exact H].
Qed.
(** Every call returns within four of its own steps for each entry of fstab, and one, however the
    others are scheduled. *)
Theorem C114_wait_free envs schedule shared i env : nth_error envs i = Some env ->
  4 * entries_of env + 1 <= count_occ Nat.eq_dec (map fst schedule) i ->
  exists r, nth_error (snd (mnt_run schedule shared (map mnt_start envs))) i = Some (MDone r).
Proof.
  intros H L. destruct (cost_run schedule shared (map mnt_start envs) i (mnt_start env)) as [c [E C]]. { rewrite nth_error_map, H. reflexivity. }
  pose proof (cost_start env) as S0. destruct (cost_done c) as [r ->]; [lia|]. exists r. exact E.
Qed.
Print Assumptions C114_wait_free.
(** A thread alone, whatever the object of the C library holds, gets what the function returns. *)
Theorem C114_alone env schedule shared : 4 * entries_of env + 1 <= count_occ Nat.eq_dec (map fst schedule) 0 ->
  snd (mnt_run schedule shared [mnt_start env]) = [MDone (get_disk_infos env)].
Proof.
  intros L. destruct (C114_wait_free [env] schedule shared 0 env eq_refl L) as [r E].
  destruct (C114_undisturbed [env] schedule shared (one_undisturbed _ _ _) 0 r E) as [env' [[= <-] ->]].
  assert (LEN : forall schedule shared pool, length (snd (mnt_run schedule shared pool)) = length pool).
  { clear. induction schedule as [|[i lf] schedule IH]; intros shared pool; cbn [mnt_run]; [reflexivity|]. destruct (nth_error pool i) as [c|]; [|apply IH]. destruct (mnt_step lf shared c) as [sh c']. rewrite IH. clear. revert i. induction pool as [|a pool IH]; intros [|i]; cbn; auto. }
  specialize (LEN schedule shared [mnt_start env]). cbn [map] in E. destruct (snd (mnt_run schedule shared [mnt_start env])) as [|c [|? ?]]; try discriminate LEN. injection E as ->. reflexivity.
Qed.
Print Assumptions C114_alone.
(** Threads that take turns: each block of steps is long enough for the call to return. *)
Definition turns (blocks : list (nat * list bytes)) : list (nat * bytes) := flat_map (fun b => map (pair (fst b)) (snd b)) blocks.
Lemma block_undisturbed i ks : forall shared pool c rest,
  nth_error pool i = Some c -> cost c <= length ks -> (forall j d, j <> i -> nth_error pool j = Some d -> ~ reading d) ->
  (forall shared' pool', length pool' = length pool -> (forall j d, nth_error pool' j = Some d -> ~ reading d) -> (forall j d, nth_error pool' j = Some d -> exists d0, nth_error pool j = Some d0 /\ cost d <= cost d0) -> undisturbed rest shared' pool') ->
  undisturbed (map (pair i) ks ++ rest) shared pool.
Proof.
  induction ks as [|k ks IH]; intros shared pool c rest E L N K; cbn [map app].
  - apply K; [reflexivity| |intros j d H; exists d; split; [exact H|lia]]. intros j d H. destruct (Nat.eq_dec j i) as [->|X]; [|exact (N j d X H)].
    rewrite E in H. injection H as <-. cbn [length] in L. destruct (cost_done c) as [r ->]; [lia|]. intros [[? [? [? X]]]|[? [? [? [? [X|X]]]]]]; discriminate X.
  - apply undisturbed_cons. rewrite E. split; [intros _; exact N|]. pose proof (cost_step k shared c) as C. destruct (mnt_step k shared c) as [sh c']. cbn [fst snd] in *.
    assert (LEN : length (mnt_put pool i c') = length pool) by (clear; revert i; induction pool as [|a pool IH]; intros [|i]; cbn; auto).
    apply (IH sh (mnt_put pool i c') c').
    + rewrite put_nth, Nat.eqb_refl, E. reflexivity.
    + cbn [length] in L. lia.
    + intros j d X H. rewrite put_nth in H. destruct (Nat.eqb_spec i j); [congruence|]. exact (N j d X H).
    + intros sh2 pool2 L2 N2 C2. apply K; [congruence|exact N2|]. intros j d H. destruct (C2 j d H) as [d0 [E0 L0]]. rewrite put_nth, E in E0. destruct (Nat.eqb_spec i j) as [<-|X]; [injection E0 as <-; exists c; split; [exact E|lia]|exists d0; split; assumption].
Qed.
Lemma turns_undisturbed envs blocks : forall shared pool, (forall i ks env, In (i, ks) blocks -> nth_error envs i = Some env -> 4 * entries_of env + 1 <= length ks) ->
  length pool = length envs -> (forall j d, nth_error pool j = Some d -> ~ reading d) -> (forall j d env, nth_error pool j = Some d -> nth_error envs j = Some env -> cost d <= 4 * entries_of env + 1) ->
  undisturbed (turns blocks) shared pool.
Proof.
  induction blocks as [|[i ks] blocks IH]; intros shared pool B L N C; [intros [|? ?] ? ? ? X; discriminate X|]. cbn [turns flat_map fst snd].
  assert (B' : forall i0 ks0 env, In (i0, ks0) blocks -> nth_error envs i0 = Some env -> 4 * entries_of env + 1 <= length ks0) by (intros i0 ks0 env X; apply B; right; exact X).
  destruct (nth_error pool i) as [c|] eqn:E.
  - assert (X : exists env, nth_error envs i = Some env). { destruct (nth_error envs i) as [env|] eqn:X; [eauto|]. apply nth_error_None in X. assert (i < length pool) by (apply nth_error_Some; rewrite E; discriminate). lia. }
    destruct X as [env X]. apply (block_undisturbed i ks shared pool c).
    + exact E.
    + pose proof (B i ks env (or_introl eq_refl) X). pose proof (C i c env E X). lia.
    + intros j d _. apply N.
    + intros sh' pool' L' N' C'. apply IH; [exact B'|congruence|exact N'|]. intros j d denv Hj He. destruct (C' j d Hj) as [d0 [E0 L0]]. pose proof (C j d0 denv E0 He). lia.
  - clear B. induction ks as [|k ks IHk]; cbn [map app]; [apply IH; assumption|]. apply undisturbed_cons. rewrite E. exact IHk.
Qed.
Lemma start_not_reading env : ~ reading (mnt_start env).
Proof.
  assert (X : forall m l, ~ reading (mnt_open env m l)) by (intros m0 l0; unfold mnt_open; destruct (de_fstab env); intros [[? [? [? X]]]|[? [? [? [? [X|X]]]]]]; discriminate X).
  assert (Y : forall r, ~ reading (MDone r)) by (intros r [[? [? [? Z]]]|[? [? [? [? [Z|Z]]]]]]; discriminate Z).
  unfold mnt_start. destruct (get_disk_infos_dev env) as [[[r infos] m]| | |]; try apply Y.
  destruct r; try apply X; destruct (first_some (de_blkid env)) as [content|]; try apply Y; destruct (parse_blkid content) as [[i2 m2]| | |]; try apply Y; apply X.
Qed.
(** Calls made one after the other, in whatever threads, return what they return alone. *)
Theorem C114_turns envs blocks shared : (forall i ks env, In (i, ks) blocks -> nth_error envs i = Some env -> 4 * entries_of env + 1 <= length ks) ->
  forall i env, In i (map fst blocks) -> nth_error envs i = Some env ->
  nth_error (snd (mnt_run (turns blocks) shared (map mnt_start envs))) i = Some (MDone (get_disk_infos env)).
Proof.
  intros B i env Hi He.
  assert (U : undisturbed (turns blocks) shared (map mnt_start envs)).
  { apply (turns_undisturbed envs blocks); [exact B|apply map_length| |].
    - intros j d H. rewrite nth_error_map in H. destruct (nth_error envs j); [|discriminate H]. injection H as <-. apply start_not_reading.
    - intros j d denv H Hd. rewrite nth_error_map, Hd in H. injection H as <-. apply cost_start. }
  destruct (C114_wait_free envs (turns blocks) shared i env He) as [r E].
  { apply in_map_iff in Hi as [[i' ks] [Ei Hin]]. cbn in Ei. subst i'. pose proof (B i ks env Hin He) as L. clear - Hin L. induction blocks as [|[i2 ks2] blocks IH]; [destruct Hin|].
    cbn [turns flat_map fst snd]. rewrite map_app, map_map, count_occ_app. cbn [fst]. destruct Hin as [[= -> ->]|Hin].
    - assert (X : forall l : list bytes, count_occ Nat.eq_dec (map (fun _ => i) l) i = length l) by (induction l as [|a l IHl]; cbn [map count_occ length]; [reflexivity|destruct (Nat.eq_dec i i); [rewrite IHl; reflexivity|congruence]]).
      change (map (fun x : bytes => i) ks) with (map (fun _ : bytes => i) ks). rewrite X. lia.
    - specialize (IH Hin). unfold turns in IH. lia. }
  destruct (C114_undisturbed envs (turns blocks) shared U i r E) as [env' [He' ->]]. rewrite He in He'. injection He' as <-. exact E.
Qed.
Print Assumptions C114_turns.

(** * Any schedule *)
Definition without_fstab (env : disk_env) : disk_env :=
  {| de_by_uuid := de_by_uuid env; de_by_label := de_by_label env; de_by_partlabel := de_by_partlabel env; de_blkid := de_blkid env; de_fstab := None |}.
(** what may come of the disks [l] *)
Definition only_marks (f : func_ret) (l : list disk) (r : res (func_ret * list disk)) : Prop :=
  (exists l', r = Ok (f, l') /\ Forall2 same_or_marked l l') \/ r = Throw ExOutOfRange \/ r = Undef UbUninit.
Definition marks (l : list disk) (c : mnt_call) : Prop :=
  match c with MNext _ _ l' | MCopy _ _ l' | MUuid _ _ _ l' | MLabel _ _ _ l' => Forall2 same_or_marked l l' | MDone r => only_marks FUNC_RET_OK l r end.
Lemma marked_refl l : Forall2 same_or_marked l l.
Proof. induction l; constructor; [left; reflexivity|assumption]. Qed.
Lemma same_or_marked_trans a b c : same_or_marked a b -> same_or_marked b c -> same_or_marked a c.
Proof. intros [->| ->] [->| ->]; unfold same_or_marked; auto. Qed.
Lemma marked_trans l1 : forall l2 l3, Forall2 same_or_marked l1 l2 -> Forall2 same_or_marked l2 l3 -> Forall2 same_or_marked l1 l3.
Proof. induction l1 as [|a l1 IH]; intros l2 l3 A B; inversion A; subst; inversion B; subst; constructor; [eapply same_or_marked_trans; eassumption|eapply IH; eassumption]. Qed.
Lemma update_first_marks p l : Forall2 same_or_marked l (update_first p set_preferred l).
Proof. induction l as [|a l IH]; cbn; [constructor|]. destruct (p a); constructor; [right; reflexivity|apply marked_refl|left; reflexivity|exact IH]. Qed.
Lemma prefer_label_marks u l : match prefer_by_label u l with Ok l' => Forall2 same_or_marked l l' | Undef b => b = UbUninit | _ => False end.
Proof.
  induction l as [|d l IH]; cbn [prefer_by_label]; [constructor|]. destruct (dk_label d) as [lab|]; [|reflexivity]. destruct (beqb u lab); [constructor; [right; reflexivity|apply marked_refl]|].
  destruct (prefer_by_label u l); cbn [rbind]; [constructor; [left; reflexivity|exact IH]|exact IH..].
Qed.
Lemma marks_next l rest m r : match r with Ok l' => Forall2 same_or_marked l l' | Throw e => e = ExOutOfRange | Undef b => b = UbUninit | OutOfFuel => False end -> marks l (mnt_next rest m r).
Proof. destruct r; cbn [mnt_next marks]; intros H; [exact H|subst; right; left; reflexivity|subst; right; right; reflexivity|destruct H]. Qed.
Lemma marks_step l left_ e c : marks l c -> marks l (snd (mnt_step left_ e c)).
Proof.
  destruct c as [[|x rest] m k|rest m k|name rest m k|name rest m k|r]; cbn [mnt_step snd marks]; intros H; try exact H.
  - left. exists k. split; [reflexivity|exact H].
  - destruct (is_prefix (bs "UUID=") e); [|exact H]. apply marks_next. unfold substr. destruct (length name <? 5); cbn [rbind]; [reflexivity|]. destruct (map_find _ m); [|exact H]. eapply marked_trans; [exact H|apply update_first_marks].
  - destruct (is_prefix (bs "LABEL=") e); [|exact H]. apply marks_next. unfold substr. destruct (length name <? 6); cbn [rbind]; [reflexivity|]. pose proof (prefer_label_marks (firstn (length name) (skipn 6 name)) k) as X.
    destruct (prefer_by_label _ k); [eapply marked_trans; eassumption|destruct X|exact X|destruct X].
Qed.
Lemma mnt_run_keeps (P : nat -> mnt_call -> Prop) : (forall i left_ e c, P i c -> P i (snd (mnt_step left_ e c))) -> forall schedule shared pool,
  (forall i c, nth_error pool i = Some c -> P i c) -> forall i c, nth_error (snd (mnt_run schedule shared pool)) i = Some c -> P i c.
Proof.
  intros ST. induction schedule as [|[i left_] schedule IH]; intros shared pool I; cbn [mnt_run]; [exact I|]. destruct (nth_error pool i) as [c|] eqn:E; [|apply IH, I].
  pose proof (ST i left_ shared c (I i c E)) as X. destruct (mnt_step left_ shared c) as [sh c']. apply IH. intros j d H. rewrite put_nth, E in H. destruct (Nat.eqb_spec i j) as [<-|N]; [injection H as <-; exact X|exact (I j d H)].
Qed.
Definition start_marks (env : disk_env) (c : mnt_call) : Prop :=
  match get_disk_infos (without_fstab env) with
  | Ok (FUNC_RET_OK, l) => marks l c
  | r => c = MDone r
  end.
Lemma start_marks_start env : start_marks env (mnt_start env).
Proof.
  unfold start_marks, get_disk_infos, mnt_start. change (get_disk_infos_dev (without_fstab env)) with (get_disk_infos_dev env). change (de_blkid (without_fstab env)) with (de_blkid env).
  assert (X : forall m l, marks l (mnt_open env m l)). { intros m0 l0. unfold mnt_open. destruct (de_fstab env); cbn [marks]; [apply marked_refl|]. left. exists l0. split; [reflexivity|apply marked_refl]. }
  unfold set_preferred_disks. cbn [de_fstab without_fstab].
  destruct (get_disk_infos_dev env) as [[[r infos] m]| | |]; cbn [rbind]; try reflexivity.
  destruct r; cbn [rbind]; try apply X; destruct (first_some (de_blkid env)) as [content|]; try reflexivity; destruct (parse_blkid content) as [[i2 m2]| | |]; cbn [rbind]; try reflexivity; apply X.
Qed.
(** Whatever the schedule, the disks that a call returns are those there are, in their order: only
    the marks of fstab may be others. Or the call ends with std::out_of_range, or reads a label
    that was never written. *)
Theorem C114_only_marks envs schedule shared i env r : nth_error envs i = Some env ->
  nth_error (snd (mnt_run schedule shared (map mnt_start envs))) i = Some (MDone r) ->
  match get_disk_infos (without_fstab env) with
  | Ok (f, l) => (exists l', r = Ok (f, l') /\ Forall2 same_or_marked l l') \/ r = Throw ExOutOfRange \/ r = Undef UbUninit
  | r' => r = r'
  end.
Proof.
  intros He H. assert (P : start_marks env (MDone r)).
  { pose proof (mnt_run_keeps (fun i c => forall env, nth_error envs i = Some env -> start_marks env c)) as K. cbv beta in K. refine (K _ schedule shared (map mnt_start envs) _ i (MDone r) H env He).
    - intros j left_ e c I denv Hd. specialize (I denv Hd). unfold start_marks in *. destruct (get_disk_infos (without_fstab denv)) as [[f l]| | |]; [|subst c; reflexivity..]. destruct f; try (subst c; reflexivity). apply marks_step, I.
    - intros j c Hj denv Hd. rewrite nth_error_map, Hd in Hj. injection Hj as <-. apply start_marks_start. }
  unfold start_marks in P. destruct (get_disk_infos (without_fstab env)) as [[f l]| | |]; [|congruence..].
  destruct f; try (injection P as ->; left; exists l; split; [reflexivity|apply marked_refl]). exact P.
Qed.
Print Assumptions C114_only_marks.

(** * The identifiers *)
Lemma pc_id_alone m : generate_disk_pc_id m = pc_id_of_disks (get_disk_infos (hw_disks m)).
Proof. reflexivity. Qed.
Lemma marked_data d d' : same_or_marked d d' -> disk_data d' = disk_data d.
Proof. intros [->| ->]; reflexivity. Qed.
Lemma disks_data_in l : forall v, disks_data l = Ok v -> (forall d, In d l -> exists x, disk_data d = Ok x) /\ (forall y, In y v <-> exists d x, In d l /\ disk_data d = Ok x /\ In y x).
Proof.
  induction l as [|d l IH]; cbn [disks_data]; intros v H.
  - injection H as <-. split; [intros d []|]. intros y. split; [intros []|intros [d [x [[] _]]]].
  - destruct (disk_data d) as [x| | |] eqn:E; cbn [rbind] in H; try discriminate H. destruct (disks_data l) as [y| | |] eqn:E2; cbn [rbind] in H; try discriminate H. injection H as <-.
    destruct (IH y eq_refl) as [A B]. split; [intros d' [<-|I]; [eauto|exact (A d' I)]|]. intros z. rewrite in_app_iff, B. split.
    + intros [Z|[d' [x' [I [X Z]]]]]; [exists d, x|exists d', x']; (split; [|split; assumption]); [left; reflexivity|right; exact I].
    + intros [d' [x' [[<-|I] [X Z]]]]; [left; congruence|right; exists d', x'; auto].
Qed.
Lemma disks_data_ok l : (forall d, In d l -> exists x, disk_data d = Ok x) -> exists v, disks_data l = Ok v.
Proof.
  induction l as [|d l IH]; intros H; cbn [disks_data]; [eauto|]. destruct (H d (or_introl eq_refl)) as [x ->]. cbn [rbind]. destruct IH as [y ->]; [intros d' I; apply H; right; exact I|]. cbn [rbind]. eauto.
Qed.
Lemma marked_in l l' : Forall2 same_or_marked l l' -> (forall d', In d' l' -> exists d, In d l /\ same_or_marked d d') /\ (forall d, In d l -> exists d', In d' l' /\ same_or_marked d d').
Proof.
  induction 1 as [|d d' l l' M F [A B]]; [split; intros ? []|]. split; intros x [<-|I]; [exists d|destruct (A x I) as [y [Iy My]]; exists y|exists d'|destruct (B x I) as [y [Iy My]]; exists y]; (split; [|assumption]); try (left; reflexivity); right; assumption.
Qed.
Definition split_data (l : list disk) : res (list data7) :=
  pref <-- disks_data (filter dk_preferred l) ;; others <-- disks_data (filter (fun d => negb (dk_preferred d)) l) ;; Ok (pref ++ others).
Lemma split_data_in l v : split_data l = Ok v -> (forall d, In d l -> exists x, disk_data d = Ok x) /\ (forall y, In y v <-> exists d x, In d l /\ disk_data d = Ok x /\ In y x).
Proof.
  unfold split_data. intros H. destruct (disks_data (filter dk_preferred l)) as [p| | |] eqn:E; cbn [rbind] in H; try discriminate H. destruct (disks_data (filter (fun d => negb (dk_preferred d)) l)) as [o| | |] eqn:E2; cbn [rbind] in H; try discriminate H. injection H as <-.
  destruct (disks_data_in _ _ E) as [A B], (disks_data_in _ _ E2) as [A2 B2]. split.
  - intros d I. destruct (dk_preferred d) eqn:P; [apply A|apply A2]; apply filter_In; (split; [exact I|]); [exact P|rewrite P; reflexivity].
  - intros y. rewrite in_app_iff, B, B2. split.
    + intros [[d [x [I X]]]|[d [x [I X]]]]; apply filter_In in I as [I _]; eauto.
    + intros [d [x [I X]]]. destruct (dk_preferred d) eqn:P; [left|right]; exists d, x; (split; [apply filter_In; (split; [exact I|])|exact X]); [exact P|rewrite P; reflexivity].
Qed.
Lemma split_data_ok l : (forall d, In d l -> exists x, disk_data d = Ok x) -> exists v, split_data l = Ok v.
Proof.
  intros H. unfold split_data. destruct (disks_data_ok (filter dk_preferred l)) as [p ->]; [intros d I; apply filter_In in I as [I _]; exact (H d I)|].
  destruct (disks_data_ok (filter (fun d => negb (dk_preferred d)) l)) as [o ->]; [intros d I; apply filter_In in I as [I _]; exact (H d I)|]. cbn [rbind]. eauto.
Qed.
Definition verdict_of (v : list data7) : func_ret := match v with [] => FUNC_RET_NOT_AVAIL | _ => FUNC_RET_OK end.
Lemma pc_id_split l : pc_id_of_disks (Ok (FUNC_RET_OK, l)) = (v <-- split_data l ;; Ok (verdict_of v, v)).
Proof.
  unfold pc_id_of_disks, split_data. cbn [rbind]. destruct l as [|d l]; [reflexivity|]. destruct (disks_data (filter dk_preferred (d :: l))); cbn [rbind]; try reflexivity. destruct (disks_data _); reflexivity.
Qed.
(** Whatever the schedule, a call that returns leads to the same identifiers, if not in the same
    order: a check of a license against all identifiers of the disks has the same answer. *)
Theorem C114_same_identifiers envs schedule shared i m f l f0 v0 : nth_error envs i = Some (hw_disks m) ->
  generate_disk_pc_id m = Ok (f0, v0) ->
  nth_error (snd (mnt_run schedule shared (map mnt_start envs))) i = Some (MDone (Ok (f, l))) ->
  exists v, pc_id_of_disks (Ok (f, l)) = Ok (f0, v) /\ forall x, In x v <-> In x v0.
Proof.
  intros He G H. apply (C114_only_marks envs schedule shared i _ _ He) in H.
  rewrite pc_id_alone in G.
  assert (A : match get_disk_infos (without_fstab (hw_disks m)) with
    | Ok (f, l) => (exists l', get_disk_infos (hw_disks m) = Ok (f, l') /\ Forall2 same_or_marked l l') \/ get_disk_infos (hw_disks m) = Throw ExOutOfRange \/ get_disk_infos (hw_disks m) = Undef UbUninit
    | r' => get_disk_infos (hw_disks m) = r' end).
  { apply (C114_only_marks [hw_disks m] (repeat (0, []) (4 * entries_of (hw_disks m) + 1)) [] 0 (hw_disks m) _ eq_refl). cbn [map]. rewrite C114_alone; [reflexivity|].
    generalize (4 * entries_of (hw_disks m) + 1). induction n as [|n IHn]; cbn [repeat map fst count_occ]; [lia|]. destruct (Nat.eq_dec 0 0); [lia|congruence]. }
  destruct (get_disk_infos (without_fstab (hw_disks m))) as [[f1 l1]|e| |]; [|rewrite A in G; discriminate G..].
  destruct A as [[l0 [A F0]]|[A|A]]; rewrite A in G; try discriminate G. destruct H as [[l' [H F']]|[H|H]]; try discriminate H. injection H as <- <-.
  assert (OK : f = FUNC_RET_OK \/ pc_id_of_disks (Ok (f, l0)) = pc_id_of_disks (Ok (f, l))) by (destruct f; auto).
  destruct OK as [->|E]; [|rewrite <- E, G; exists v0; split; [reflexivity|tauto]].
  rewrite pc_id_split in G. destruct (split_data l0) as [w| | |] eqn:E; cbn [rbind] in G; try discriminate G. injection G as <- ->.
  destruct (split_data_in l0 v0 E) as [S1 S2]. destruct (marked_in _ _ F0) as [U1 U2], (marked_in _ _ F') as [V1 V2].
  assert (D : forall d', In d' l -> exists d, In d l0 /\ disk_data d' = disk_data d).
  { intros d' I. destruct (V1 d' I) as [b [Ib Mb]]. destruct (U2 b Ib) as [d [Id Md]]. exists d. split; [exact Id|]. rewrite (marked_data _ _ Mb), (marked_data _ _ Md). reflexivity. }
  assert (D2 : forall d, In d l0 -> exists d', In d' l /\ disk_data d' = disk_data d).
  { intros d I. destruct (U1 d I) as [b [Ib Mb]]. destruct (V2 b Ib) as [d' [Id Md]]. exists d'. split; [exact Id|]. rewrite (marked_data _ _ Mb), (marked_data _ _ Md). reflexivity. }
  destruct (split_data_ok l) as [v Ev]. { intros d' I. destruct (D d' I) as [d [Id Ed]]. rewrite Ed. exact (S1 d Id). }
  destruct (split_data_in l v Ev) as [_ T2]. assert (Q : forall x, In x v <-> In x v0).
  { intros x. rewrite T2, S2. split.
    - intros [d' [y [I [Y X]]]]. destruct (D d' I) as [d [Id Ed]]. exists d, y. rewrite <- Ed. auto.
    - intros [d [y [I [Y X]]]]. destruct (D2 d I) as [d' [Id Ed]]. exists d', y. rewrite Ed. auto. }
  exists v. split; [|exact Q]. rewrite pc_id_split, Ev. cbn [rbind]. destruct v as [|a v], v0 as [|b v0]; try reflexivity; exfalso; [apply (Q b); left; reflexivity|apply (Q a); left; reflexivity].
Qed.
Print Assumptions C114_same_identifiers.

(** * What can go wrong *)
Definition sda_sdb (fstab : list bytes) : disk_env :=
  {| de_by_uuid := Some [ {| de_name := bs "11223344-55667788"; de_ino := Some 7%Z; de_link := Some (bs "../../sda1") |};
                          {| de_name := bs "99AABBCC-DDEEFF00"; de_ino := Some 8%Z; de_link := Some (bs "../../sdb1") |} ];
     de_by_label := None; de_by_partlabel := None; de_blkid := []; de_fstab := Some fstab |}.
Definition steps (l : list nat) : list (nat * bytes) := map (fun i => (i, [])) l.
(** Two threads that call getDiskInfos race from the start. *)
Theorem C114_race_refuted : ~ (forall envs schedule shared, ~ mnt_race (snd (mnt_run schedule shared (map mnt_start envs)))).
Proof.
  intros H. apply (H [sda_sdb [bs "proc"]; sda_sdb [bs "proc"]] [] []). cbn [mnt_run snd]. exists 0, 1.
  eexists. eexists. split; [discriminate|]. split; [reflexivity|]. split; [reflexivity|].
  assert (F : fetching (mnt_start (sda_sdb [bs "proc"]))) by (unfold fetching; vm_compute; eauto). split; [exact F|left; exact F].
Qed.
Print Assumptions C114_race_refuted.
(** Even if the accesses are taken to be atomic: alone both calls succeed; together, one has copied
    "proc" when the other puts "UUID=..." into the object, and then takes characters from the sixth on of
    "proc": std::out_of_range, which nothing in the library catches. *)
Theorem C114_throws_refuted : ~ (forall envs schedule shared i env f l r, nth_error envs i = Some env -> get_disk_infos env = Ok (f, l) ->
  nth_error (snd (mnt_run schedule shared (map mnt_start envs))) i = Some (MDone r) -> exists l', r = Ok (f, l')).
Proof.
  intros H. set (env := sda_sdb [bs "proc"; bs "UUID=99AABBCC-DDEEFF00"]).
  destruct (get_disk_infos env) as [[f l]| | |] eqn:E; [|discriminate (eq_trans (eq_sym E) eq_refl)..].
  destruct (H [env; env] (steps [0; 0; 1; 1; 1; 1; 1; 0]) [] 0 env f l (Throw ExOutOfRange) eq_refl E) as [l' X]; [vm_compute; reflexivity|discriminate X].
Qed.
Print Assumptions C114_throws_refuted.
(** ... and one can miss the line that marks the second disk: the first identifier, the one that
    identify_pc shows, is that of the other disk. *)
Theorem C114_first_identifier_refuted : ~ (forall envs schedule shared i m f l v0, nth_error envs i = Some (hw_disks m) -> generate_disk_pc_id m = Ok (FUNC_RET_OK, v0) ->
  nth_error (snd (mnt_run schedule shared (map mnt_start envs))) i = Some (MDone (Ok (f, l))) ->
  exists v, pc_id_of_disks (Ok (f, l)) = Ok (FUNC_RET_OK, v) /\ hd_error v = hd_error v0).
Proof.
  intros H. set (env := sda_sdb [bs "UUID=99AABBCC-DDEEFF00"; bs "none"]).
  set (m := {| hw_ifaddrs := None; hw_order := fun l => l; hw_disks := env; hw_exec := no_files |}).
  set (sched := steps [0; 1; 1; 1; 1; 0; 0; 0; 0; 0; 0; 0; 0]).
  specialize (H [env; env] sched [] 0 m).
  destruct (generate_disk_pc_id m) as [[f0 v0]| | |] eqn:G; [|discriminate (eq_trans (eq_sym G) eq_refl)..].
  destruct (nth_error (snd (mnt_run sched [] (map mnt_start [env; env]))) 0) as [[| | | |[[f l]| | |]]|] eqn:E; try (vm_compute in E; discriminate E).
  vm_compute in G. injection G as <- <-. vm_compute in E. injection E as <- <-.
  edestruct H as [v [A B]]; [reflexivity|reflexivity|reflexivity|]. vm_compute in A. injection A as <-. discriminate B.
Qed.
Print Assumptions C114_first_identifier_refuted.

(** * Cases *)
(** two threads taking turns, in the first of which a disk is marked *)
Example C114_case : let env := sda_sdb [bs "proc"; bs "UUID=99AABBCC-DDEEFF00"] in
  let blocks := [(1, repeat [] 9); (0, repeat [] 9)] in
  snd (mnt_run (turns blocks) [] (map mnt_start [env; env])) = [MDone (get_disk_infos env); MDone (get_disk_infos env)] /\
  exists d1 d2, get_disk_infos env = Ok (FUNC_RET_OK, [d1; d2]) /\ dk_preferred d1 = false /\ dk_preferred d2 = true.
Proof. cbv zeta. refine (conj _ _); [vm_compute; reflexivity|]. do 2 eexists. refine (conj _ (conj _ _)); vm_compute; reflexivity. Qed.
