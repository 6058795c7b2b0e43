(** Calls of identify_pc by several threads (C100). *)
From Verif Require Import Base CTypes StringUtils HwId ExecEnv Disks Strategies Locate Licensecc IdThreads.
From Verif Require Import P_Base Spec_Strings Spec_Hw P_Hw2 Spec_Exec P_Exec P_Exec2 Prop_Hw Prop_Exec Spec_IdThreads.
From Coq Require Import Lia.

(** * The invariant *)
Definition told_env (e : exec_env) (c : id_args) : option exec_info := if ia_info c then Some (info_of e) else None.
Definition settled (env : option bytes) (m : nat -> machine) (k : nat) (gd : guard) (x : id_finished) : Prop :=
  exists r e, gd = Built e /\ k < idf_until x /\ identified env m (idf_call x) (idf_from x) (idf_until x) r /\ idf_result x = Ok (r, told_env e (idf_call x)).
Definition at_phase (env : option bytes) (m : nat -> machine) (k g i : nat) (gd : guard) (now : option (id_args * nat * phase)) : Prop :=
  match now with
  | None => True
  | Some (c, from, AtStart) => from < g
  | Some (c, from, AtGuard r) => identified env m c from g r
  | Some (c, from, Constructing r) => identified env m c from g r /\ gd = Building i
  | Some (c, from, AtEnd r) => identified env m c from g r /\ k < g /\ exists e, gd = Built e
  end.
Record tinv (env : option bytes) (m : nat -> machine) (k g i : nat) (gd : guard) (cs : list id_args) (th : id_thread) : Prop := {
  ti_done : Forall (settled env m k gd) (it_done th);
  ti_calls : map idf_call (it_done th) ++ at_hand th ++ it_todo th = cs;
  ti_now : at_phase env m k g i gd (it_now th) }.
Definition constructing (th : id_thread) : Prop := exists c from r, it_now th = Some (c, from, Constructing r).
Record pinv (env : option bytes) (m : nat -> machine) (g0 k g : nat) (gd : guard) (calls : list (list id_args)) (pool : list id_thread) : Prop := {
  pi_built : forall e, gd = Built e -> g0 <= k < g /\ make_exec_env (hw_exec (m k)) = Ok e;
  pi_builder : forall i, gd = Building i -> exists th, nth_error pool i = Some th /\ constructing th;
  pi_count : length pool = length calls;
  pi_each : forall i th, nth_error pool i = Some th -> exists cs, nth_error calls i = Some cs /\ tinv env m k g i gd cs th }.

Lemma identified_later env m c from g g' r : identified env m c from g r -> g <= g' -> identified env m c from g' r.
Proof. intros [j [A B]] L. exists j. split; [lia|exact B]. Qed.
Lemma settled_stays env m k gd k' gd' x : (forall e, gd = Built e -> gd' = gd /\ k' = k) -> settled env m k gd x -> settled env m k' gd' x.
Proof. intros H [r [e [A B]]]. destruct (H e A) as [-> ->]. exists r, e. auto. Qed.
Lemma phase_stays env m k g i gd k' g' gd' now : (forall e, gd = Built e -> gd' = gd /\ k' = k) -> (gd = Building i -> gd' = gd) -> g <= g' ->
  at_phase env m k g i gd now -> at_phase env m k' g' i gd' now.
Proof.
  intros H H' L. destruct now as [[[c from] [|r|r|r]]|]; cbn [at_phase]; [lia|intros X; eapply identified_later; eassumption| | |auto].
  - intros [X Y]. split; [eapply identified_later; eassumption|]. rewrite (H' Y). exact Y.
  - intros [X [Y [e Z]]]. destruct (H e Z) as [-> ->]. split; [eapply identified_later; eassumption|]. split; [lia|eauto].
Qed.
Lemma tinv_stays env m k g i gd k' g' gd' cs th : (forall e, gd = Built e -> gd' = gd /\ k' = k) -> (gd = Building i -> gd' = gd) -> g <= g' ->
  tinv env m k g i gd cs th -> tinv env m k' g' i gd' cs th.
Proof.
  intros H H' L [A B C]. constructor; [eapply Forall_impl; [|exact A]; intros x; apply settled_stays, H|exact B|eapply phase_stays; eassumption].
Qed.
Lemma put_nth {A} (l : list A) i x j : nth_error (put l i x) j = if Nat.eqb i j then match nth_error l i with Some _ => Some x | None => None end else nth_error l j.
Proof. revert i j. induction l as [|a l IH]; intros [|i] [|j]; cbn; try reflexivity; [destruct (i =? j); reflexivity|apply IH]. Qed.
Lemma put_length {A} (l : list A) i x : length (put l i x) = length l.
Proof. revert i. induction l as [|a l IH]; intros [|i]; cbn; auto. Qed.
Lemma copy_never_throws n dst src z : mstrlcpy_go n dst src <> Throw z.
Proof.
  revert dst src. induction n as [|n IH]; intros dst src; cbn [mstrlcpy_go].
  - destruct dst; discriminate.
  - destruct src as [|c src]; [discriminate|]. destruct (Ascii.eqb c NUL); [destruct dst; discriminate|]. destruct dst as [|x dst]; [discriminate|]. specialize (IH dst src). destruct (mstrlcpy_go n dst src) as [[d r]|e| |]; cbn [rbind]; try discriminate. congruence.
Qed.
Lemma never_throws env m c z : identify_buffer env m (ia_method c) (ia_buf c) (ia_size c) <> Throw z.
Proof.
  unfold identify_buffer. destruct (ia_buf c) as [b|]; [|discriminate]. destruct (PC_IDENTIFIER_SIZE <? ia_size c) eqn:L; [|discriminate]. destruct (generate_user_pc_signature env m (ia_method c)) as [pc| | |]; try discriminate.
  unfold mstrlcpy. destruct (ia_size c) as [|n]; [discriminate|]. pose proof (copy_never_throws n b (c_str pc)) as H. destruct (mstrlcpy_go n b (c_str pc)) as [[d r]|e| |]; cbn [rbind]; try discriminate. destruct (H e eq_refl).
Qed.
Lemma env_never_throws x z : make_exec_env x <> Throw z.
Proof.
  assert (O : forall r z, or_empty r <> Throw z) by (intros [| | |]; discriminate). unfold make_exec_env, read_dmi.
  intros H. repeat match type of H with context [or_empty ?r] => let E := fresh "E" in destruct (or_empty r) eqn:E; cbn [rbind] in H; try discriminate H; try (injection H as ->; destruct (O _ _ E)) end.
Qed.

(** ** One step *)
Lemma step_pool env m g0 k g gd calls pool i th gd' th' : pinv env m g0 k g gd calls pool -> g0 <= g -> nth_error pool i = Some th ->
  id_advance env m i g gd th = Some (gd', th') -> exists k', pinv env m g0 k' (S g) gd' calls (put pool i th').
Proof.
  intros [PB PW PC PE] G0 E H. destruct (PE i th E) as [cs [Ec TI]].
  assert (KEEP : forall k', (forall e, gd = Built e -> gd' = gd /\ k' = k) -> (forall j, j <> i -> gd = Building j -> gd' = gd) -> tinv env m k' (S g) i gd' cs th' ->
    (forall e, gd' = Built e -> g0 <= k' < S g /\ make_exec_env (hw_exec (m k')) = Ok e) -> (forall j, gd' = Building j -> (j = i /\ constructing th') \/ (j <> i /\ gd = Building j)) ->
    exists k', pinv env m g0 k' (S g) gd' calls (put pool i th')).
  { intros k' K1 K2 K3 K4 K5. exists k'. constructor; [exact K4| |rewrite put_length; exact PC|].
    - intros j Hj. destruct (K5 j Hj) as [[-> X]|[N X]].
      + exists th'. rewrite put_nth, Nat.eqb_refl, E. auto.
      + destruct (PW j X) as [th0 [A B]]. exists th0. rewrite put_nth. destruct (Nat.eqb_spec i j); [congruence|]. auto.
    - intros j x. rewrite put_nth. destruct (Nat.eqb_spec i j) as [<-|N].
      + rewrite E. intros [= <-]. eauto.
      + intros X. destruct (PE j x X) as [cj [A B]]. exists cj. split; [exact A|]. eapply tinv_stays; [exact K1|intros Y; apply (K2 j); [congruence|exact Y]| |exact B]. lia. }
  destruct TI as [TD TC TN]. unfold id_advance in H. destruct th as [dn nw td]. cbn [it_done it_now it_todo at_hand] in *.
  assert (BU : forall e, gd = Built e -> g0 <= k < S g /\ make_exec_env (hw_exec (m k)) = Ok e) by (intros e X; destruct (PB e X); split; [lia|assumption]).
  assert (SAME : gd' = gd -> (forall e, gd = Built e -> gd' = gd /\ k = k) /\ (forall j, j <> i -> gd = Building j -> gd' = gd) /\ (forall e, gd' = Built e -> g0 <= k < S g /\ make_exec_env (hw_exec (m k)) = Ok e)) by (intros ->; auto).
  assert (FRE : forall now, nw = now -> (forall c from r, now <> Some (c, from, Constructing r)) -> gd <> Building i).
  { intros now <- N X. destruct (PW i X) as [th0 [A [c [from [r B]]]]]. rewrite E in A. injection A as <-. apply (N c from r B). }
  assert (OTHER : gd' = gd -> gd <> Building i -> forall j, gd' = Building j -> (j = i /\ constructing th') \/ (j <> i /\ gd = Building j)) by (intros -> N j X; right; split; congruence).
  destruct nw as [[[c from] [|r|r|r]]|]; cbn [at_phase] in TN.
  - destruct (identify_buffer _ _ _ _ _) as [r|z| |] eqn:B; [|destruct (never_throws _ _ _ _ B)|discriminate H|discriminate H]. injection H as <- <-. destruct (SAME eq_refl) as [S1 [S2 S3]].
    apply (KEEP k S1 S2); [|exact S3|apply (OTHER eq_refl), (FRE _ eq_refl); intros ? ? ? X0; discriminate X0]. constructor; cbn [it_done it_now it_todo at_hand at_phase in_phase]; [exact TD|exact TC|]. exists g. split; [lia|exact B].
  - destruct gd as [|j|e]; injection H as <- <-.
    + apply (KEEP k); [intros ? X0; discriminate X0|intros ? ? X0; discriminate X0| |intros ? X0; discriminate X0|].
      * constructor; cbn [it_done it_now it_todo at_hand at_phase in_phase]; [|exact TC|split; [eapply identified_later; [exact TN|lia]|reflexivity]].
        eapply Forall_impl; [|exact TD]. intros x. apply settled_stays. discriminate.
      * intros j [= <-]. left. split; [reflexivity|]. exists c, from, r. reflexivity.
    + destruct (SAME eq_refl) as [S1 [S2 S3]]. apply (KEEP k S1 S2); [|exact S3|apply (OTHER eq_refl), (FRE _ eq_refl); intros ? ? ? X0; discriminate X0]. constructor; [exact TD|exact TC|]. cbn [it_now at_phase]. eapply identified_later; [exact TN|lia].
    + destruct (SAME eq_refl) as [S1 [S2 S3]]. apply (KEEP k S1 S2); [|exact S3|intros ? X0; discriminate X0]. constructor; cbn [it_done it_now it_todo at_hand at_phase in_phase]; [exact TD|exact TC|]. split; [eapply identified_later; [exact TN|lia]|]. split; [destruct (PB e eq_refl); lia|eauto].
  - destruct TN as [TN ->]. destruct (make_exec_env (hw_exec (m g))) as [e|z| |] eqn:B; [|destruct (env_never_throws _ _ B)|discriminate H|discriminate H]. injection H as <- <-.
    apply (KEEP g); [intros ? X0; discriminate X0|intros ? ? X0; congruence| |intros e' [= <-]; split; [lia|exact B]|intros ? X0; discriminate X0].
    constructor; cbn [it_done it_now it_todo at_hand at_phase in_phase]; [|exact TC|split; [eapply identified_later; [exact TN|lia]|split; [lia|eauto]]].
    eapply Forall_impl; [|exact TD]. intros x. apply settled_stays. discriminate.
  - destruct TN as [TN [Lk [e ->]]]. injection H as <- <-. destruct (SAME eq_refl) as [S1 [S2 S3]]. apply (KEEP k S1 S2); [|exact S3|intros ? X0; discriminate X0]. constructor; cbn [it_done it_now it_todo at_hand at_phase over].
    + apply Forall_app. split; [exact TD|]. constructor; [|constructor]. exists r, e. cbn [idf_call idf_from idf_until idf_result]. split; [reflexivity|]. split; [exact Lk|]. split; [exact TN|]. reflexivity.
    + rewrite <- TC, map_app, <- app_assoc. reflexivity.
    + exact I.
  - assert (N : gd <> Building i) by (apply (FRE _ eq_refl); intros ? ? ? X0; discriminate X0). destruct td as [|c cs0]; injection H as <- <-; destruct (SAME eq_refl) as [S1 [S2 S3]]; (apply (KEEP k S1 S2); [|exact S3|apply (OTHER eq_refl N)]).
    + constructor; [exact TD|exact TC|exact I].
    + constructor; cbn [it_done it_now it_todo at_hand at_phase]; [exact TD|exact TC|lia].
Qed.
Lemma pinv_later env m g0 k g gd calls pool : pinv env m g0 k g gd calls pool -> pinv env m g0 k (S g) gd calls pool.
Proof.
  intros [PB PW PC PE]. constructor; [intros e X; destruct (PB e X); split; [lia|assumption]|exact PW|exact PC|].
  intros i th E. destruct (PE i th E) as [cs [A B]]. exists cs. split; [exact A|]. eapply tinv_stays; [| | |exact B]; auto.
Qed.
Lemma run_pool env m g0 schedule : forall k g gd calls pool gd' pool', pinv env m g0 k g gd calls pool -> g0 <= g -> id_interleave env m g schedule gd pool = Some (gd', pool') ->
  exists k', pinv env m g0 k' (g + length schedule) gd' calls pool'.
Proof.
  induction schedule as [|i schedule IH]; intros k g gd calls pool gd' pool' P G H; cbn [id_interleave length] in *; [injection H as <- <-; exists k; rewrite Nat.add_0_r; exact P|]. rewrite Nat.add_succ_r, <- Nat.add_succ_l.
  destruct (nth_error pool i) as [th|] eqn:E; [|refine (IH _ _ _ _ _ _ _ (pinv_later _ _ _ _ _ _ _ _ P) _ H); lia]. destruct (id_advance env m i g gd th) as [[gd1 th1]|] eqn:A; [|discriminate].
  destruct (step_pool _ _ _ _ _ _ _ _ _ _ _ _ P G E A) as [k1 P1]. refine (IH _ _ _ _ _ _ _ P1 _ H). lia.
Qed.
Lemma pinv_fresh env m g calls : pinv env m g 0 g Unbuilt calls (map id_fresh calls).
Proof.
  constructor; [discriminate|discriminate|apply map_length|]. intros i th E. rewrite nth_error_map in E. destruct (nth_error calls i) as [cs|] eqn:F; [|discriminate]. injection E as <-. exists cs. split; [reflexivity|]. constructor; [constructor|reflexivity|exact I].
Qed.

(** * C100 *)
Section RUN.
Variables (env : option bytes) (m : nat -> machine) (g : nat) (schedule : list nat) (calls : list (list id_args)) (gd : guard) (pool : list id_thread).
Hypothesis RUN : id_interleave env m g schedule (fst (id_process calls)) (snd (id_process calls)) = Some (gd, pool).
Lemma id_reached : exists k, pinv env m g k (g + length schedule) gd calls pool.
Proof. eapply run_pool; [apply pinv_fresh|apply le_n|exact RUN]. Qed.
(** Whatever the schedule, all calls of a process that are over, in whichever threads, were told
    about one environment, the one that was found at one instant, and no call returned before
    that; each got the identifier as it was at some instant during the call. *)
Theorem C100_one_environment : exists k, g <= k /\ forall i th x, nth_error pool i = Some th -> In x (it_done th) ->
  exists r e, make_exec_env (hw_exec (m k)) = Ok e /\ k < idf_until x /\ identified env m (idf_call x) (idf_from x) (idf_until x) r /\
    idf_result x = Ok (r, if ia_info (idf_call x) then Some (info_of e) else None).
Proof.
  destruct id_reached as [k [PB _ _ PE]]. destruct gd as [|b|e].
  1,2: exists g; split; [apply le_n|]; intros i th x E I; destruct (PE i th E) as [cs [_ [TD _ _]]]; rewrite Forall_forall in TD; destruct (TD x I) as [r [e [X _]]]; discriminate X.
  destruct (PB e eq_refl) as [[K1 K2] K3]. exists k. split; [exact K1|]. intros i th x E I. destruct (PE i th E) as [cs [_ [TD _ _]]]. rewrite Forall_forall in TD. destruct (TD x I) as [r [e' [[= <-] [B [C D]]]]]. exists r, e. auto.
Qed.
(** ... in the terms of C54 and C61 *)
Theorem C100_found : (forall j, hash_orders (hw_exec (m j))) -> exists k, forall i th x y, nth_error pool i = Some th -> In x (it_done th) -> ia_info (idf_call x) = true ->
  idf_result x = Ok y -> exists info, snd y = Some info /\ cloud_found (hw_exec (m k)) (xi_cloud info) /\ detail_found (hw_exec (m k)) (xi_detail info) /\ summary_found (hw_exec (m k)) (xi_virt info).
Proof.
  intros O. destruct C100_one_environment as [k [_ H]]. exists k. intros i th x y E I W R. destruct (H i th x E I) as [r [e [A [_ [_ B]]]]]. rewrite W, R in B. injection B as ->. exists (info_of e). split; [reflexivity|].
  unfold info_of. cbn [xi_cloud xi_detail xi_virt]. split; [apply (cloud_spec _ _ _ A); reflexivity|]. split; [apply detail_sound; [apply O|exact A]|apply summary_is; [apply O|exact A]].
Qed.
(** Every thread makes its calls, in their order. *)
Theorem C100_order i th : nth_error pool i = Some th -> exists cs, nth_error calls i = Some cs /\ map idf_call (it_done th) ++ at_hand th ++ it_todo th = cs.
Proof. destruct id_reached as [k [_ _ _ PE]]. intros E. destruct (PE i th E) as [cs [A [_ B _]]]. eauto. Qed.
(** If the machine does not change the result of a call is the one it has alone. *)
Theorem C100_independent i th x : (forall j, m j = m g) -> nth_error pool i = Some th -> In x (it_done th) ->
  idf_result x = identify_pc env (m g) (ia_method (idf_call x)) (ia_buf (idf_call x)) (ia_size (idf_call x)) (ia_info (idf_call x)).
Proof.
  intros HM E I. destruct C100_one_environment as [k [_ H]]. destruct (H i th x E I) as [r [e [A [_ [[j [_ B]] ->]]]]]. rewrite (HM k) in A. rewrite (HM j) in B. rewrite identify_pc_eq, B. destruct r as [[r b] s]. cbn [rbind]. rewrite A. reflexivity.
Qed.
(** No deadlock: as long as a thread has something to do there is one that gets on with its
    work when it is scheduled. [to_do th]: the steps it still has to make. *)
Theorem C100_no_deadlock i th : nth_error pool i = Some th -> to_do th <> 0 ->
  exists j th', nth_error pool j = Some th' /\ forall h, id_advance env m j h gd th' = None \/ exists gd' th2, id_advance env m j h gd th' = Some (gd', th2) /\ to_do th2 < to_do th'.
Proof.
  intros E L. destruct id_reached as [k [PB PW _ PE]].
  assert (GO : forall j x, nth_error pool j = Some x -> to_do x <> 0 -> (forall b, gd = Building b -> constructing x) -> forall h, id_advance env m j h gd x = None \/ exists gd' th2, id_advance env m j h gd x = Some (gd', th2) /\ to_do th2 < to_do x).
  { intros j [dn nw td] Ej Lj NB h. unfold id_advance, to_do in *. cbn [it_now it_todo it_done] in *. destruct nw as [[[c from] [|r|r|r]]|]; cbn [phase_left] in *.
    - destruct (identify_buffer _ _ _ _ _); [right|right|left; reflexivity|left; reflexivity]; do 2 eexists; (split; [reflexivity|cbn; lia]).
    - right. destruct gd as [|b|e]; [do 2 eexists; split; [reflexivity|cbn; lia]| |do 2 eexists; split; [reflexivity|cbn; lia]]. destruct (NB b eq_refl) as [c0 [f0 [r0 X]]]. discriminate X.
    - destruct (make_exec_env (hw_exec (m h))); [right|right|left; reflexivity|left; reflexivity]; do 2 eexists; (split; [reflexivity|cbn; lia]).
    - destruct gd as [|b|e]; [left; reflexivity|left; reflexivity|right]. do 2 eexists. split; [reflexivity|cbn; lia].
    - destruct td as [|c td]; [cbn in Lj; lia|]. right. do 2 eexists. split; [reflexivity|cbn; lia]. }
  destruct gd as [|b|e] eqn:G.
  - exists i, th. split; [exact E|]. apply GO; [exact E|exact L|]. intros b X. discriminate X.
  - destruct (PW b eq_refl) as [x [A B]]. exists b, x. split; [exact A|]. apply GO; [exact A| |intros; exact B]. destruct B as [c [from [r B]]]. unfold to_do. rewrite B. cbn. lia.
  - exists i, th. split; [exact E|]. apply GO; [exact E|exact L|]. intros b X. discriminate X.
Qed.
End RUN.
Print Assumptions C100_one_environment.
Print Assumptions C100_found.
Print Assumptions C100_order.
Print Assumptions C100_independent.
Print Assumptions C100_no_deadlock.
(** No undefined behaviour beyond that of a call made alone at one of these instants: in
    particular exec_env is never read before it is constructed. *)
Lemma fault_step env m g0 k g gd calls pool i th : pinv env m g0 k g gd calls pool -> nth_error pool i = Some th -> id_advance env m i g gd th = None ->
  exists cs c, nth_error calls i = Some cs /\ In c cs /\ fails_alone env (m g) c.
Proof.
  intros [PB PW PC PE] E H. destruct (PE i th E) as [cs [Ec [_ TC TN]]]. exists cs. unfold id_advance in H. unfold at_hand in TC. destruct (it_now th) as [[[c from] p]|]; [|destruct (it_todo th); discriminate].
  exists c. split; [exact Ec|]. split; [rewrite <- TC; apply in_or_app; right; left; reflexivity|]. intros y. rewrite identify_pc_eq. cbn [at_phase] in TN. destruct p as [|r|r|r]; cbn [at_phase] in TN.
  - destruct (identify_buffer env (m g) (ia_method c) (ia_buf c) (ia_size c)); cbn [rbind]; congruence.
  - destruct gd; discriminate.
  - destruct (identify_buffer env (m g) (ia_method c) (ia_buf c) (ia_size c)) as [[[a b] d]| | |]; cbn [rbind]; try discriminate. destruct (make_exec_env (hw_exec (m g))); cbn [rbind]; congruence.
  - destruct TN as [_ [_ [e ->]]]. discriminate.
Qed.
Lemma fault_run env m g0 calls schedule : forall h k gd pool, g0 <= h -> pinv env m g0 k h gd calls pool -> id_interleave env m h schedule gd pool = None ->
  exists j cs c, h <= j < h + length schedule /\ In cs calls /\ In c cs /\ fails_alone env (m j) c.
Proof.
  induction schedule as [|i schedule IH]; intros h k gd pool G P H; cbn [id_interleave length] in *; [discriminate|].
  destruct (nth_error pool i) as [th|] eqn:E.
  - destruct (id_advance env m i h gd th) as [[gd' th']|] eqn:A.
    + destruct (step_pool _ _ _ _ _ _ _ _ _ _ _ _ P G E A) as [k' P']. destruct (IH (S h) _ _ _ ltac:(lia) P' H) as [j [cs [c [X Y]]]]. exists j, cs, c. split; [lia|exact Y].
    + destruct (fault_step _ _ _ _ _ _ _ _ _ _ P E A) as [cs [c [X [Y Z]]]]. exists h, cs, c. split; [lia|]. split; [eapply nth_error_In, X|auto].
  - destruct (IH (S h) _ _ _ ltac:(lia) (pinv_later _ _ _ _ _ _ _ _ P) H) as [j [cs [c [X Y]]]]. exists j, cs, c. split; [lia|exact Y].
Qed.
Theorem C100_no_new_faults env m g schedule calls :
  id_interleave env m g schedule (fst (id_process calls)) (snd (id_process calls)) = None ->
  exists j cs c, g <= j < g + length schedule /\ In cs calls /\ In c cs /\ fails_alone env (m j) c.
Proof. exact (fault_run env m g calls schedule g 0 Unbuilt _ (le_n g) (pinv_fresh env m g calls)). Qed.
Print Assumptions C100_no_new_faults.

(** All calls can always be brought to an end, if none of them fails alone. *)
Lemma to_do_put (pool : list id_thread) i th th' : nth_error pool i = Some th -> to_do th' < to_do th -> list_sum (map to_do (put pool i th')) < list_sum (map to_do pool).
Proof. revert i. induction pool as [|a pool IH]; intros [|i] E L; cbn in *; try discriminate; [injection E as ->; lia|]. specialize (IH i E L). unfold list_sum in IH. lia. Qed.
Lemma id_append env m s1 : forall g s2 gd pool gd' pool', id_interleave env m g s1 gd pool = Some (gd', pool') -> id_interleave env m g (s1 ++ s2) gd pool = id_interleave env m (g + length s1) s2 gd' pool'.
Proof.
  induction s1 as [|i s1 IH]; intros g s2 gd pool gd' pool' H; cbn [id_interleave app length] in *; [injection H as <- <-; rewrite Nat.add_0_r; reflexivity|]. rewrite Nat.add_succ_r, <- Nat.add_succ_l.
  destruct (nth_error pool i) as [th|]; [|apply IH, H]. destruct (id_advance env m i g gd th) as [[gd1 th1]|]; [|discriminate]. apply IH, H.
Qed.
Theorem C100_can_finish env m g schedule calls gd pool :
  id_interleave env m g schedule (fst (id_process calls)) (snd (id_process calls)) = Some (gd, pool) ->
  (forall j cs c, In cs calls -> In c cs -> ~ fails_alone env (m j) c) ->
  exists rest gd' pool', id_interleave env m g (schedule ++ rest) (fst (id_process calls)) (snd (id_process calls)) = Some (gd', pool') /\
    length pool' = length calls /\ forall i th cs, nth_error pool' i = Some th -> nth_error calls i = Some cs -> map idf_call (it_done th) = cs.
Proof.
  intros H OKAY. remember (list_sum (map to_do pool)) as n eqn:En. revert schedule gd pool H En. induction n as [n IH] using (well_founded_induction Wf_nat.lt_wf). intros schedule gd pool H ->.
  destruct (forallb (fun th => Nat.eqb (to_do th) 0) pool) eqn:A.
  - exists [], gd, pool. rewrite app_nil_r. split; [exact H|]. destruct (id_reached _ _ _ _ _ _ _ H) as [k [_ _ PC PE]]. split; [exact PC|]. intros i th cs E Ec. destruct (PE i th E) as [cs' [Ec' [_ TC _]]]. rewrite Ec in Ec'. injection Ec' as <-.
    rewrite forallb_forall in A. specialize (A th (nth_error_In _ _ E)). apply Nat.eqb_eq in A. unfold to_do in A. unfold at_hand in TC. destruct (it_now th) as [[[c f] p]|]; [destruct p; cbn in A; lia|]. destruct (it_todo th); [|cbn in A; lia]. cbn [app] in TC. rewrite app_nil_r in TC. exact TC.
  - assert (X : exists th, In th pool /\ to_do th <> 0). { clear -A. induction pool as [|a pool IHp]; [discriminate|]. cbn [forallb] in A. destruct (Nat.eqb_spec (to_do a) 0) as [Z|Z]; [destruct (IHp A) as [th [I L]]; exists th; split; [right; exact I|exact L]|exists a; split; [left; reflexivity|exact Z]]. }
    destruct X as [th [I L]]. apply In_nth_error in I as [i E]. destruct (C100_no_deadlock _ _ _ _ _ _ _ H i th E L) as [j [x [Ej GO]]].
    destruct (GO (g + length schedule)) as [F|[gd' [x' [F Lx]]]].
    + exfalso. destruct (id_reached _ _ _ _ _ _ _ H) as [k P]. destruct (fault_step _ _ _ _ _ _ _ _ _ _ P Ej F) as [cs [c [X [Y Z]]]]. exact (OKAY _ cs c (nth_error_In _ _ X) Y Z).
    + destruct (IH _ (to_do_put _ _ _ _ Ej Lx) (schedule ++ [j]) gd' (put pool j x')) as [rest R].
      * rewrite (id_append _ _ _ _ _ _ _ _ _ H). cbn [id_interleave]. rewrite Ej, F. reflexivity.
      * reflexivity.
      * exists (j :: rest). rewrite <- app_assoc in R. exact R.
Qed.
Print Assumptions C100_can_finish.
(** Two threads ask at the same time while the machine is moved from one cloud to another: both
    are told about the same one, the one that thread 1 found while thread 0 waited. *)
Definition moving (j : nat) : machine := if j <? 8 then exec_machine (kvm_files (fun l => l) "AWS x" None) else exec_machine (kvm_files (fun l => l) "DELL" None).
Definition asking_pc : id_args := {| ia_method := 0; ia_buf := None; ia_size := 0; ia_info := true |}.
Example C100_case : exists pool gd a b c, id_interleave None moving 0 [0; 0; 1; 1; 1; 0; 0; 1; 0; 0; 1; 1; 1; 1; 1] (fst (id_process [[asking_pc]; [asking_pc; asking_pc]])) (snd (id_process [[asking_pc]; [asking_pc; asking_pc]])) = Some (gd, pool) /\
  map (fun th => map idf_result (it_done th)) pool = [[Ok (false, None, 20, Some a)]; [Ok (false, None, 20, Some b); Ok (false, None, 20, Some c)]] /\ xi_cloud a = AWS /\ b = a /\ c = a.
Proof. do 5 eexists. split; [vm_compute; reflexivity|]. split; [vm_compute; reflexivity|]. repeat split. Qed.
Example C100_case_fine : forall j cs c, In cs [[asking_pc]; [asking_pc; asking_pc]] -> In c cs -> ~ fails_alone None (moving j) c.
Proof.
  intros j cs c I J H. assert (c = asking_pc) as -> by (cbn in I; repeat (destruct I as [<-|I]; [cbn in J; intuition congruence|]); destruct I). unfold moving in H. destruct (j <? 8); eapply H; vm_compute; reflexivity.
Qed.
