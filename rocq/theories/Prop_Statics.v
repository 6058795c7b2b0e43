(** The static objects of the library, one thread or several (C101). *)
From Verif Require Import Base Statics Spec_Statics.
From Coq Require Import Lia.

Lemma replace_nth {A} (l : list A) i x j : nth_error (replace_at l i x) j = if Nat.eqb i j then match nth_error l i with Some _ => Some x | None => None end else nth_error l j.
Proof. revert i j. induction l as [|a l IH]; intros [|i] [|j]; cbn; try reflexivity; [destruct (i =? j); reflexivity|apply IH]. Qed.
Lemma srun_keeps (P : statics -> list prog -> Prop) : (forall s pool i p opens, P s pool -> nth_error pool i = Some p -> P (fst (pstep opens s p)) (replace_at pool i (snd (pstep opens s p)))) ->
  forall schedule s pool, P s pool -> P (fst (srun schedule s pool)) (snd (srun schedule s pool)).
Proof.
  intros ST. induction schedule as [|[i o] schedule IH]; intros s pool H; cbn [srun]; [exact H|]. destruct (nth_error pool i) as [p|] eqn:E; [|apply IH, H]. pose proof (ST s pool i p o H E) as X. destruct (pstep o s p) as [s' p']. apply IH, X.
Qed.
Lemma after_cons s h h' before : happened_after (record_ s h') h before -> (h = h' /\ before = sx_past s) \/ happened_after s h before.
Proof. intros [later E]. cbn in E. destruct later as [|x later]; cbn in E; injection E; [auto|]. intros E' _. right. exists later. exact E'. Qed.
Lemma after_open s h before : happened_after (open_stream s) h before -> h = Opened (S (sx_opened s)) \/ happened_after s h before.
Proof. intros [later E]. cbn in E. destruct later as [|x later]; cbn in E; injection E; [auto|]. intros E' _. right. exists later. exact E'. Qed.

(** * One thread *)
Definition allowed (s : statics) (a : action) : Prop :=
  match a with
  | UseCrypto => forall l, In l loads -> In (Did l) (sx_past s)
  | Print f | Close f => is_open f (sx_past s)
  | _ => ~ In (Did a) (sx_past s)
  end.
Inductive fine : statics -> prog -> Prop :=
| fine_stop s : fine s Stop
| fine_rd s x k : fine s (k (value s x)) -> fine s (Rd x k)
| fine_wr s x v k : fine (store s x v) k -> fine s (Wr x v k)
| fine_open s k : (forall f, ~ is_open f (sx_past s)) -> fine (open_stream s) (k (S (sx_opened s))) -> fine s (k 0) -> fine s (Open k)
| fine_act s a k : allowed s a -> fine (record_ s (Did a)) k -> fine s (Act a k).
Record good (s : statics) : Prop := {
  gd_prepared : prepared s; gd_prints : prints_well s; gd_closes : closes_well s; gd_one : one_stream s;
  gd_once : forall a, In a loads -> once s a; gd_num : forall f, In (Opened f) (sx_past s) \/ In (Did (Close f)) (sx_past s) -> 0 < f <= sx_opened s }.
Lemma good_past s s' : sx_past s' = sx_past s -> sx_opened s' = sx_opened s -> good s -> good s'.
Proof. intros E E' [A B C D F G]. constructor; unfold prepared, prints_well, closes_well, one_stream, once, happened_after in *; rewrite ?E, ?E'; assumption. Qed.
Lemma step_fine opens s p : good s -> fine s p -> good (fst (pstep opens s p)) /\ fine (fst (pstep opens s p)) (snd (pstep opens s p)).
Proof.
  intros G F. destruct F as [s|s x k F|s x v k F|s k N F1 F2|s a k A F]; cbn [pstep].
  - split; [exact G|constructor].
  - split; assumption.
  - split; [|exact F]. destruct x; eapply good_past; try exact G; reflexivity.
  - destruct opens; [|split; assumption]. split; [|exact F1]. destruct G as [G1 G2 G3 G4 G5 G6]. constructor.
    + intros before H. apply after_open in H as [H|H]; [discriminate H|apply G1, H].
    + intros f before H. apply after_open in H as [H|H]; [discriminate H|apply (G2 f), H].
    + intros f before H. apply after_open in H as [H|H]; [discriminate H|apply (G3 f), H].
    + assert (Q : forall f, is_open f (sx_past (open_stream s)) -> f = S (sx_opened s)).
      { intros f [[X|X] Y]; [injection X as <-; reflexivity|]. exfalso. apply (N f). split; [exact X|]. intros Z. apply Y. right. exact Z. }
      intros f f' X Y. rewrite (Q f X), (Q f' Y). reflexivity.
    + intros a Ia before H. apply after_open in H as [H|H]; [discriminate H|apply (G5 a Ia), H].
    + intros f [[X|X]|[X|X]]; cbn [fst sx_opened open_stream]; [injection X as <-; lia| |discriminate X|]; [specialize (G6 f (or_introl X))|specialize (G6 f (or_intror X))]; lia.
  - split; [|exact F]. destruct G as [G1 G2 G3 G4 G5 G6]. constructor.
    + intros before H. apply after_cons in H as [[H ->]|H]; [|apply G1, H]. injection H as <-. cbn [allowed loads] in A. split; [apply A; left; reflexivity|split; apply A; [right; left; reflexivity|right; right; left; reflexivity]].
    + intros f before H. apply after_cons in H as [[H ->]|H]; [|apply (G2 f), H]. injection H as <-. exact A.
    + intros f before H. apply after_cons in H as [[H ->]|H]; [|apply (G3 f), H]. injection H as <-. exact A.
    + intros f f' X Y. apply G4; [destruct X as [[U|U] V]|destruct Y as [[U|U] V]]; try discriminate U; (split; [exact U|]; intros Z; apply V; right; exact Z).
    + intros l Il before H. apply after_cons in H as [[H ->]|H]; [|apply (G5 l Il), H]. injection H as <-. cbn [loads In] in Il. destruct Il as [<-|[<-|[<-|[]]]]; exact A.
    + intros f [[X|X]|[X|X]]; cbn [fst sx_opened record_]; [discriminate X|apply G6; left; exact X| |apply G6; right; exact X]. injection X as ->. apply G6. left. apply A.
Qed.
(** between two calls *)
Record between (s : statics) : Prop := {
  bt_init : (sx_initialized s = 0 /\ forall l, In l loads -> ~ In (Did l) (sx_past s)) \/ (sx_initialized s <> 0 /\ forall l, In l loads -> In (Did l) (sx_past s));
  bt_log : (sx_log s = 0 /\ forall f, ~ is_open f (sx_past s)) \/ (sx_log s <> 0 /\ forall f, is_open f (sx_past s) <-> f = sx_log s);
  bt_num : forall f, In (Opened f) (sx_past s) \/ In (Did (Close f)) (sx_past s) -> f <= sx_opened s }.
Lemma open_same f l h : is_open f l -> h <> Opened f -> h <> Did (Close f) -> is_open f (h :: l).
Proof. intros [A B] _ N. split; [right; exact A|]. intros [X|X]; [destruct (N X)|contradiction]. Qed.
Lemma open_other f l h : is_open f (h :: l) -> h <> Opened f -> is_open f l.
Proof. intros [[A|A] B] N; [destruct (N A)|]. split; [exact A|]. intros X. apply B. right. exact X. Qed.
Lemma between_did s a : between s -> ~ In a loads -> (forall f, a <> Close f) -> between (record_ s (Did a)).
Proof.
  intros [A B C] N M. constructor; cbn [sx_initialized sx_log sx_past sx_opened record_].
  - destruct A as [[A1 A2]|[A1 A2]]; [left|right]; (split; [exact A1|]); intros l Il; [intros [X|X]; [injection X as <-; contradiction|exact (A2 l Il X)]|right; apply A2, Il].
  - assert (Q : forall f, is_open f (Did a :: sx_past s) <-> is_open f (sx_past s)) by (intros f; split; intros X; [apply (open_other _ _ _ X); discriminate|apply open_same; [exact X|discriminate|intros [= Y]; exact (M f Y)]]).
    destruct B as [[B1 B2]|[B1 B2]]; [left|right]; (split; [exact B1|]); intros f; rewrite Q; apply B2.
  - intros f [[X|X]|[X|X]]; [discriminate X|apply C; left; exact X|injection X as ->; destruct (M f eq_refl)|apply C; right; exact X].
Qed.
Lemma calls_fine cs : forall s, between s -> fine s (calls_prog cs).
Proof.
  induction cs as [|c cs IH]; intros s B; [constructor|]. destruct c; cbn [calls_prog].
  - unfold verify_call, initialize. constructor. cbn [value]. destruct (bt_init s B) as [[I1 I2]|[I1 I2]].
    + rewrite I1. cbn [Nat.eqb]. apply fine_wr. cbn [store]. set (s1 := {| sx_initialized := 1; sx_log := sx_log s; sx_opened := sx_opened s; sx_past := sx_past s |}).
      apply fine_act; [apply I2; left; reflexivity|]. apply fine_act. { intros [X|X]; [discriminate X|]. apply (I2 LoadCryptoStrings); [right; left; reflexivity|exact X]. }
      apply fine_act. { intros [X|[X|X]]; [discriminate X|discriminate X|]. apply (I2 AddAlgorithms); [right; right; left; reflexivity|exact X]. }
      apply fine_act. { intros l [<-|[<-|[<-|[]]]]; cbn; auto. }
      apply IH. assert (Q : forall f, is_open f (Did UseCrypto :: Did AddAlgorithms :: Did LoadCryptoStrings :: Did LoadErrStrings :: sx_past s) <-> is_open f (sx_past s)).
      { intros f. split; intros X; [do 4 (apply open_other in X; [|discriminate]); exact X|]. do 4 (apply open_same; [|discriminate|discriminate]). exact X. }
      constructor; cbn [sx_initialized sx_log sx_past sx_opened record_ s1].
      * right. split; [discriminate|]. intros l [<-|[<-|[<-|[]]]]; cbn; auto.
      * destruct (bt_log s B) as [[L1 L2]|[L1 L2]]; [left|right]; (split; [exact L1|]); intros f; rewrite Q; apply L2.
      * intros f [X|X]; repeat (destruct X as [X|X]; [discriminate X|]); apply (bt_num s B); auto.
    + destruct (Nat.eqb_spec (sx_initialized s) 0) as [E|_]; [contradiction|]. apply fine_act; [exact I2|]. apply IH, between_did; [exact B|intros [X|[X|[X|[]]]]; discriminate X|discriminate].
  - unfold log_call. constructor. cbn [value]. destruct (bt_log s B) as [[L1 L2]|[L1 L2]].
    + rewrite L1. cbn [Nat.eqb]. apply fine_open; [exact L2| |].
      * apply fine_wr. constructor. cbn [value store sx_log open_stream Nat.eqb]. constructor. cbn [value sx_log]. apply fine_act.
        { cbn. split; [left; reflexivity|]. intros [X|X]; [discriminate X|]. pose proof (bt_num s B _ (or_intror X)). lia. }
        apply IH. constructor; cbn [sx_initialized sx_log sx_past sx_opened record_].
        -- destruct (bt_init s B) as [[A1 A2]|[A1 A2]]; [left|right]; (split; [exact A1|]); intros l Il; [intros [X|[X|X]]; [injection X as <-; cbn in Il; intuition discriminate|discriminate X|exact (A2 l Il X)]|right; right; apply A2, Il].
        -- right. split; [discriminate|]. intros f. split.
           ++ intros [[X|[X|X]] Y]; [discriminate X|injection X as <-; reflexivity|]. exfalso. apply (L2 f). split; [exact X|]. intros Z. apply Y. right. right. exact Z.
           ++ intros ->. split; [right; left; reflexivity|]. intros [X|[X|X]]; [discriminate X|discriminate X|]. pose proof (bt_num s B _ (or_intror X)). lia.
        -- intros f [[X|[X|X]]|[X|[X|X]]]; [discriminate X|injection X as <-; apply le_n| |discriminate X|discriminate X|]; [pose proof (bt_num s B _ (or_introl X))|pose proof (bt_num s B _ (or_intror X))]; cbn; lia.
      * apply fine_wr. constructor. cbn [value store sx_log Nat.eqb]. apply IH. destruct B as [B1 B2 B3]. constructor; cbn [sx_initialized sx_log sx_past sx_opened]; [exact B1|left; split; [reflexivity|exact L2]|exact B3].
    + destruct (Nat.eqb_spec (sx_log s) 0) as [E|_]; [contradiction|]. constructor. cbn [value]. apply fine_act; [apply L2; reflexivity|]. apply IH, between_did; [exact B|intros [X|[X|[X|[]]]]; discriminate X|discriminate].
  - unfold shutdown_call. constructor. cbn [value]. destruct (bt_log s B) as [[L1 L2]|[L1 L2]].
    + rewrite L1. cbn [Nat.eqb]. apply IH, B.
    + destruct (Nat.eqb_spec (sx_log s) 0) as [E|_]; [contradiction|]. constructor. cbn [value]. apply fine_act; [apply L2; reflexivity|]. apply fine_wr. apply IH. constructor; cbn [sx_initialized sx_log sx_past sx_opened record_ store].
      * destruct (bt_init s B) as [[A1 A2]|[A1 A2]]; [left|right]; (split; [exact A1|]); intros l Il; [intros [X|X]; [injection X as <-; cbn in Il; intuition discriminate|exact (A2 l Il X)]|right; apply A2, Il].
      * left. split; [reflexivity|]. intros f X. pose proof (open_other _ _ _ X ltac:(discriminate)) as Y. apply L2 in Y. subst f. destruct X as [_ X]. apply X. left. reflexivity.
      * intros f [[X|X]|[X|X]]; [discriminate X|apply (bt_num s B); auto|injection X as <-; apply (bt_num s B); left; apply (proj2 (L2 _) eq_refl)|apply (bt_num s B); auto].
Qed.
(** A program with one thread, whatever it calls in whatever order, and whether or not the log
    can be opened: OpenSSL is prepared before it is used, and once; a message is only printed to
    a stream that is open; a stream is closed once; at most one is open; no races. *)
Theorem C101_one_thread cs schedule s pool : srun schedule at_start [calls_prog cs] = (s, pool) ->
  prepared s /\ once s LoadErrStrings /\ once s LoadCryptoStrings /\ once s AddAlgorithms /\ prints_well s /\ closes_well s /\ one_stream s /\ ~ race pool.
Proof.
  intros H. assert (P : good s /\ exists p, pool = [p] /\ fine s p).
  { refine (eq_rect _ (fun r => good (fst r) /\ exists p, snd r = [p] /\ fine (fst r) p) _ _ H). apply (srun_keeps (fun s pool => good s /\ exists p, pool = [p] /\ fine s p)).
    - intros s0 pool0 i p o [G [q [-> F]]] E. destruct i as [|i]; [|destruct i; discriminate E]. injection E as ->. destruct (step_fine o s0 p G F) as [A B]. split; [exact A|]. eexists. split; [reflexivity|exact B].
    - split.
      + constructor; try (intros; destruct H0; fail); unfold prepared, prints_well, closes_well, once, happened_after; cbn; try (intros; destruct H0 as [[|? ?] X]; discriminate X).
        * intros f f' [[] _].
        * intros a _ before [[|? ?] X]; discriminate X.
        * intros f [[]|[]].
      + eexists. split; [reflexivity|]. apply calls_fine. constructor; cbn; [left; split; [reflexivity|intros l _ []]|left; split; [reflexivity|intros f [[] _]]|intros f [[]|[]]]. }
  destruct P as [[G1 G2 G3 G4 G5 _] [p [-> _]]]. repeat (split; [assumption || (apply G5; cbn; auto)|]).
  intros [i [j [p1 [p2 [x [b [N [A [B _]]]]]]]]]. destruct i as [|[|i]], j as [|[|j]]; try discriminate A; try discriminate B. contradiction.
Qed.
Print Assumptions C101_one_thread.

(** * Several threads, after a first verification and a first message *)
Inductive quiet (f : nat) : prog -> Prop :=
| qu_stop : quiet f Stop
| qu_init k : quiet f (k 1) -> quiet f (Rd Initialized k)
| qu_log k : quiet f (k f) -> quiet f (Rd LogFile k)
| qu_act a k : a = UseCrypto \/ a = Print f -> quiet f k -> quiet f (Act a k).
Lemma calls_quiet f cs : f <> 0 -> ~ In CShutdown cs -> quiet f (calls_prog cs).
Proof.
  intros N. induction cs as [|c cs IH]; intros I; [constructor|]. assert (Q : quiet f (calls_prog cs)) by (apply IH; intros X; apply I; right; exact X). destruct c; cbn [calls_prog]; [| |destruct I; left; reflexivity].
  - apply qu_init. cbn. apply qu_act; [left; reflexivity|exact Q].
  - apply qu_log. destruct (Nat.eqb_spec f 0) as [E|_]; [contradiction|]. apply qu_log. apply qu_act; [right; reflexivity|exact Q].
Qed.
(** Then every schedule of any number of threads that verify and log is without races, nothing
    is initialised or opened again, OpenSSL is used prepared and all messages go to that log. *)
Theorem C101_after_first f s0 css schedule s pool : ready f s0 -> prepared s0 -> prints_well s0 -> Forall (fun cs => ~ In CShutdown cs) css ->
  srun schedule s0 (map calls_prog css) = (s, pool) ->
  ~ race pool /\ prepared s /\ prints_well s /\ sx_opened s = sx_opened s0 /\ exists new, sx_past s = new ++ sx_past s0 /\ Forall (fun h => h = Did UseCrypto \/ h = Did (Print f)) new.
Proof.
  intros R P0 W0 C H.
  assert (INV : (ready f s /\ Forall (quiet f) pool) /\ prepared s /\ prints_well s /\ sx_opened s = sx_opened s0 /\ exists new, sx_past s = new ++ sx_past s0 /\ Forall (fun h => h = Did UseCrypto \/ h = Did (Print f)) new).
  { refine (eq_rect _ (fun r => (ready f (fst r) /\ Forall (quiet f) (snd r)) /\ prepared (fst r) /\ prints_well (fst r) /\ sx_opened (fst r) = sx_opened s0 /\ exists new, sx_past (fst r) = new ++ sx_past s0 /\ Forall (fun h => h = Did UseCrypto \/ h = Did (Print f)) new) _ _ H).
    apply (srun_keeps (fun s pool => (ready f s /\ Forall (quiet f) pool) /\ prepared s /\ prints_well s /\ sx_opened s = sx_opened s0 /\ exists new, sx_past s = new ++ sx_past s0 /\ Forall (fun h => h = Did UseCrypto \/ h = Did (Print f)) new)).
    - intros s1 pool1 i p o [[R1 Q1] [P1 [W1 [O1 [new [E1 F1]]]]]] E. rewrite Forall_forall in Q1. pose proof (Q1 p (nth_error_In _ _ E)) as Q.
      assert (POOL : forall p', quiet f p' -> Forall (quiet f) (replace_at pool1 i p')).
      { intros p' Qp. apply Forall_forall. intros x X. apply In_nth_error in X as [n X]. rewrite replace_nth, E in X. destruct (i =? n); [injection X as <-; exact Qp|]. apply Q1, (nth_error_In _ _ X). }
      destruct R1 as [A1 A2 A3 A4 A5]. destruct Q as [|k Q|k Q|a k Ha Q]; cbn [pstep fst snd value].
      + split; [split; [constructor; assumption|apply POOL; constructor]|]. eauto 8.
      + rewrite A1. split; [split; [constructor; assumption|apply POOL, Q]|]. eauto 8.
      + rewrite A3. split; [split; [constructor; assumption|apply POOL, Q]|]. eauto 8.
      + split; [split|split; [|split; [|split; [exact O1|]]]].
        * constructor; cbn [record_ sx_initialized sx_log sx_past]; try assumption; [intros l Il; right; apply A2, Il|]. apply open_same; [exact A5|discriminate|destruct Ha as [-> | ->]; discriminate].
        * apply POOL, Q.
        * intros before X. apply after_cons in X as [[X ->]|X]; [|apply P1, X]. split; [apply A2; left; reflexivity|split; apply A2; [right; left; reflexivity|right; right; left; reflexivity]].
        * intros f' before X. apply after_cons in X as [[X ->]|X]; [|apply (W1 f'), X]. destruct Ha as [-> | ->]; [discriminate X|]. injection X as ->. exact A5.
        * exists (Did a :: new). split; [cbn; rewrite E1; reflexivity|]. constructor; [destruct Ha as [-> | ->]; auto|exact F1].
    - split; [split; [exact R|]|]. { apply Forall_forall. intros p X. apply in_map_iff in X as [cs [<- X]]. rewrite Forall_forall in C. apply calls_quiet; [apply (rd_file _ _ R)|apply C, X]. }
      split; [exact P0|]. split; [exact W0|]. split; [reflexivity|]. exists []. split; [reflexivity|constructor]. }
  destruct INV as [[_ Q] I]. split; [|exact I]. intros [i [j [p [q [x [b [_ [A [_ [B _]]]]]]]]]]. rewrite Forall_forall in Q. pose proof (Q p (nth_error_In _ _ A)) as Qp. inversion B; subst. inversion Qp.
Qed.
Print Assumptions C101_after_first.
(** such a state is reached by one thread that verifies and logs first *)
Example C101_ready_case : exists s, srun [(0, true); (0, true); (0, true); (0, true); (0, true); (0, true); (0, true); (0, true); (0, true); (0, true); (0, true); (0, true)] at_start [calls_prog [CVerify; CLog]] = (s, [Stop]) /\ ready 1 s /\ prepared s /\ prints_well s.
Proof.
  eexists. split; [reflexivity|]. split; [|].
  - constructor; cbn; [reflexivity|intros l [<-|[<-|[<-|[]]]]; auto 10|reflexivity|discriminate|]. split; cbn; [auto|intuition discriminate].
  - match goal with |- prepared ?s /\ _ => destruct (C101_one_thread [CVerify; CLog] [(0, true); (0, true); (0, true); (0, true); (0, true); (0, true); (0, true); (0, true); (0, true); (0, true); (0, true); (0, true)] s [Stop] eq_refl) as [A [_ [_ [_ [B _]]]]] end. auto.
Qed.

(** * Several threads, from the start: what still holds if the log can be opened *)
Inductive logs (n : nat) : bool -> prog -> Prop :=
| lg_stop b : logs n b Stop
| lg_init b k : (forall v n', n <= n' -> logs n' b (k v)) -> logs n b (Rd Initialized k)
| lg_read b k : (forall v n', n <= n' -> 0 < v <= n' -> logs n' true (k v)) -> (b = false -> forall n', n <= n' -> logs n' false (k 0)) -> logs n b (Rd LogFile k)
| lg_winit b v k : logs n b k -> logs n b (Wr Initialized v k)
| lg_write b v k : 0 < v <= n -> logs n true k -> logs n b (Wr LogFile v k)
| lg_open b k : (forall n', n <= n' -> logs (S n') b (k (S n'))) -> logs n b (Open k)
| lg_act b a k : (forall f, a = Print f -> 0 < f <= n) -> (forall f, a <> Close f) -> logs n b k -> logs n b (Act a k).
Lemma logs_more n n' b p : logs n b p -> n <= n' -> logs n' b p.
Proof.
  intros H. revert n'. induction H as [n b|n b k H IH|n b k H1 IH1 H2 IH2|n b v k H IH|n b v k B H IH|n b k H IH|n b a k B C H IH]; intros n' L; constructor; auto.
  - intros v m Hm. apply H. lia.
  - intros v m Hm Hv. apply H1; lia.
  - intros Hb m Hm. apply H2; [exact Hb|lia].
  - lia.
  - intros m Hm. apply H. lia.
  - intros f Hf. specialize (B f Hf). lia.
Qed.
Lemma logs_weak n p : logs n false p -> logs n true p.
Proof.
  intros H. remember false as b eqn:E. revert E. induction H as [n b|n b k H IH|n b k H1 IH1 H2 IH2|n b v k H IH|n b v k B H IH|n b k H IH|n b a k B C H IH]; intros ->; constructor; auto.
Qed.
Lemma calls_logs cs : ~ In CShutdown cs -> forall n b, logs n b (calls_prog cs).
Proof.
  induction cs as [|c cs IH]; intros I n b; [constructor|]. assert (Q : forall n b, logs n b (calls_prog cs)) by (apply IH; intros X; apply I; right; exact X). destruct c; cbn [calls_prog]; [| |destruct I; left; reflexivity].
  - apply lg_init. intros v n' L. assert (U : logs n' b (Act UseCrypto (calls_prog cs))) by (constructor; [discriminate|discriminate|apply Q]). destruct (v =? 0); [|exact U]. apply lg_winit. do 3 (apply lg_act; [discriminate|discriminate|]). exact U.
  - assert (PR : forall n, logs n true (Rd LogFile (fun f => Act (Print f) (calls_prog cs)))).
    { intros m. apply lg_read; [|discriminate]. intros v n' L Hv. apply lg_act; [intros f [= <-]; exact Hv|discriminate|apply Q]. }
    apply lg_read.
    + intros v n' L Hv. destruct (Nat.eqb_spec v 0); [lia|]. apply PR.
    + intros _ n' L. cbn [Nat.eqb]. apply lg_open. intros n2 L2. apply lg_write; [lia|]. apply lg_read; [|discriminate]. intros v n3 L3 Hv. destruct (Nat.eqb_spec v 0); [lia|]. apply PR.
Qed.
Theorem C101_messages_arrive css schedule s pool : Forall (fun cs => ~ In CShutdown cs) css -> (forall i o, In (i, o) schedule -> o = true) ->
  srun schedule at_start (map calls_prog css) = (s, pool) -> prints_well s.
Proof.
  intros C O H.
  set (P := fun s (pool : list prog) => prints_well s /\ (forall f, 0 < f <= sx_opened s -> is_open f (sx_past s)) /\ (forall f, In (Opened f) (sx_past s) -> f <= sx_opened s) /\ (forall f, ~ In (Did (Close f)) (sx_past s)) /\ sx_log s <= sx_opened s /\ Forall (logs (sx_opened s) (negb (Nat.eqb (sx_log s) 0))) pool).
  assert (ST : forall s pool i p, P s pool -> nth_error pool i = Some p -> P (fst (pstep true s p)) (replace_at pool i (snd (pstep true s p)))).
  { intros s1 pool1 i p [W [OP [NUM [CL [LE Q1]]]]] E. rewrite Forall_forall in Q1. pose proof (Q1 p (nth_error_In _ _ E)) as Q.
    assert (POOL : forall n b p', sx_opened s1 <= n -> (sx_log s1 <> 0 -> b = true) -> logs n b p' -> Forall (logs n b) (replace_at pool1 i p')).
    { intros n b p' Ln Lb Qp. apply Forall_forall. intros x X. apply In_nth_error in X as [j X]. rewrite replace_nth, E in X. destruct (i =? j); [injection X as <-; exact Qp|]. pose proof (Q1 x (nth_error_In _ _ X)) as Qx. apply logs_more with (n := sx_opened s1); [|exact Ln].
      destruct (Nat.eqb_spec (sx_log s1) 0) as [Z|Z]; cbn [negb] in Qx; [destruct b; [apply logs_weak, Qx|exact Qx]|rewrite (Lb Z); exact Qx]. }
    assert (LB : sx_log s1 <> 0 -> negb (sx_log s1 =? 0) = true) by (intros Z; destruct (Nat.eqb_spec (sx_log s1) 0); [contradiction|reflexivity]).
    inversion Q as [b Hb Hp|b k K Hb Hp|b k K1 K2 Hb Hp|b v k K Hb Hp|b v k V K Hb Hp|b k K Hb Hp|b a k A1 A2 K Hb Hp]; subst p; cbn [pstep fst snd value].
    - unfold P. repeat (split; [assumption|]). apply POOL; [lia|exact LB|constructor].
    - unfold P. repeat (split; [assumption|]). apply POOL; [lia|exact LB|apply K; lia].
    - unfold P. repeat (split; [assumption|]). apply POOL; [lia|exact LB|]. destruct (Nat.eqb_spec (sx_log s1) 0) as [Z|Z]; cbn [negb]; [rewrite Z; apply K2; [reflexivity|lia]|apply K1; lia].
    - unfold P. cbn [store sx_log sx_opened sx_past]. repeat (split; [assumption|]). apply POOL; [lia|exact LB|exact K].
    - unfold P. cbn [store sx_log sx_opened sx_past]. split; [exact W|]. split; [exact OP|]. split; [exact NUM|]. split; [exact CL|]. split; [lia|]. destruct (Nat.eqb_spec v 0); [lia|]. cbn [negb]. apply POOL; [lia|reflexivity|exact K].
    - unfold P. cbn [open_stream sx_log sx_opened sx_past]. split; [|split; [|split; [|split; [|split; [lia|]]]]].
      + intros f before X. apply after_open in X as [X|X]; [discriminate X|apply (W f), X].
      + intros f Hf. destruct (Nat.eq_dec f (S (sx_opened s1))) as [->|Nf]; [split; [left; reflexivity|intros [X|X]; [discriminate X|exact (CL _ X)]]|]. apply open_same; [apply OP; lia| |discriminate]. intros [= X]. congruence.
      + intros f [X|X]; [injection X as <-; lia|]. specialize (NUM f X). lia.
      + intros f [X|X]; [discriminate X|exact (CL f X)].
      + apply POOL; [lia|exact LB|]. apply K. lia.
    - unfold P. cbn [record_ sx_log sx_opened sx_past]. split; [|split; [|split; [|split; [|split; [exact LE|]]]]].
      + intros f before X. apply after_cons in X as [[X ->]|X]; [|apply (W f), X]. injection X as <-. apply OP, (A1 f eq_refl).
      + intros f Hf. apply open_same; [apply OP, Hf|discriminate|]. intros [= X]. exact (A2 f X).
      + intros f [X|X]; [discriminate X|exact (NUM f X)].
      + intros f [X|X]; [injection X as X; exact (A2 f X)|exact (CL f X)].
      + apply POOL; [lia|exact LB|exact K]. }
  assert (RUN : forall sch s pool, (forall i o, In (i, o) sch -> o = true) -> P s pool -> P (fst (srun sch s pool)) (snd (srun sch s pool))).
  { induction sch as [|[i o] sch IH]; intros s1 pool1 Oo X; cbn [srun]; [exact X|]. assert (o = true) as -> by (apply (Oo i), or_introl, eq_refl). assert (Oo' : forall i o, In (i, o) sch -> o = true) by (intros i' o' Y; apply (Oo i'), or_intror, Y).
    destruct (nth_error pool1 i) as [p|] eqn:E; [|apply IH; assumption]. pose proof (ST s1 pool1 i p X E) as Y. destruct (pstep true s1 p) as [s' p']. apply IH; assumption. }
  specialize (RUN schedule at_start (map calls_prog css) O). rewrite H in RUN. apply RUN. unfold P. cbn. split; [intros f before [[|? ?] X]; discriminate X|]. split; [lia|]. split; [intros f []|]. split; [intros f []|]. split; [lia|].
  apply Forall_forall. intros p X. apply in_map_iff in X as [cs [<- X]]. rewrite Forall_forall in C. apply calls_logs, C, X.
Qed.
Print Assumptions C101_messages_arrive.
(** three threads: two that log and one that verifies and logs *)
Definition three : list (list scall) := [[CLog]; [CVerify; CLog]; [CLog; CLog]].
Example C101_messages_case : exists s pool, Forall (fun cs => ~ In CShutdown cs) three /\
  srun [(0, true); (2, true); (0, true); (2, true); (0, true); (0, true); (0, true); (0, true); (2, true); (2, true); (2, true); (2, true)] at_start (map calls_prog three) = (s, pool) /\
  happened_after s (Did (Print 1)) [Opened 2; Opened 1] /\ happened_after s (Did (Print 2)) [Did (Print 1); Opened 2; Opened 1].
Proof.
  eexists. eexists. split; [apply Forall_forall; intros cs [<-|[<-|[<-|[]]]]; cbn; intuition discriminate|]. split; [reflexivity|]. split; [exists [Did (Print 2)]|exists []]; reflexivity.
Qed.

(** * Several threads, from the start: what does not hold *)
(** two first verifications race *)
Theorem C101_race_refuted : ~ forall css schedule s pool, srun schedule at_start (map calls_prog css) = (s, pool) -> ~ race pool.
Proof.
  intros H. eapply (H [[CVerify]; [CVerify]] [(0, true)]); [reflexivity|]. exists 0, 1. cbn [nth_error replace_at map].
  eexists. eexists. exists Initialized, false. split; [discriminate|]. split; [reflexivity|]. split; [reflexivity|]. split; constructor.
Qed.
Print Assumptions C101_race_refuted.
(** the second thread finds the flag set and uses OpenSSL before the first thread has prepared it *)
Theorem C101_prepared_refuted : ~ forall css schedule s pool, srun schedule at_start (map calls_prog css) = (s, pool) -> prepared s.
Proof.
  intros H. specialize (H [[CVerify]; [CVerify]] [(0, true); (0, true); (1, true); (1, true)] _ _ eq_refl []). destruct H as [[] _]. exists []. reflexivity.
Qed.
Print Assumptions C101_prepared_refuted.
(** the preparation happens twice *)
Theorem C101_once_refuted : ~ forall css schedule s pool, srun schedule at_start (map calls_prog css) = (s, pool) -> once s AddAlgorithms.
Proof.
  intros H. specialize (H [[CVerify]; [CVerify]] [(0, true); (1, true); (0, true); (0, true); (0, true); (0, true); (1, true); (1, true); (1, true); (1, true)] _ _ eq_refl).
  eapply H; [exists []; reflexivity|]. cbn. auto 10.
Qed.
Print Assumptions C101_once_refuted.
(** two threads that log for the first time both open the file: one stream is never closed *)
Theorem C101_one_stream_refuted : ~ forall css schedule s pool, Forall (fun cs => ~ In CShutdown cs) css -> srun schedule at_start (map calls_prog css) = (s, pool) -> one_stream s.
Proof.
  intros H. specialize (H [[CLog]; [CLog]] [(0, true); (1, true); (0, true); (1, true)] _ _ ltac:(apply Forall_forall; intros cs [<-|[<-|[]]]; cbn; intuition discriminate) eq_refl).
  enough (1 = 2) by discriminate. apply H; (split; [cbn; auto|cbn; intuition discriminate]).
Qed.
Print Assumptions C101_one_stream_refuted.
(** the first thread has tested the stream it opened, the second one's [fopen] fails and stores NULL: the
    first one prints to NULL *)
Theorem C101_prints_refuted : ~ forall css schedule s pool, Forall (fun cs => ~ In CShutdown cs) css -> srun schedule at_start (map calls_prog css) = (s, pool) -> prints_well s.
Proof.
  intros H. specialize (H [[CLog]; [CLog]] [(1, true); (0, true); (0, true); (0, true); (0, true); (1, false); (1, true); (0, true); (0, true)] _ _ ltac:(apply Forall_forall; intros cs [<-|[<-|[]]]; cbn; intuition discriminate) eq_refl).
  destruct (H 0 [Opened 1]) as [X _]; [exists []; reflexivity|]. cbn in X. intuition discriminate.
Qed.
Print Assumptions C101_prints_refuted.
(** if the log is shut down by another thread, messages go to a closed stream, whatever [fopen] does, ... *)
Theorem C101_shutdown_prints_refuted : ~ forall css schedule s pool, (forall i o, In (i, o) schedule -> o = true) -> srun schedule at_start (map calls_prog css) = (s, pool) -> prints_well s.
Proof.
  intros H. specialize (H [[CLog; CLog]; [CShutdown]] [(0, true); (0, true); (0, true); (0, true); (0, true); (0, true); (0, true); (0, true); (1, true); (1, true); (1, true); (0, true)] _ _ ltac:(cbn; intuition congruence) eq_refl).
  destruct (H 1 [Did (Close 1); Did (Print 1); Opened 1]) as [_ X]; [exists []; reflexivity|]. apply X. left. reflexivity.
Qed.
Print Assumptions C101_shutdown_prints_refuted.
(** ... and two threads that shut it down close the same stream twice *)
Theorem C101_closes_refuted : ~ forall css schedule s pool, (forall i o, In (i, o) schedule -> o = true) -> srun schedule at_start (map calls_prog css) = (s, pool) -> closes_well s.
Proof.
  intros H. specialize (H [[CLog; CShutdown]; [CShutdown]] [(0, true); (0, true); (0, true); (0, true); (0, true); (0, true); (0, true); (0, true); (1, true); (1, true); (0, true); (1, true)] _ _ ltac:(cbn; intuition congruence) eq_refl).
  destruct (H 1 [Did (Close 1); Did (Print 1); Opened 1]) as [_ X]; [exists []; reflexivity|]. apply X. left. reflexivity.
Qed.
Print Assumptions C101_closes_refuted.
