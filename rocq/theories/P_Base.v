(** Lemmas on the basic vocabulary of Base.v. *)
From Coq Require Export Lia ZifyBool ZifyNat ZifyN Permutation.
From Verif Require Import Base.

(** ** Comparison of byte strings *)
Lemma beqb_refl a : beqb a a = true.
Proof. induction a as [|x a IH]; cbn [beqb]; [reflexivity|]. rewrite Ascii.eqb_refl, IH. reflexivity. Qed.

Lemma beqb_eq a b : beqb a b = true <-> a = b.
Proof.
  split; [|intros ->; apply beqb_refl].
  revert b; induction a as [|x a IH]; intros [|y b]; cbn [beqb]; intros H; try discriminate; [reflexivity|].
  apply andb_true_iff in H as [Hx Ha]. apply Ascii.eqb_eq in Hx. subst y. f_equal. apply IH, Ha.
Qed.

Lemma beqb_spec a b : reflect (a = b) (beqb a b).
Proof. destruct (beqb a b) eqn:E; constructor; [apply beqb_eq, E|]. intros H. apply beqb_eq in H. congruence. Qed.

Lemma beqb_false a b : beqb a b = false <-> a <> b.
Proof. destruct (beqb_spec a b); split; congruence. Qed.

Lemma beqb_sym a b : beqb a b = beqb b a.
Proof. destruct (beqb a b) eqn:E; destruct (beqb b a) eqn:F; try reflexivity; [apply beqb_eq in E; apply beqb_false in F|apply beqb_eq in F; apply beqb_false in E]; congruence. Qed.

Lemma bytes_eq_dec : forall a b : bytes, {a = b} + {a <> b}.
Proof. apply list_eq_dec, ascii_dec. Defined.

Lemma code_inj x y : code x = code y -> x = y.
Proof. unfold code. intros H. rewrite <- (ascii_N_embedding x), <- (ascii_N_embedding y), H. reflexivity. Qed.

Lemma code_lt x : (code x < 256)%N.
Proof. destruct x as [a b c d e f g h]; destruct a, b, c, d, e, f, g, h; vm_compute; reflexivity. Qed.

Lemma code_ascii n : (n < 256)%N -> code (ascii_of_N n) = n.
Proof. apply N_ascii_embedding. Qed.

Lemma ascii_code c : ascii_of_N (code c) = c.
Proof. apply ascii_N_embedding. Qed.

(** Finite sweep over all bytes, lifted to a universal statement. *)
Definition all_bytes : bytes := map (fun n => ascii_of_nat n) (seq 0 256).
Lemma all_bytes_complete c : In c all_bytes.
Proof.
  unfold all_bytes. apply in_map_iff. exists (nat_of_ascii c). split; [apply ascii_nat_embedding|].
  apply in_seq. split; [lia|]. pose proof (nat_ascii_bounded c). lia.
Qed.
Lemma byte_sweep (p : ascii -> bool) : forallb p all_bytes = true -> forall c, p c = true.
Proof. intros H c. rewrite forallb_forall in H. apply H, all_bytes_complete. Qed.
Lemma byte_sweep2 (p : ascii -> ascii -> bool) :
  forallb (fun a => forallb (p a) all_bytes) all_bytes = true -> forall a b, p a b = true.
Proof. intros H a b. apply (byte_sweep (p a)). apply (byte_sweep (fun a => forallb (p a) all_bytes)), H. Qed.

Lemma bcmp_refl a : bcmp a a = Eq.
Proof. induction a as [|x a IH]; cbn [bcmp]; [reflexivity|]. rewrite N.compare_refl. exact IH. Qed.

Lemma bcmp_eq a b : bcmp a b = Eq <-> a = b.
Proof.
  split; [|intros ->; apply bcmp_refl].
  revert b; induction a as [|x a IH]; intros [|y b]; cbn [bcmp]; intros H; try discriminate; [reflexivity|].
  destruct (N.compare_spec (code x) (code y)) as [E|E|E]; try discriminate.
  apply code_inj in E. subst y. f_equal. apply IH, H.
Qed.

Lemma bcmp_antisym a b : bcmp b a = CompOpp (bcmp a b).
Proof.
  revert b; induction a as [|x a IH]; intros [|y b]; cbn [bcmp]; try reflexivity.
  rewrite (N.compare_antisym (code x) (code y)). destruct (N.compare (code x) (code y)); cbn; [apply IH|reflexivity..].
Qed.

Lemma bcmp_lt_trans a b c : bcmp a b = Lt -> bcmp b c = Lt -> bcmp a c = Lt.
Proof.
  revert b c; induction a as [|x a IH]; intros [|y b] [|z c]; cbn [bcmp]; intros H1 H2; try discriminate; try reflexivity.
  destruct (N.compare_spec (code x) (code y)) as [E|E|E]; try discriminate;
  destruct (N.compare_spec (code y) (code z)) as [F|F|F]; try discriminate;
  destruct (N.compare_spec (code x) (code z)) as [G|G|G]; try lia; try reflexivity.
  eapply IH; eassumption.
Qed.

Lemma bcmp_gt_lt a b : bcmp a b = Gt <-> bcmp b a = Lt.
Proof. rewrite (bcmp_antisym a b). destruct (bcmp a b); cbn; split; congruence. Qed.

(** ** std::map<string,_> *)
Section smap.
  Context {V : Type}.
  Implicit Types (m : smap V).

  Fixpoint sorted_from (k : bytes) m : Prop :=
    match m with
    | [] => True
    | (k', _) :: r => bcmp k k' = Lt /\ sorted_from k' r
    end.
  (** strictly increasing keys: the representation invariant of std::map *)
  Definition sm_sorted m : Prop :=
    match m with [] => True | (k, _) :: r => sorted_from k r end.

  Lemma sorted_from_weaken k k' m : bcmp k k' = Lt -> sorted_from k' m -> sorted_from k m.
  Proof. destruct m as [|[k2 v2] r]; cbn; [tauto|]. intros H [H1 H2]. split; [eapply bcmp_lt_trans; eassumption|exact H2]. Qed.

  Lemma sorted_from_sorted k m : sorted_from k m -> sm_sorted m.
  Proof. destruct m as [|[k2 v2] r]; cbn; tauto. Qed.

  Lemma sorted_from_in k m k' v : sorted_from k m -> In (k', v) m -> bcmp k k' = Lt.
  Proof.
    revert k; induction m as [|[k2 v2] r IH]; intros k; cbn; [tauto|].
    intros [H1 H2] [E|H]; [congruence|]. eapply bcmp_lt_trans; [exact H1|]. eapply IH; eassumption.
  Qed.

  Lemma sm_set_sorted_from k0 k v m :
    bcmp k0 k = Lt -> sorted_from k0 m -> sorted_from k0 (sm_set k v m).
  Proof.
    revert k0; induction m as [|[k2 v2] r IH]; intros k0; cbn [sorted_from sm_set].
    - intros H _. cbn. auto.
    - intros H [H1 H2]. destruct (bcmp k k2) eqn:E; cbn [sorted_from].
      + apply bcmp_eq in E. subst k2. auto.
      + auto.
      + split; [exact H1|]. apply IH; [apply bcmp_gt_lt, E|exact H2].
  Qed.

  Lemma sm_set_sorted k v m : sm_sorted m -> sm_sorted (sm_set k v m).
  Proof.
    destruct m as [|[k2 v2] r]; cbn [sm_sorted sm_set]; [cbn; auto|]. intros H.
    destruct (bcmp k k2) eqn:E; cbn [sm_sorted sorted_from]; [exact H|auto|].
    apply sm_set_sorted_from; [apply bcmp_gt_lt, E|exact H].
  Qed.

  Lemma sm_get_set_eq k v m : sm_get k (sm_set k v m) = Some v.
  Proof.
    induction m as [|[k2 v2] r IH]; cbn [sm_set sm_get]; [rewrite beqb_refl; reflexivity|].
    destruct (bcmp k k2) eqn:E; cbn [sm_get].
    - apply bcmp_eq in E. subst. rewrite beqb_refl. reflexivity.
    - rewrite beqb_refl. reflexivity.
    - destruct (beqb_spec k k2) as [->|Hn]; [rewrite bcmp_refl in E; discriminate|exact IH].
  Qed.

  Lemma sm_get_set_neq k k' v m : k' <> k -> sm_get k' (sm_set k v m) = sm_get k' m.
  Proof.
    intros Hn. induction m as [|[k2 v2] r IH]; cbn [sm_set sm_get].
    - destruct (beqb_spec k' k); [contradiction|reflexivity].
    - destruct (bcmp k k2) eqn:E; cbn [sm_get].
      + apply bcmp_eq in E. subst. destruct (beqb_spec k' k2); [contradiction|reflexivity].
      + destruct (beqb_spec k' k); [contradiction|reflexivity].
      + destruct (beqb k' k2); [reflexivity|exact IH].
  Qed.

  Lemma sm_get_set k k' v m : sm_get k' (sm_set k v m) = if beqb k' k then Some v else sm_get k' m.
  Proof. destruct (beqb_spec k' k) as [->|H]; [apply sm_get_set_eq|apply sm_get_set_neq, H]. Qed.

  Lemma sm_get_in k v m : sm_get k m = Some v -> In (k, v) m.
  Proof.
    induction m as [|[k2 v2] r IH]; cbn; [discriminate|].
    destruct (beqb_spec k k2) as [->|]; [intros [= ->]; auto|auto].
  Qed.

  Lemma sm_in_get k v m : sm_sorted m -> In (k, v) m -> sm_get k m = Some v.
  Proof.
    induction m as [|[k2 v2] r IH]; cbn [In sm_get sm_sorted]; [tauto|].
    intros Hs [E|Hin].
    - injection E as -> ->. rewrite beqb_refl. reflexivity.
    - destruct (beqb_spec k k2) as [->|Hn].
      + pose proof (sorted_from_in _ _ _ _ Hs Hin) as H. rewrite bcmp_refl in H. discriminate.
      + apply IH; [eapply sorted_from_sorted; exact Hs|exact Hin].
  Qed.

  Lemma sm_get_none k m : sm_get k m = None <-> ~ In k (map fst m).
  Proof.
    induction m as [|[k2 v2] r IH]; cbn; [tauto|].
    destruct (beqb_spec k k2) as [->|Hn]; [split; [discriminate|intros H; exfalso; apply H; auto]|].
    rewrite IH. split; [intros H [E|H2]; [congruence|contradiction]|intros H; intros H2; apply H; auto].
  Qed.

  Lemma sm_mem_get k m : sm_mem k m = true <-> exists v, sm_get k m = Some v.
  Proof. unfold sm_mem. destruct (sm_get k m); split; intros H; eauto; [discriminate|destruct H; discriminate]. Qed.

  Lemma sm_set_in k v m k' v' : In (k', v') (sm_set k v m) -> (k' = k /\ v' = v) \/ In (k', v') m.
  Proof.
    induction m as [|[k2 v2] r IH]; cbn [sm_set].
    - intros [E|[]]. injection E as <- <-. auto.
    - destruct (bcmp k k2) eqn:E; cbn [In].
      + apply bcmp_eq in E. subst. intros [E|H]; [injection E as <- <-; auto|auto].
      + intros [E2|H]; [injection E2 as <- <-; auto|auto].
      + intros [E2|H]; [auto|]. apply IH in H as [H|H]; auto.
  Qed.

  (** A sorted map is determined by its lookups. *)
  Lemma sm_ext m1 m2 : sm_sorted m1 -> sm_sorted m2 -> (forall k, sm_get k m1 = sm_get k m2) -> m1 = m2.
  Proof.
    revert m2; induction m1 as [|[k1 v1] r1 IH]; intros [|[k2 v2] r2] H1 H2 Hg.
    - reflexivity.
    - specialize (Hg k2). cbn in Hg. rewrite beqb_refl in Hg. discriminate.
    - specialize (Hg k1). cbn in Hg. rewrite beqb_refl in Hg. discriminate.
    - cbn in H1, H2.
      assert (Hk : k1 = k2).
      { destruct (bcmp k1 k2) eqn:E; [apply bcmp_eq, E| |].
        - pose proof (Hg k1) as G. cbn in G. rewrite beqb_refl in G.
          destruct (beqb_spec k1 k2) as [|Hn]; [assumption|]. symmetry in G. apply sm_get_in in G.
          pose proof (sorted_from_in _ _ _ _ H2 G) as L. rewrite (bcmp_antisym k1 k2), E in L. discriminate.
        - pose proof (Hg k2) as G. cbn in G. rewrite beqb_refl in G.
          destruct (beqb_spec k2 k1) as [|Hn]; [congruence|]. apply sm_get_in in G.
          pose proof (sorted_from_in _ _ _ _ H1 G) as L. rewrite L in E. discriminate. }
      subst k2. pose proof (Hg k1) as G. cbn in G. rewrite beqb_refl in G. injection G as ->. f_equal.
      apply IH; [eapply sorted_from_sorted; exact H1|eapply sorted_from_sorted; exact H2|].
      intros k. destruct (beqb_spec k k1) as [Ek|Ek]; [subst k|specialize (Hg k); cbn in Hg; apply beqb_false in Ek; rewrite Ek in Hg; exact Hg].
      transitivity (@None V); [|symmetry]; apply sm_get_none; intros Hin; apply in_map_iff in Hin as [[k' v'] [E Hin]]; cbn in E; subst k'.
      + pose proof (sorted_from_in _ _ _ _ H1 Hin) as L. rewrite bcmp_refl in L. discriminate.
      + pose proof (sorted_from_in _ _ _ _ H2 Hin) as L. rewrite bcmp_refl in L. discriminate.
  Qed.
End smap.

(** ** span / drop_while *)
Lemma span_app f l : let '(a, b) := span f l in l = a ++ b.
Proof. induction l as [|c r IH]; cbn [span]; [reflexivity|]. destruct (f c); [|reflexivity]. destruct (span f r) as [a b]. cbn. congruence. Qed.

Lemma span_fst_all f l : forallb f (fst (span f l)) = true.
Proof. induction l as [|c r IH]; cbn [span]; [reflexivity|]. destruct (f c) eqn:E; [|reflexivity]. destruct (span f r) as [a b]. cbn in *. rewrite E, IH. reflexivity. Qed.

Definition head_not (f : ascii -> bool) (l : bytes) : Prop :=
  match l with [] => True | c :: _ => f c = false end.

Lemma span_snd_head f l : head_not f (snd (span f l)).
Proof. induction l as [|c r IH]; cbn [span]; [exact I|]. destruct (f c) eqn:E; [|exact E]. destruct (span f r) as [a b]. exact IH. Qed.

Lemma span_unique f a b : forallb f a = true -> head_not f b -> span f (a ++ b) = (a, b).
Proof.
  induction a as [|c a IH]; cbn [app forallb span].
  - intros _ H. destruct b as [|c b]; cbn in *; [reflexivity|]. rewrite H. reflexivity.
  - intros H Hb. apply andb_true_iff in H as [Hc Ha]. rewrite Hc, IH by assumption. reflexivity.
Qed.

Lemma drop_while_span f l : drop_while f l = snd (span f l).
Proof. induction l as [|c r IH]; cbn; [reflexivity|]. destruct (f c); [|reflexivity]. destruct (span f r); exact IH. Qed.

Lemma drop_while_head f l : head_not f (drop_while f l).
Proof. rewrite drop_while_span. apply span_snd_head. Qed.

Lemma drop_while_split f l : exists p, l = p ++ drop_while f l /\ forallb f p = true.
Proof.
  exists (fst (span f l)). rewrite drop_while_span. pose proof (span_app f l). pose proof (span_fst_all f l).
  destruct (span f l); auto.
Qed.

Lemma drop_while_id f l : head_not f l -> drop_while f l = l.
Proof. destruct l as [|c r]; cbn; [reflexivity|]. intros ->. reflexivity. Qed.

Lemma drop_while_app f p l : forallb f p = true -> drop_while f (p ++ l) = drop_while f l.
Proof. induction p as [|c p IH]; cbn; [reflexivity|]. intros H. apply andb_true_iff in H as [-> H]. apply IH, H. Qed.

Lemma drop_while_all f l : forallb f l = true -> drop_while f l = [].
Proof. intros H. rewrite <- (app_nil_r l), drop_while_app by exact H. reflexivity. Qed.

Lemma drop_while_length f l : length (drop_while f l) <= length l.
Proof. destruct (drop_while_split f l) as [p [E _]]. rewrite E at 2. rewrite app_length. lia. Qed.

Lemma drop_while_ext f g l : (forall c, f c = g c) -> drop_while f l = drop_while g l.
Proof. intros H. induction l as [|c r IH]; cbn; [reflexivity|]. rewrite H, IH. reflexivity. Qed.

Lemma forallb_rev {A} (f : A -> bool) l : forallb f (rev l) = forallb f l.
Proof. induction l as [|c r IH]; cbn; [reflexivity|]. rewrite forallb_app, IH. cbn. destruct (f c), (forallb f r); reflexivity. Qed.

(** rdrop_while removes the longest suffix of [f]-characters *)
Definition last_not (f : ascii -> bool) (l : bytes) : Prop := head_not f (rev l).

Lemma rdrop_while_split f l : exists s, l = rdrop_while f l ++ s /\ forallb f s = true.
Proof.
  unfold rdrop_while. destruct (drop_while_split f (rev l)) as [p [E H]]. exists (rev p).
  split; [|rewrite forallb_rev; exact H].
  rewrite <- (rev_involutive l), E at 1. rewrite rev_app_distr. reflexivity.
Qed.

Lemma rdrop_while_last f l : last_not f (rdrop_while f l).
Proof. unfold last_not, rdrop_while. rewrite rev_involutive. apply drop_while_head. Qed.

Lemma rdrop_while_id f l : last_not f l -> rdrop_while f l = l.
Proof. unfold last_not, rdrop_while. intros H. rewrite drop_while_id by exact H. apply rev_involutive. Qed.

Lemma rdrop_while_app f l s : forallb f s = true -> rdrop_while f (l ++ s) = rdrop_while f l.
Proof. unfold rdrop_while. intros H. rewrite rev_app_distr, drop_while_app by (rewrite forallb_rev; exact H). reflexivity. Qed.

Lemma rdrop_while_all f l : forallb f l = true -> rdrop_while f l = [].
Proof. unfold rdrop_while. intros H. rewrite drop_while_all by (rewrite forallb_rev; exact H). reflexivity. Qed.

Lemma rdrop_while_length f l : length (rdrop_while f l) <= length l.
Proof. destruct (rdrop_while_split f l) as [p [E _]]. rewrite E at 2. rewrite app_length. lia. Qed.

Lemma last_not_app f l c : last_not f (l ++ [c]) <-> f c = false.
Proof. unfold last_not. rewrite rev_app_distr. reflexivity. Qed.

(** ** C strings *)
Definition nonnul (c : ascii) : bool := negb (Ascii.eqb c NUL).
Definition nul_free (s : bytes) : Prop := forallb nonnul s = true.

Lemma cstr_id s : nul_free s -> cstr s = s.
Proof.
  intros H. unfold cstr. rewrite <- (app_nil_r s) at 1. fold nonnul.
  change (fun c : ascii => negb (c =? NUL)%char) with nonnul.
  rewrite span_unique; [reflexivity|exact H|exact I].
Qed.
Lemma cstr_nul_free s : nul_free (cstr s).
Proof. apply span_fst_all. Qed.
Lemma cstr_app_nul s t : nul_free s -> cstr (s ++ NUL :: t) = s.
Proof.
  intros H. unfold cstr. change (fun c : ascii => negb (c =? NUL)%char) with nonnul.
  rewrite span_unique; [reflexivity|exact H|reflexivity].
Qed.
Lemma cstr_cstr s : cstr (cstr s) = cstr s.
Proof. apply cstr_id, cstr_nul_free. Qed.
Lemma cstr_prefix s : exists t, s = cstr s ++ t.
Proof. unfold cstr. pose proof (span_app (fun c => negb (Ascii.eqb c NUL)) s) as H. destruct (span _ s) as [a b]. exists b. exact H. Qed.
Lemma cstr_split s : cstr s = s \/ exists t, s = cstr s ++ NUL :: t.
Proof.
  unfold cstr. pose proof (span_app (fun c => negb (Ascii.eqb c NUL)) s) as H.
  pose proof (span_snd_head (fun c => negb (Ascii.eqb c NUL)) s) as Hh.
  destruct (span _ s) as [a b]. cbn [fst snd] in *. destruct b as [|c b].
  - left. rewrite H, app_nil_r. reflexivity.
  - right. cbn in Hh. apply negb_false_iff, Ascii.eqb_eq in Hh. subst c. exists b. exact H.
Qed.

(** ** The monads *)
Lemma rbind_ok {A B} (m : res A) (k : A -> res B) b :
  rbind m k = Ok b <-> exists a, m = Ok a /\ k a = Ok b.
Proof. destruct m; cbn; split; intros H; eauto; try discriminate; destruct H as [x [E H]]; congruence. Qed.

Lemma mbind_ok {A B} (m : M A) (k : A -> M B) t b t' :
  mbind m k t = Ok (b, t') <-> exists a t1, m t = Ok (a, t1) /\ k a t1 = Ok (b, t').
Proof.
  unfold mbind. destruct (m t) as [[a t1]|e|u|] eqn:E; split; intros H; eauto; try discriminate;
  destruct H as [x [t2 [E2 H]]]; congruence.
Qed.
Lemma mlift_ok {A} (r : res A) t a t' : mlift r t = Ok (a, t') <-> r = Ok a /\ t' = t.
Proof. unfold mlift. rewrite rbind_ok. split; [intros [x [E H]]|intros [E ->]; eauto]. injection H as -> ->. auto. Qed.
Lemma mret_ok {A} (x : A) t a t' : mret x t = Ok (a, t') <-> a = x /\ t' = t.
Proof. unfold mret. split; [intros [= -> ->]; auto|intros [-> ->]; reflexivity]. Qed.

Lemma nth_error_app_last {A} (l : list A) x : nth_error (l ++ [x]) (length l) = Some x.
Proof. rewrite nth_error_app2 by lia. rewrite Nat.sub_diag. reflexivity. Qed.
