(** Lemmas about IniEdit.v: what an object contains, and what Delete and AddEntry do to it. *)
From Coq Require Import Permutation Sorting.Sorted Lia.
From Verif Require Import Base P_Base CTypes StringUtils Ini P_Ini IniEdit Spec_Ini Spec_IniEdit P_IniEdit.

(** * Changes of the copies *)
Record moved (F : list nat) (st st' : store) : Prop := {
  mv_data : st_data st' = st_data st; mv_order : st_order st' = st_order st;
  mv_multi : st_multi st' = st_multi st; mv_line : st_multiline st' = st_multiline st; mv_spaces : st_spaces st' = st_spaces st;
  mv_block : st_block st' = st_block st; mv_comment : st_comment st' = st_comment st;
  mv_keep : forall p, live st p -> (forall i, In i (id_of p) -> ~ In i F) -> live st' p /\ text st' p = text st p;
  mv_fresh : Forall (fun e => fst e < st_fresh st) (st_strings st) -> Forall (fun e => fst e < st_fresh st') (st_strings st');
  mv_le : st_fresh st <= st_fresh st' }.
Lemma moved_refl st : moved [] st st.
Proof. split; auto. Qed.
Lemma moved_trans F G st st1 st2 : moved F st st1 -> moved G st1 st2 -> moved (F ++ G) st st2.
Proof.
  intros A B. destruct A as [A1 A2 A3 A4 A5 A6 A7 A8 A9 A10], B as [B1 B2 B3 B4 B5 B6 B7 B8 B9 B10].
  split; try congruence; try lia; auto.
  intros p L H. destruct (A8 p L) as [L1 T1]; [intros i Hi Hf; apply (H i Hi); apply in_or_app; auto|].
  destruct (B8 p L1) as [L2 T2]; [intros i Hi Hf; apply (H i Hi); apply in_or_app; auto|]. split; [exact L2|congruence].
Qed.
Lemma moved_weaken F G st st' : incl F G -> moved F st st' -> moved G st st'.
Proof. intros I [? ? ? ? ? ? ? K ? ?]. split; auto. intros p L H. apply K; [exact L|]. intros i Hi Hf. apply (H i Hi). apply I. exact Hf. Qed.

Lemma copy_string_ok st p : Forall (fun e => fst e < st_fresh st) (st_strings st) -> live st p ->
  exists st', copy_string p st = Ok (Copied (st_fresh st), st') /\ moved [] st st' /\ live st' (Copied (st_fresh st))
              /\ text st' (Copied (st_fresh st)) = text st p /\ st_fresh st' = S (st_fresh st).
Proof.
  intros F L. unfold copy_string. rewrite L. cbn [rbind]. eexists. split; [reflexivity|].
  assert (D : deref (with_strings (st_strings st ++ [(st_fresh st, text st p)]) (S (st_fresh st)) st) (Copied (st_fresh st)) = Ok (text st p)).
  { cbn. rewrite copy_at_app, (copy_at_fresh _ _ F), Nat.eqb_refl. reflexivity. }
  split; [|apply deref_live in D; destruct D; auto]. split; try reflexivity.
  - intros q Lq _. apply agree_live; [|exact Lq]. unfold agree. destruct q as [s|s|i]; try reflexivity. cbn. rewrite copy_at_app.
    destruct (copy_at i (st_strings st)) as [t|] eqn:Ei; [reflexivity|]. unfold live, text in Lq. cbn in Lq. rewrite Ei in Lq. discriminate.
  - intros _. cbn. apply Forall_app. split; [eapply Forall_impl; [|exact F]; cbn; intros a Ha; lia|]. constructor; [cbn; lia|constructor].
  - cbn. lia.
Qed.
Lemma delete_string_ok st p : exists st', delete_string p st = Ok (tt, st') /\ moved (id_of p) st st' /\ st_fresh st' = st_fresh st.
Proof.
  unfold delete_string, change. eexists. split; [reflexivity|]. destruct p as [s|s|i]; try (split; [apply moved_refl|reflexivity]).
  split; [|reflexivity]. split; try reflexivity.
  - intros q Lq H. apply agree_live; [|exact Lq]. unfold agree. destruct q as [s|s|j]; try reflexivity. cbn.
    rewrite (copy_at_filter (st_strings st) j (fun k => negb (Nat.eqb k i))). destruct (Nat.eqb_spec j i) as [->|N]; [|reflexivity].
    exfalso. apply (H i); left; reflexivity.
  - intros F. cbn. apply Forall_forall. intros e He. apply filter_In in He. rewrite Forall_forall in F. apply F. apply He.
Qed.

(** * Deleting strings *)
Definition freed (l : keyed) : list nat := flat_map (fun e => id_of (n_item (fst e)) ++ id_of (snd e)) l.
Lemma freed_ids l : incl (freed l) (ids_keyed l).
Proof.
  unfold freed, ids_keyed, ids_named. induction l as [|[n v] l IH]; cbn; [apply incl_refl|].
  intros i H. rewrite !in_app_iff in *. destruct H as [[H|H]|H]; auto 6.
Qed.
Lemma nodup_app {A} (l m : list A) : NoDup (l ++ m) -> NoDup l /\ NoDup m /\ forall x, In x l -> ~ In x m.
Proof.
  induction l as [|a l IH]; cbn; intros H; [repeat split; [constructor|exact H|intros x []]|].
  inversion H as [|? ? N1 N2]; subst. destruct (IH N2) as (A1 & A2 & A3). rewrite in_app_iff in N1.
  repeat split; [constructor; tauto|exact A2|]. intros x [<-|Hx]; [tauto|apply A3; exact Hx].
Qed.
Lemma nodup_app_intro {A} (l m : list A) : NoDup l -> NoDup m -> (forall x, In x l -> ~ In x m) -> NoDup (l ++ m).
Proof.
  induction 1 as [|a l N _ IH]; cbn; intros M D; [exact M|]. constructor; [|apply IH; [exact M|intros x Hx; apply D; auto]].
  rewrite in_app_iff. intros [H|H]; [auto|]. apply (D a); auto.
Qed.
Lemma keep_named st st' F n : moved F st st' -> live_named st n -> (forall i, In i (ids_named n) -> ~ In i F) ->
  live_named st' n /\ text st' (n_item n) = text st (n_item n) /\ option_map (text st') (n_comment n) = option_map (text st) (n_comment n).
Proof.
  intros M [L1 L2] H. unfold ids_named in H.
  destruct (mv_keep _ _ _ M (n_item n) L1) as [A B]; [intros i Hi; apply H; apply in_or_app; auto|].
  unfold live_named. destruct (n_comment n) as [c|]; cbn in *; [|auto].
  destruct (mv_keep _ _ _ M c L2) as [C D]; [intros i Hi; apply H; apply in_or_app; auto|]. rewrite D. auto.
Qed.
Lemma delete_run_ok k b c : forall st, b <> [] -> live st k -> (forall i, In i (id_of k) -> ~ In i (freed b)) ->
  live_keyed st (b ++ c) -> NoDup (ids_keyed (b ++ c)) ->
  Forall (fun e => is_gt (nm_of st) (text st k) e = false) b -> Forall (fun e => is_gt (nm_of st) (text st k) e = true) c ->
  exists st', delete_run k (b ++ c) st = Ok (c, st') /\ moved (freed b) st st' /\ st_fresh st' = st_fresh st.
Proof.
  induction b as [|[n v] b IH]; intros st NE K D L U B C; [congruence|]. clear NE.
  change (((n, v) :: b) ++ c) with ((n, v) :: (b ++ c)) in *.
  unfold ids_keyed in U. cbn [flat_map fst snd] in U. fold (ids_keyed (b ++ c)) in U. destruct (nodup_app _ _ U) as (U1 & U2 & U3).
  inversion L as [|? ? [L1 L2] L3]; subst. cbn [fst snd] in *.
  destruct (delete_string_ok st (n_item n)) as (st1 & E1 & M1 & F1). destruct (delete_string_ok st1 v) as (st2 & E2 & M2 & F2).
  pose proof (moved_trans _ _ _ _ _ M1 M2) as M. 
  assert (R : delete_run k ((n, v) :: (b ++ c)) st = match b ++ c with
      | [] => Ok ([], st2)
      | (m, _) :: _ => ebind (ask (fun st => is_less st k (n_item m))) (fun x => if x then eret (b ++ c) else delete_run k (b ++ c)) st2 end).
  { cbn [delete_run]. rewrite (ebind_ok _ _ _ _ _ E1), (ebind_ok _ _ _ _ _ E2). destruct (b ++ c) as [|[m w] r]; reflexivity. }
  rewrite R. clear R. unfold freed in D |- *. cbn [flat_map fst snd] in D |- *. fold (freed b) in D |- *.
  destruct (mv_keep _ _ _ M k K) as [K2 T2]; [intros i Hi Hf; apply (D i Hi); apply in_or_app; left; exact Hf|].
  assert (KEEP : forall e, In e (b ++ c) -> live_named st2 (fst e) /\ live st2 (snd e) /\ nm_of st2 e = nm_of st e).
  { intros [m w] He. unfold live_keyed in L3. rewrite Forall_forall in L3. destruct (L3 _ He) as [X1 X2]. cbn [fst snd] in *.
    assert (DIS : forall i, In i (ids_named m ++ id_of w) -> ~ In i (id_of (n_item n) ++ id_of v)).
    { intros i Hi Hf. apply (U3 i); [|unfold ids_keyed; apply in_flat_map; exists (m, w); split; [exact He|exact Hi]].
      rewrite in_app_iff in Hf. unfold ids_named. rewrite !in_app_iff. tauto. }
    destruct (keep_named _ _ _ m M X1) as (Y1 & Y2 & _); [intros i Hi; apply DIS; apply in_or_app; auto|].
    destruct (mv_keep _ _ _ M w X2) as [Y3 _]; [intros i Hi; apply DIS; apply in_or_app; auto|]. auto. }
  assert (GT : forall e, In e (b ++ c) -> is_gt (nm_of st2) (text st2 k) e = is_gt (nm_of st) (text st k) e).
  { intros e He. unfold is_gt. rewrite T2. destruct (KEEP e He) as (_ & _ & ->). reflexivity. }
  assert (L' : live_keyed st2 (b ++ c)).
  { apply Forall_forall. intros e He. destruct (KEEP e He) as (Y1 & Y2 & _). auto. }
  inversion B as [|? ? B1 B2]; subst.
  destruct b as [|[m w] b].
  - cbn [app] in *. destruct c as [|[m w] c].
    + exists st2. split; [reflexivity|]. split; [eapply moved_weaken; [|exact M]; cbn; rewrite app_nil_r; apply incl_refl|congruence].
    + destruct (KEEP (m, w) (or_introl eq_refl)) as ([Y1 _] & _ & _). cbn [fst] in Y1.
      assert (GG : nocase_less (text st2 k) (text st2 (n_item m)) = true).
      { pose proof (GT (m, w) (or_introl eq_refl)) as G. inversion C as [|? ? C1 _]; subst. rewrite C1 in G. exact G. }
      rewrite (ebind_ask _ _ _ true) by (rewrite (is_less_ok _ _ _ K2 Y1), GG; reflexivity).
      exists st2. split; [reflexivity|]. split; [eapply moved_weaken; [|exact M]; cbn; rewrite app_nil_r; apply incl_refl|congruence].
  - change (((m, w) :: b) ++ c) with ((m, w) :: (b ++ c)) at 1. cbn iota.
    destruct (KEEP (m, w) (or_introl eq_refl)) as ([Y1 _] & _ & _). cbn [fst] in Y1.
    assert (GG : nocase_less (text st2 k) (text st2 (n_item m)) = false).
    { pose proof (GT (m, w) (or_introl eq_refl)) as G. inversion B2 as [|? ? C1 _]; subst. rewrite C1 in G. exact G. }
    rewrite (ebind_ask _ _ _ false) by (rewrite (is_less_ok _ _ _ K2 Y1), GG; reflexivity).
    destruct (IH st2) as (st3 & E3 & M3 & F3).
    + discriminate.
    + exact K2.
    + intros i Hi Hf. apply (D i Hi). apply in_or_app. right. exact Hf.
    + exact L'.
    + exact U2.
    + apply Forall_forall. intros e He. rewrite GT; [|apply in_or_app; auto]. rewrite Forall_forall in B2. apply B2. exact He.
    + apply Forall_forall. intros e He. rewrite GT; [|apply in_or_app; auto]. rewrite Forall_forall in C. apply C. exact He.
    + exists st3. split; [exact E3|]. split; [apply (moved_trans _ _ _ _ _ M M3)|congruence].
Qed.
Lemma delete_strings_ok l : forall st, exists st', delete_strings l st = Ok (tt, st') /\ moved (freed l) st st' /\ st_fresh st' = st_fresh st.
Proof.
  induction l as [|[n v] l IH]; intros st; [exists st; split; [reflexivity|split; [apply moved_refl|reflexivity]]|]. cbn [delete_strings].
  destruct (delete_string_ok st (n_item n)) as (st1 & E1 & M1 & F1). rewrite (ebind_ok _ _ _ _ _ E1).
  destruct (delete_string_ok st1 v) as (st2 & E2 & M2 & F2). rewrite (ebind_ok _ _ _ _ _ E2).
  destruct (IH st2) as (st3 & E3 & M3 & F3). exists st3. split; [exact E3|]. split; [|congruence].
  unfold freed. cbn [flat_map fst snd]. apply (moved_trans _ _ _ _ _ (moved_trans _ _ _ _ _ M1 M2) M3).
Qed.

(** * What the object contains *)
Record rnamed := { r_name : bytes; r_comment : option bytes; r_order : nat }.
Definition vkeyed := list (rnamed * bytes).
Definition vdata := list (rnamed * vkeyed).
Definition view_named (st : store) (n : named) : rnamed :=
  {| r_name := text st (n_item n); r_comment := option_map (text st) (n_comment n); r_order := n_order n |}.
Definition view_line (st : store) (e : named * ptr) : rnamed * bytes := (view_named st (fst e), text st (snd e)).
Definition view_keyed (st : store) (l : keyed) : vkeyed := map (view_line st) l.
Definition view_part (st : store) (e : named * keyed) : rnamed * vkeyed := (view_named st (fst e), view_keyed st (snd e)).
Definition view_data (st : store) (d : list (named * keyed)) : vdata := map (view_part st) d.
Definition view (st : store) : vdata := view_data st (st_data st).
Definition vn {V} (e : rnamed * V) : bytes := r_name (fst e).

Lemma keep_keyed st st' F l : moved F st st' -> live_keyed st l -> (forall i, In i (ids_keyed l) -> ~ In i F) ->
  live_keyed st' l /\ view_keyed st' l = view_keyed st l.
Proof.
  intros M L H. induction l as [|[n v] l IH]; [split; [constructor|reflexivity]|].
  inversion L as [|? ? [L1 L2] L3]; subst. cbn [fst snd] in *. unfold ids_keyed in H. cbn [flat_map fst snd] in H. fold (ids_keyed l) in H.
  destruct (IH L3) as [I1 I2]; [intros i Hi; apply H; rewrite !in_app_iff; auto|].
  destruct (keep_named _ _ _ n M L1) as (A1 & A2 & A3); [intros i Hi; apply H; rewrite !in_app_iff; auto|].
  destruct (mv_keep _ _ _ M v L2) as [A4 A5]; [intros i Hi; apply H; rewrite !in_app_iff; auto|].
  split; [constructor; [cbn; auto|exact I1]|]. cbn. f_equal; [|exact I2]. unfold view_line, view_named. cbn. rewrite A2, A3, A5. reflexivity.
Qed.
Lemma keep_data st st' F d : moved F st st' -> live_data st d -> (forall i, In i (ids_data d) -> ~ In i F) ->
  live_data st' d /\ view_data st' d = view_data st d.
Proof.
  intros M L H. induction d as [|[n l] d IH]; [split; [constructor|reflexivity]|].
  inversion L as [|? ? [L1 L2] L3]; subst. cbn [fst snd] in *. unfold ids_data in H. cbn [flat_map fst snd] in H. fold (ids_data d) in H.
  destruct (IH L3) as [I1 I2]; [intros i Hi; apply H; rewrite !in_app_iff; auto|].
  destruct (keep_named _ _ _ n M L1) as (A1 & A2 & A3); [intros i Hi; apply H; rewrite !in_app_iff; auto|].
  destruct (keep_keyed _ _ _ l M L2) as (A4 & A5); [intros i Hi; apply H; rewrite !in_app_iff; auto|].
  split; [constructor; [cbn; auto|exact I1]|]. unfold view_data. cbn [map]. f_equal; [|exact I2]. unfold view_part, view_named. cbn [fst snd]. rewrite A2, A3, A5. reflexivity.
Qed.

(** ** sorted tables *)
Definition key_before (a b : rnamed) : Prop :=
  nocase_less (r_name a) (r_name b) = true \/ (same_name (r_name a) (r_name b) /\ r_order a < r_order b).
Definition sec_before (a b : rnamed) : Prop := nocase_less (r_name a) (r_name b) = true.
Definition keys_sorted (l : vkeyed) : Prop := StronglySorted key_before (map fst l).
Record vsorted (v : vdata) : Prop := {
  vs_secs : StronglySorted sec_before (map fst v);
  vs_keys : Forall (fun e => keys_sorted (snd e)) v }.

Lemma sorted_map {A B} (f : A -> B) (R : B -> B -> Prop) l : StronglySorted R (map f l) <-> StronglySorted (fun a b => R (f a) (f b)) l.
Proof.
  induction l as [|a l IH]; cbn; split; intros H; try constructor; inversion H as [|? ? H1 H2]; subst.
  - apply IH. exact H1.
  - rewrite Forall_map in H2. exact H2.
  - apply IH. exact H1.
  - rewrite Forall_map. exact H2.
Qed.
Lemma sorted_impl {A} (R Q : A -> A -> Prop) l : (forall a b, R a b -> Q a b) -> StronglySorted R l -> StronglySorted Q l.
Proof. intros I. induction 1 as [|a l S IH F]; constructor; [exact IH|]. eapply Forall_impl; [|exact F]. intros b. apply I. Qed.
Lemma less_weak a b : nocase_less a b = true -> nocase_less b a = false.
Proof. intros H. destruct (nocase_less b a) eqn:X0; [|reflexivity]. pose proof (nocase_trans _ _ _ H X0) as C. rewrite nocase_irrefl in C. discriminate. Qed.
Lemma key_before_weak a b : key_before a b -> nocase_less (r_name b) (r_name a) = false.
Proof. intros [H|[H _]]; [apply less_weak; exact H|]. apply nocase_less_irrefl. symmetry. exact H. Qed.
Lemma keys_weak (l : vkeyed) : keys_sorted l -> StronglySorted (weak vn) l.
Proof. intros H. pose proof (proj1 (sorted_map fst key_before l) H) as H0. eapply sorted_impl; [|exact H0]. intros a b X0. apply (key_before_weak _ _ X0). Qed.
Lemma secs_weak (v : vdata) : StronglySorted sec_before (map fst v) -> StronglySorted (weak vn) v.
Proof. intros H. pose proof (proj1 (sorted_map fst sec_before v) H) as H0. eapply sorted_impl; [|exact H0]. intros a b X0. apply (less_weak _ _ X0). Qed.
Lemma keys_weak_a st l : keys_sorted (view_keyed st l) -> StronglySorted (weak (nm_of st)) l.
Proof. intros H. exact (proj1 (sorted_map (view_line st) (weak vn) l) (keys_weak _ H)). Qed.
Lemma secs_weak_a st d : StronglySorted sec_before (map fst (view_data st d)) -> StronglySorted (weak (nm_of st)) d.
Proof. intros H. exact (proj1 (sorted_map (view_part st) (weak vn) d) (secs_weak _ H)). Qed.

Lemma filter_map {A B} (f : A -> B) (P : B -> bool) l : filter P (map f l) = map f (filter (fun a => P (f a)) l).
Proof. induction l as [|a l IH]; cbn; [reflexivity|]. destruct (P (f a)); cbn; rewrite IH; reflexivity. Qed.
Lemma Lt_view_keyed st s l : view_keyed st (Lt (nm_of st) s l) = Lt vn s (view_keyed st l).
Proof. unfold Lt, view_keyed. rewrite filter_map. reflexivity. Qed.
Lemma Eqs_view_keyed st s l : view_keyed st (Eqs (nm_of st) s l) = Eqs vn s (view_keyed st l).
Proof. unfold Eqs, view_keyed. rewrite filter_map. reflexivity. Qed.
Lemma Gt_view_keyed st s l : view_keyed st (Gt (nm_of st) s l) = Gt vn s (view_keyed st l).
Proof. unfold Gt, view_keyed. rewrite filter_map. reflexivity. Qed.
Lemma Lt_view_data st s l : view_data st (Lt (nm_of st) s l) = Lt vn s (view_data st l).
Proof. unfold Lt, view_data. rewrite filter_map. reflexivity. Qed.
Lemma Eqs_view_data st s l : view_data st (Eqs (nm_of st) s l) = Eqs vn s (view_data st l).
Proof. unfold Eqs, view_data. rewrite filter_map. reflexivity. Qed.
Lemma Gt_view_data st s l : view_data st (Gt (nm_of st) s l) = Gt vn s (view_data st l).
Proof. unfold Gt, view_data. rewrite filter_map. reflexivity. Qed.

(** at most one section has a name *)
Lemma one_section (v : vdata) s : StronglySorted sec_before (map fst v) -> Eqs vn s v = [] \/ exists x, Eqs vn s v = [x].
Proof.
  intros H0. pose proof (proj1 (sorted_map fst sec_before v) H0) as H. clear H0. unfold Eqs. induction H as [|a l S IH F]; [left; reflexivity|]. cbn.
  destruct (is_eq vn s a) eqn:X0; [|exact IH]. right. exists a. f_equal. apply filter_none. apply Forall_forall. intros b Hb.
  rewrite Forall_forall in F. specialize (F b Hb). destruct (is_eq vn s b) eqn:Y; [|reflexivity]. exfalso.
  unfold is_eq in *. unfold sec_before in F. rewrite (nocase_less_irrefl (r_name (fst a)) (r_name (fst b))) in F; [discriminate|].
  unfold same_nameb, same_name, vn in *. apply beqb_eq in X0, Y. congruence.
Qed.
