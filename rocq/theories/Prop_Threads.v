(** Calls of acquire_license by several threads (C86). *)
From Verif Require Import Base CTypes StringUtils Dates Doubles Base64 HwId Registry Ini Network Disks ExecEnv Strategies Locate Licensecc AcquireIo.
From Verif Require Import P_Base Spec_Strings Spec_Base64 Spec_Dates Spec_Ini Spec_HwId Spec_Hw Spec_Registry Spec_Acquire Spec_Listing Spec_Faults Spec_Accesses P_Io Prop_Acquire Prop_Accesses Spec_Threads.
From Verif Require Import Ex_Acquire.
From Coq Require Import Lia Sorted.

(** a program that has made accesses at these instants, and what remains of it *)
Inductive went {A} (w : world) (m0 : io A) : list nat -> io A -> Prop :=
| went_none : went w m0 [] m0
| went_more is i m : went w m0 is m -> (forall r, m <> Done r) -> went w m0 (is ++ [i]) (ask w i m).
Lemma went_run {A} w (m0 m : io A) is at_ : went w m0 is m -> (forall k, k < length is -> at_ k = nth k is 0) ->
  io_run (seen_at w at_) m0 0 = io_run (seen_at w at_) m (length is) /\
  length (io_accesses (seen_at w at_) m0 0) = length is + length (io_accesses (seen_at w at_) m (length is)).
Proof.
  induction 1 as [|is i m H IH N]; intros K; [split; reflexivity|]. rewrite app_length in K. cbn [length] in K. destruct IH as [I1 I2].
  { intros k Hk. rewrite K by lia. rewrite app_nth1 by exact Hk. reflexivity. }
  assert (E : at_ (length is) = i) by (rewrite K by lia; rewrite app_nth2 by lia; rewrite Nat.sub_diag; reflexivity). rewrite I1, I2, app_length. cbn [length]. rewrite Nat.add_1_r.
  destruct m as [r|p k|p k|k|k]; [destruct (N r eq_refl)|..]; cbn [io_run io_accesses ask length]; cbn [w_good w_file w_clock w_machine seen_at]; rewrite E; (split; [reflexivity|lia]).
Qed.
Lemma program_seen w at_ c : program (seen_at w at_) c = program w c.
Proof. unfold program. rewrite (io_fixed (seen_at w at_) w); [reflexivity|repeat split]. Qed.
Lemma alone_run w c : alone w c = match io_run w (program w c) 0 with Ok (a, _) => Ok a | Throw e => Throw e | Undef u => Undef u | OutOfFuel => OutOfFuel end.
Proof. unfold alone, program. rewrite run_acquire. destruct (acquire_license _ _ _ _ _) as [[a t]| | |]; reflexivity. Qed.
Lemma went_done w at_ c is r : went w (program w c) is (Done r) -> (forall k, k < length is -> at_ k = nth k is 0) ->
  alone (seen_at w at_) c = r /\ duration (seen_at w at_) c = length is.
Proof.
  intros H K. destruct (went_run _ _ _ _ _ H K) as [A B]. rewrite alone_run. unfold duration. rewrite program_seen, A, B. cbn. split; [destruct r; reflexivity|lia].
Qed.
Definition budget (w : world) (c : call) : nat := 5 * length (sources w (cl_hint c)).
Lemma went_short w c is m : went w (program w c) is m -> length is <= budget w c.
Proof.
  intros H. destruct (went_run _ _ _ _ (fun k => nth k is 0) H (fun k _ => eq_refl)) as [_ B]. pose proof (C85_bounded (seen_at w (fun k => nth k is 0)) (cl_caller c) (cl_hint c) (cl_out c) 0) as L.
  unfold accesses in L. fold (program (seen_at w (fun k => nth k is 0)) c) in L. rewrite program_seen in L. rewrite B in L. unfold budget. change (sources (seen_at w _) ?h) with (sources w h) in L. lia.
Qed.

Definition current (th : thread) : list call := match th_now th with Some (c, _, _) => [c] | None => [] end.
Definition one_after_the_other (x y : finished) : Prop := fi_until x < fi_from y.
Definition running (w : world) (g : nat) (th : thread) : Prop :=
  match th_now th with
  | None => True
  | Some (c, from, m) => from < g /\ Forall (fun x => fi_until x < from) (th_done th) /\
      exists is, went w (program w c) is m /\ StronglySorted lt is /\ Forall (fun i => from < i < g) is
  end.
Record inv (w : world) (g : nat) (calls : list call) (th : thread) : Prop := {
  iv_done : Forall (as_if_alone w) (th_done th);
  iv_calls : map fi_call (th_done th) ++ current th ++ th_todo th = calls;
  iv_order : StronglySorted one_after_the_other (th_done th);
  iv_times : Forall (fun x => fi_from x < fi_until x < g) (th_done th);
  iv_now : running w g th }.
Lemma sorted_snoc {A} (R : A -> A -> Prop) l x : StronglySorted R l -> Forall (fun y => R y x) l -> StronglySorted R (l ++ [x]).
Proof.
  induction 1 as [|a l H IH HA]; intros F; cbn; [constructor; constructor|]. inversion F; subst. constructor; [auto|]. apply Forall_app. split; [exact HA|constructor; [assumption|constructor]].
Qed.
Lemma sorted_nth is i j d : StronglySorted lt is -> i < j -> j < length is -> nth i is d < nth j is d.
Proof.
  intros H. revert i j. induction H as [|a l H IH HA]; intros i j Hi Hj; [cbn in Hj; lia|]. destruct j as [|j]; [lia|]. cbn [length] in Hj. destruct i as [|i]; cbn [nth].
  - rewrite Forall_forall in HA. apply HA, nth_In. lia.
  - apply IH; lia.
Qed.
(** instants that continue a list *)
Definition onward (g : nat) (is : list nat) (k : nat) : nat := if k <? length is then nth k is 0 else g + k.
Lemma onward_nth g is k : k < length is -> onward g is k = nth k is 0.
Proof. intros H. unfold onward. apply Nat.ltb_lt in H. rewrite H. reflexivity. Qed.
Lemma onward_mono g from is : StronglySorted lt is -> Forall (fun i => from < i < g) is -> forall a b, a < b -> onward g is a < onward g is b.
Proof.
  intros S F a b L. unfold onward. rewrite Forall_forall in F. destruct (Nat.ltb_spec a (length is)) as [A|A]; destruct (Nat.ltb_spec b (length is)) as [B|B]; try lia; [apply sorted_nth; assumption|].
  specialize (F _ (nth_In is 0 A)). lia.
Qed.
Lemma onward_after g from is : from < g -> Forall (fun i => from < i < g) is -> forall k, from < onward g is k.
Proof. intros G F k. unfold onward. rewrite Forall_forall in F. destruct (Nat.ltb_spec k (length is)) as [A|A]; [apply (F _ (nth_In is 0 A))|lia]. Qed.
Lemma inv_later w g calls th : inv w g calls th -> inv w (S g) calls th.
Proof.
  intros [A B C D E]. constructor; try assumption.
  - eapply Forall_impl; [|exact D]. cbn. intros x Hx. lia.
  - unfold running in *. destruct (th_now th) as [[[c from] m]|]; [|exact I]. destruct E as [E1 [E2 [is [E3 [E4 E5]]]]]. split; [lia|]. split; [exact E2|]. exists is. split; [exact E3|]. split; [exact E4|]. eapply Forall_impl; [|exact E5]. cbn. lia.
Qed.
Lemma inv_step w g calls th th' : inv w g calls th -> advance w g th = Some th' -> inv w (S g) calls th'.
Proof.
  intros IV H. destruct (inv_later _ _ _ _ IV) as [LA LB LC LD LE]. destruct IV as [IA IB IC ID IE]. unfold advance in H. destruct th as [dn nw td]. cbn [th_done th_now th_todo] in *.
  assert (MORE : forall c from m, nw = Some (c, from, m) -> (forall r, m <> Done r) -> inv w (S g) calls {| th_done := dn; th_now := Some (c, from, ask w g m); th_todo := td |}).
  { intros c from m -> N. constructor; try assumption. unfold running in *. cbn [th_now th_done] in *. destruct IE as [E1 [E2 [is [E3 [E4 E5]]]]]. split; [lia|]. split; [exact E2|]. exists (is ++ [g]). split; [apply went_more; assumption|]. split.
    - apply sorted_snoc; [exact E4|]. eapply Forall_impl; [|exact E5]. cbn. lia.
    - apply Forall_app. split; [eapply Forall_impl; [|exact E5]; cbn; lia|]. constructor; [lia|constructor]. }
  destruct nw as [[[c from] m]|].
  - destruct m as [r|p k|p k|k|k]; [|injection H as <-; exact (MORE _ _ _ eq_refl ltac:(discriminate))..].
    assert (R : th' = {| th_done := dn ++ [{| fi_call := c; fi_result := r; fi_from := from; fi_until := g |}]; th_now := None; th_todo := td |}) by (destruct r; first [discriminate H|injection H as <-; reflexivity]). clear H. subst th'.
    unfold running in IE. cbn [th_now th_done] in IE. destruct IE as [E1 [E2 [is [E3 [E4 E5]]]]]. constructor; cbn [th_done th_now th_todo current].
    + apply Forall_app. split; [exact IA|]. constructor; [|constructor]. exists (onward g is). cbn [fi_from fi_until fi_call fi_result]. destruct (went_done w (onward g is) c is r E3 (onward_nth g is)) as [F1 F2]. split; [eapply onward_mono; eassumption|]. split; [apply onward_after; assumption|].
      split; [|symmetry; exact F1]. intros k Hk. rewrite F2 in Hk. rewrite onward_nth by exact Hk. rewrite Forall_forall in E5. apply (E5 _ (nth_In is 0 Hk)).
    + rewrite <- IB, map_app, <- app_assoc. reflexivity.
    + apply sorted_snoc; [exact IC|]. eapply Forall_impl; [|exact E2]. cbn. intros x Hx. exact Hx.
    + apply Forall_app. split; [exact LD|]. constructor; [cbn; lia|constructor].
    + exact I.
  - destruct td as [|c cs]; injection H as <-; [constructor; assumption|]. constructor; cbn [th_done th_now th_todo current] in *; try assumption. unfold running. cbn [th_now th_done]. split; [lia|]. split; [eapply Forall_impl; [|exact ID]; cbn; lia|]. exists []. split; [constructor|]. split; constructor.
Qed.
Lemma update_nth {A} (l : list A) i x j : nth_error (update l i x) j = if Nat.eqb i j then match nth_error l i with Some _ => Some x | None => None end else nth_error l j.
Proof. revert i j. induction l as [|a l IH]; intros [|i] [|j]; cbn; try reflexivity; [destruct (i =? j); reflexivity|apply IH]. Qed.
Definition pool_inv (w : world) (g : nat) (calls : list (list call)) (pool : list thread) : Prop :=
  forall i th, nth_error pool i = Some th -> exists cs, nth_error calls i = Some cs /\ inv w g cs th.
Lemma pool_later w g calls pool : pool_inv w g calls pool -> pool_inv w (S g) calls pool.
Proof. intros H i th E. destruct (H i th E) as [cs [A B]]. exists cs. split; [exact A|apply inv_later, B]. Qed.
Lemma pool_step w g calls pool i th th' : pool_inv w g calls pool -> nth_error pool i = Some th -> advance w g th = Some th' -> pool_inv w (S g) calls (update pool i th').
Proof.
  intros H E S j x. rewrite update_nth. destruct (Nat.eqb_spec i j) as [<-|N]; [|apply (pool_later _ _ _ _ H)]. rewrite E. intros [= <-]. destruct (H i th E) as [cs [A B]]. exists cs. split; [exact A|eapply inv_step; eassumption].
Qed.
Lemma pool_run w g schedule calls pool pool' : pool_inv w g calls pool -> interleave w g schedule pool = Some pool' -> pool_inv w (g + length schedule) calls pool'.
Proof.
  revert g pool. induction schedule as [|i schedule IH]; intros g pool H R; cbn [interleave length] in *; [injection R as <-; rewrite Nat.add_0_r; exact H|]. rewrite Nat.add_succ_r, <- Nat.add_succ_l.
  destruct (nth_error pool i) as [th|] eqn:E; [|apply (IH _ _ (pool_later _ _ _ _ H) R)]. destruct (advance w g th) as [th'|] eqn:S; [|discriminate]. eapply IH; [|exact R]. eapply pool_step; eassumption.
Qed.
Lemma pool_fresh w g calls : pool_inv w g calls (map fresh calls).
Proof.
  intros i th E. rewrite nth_error_map in E. destruct (nth_error calls i) as [cs|] eqn:F; [|discriminate]. injection E as <-. exists cs. split; [reflexivity|]. constructor; cbn; repeat constructor.
Qed.

(** ** C86 *)
Section RUN.
Variables (w : world) (g : nat) (schedule : list nat) (calls : list (list call)) (pool : list thread) (i : nat) (th : thread).
Hypothesis RUN : interleave w g schedule (map fresh calls) = Some pool.
Hypothesis HERE : nth_error pool i = Some th.
Lemma reached : exists cs, nth_error calls i = Some cs /\ inv w (g + length schedule) cs th.
Proof. eapply pool_run; [apply pool_fresh|exact RUN|exact HERE]. Qed.
(** Whatever the schedule and whatever the other threads do: every call that is over has the
    result it has alone, made at some instants during the call. *)
Theorem C86_as_if_alone : Forall (as_if_alone w) (th_done th).
Proof. destruct reached as [cs [_ H]]. apply H. Qed.
(** The calls of a thread are made in its order, one at a time. *)
Theorem C86_order : exists cs, nth_error calls i = Some cs /\
  map fi_call (th_done th) ++ match th_now th with Some (c, _, _) => [c] | None => [] end ++ th_todo th = cs /\
  StronglySorted (fun x y => fi_until x < fi_from y) (th_done th) /\
  Forall (fun x => fi_from x < fi_until x < g + length schedule) (th_done th).
Proof. destruct reached as [cs [E [A B C D _]]]. exists cs. auto. Qed.
(** Nothing is accepted that is not backed by a license that was valid during the call. *)
Theorem C86_sound x out : (forall j, order_ok (w_machine w j)) -> In x (th_done th) -> fi_result x = Ok (LICENSE_OK, out) ->
  let c := fi_call x in let feature := feature_of w (option_map ci_feature (cl_caller c)) in
  exists s content j k, In s (sources w (cl_hint c)) /\ present w (fi_from x) (fi_until x) s /\ given w (fi_from x) (fi_until x) s content /\
    fi_from x <= j < fi_until x /\ fi_from x <= k < fi_until x /\
    valid_license w feature (magic_of (option_map ci_magic (cl_caller c))) (section_entries content feature) (w_clock w j) (w_machine w k).
Proof.
  intros O Hx Hr. cbv zeta. pose proof C86_as_if_alone as F. rewrite Forall_forall in F. destruct (F x Hx) as [at_ [_ [A [B C]]]]. rewrite Hr in C. unfold alone in C. destruct (acquire_license (seen_at w at_) _ _ _ 0) as [[a t']| | |] eqn:E; try discriminate C. cbn in C. injection C as <-.
  pose proof (C85_duration _ _ _ _ _ _ _ E) as D. change (length (Spec_Accesses.accesses _ _ _ _ _)) with (duration (seen_at w at_) (fi_call x)) in D. rewrite Nat.add_0_l in D. rewrite <- D in B.
  assert (T : forall m, 0 <= m < t' -> fi_from x <= at_ m < fi_until x) by (intros m Hm; specialize (A m); specialize (B m); lia).
  apply C01_accept_sound in E; [|intros j; cbn; apply O]. cbv zeta in E. destruct E as [s [content [j [k [E1 [E2 [E3 [E4 [E5 E6]]]]]]]]]. exists s, content, (at_ j), (at_ k).
  split; [exact E1|]. split.
  { destruct s as [p|n s|n s|p s]; cbn [present] in *; try exact I; (destruct E2 as [m [Hm L]]; exists (at_ m); split; [apply T, Hm|exact L]). }
  split.
  { destruct s as [p|n s|n s|p s]; cbn [given] in *; [|inversion E3; subst; constructor; assumption..]. destruct E3 as [m [Hm L]]. exists (at_ m). split; [apply T, Hm|]. inversion L; subst. constructor. assumption. }
  split; [apply T, E4|]. split; [apply T, E5|]. exact E6.
Qed.
(** Where nothing changes meanwhile the calls return what they return alone: no thread's
    calls affect another's, in any schedule. *)
Theorem C86_independent x : static w -> In x (th_done th) -> fi_result x = alone w (fi_call x).
Proof.
  intros S Hx. pose proof C86_as_if_alone as F. rewrite Forall_forall in F. destruct (F x Hx) as [at_ [_ [_ [_ ->]]]]. rewrite !alone_run, program_seen.
  assert (G : forall m t, io_run (seen_at w at_) m t = io_run w m t :> res ((event_type * option out_info) * nat)).
  { induction m as [r|p k IH|p k IH|k IH|k IH]; intros t; cbn [io_run]; [reflexivity|..]; cbn [w_good w_file w_clock w_machine seen_at]; rewrite IH; destruct (S (at_ t) t) as [A [B [C D]]]; rewrite ?A, ?B, ?C, ?D; reflexivity. }
  rewrite G. reflexivity.
Qed.
End RUN.
Print Assumptions C86_as_if_alone. Print Assumptions C86_order. Print Assumptions C86_sound. Print Assumptions C86_independent.

(** *** No call waits for another *)
Definition work (w : world) (cs : list call) : nat := list_sum (map (fun c => 5 * length (sources w (cl_hint c)) + 2) cs).
Definition rank (w : world) (n : nat) (th : thread) : Prop :=
  match th_now th with
  | None => work w (th_todo th) <= n
  | Some (c, _, m) => exists is, went w (program w c) is m /\ work w (th_todo th) + (budget w c - length is) + 1 <= n
  end.
Lemma rank_step w g n th th' : rank w (S n) th -> advance w g th = Some th' -> rank w n th'.
Proof.
  intros R H. unfold advance in H. destruct th as [dn nw td]. unfold rank in R. cbn [th_done th_now th_todo] in *.
  assert (MORE : forall c from m, nw = Some (c, from, m) -> (forall r, m <> Done r) -> rank w n {| th_done := dn; th_now := Some (c, from, ask w g m); th_todo := td |}).
  { intros c from m -> N. destruct R as [is [W L]]. exists (is ++ [g]). assert (W' : went w (program w c) (is ++ [g]) (ask w g m)) by (apply went_more; assumption). split; [exact W'|]. apply went_short in W'. cbn [th_todo]. rewrite app_length in *. cbn [length] in *. lia. }
  destruct nw as [[[c from] m]|].
  - destruct m as [r|p k|p k|k|k]; [|injection H as <-; exact (MORE _ _ _ eq_refl ltac:(discriminate))..].
    assert (E : th_now th' = None /\ th_todo th' = td) by (destruct r; first [discriminate H|injection H as <-; split; reflexivity]). destruct E as [E1 E2]. unfold rank. rewrite E1, E2. destruct R as [is [_ L]]. lia.
  - destruct td as [|c cs]; injection H as <-; unfold rank; cbn [th_now th_todo]; [cbn; lia|]. exists []. split; [constructor|]. unfold work in *. cbn [map list_sum fold_right] in *. unfold budget. cbn [length]. unfold list_sum in *. cbn [fold_right] in R. lia.
Qed.
Lemma rank_run w g schedule pool pool' i n th : interleave w g schedule pool = Some pool' -> nth_error pool i = Some th -> rank w n th ->
  exists th', nth_error pool' i = Some th' /\ rank w (n - count_occ Nat.eq_dec schedule i) th'.
Proof.
  revert g pool n th. induction schedule as [|j schedule IH]; intros g pool n th H E R; cbn [interleave count_occ] in *; [injection H as <-; exists th; rewrite Nat.sub_0_r; auto|].
  destruct (Nat.eq_dec j i) as [->|N].
  - rewrite E in H. destruct (advance w g th) as [th1|] eqn:S; [|discriminate]. assert (R1 : rank w (n - 1) th1).
    { apply (rank_step w g (n - 1) th); [|exact S]. destruct n as [|n]; [|cbn; rewrite Nat.sub_0_r; exact R]. unfold rank in *. destruct (th_now th) as [[[c from] m]|]; [destruct R as [is [_ L]]; lia|lia]. }
    destruct (IH _ _ (n - 1) th1 H) as [th' [A B]]; [rewrite update_nth, Nat.eqb_refl, E; reflexivity|exact R1|]. exists th'. split; [exact A|]. replace (n - Datatypes.S (count_occ Nat.eq_dec schedule i)) with (n - 1 - count_occ Nat.eq_dec schedule i) by lia. exact B.
  - destruct (nth_error pool j) as [x|] eqn:X; [|eapply IH; eassumption]. destruct (advance w g x) as [x'|]; [|discriminate]. eapply IH; [exact H| |exact R]. rewrite update_nth. destruct (Nat.eqb_spec j i); [contradiction|exact E].
Qed.
(** A thread that is scheduled often enough has made all its calls, whatever the others do: five
    accesses at most for every source of every call, and two steps to begin and to return. *)
Theorem C86_wait_free w g schedule calls pool i cs : interleave w g schedule (map fresh calls) = Some pool -> nth_error calls i = Some cs ->
  list_sum (map (fun c => 5 * length (sources w (cl_hint c)) + 2) cs) <= count_occ Nat.eq_dec schedule i ->
  exists th, nth_error pool i = Some th /\ map fi_call (th_done th) = cs.
Proof.
  intros H E L. destruct (rank_run w g schedule _ pool i (work w cs) (fresh cs) H) as [th [A B]]; [rewrite nth_error_map, E; reflexivity|apply le_n|]. exists th. split; [exact A|]. replace (work w cs - _) with 0 in B by (unfold work; lia).
  destruct (C86_order _ _ _ _ _ _ _ H A) as [cs' [E' [O _]]]. rewrite E in E'. injection E' as <-. unfold rank in B. destruct (th_now th) as [[[c from] m]|]; [destruct B as [is [_ B]]; lia|]. destruct (th_todo th) as [|c l]; [rewrite !app_nil_r in O; exact O|]. unfold work in B. cbn in B. lia.
Qed.
Print Assumptions C86_wait_free.
(** Undefined behaviour of several threads is that of one of the calls alone. *)
Theorem C86_no_new_faults w g schedule calls : interleave w g schedule (map fresh calls) = None ->
  exists cs c at_ u, In cs calls /\ In c cs /\ (forall a b, a < b -> at_ a < at_ b) /\ (forall k, g < at_ k) /\ alone (seen_at w at_) c = Undef u.
Proof.
  intros H. assert (X : forall h pool, pool_inv w h calls pool -> (forall i th c from m, nth_error pool i = Some th -> th_now th = Some (c, from, m) -> g <= from) -> g <= h -> interleave w h schedule pool = None ->
    exists cs c at_ u, In cs calls /\ In c cs /\ (forall a b, a < b -> at_ a < at_ b) /\ (forall k, g < at_ k) /\ alone (seen_at w at_) c = Undef u).
  2: { apply (X g (map fresh calls)); [apply pool_fresh| |apply le_n|exact H]. intros i th c from m E. rewrite nth_error_map in E. destruct (nth_error calls i); [|discriminate]. injection E as <-. discriminate. }
  clear H. induction schedule as [|i schedule IH]; intros h pool P Q G H; cbn [interleave] in H; [discriminate|]. destruct (nth_error pool i) as [th|] eqn:E; [|apply (IH (S h) pool); [apply pool_later, P|exact Q|lia|exact H]]. destruct (advance w h th) as [th'|] eqn:A.
  - apply (IH (S h) (update pool i th')); [eapply pool_step; eassumption| |lia|exact H]. intros j x c from m Ej. rewrite update_nth in Ej. destruct (Nat.eqb_spec i j) as [->|N]; [|eapply Q, Ej]. rewrite E in Ej. injection Ej as <-. intros Hn. unfold advance in A.
    destruct (th_now th) as [[[c0 f0] m0]|] eqn:T.
    + destruct m0 as [r| | | |]; [destruct r; first [discriminate A|injection A as <-; discriminate Hn]|..]; injection A as <-; injection Hn as _ <- _; eapply Q; eassumption.
    + destruct (th_todo th); injection A as <-; [rewrite T in Hn; discriminate|]. injection Hn as _ <- _. exact G.
  - destruct (P i th E) as [cs [Ec [_ B _ _ R]]]. unfold advance in A. unfold current in B. unfold running in R. destruct (th_now th) as [[[c from] m]|] eqn:T; [|destruct (th_todo th); discriminate].
    destruct m as [r| | | |]; try discriminate. destruct r as [| |u|]; try discriminate. destruct R as [E1 [_ [is [E3 [E4 E5]]]]]. exists cs, c, (onward h is), u. split; [eapply nth_error_In, Ec|]. split; [rewrite <- B; apply in_or_app; right; left; reflexivity|]. split; [eapply onward_mono; eassumption|].
    split; [intros k; pose proof (onward_after h from is E1 E5 k); specialize (Q _ _ _ _ _ E T); lia|]. apply (went_done w (onward h is) c is (Undef u) E3 (onward_nth h is)).
Qed.
Print Assumptions C86_no_new_faults.

(** two threads, one of which finds the license in a file, the other in a text, in any of several
    schedules; a call by the first after the file is gone *)
Definition vanishing (n : nat) : world :=
  let w := demo true false NOW files [] in
  {| w_project := w_project w; w_magic := w_magic w; w_near_module := w_near_module w; w_with_env := w_with_env w;
     w_module := w_module w; w_getenv := w_getenv w; w_good := fun i p => (i <? n) && w_good w i p; w_file := fun i p => if i <? n then w_file w i p else None;
     w_clock := w_clock w; w_mktime := w_mktime w; w_bio := w_bio w; w_key_ok := w_key_ok w; w_verify := w_verify w; w_machine := w_machine w |}.
Definition near_call : call := {| cl_caller := Some (asking "demo"); cl_hint := None; cl_out := None |}.
Definition text_call : call := {| cl_caller := Some (asking "demo"); cl_hint := Some (hint_of 1 free_license); cl_out := None |}.
Definition results (o : option (list thread)) : option (list (list answer)) := option_map (map (fun th => map fi_result (th_done th))) o.
Example C86_case : let pool := map fresh [[near_call; near_call]; [text_call]] in
  (* one after the other, alternately, the second first *)
  results (interleave (vanishing 9) 0 (repeat 0 20 ++ repeat 1 20) pool) = Some [[Ok (LICENSE_OK, None); Throw ExRuntime (* gone between the look and the reading *)]; [Ok (LICENSE_OK, None)]] /\
  results (interleave (vanishing 9) 0 (concat (repeat [0; 1] 20)) pool) = Some [[Ok (LICENSE_OK, None); Ok (LICENSE_FILE_NOT_FOUND, None)]; [Ok (LICENSE_OK, None)]] /\
  results (interleave (vanishing 9) 0 (repeat 1 20 ++ repeat 0 20) pool) = Some [[Ok (LICENSE_FILE_NOT_FOUND, None); Ok (LICENSE_FILE_NOT_FOUND, None)]; [Ok (LICENSE_OK, None)]] /\
  results (interleave (demo true false NOW files []) 0 (concat (repeat [0; 1] 20)) pool) = Some [[Ok (LICENSE_OK, None); Ok (LICENSE_OK, None)]; [Ok (LICENSE_OK, None)]].
Proof. vm_compute. repeat split. Qed.
