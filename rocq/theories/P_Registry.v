(** Proofs about the event registry. *)
From Verif Require Import Base Registry P_Base Spec_Registry.

Lemma progress_stage e n : progress e = Some n <-> stage e n.
Proof. split; [destruct e; cbn; intros [= <-]; constructor | intros []; reflexivity]. Qed.
Lemma progress_failure e : progress e = None <-> failure e.
Proof.
  unfold failure. split.
  - intros H n Hs. apply progress_stage in Hs. congruence.
  - intros H. destruct (progress e) eqn:E; [|reflexivity]. exfalso. eapply H. apply progress_stage, E.
Qed.
Lemma stage_fun e n n' : stage e n -> stage e n' -> n = n'.
Proof. rewrite <- !progress_stage. congruence. Qed.
Lemma stage_nonneg e n : stage e n -> (0 <= n)%Z.
Proof. intros []; lia. Qed.

(** ** The invariant *)
Record reg_inv (r : registry) : Prop := {
  ri_sorted : sm_sorted (adv r);
  ri_index : forall k i, sm_get k (adv r) = Some i ->
               exists ev, nth_error (logs r) i = Some ev /\ ev_ref ev = k }.

(** ... and for add-only histories *)
Record reg_inv_add (r : registry) : Prop := {
  ra_furthest : furthest (log_trace r) (step r);
  ra_news : forall k i, sm_get k (adv r) = Some i <-> latest_news (log_trace r) (step r) k i;
  ra_reached : forall k i, reached (log_trace r) (step r) k i -> exists i', sm_get k (adv r) = Some i' }.

Lemma reg_inv_empty : reg_inv reg_empty.
Proof. split; cbn; [exact I|discriminate]. Qed.

Lemma nil_nth {A} i : nth_error (@nil A) i = None.
Proof. destruct i; reflexivity. Qed.

Lemma reg_inv_add_empty : reg_inv_add reg_empty.
Proof.
  split; cbn.
  - split; [intros ? ? ? []|auto].
  - intros k i. split; [discriminate|]. intros [[e [H _]] _]. rewrite nil_nth in H. discriminate.
  - intros k i [j [e [_ [H _]]]]. rewrite nil_nth in H. discriminate.
Qed.

Lemma nth_error_snoc {A} (l : list A) x i y :
  nth_error (l ++ [x]) i = Some y <-> (nth_error l i = Some y) \/ (i = length l /\ x = y).
Proof.
  destruct (Nat.lt_ge_cases i (length l)) as [H|H].
  - rewrite nth_error_app1 by exact H. split; [auto|]. intros [E|[E _]]; [exact E|lia].
  - rewrite nth_error_app2 by exact H.
    assert (nth_error l i = None) as -> by (apply nth_error_None; exact H).
    destruct (i - length l) as [|n] eqn:E.
    + cbn. split; [intros [= ->]; right; split; [lia|reflexivity]|intros [?|[_ ->]]; [discriminate|reflexivity]].
    + cbn. rewrite nil_nth. split; [discriminate|]. intros [?|[? _]]; [discriminate|lia].
Qed.
Lemma nth_error_lt {A} (l : list A) i y : nth_error l i = Some y -> i < length l.
Proof. intros H. apply nth_error_Some. congruence. Qed.

Definition add_ref (id : option bytes) :=
  match id with None => bs "UNDEF" | Some s => firstn MAX_PATH (cstr s) end.
Lemma add_ref_reference id : length (reference id) < 1024 -> add_ref id = reference id.
Proof. destruct id; cbn [reference add_ref]; [|reflexivity]. intros H. apply firstn_all2. unfold MAX_PATH. lia. Qed.
Lemma reference_fits id : length (add_ref id) < 1024 <-> length (reference id) < 1024.
Proof.
  destruct id; cbn [reference add_ref]; [|cbn; tauto]. rewrite firstn_length. unfold MAX_PATH. lia.
Qed.

Definition recorded e id info : event :=
  {| ev_sev := match progress e with Some _ => SVRT_INFO | None => SVRT_WARN end;
     ev_type := e; ev_ref := add_ref id; ev_param2 := extra info |}.

(** add_event on a fitting reference, in closed form *)
Definition add_plain e id info r : registry :=
  let idx := length (logs r) in
  let logs' := logs r ++ [recorded e id info] in
  let key := add_ref id in
  match progress e with
  | Some st =>
      let '(step', adv') := if Z.ltb (step r) st then (st, []) else (step r, adv r) in
      {| logs := logs'; step := step'; adv := if Z.eqb st step' then sm_set key idx adv' else adv' |}
  | None => {| logs := logs'; step := step r; adv := if sm_mem key (adv r) then sm_set key idx (adv r) else adv r |}
  end.

Lemma add_event_plain e id info r : length (reference id) < 1024 -> add_event e id info r = Ok (add_plain e id info r).
Proof.
  intros H. apply reference_fits in H. unfold add_event, add_plain. cbv zeta. fold (add_ref id).
  change (match info with None => [] | Some s => firstn 255 (cstr s) end) with (extra info).
  fold (recorded e id info). rewrite app_length. cbn [length].
  replace (length (logs r) + 1 - 1) with (length (logs r)) by lia.
  unfold ref_string. replace (length (add_ref id) <? MAX_PATH) with true by (symmetry; apply Nat.ltb_lt; exact H).
  destruct (progress e) as [st|]; [|reflexivity].
  destruct (if Z.ltb (step r) st then (st, []) else (step r, adv r)) as [s' a'].
  destruct (Z.eqb st s'); reflexivity.
Qed.

(** add_event either is add_plain, or is undefined because of a too long
    reference, or (a stage already passed) does not look at the reference. *)
Lemma add_event_ok e id info r r' : add_event e id info r = Ok r' ->
  (length (reference id) < 1024 /\ r' = add_plain e id info r) \/
  (exists st, progress e = Some st /\ (st < step r)%Z /\
     r' = {| logs := logs r ++ [recorded e id info]; step := step r; adv := adv r |}).
Proof.
  destruct (Nat.lt_ge_cases (length (reference id)) 1024) as [H|H].
  - rewrite add_event_plain by exact H. intros [= <-]. auto.
  - intros E. right. unfold add_event in E. cbv zeta in E. fold (add_ref id) in E.
    assert (Hr : ref_string (add_ref id) = Undef UbRead).
    { unfold ref_string. destruct (Nat.ltb_spec (length (add_ref id)) MAX_PATH) as [L|L]; [|reflexivity].
      apply reference_fits in L. lia. }
    rewrite Hr in E. destruct (progress e) as [st|] eqn:Ep; [|discriminate].
    exists st. split; [reflexivity|].
    destruct (Z.ltb_spec (step r) st).
    + rewrite Z.eqb_refl in E. discriminate.
    + destruct (Z.eqb_spec st (step r)); [discriminate|]. split; [lia|].
      injection E as <-. unfold recorded. rewrite Ep. reflexivity.
Qed.

Lemma reg_inv_grow r ev : reg_inv r -> reg_inv {| logs := logs r ++ [ev]; step := step r; adv := adv r |}.
Proof.
  intros [Hs Hi]. split; cbn; [exact Hs|]. intros k i H. apply Hi in H as [ev' [E Er]].
  exists ev'. split; [|exact Er]. apply nth_error_snoc. auto.
Qed.

Lemma reg_inv_add_plain e id info r : reg_inv r -> reg_inv (add_plain e id info r).
Proof.
  intros [Hs Hi]. unfold add_plain.
  assert (G : forall a s, sm_sorted a -> (forall k i, sm_get k a = Some i -> sm_get k (adv r) = Some i) ->
     forall b, reg_inv {| logs := logs r ++ [recorded e id info]; step := s;
                          adv := if (b : bool) then sm_set (add_ref id) (length (logs r)) a else a |}).
  { intros a s Ha Hsub b. split; cbn [adv logs].
    - destruct b; [apply sm_set_sorted|]; exact Ha.
    - intros k i H.
      assert (K : (k = add_ref id /\ i = length (logs r)) \/ sm_get k (adv r) = Some i).
      { destruct b; [|right; apply Hsub, H]. rewrite sm_get_set in H. destruct (beqb_spec k (add_ref id)) as [->|]; [injection H as <-; auto|right; apply Hsub, H]. }
      destruct K as [[-> ->]|K].
      + exists (recorded e id info). rewrite nth_error_app_last. auto.
      + apply Hi in K as [ev [E Er]]. exists ev. split; [apply nth_error_snoc; auto|exact Er]. }
  destruct (progress e) as [st|].
  - destruct (Z.ltb (step r) st); [apply (G [] st); cbn; [exact I|discriminate]|apply (G (adv r) (step r)); auto].
  - apply (G (adv r) (step r)); auto.
Qed.

(** ** Conversions *)
Lemma list_upd_length {A} i (x : A) l : length (list_upd i x l) = length l.
Proof. revert i; induction l as [|y l IH]; intros [|i]; cbn; auto. Qed.
Lemma list_upd_nth {A} i (x : A) l j : i < length l ->
  nth_error (list_upd i x l) j = if Nat.eqb j i then Some x else nth_error l j.
Proof.
  revert i j; induction l as [|y l IH]; intros [|i] [|j] H; cbn in *; try lia; try reflexivity.
  rewrite IH by lia. destruct (Nat.eqb j i); reflexivity.
Qed.

Definition nonfine (e : event) : bool := is_warn e || is_error e.
Lemma nonfine_info e : nonfine e = false <-> ev_sev e = SVRT_INFO.
Proof. unfold nonfine, is_warn, is_error. destruct (ev_sev e); cbn; split; congruence. Qed.

(** positions indexed by the map, with a non INFO event *)
Definition marked (m : smap nat) (l : list event) (i : nat) : bool :=
  existsb (fun p => Nat.eqb (snd p) i && match nth_error l i with Some e => nonfine e | None => false end) m.

Lemma nonfine_set_sev e : nonfine (set_sev SVRT_ERROR e) = true.
Proof. reflexivity. Qed.

Lemma raise_adv_spec m l found : (forall k i, In (k, i) m -> i < length l) ->
  exists l', raise_adv m l found =
    Ok (l', found || existsb (fun p => match nth_error l (snd p) with Some e => nonfine e | None => false end) m) /\
  length l' = length l /\
  forall i, nth_error l' i = option_map (fun e => if marked m l i then set_sev SVRT_ERROR e else e) (nth_error l i).
Proof.
  revert l found; induction m as [|[k i] m IH]; intros l found H; cbn [raise_adv].
  - exists l. rewrite orb_false_r. split; [reflexivity|split; [reflexivity|]]. intros i. destruct (nth_error l i); reflexivity.
  - assert (Hi : i < length l) by (apply (H k); left; reflexivity).
    destruct (nth_error l i) as [e|] eqn:E; [|apply nth_error_None in E; lia].
    fold (nonfine e). destruct (nonfine e) eqn:En.
    + set (l1 := list_upd i (set_sev SVRT_ERROR e) l).
      assert (Hnf : forall j, (match nth_error l1 j with Some e => nonfine e | None => false end) =
                              (match nth_error l j with Some e => nonfine e | None => false end)).
      { intros j. unfold l1. rewrite list_upd_nth by exact Hi. destruct (Nat.eqb_spec j i) as [->|]; [rewrite E, En; reflexivity|reflexivity]. }
      destruct (IH l1 true) as [l' [E' [Hl Hn]]].
      { intros k' i' H'. unfold l1. rewrite list_upd_length. apply (H k'). right. exact H'. }
      exists l'. split; [|split].
      * rewrite E'. f_equal. f_equal. cbn [existsb snd]. rewrite E, En. rewrite orb_true_r. reflexivity.
      * rewrite Hl. apply list_upd_length.
      * intros j. rewrite Hn. unfold l1 at 2. rewrite list_upd_nth by exact Hi.
        assert (Hm : marked m l1 j = marked m l j).
        { unfold marked. clear -Hnf. induction m as [|p m IHm]; cbn; [reflexivity|]. rewrite IHm, Hnf. reflexivity. }
        rewrite Hm. destruct (Nat.eqb_spec j i) as [->|Hne].
        -- rewrite E. cbn [option_map]. f_equal. assert (marked ((k, i) :: m) l i = true) as ->.
           { unfold marked. cbn [existsb snd]. rewrite Nat.eqb_refl, E, En. reflexivity. }
           destruct (marked m l i); reflexivity.
        -- unfold marked at 2. cbn [existsb snd]. apply Nat.eqb_neq in Hne. rewrite (Nat.eqb_sym i j), Hne. cbn. reflexivity.
    + destruct (IH l found) as [l' [E' [Hl Hn]]].
      { intros k' i' H'. apply (H k'). right. exact H'. }
      exists l'. split; [|split; [exact Hl|]].
      * rewrite E'. f_equal. f_equal. cbn [existsb snd]. rewrite E, En. reflexivity.
      * intros j. rewrite Hn.
        assert (marked ((k, i) :: m) l j = marked m l j) as ->; [|reflexivity].
        unfold marked. cbn [existsb snd].
        destruct (Nat.eqb_spec i j) as [<-|]; [rewrite E, En; reflexivity|reflexivity].
Qed.

Lemma nth_error_ext {A} (l l' : list A) : (forall i, nth_error l i = nth_error l' i) -> l = l'.
Proof.
  revert l'; induction l as [|x l IH]; intros [|y l'] H.
  - reflexivity.
  - specialize (H 0). discriminate.
  - specialize (H 0). discriminate.
  - pose proof (H 0) as E. injection E as ->. f_equal. apply IH. intros i. apply (H (S i)).
Qed.

Lemma map_same {A B} (g : A -> B) (f : nat -> A -> A) l l' :
  (forall i x, g (f i x) = g x) ->
  (forall i, nth_error l' i = option_map (f i) (nth_error l i)) -> map g l' = map g l.
Proof.
  intros Hg H. apply nth_error_ext. intros i. rewrite !nth_error_map, H.
  destruct (nth_error l i); cbn; [rewrite Hg|]; reflexivity.
Qed.

Lemma reg_inv_in_lt r k i : reg_inv r -> In (k, i) (adv r) -> i < length (logs r).
Proof.
  intros [Hs Hi] H. apply sm_in_get in H; [|exact Hs]. apply Hi in H as [ev [E _]]. eapply nth_error_lt, E.
Qed.

(** The severities after turnWarningsIntoErrors. *)
Definition raised (r : registry) (i : nat) (e : event) : event :=
  if existsb (fun p => match nth_error (logs r) (snd p) with Some e => nonfine e | None => false end) (adv r)
  then if marked (adv r) (logs r) i then set_sev SVRT_ERROR e else e
  else if is_warn e then set_sev SVRT_ERROR e else e.

Lemma turn_warnings_spec r : reg_inv r ->
  exists r' b, turn_warnings_into_errors r = Ok (r', b) /\ step r' = step r /\ adv r' = adv r /\
    (forall i, nth_error (logs r') i = option_map (raised r i) (nth_error (logs r) i)) /\
    b = (existsb (fun p => match nth_error (logs r) (snd p) with Some e => nonfine e | None => false end) (adv r)
         || existsb is_warn (logs r)).
Proof.
  intros Hinv. unfold turn_warnings_into_errors.
  destruct (raise_adv_spec (adv r) (logs r) false) as [l [E [Hl Hn]]].
  { intros k i H. eapply reg_inv_in_lt; eassumption. }
  rewrite E. cbn [rbind orb]. unfold raised.
  destruct (existsb _ (adv r)) eqn:Ex.
  - exists {| logs := l; step := step r; adv := adv r |}, true. cbn. repeat split. exact Hn.
  - assert (Hll : l = logs r).
    { apply nth_error_ext. intros i. rewrite Hn. destruct (nth_error (logs r) i) as [e|] eqn:Ei; [|reflexivity].
      cbn. f_equal. destruct (marked (adv r) (logs r) i) eqn:Em; [|reflexivity]. exfalso.
      apply existsb_exists in Em as [p [Hp Hm]]. apply andb_prop in Hm as [H1 H2]. apply Nat.eqb_eq in H1.
      assert (existsb (fun p => match nth_error (logs r) (snd p) with Some e => nonfine e | None => false end) (adv r) = true).
      { apply existsb_exists. exists p. split; [exact Hp|]. rewrite H1. exact H2. }
      congruence. }
    rewrite Hll. eexists _, _. split; [reflexivity|]. cbn [step adv logs orb]. repeat split.
    intros i. rewrite nth_error_map. reflexivity.
Qed.

Lemma raised_type r i e : ev_type (raised r i e) = ev_type e.
Proof. unfold raised. repeat match goal with |- context [if ?b then _ else _] => destruct b end; reflexivity. Qed.
Lemma raised_ref r i e : ev_ref (raised r i e) = ev_ref e.
Proof. unfold raised. repeat match goal with |- context [if ?b then _ else _] => destruct b end; reflexivity. Qed.
Lemma raised_param r i e : ev_param2 (raised r i e) = ev_param2 e.
Proof. unfold raised. repeat match goal with |- context [if ?b then _ else _] => destruct b end; reflexivity. Qed.

Lemma reg_inv_change f r r' : (forall i e, ev_ref (f i e) = ev_ref e) ->
  adv r' = adv r -> (forall i, nth_error (logs r') i = option_map (f i) (nth_error (logs r) i)) ->
  reg_inv r -> reg_inv r'.
Proof.
  intros Hf Ha Hn [Hs Hi]. split; rewrite Ha; [exact Hs|]. intros k i H. apply Hi in H as [ev [E Er]].
  exists (f i ev). rewrite Hn, E. split; [reflexivity|]. rewrite Hf. exact Er.
Qed.

Lemma turn_errors_nth r i : nth_error (logs (fst (turn_errors_into_warnings r))) i =
  option_map (fun e => if is_error e then set_sev SVRT_WARN e else e) (nth_error (logs r) i).
Proof. cbn. apply nth_error_map. Qed.

Lemma reg_step_inv r op r' : reg_inv r -> reg_step r op = Ok r' -> reg_inv r'.
Proof.
  intros Hinv H. destruct op; cbn [reg_step] in H.
  - apply add_event_ok in H as [[_ ->]|[st [_ [_ ->]]]]; [apply reg_inv_add_plain|apply reg_inv_grow]; exact Hinv.
  - injection H as <-. apply reg_inv_grow, Hinv.
  - injection H as <-. destruct Hinv as [Hs Hi]. split; cbn; [exact Hs|]. intros k i H.
    apply Hi in H as [ev [E Er]]. exists ev. split; [|exact Er]. rewrite nth_error_app1; [exact E|eapply nth_error_lt, E].
  - destruct (turn_warnings_spec r Hinv) as [r2 [b [E [_ [Ea [Hn _]]]]]]. rewrite E in H. cbn in H. injection H as <-.
    eapply reg_inv_change; [|exact Ea|exact Hn|exact Hinv]. intros. apply raised_ref.
  - injection H as <-. eapply (reg_inv_change (fun _ e => if is_error e then set_sev SVRT_WARN e else e)); [| |apply turn_errors_nth|exact Hinv].
    + intros _ e. destruct (is_error e); reflexivity.
    + reflexivity.
Qed.

Lemma reg_run_inv ops r r' : reg_inv r -> reg_run ops r = Ok r' -> reg_inv r'.
Proof.
  revert r; induction ops as [|op ops IH]; intros r Hr H; cbn in H; [injection H as <-; exact Hr|].
  apply rbind_ok in H as [r1 [E H]]. eapply IH; [|exact H]. eapply reg_step_inv; eassumption.
Qed.

(** ** Progress only of what fits; runs never get stuck *)
Lemma reg_run_defined ops r : reg_inv r -> Forall op_fits ops -> exists r', reg_run ops r = Ok r'.
Proof.
  revert r; induction ops as [|op ops IH]; intros r Hr H; cbn; [eauto|].
  inversion H as [|? ? Hop Hops]; subst.
  assert (exists r1, reg_step r op = Ok r1) as [r1 E].
  { destruct op; cbn; try eauto.
    - rewrite add_event_plain by exact Hop. eauto.
    - destruct (turn_warnings_spec r Hr) as [r2 [b [E _]]]. rewrite E. cbn. eauto. }
  rewrite E. cbn. apply IH; [eapply reg_step_inv; eassumption|exact Hops].
Qed.

(** ** The log *)
Definition view (ev : event) := (ev_type ev, ev_ref ev, ev_param2 ev).

Lemma reg_step_view r op r' : reg_inv r -> op_fits op -> reg_step r op = Ok r' ->
  map view (logs r') = map view (logs r) ++ op_events op.
Proof.
  intros Hinv Hf H. destruct op; cbn [reg_step op_events] in *.
  - rewrite add_event_plain in H by exact Hf. injection H as <-.
    assert (logs (add_plain e id info r) = logs r ++ [recorded e id info]) as ->.
    { unfold add_plain. destruct (progress e) as [st|]; [destruct (Z.ltb (step r) st)|]; reflexivity. }
    rewrite map_app. cbn. unfold view. cbn. rewrite add_ref_reference by exact Hf. reflexivity.
  - injection H as <-. cbn. rewrite map_app. reflexivity.
  - injection H as <-. cbn. rewrite map_app. reflexivity.
  - destruct (turn_warnings_spec r Hinv) as [r2 [b [E [_ [_ [Hn _]]]]]]. rewrite E in H. cbn in H. injection H as <-.
    rewrite app_nil_r. eapply map_same; [|exact Hn]. intros i x. unfold view. rewrite raised_type, raised_ref, raised_param. reflexivity.
  - injection H as <-. rewrite app_nil_r. cbn. rewrite map_map. apply map_ext. intros e. destruct (is_error e); reflexivity.
Qed.

Lemma reg_run_view ops r r' : reg_inv r -> Forall op_fits ops -> reg_run ops r = Ok r' ->
  map view (logs r') = map view (logs r) ++ concat (map op_events ops).
Proof.
  revert r; induction ops as [|op ops IH]; intros r Hr Hf H; cbn in H.
  - injection H as <-. cbn. rewrite app_nil_r. reflexivity.
  - apply rbind_ok in H as [r1 [E H]]. inversion Hf; subst.
    rewrite (IH r1); [|eapply reg_step_inv; eassumption|assumption|exact H].
    rewrite (reg_step_view r op r1) by assumption. cbn. rewrite app_assoc. reflexivity.
Qed.

Lemma reg_step_progress r op r' : reg_inv r -> reg_step r op = Ok r' -> (step r <= step r')%Z.
Proof.
  intros Hinv H. destruct op; cbn [reg_step] in H.
  - apply add_event_ok in H as [[_ ->]|[st [_ [_ ->]]]]; [|cbn; lia].
    unfold add_plain. destruct (progress e) as [st|]; [|cbn; lia]. destruct (Z.ltb_spec (step r) st); cbn; lia.
  - injection H as <-. cbn. lia.
  - injection H as <-. cbn. lia.
  - destruct (turn_warnings_spec r Hinv) as [r2 [b [E [Es _]]]]. rewrite E in H. cbn in H. injection H as <-. lia.
  - injection H as <-. cbn. lia.
Qed.
Lemma reg_run_progress ops r r' : reg_inv r -> reg_run ops r = Ok r' -> (step r <= step r')%Z.
Proof.
  revert r; induction ops as [|op ops IH]; intros r Hr H; cbn in H; [injection H as <-; lia|].
  apply rbind_ok in H as [r1 [E H]]. pose proof (reg_step_progress _ _ _ Hr E).
  apply reg_step_inv in E; [|exact Hr]. apply IH in H; [lia|exact E].
Qed.

(** ** Add-only histories *)
Lemma log_trace_snoc r e id info s a :
  log_trace {| logs := logs r ++ [recorded e id info]; step := s; adv := a |} = log_trace r ++ [(e, add_ref id)].
Proof. unfold log_trace. cbn. rewrite map_app. reflexivity. Qed.

Lemma log_trace_length r : length (log_trace r) = length (logs r).
Proof. unfold log_trace. apply map_length. Qed.

Lemma furthest_ge l s e k n : furthest l s -> In (e, k) l -> stage e n -> (n <= s)%Z.
Proof. intros [H _]. apply H. Qed.
Lemma reached_in l s k i : reached l s k i -> exists e, In (e, k) l /\ stage e s.
Proof. intros [j [e [_ [H Hs]]]]. exists e. split; [eapply nth_error_In, H|exact Hs]. Qed.

Lemma reached_snoc l s k x i : reached (l ++ [x]) s k i ->
  reached l s k i \/ (length l <= i /\ snd x = k /\ stage (fst x) s).
Proof.
  intros [j [e [Hj [H Hs]]]]. apply nth_error_snoc in H as [H|[-> ->]].
  - left. exists j, e. auto.
  - right. auto.
Qed.
Lemma reached_weaken l s k x i i' : i <= i' -> reached l s k i -> reached (l ++ [x]) s k i'.
Proof. intros Hi [j [e [Hj [H Hs]]]]. exists j, e. split; [lia|]. split; [apply nth_error_snoc; auto|exact Hs]. Qed.

(** an event about another license, or an already passed stage, is no news *)
Lemma news_skip l s k x i : (snd x = k -> exists n, stage (fst x) n /\ n <> s) ->
  latest_news (l ++ [x]) s k i <-> latest_news l s k i.
Proof.
  intros Hx. split.
  - intros [[e [He Hse]] [Hr Hl]].
    apply nth_error_snoc in He as [He|[-> ->]].
    + split; [eauto|]. split.
      * apply reached_snoc in Hr as [Hr|[Hr _]]; [exact Hr|]. apply nth_error_lt in He. lia.
      * intros i' e' Hi' He'. eapply Hl; [exact Hi'|]. apply nth_error_snoc. auto.
    + exfalso. destruct (Hx eq_refl) as [n [Hn Hne]]. cbn in Hn. destruct Hse as [Hse|Hf]; [eapply Hne, stage_fun; eassumption|eapply Hf, Hn].
  - intros [[e [He Hse]] [Hr Hl]]. split; [exists e; split; [apply nth_error_snoc; auto|exact Hse]|]. split.
    + eapply reached_weaken; [|exact Hr]. lia.
    + intros i' e' Hi' He'. apply nth_error_snoc in He' as [He'|[-> ->]]; [eapply Hl; eassumption|]. apply Hx. reflexivity.
Qed.

(** the new event is the news about its own license *)
Lemma news_here l s e k i : (stage e s \/ failure e) -> (exists i', reached (l ++ [(e, k)]) s k i' ) ->
  latest_news (l ++ [(e, k)]) s k i <-> i = length l.
Proof.
  intros Hse [i0 Hr0]. split.
  - intros [[e' [He' Hse']] [Hr Hl]].
    destruct (Nat.lt_trichotomy i (length l)) as [H|[H|H]]; [exfalso|exact H|].
    + destruct (Hl (length l) e H) as [n [Hn Hne]]; [apply nth_error_app_last|].
      destruct Hse as [Hse|Hf]; [eapply Hne, stage_fun; eassumption|eapply Hf, Hn].
    + apply nth_error_lt in He'. rewrite app_length in He'. cbn in He'. lia.
  - intros ->. split; [exists e; split; [apply nth_error_app_last|exact Hse]|]. split.
    + destruct Hr0 as [j [e' [Hj [H Hs]]]]. exists j, e'. split; [|auto]. apply nth_error_lt in H. rewrite app_length in H. cbn in H. lia.
    + intros i' e' Hi' He'. apply nth_error_lt in He'. rewrite app_length in He'. cbn in He'. lia.
Qed.

Lemma news_reached l s k i : latest_news l s k i -> reached l s k i.
Proof. intros [_ [H _]]. exact H. Qed.

Lemma add_plain_inv_add e id info r : reg_inv r -> reg_inv_add r -> reg_inv_add (add_plain e id info r).
Proof.
  intros Hi [Hf Hnw Hre]. unfold add_plain. set (k0 := add_ref id).
  destruct (progress e) as [st|] eqn:Ep.
  - pose proof (proj1 (progress_stage e st) Ep) as Hst.
    destruct (Z.ltb_spec (step r) st) as [Hlt|Hge].
    + (* a new furthest stage *)
      rewrite Z.eqb_refl.
      assert (Hnone : forall k i, ~ reached (log_trace r) st k i).
      { intros k i H. apply reached_in in H as [e' [Hin Hs']]. pose proof (furthest_ge _ _ _ _ _ Hf Hin Hs'). lia. }
      split; rewrite log_trace_snoc; fold k0; cbn [step adv logs].
      * split.
        -- intros e' k' n Hin Hn. apply in_app_iff in Hin as [Hin|[[= <- <-]|[]]].
           ++ pose proof (furthest_ge _ _ _ _ _ Hf Hin Hn). lia.
           ++ rewrite (stage_fun _ _ _ Hn Hst). lia.
        -- right. exists e, k0. split; [apply in_app_iff; cbn; auto|exact Hst].
      * intros k i. cbn [sm_set sm_get]. destruct (beqb_spec k k0) as [->|Hk].
        -- rewrite news_here; [|auto|].
           ++ rewrite log_trace_length. split; [intros [= <-]; reflexivity|intros ->; reflexivity].
           ++ exists (length (log_trace r)), (length (log_trace r)), e. split; [lia|]. split; [apply nth_error_app_last|exact Hst].
        -- split; [discriminate|]. intros H. apply news_reached, reached_snoc in H as [H|[_ [H _]]]; [exfalso; eapply Hnone, H|]. cbn in H. congruence.
      * intros k i H. apply reached_snoc in H as [H|[_ [H _]]]; [exfalso; eapply Hnone, H|]. cbn in H. subst k.
        cbn. rewrite beqb_refl. eauto.
    + destruct (Z.eqb_spec st (step r)) as [->|Hne].
      * split; rewrite log_trace_snoc; fold k0; cbn [step adv logs].
        -- split.
           ++ intros e' k' n Hin Hn. apply in_app_iff in Hin as [Hin|[[= <- <-]|[]]].
              ** apply (furthest_ge _ _ _ _ _ Hf Hin Hn).
              ** rewrite (stage_fun _ _ _ Hn Hst). lia.
           ++ right. exists e, k0. split; [apply in_app_iff; cbn; auto|exact Hst].
        -- intros k i. rewrite sm_get_set. destruct (beqb_spec k k0) as [->|Hk].
           ++ rewrite news_here; [|auto|].
              ** rewrite log_trace_length. split; [intros [= <-]; reflexivity|intros ->; reflexivity].
              ** exists (length (log_trace r)), (length (log_trace r)), e. split; [lia|]. split; [apply nth_error_app_last|exact Hst].
           ++ rewrite news_skip; [apply Hnw|]. cbn. congruence.
        -- intros k i H. rewrite sm_get_set. destruct (beqb_spec k k0) as [->|Hk]; [eauto|].
           apply reached_snoc in H as [H|[_ [H _]]]; [eapply Hre, H|]. cbn in H. congruence.
      * split; rewrite log_trace_snoc; fold k0; cbn [step adv logs].
        -- split.
           ++ intros e' k' n Hin Hn. apply in_app_iff in Hin as [Hin|[[= <- <-]|[]]].
              ** apply (furthest_ge _ _ _ _ _ Hf Hin Hn).
              ** rewrite (stage_fun _ _ _ Hn Hst). lia.
           ++ destruct (proj2 Hf) as [E|[e' [k' [Hin Hs']]]]; [left; exact E|right]. exists e', k'. split; [apply in_app_iff; auto|exact Hs'].
        -- intros k i. rewrite news_skip; [apply Hnw|]. cbn. intros _. exists st. auto.
        -- intros k i H. apply reached_snoc in H as [H|[_ [_ H]]]; [eapply Hre, H|]. cbn in H. exfalso. apply Hne, (stage_fun _ _ _ Hst H).
  - pose proof (proj1 (progress_failure e) Ep) as Hfail.
    split; rewrite log_trace_snoc; fold k0; cbn [step adv logs].
    + split.
      * intros e' k' n Hin Hn. apply in_app_iff in Hin as [Hin|[[= <- <-]|[]]].
        -- apply (furthest_ge _ _ _ _ _ Hf Hin Hn).
        -- exfalso. eapply Hfail, Hn.
      * destruct (proj2 Hf) as [E|[e' [k' [Hin Hs']]]]; [left; exact E|right]. exists e', k'. split; [apply in_app_iff; auto|exact Hs'].
    + intros k i. destruct (beqb_spec k k0) as [->|Hk].
      * unfold sm_mem. destruct (sm_get k0 (adv r)) as [i0|] eqn:Eg.
        -- rewrite sm_get_set_eq. rewrite news_here; [|auto|].
           ++ rewrite log_trace_length. split; [intros [= <-]; reflexivity|intros ->; reflexivity].
           ++ apply Hnw, news_reached in Eg. exists i0. eapply reached_weaken; [|exact Eg]. lia.
        -- rewrite Eg. split; [discriminate|]. intros H. apply news_reached, reached_snoc in H as [H|[_ [_ H]]].
           ++ apply Hre in H as [i' H]. congruence.
           ++ exfalso. eapply Hfail, H.
      * rewrite news_skip by (cbn; congruence).
        destruct (sm_mem k0 (adv r)); [rewrite sm_get_set_neq by exact Hk|]; apply Hnw.
    + intros k i H. apply reached_snoc in H as [H|[_ [_ H]]]; [|exfalso; eapply Hfail, H].
      apply Hre in H as [i' H]. destruct (sm_mem k0 (adv r)); [|eauto]. rewrite sm_get_set. destruct (beqb k k0); eauto.
Qed.

Lemma grow_inv_add e id info r st : reg_inv_add r -> progress e = Some st -> (st < step r)%Z ->
  reg_inv_add {| logs := logs r ++ [recorded e id info]; step := step r; adv := adv r |}.
Proof.
  intros [Hf Hnw Hre] Ep Hlt. pose proof (proj1 (progress_stage e st) Ep) as Hst.
  split; rewrite log_trace_snoc; cbn [step adv logs].
  - split.
    + intros e' k' n Hin Hn. apply in_app_iff in Hin as [Hin|[[= <- <-]|[]]].
      * apply (furthest_ge _ _ _ _ _ Hf Hin Hn).
      * rewrite (stage_fun _ _ _ Hn Hst). lia.
    + destruct (proj2 Hf) as [E|[e' [k' [Hin Hs']]]]; [left; exact E|right]. exists e', k'. split; [apply in_app_iff; auto|exact Hs'].
  - intros k i. rewrite news_skip; [apply Hnw|]. cbn. intros _. exists st. split; [exact Hst|lia].
  - intros k i H. apply reached_snoc in H as [H|[_ [_ H]]]; [eapply Hre, H|]. cbn in H. pose proof (stage_fun _ _ _ Hst H). lia.
Qed.

Lemma inv_add_change r r' : log_trace r' = log_trace r -> step r' = step r -> adv r' = adv r ->
  reg_inv_add r -> reg_inv_add r'.
Proof. intros H1 H2 H3 [A B C]. split; rewrite H1, H2; [exact A|intros k i; rewrite H3; apply B|intros k i; rewrite H3; apply C]. Qed.

Lemma reg_step_inv_add r op r' : reg_inv r -> reg_inv_add r -> op_add op -> reg_step r op = Ok r' -> reg_inv_add r'.
Proof.
  intros Hi Ha Hop H. destruct op; cbn [op_add] in Hop; try contradiction; cbn [reg_step] in H.
  - apply add_event_ok in H as [[_ ->]|[st [Ep [Hlt ->]]]]; [apply add_plain_inv_add; assumption|eapply grow_inv_add; eassumption].
  - destruct (turn_warnings_spec r Hi) as [r2 [b [E [Es [Ea [Hn _]]]]]]. rewrite E in H. cbn in H. injection H as <-.
    eapply inv_add_change; [|exact Es|exact Ea|exact Ha].
    unfold log_trace. eapply map_same; [|exact Hn]. intros i x. rewrite raised_type, raised_ref. reflexivity.
  - injection H as <-. eapply inv_add_change; [| | |exact Ha]; try reflexivity.
    unfold log_trace. cbn. rewrite map_map. apply map_ext. intros e. destruct (is_error e); reflexivity.
Qed.

Lemma reg_run_inv_add ops r r' : reg_inv r -> reg_inv_add r -> Forall op_add ops -> reg_run ops r = Ok r' ->
  reg_inv_add r'.
Proof.
  revert r; induction ops as [|op ops IH]; intros r Hi Ha Hf H; cbn in H; [injection H as <-; exact Ha|].
  apply rbind_ok in H as [r1 [E H]]. inversion Hf; subst.
  eapply (IH r1); [eapply reg_step_inv; eassumption|eapply reg_step_inv_add; eassumption|assumption|exact H].
Qed.

(** ** Failure selection *)
Lemma last_error_spec l :
  match last_error l with
  | None => Forall (fun e => is_error e = false) l
  | Some e => is_error e = true /\ exists p q, l = p ++ e :: q /\ Forall (fun e => is_error e = false) q
  end.
Proof.
  induction l as [|x l IH]; cbn; [constructor|].
  destruct (last_error l) as [e|].
  - destruct IH as [He [p [q [-> Hq]]]]. split; [exact He|]. exists (x :: p), q. auto.
  - destruct (is_error x) eqn:Ex; [|constructor; assumption].
    split; [exact Ex|]. exists [], l. auto.
Qed.

(** the first (smallest reference) indexed ERROR *)
Lemma find_adv_error_spec m l : (forall k i, In (k, i) m -> i < length l) ->
  exists o, find_adv_error m l = Ok o /\
  match o with
  | None => forall k i e, In (k, i) m -> nth_error l i = Some e -> is_error e = false
  | Some e => exists m1 k i m2, m = m1 ++ (k, i) :: m2 /\ nth_error l i = Some e /\ is_error e = true /\
      forall k' i' e', In (k', i') m1 -> nth_error l i' = Some e' -> is_error e' = false
  end.
Proof.
  induction m as [|[k i] m IH]; intros H; cbn.
  - exists None. split; [reflexivity|]. intros ? ? ? [].
  - assert (Hi : i < length l) by (apply (H k); left; reflexivity).
    destruct (nth_error l i) as [e|] eqn:E; [|apply nth_error_None in E; lia].
    destruct (is_error e) eqn:Ee.
    + exists (Some e). split; [reflexivity|]. exists [], k, i, m. repeat split; auto. intros ? ? ? [].
    + destruct IH as [o [Eo Ho]]; [intros; eapply H; right; eassumption|].
      exists o. split; [exact Eo|]. destruct o as [e2|].
      * destruct Ho as [m1 [k2 [i2 [m2 [-> [E2 [Ee2 Hm]]]]]]]. exists ((k, i) :: m1), k2, i2, m2.
        repeat split; auto. intros k' i' e' [[= <- <-]|Hin] He'; [congruence|eapply Hm; eassumption].
      * intros k' i' e' [[= <- <-]|Hin] He'; [congruence|eapply Ho; eassumption].
Qed.

Lemma get_last_failure_total r : reg_inv r -> exists o, get_last_failure r = Ok o /\
  match o with
  | None => forall e, In e (logs r) -> is_error e = false
  | Some e => In e (logs r) /\ is_error e = true
  end.
Proof.
  intros Hr. unfold get_last_failure.
  destruct (logs r) as [|e0 l0] eqn:El; [exists None; split; [reflexivity|intros ? []]|]. rewrite <- El in *.
  destruct (find_adv_error_spec (adv r) (logs r)) as [o [Eo Ho]]; [intros; eapply reg_inv_in_lt; eassumption|].
  rewrite Eo. cbn. destruct o as [e|].
  - destruct Ho as [m1 [k [i [m2 [_ [E [Ee _]]]]]]]. exists (Some e). split; [reflexivity|]. split; [eapply nth_error_In, E|exact Ee].
  - exists (last_error (logs r)). split; [reflexivity|]. pose proof (last_error_spec (logs r)) as H.
    destruct (last_error (logs r)) as [e|].
    + destruct H as [He [p [q [-> _]]]]. split; [apply in_app_iff; cbn; auto|exact He].
    + intros e He. eapply Forall_forall in H; eassumption.
Qed.

Lemma nth_raised_in r r' e : (forall i, nth_error (logs r') i = option_map (raised r i) (nth_error (logs r) i)) ->
  In e (logs r') -> exists i e0, nth_error (logs r) i = Some e0 /\ e = raised r i e0.
Proof.
  intros Hn Hin. apply In_nth_error in Hin as [i Hi]. rewrite Hn in Hi. destruct (nth_error (logs r) i) as [e0|] eqn:E; [|discriminate].
  cbn in Hi. injection Hi as <-. eauto.
Qed.

(** sorted maps: everything before an entry has a smaller key *)
Lemma sorted_before {V} (m1 : smap V) k v m2 k' v' : sm_sorted (m1 ++ (k, v) :: m2) -> In (k', v') m1 -> bcmp k' k = Lt.
Proof.
  induction m1 as [|[k1 v1] m1 IH]; cbn [app In]; [tauto|]. intros Hs [[= -> ->]|Hin].
  - cbn in Hs. eapply sorted_from_in; [exact Hs|]. apply in_app_iff. cbn. auto.
  - apply IH; [|exact Hin]. eapply sorted_from_sorted. exact Hs.
Qed.
Lemma sorted_after {V} (m1 : smap V) k v m2 k' v' : sm_sorted (m1 ++ (k, v) :: m2) -> In (k', v') m2 -> bcmp k k' = Lt.
Proof.
  induction m1 as [|[k1 v1] m1 IH]; cbn [app].
  - cbn. intros Hs Hin. eapply sorted_from_in; eassumption.
  - intros Hs Hin. apply IH; [|exact Hin]. eapply sorted_from_sorted. exact Hs.
Qed.

(** severities: INFO exactly for stages *)
Definition sev_canon (r : registry) : Prop := forall ev, In ev (logs r) -> nonfine ev = true <-> failure (ev_type ev).

Lemma failure_dec e : failure e \/ ~ failure e.
Proof. destruct (progress e) eqn:E; [right|left; apply progress_failure, E]. intros H. eapply H, progress_stage, E. Qed.

Lemma raised_nonfine r i e : nth_error (logs r) i = Some e -> nonfine (raised r i e) = nonfine e.
Proof.
  intros E. unfold raised. destruct (existsb _ (adv r)).
  - destruct (marked (adv r) (logs r) i) eqn:Em; [|reflexivity].
    apply existsb_exists in Em as [p [_ H]]. apply andb_prop in H as [_ H]. rewrite E in H. rewrite H. reflexivity.
  - unfold nonfine. destruct (is_warn e) eqn:Ew; [reflexivity|]. rewrite Ew. reflexivity.
Qed.

Lemma recorded_canon e id info : nonfine (recorded e id info) = true <-> failure e.
Proof.
  rewrite <- progress_failure. unfold nonfine, is_warn, is_error, recorded. cbn. destruct (progress e); cbn; split; congruence.
Qed.

Lemma reg_step_canon r op r' : reg_inv r -> sev_canon r -> op_add op -> reg_step r op = Ok r' -> sev_canon r'.
Proof.
  intros Hi Hc Hop H. destruct op; cbn [op_add] in Hop; try contradiction; cbn [reg_step] in H.
  - assert (Hl : logs r' = logs r ++ [recorded e id info]).
    { apply add_event_ok in H as [[_ ->]|[st [_ [_ ->]]]]; [|reflexivity].
      unfold add_plain. destruct (progress e) as [st|]; [destruct (Z.ltb (step r) st)|]; reflexivity. }
    intros ev Hin. rewrite Hl in Hin. apply in_app_iff in Hin as [Hin|[<-|[]]]; [apply Hc, Hin|apply recorded_canon].
  - destruct (turn_warnings_spec r Hi) as [r2 [b [E [Es [Ea [Hn _]]]]]]. rewrite E in H. cbn in H. injection H as <-.
    intros ev Hin. apply (nth_raised_in r) in Hin as [i [e0 [E0 ->]]]; [|exact Hn].
    rewrite raised_nonfine, raised_type by exact E0. apply Hc. eapply nth_error_In, E0.
  - injection H as <-. intros ev Hin. cbn in Hin. apply in_map_iff in Hin as [e0 [<- Hin]].
    assert (nonfine (if is_error e0 then set_sev SVRT_WARN e0 else e0) = nonfine e0) as ->.
    { unfold nonfine. destruct (is_error e0) eqn:Ee; [cbn; rewrite orb_true_r; reflexivity|rewrite Ee; reflexivity]. }
    rewrite (Hc e0 Hin). destruct (is_error e0); reflexivity.
Qed.
Lemma reg_run_canon ops r r' : reg_inv r -> sev_canon r -> Forall op_add ops -> reg_run ops r = Ok r' -> sev_canon r'.
Proof.
  revert r; induction ops as [|op ops IH]; intros r Hi Hc Hf H; cbn in H; [injection H as <-; exact Hc|].
  apply rbind_ok in H as [r1 [E H]]. inversion Hf; subst.
  eapply (IH r1); [eapply reg_step_inv; eassumption|eapply reg_step_canon; eassumption|assumption|exact H].
Qed.

Lemma sev_canon_empty : sev_canon reg_empty.
Proof. intros ev []. Qed.

Lemma furthest_unique l s s' : furthest l s -> furthest l s' -> s = s'.
Proof.
  intros [H1 H2] [H1' H2'].
  assert (A : forall e k n, In (e, k) l -> stage e n -> (0 <= n)%Z) by (intros; eapply stage_nonneg; eassumption).
  destruct H2 as [->|[e [k [Hin Hs]]]], H2' as [->|[e' [k' [Hin' Hs']]]]; auto.
  - pose proof (H1 _ _ _ Hin' Hs'). pose proof (A _ _ _ Hin' Hs'). lia.
  - pose proof (H1' _ _ _ Hin Hs). pose proof (A _ _ _ Hin Hs). lia.
  - pose proof (H1 _ _ _ Hin' Hs'). pose proof (H1' _ _ _ Hin Hs). lia.
Qed.

Lemma log_trace_nth r i : nth_error (log_trace r) i = option_map (fun ev => (ev_type ev, ev_ref ev)) (nth_error (logs r) i).
Proof. apply nth_error_map. Qed.

Lemma raised_trace r r' : (forall i, nth_error (logs r') i = option_map (raised r i) (nth_error (logs r) i)) ->
  log_trace r' = log_trace r.
Proof. intros Hn. unfold log_trace. eapply map_same; [|exact Hn]. intros i x. rewrite raised_type, raised_ref. reflexivity. Qed.

(** after raising, the indexed non-INFO events are ERRORs *)
Lemma failed_after_adv r k e : reg_inv r -> reg_inv_add r -> sev_canon r ->
  failed_after (log_trace r) (step r) k e <->
  exists i ev, In (k, i) (adv r) /\ nth_error (logs r) i = Some ev /\ nonfine ev = true /\ ev_type ev = e /\ ev_ref ev = k.
Proof.
  intros Hi Ha Hc. split.
  - intros [i [Hn [He Hf]]]. apply (ra_news _ Ha) in Hn. rewrite log_trace_nth in He.
    destruct (nth_error (logs r) i) as [ev|] eqn:E; [|discriminate]. injection He as <- <-.
    exists i, ev. split; [apply sm_get_in, Hn|]. split; [exact E|]. split; [|auto].
    apply Hc; [eapply nth_error_In, E|exact Hf].
  - intros [i [ev [Hin [E [Hn [<- <-]]]]]]. exists i. apply sm_in_get in Hin; [|apply Hi].
    split; [apply (ra_news _ Ha), Hin|]. rewrite log_trace_nth, E. split; [reflexivity|].
    apply Hc; [eapply nth_error_In, E|exact Hn].
Qed.

Lemma is_error_nonfine e : is_error e = true -> nonfine e = true.
Proof. unfold nonfine. intros ->. apply orb_true_r. Qed.

Lemma selection r r' b o : reg_inv r -> reg_inv_add r -> sev_canon r ->
  turn_warnings_into_errors r = Ok (r', b) -> get_last_failure r' = Ok o ->
  selects (log_trace r) (step r) (option_map (fun ev => (ev_type ev, ev_ref ev)) o).
Proof.
  intros Hi Ha Hc Ht Hg.
  destruct (turn_warnings_spec r Hi) as [r2 [b2 [E [Es [Ea [Hn _]]]]]]. rewrite E in Ht. injection Ht as <- <-.
  assert (Hi' : reg_inv r2) by (eapply reg_inv_change; [|exact Ea|exact Hn|exact Hi]; intros; apply raised_ref).
  pose proof (raised_trace _ _ Hn) as Htr.
  unfold get_last_failure in Hg. destruct (logs r2) as [|e0 l0] eqn:El.
  { injection Hg as <-. cbn. apply sel_none. rewrite <- Htr. unfold log_trace. rewrite El. constructor. }
  rewrite <- El in *.
  destruct (find_adv_error_spec (adv r2) (logs r2)) as [o2 [Eo Ho]]; [intros; eapply reg_inv_in_lt; eassumption|].
  rewrite Eo in Hg. cbn [rbind] in Hg.
  (* which adv events are errors after raising *)
  assert (Hmk : forall k i ev, In (k, i) (adv r) -> nth_error (logs r) i = Some ev -> nonfine ev = true ->
                 exists ev', nth_error (logs r2) i = Some ev' /\ is_error ev' = true).
  { intros k i ev Hin He Hnf. exists (raised r i ev). rewrite Hn, He. split; [reflexivity|].
    unfold raised. assert (existsb (fun p => match nth_error (logs r) (snd p) with Some e => nonfine e | None => false end) (adv r) = true) as ->.
    { apply existsb_exists. exists (k, i). cbn. rewrite He. auto. }
    assert (marked (adv r) (logs r) i = true) as ->; [|reflexivity].
    apply existsb_exists. exists (k, i). cbn. rewrite Nat.eqb_refl, He, Hnf. auto. }
  destruct o2 as [ev|].
  - injection Hg as <-. cbn. destruct Ho as [m1 [k [i [m2 [Em [E1 [Ee Hm1]]]]]]].
    rewrite Ea in Em.
    assert (Hin : In (k, i) (adv r)) by (rewrite Em; apply in_app_iff; cbn; auto).
    assert (Hk : ev_ref ev = k).
    { pose proof (sm_in_get _ _ _ (ri_sorted _ Hi) Hin) as G. rewrite <- Ea in G. apply Hi' in G as [ev2 [E2 Er]]. congruence. }
    rewrite Hn in E1. destruct (nth_error (logs r) i) as [ev0|] eqn:E0; [|discriminate]. cbn in E1. injection E1 as <-.
    rewrite raised_type, raised_ref in *.
    apply sel_furthest.
    + rewrite Hk. apply failed_after_adv; auto. exists i, ev0. repeat split; auto.
      rewrite <- (raised_nonfine r i ev0 E0). apply is_error_nonfine, Ee.
    + intros k' e' Hf. apply failed_after_adv in Hf as [i' [ev' [Hin' [E' [Hnf' [_ Hk']]]]]]; auto.
      rewrite Hk. rewrite Em in Hin'. apply in_app_iff in Hin' as [Hin'|[[= <- <-]|Hin']]; [|left; reflexivity|].
      * exfalso. assert (In (k', i') (adv r)) by (rewrite Em; apply in_app_iff; auto).
        destruct (Hmk _ _ _ H E' Hnf') as [ev2 [E2 Ee2]]. rewrite (Hm1 k' i' ev2 Hin' E2) in Ee2. discriminate.
      * right. pose proof (ri_sorted _ Hi) as Hs. rewrite Em in Hs. eapply sorted_after; eassumption.
  - assert (Hno : forall k' e', ~ failed_after (log_trace r) (step r) k' e').
    { intros k' e' Hf. apply failed_after_adv in Hf as [i' [ev' [Hin' [E' [Hnf' _]]]]]; auto.
      destruct (Hmk _ _ _ Hin' E' Hnf') as [ev2 [E2 Ee2]]. rewrite <- Ea in Hin'. rewrite (Ho k' i' ev2 Hin' E2) in Ee2. discriminate. }
    assert (Hex : existsb (fun p => match nth_error (logs r) (snd p) with Some e => nonfine e | None => false end) (adv r) = false).
    { apply not_true_is_false. intros H. apply existsb_exists in H as [[k' i'] [Hin' H]]. cbn in H.
      destruct (nth_error (logs r) i') as [ev'|] eqn:E'; [|discriminate].
      destruct (Hmk _ _ _ Hin' E' H) as [ev2 [E2 Ee2]]. rewrite <- Ea in Hin'. rewrite (Ho k' i' ev2 Hin' E2) in Ee2. discriminate. }
    assert (Herr : forall ev, In ev (logs r2) -> is_error ev = true <-> failure (ev_type ev)).
    { intros ev Hin. apply (nth_raised_in r) in Hin as [i [ev0 [E0 ->]]]; [|exact Hn].
      rewrite raised_type, <- (Hc ev0) by (eapply nth_error_In, E0).
      unfold raised. rewrite Hex. unfold nonfine. destruct (is_warn ev0) eqn:Ew; cbn; [tauto|]. reflexivity. }
    injection Hg as <-. pose proof (last_error_spec (logs r2)) as HL. destruct (last_error (logs r2)) as [ev|]; cbn.
    + destruct HL as [He [p [q [Hl Hq]]]]. eapply sel_last; [exact Hno| | |].
      * rewrite <- Htr. unfold log_trace. rewrite Hl, map_app. cbn [map]. reflexivity.
      * apply Herr; [rewrite Hl; apply in_app_iff; cbn; auto|exact He].
      * apply Forall_forall. intros x Hx. apply in_map_iff in Hx as [ev' [<- Hin]]. cbn. intros Hf.
        apply Herr in Hf; [|rewrite Hl; apply in_app_iff; cbn; auto]. eapply Forall_forall in Hq; [|exact Hin]. cbn in Hq. congruence.
    + apply sel_none. rewrite <- Htr. apply Forall_forall. intros x Hx. apply in_map_iff in Hx as [ev' [<- Hin]]. cbn. intros Hf.
      apply Herr in Hf; [|exact Hin]. eapply Forall_forall in HL; [|exact Hin]. cbn in HL. congruence.
Qed.

(** ** Summary statements *)
Lemma fresh_inv ops r : reg_run ops reg_empty = Ok r -> reg_inv r.
Proof. apply reg_run_inv, reg_inv_empty. Qed.
Lemma fresh_inv_add ops r : Forall op_add ops -> reg_run ops reg_empty = Ok r -> reg_inv_add r /\ sev_canon r.
Proof.
  intros Hf H. split; [eapply reg_run_inv_add; [apply reg_inv_empty|apply reg_inv_add_empty|exact Hf|exact H]|].
  eapply reg_run_canon; [apply reg_inv_empty|apply sev_canon_empty|exact Hf|exact H].
Qed.

Lemma reg_index_summary ops r : reg_run ops reg_empty = Ok r ->
  NoDup (map fst (adv r)) /\
  forall k i, In (k, i) (adv r) -> exists ev, nth_error (logs r) i = Some ev /\ ev_ref ev = k.
Proof.
  intros H. apply fresh_inv in H as [Hs Hi]. split.
  - clear Hi. induction (adv r) as [|[k v] m IH]; cbn; constructor.
    + intros Hin. apply in_map_iff in Hin as [[k' v'] [E Hin]]. cbn in E. subst k'.
      pose proof (sorted_from_in _ _ _ _ Hs Hin) as L. rewrite bcmp_refl in L. discriminate.
    + apply IH. eapply sorted_from_sorted. exact Hs.
  - intros k i Hin. apply Hi. apply sm_in_get; assumption.
Qed.

Lemma raise_summary ops r : Forall op_add ops -> reg_run ops reg_empty = Ok r ->
  exists r' b, turn_warnings_into_errors r = Ok (r', b) /\
    map (fun ev => (ev_type ev, ev_ref ev, ev_param2 ev)) (logs r') = map (fun ev => (ev_type ev, ev_ref ev, ev_param2 ev)) (logs r) /\
    (b = true <-> (exists k e, failed_after (log_trace r) (step r) k e) \/ exists ev, In ev (logs r) /\ ev_sev ev = SVRT_WARN) /\
    forall i ev ev', nth_error (logs r) i = Some ev -> nth_error (logs r') i = Some ev' ->
      (ev_sev ev' = SVRT_ERROR <->
         ev_sev ev = SVRT_ERROR \/
         (failure (ev_type ev) /\
          ((exists k e, failed_after (log_trace r) (step r) k e) -> latest_news (log_trace r) (step r) (ev_ref ev) i))) /\
      (ev_sev ev' = SVRT_ERROR \/ ev_sev ev' = ev_sev ev).
Proof.
  intros Hf H. pose proof (fresh_inv _ _ H) as Hi. destruct (fresh_inv_add _ _ Hf H) as [Ha Hc].
  destruct (turn_warnings_spec r Hi) as [r' [b [E [Es [Ea [Hn Hb]]]]]]. exists r', b. split; [exact E|].
  set (ex := existsb (fun p => match nth_error (logs r) (snd p) with Some e => nonfine e | None => false end) (adv r)) in *.
  assert (Hex : ex = true <-> exists k e, failed_after (log_trace r) (step r) k e).
  { unfold ex. rewrite existsb_exists. split.
    - intros [[k i] [Hin Hp]]. cbn in Hp. destruct (nth_error (logs r) i) as [ev|] eqn:E1; [|discriminate].
      exists k, (ev_type ev). apply failed_after_adv; auto. exists i, ev. repeat split; auto.
      pose proof (sm_in_get _ _ _ (ri_sorted _ Hi) Hin) as G. apply Hi in G as [ev2 [E2 Er]]. congruence.
    - intros [k [e Hfa]]. apply failed_after_adv in Hfa as [i [ev [Hin [E1 [Hnf _]]]]]; auto.
      exists (k, i). cbn. rewrite E1. auto. }
  split; [eapply map_same; [|exact Hn]; intros; rewrite raised_type, raised_ref, raised_param; reflexivity|].
  split.
  - rewrite Hb. rewrite orb_true_iff, Hex, existsb_exists. apply or_iff_compat_l.
    split; intros [ev [Hin He]]; exists ev; split; auto; unfold is_warn in *; destruct (ev_sev ev); congruence.
  - intros i ev ev' E1 E2. rewrite Hn, E1 in E2. cbn in E2. injection E2 as <-.
    assert (Hmk : marked (adv r) (logs r) i = true <-> failure (ev_type ev) /\ latest_news (log_trace r) (step r) (ev_ref ev) i).
    { unfold marked. rewrite existsb_exists. split.
      - intros [[k j] [Hin Hp]]. cbn in Hp. apply andb_prop in Hp as [Hj Hnf]. apply Nat.eqb_eq in Hj. subst j. rewrite E1 in Hnf.
        split; [apply Hc; [eapply nth_error_In, E1|exact Hnf]|].
        pose proof (sm_in_get _ _ _ (ri_sorted _ Hi) Hin) as G. pose proof G as G2. apply Hi in G as [ev2 [E2 Er]].
        rewrite E1 in E2. injection E2 as <-. subst k. apply (ra_news _ Ha), G2.
      - intros [Hfl Hl]. apply (ra_news _ Ha) in Hl. exists (ev_ref ev, i). split; [apply sm_get_in, Hl|]. cbn.
        rewrite Nat.eqb_refl, E1. cbn. apply Hc; [eapply nth_error_In, E1|exact Hfl]. }
    pose proof (Hc ev (nth_error_In _ _ E1)) as Hcan.
    unfold raised. fold ex. destruct ex.
    + assert (Hx : exists k e, failed_after (log_trace r) (step r) k e) by (apply Hex; reflexivity).
      destruct (marked (adv r) (logs r) i) eqn:Em.
      * split; [|left; reflexivity]. split; [intros _|reflexivity]. right. destruct (proj1 Hmk eq_refl) as [A B]. auto.
      * split; [|right; reflexivity]. split; [auto|]. intros [A|[A B]]; [exact A|]. specialize (B Hx).
        assert (false = true) by (apply Hmk; auto). discriminate.
    + assert (Hx : ~ exists k e, failed_after (log_trace r) (step r) k e) by (intros X; apply Hex in X; discriminate).
      unfold nonfine in Hcan. destruct (is_warn ev) eqn:Ew.
      * split; [|left; reflexivity]. split; [intros _|reflexivity]. right. split; [apply Hcan; reflexivity|]. intros X. contradiction.
      * split; [|right; reflexivity]. split; [auto|]. intros [A|[A _]]; [exact A|]. apply Hcan in A. cbn in A.
        unfold is_error in A. destruct (ev_sev ev); congruence.
Qed.

Lemma lower_summary r : reg_inv r ->
  exists r', turn_errors_into_warnings r = (r', existsb is_error (logs r)) /\
    length (logs r') = length (logs r) /\
    (forall i ev, nth_error (logs r) i = Some ev -> exists ev', nth_error (logs r') i = Some ev' /\
       ev_type ev' = ev_type ev /\ ev_ref ev' = ev_ref ev /\ ev_param2 ev' = ev_param2 ev /\
       ev_sev ev' = match ev_sev ev with SVRT_ERROR => SVRT_WARN | s => s end) /\
    is_good r' = Ok true.
Proof.
  intros Hi. eexists. split; [reflexivity|]. cbn [logs]. split; [apply map_length|]. split.
  - intros i ev E. rewrite nth_error_map, E. cbn. eexists. split; [reflexivity|]. unfold is_error. destruct (ev_sev ev) eqn:Es; cbn; rewrite ?Es; auto.
  - set (r' := {| logs := map _ _; step := _; adv := _ |}).
    assert (Hi' : reg_inv r').
    { eapply (reg_inv_change (fun _ e => if is_error e then set_sev SVRT_WARN e else e)); [| |apply (turn_errors_nth r)|exact Hi].
      - intros _ e. destruct (is_error e); reflexivity.
      - reflexivity. }
    destruct (get_last_failure_total r' Hi') as [o [Eo Ho]]. unfold is_good. rewrite Eo. cbn. destruct o as [e|]; [|reflexivity].
    destruct Ho as [Hin He]. cbn in Hin. apply in_map_iff in Hin as [e0 [<- _]]. destruct (is_error e0) eqn:E0; cbn in *; congruence.
Qed.

Lemma failure_null_iff ops r : reg_run ops reg_empty = Ok r ->
  exists o, get_last_failure r = Ok o /\
    (o = None <-> forall ev, In ev (logs r) -> ev_sev ev <> SVRT_ERROR) /\
    (forall ev, o = Some ev -> In ev (logs r) /\ ev_sev ev = SVRT_ERROR).
Proof.
  intros H. apply fresh_inv in H. destruct (get_last_failure_total r H) as [o [Eo Ho]]. exists o. split; [exact Eo|].
  assert (Hs : forall e, is_error e = true <-> ev_sev e = SVRT_ERROR) by (intros e; unfold is_error; destruct (ev_sev e); split; congruence).
  split; [|intros ev ->; rewrite <- Hs; exact Ho]. destruct o as [e|]; split; try discriminate; try reflexivity.
  - intros G. destruct Ho as [Hin He]. exfalso. apply (G e Hin), Hs, He.
  - intros _ ev Hin He. apply Hs in He. rewrite (Ho ev Hin) in He. discriminate.
Qed.

Lemma news_summary ops r : Forall op_add ops -> reg_run ops reg_empty = Ok r ->
  furthest (log_trace r) (step r) /\ forall k i, In (k, i) (adv r) <-> latest_news (log_trace r) (step r) k i.
Proof.
  intros Hf H. destruct (fresh_inv_add _ _ Hf H) as [Ha Hc]. apply fresh_inv in H. split; [apply Ha|].
  intros k i. rewrite <- (ra_news _ Ha). split; [apply sm_in_get, H|apply sm_get_in].
Qed.

Lemma selection_summary ops r : Forall op_add ops -> reg_run ops reg_empty = Ok r ->
  exists r' b o s, turn_warnings_into_errors r = Ok (r', b) /\ get_last_failure r' = Ok o /\
    furthest (log_trace r) s /\ selects (log_trace r) s (option_map (fun ev => (ev_type ev, ev_ref ev)) o).
Proof.
  intros Hf H. pose proof (fresh_inv _ _ H) as Hi. destruct (fresh_inv_add _ _ Hf H) as [Ha Hc].
  destruct (turn_warnings_spec r Hi) as [r' [b [E [_ [Ea [Hn _]]]]]].
  assert (Hi' : reg_inv r') by (eapply reg_inv_change; [|exact Ea|exact Hn|exact Hi]; intros; apply raised_ref).
  destruct (get_last_failure_total r' Hi') as [o [Eo _]].
  exists r', b, o, (step r). split; [exact E|]. split; [exact Eo|]. split; [apply Ha|]. eapply selection; eassumption.
Qed.

Lemma selects_fun l s o o' : selects l s o -> selects l s o' -> o = o'.
Proof.
  intros H H'. inversion H as [e k Hf Hm|e k p q Hno Hl Hf Hq|Hall]; inversion H' as [e' k' Hf' Hm'|e' k' p' q' Hno' Hl' Hf' Hq'|Hall']; subst; auto.
  - assert (k = k').
    { destruct (Hm _ _ Hf') as [?|L]; [auto|]. destruct (Hm' _ _ Hf) as [?|L']; [auto|]. rewrite (bcmp_antisym k k'), L in L'. discriminate. }
    subst k'. f_equal. f_equal. destruct Hf as [i [A [B C]]], Hf' as [i' [A' [B' C']]].
    destruct (Nat.lt_trichotomy i i') as [L|[->|L]]; [|congruence|].
    + destruct A as [_ [_ A]]. destruct (A _ _ L B') as [n [Hn _]]. exfalso. eapply C', Hn.
    + destruct A' as [_ [_ A']]. destruct (A' _ _ L B) as [n [Hn _]]. exfalso. eapply C, Hn.
  - exfalso. eapply Hno', Hf.
  - exfalso. destruct Hf as [i [_ [B C]]]. eapply Forall_forall in Hall'; [|eapply nth_error_In, B]. apply Hall', C.
  - exfalso. eapply Hno, Hf'.
  - f_equal. revert p' Hl'. induction p as [|x p IH]; intros [|x' p'] Hl'; cbn in Hl'.
    + congruence.
    + injection Hl' as <- ->. exfalso. apply Forall_app in Hq as [_ Hq]. inversion Hq; subst. auto.
    + injection Hl' as -> <-. exfalso. apply Forall_app in Hq' as [_ Hq']. inversion Hq'; subst. auto.
    + injection Hl' as _ Hl'. 
      clear -Hl' Hq Hq' Hf Hf'. revert p' Hl'. induction p as [|y p IH]; intros [|y' p'] Hl'; cbn in Hl'.
      * congruence.
      * injection Hl' as <- ->. exfalso. apply Forall_app in Hq as [_ Hq]. inversion Hq; subst. auto.
      * injection Hl' as -> <-. exfalso. apply Forall_app in Hq' as [_ Hq']. inversion Hq'; subst. auto.
      * injection Hl' as _ Hl'. eapply IH, Hl'.
  - exfalso. apply Forall_app in Hall' as [_ Hall']. inversion Hall'; subst. auto.
  - exfalso. destruct Hf' as [i [_ [B C]]]. eapply Forall_forall in Hall; [|eapply nth_error_In, B]. apply Hall, C.
  - exfalso. apply Forall_app in Hall as [_ Hall]. inversion Hall; subst. auto.
Qed.

Lemma export_spec r n : exists p, logs r = p ++ export_last_events r n /\
  length (export_last_events r n) = Nat.min n (length (logs r)).
Proof.
  unfold export_last_events. exists (firstn (length (logs r) - Nat.min n (length (logs r))) (logs r)).
  rewrite firstn_skipn, skipn_length. split; [reflexivity|]. lia.
Qed.
