(** Properties C20 - C22 and the registry part of C13: the event registry as a
    state machine over arbitrary histories of its operations. *)
From Verif Require Import Base Registry P_Base Spec_Registry P_Registry.

(** C20. After any history: one index per license reference, each one valid and
    pointing at an event of that license. *)
Theorem C20_index_valid : forall (ops : list reg_op) (r : registry), reg_run ops reg_empty = Ok r ->
  NoDup (map fst (adv r)) /\
  forall k i, In (k, i) (adv r) -> exists ev, nth_error (logs r) i = Some ev /\ ev_ref ev = k.
Proof. exact reg_index_summary. Qed.
Print Assumptions C20_index_valid.

(** The log is exactly what was put in, in order (severities aside). *)
Theorem C20_log_faithful : forall (ops : list reg_op) (r : registry),
  Forall op_fits ops -> reg_run ops reg_empty = Ok r ->
  map (fun ev => (ev_type ev, ev_ref ev, ev_param2 ev)) (logs r) = concat (map op_events ops).
Proof. exact (fun ops r Hf H => reg_run_view ops reg_empty r reg_inv_empty Hf H). Qed.
Print Assumptions C20_log_faithful.

(** No operation is undefined as long as the references fit their array. *)
Theorem C20_no_undefined : forall (ops : list reg_op), Forall op_fits ops -> exists r, reg_run ops reg_empty = Ok r.
Proof. exact (fun ops H => reg_run_defined ops reg_empty reg_inv_empty H). Qed.
Print Assumptions C20_no_undefined.

(** Without that: a reference of 1024 characters or more is undefined behaviour. *)
Theorem C20_long_reference_refuted : exists id, reg_run [OpAdd LICENSE_SPECIFIED (Some id) None] reg_empty = Undef UbRead.
Proof. exists (repeat "a"%char 1024). vm_compute. reflexivity. Qed.
Print Assumptions C20_long_reference_refuted.

(** Progress never decreases along a history. *)
Theorem C20_progress_monotone : forall (ops more : list reg_op) (r r' : registry),
  reg_run ops reg_empty = Ok r -> reg_run more r = Ok r' -> (step r <= step r')%Z.
Proof. exact (fun ops more r r' H H' => reg_run_progress more r r' (fresh_inv ops r H) H'). Qed.
Print Assumptions C20_progress_monotone.

(** In histories fed through addEvent the step is the furthest stage reached and the
    index holds exactly the latest news of each license that reached it. *)
Theorem C20_index_meaning : forall (ops : list reg_op) (r : registry),
  Forall op_add ops -> reg_run ops reg_empty = Ok r ->
  furthest (log_trace r) (step r) /\ forall k i, In (k, i) (adv r) <-> latest_news (log_trace r) (step r) k i.
Proof. exact news_summary. Qed.
Print Assumptions C20_index_meaning.

Example C20_case : exists r,
  reg_run [OpAdd LICENSE_SPECIFIED (Some (bs "a")) None; OpAdd LICENSE_SPECIFIED (Some (bs "b")) None;
           OpAdd LICENSE_FOUND (Some (bs "b")) None; OpAdd LICENSE_FILE_NOT_FOUND (Some (bs "a")) None;
           OpAdd PRODUCT_NOT_LICENSED (Some (bs "b")) None] reg_empty = Ok r /\
  adv r = [(bs "b", 4)] /\ step r = 1%Z.
Proof. eexists. split; [reflexivity|]. split; reflexivity. Qed.

(** C21 *)
Theorem C21_null_iff_no_error : forall (ops : list reg_op) (r : registry), reg_run ops reg_empty = Ok r ->
  exists o, get_last_failure r = Ok o /\
    (o = None <-> forall ev, In ev (logs r) -> ev_sev ev <> SVRT_ERROR) /\
    (forall ev, o = Some ev -> In ev (logs r) /\ ev_sev ev = SVRT_ERROR).
Proof. exact failure_null_iff. Qed.
Print Assumptions C21_null_iff_no_error.

Theorem C21_selection : forall (ops : list reg_op) (r : registry),
  Forall op_add ops -> reg_run ops reg_empty = Ok r ->
  exists r' b o s, turn_warnings_into_errors r = Ok (r', b) /\ get_last_failure r' = Ok o /\
    furthest (log_trace r) s /\ selects (log_trace r) s (option_map (fun ev => (ev_type ev, ev_ref ev)) o).
Proof. exact selection_summary. Qed.
Print Assumptions C21_selection.

(** The specification determines the failure. *)
Theorem C21_selection_unique : forall (l : trace) (s s' : Z) (o o' : option (event_type * bytes)),
  furthest l s -> furthest l s' -> selects l s o -> selects l s' o' -> o = o'.
Proof. exact (fun l s s' o o' H H' => ltac:(rewrite (furthest_unique l s s' H H'); apply selects_fun)). Qed.
Print Assumptions C21_selection_unique.

(** "b" got furthest and failed there; the later failure of "a" is not selected. *)
Example C21_case : exists r r' b,
  reg_run [OpAdd LICENSE_FOUND (Some (bs "b")) None; OpAdd PRODUCT_NOT_LICENSED (Some (bs "b")) None;
           OpAdd LICENSE_FILE_NOT_FOUND (Some (bs "a")) None] reg_empty = Ok r /\
  turn_warnings_into_errors r = Ok (r', b) /\
  option_map ev_type (match get_last_failure r' with Ok o => o | _ => None end) = Some PRODUCT_NOT_LICENSED.
Proof. eexists _, _, _. split; [reflexivity|]. split; reflexivity. Qed.

(** C22 *)
Theorem C22_lower : forall (ops : list reg_op) (r : registry), reg_run ops reg_empty = Ok r ->
  exists r', turn_errors_into_warnings r = (r', existsb is_error (logs r)) /\
    length (logs r') = length (logs r) /\
    (forall i ev, nth_error (logs r) i = Some ev -> exists ev', nth_error (logs r') i = Some ev' /\
       ev_type ev' = ev_type ev /\ ev_ref ev' = ev_ref ev /\ ev_param2 ev' = ev_param2 ev /\
       ev_sev ev' = match ev_sev ev with SVRT_ERROR => SVRT_WARN | s => s end) /\
    is_good r' = Ok true.
Proof. exact (fun ops r H => lower_summary r (fresh_inv ops r H)). Qed.
Print Assumptions C22_lower.

(** Raising: only WARN becomes ERROR; which ones: the latest failure of each license
    that got furthest, or, if none of those failed, every failure. *)
Theorem C22_raise : forall (ops : list reg_op) (r : registry),
  Forall op_add ops -> reg_run ops reg_empty = Ok r ->
  exists r' b, turn_warnings_into_errors r = Ok (r', b) /\
    map (fun ev => (ev_type ev, ev_ref ev, ev_param2 ev)) (logs r') =
    map (fun ev => (ev_type ev, ev_ref ev, ev_param2 ev)) (logs r) /\
    (b = true <-> (exists k e, failed_after (log_trace r) (step r) k e) \/
                  exists ev, In ev (logs r) /\ ev_sev ev = SVRT_WARN) /\
    forall i ev ev', nth_error (logs r) i = Some ev -> nth_error (logs r') i = Some ev' ->
      (ev_sev ev' = SVRT_ERROR <->
         ev_sev ev = SVRT_ERROR \/
         (failure (ev_type ev) /\
          ((exists k e, failed_after (log_trace r) (step r) k e) ->
           latest_news (log_trace r) (step r) (ev_ref ev) i))) /\
      (ev_sev ev' = SVRT_ERROR \/ ev_sev ev' = ev_sev ev).
Proof. exact raise_summary. Qed.
Print Assumptions C22_raise.

(** isGood() holds exactly if no event of the log is an error. *)
Theorem C22_good_iff : forall (ops : list reg_op) (r : registry), reg_run ops reg_empty = Ok r ->
  exists b, is_good r = Ok b /\ (b = true <-> forall ev, In ev (logs r) -> ev_sev ev <> SVRT_ERROR).
Proof.
  intros ops r H. destruct (failure_null_iff ops r H) as [o [E [I _]]]. unfold is_good. rewrite E. cbn [rbind]. eexists. split; [reflexivity|].
  rewrite <- I. destruct o; split; congruence.
Qed.
Print Assumptions C22_good_iff.

(** C13, registry part: the exported events are the last min(n, size) of the log. *)
Theorem C13_export_last : forall (r : registry) (n : nat), exists earlier,
  logs r = earlier ++ export_last_events r n /\
  length (export_last_events r n) = Nat.min n (length (logs r)).
Proof. exact export_spec. Qed.
Print Assumptions C13_export_last.
