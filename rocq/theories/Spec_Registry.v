(** What users of the event registry rely on, stated on the sequence of events
    (type and license reference) it was told about. *)
From Verif Require Import Base Registry.

(** Validation stages: specified < found < product found < signature verified < ok.
    Every other event is a failure. *)
Inductive stage : event_type -> Z -> Prop :=
| stage_specified : stage LICENSE_SPECIFIED 0
| stage_found : stage LICENSE_FOUND 1
| stage_product : stage PRODUCT_FOUND 2
| stage_signature : stage SIGNATURE_VERIFIED 3
| stage_ok : stage LICENSE_OK 4.
Definition failure (e : event_type) : Prop := forall n, ~ stage e n.

Definition trace := list (event_type * bytes).

(** [s] is the furthest stage any license reached (-1: none reached any). *)
Definition furthest (l : trace) (s : Z) : Prop :=
  (forall e k n, In (e, k) l -> stage e n -> (n <= s)%Z) /\
  (s = (-1)%Z \/ exists e k, In (e, k) l /\ stage e s).

(** license [k] reached stage [s] no later than position [i] *)
Definition reached (l : trace) (s : Z) (k : bytes) (i : nat) : Prop :=
  exists j e, j <= i /\ nth_error l j = Some (e, k) /\ stage e s.

(** Position [i] holds the latest news about license [k] among those that reached
    stage [s]: its last event that is a failure or that very stage. *)
Definition latest_news (l : trace) (s : Z) (k : bytes) (i : nat) : Prop :=
  (exists e, nth_error l i = Some (e, k) /\ (stage e s \/ failure e)) /\
  reached l s k i /\
  forall i' e', i < i' -> nth_error l i' = Some (e', k) -> exists n, stage e' n /\ n <> s.

(** The operations of the registry (EventRegistry.h), applied one after the other. *)
Inductive reg_op :=
| OpAdd (e : event_type) (id info : option bytes)   (* addEvent *)
| OpAppend (ev : event)                             (* operator<< (event) *)
| OpMerge (other : registry)                        (* append / operator<< (registry) *)
| OpRaise                                           (* turnWarningsIntoErrors *)
| OpLower.                                          (* turnErrorsIntoWarnings *)

Definition reg_step (r : registry) (op : reg_op) : res registry :=
  match op with
  | OpAdd e id info => add_event e id info r
  | OpAppend ev => Ok (append_event ev r)
  | OpMerge other => Ok (append_registry r other)
  | OpRaise => '(r', _) <-- turn_warnings_into_errors r ;; Ok r'
  | OpLower => Ok (fst (turn_errors_into_warnings r))
  end.
Fixpoint reg_run (ops : list reg_op) (r : registry) : res registry :=
  match ops with
  | [] => Ok r
  | op :: rest => r' <-- reg_step r op ;; reg_run rest r'
  end.

(** The license reference and extra text an addEvent call stores. *)
Definition reference (id : option bytes) : bytes :=
  match id with None => bs "UNDEF" | Some s => cstr s end.
Definition extra (info : option bytes) : bytes :=
  match info with None => [] | Some s => firstn 255 (cstr s) end.

(** What each operation adds to the log, severity aside. *)
Definition op_events (op : reg_op) : list (event_type * bytes * bytes) :=
  match op with
  | OpAdd e id info => [(e, reference id, extra info)]
  | OpAppend ev => [(ev_type ev, ev_ref ev, ev_param2 ev)]
  | OpMerge other => map (fun ev => (ev_type ev, ev_ref ev, ev_param2 ev)) (logs other)
  | OpRaise | OpLower => []
  end.

(** References fit the 1024 byte array with their terminator. *)
Definition op_fits (op : reg_op) : Prop :=
  match op with OpAdd _ id _ => length (reference id) < 1024 | _ => True end.

(** Histories in which events only come in through addEvent. *)
Definition op_add (op : reg_op) : Prop :=
  match op with OpAppend _ | OpMerge _ => False | _ => True end.

Definition log_trace (r : registry) : trace := map (fun ev => (ev_type ev, ev_ref ev)) (logs r).

(** License [k], among those that got furthest, failed afterwards with [e]. *)
Definition failed_after (l : trace) (s : Z) (k : bytes) (e : event_type) : Prop :=
  exists i, latest_news l s k i /\ nth_error l i = Some (e, k) /\ failure e.

(** The failure to report: that of a license that got furthest and then failed (the
    first reference in byte order if there are several); if there is none, the last
    failure of the log; nothing when no failure was recorded. *)
Inductive selects (l : trace) (s : Z) : option (event_type * bytes) -> Prop :=
| sel_furthest e k : failed_after l s k e ->
    (forall k' e', failed_after l s k' e' -> k' = k \/ bcmp k k' = Lt) ->
    selects l s (Some (e, k))
| sel_last e k p q : (forall k' e', ~ failed_after l s k' e') ->
    l = p ++ (e, k) :: q -> failure e -> Forall (fun x => ~ failure (fst x)) q ->
    selects l s (Some (e, k))
| sel_none : Forall (fun x => ~ failure (fst x)) l -> selects l s None.
