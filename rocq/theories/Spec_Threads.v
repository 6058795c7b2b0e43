(** Calls of acquire_license by several threads: an interleaving semantics. A call keeps all it
    computes in its own objects (licensecc.cpp 74-135; the registry, the reader, the parser and
    the verifier are locals), so threads interact only through their surroundings. *)
From Verif Require Import Base CTypes Registry ExecEnv Strategies Locate Licensecc AcquireIo.

Record call := { cl_caller : option caller; cl_hint : option location; cl_out : option out_info }.
Definition answer := res (event_type * option out_info).
Definition program (w : world) (c : call) : io (event_type * option out_info) := io_acquire_license w (cl_caller c) (cl_hint c) (cl_out c).
(** the result of a call made alone *)
Definition alone (w : world) (c : call) : answer := '(a, _) <-- acquire_license w (cl_caller c) (cl_hint c) (cl_out c) 0 ;; Ok a.
(** how many accesses it makes *)
Definition duration (w : world) (c : call) : nat := length (io_accesses w (program w c) 0).

(** a call that is over: from which instant until which *)
Record finished := { fi_call : call; fi_result : answer; fi_from : nat; fi_until : nat }.
(** a thread: the calls it has made, the one it is making (since which instant, and what remains
    to be done), those to come *)
Record thread := { th_done : list finished; th_now : option (call * nat * io (event_type * option out_info)); th_todo : list call }.
Definition fresh (calls : list call) : thread := {| th_done := []; th_now := None; th_todo := calls |}.

(** the next access, at the instant [g] *)
Definition ask {A} (w : world) (g : nat) (m : io A) : io A :=
  match m with
  | Done r => Done r
  | LookFor p k => k (w_good w g p)
  | ReadFile p k => k (w_file w g p)
  | AskTime k => k (w_clock w g)
  | AskMachine k => k (w_machine w g)
  end.
(** A step of a thread: begin a call, make one access, or return. [None]: undefined behaviour. *)
Definition advance (w : world) (g : nat) (th : thread) : option thread :=
  match th_now th with
  | None =>
      match th_todo th with
      | [] => Some th
      | c :: cs => Some {| th_done := th_done th; th_now := Some (c, g, program w c); th_todo := cs |}
      end
  | Some (_, _, Done (Undef _)) => None
  | Some (c, from, Done r) =>
      Some {| th_done := th_done th ++ [{| fi_call := c; fi_result := r; fi_from := from; fi_until := g |}]; th_now := None; th_todo := th_todo th |}
  | Some (c, from, m) => Some {| th_done := th_done th; th_now := Some (c, from, ask w g m); th_todo := th_todo th |}
  end.
Fixpoint update {A} (l : list A) (i : nat) (x : A) : list A :=
  match l, i with
  | [], _ => []
  | _ :: r, 0 => x :: r
  | a :: r, S i => a :: update r i x
  end.
(** Threads scheduled in any order, one step at every instant. A number that is no thread: the
    instant passes without a step. *)
Fixpoint interleave (w : world) (g : nat) (schedule : list nat) (threads : list thread) : option (list thread) :=
  match schedule with
  | [] => Some threads
  | i :: rest =>
      match nth_error threads i with
      | None => interleave w (S g) rest threads
      | Some th =>
          match advance w g th with
          | None => None
          | Some th' => interleave w (S g) rest (update threads i th')
          end
      end
  end.

(** The surroundings as they are found by a call whose accesses are made at the instants
    [at_ 0], [at_ 1], ... *)
Definition seen_at (w : world) (at_ : nat -> nat) : world :=
  {| w_project := w_project w; w_magic := w_magic w; w_near_module := w_near_module w; w_with_env := w_with_env w;
     w_module := w_module w; w_getenv := w_getenv w; w_good := fun i => w_good w (at_ i); w_file := fun i => w_file w (at_ i);
     w_clock := fun i => w_clock w (at_ i); w_mktime := w_mktime w; w_bio := w_bio w; w_key_ok := w_key_ok w; w_verify := w_verify w;
     w_machine := fun i => w_machine w (at_ i) |}.
(** [x] was made alone at some instants between its beginning and its end. *)
Definition as_if_alone (w : world) (x : finished) : Prop :=
  exists at_, (forall a b, a < b -> at_ a < at_ b) /\ (forall k, fi_from x < at_ k) /\ (forall k, k < duration (seen_at w at_) (fi_call x) -> at_ k < fi_until x) /\
    fi_result x = alone (seen_at w at_) (fi_call x).
