(** Calls of identify_pc (licensecc.cpp 32-56) by several threads of a process. The calls share
    the function-local static exec_env (line 49). As C++11 prescribes for such an object, a thread
    that comes to its declaration constructs it if nobody has begun to, waits if another thread
    is constructing it, and passes if it is constructed; if the constructor throws the
    object counts as not constructed. All other objects are locals of the call. *)
From Verif Require Import Base CTypes HwId ExecEnv Strategies Locate Licensecc.

(** what the caller passes (licensecc.cpp 32-33) *)
Record id_args := { ia_method : Z; ia_buf : option bytes; ia_size : nat; ia_info : bool }.
Definition id_answer := res (bool * option bytes * nat * option exec_info).
(** a call that is over: from which instant until which *)
Record id_finished := { idf_call : id_args; idf_result : id_answer; idf_from : nat; idf_until : nat }.
(** exec_env: not constructed, being constructed by a thread, constructed (line 49) *)
Inductive guard := Unbuilt | Building (i : nat) | Built (e : exec_env).
(** where in the call a thread is: before line 35, before line 49 (with the identifier), in the
    constructor of exec_env, after line 49 *)
Inductive phase :=
| AtStart
| AtGuard (r : bool * option bytes * nat)
| Constructing (r : bool * option bytes * nat)
| AtEnd (r : bool * option bytes * nat).
(** a thread: the calls it has made, the one it is making (since which instant, and where it
    is), those to come *)
Record id_thread := { it_done : list id_finished; it_now : option (id_args * nat * phase); it_todo : list id_args }.
Definition id_fresh (calls : list id_args) : id_thread := {| it_done := []; it_now := None; it_todo := calls |}.
(** licensecc.cpp 50-54 *)
Definition info_of (e : exec_env) : exec_info := {| xi_cloud := cloud_provider e; xi_virt := virtualization e; xi_detail := virtualization_detail e |}.
(** the call returns *)
Definition over (g : nat) (th : id_thread) (c : id_args) (from : nat) (r : id_answer) : id_thread :=
  {| it_done := it_done th ++ [{| idf_call := c; idf_result := r; idf_from := from; idf_until := g |}]; it_now := None; it_todo := it_todo th |}.
Definition in_phase (th : id_thread) (c : id_args) (from : nat) (p : phase) : id_thread :=
  {| it_done := it_done th; it_now := Some (c, from, p); it_todo := it_todo th |}.
(** A step of thread [i] at the instant [g]; the machine is [m g] then. [None]: undefined
    behaviour. Simplification: the identifier is computed, and exec_env constructed, in one
    step each. *)
Definition id_advance (env : option bytes) (m : nat -> machine) (i g : nat) (gd : guard) (th : id_thread) : option (guard * id_thread) :=
  match it_now th with
  | None => (* between the calls *)
      match it_todo th with
      | [] => Some (gd, th)
      | c :: cs => Some (gd, {| it_done := it_done th; it_now := Some (c, g, AtStart); it_todo := cs |})
      end
  | Some (c, from, AtStart) => (* 34-48 *)
      match identify_buffer env (m g) (ia_method c) (ia_buf c) (ia_size c) with
      | Ok r => Some (gd, in_phase th c from (AtGuard r))
      | Throw e => Some (gd, over g th c from (Throw e))
      | Undef _ | OutOfFuel => None
      end
  | Some (c, from, AtGuard r) => (* 49, the guard *)
      match gd with
      | Unbuilt => Some (Building i, in_phase th c from (Constructing r))
      | Building _ => Some (gd, th)
      | Built _ => Some (gd, in_phase th c from (AtEnd r))
      end
  | Some (c, from, Constructing r) => (* 49, the constructor *)
      match make_exec_env (hw_exec (m g)) with
      | Ok e => Some (Built e, in_phase th c from (AtEnd r))
      | Throw e => Some (Unbuilt, over g th c from (Throw e))
      | Undef _ | OutOfFuel => None
      end
  | Some (c, from, AtEnd r) => (* 50-55; reading an object that is not constructed is undefined *)
      match gd with
      | Built e => Some (gd, over g th c from (Ok (r, if ia_info c then Some (info_of e) else None)))
      | _ => None
      end
  end.
Fixpoint put {A} (l : list A) (i : nat) (x : A) : list A :=
  match l, i with
  | [], _ => []
  | _ :: r, 0 => x :: r
  | a :: r, S i => a :: put r i x
  end.
(** Threads scheduled in any order, one step at every instant. A number that is no thread: the
    instant passes without a step. *)
Fixpoint id_interleave (env : option bytes) (m : nat -> machine) (g : nat) (schedule : list nat) (gd : guard) (threads : list id_thread) : option (guard * list id_thread) :=
  match schedule with
  | [] => Some (gd, threads)
  | i :: rest =>
      match nth_error threads i with
      | None => id_interleave env m (S g) rest gd threads
      | Some th =>
          match id_advance env m i g gd th with
          | None => None
          | Some (gd', th') => id_interleave env m (S g) rest gd' (put threads i th')
          end
      end
  end.
(** a process whose threads have these calls to make *)
Definition id_process (calls : list (list id_args)) : guard * list id_thread := (Unbuilt, map id_fresh calls).
