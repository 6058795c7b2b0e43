(** What a thread gets from identify_pc *)
From Verif Require Import Base CTypes HwId ExecEnv Strategies Locate Licensecc IdThreads.
(** the identifier is the one of the machine at an instant between [from] and [until] *)
Definition identified (env : option bytes) (m : nat -> machine) (c : id_args) (from until : nat) (r : bool * option bytes * nat) : Prop :=
  exists j, from < j < until /\ identify_buffer env (m j) (ia_method c) (ia_buf c) (ia_size c) = Ok r.
(** the call a thread is in *)
Definition at_hand (th : id_thread) : list id_args := match it_now th with Some (c, _, _) => [c] | None => [] end.
(** how many steps a thread has before it, at most *)
Definition phase_left (p : phase) : nat := match p with AtStart => 4 | AtGuard _ => 3 | Constructing _ => 2 | AtEnd _ => 1 end.
Definition to_do (th : id_thread) : nat := match it_now th with Some (_, _, p) => phase_left p | None => 0 end + 5 * length (it_todo th).
(** a call that would not return if it ran alone *)
Definition fails_alone (env : option bytes) (m : machine) (c : id_args) : Prop := forall y, identify_pc env m (ia_method c) (ia_buf c) (ia_size c) (ia_info c) <> Ok y.
