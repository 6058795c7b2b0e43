(** Calls compared with calls at other times, by other callers, or in other surroundings. *)
From Verif Require Import Base Strategies Locate Licensecc.

(** the result of a call, with the clock of the observer advanced by [k] instants *)
Definition later {A} (k : nat) (r : res (A * nat)) : res (A * nat) :=
  match r with
  | Ok (a, t) => Ok (a, t + k)
  | Throw e => Throw e
  | Undef u => Undef u
  | OutOfFuel => OutOfFuel
  end.
(** the surroundings with another clock, other hardware, another public key *)
Definition with_clock (w : world) (clock : nat -> Z) : world :=
  {| w_project := w_project w; w_magic := w_magic w; w_near_module := w_near_module w; w_with_env := w_with_env w;
     w_module := w_module w; w_getenv := w_getenv w; w_good := w_good w; w_file := w_file w; w_clock := clock; w_mktime := w_mktime w;
     w_bio := w_bio w; w_key_ok := w_key_ok w; w_verify := w_verify w; w_machine := w_machine w |}.
Definition with_machine (w : world) (m : nat -> machine) : world :=
  {| w_project := w_project w; w_magic := w_magic w; w_near_module := w_near_module w; w_with_env := w_with_env w;
     w_module := w_module w; w_getenv := w_getenv w; w_good := w_good w; w_file := w_file w; w_clock := w_clock w; w_mktime := w_mktime w;
     w_bio := w_bio w; w_key_ok := w_key_ok w; w_verify := w_verify w; w_machine := m |}.
Definition with_key (w : world) (ok : bool) (verify : bytes -> bytes -> bool) : world :=
  {| w_project := w_project w; w_magic := w_magic w; w_near_module := w_near_module w; w_with_env := w_with_env w;
     w_module := w_module w; w_getenv := w_getenv w; w_good := w_good w; w_file := w_file w; w_clock := w_clock w; w_mktime := w_mktime w;
     w_bio := w_bio w; w_key_ok := ok; w_verify := verify; w_machine := w_machine w |}.
