(** Calls at different times, in surroundings where only time passes. *)
From Verif Require Import Base Strategies Locate Licensecc.
From Verif Require Import Spec_Ini Spec_Acquire Spec_Faults.

(** files and hardware stay as they are, and the clock is not set back *)
Definition steady (w : world) : Prop :=
  (forall i j, w_good w i = w_good w j /\ w_file w i = w_file w j /\ w_machine w i = w_machine w j) /\
  forall i j, i <= j -> (w_clock w i <= w_clock w j)%Z.
(** no license found begins after the instant [t] *)
Definition begun (w : world) (feature : bytes) (hint : option location) (t : nat) : Prop :=
  forall es sig s, carried w feature hint t es sig -> dated w es "valid-from" s -> (s <= w_clock w t)%Z.
