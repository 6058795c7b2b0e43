(** Calls on Windows at different times, in surroundings where only time passes. *)
From Verif Require Import Base WinSignature WinMachine AcquireGen.
(** files and hardware stay as they are, and the clock is not set back *)
Definition win_steady (ww : win_world) : Prop :=
  (forall i j, ww_good ww i = ww_good ww j /\ ww_file ww i = ww_file ww j /\ ww_machine ww i = ww_machine ww j) /\
  forall i j, i <= j -> (ww_clock ww i <= ww_clock ww j)%Z.
