(** Two Windows machines that differ at most in the texts they carry. *)
From Verif Require Import Base Locate WinSignature WinMachine AcquireGen Spec_Acquire.
(** the same project, key, provider, clock and hardware *)
Definition win_same_checks (ww ww' : win_world) : Prop :=
  ww_project ww' = ww_project ww /\ ww_magic ww' = ww_magic ww /\ ww_clock ww' = ww_clock ww /\ ww_mktime ww' = ww_mktime ww /\
  ww_provider ww' = ww_provider ww /\ ww_key ww' = ww_key ww /\ ww_machine ww' = ww_machine ww.
(** the same places enabled, and the same values for those enabled *)
Definition win_same_places (ww ww' : win_world) : Prop :=
  ww_near_module ww' = ww_near_module ww /\ ww_with_env ww' = ww_with_env ww /\
  (ww_near_module ww = true -> ww_module ww' = ww_module ww) /\
  (ww_with_env ww = true -> forall v, ww_getenv ww' v = ww_getenv ww v).
