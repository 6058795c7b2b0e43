(** A Windows machine with another clock, other hardware, another provider or key. *)
From Verif Require Import Base WinSignature WinMachine AcquireGen.
Definition win_with_clock (ww : win_world) (clock : nat -> Z) : win_world :=
  {| ww_project := ww_project ww; ww_magic := ww_magic ww; ww_near_module := ww_near_module ww; ww_with_env := ww_with_env ww;
     ww_module := ww_module ww; ww_getenv := ww_getenv ww; ww_good := ww_good ww; ww_file := ww_file ww; ww_clock := clock; ww_mktime := ww_mktime ww;
     ww_provider := ww_provider ww; ww_key := ww_key ww; ww_machine := ww_machine ww |}.
Definition win_with_machine (ww : win_world) (m : nat -> win_machine) : win_world :=
  {| ww_project := ww_project ww; ww_magic := ww_magic ww; ww_near_module := ww_near_module ww; ww_with_env := ww_with_env ww;
     ww_module := ww_module ww; ww_getenv := ww_getenv ww; ww_good := ww_good ww; ww_file := ww_file ww; ww_clock := ww_clock ww; ww_mktime := ww_mktime ww;
     ww_provider := ww_provider ww; ww_key := ww_key ww; ww_machine := m |}.
Definition win_with_key (ww : win_world) (v : provider) (key : bytes) : win_world :=
  {| ww_project := ww_project ww; ww_magic := ww_magic ww; ww_near_module := ww_near_module ww; ww_with_env := ww_with_env ww;
     ww_module := ww_module ww; ww_getenv := ww_getenv ww; ww_good := ww_good ww; ww_file := ww_file ww; ww_clock := ww_clock ww; ww_mktime := ww_mktime ww;
     ww_provider := v; ww_key := key; ww_machine := ww_machine ww |}.
