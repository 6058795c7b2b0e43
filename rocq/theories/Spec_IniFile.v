(** What happens to a file while an INI object is saved to it (C112). *)
From Verif Require Import Base IniFile.

(** the file is opened, and so emptied, before the process ends, if it does *)
Definition opened (o : out_file) : Prop := o_opens o = true /\ o_ends o <> Some 0.
(** the system takes every byte of [t] it is given *)
Definition takes_all (o : out_file) (t : bytes) : Prop := forall i p, nth_error (parts (o_parts o) t) i = Some p -> length p <= o_takes o i.
(** once it has not taken a part of [t] whole, it takes nothing any more (the disk is full) *)
Definition stays_failed (o : out_file) (t : bytes) : Prop :=
  forall i j p, i < j -> nth_error (parts (o_parts o) t) i = Some p -> o_takes o i < length p -> o_takes o j = 0.
