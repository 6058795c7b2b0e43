(** License files that change while a call reads them: what may be read. *)
From Verif Require Import Base CTypes Locate Licensecc FileSteps Spec_Acquire.

(** A text that can be read from [path] by a call whose steps are made at the instants [at_ j] to
    before [at_ j']: the bytes of one file, the one that the path led to, read from front to back
    at instants that follow the opening; at most 4096. *)
Definition torn (d : disk) (at_ : nat -> nat) (j j' : nat) (path text : bytes) : Prop :=
  exists n k when, j <= k /\ k < j' /\ k_path d (at_ k) path = Some n /\ length text <= 4096 /\
    (forall a b, a <= b -> when a <= when b) /\
    forall i c, nth_error text i = Some c -> k < when i /\ when i < j' /\ nth_error (k_data d (at_ (when i)) n) i = Some c.
(** what a source gives during the call, and whether it is found *)
Definition gives (w : world) (d : disk) (at_ : nat -> nat) (j j' : nat) (s : source) (text : bytes) : Prop :=
  match s with SFile p => torn d at_ j j' (cstr p) text | _ => supplies w 0 s text end.
Definition found (d : disk) (at_ : nat -> nat) (j j' : nat) (s : source) : Prop :=
  match s with SFile p | SNamed p _ => exists k, j <= k /\ k < j' /\ k_path d (at_ k) (cstr p) <> None | _ => True end.

(** Files are only appended to, and only replaced as a whole (by rename). *)
Definition only_grows (d : disk) (n from until : nat) : Prop :=
  forall t t', from <= t -> t <= t' -> t' <= until -> exists more, k_data d t' n = k_data d t n ++ more.
Definition never_written (d : disk) (from until : nat) : Prop := forall n t t', from <= t <= until -> from <= t' <= until -> k_data d t n = k_data d t' n.
Definition no_errors (d : disk) : Prop := forall t, k_most d t <> None.
