(** What a history of acquisitions and releases leaves behind. *)
From Verif Require Import Base Trace.

(** the resources held, the last one acquired first *)
Inductive holds {R : Type} : list R -> list (event R) -> list R -> Prop :=
| holds_nil h : holds h [] h
| holds_acquire h r t h' : ~ In r h -> holds (r :: h) t h' -> holds h (Acquired r :: t) h'
| holds_release a r b t h' : holds (a ++ b) t h' -> holds (a ++ r :: b) (Released r :: t) h'.
(** Everything was acquired once, released once after that, and nothing else. A release
    of something not held (a double free) has no such history. *)
Definition all_released {R} (t : list (event R)) : Prop := holds [] t [].
Definition leaves {R} (t : list (event R)) (l : list R) : Prop := holds [] t l.
