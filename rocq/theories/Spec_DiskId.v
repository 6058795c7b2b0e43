(** C120, stated without the model: byte [k] of the code of a text is the exclusive or of its
    characters at the positions that leave the remainder [k]. *)
From Verif Require Import Base.
Definition xor_all (l : list N) : N := fold_right N.lxor 0%N l.
Definition disk_byte (size : nat) (u : bytes) (k : nat) : N :=
  xor_all (map (fun j => N_of_ascii (nth j u NUL)) (filter (fun j => Nat.eqb (j mod size) k) (seq 0 (length u)))).
Definition disk_code (size : nat) (u : bytes) : bytes := map (fun k => ascii_of_N (disk_byte size u k)) (seq 0 size).
(** the largest text an index of type unsigned int can walk: 2^32 - 1 characters *)
Definition short_enough (u : bytes) : Prop := (N.of_nat (length u) < 4294967296)%N.
