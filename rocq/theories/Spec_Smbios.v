(** A system firmware table as the SMBIOS reference describes it: a sequence of
    structures, each a type, a length, a handle, further fields and strings. *)
From Verif Require Import Base.

Record structure := { st_type : ascii; st_handle : ascii * ascii; st_fields : bytes; st_strings : list bytes }.
(** the formatted area, header included, is at most 255 bytes long; strings are not
    empty and contain no NUL *)
Definition well_formed (s : structure) : Prop :=
  length (st_fields s) + 4 <= 255 /\ Forall (fun t => t <> [] /\ ~ In NUL t) (st_strings s).
(** the strings are each ended by a NUL and the area by another; no strings: two NULs *)
Definition string_area (l : list bytes) : bytes :=
  match l with [] => [NUL; NUL] | _ => concat (map (fun t => t ++ [NUL]) l) ++ [NUL] end.
Definition image (s : structure) : bytes :=
  st_type s :: ascii_of_nat (length (st_fields s) + 4) :: fst (st_handle s) :: snd (st_handle s) :: st_fields s ++ string_area (st_strings s).
Definition table (ss : list structure) : bytes := concat (map image ss).
(** where the structures begin *)
Definition starts (ss : list structure) : list nat := map (fun i => length (table (firstn i ss))) (seq 0 (length ss)).

(** [field s k]: the byte at offset k of the formatted area (k >= 4) *)
Definition field (s : structure) (k : nat) : ascii := nth (k - 4) (st_fields s) NUL.
(** the string a field names: strings are counted from 1, and a number that is not
    smaller than the length of the structure is ignored *)
Definition in_use (s : structure) (k : nat) : Prop := 0 < nat_of_ascii (field s k) < length (st_fields s) + 4.
Definition named (s : structure) (k : nat) : option bytes :=
  let n := nat_of_ascii (field s k) in
  if (0 <? n) && (n <? length (st_fields s) + 4) then nth_error (st_strings s) (n - 1) else None.
(** the bytes the information is taken from are there *)
Definition complete (s : structure) : Prop :=
  match nat_of_ascii (st_type s) with
  | 0 => 5 | 1 => 6 | 2 => 5 | 4 => 36 | _ => 4
  end <= length (st_fields s) + 4.
(** a field that is used refers to a string that is not there *)
Definition dangling (s : structure) (k : nat) : Prop := in_use s k /\ length (st_strings s) < nat_of_ascii (field s k).
Definition bad_reference (s : structure) : Prop :=
  match nat_of_ascii (st_type s) with
  | 0 | 2 => dangling s 4
  | 1 => in_use s 4 /\ in_use s 5 /\ (dangling s 4 \/ dangling s 5)
  | 4 => dangling s 7
  | _ => False
  end.

(** the last thing told by any structure *)
Fixpoint last_told {A} (what : structure -> option A) (ss : list structure) : option A :=
  match ss with
  | [] => None
  | s :: r => match last_told what r with Some x => Some x | None => what s end
  end.
Definition of_type (t : nat) (s : structure) : bool := Nat.eqb (nat_of_ascii (st_type s)) t.
Definition told_bios (s : structure) : option bytes := if of_type 0 s then named s 4 else None.
Definition told_board (s : structure) : option bytes := if of_type 2 s then named s 4 else None.
Definition told_cpu (s : structure) : option bytes := if of_type 4 s then named s 7 else None.
Definition told_cores (s : structure) : option N := if of_type 4 s then Some (N_of_ascii (field s 35)) else None.
Definition told_system (s : structure) : option bytes :=
  if of_type 1 s then match named s 4, named s 5 with Some a, Some b => Some (a ++ b) | _, _ => None end else None.

(** what the Windows API delivers: four version bytes, the length of the table as a
    32 bit little endian number, the table *)
Definition le32 (n : nat) (b : bytes) : Prop :=
  exists a0 a1 a2 a3, b = [a0; a1; a2; a3] /\ n = nat_of_ascii a0 + 256 * (nat_of_ascii a1 + 256 * (nat_of_ascii a2 + 256 * nat_of_ascii a3)).
Definition delivered (ss : list structure) (b : bytes) : Prop :=
  exists versions len rest, length versions = 4 /\ le32 (length (table ss)) len /\ b = versions ++ len ++ table ss ++ rest.
