(** Disks: serial numbers, the blkid cache, directory listings and preferences. *)
From Verif Require Import Base CTypes.

(** ** Serial numbers: hex digits of the UUID, two per byte, a missing last digit
    counting as 0, the bytes xor-ed together in eight columns. *)
Definition hex_digit (c : ascii) : option N :=
  let n := N_of_ascii c in
  (if (48 <=? n) && (n <=? 57) then Some (n - 48)
   else if (65 <=? n) && (n <=? 70) then Some (n - 55)
   else if (97 <=? n) && (n <=? 102) then Some (n - 87)
   else None)%N.
Fixpoint hex_digits (s : bytes) : list N :=
  match s with
  | [] => []
  | c :: r => match hex_digit c with Some d => d :: hex_digits r | None => hex_digits r end
  end.
Fixpoint hex_pairs (l : list N) : list N :=
  match l with
  | a :: b :: r => (16 * a + b)%N :: hex_pairs r
  | [a] => [(16 * a)%N]
  | [] => []
  end.
(** the xor of the elements of [l], numbered from [i], in column [k] *)
Fixpoint column (k i : nat) (l : list N) : N :=
  match l with
  | [] => 0%N
  | b :: r => N.lxor (if Nat.eqb (i mod 8) k then b else 0%N) (column k (S i) r)
  end.
Definition serial_of (uuid : bytes) : bytes :=
  map (fun k => ascii_of_N (column k 0 (hex_pairs (hex_digits uuid)))) (seq 0 8).
(** characters that are no hex digits *)
Definition others (uuid : bytes) : nat := length uuid - length (hex_digits uuid).

(** ** Text search: [needle] occurs in [s] after [a] and not earlier *)
Definition first_at (needle s a b : bytes) : Prop :=
  s = a ++ needle ++ b /\ forall a' b', s = a' ++ needle ++ b' -> length a <= length a'.
(** the number of occurrences of [needle] *)
Fixpoint starts_with (p s : bytes) : bool :=
  match p, s with
  | [], _ => true
  | a :: p', b :: s' => Ascii.eqb a b && starts_with p' s'
  | _, [] => false
  end.
Fixpoint occurrences (needle s : bytes) : nat :=
  (if starts_with needle s then 1 else 0) + match s with [] => 0 | _ :: r => occurrences needle r end.
(** [attr="v"] in a device element, first occurrence *)
Definition attribute (s attr v : bytes) : Prop :=
  exists a b, first_at (attr ++ bs "=""") s a (v ++ bs """" ++ b) /\ ~ In """"%char v.

(** ** A well-formed blkid cache: devices with all three attributes *)
Record blkid_dev := { bd_text : bytes (* up to the closing tag *); bd_uuid : bytes; bd_label : bytes; bd_type : bytes }.
Definition blkid_ok (d : blkid_dev) : Prop :=
  (forall a b, bd_text d <> a ++ bs "</device>" ++ b) /\
  attribute (bd_text d) (bs "UUID") (bd_uuid d) /\ attribute (bd_text d) (bs "PARTLABEL") (bd_label d) /\ attribute (bd_text d) (bs "TYPE") (bd_type d).
Definition blkid_text (ds : list blkid_dev) (tail : bytes) : bytes :=
  concat (map (fun d => bd_text d ++ bs "</device>") ds) ++ tail.
