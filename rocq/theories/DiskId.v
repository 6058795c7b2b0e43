(** Model of parse_disk_id, src/library/os/linux/os_linux.cpp 74-81: the alternative to
    parseUUID that a build with PARSE_ID_FUNC set to it (lines 24-30, commented out) would use. *)
From Verif Require Import Base CTypes StringUtils Network Disks.

(** How the call ends: the buffer it leaves, a division by zero at [i % out_size]
    (os_linux.cpp 79), or not within the given number of rounds. *)
Inductive did_out := DBuf (buf : bytes) | DDivZero | DRunning.

(** os_linux.cpp 78-80: one round per unit of [fuel]. [i] is an unsigned int and wraps at
    2^32, [len] a size_t. [uuid[i]] is a char with a sign; the ^ is taken on int and its low
    eight bits are stored, which is the ^ of the bytes. *)
Fixpoint did_loop (fuel : nat) (uuid : bytes) (size : nat) (i : N) (buf : bytes) : did_out :=
  match fuel with
  | 0 => DRunning
  | S f =>
      if N.ltb i (N.of_nat (length uuid)) then
        match size with
        | 0 => DDivZero
        | _ => did_loop f uuid size ((i + 1) mod 4294967296)%N
                 (xor_at (N.to_nat (i mod N.of_nat size)) (nth (N.to_nat i) uuid NUL) buf)
        end
      else DBuf buf
  end.

(** os_linux.cpp 74-81: strlen, memset and the loop. The caller's buffer has out_size bytes. *)
Definition parse_disk_id (fuel : nat) (uuid : bytes) (size : nat) : did_out :=
  did_loop fuel (cstr uuid) size 0 (repeat NUL size).
