(** Reading a license file step by step: src/library/base/file_utils.cpp 37-51 as the system
    calls that the stream makes (libstdc++: basic_filebuf), with the file system changing between
    them. In Locate.v and AcquireIo.v a reading is one access that delivers any size and any
    bytes; here they come from the file system, call by call. *)
From Verif Require Import Base CTypes StringUtils Registry ExecEnv Strategies Locate Licensecc AcquireIo.

(** The file system at an instant: the file (inode) a path leads to, if it can be opened; the
    bytes of a file; what a read(2) delivers at most (one byte at least, unless the end is
    reached), [None]: it fails. Regular files only. *)
Record disk := {
  k_path : nat -> bytes -> option nat;
  k_data : nat -> nat -> bytes;
  k_most : nat -> option nat }.

(** the bytes a stream asks for at once: BUFSIZ - 1 *)
Definition BUFFER : nat := 8191.
(** file_utils.cpp 45: in.read(&contents[0], limited_size). The stream fills its buffer by read(2)
    until it has [want] bytes, the file ends or an error occurs. The steps of the call are made
    at the instants [at_ 0], [at_ 1], ...; [j] is the next. Result: the bytes and the next step. *)
Fixpoint deliver (d : disk) (at_ : nat -> nat) (n : nat) (fuel off want j : nat) : bytes * nat :=
  match fuel, want with
  | S f, S _ =>
      match k_most d (at_ j) with
      | None => ([], S j)
      | Some m =>
          let got := firstn (Nat.min BUFFER (Nat.max 1 m)) (skipn off (k_data d (at_ j) n)) in
          match got with
          | [] => ([], S j)
          | _ => let '(r, j') := deliver d at_ n f (off + length got) (want - length got) (S j) in (firstn want got ++ r, j')
          end
      end
  | _, _ => ([], j)
  end.
(** file_utils.cpp 37-51: open 39, seek to the end 41 (tellg and the seek to the beginning depend
    on nothing), read 45. What is read, for [get_file_contents]. *)
Definition read_steps (d : disk) (at_ : nat -> nat) (j : nat) (path : bytes) : option file * nat :=
  match k_path d (at_ j) path with
  | None => (None, S j)
  | Some n =>
      let size := length (k_data d (at_ (S j)) n) in
      let want := Nat.min size MAX_LICENSE_DATA in
      let '(got, j') := deliver d at_ n want 0 want (S (S j)) in
      (Some {| f_size := N.of_nat size; f_data := got |}, j')
  end.
Definition can_open (d : disk) (i : nat) (path : bytes) : bool :=
  match k_path d i path with Some _ => true | None => false end.
(** A program of AcquireIo.v with its readings step by step, from step [j] on. The clock and the
    hardware are those of [w]. *)
Fixpoint run_steps {A} (w : world) (d : disk) (at_ : nat -> nat) (m : io A) (j : nat) : res (A * nat) :=
  match m with
  | Done r => a <-- r ;; Ok (a, j)
  | LookFor p k => run_steps w d at_ (k (can_open d (at_ j) p)) (S j)
  | ReadFile p k => run_steps w d at_ (k (fst (read_steps d at_ j p))) (snd (read_steps d at_ j p))
  | AskTime k => run_steps w d at_ (k (w_clock w (at_ j))) (S j)
  | AskMachine k => run_steps w d at_ (k (w_machine w (at_ j))) (S j)
  end.
(** licensecc.cpp 74-135 *)
Definition acquire_steps (w : world) (d : disk) (at_ : nat -> nat) (c : option caller) (hint : option location) (out : option out_info) (j : nat)
  : res ((event_type * option out_info) * nat) :=
  run_steps w d at_ (io_acquire_license w c hint out) j.
