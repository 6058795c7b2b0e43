(** The static objects of the library that its functions write, and the threads of a process that
    use them: [initialized] (os/openssl/signature_verifier.cpp 35), [logFile]
    (base/logger.cpp 17). They are plain objects: nothing orders the accesses of different
    threads. (exec_env of identify_pc is constructed by the rules for function-local statics and
    is modelled in IdThreads.v.) Threads interleave at single accesses. *)
From Verif Require Import Base.

Inductive var := Initialized | LogFile.
(** what else a function does, as far as it matters here *)
Inductive action :=
| LoadErrStrings          (* ERR_load_ERR_strings(), signature_verifier.cpp 38 *)
| LoadCryptoStrings       (* ERR_load_crypto_strings(), 39 *)
| AddAlgorithms           (* OpenSSL_add_all_algorithms(), 40 *)
| UseCrypto               (* the rest of verify_signature, 49-105 *)
| Print (stream : nat)    (* vfprintf, logger.cpp 61 *)
| Close (stream : nat).   (* fclose, logger.cpp 68 *)
(** A program: what it does next. Values are [int]s, or streams (0: NULL). *)
Inductive prog :=
| Stop
| Rd (x : var) (k : nat -> prog)
| Wr (x : var) (v : nat) (k : prog)
| Open (k : nat -> prog)  (* fopen, logger.cpp 52: NULL or a new stream *)
| Act (a : action) (k : prog).

(** initialize(), signature_verifier.cpp 34-42, and then [k] *)
Definition initialize (k : prog) : prog :=
  Rd Initialized (fun v =>
    if Nat.eqb v 0 then Wr Initialized 1 (Act LoadErrStrings (Act LoadCryptoStrings (Act AddAlgorithms k))) else k).
(** verify_signature, signature_verifier.cpp 44-106 *)
Definition verify_call (k : prog) : prog := initialize (Act UseCrypto k).
(** _log, logger.cpp 46-64: the test of line 49, fopen, the test of line 53, vfprintf *)
Definition log_call (k : prog) : prog :=
  let print := Rd LogFile (fun f => Act (Print f) k) in
  Rd LogFile (fun f =>
    if Nat.eqb f 0 then Open (fun h => Wr LogFile h (Rd LogFile (fun f => if Nat.eqb f 0 then k else print))) else print).
(** _shutdown_log, logger.cpp 66-71 *)
Definition shutdown_call (k : prog) : prog :=
  Rd LogFile (fun f => if Nat.eqb f 0 then k else Rd LogFile (fun f => Act (Close f) (Wr LogFile 0 k))).

(** the calls of a thread *)
Inductive scall := CVerify | CLog | CShutdown.
Fixpoint calls_prog (cs : list scall) : prog :=
  match cs with
  | [] => Stop
  | CVerify :: cs => verify_call (calls_prog cs)
  | CLog :: cs => log_call (calls_prog cs)
  | CShutdown :: cs => shutdown_call (calls_prog cs)
  end.

(** what has happened, latest first *)
Inductive happened := Did (a : action) | Opened (stream : nat).
Record statics := { sx_initialized : nat; sx_log : nat; sx_opened : nat; sx_past : list happened }.
Definition value (s : statics) (x : var) : nat := match x with Initialized => sx_initialized s | LogFile => sx_log s end.
Definition store (s : statics) (x : var) (v : nat) : statics :=
  match x with
  | Initialized => {| sx_initialized := v; sx_log := sx_log s; sx_opened := sx_opened s; sx_past := sx_past s |}
  | LogFile => {| sx_initialized := sx_initialized s; sx_log := v; sx_opened := sx_opened s; sx_past := sx_past s |}
  end.
Definition record_ (s : statics) (h : happened) : statics :=
  {| sx_initialized := sx_initialized s; sx_log := sx_log s; sx_opened := sx_opened s; sx_past := h :: sx_past s |}.
(** the streams are numbered 1, 2, ... in the order in which they are opened *)
Definition open_stream (s : statics) : statics :=
  {| sx_initialized := sx_initialized s; sx_log := sx_log s; sx_opened := S (sx_opened s); sx_past := Opened (S (sx_opened s)) :: sx_past s |}.
(** static storage is zero at the start of the process *)
Definition at_start : statics := {| sx_initialized := 0; sx_log := 0; sx_opened := 0; sx_past := [] |}.

(** one step of a thread; [opens]: does fopen succeed *)
Definition pstep (opens : bool) (s : statics) (p : prog) : statics * prog :=
  match p with
  | Stop => (s, Stop)
  | Rd x k => (s, k (value s x))
  | Wr x v k => (store s x v, k)
  | Open k => if opens then (open_stream s, k (S (sx_opened s))) else (s, k 0)
  | Act a k => (record_ s (Did a), k)
  end.
Fixpoint replace_at {A} (l : list A) (i : nat) (x : A) : list A :=
  match l, i with
  | [], _ => []
  | _ :: r, 0 => x :: r
  | a :: r, S i => a :: replace_at r i x
  end.
(** Threads scheduled in any order; with every step, whether an fopen would succeed. *)
Fixpoint srun (schedule : list (nat * bool)) (s : statics) (pool : list prog) : statics * list prog :=
  match schedule with
  | [] => (s, pool)
  | (i, opens) :: rest =>
      match nth_error pool i with
      | None => srun rest s pool
      | Some p => let '(s', p') := pstep opens s p in srun rest s' (replace_at pool i p')
      end
  end.
