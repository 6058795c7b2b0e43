(** What to expect of the static objects. *)
From Verif Require Import Base Statics.

(** the next access of a program to an object, and whether it writes *)
Inductive accesses_next : prog -> var -> bool -> Prop :=
| an_read x k : accesses_next (Rd x k) x false
| an_write x v k : accesses_next (Wr x v k) x true.
(** A data race: two threads are about to access the same object, one of them to write. (C++:
    undefined behaviour, as the objects are not atomic and nothing orders the threads.) *)
Definition race (pool : list prog) : Prop :=
  exists i j p q x b, i <> j /\ nth_error pool i = Some p /\ nth_error pool j = Some q /\ accesses_next p x true /\ accesses_next q x b.
(** the past [h :: before]: [h] happened after [before] *)
Definition happened_after (s : statics) (h : happened) (before : list happened) : Prop := exists later, sx_past s = later ++ h :: before.
(** OpenSSL is only used when it was prepared *)
Definition prepared (s : statics) : Prop := forall before, happened_after s (Did UseCrypto) before ->
  In (Did LoadErrStrings) before /\ In (Did LoadCryptoStrings) before /\ In (Did AddAlgorithms) before.
Definition is_open (f : nat) (past : list happened) : Prop := In (Opened f) past /\ ~ In (Did (Close f)) past.
(** messages go to a stream that is open *)
Definition prints_well (s : statics) : Prop := forall f before, happened_after s (Did (Print f)) before -> is_open f before.
(** streams are closed that are open *)
Definition closes_well (s : statics) : Prop := forall f before, happened_after s (Did (Close f)) before -> is_open f before.
(** at most one stream is open *)
Definition one_stream (s : statics) : Prop := forall f f', is_open f (sx_past s) -> is_open f' (sx_past s) -> f = f'.
(** each preparation at most once *)
Definition once (s : statics) (a : action) : Prop := forall before, happened_after s (Did a) before -> ~ In (Did a) before.
(** the preparations *)
Definition loads : list action := [LoadErrStrings; LoadCryptoStrings; AddAlgorithms].
(** [ready f s]: OpenSSL is prepared and [f] is the log, open *)
Record ready (f : nat) (s : statics) : Prop := {
  rd_init : sx_initialized s = 1; rd_loads : forall l, In l loads -> In (Did l) (sx_past s);
  rd_log : sx_log s = f; rd_file : f <> 0; rd_open : is_open f (sx_past s) }.
