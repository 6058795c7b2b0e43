(** Basic vocabulary shared by the whole model: byte strings, outcomes of a C++
    call, C strings, and the std::map<std::string,_> used by the library. *)
From Coq Require Export String Ascii.
From Coq Require Export List Arith ZArith NArith Bool.
Export ListNotations.
Open Scope list_scope.
Open Scope nat_scope.

(** A [char]/[unsigned char]/[uint8_t] is an [ascii] (8 bits, so every store
    wraps modulo 256); a std::string, a std::vector<uint8_t> or a C array is the
    list of its elements. *)
Definition bytes := list ascii.

(** a string literal of the source as bytes (notation, no code) *)
Definition bs (s : string) : bytes := list_ascii_of_string s.

(** the value of an unsigned char (notation, no code) *)
Definition code (c : ascii) : N := N_of_ascii c.
(** the characters written '\0' '\n' '\r' '\t' ' ' in the source *)
Definition NUL : ascii := "000"%char.
Definition LF : ascii := "010"%char.
Definition CR : ascii := "013"%char.
Definition TAB : ascii := "009"%char.
Definition SP : ascii := " "%char.

(** std::string::operator== *)
Fixpoint beqb (a b : bytes) : bool :=
  match a, b with
  | [], [] => true
  | x :: a', y :: b' => Ascii.eqb x y && beqb a' b'
  | _, _ => false
  end.

(** std::string::compare (char_traits<char>::compare, i.e. memcmp on unsigned
    bytes, then the shorter string first): the order of std::map<string,_>. *)
Fixpoint bcmp (a b : bytes) : comparison :=
  match a, b with
  | [], [] => Eq
  | [], _ :: _ => Lt
  | _ :: _, [] => Gt
  | x :: a', y :: b' =>
      match N.compare (code x) (code y) with Eq => bcmp a' b' | c => c end
  end.

(** C++ exceptions the library throws.  [ExLogic], [ExInvalidArg], [ExLength]
    and [ExOutOfRange] are std::logic_error or derived from it; [ExRuntime] is
    std::runtime_error. *)
Inductive exn := ExLogic | ExInvalidArg | ExLength | ExOutOfRange | ExRuntime.

(** hw_identifier_facade.cpp 30: which exceptions "catch (logic_error&)" catches *)
Definition is_logic_error (e : exn) : bool :=
  match e with ExRuntime => false | _ => true end.

(** Undefined behaviour, by kind. *)
Inductive ub :=
| UbRead      (* read outside an array / after the end of a string *)
| UbWrite     (* write outside an array *)
| UbNull      (* null pointer dereference *)
| UbUninit    (* read of a never written object *)
| UbOverflow. (* floating to integer conversion out of range *)

(** Outcome of a C++ call. [OutOfFuel] is an artefact of fuelled loops; theorems
    about outcomes exclude it explicitly. *)
Inductive res (A : Type) :=
| Ok (a : A)
| Throw (e : exn)
| Undef (u : ub)
| OutOfFuel.
Arguments Ok {A}. Arguments Throw {A}. Arguments Undef {A}. Arguments OutOfFuel {A}.

(** sequencing of C++ statements: an exception or undefined behaviour ends the sequence (no code) *)
Definition rbind {A B} (m : res A) (k : A -> res B) : res B :=
  match m with
  | Ok a => k a
  | Throw e => Throw e
  | Undef u => Undef u
  | OutOfFuel => OutOfFuel
  end.

Notation "x <-- m ;; k" := (rbind m (fun x => k))
  (at level 61, m at next level, right associativity).
Notation "' p <-- m ;; k" := (rbind m (fun x => match x with p => k end))
  (at level 61, p pattern, m at next level, right associativity).

(** Calls that also interact with the environment (clock, file system): the
    natural number is the instant, i.e. the number of environment accesses made
    so far during the call. *)
Definition M (A : Type) := nat -> res (A * nat).
(** sequencing of statements that may read the environment (no code) *)
Definition mret {A} (a : A) : M A := fun t => Ok (a, t).
Definition mlift {A} (r : res A) : M A := fun t => x <-- r ;; Ok (x, t).
Definition mbind {A B} (m : M A) (k : A -> M B) : M B :=
  fun t => match m t with
           | Ok (a, t') => k a t'
           | Throw e => Throw e
           | Undef u => Undef u
           | OutOfFuel => OutOfFuel
           end.
Notation "x <~ m ;; k" := (mbind m (fun x => k))
  (at level 61, m at next level, right associativity).
Notation "' p <~ m ;; k" := (mbind m (fun x => match x with p => k end))
  (at level 61, p pattern, m at next level, right associativity).

(** Longest prefix / remaining suffix with respect to a predicate: the shape of
    every "while p is not at NUL and cond holds, advance p" loop. *)
Fixpoint span (f : ascii -> bool) (l : bytes) : bytes * bytes :=
  match l with
  | [] => ([], [])
  | c :: r => if f c then let (a, b) := span f r in (c :: a, b) else ([], l)
  end.
(** the position reached by such a loop; [rdrop_while] is the loop from the end *)
Fixpoint drop_while (f : ascii -> bool) (l : bytes) : bytes :=
  match l with
  | [] => []
  | c :: r => if f c then drop_while f r else l
  end.
Definition rdrop_while (f : ascii -> bool) (l : bytes) : bytes :=
  rev (drop_while f (rev l)).

(** The C string starting at the head of a byte sequence (what c_str() readers
    see): everything before the first NUL. *)
Definition cstr (l : bytes) : bytes := fst (span (fun c => negb (Ascii.eqb c NUL)) l).

(** std::map<std::string, V>: strictly sorted association list. *)
Definition smap (V : Type) := list (bytes * V).

(** std::map::operator[] followed by assignment. *)
Fixpoint sm_set {V} (k : bytes) (v : V) (m : smap V) : smap V :=
  match m with
  | [] => [(k, v)]
  | (k', v') :: r =>
      match bcmp k k' with
      | Lt => (k, v) :: m
      | Eq => (k', v) :: r
      | Gt => (k', v') :: sm_set k v r
      end
  end.

(** std::map::find. *)
Fixpoint sm_get {V} (k : bytes) (m : smap V) : option V :=
  match m with
  | [] => None
  | (k', v') :: r => if beqb k k' then Some v' else sm_get k r
  end.

(** std::map::find(k) != end() *)
Definition sm_mem {V} (k : bytes) (m : smap V) : bool :=
  match sm_get k m with Some _ => true | None => false end.
