(** Computations that acquire and release resources of the operating system or of a
    library through plain pointers and handles (no code: notation for WinSignature.v and
    OpenSsl.v). *)
From Verif Require Import Base.

Inductive event (R : Type) := Acquired (r : R) | Released (r : R).
Arguments Acquired {R}. Arguments Released {R}.
(** The outcome with what was acquired and released until then, in this order. When the
    function is left by an exception nothing more is released: plain pointers have no
    destructors. *)
Definition T (R A : Type) := (res A * list (event R))%type.
Definition tret {R A} (a : A) : T R A := (Ok a, []).
Definition tlift {R A} (m : res A) : T R A := (m, []).
Definition tlog {R} (e : event R) : T R unit := (Ok tt, [e]).
Definition tbind {R A B} (m : T R A) (k : A -> T R B) : T R B :=
  match fst m with
  | Ok a => (fst (k a), snd m ++ snd (k a))
  | Throw e => (Throw e, snd m)
  | Undef u => (Undef u, snd m)
  | OutOfFuel => (OutOfFuel, snd m)
  end.
Definition twhen {R} (b : bool) (e : event R) : T R unit := if b then tlog e else tret tt.
Notation "x <<- m ;; k" := (tbind m (fun x => k)) (at level 60, m at next level, right associativity).
Notation "' p <<- m ;; k" := (tbind m (fun x => match x with p => k end))
  (at level 60, p pattern, m at next level, right associativity).
