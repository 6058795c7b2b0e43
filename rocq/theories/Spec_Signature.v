(** Vocabulary for what a signature covers. *)
From Verif Require Import Base Spec_Strings Spec_Ini Spec_Ext.

(** no white space, no NUL *)
Definition solid (s : bytes) : Prop := Forall (fun c => ~ blank c /\ c <> NUL) s.
(** a license text: one section, one line "key=value" per entry *)
Definition entry_line (e : bytes * bytes) : bytes := fst e ++ "="%char :: snd e.
Definition license_text (feature : bytes) (es : list (bytes * bytes)) : bytes :=
  unlines (("["%char :: feature ++ ["]"%char]) :: map entry_line es).
(** [k] is the key of the signature *)
Definition is_sig (k : bytes) : Prop := k = bs "sig".
