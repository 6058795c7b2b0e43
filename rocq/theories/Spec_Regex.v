(** What it means that a regular expression matches, by ECMAScript. *)
From Verif Require Import Base Spec_Strings Regex.

(** [matches r before w after]: [r] matches [w] in the text [before ++ w ++ after] *)
Inductive matches : re -> bytes -> bytes -> bytes -> Prop :=
| m_eps p q : matches Eps p [] q
| m_set l c a b p q : In (a, b) l -> (N_of_ascii a <= N_of_ascii c)%N -> (N_of_ascii c <= N_of_ascii b)%N -> matches (Set_ l) p [c] q
| m_any c p q : ~ line_break c -> matches Any p [c] q
| m_bol q : matches Bol [] [] q
| m_eol p : matches Eol p [] []
| m_cat a b u v p q : matches a p u (v ++ q) -> matches b (p ++ u) v q -> matches (Cat a b) p (u ++ v) q
| m_left a b w p q : matches a p w q -> matches (Or a b) p w q
| m_right a b w p q : matches b p w q -> matches (Or a b) p w q
| m_none g a p q : matches (Star g a) p [] q
| m_more g a u v p q : matches a p u (v ++ q) -> matches (Star g a) (p ++ u) v q -> matches (Star g a) p (u ++ v) q.
(** the whole text; some part of it *)
Definition matches_all (r : re) (s : bytes) : Prop := matches r [] s [].
Definition matches_some (r : re) (s : bytes) : Prop := exists p w q, s = p ++ w ++ q /\ matches r p w q.
(** a repeated part matches at least one character *)
Fixpoint advances (r : re) : bool :=
  match r with
  | Set_ _ | Any => true
  | Cat a b => advances a || advances b
  | Or a b => advances a && advances b
  | _ => false
  end.
Fixpoint loops_advance (r : re) : bool :=
  match r with
  | Cat a b | Or a b => loops_advance a && loops_advance b
  | Star _ a => advances a && loops_advance a
  | _ => true
  end.
