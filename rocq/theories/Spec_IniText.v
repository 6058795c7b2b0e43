(** The text an INI object writes, as something to be read again: which strings survive it. *)
From Verif Require Import Base Spec_Ini Spec_IniEdit.

(** a comment: every line of it is empty or starts with ';' or '#' *)
Definition comment_line (l : bytes) : Prop :=
  match strip l with [] => True | c :: _ => c = ";"%char \/ c = "#"%char end.
Definition comment_text (c : bytes) : Prop := ~ In NUL c /\ Forall comment_line (lines c).
Definition comment_opt (c : option bytes) : Prop := match c with Some s => comment_text s | None => True end.
(** calls whose strings can be written on a line and read from it; [V]: the values *)
Definition tidy_entry (V : bytes -> Prop) (sec : bytes) (kv : option (bytes * bytes)) (comment : option bytes) : Prop :=
  clean_section sec /\ (match kv with Some (k, v) => clean_key k /\ V v | None => True end) /\ comment_opt comment.
Definition tidy_with (V : bytes -> Prop) (c : call) : Prop :=
  match c with
  | CSet sec key value comment _ => tidy_entry V sec (both key value) comment
  | CLoad comment entries => comment_opt comment /\ Forall (fun e => tidy_entry V (fst (fst e)) (snd (fst e)) (snd e)) entries
  | _ => True
  end.
Definition tidy (c : call) : Prop := tidy_with clean c.
(** the values a text gives to a key, in their order *)
Definition text_values (text sec key : bytes) : list bytes :=
  map snd (filter (fun e => same_nameb (fst e) key) (section_entries text sec)).
