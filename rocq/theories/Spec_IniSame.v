(** Saving an INI object and loading the text into another one: what is to be the same. *)
From Verif Require Import Base Spec_Ini Spec_IniEdit IniBuf Spec_IniBuf.

(** a line that a reader takes for a comment *)
Definition comment_start (l : bytes) : Prop := match l with [] => False | c :: _ => c = ";"%char \/ c = "#"%char end.
(** a comment of lines that start with ';' or '#' and empty lines between them *)
Definition kept_comment (c : bytes) : Prop :=
  ~ In CR c /\ ~ In NUL c /\ Forall (fun l => l = [] \/ comment_start l) (text_lines c)
  /\ comment_start (hd [] (text_lines c)) /\ comment_start (last (text_lines c) []).
(** the comment at the beginning of a file: no empty lines *)
Definition file_comment (c : bytes) : Prop := ~ In CR c /\ ~ In NUL c /\ Forall comment_start (text_lines c).
Definition kept_opt (c : option bytes) : Prop := match c with Some c => kept_comment c | None => True end.
Definition file_opt (c : option bytes) : Prop := match c with Some c => file_comment c | None => True end.
(** calls that give only such comments *)
Definition comments_kept (c : call) : Prop :=
  match c with
  | CSet _ _ _ comment _ => kept_opt comment
  | CLoad comment es => file_opt comment /\ Forall (fun e => kept_opt (snd e)) es
  | _ => True
  end.
(** A document that a text can show. [mk]: it is saved with several values for a key; otherwise
    no key may have several (they are not written). The unnamed section has no header: it is the
    first one, it has a line and no comment of its own. A comment of the first section is one of
    the file if the file has none. *)
Definition can_show (mk : bool) (d : edoc) : Prop :=
  (mk = true \/ forall p k, In p (d_parts d) -> length (lines_of k p) <= 1)
  /\ (forall before p after, d_parts d = before ++ p :: after -> p_name p = [] -> before = [] /\ p_comment p = None /\ p_lines p <> [])
  /\ (forall p after, d_parts d = p :: after -> d_comment d = None -> p_comment p = None).
(** The entries kept by a loader, as they are given to the object: the strings seen, and the
    string of the comment *)
Definition comment_at (b : bytes) (com : option nat) (c : option bytes) : Prop :=
  match com, c with None, None => True | Some p, Some s => string_at b p s | _, _ => False end.
Definition entry_at (b : bytes) (e : entry * seen) (given : bytes * option (bytes * bytes) * option bytes) : Prop :=
  fst given = snd e /\ comment_at b (e_comment (fst e)) (snd given).
