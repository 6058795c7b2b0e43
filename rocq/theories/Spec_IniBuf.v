(** What the pointers kept by the loader refer to (C77). *)
From Verif Require Import Base Ini IniBuf Spec_Ini.

(** The C string at offset [p] of the memory [b] is [s] *)
Definition string_at (b : bytes) (p : nat) (s : bytes) : Prop :=
  ~ In NUL s /\ exists rest, skipn p b = s ++ NUL :: rest.
Definition section_at (b : bytes) (sp : sptr) (s : bytes) : Prop :=
  match sp with SEmpty => s = [] | SAt p => string_at b p s end.
(** A section name as the text gives it; after a '[' without ']' the text gives none and the
    name spans a line end *)
Definition line_end_in (s : bytes) : Prop := In CR s \/ In LF s.
Definition names (sec : section) (s : bytes) : Prop := match sec with SecNamed n => s = n | SecBroken => line_end_in s end.

(** the entry kept for an item of the text *)
Definition kept (b : bytes) (e : entry) (i : item) : Prop :=
  match i with
  | ISection n => e_kv e = None /\ section_at b (e_sec e) n
  | IEntry sec k v => exists pk pv s, e_kv e = Some (pk, pv) /\ string_at b pk k /\ string_at b pv v /\ section_at b (e_sec e) s /\ names sec s
  end.
(** the strings behind its pointers *)
Definition reads (b : bytes) (e : entry) (s : seen) : Prop :=
  section_at b (e_sec e) (fst s) /\
  match e_kv e, snd s with
  | None, None => True
  | Some (pk, pv), Some (k, v) => string_at b pk k /\ string_at b pv v
  | _, _ => False
  end.
