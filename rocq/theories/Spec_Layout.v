(** A license document, apart from how it is laid out as a text. *)
From Verif Require Import Base Ini Locate ExecEnv Spec_Ini Spec_Ext.
From Coq Require Import Permutation.

(** sections with their entries *)
Definition document := list (bytes * list (bytes * bytes)).
Definition gap (s : bytes) : Prop := forallb is_gap s = true.
(** LF, CR, or both *)
Definition line_end (e : bytes) : Prop := e = [LF] \/ e = [CR] \/ e = [CR; LF].

(** Ways to write one thing on a line. *)
Inductive written : line_meaning -> bytes -> Prop :=
| wr_blank g : gap g -> written LNothing g
| wr_comment g c s : gap g -> c = ";"%char \/ c = "#"%char -> plain_line s -> written LNothing (g ++ c :: s)
| wr_header g g1 n g2 s : gap g -> gap g1 -> gap g2 -> clean_section n -> plain_line s ->
    written (LHeader n) (g ++ "["%char :: g1 ++ n ++ g2 ++ "]"%char :: s)
| wr_entry g k g1 g2 v g3 : gap g -> gap g1 -> gap g2 -> gap g3 -> clean_key k -> clean v ->
    written (LEntry k v) (g ++ k ++ g1 ++ "="%char :: g2 ++ v ++ g3).
(** the things said, without the lines that say nothing *)
Definition kept (m : line_meaning) : list line_meaning := match m with LNothing => [] | _ => [m] end.
(** Ways to write several things; the last line end may be missing. *)
Inductive sets_out : list line_meaning -> bytes -> Prop :=
| so_last m l : written m l -> sets_out (kept m) l
| so_line m l e ms text : written m l -> line_end e -> sets_out ms text -> sets_out (kept m ++ ms) (l ++ e ++ text).

Definition statements (d : document) : list line_meaning :=
  flat_map (fun s => LHeader (fst s) :: map (fun e => LEntry (fst e) (snd e)) (snd s)) d.
(** the text is a way to write the document *)
Definition renders (d : document) (text : bytes) : Prop := sets_out (statements d) text.
(** the entries of a section of the document *)
Definition document_entries (d : document) (name : bytes) : list (bytes * bytes) :=
  flat_map (fun s => if same_nameb (fst s) name then snd s else []) d.

(** The same document, but for the order of the sections and of the entries in them, and
    for the case of the names of the sections. No section and no key in a section occurs twice. *)
Definition reordered (d d' : document) : Prop :=
  distinct_names d /\ (forall n es, In (n, es) d -> distinct_names es) /\
  exists d1, Permutation d d1 /\ Forall2 (fun s s' => same_name (fst s) (fst s') /\ Permutation (snd s) (snd s')) d1 d'.
Definition same_document (d d' : document) : Prop := d = d' \/ reordered d d'.
(** two files (if any): the same data, or two ways to write the same document (as far as
    a file is read) *)
Definition same_file_document (a b : option file) : Prop :=
  match a, b with
  | Some a, Some b => readable a = readable b \/ exists d d', renders d (readable a) /\ renders d' (readable b) /\ same_document d d'
  | None, None => True
  | _, _ => False
  end.
