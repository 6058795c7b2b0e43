(** How a license text is to be read, line by line; and what a lookup means.
    Independent of the scanner of Ini.v (only its result types are shared). *)
From Verif Require Import Base Ini.

Definition is_eol (c : ascii) : bool := Ascii.eqb c "010"%char || Ascii.eqb c "013"%char.
Definition is_gap (c : ascii) : bool := Ascii.eqb c " "%char || Ascii.eqb c "009"%char.

(** the text between line ends *)
Fixpoint lines (s : bytes) : list bytes :=
  match s with
  | [] => [[]]
  | c :: r => if is_eol c then [] :: lines r
              else match lines r with l :: ls => (c :: l) :: ls | [] => [[c]] end
  end.

(** without surrounding spaces and tabs *)
Fixpoint lstrip (s : bytes) : bytes :=
  match s with c :: r => if is_gap c then lstrip r else s | [] => [] end.
Definition strip (s : bytes) : bytes := rev (lstrip (rev (lstrip s))).

(** text before and after the first occurrence of a character *)
Fixpoint cut_at (x : ascii) (s : bytes) : option (bytes * bytes) :=
  match s with
  | [] => None
  | c :: r => if Ascii.eqb c x then Some ([], r)
              else match cut_at x r with Some (a, b) => Some (c :: a, b) | None => None end
  end.

(** What one line says. *)
Inductive line_meaning := LNothing | LHeader (name : bytes) | LBroken | LEntry (key value : bytes).
Definition meaning (l : bytes) : line_meaning :=
  match strip l with
  | [] => LNothing
  | c :: r =>
      if Ascii.eqb c ";"%char || Ascii.eqb c "#"%char then LNothing
      else if Ascii.eqb c "["%char then
        match cut_at "]"%char r with Some (n, _) => LHeader (strip n) | None => LBroken end
      else
        match cut_at "="%char (c :: r) with
        | Some ((_ :: _) as k, v) => LEntry (strip k) (strip v)
        | _ => LNothing
        end
  end.

(** The items of a text. A line consisting of a lone "[" is joined with the
    following lines up to the first that is not empty ([open]); apart from that
    each line stands for itself. [sec]: the current section. *)
Fixpoint read_lines (sec : section) (open : bool) (ls : list bytes) : list item :=
  match ls with
  | [] => []
  | l :: rest =>
      let l := if open then "["%char :: l else l in
      if beqb (strip l) ["["%char] then read_lines sec true rest
      else match meaning l with
           | LNothing => read_lines sec false rest
           | LHeader n => ISection n :: read_lines (SecNamed n) false rest
           | LBroken => read_lines SecBroken false rest
           | LEntry k v => IEntry sec k v :: read_lines sec false rest
           end
  end.

(** The items of a license text: up to its first NUL, starting outside any section. *)
Definition text_items (text : bytes) : list item := read_lines (SecNamed []) false (lines (cstr text)).

(** ASCII case-insensitive equality of names *)
Definition lower (c : ascii) : ascii :=
  let n := N_of_ascii c in if (65 <=? n)%N && (n <=? 90)%N then ascii_of_N (n + 32) else c.
Definition same_name (a b : bytes) : Prop := map lower a = map lower b.
Definition same_nameb (a b : bytes) : bool := beqb (map lower a) (map lower b).

(** All entries of all sections with a given name, in textual order *)
Definition item_entries (name : bytes) (i : item) : list (bytes * bytes) :=
  match i with
  | IEntry (SecNamed n) k v => if same_nameb n name then [(k, v)] else []
  | _ => []
  end.
Definition section_entries (text name : bytes) : list (bytes * bytes) :=
  flat_map (item_entries name) (text_items text).

(** Does the text have such a section? *)
Definition item_opens (name : bytes) (i : item) : bool :=
  match i with
  | ISection n | IEntry (SecNamed n) _ _ => same_nameb n name
  | _ => false
  end.
Definition has_section_named (text name : bytes) : bool := existsb (item_opens name) (text_items text).

(** Value of a key: the last one given to it. *)
Fixpoint last_value (es : list (bytes * bytes)) (key : bytes) : option bytes :=
  match es with
  | [] => None
  | (k, v) :: r => match last_value r key with
                   | Some v' => Some v'
                   | None => if same_nameb k key then Some v else None
                   end
  end.
(** Spelling of a key: the first one used. *)
Fixpoint first_spelling (es : list (bytes * bytes)) (key : bytes) : option bytes :=
  match es with
  | [] => None
  | (k, _) :: r => if same_nameb k key then Some k else first_spelling r key
  end.
(** Number of different keys *)
Fixpoint distinct_keys (es : list (bytes * bytes)) : nat :=
  match es with
  | [] => 0
  | (k, _) :: r => (if existsb (fun e => same_nameb (fst e) k) r then 0 else 1) + distinct_keys r
  end.
(** Value of a key spelled exactly that way *)
Definition exact_value (es : list (bytes * bytes)) (key : bytes) : option bytes :=
  match first_spelling es key with
  | Some k => if beqb k key then last_value es key else None
  | None => None
  end.

(** Sections, keys and values that can be written in an INI text: no line end, no
    NUL, no surrounding spaces or tabs; a section name has no ']'; a key is not
    empty, has no '=' and does not start like a comment or a header. *)
Definition clean (s : bytes) : Prop :=
  (forall c, In c s -> is_eol c = false /\ c <> "000"%char) /\ strip s = s.
Definition clean_section (n : bytes) : Prop := clean n /\ ~ In "]"%char n.
Definition clean_key (k : bytes) : Prop :=
  clean k /\ ~ In "="%char k /\ exists c r, k = c :: r /\ ~ In c [";"%char; "#"%char; "["%char].
Fixpoint distinct_names {V} (l : list (bytes * V)) : Prop :=
  match l with
  | [] => True
  | (n, _) :: r => (forall n' v', In (n', v') r -> ~ same_name n n') /\ distinct_names r
  end.
Definition clean_keyvals (kv : list (bytes * bytes)) : Prop :=
  distinct_names kv /\ forall k v, In (k, v) kv -> clean_key k /\ clean v.
Definition clean_sections (d : list (bytes * list (bytes * bytes))) : Prop :=
  distinct_names d /\ forall n kv, In (n, kv) d -> clean_section n /\ clean_keyvals kv.
(** The unnamed section can only be written first, and only with some entry. *)
Definition unnamed_first (d : list (bytes * list (bytes * bytes))) : Prop :=
  match d with
  | [] => True
  | s :: r => (fst s = [] -> snd s <> []) /\ forall n kv, In (n, kv) r -> n <> []
  end.
