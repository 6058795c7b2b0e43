(** What a value of several lines is: the lines up to the first one that is the tag. *)
From Verif Require Import Base Ini Spec_Ini.

(** [n] is a whole line end before [r]: LF, CR LF, or CR alone *)
Definition line_end_before (n r : bytes) : Prop :=
  n = [LF] \/ n = [CR; LF] \/ n = [CR] /\ (forall r', r <> LF :: r').
Definition one_line (l : bytes) : Prop := forall c, In c l -> is_eol c = false.
(** [multi tag s ls rest]: the text [s] has the lines [ls] and then the tag (compared without
    case, no spaces around it), and [rest] follows; without a tag the text is all lines. *)
Inductive multi (tag : bytes) : bytes -> list bytes -> bytes -> Prop :=
| multi_last l : one_line l -> same_name l tag -> multi tag l [] []
| multi_tag l n r : one_line l -> same_name l tag -> line_end_before n r -> multi tag (l ++ n ++ r) [] r
| multi_more l n r ls rest : one_line l -> ~ same_name l tag -> line_end_before n r -> multi tag r ls rest -> multi tag (l ++ n ++ r) (l :: ls) rest
| multi_open l : one_line l -> ~ same_name l tag -> multi tag l [l] [].
(** the value: the lines with one LF between them *)
Fixpoint lines_value (ls : list bytes) : bytes :=
  match ls with [] => [] | [l] => l | l :: r => l ++ LF :: lines_value r end.

(** ** Reading a text with such values, line by line *)
(** the lines of a text; LF, CR and CR LF end a line *)
Fixpoint plines (s : bytes) : list bytes :=
  match s with
  | [] => [[]]
  | c :: r =>
      if is_eol c then
        [] :: match r with
              | d :: r' => if Ascii.eqb c CR && Ascii.eqb d LF then plines r' else plines r
              | [] => [[]]
              end
      else match plines r with l :: ls => (c :: l) :: ls | [] => [[c]] end
  end.
(** where the reader is: between lines, after a lone "[", or in the value of [key] *)
Inductive reading := Plain | Open | Inside (key tag : bytes) (got : list bytes).
(** a value that opens several lines *)
Definition opens (v : bytes) : option bytes :=
  match v with
  | a :: b :: c :: tag => if Ascii.eqb a "<"%char && Ascii.eqb b "<"%char && Ascii.eqb c "<"%char then Some tag else None
  | _ => None
  end.
(** As [read_lines]; None if the text has a value of no lines at all (the tag follows at once). *)
Fixpoint read_ml (sec : section) (m : reading) (ls : list bytes) : option (list item) :=
  match ls with
  | [] => match m with
          | Inside k tag [] => if same_nameb [] tag then None else Some [IEntry sec k []]
          | Inside k _ got => Some [IEntry sec k (lines_value got)]
          | _ => Some []
          end
  | l :: rest =>
      match m with
      | Inside k tag got =>
          if same_nameb l tag then
            match got with [] => None | _ => option_map (cons (IEntry sec k (lines_value got))) (read_ml sec Plain rest) end
          else read_ml sec (Inside k tag (got ++ [l])) rest
      | _ =>
          let l := match m with Open => "["%char :: l | _ => l end in
          if beqb (strip l) ["["%char] then read_ml sec Open rest
          else match meaning l with
               | LNothing => read_ml sec Plain rest
               | LHeader n => option_map (cons (ISection n)) (read_ml (SecNamed n) Plain rest)
               | LBroken => read_ml SecBroken Plain rest
               | LEntry k v =>
                   match opens v with
                   | Some tag => read_ml sec (Inside k tag []) rest
                   | None => option_map (cons (IEntry sec k v)) (read_ml sec Plain rest)
                   end
               end
      end
  end.
Definition text_items_ml (text : bytes) : option (list item) := read_ml (SecNamed []) Plain (plines (cstr text)).
