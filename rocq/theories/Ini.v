(** Model of the parts of src/library/ini/SimpleIni.h the library uses through
    CSimpleIniA (char, SI_GenericNoCase, no UTF-8, no multi-key, no multi-line,
    spaces around '='). *)
From Verif Require Import Base CTypes StringUtils.

(** SimpleIni.h IsSpace / IsComment / IsNewLineChar (1686-1693 and class body) *)
Definition ini_space (c : ascii) : bool :=
  Ascii.eqb c SP || Ascii.eqb c TAB || Ascii.eqb c CR || Ascii.eqb c LF.
(** SimpleIni.h IsComment (class body) *)
Definition ini_comment (c : ascii) : bool := Ascii.eqb c ";"%char || Ascii.eqb c "#"%char.

(** Section an entry belongs to. [SecBroken]: after a '[' line without ']' the
    code keeps a pointer to the unterminated text; as a C string it contains a
    line terminator, so it equals no line-terminator-free section name. The model
    does not distinguish such sections (lookups with a name containing a line
    terminator are outside the model). *)
Inductive section := SecNamed (n : bytes) | SecBroken.

(** One successful FindEntry: a section header or a key/value pair with its
    section. *)
Inductive item := ISection (n : bytes) | IEntry (sec : section) (key value : bytes).

(** SimpleIni.h SkipNewLine: "\r\n" counts as one *)
Definition skip_newline (s : bytes) : bytes :=
  match s with
  | c :: (d :: r) as t => if Ascii.eqb c CR && Ascii.eqb d LF then r else tl s
  | _ => tl s
  end.

(** SimpleIni.h IsNewLineChar (class body), and the loops that run to the end of a line *)
Definition not_nl (c : ascii) : bool := negb (is_nl c).
Definition to_eol (s : bytes) : bytes := drop_while not_nl s.

(** LoadMultiLineText 1695-1817 with a_pTagName = NULL, as a skipper: the
    position after the run of comment lines starting at [s]. [blank] is
    a_bAllowBlankLinesInComment. The in-place compaction only writes to already
    consumed text. *)
Fixpoint skip_comment (fuel : nat) (blank : bool) (s : bytes) : option bytes :=
  match s with
  | [] => Some []
  | c :: _ =>
      if ini_comment c then
        match fuel with
        | 0 => None
        | S f => match to_eol s with
                 | [] => Some []
                 | r => skip_comment f blank (skip_newline r)
                 end
        end
      else if blank then
        match drop_while ini_space s with
        | d :: r => if ini_comment d then
                      match fuel with
                      | 0 => None
                      | S f => skip_comment f blank (d :: r)
                      end
                    else Some s
        | [] => Some s
        end
      else Some s
  end.

(** FindEntry 1503-1634 iterated as in LoadData 1441-1444; [sec] is the current
    section, [s] the unread text (up to the first NUL). None = out of fuel. *)
Fixpoint ini_scan (fuel : nat) (sec : section) (s : bytes) : option (list item) :=
  match fuel with
  | 0 => None
  | S f =>
      match drop_while ini_space s with
      | [] => Some []
      | c :: r =>
          if ini_comment c then
            match skip_comment f true (c :: r) with
            | Some s' => ini_scan f sec s'
            | None => None
            end
          else if Ascii.eqb c "["%char then
            let '(name, rest) :=
              span (fun x => negb (Ascii.eqb x "]"%char) && not_nl x) (drop_while ini_space r) in
            match rest with
            | d :: rest' =>
                if Ascii.eqb d "]"%char then
                  let n := rdrop_while ini_space name in
                  option_map (cons (ISection n)) (ini_scan f (SecNamed n) (to_eol rest'))
                else ini_scan f SecBroken rest
            | [] => ini_scan f SecBroken rest
            end
          else
            let '(key, rest) :=
              span (fun x => negb (Ascii.eqb x "="%char) && not_nl x) (c :: r) in
            match rest with
            | d :: rest' =>
                if Ascii.eqb d "="%char then
                  match key with
                  | [] => ini_scan f sec (to_eol rest)
                  | _ =>
                      let k := rdrop_while ini_space key in
                      let '(val, rest2) :=
                        span not_nl (drop_while (fun x => not_nl x && ini_space x) rest') in
                      let v := rdrop_while ini_space val in
                      let rest3 := match rest2 with [] => [] | _ => skip_newline rest2 end in
                      option_map (cons (IEntry sec k v)) (ini_scan f sec rest3)
                  end
                else ini_scan f sec rest
            | [] => ini_scan f sec rest
            end
      end
  end.

(** LoadData 1382-1456 on an empty CSimpleIniA: FindFileComment, then the entries.
    (The char converter never fails.) *)
Definition ini_items (data : bytes) : option (list item) :=
  let s := cstr data in
  match skip_comment (S (length s)) false s with
  | None => None
  | Some s' => ini_scan (S (S (length s'))) (SecNamed []) s'
  end.

(** SI_GenericNoCase 2655-2670: locase on signed char; bytes >= 128 are negative
    and below 'A'. *)
Definition locase (c : ascii) : ascii :=
  if isupper c then ascii_of_N (code c + 32) else c.
(** a char is signed on the supported platforms *)
Definition schar (c : ascii) : Z :=
  let n := Z.of_N (code c) in if Z.ltb n 128 then n else (n - 256)%Z.
(** operator() on NUL-free C strings *)
Fixpoint nocase_less (l r : bytes) : bool :=
  match l, r with
  | x :: l', y :: r' =>
      let cmp := (schar (locase x) - schar (locase y))%Z in
      if Z.eqb cmp 0 then nocase_less l' r' else Z.ltb cmp 0
  | _, [] => false
  | [], _ :: _ => true
  end.
(** equivalence used by std::map / std::multimap find *)
Definition nocase_eqb (l r : bytes) : bool := negb (nocase_less l r) && negb (nocase_less r l).

(** m_data restricted to named sections: sections in load order, each with its
    keys in load order. *)
Definition keyvals := list (bytes * bytes).
Definition ini := list (bytes * keyvals).

(** std::map / std::multimap find with SI_GenericNoCase (SimpleIni.h 1963, 1967, 2225) *)
Fixpoint ini_find {V} (name : bytes) (l : list (bytes * V)) : option V :=
  match l with
  | [] => None
  | (n, v) :: r => if nocase_eqb n name then Some v else ini_find name r
  end.

(** AddEntry 1896-1948: replace the value, keeping the first spelling of the key *)
Fixpoint kv_set (k v : bytes) (l : keyvals) : keyvals :=
  match l with
  | [] => [(k, v)]
  | (k', v') :: r => if nocase_eqb k' k then (k', v) :: r else (k', v') :: kv_set k v r
  end.

(** AddEntry 1869-1890 then 1896-1948 *)
Fixpoint ini_update (n : bytes) (f : keyvals -> keyvals) (d : ini) : ini :=
  match d with
  | [] => [(n, f [])]
  | (n', kv) :: r => if nocase_eqb n' n then (n', f kv) :: r else (n', kv) :: ini_update n f r
  end.

(** SimpleIni.h LoadData 1435-1438: AddEntry of each entry found *)
Definition add_item (d : ini) (i : item) : ini :=
  match i with
  | ISection n => ini_update n (fun kv => kv) d
  | IEntry (SecNamed n) k v => ini_update n (kv_set k v) d
  | IEntry SecBroken _ _ => d
  end.

(** SimpleIni.h LoadData 1384-1453 with m_bStoreIsUtf8 false (SI_ConvertA copies bytes) *)
Definition ini_load (data : bytes) : res ini :=
  match ini_items data with
  | None => OutOfFuel
  | Some items => Ok (fold_left add_item items [])
  end.

(** GetSectionSize 2217-2250 *)
Definition get_section_size (d : ini) (sec : bytes) : Z :=
  match ini_find sec d with None => (-1)%Z | Some kv => Z.of_nat (length kv) end.

(** GetValue 1951-1986 *)
Definition get_value (d : ini) (sec key : bytes) : option bytes :=
  match ini_find sec d with None => None | Some kv => ini_find key kv end.

(** GetAllKeys 2280-2309 (order irrelevant to the caller, which fills a std::map) *)
Definition get_all_keys (d : ini) (sec : bytes) : list bytes :=
  match ini_find sec d with None => [] | Some kv => map fst kv end.

(** GetLongValue 1988-2025, the value found by GetValue given *)
Definition long_of (o : option bytes) (def : Z) : Z :=
  match o with
  | None | Some [] => def
  | Some v =>
      if Nat.ltb 64 (length v + 1) then def       (* ConvertToStore into char[64] *)
      else
        match v with
        | z :: x :: r =>
            if Ascii.eqb z "0"%char && (Ascii.eqb x "x"%char || Ascii.eqb x "X"%char) then
              match r with
              | [] => def
              | _ => let '(n, suf) := strtol 16 r in match suf with [] => n | _ => def end
              end
            else let '(n, suf) := strtol 10 v in match suf with [] => n | _ => def end
        | _ => let '(n, suf) := strtol 10 v in match suf with [] => n | _ => def end
        end
  end.
(** GetLongValue 1988-2025 *)
Definition get_long_value (d : ini) (sec key : bytes) (def : Z) : Z := long_of (get_value d sec key) def.

(** Save 2368-2496 of data without comments (SI_NEWLINE_A = "\n" on unix, spaces
    around '=' by default), sections and keys in load order. *)
Definition save_entry (e : bytes * bytes) : bytes := fst e ++ bs " = " ++ snd e ++ [LF].
(** Save 2397-2470, one section; a section without a name has no header *)
Definition save_section (s : bytes * keyvals) : bytes :=
  (match fst s with [] => [] | n => "["%char :: n ++ "]"%char :: [LF] end) ++ concat (map save_entry (snd s)).
(** Save 2397-2470: a blank line between sections *)
Fixpoint save_sections (first : bool) (d : ini) : bytes :=
  match d with
  | [] => []
  | s :: r => (if first then [] else [LF; LF]) ++ save_section s ++ save_sections false r
  end.
(** Save 2368-2496 *)
Definition ini_save (d : ini) : bytes := save_sections true d ++ [LF].
