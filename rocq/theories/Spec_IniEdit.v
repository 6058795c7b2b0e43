(** What the editing interface of an INI object is to do, on a plain document: the sections
    in the order they were added, each with its lines in the order they were added. No
    pointers, no load order numbers, no sorted tables. *)
From Verif Require Import Base Spec_Ini.

Record eline := { l_key : bytes; l_comment : option bytes; l_value : bytes }.
Record epart := { p_name : bytes; p_comment : option bytes; p_lines : list eline }.
(** [d_multi]: a key may have several values; [d_multiline], [d_spaces]: how it is written;
    [d_comment]: the comment at the beginning *)
Record edoc := { d_multi : bool; d_multiline : bool; d_spaces : bool; d_comment : option bytes; d_parts : list epart }.
Definition blank (multi multiline : bool) : edoc :=
  {| d_multi := multi; d_multiline := multiline; d_spaces := true; d_comment := None; d_parts := [] |}.

(** the lines of a key, the section of a name: names are compared without case *)
Definition of_key (key : bytes) (l : eline) : bool := same_nameb (l_key l) key.
Definition of_name (name : bytes) (p : epart) : bool := same_nameb (p_name p) name.
Definition part_of (name : bytes) (d : edoc) : option epart := List.find (of_name name) (d_parts d).
Definition lines_of (key : bytes) (p : epart) : list eline := filter (of_key key) (p_lines p).

(** the first element with a property is changed *)
Fixpoint change_first {A} (P : A -> bool) (f : A -> A) (l : list A) : list A :=
  match l with [] => [] | a :: r => if P a then f a :: r else a :: change_first P f r end.
(** the first element with a property is changed, the others with it are removed *)
Fixpoint only_first {A} (P : A -> bool) (f : A -> A) (l : list A) : list A :=
  match l with [] => [] | a :: r => if P a then f a :: filter (fun b => negb (P b)) r else a :: only_first P f r end.

(** Giving a key a value. A new key goes to the end. An existing key: if it may have several
    values and they are not to be replaced, one more; if they are to be replaced, the new
    line takes the place of the first and keeps its comment if it has one; if it may have
    only one value, that one is changed and nothing else about it. *)
Definition give (multi force : bool) (key value : bytes) (comment : option bytes) (ls : list eline) : list eline :=
  let new := {| l_key := key; l_comment := comment; l_value := value |} in
  if existsb (of_key key) ls then
    if multi then
      if force then
        only_first (of_key key) (fun l => {| l_key := key; l_comment := match l_comment l with Some c => Some c | None => comment end; l_value := value |}) ls
      else ls ++ [new]
    else change_first (of_key key) (fun l => {| l_key := l_key l; l_comment := l_comment l; l_value := value |}) ls
  else ls ++ [new].
(** A section is made when it is first needed, and gets the comment only when it is added by itself *)
Definition with_part (sec : bytes) (comment : option bytes) (ps : list epart) : list epart :=
  if existsb (of_name sec) ps then ps else ps ++ [{| p_name := sec; p_comment := comment; p_lines := [] |}].
Definition with_parts (ps : list epart) (d : edoc) : edoc :=
  {| d_multi := d_multi d; d_multiline := d_multiline d; d_spaces := d_spaces d; d_comment := d_comment d; d_parts := ps |}.
Definition set_doc (sec : bytes) (kv : option (bytes * bytes)) (comment : option bytes) (force : bool) (d : edoc) : edoc :=
  match kv with
  | None => with_parts (with_part sec comment (d_parts d)) d
  | Some (key, value) =>
      with_parts (change_first (of_name sec)
                    (fun p => {| p_name := p_name p; p_comment := p_comment p; p_lines := give (d_multi d) force key value comment (p_lines p) |})
                    (with_part sec None (d_parts d))) d
  end.
(** What the caller is told: was something added, or only changed? Replacing the values of a
    key that may have several counts as adding. *)
Definition added (sec : bytes) (kv : option (bytes * bytes)) (d : edoc) : bool :=
  match part_of sec d, kv with
  | None, _ => true
  | Some _, None => false
  | Some p, Some (key, _) => d_multi d || negb (existsb (of_key key) (p_lines p))
  end.

(** Deleting a section, or all lines of a key; [prune]: also the section if nothing is left *)
Definition delete_doc (sec : bytes) (key : option bytes) (prune : bool) (d : edoc) : bool * edoc :=
  match part_of sec d with
  | None => (false, d)
  | Some p =>
      match key with
      | None => (true, with_parts (filter (fun q => negb (of_name sec q)) (d_parts d)) d)
      | Some k =>
          let rest := filter (fun l => negb (of_key k l)) (p_lines p) in
          if existsb (of_key k) (p_lines p) then
            if prune && (match rest with [] => true | _ => false end)
            then (true, with_parts (filter (fun q => negb (of_name sec q)) (d_parts d)) d)
            else (true, with_parts (change_first (of_name sec) (fun q => {| p_name := p_name q; p_comment := p_comment q; p_lines := rest |}) (d_parts d)) d)
          else (false, d)
      end
  end.

(** the order of names: character by character, without case, characters from 128 on first *)
Definition rank (c : ascii) : Z := let n := Z.of_N (N_of_ascii (lower c)) in if (n <? 128)%Z then n else (n - 256)%Z.
Fixpoint ranks_before (a b : list Z) : bool :=
  match a, b with
  | x :: a, y :: b => (x <? y)%Z || ((x =? y)%Z && ranks_before a b)
  | [], _ :: _ => true
  | _, [] => false
  end.
Definition name_before (a b : bytes) : bool := ranks_before (map rank a) (map rank b).
(** names in this order *)
Definition told := (bytes * option bytes)%type.
Fixpoint in_order (x : told) (l : list told) : list told :=
  match l with [] => [x] | y :: r => if name_before (fst y) (fst x) then y :: in_order x r else x :: l end.
Fixpoint by_name (l : list told) : list told := match l with [] => [] | x :: r => in_order x (by_name r) end.
(** the first line of every key *)
Fixpoint first_lines (seen : list bytes) (ls : list eline) : list eline :=
  match ls with
  | [] => []
  | l :: r => if existsb (same_nameb (l_key l)) seen then first_lines seen r else l :: first_lines (l_key l :: seen) r
  end.
Definition key_told (l : eline) : told := (l_key l, l_comment l).
Definition value_told (l : eline) : told := (l_value l, l_comment l).

(** the values a caller sees: the first, or all if there may be several *)
Definition values_of (sec key : bytes) (d : edoc) : list eline :=
  match part_of sec d with
  | None => []
  | Some p => if d_multi d then lines_of key p else firstn 1 (lines_of key p)
  end.
Definition has_section (sec : bytes) (d : edoc) : bool := existsb (of_name sec) (d_parts d).
Definition keys_of (sec : bytes) (d : edoc) : list told :=
  match part_of sec d with None => [] | Some p => by_name (map key_told (first_lines [] (p_lines p))) end.
Definition size_of (sec : bytes) (d : edoc) : Z :=
  match part_of sec d with
  | None => -1
  | Some p => Z.of_nat (length (if d_multi d then first_lines [] (p_lines p) else p_lines p))
  end.

(** The text written. Lines of a comment or of a value of several lines end with a line end each *)
Fixpoint text_lines (s : bytes) : list bytes :=
  match s with
  | [] => [[]]
  | c :: r => if Ascii.eqb c LF then [] :: text_lines r
              else match text_lines r with l :: ls => (c :: l) :: ls | [] => [[c]] end
  end.
Definition write_text (s : bytes) : bytes := match s with [] => [] | _ => concat (map (fun l => l ++ [LF]) (text_lines s)) end.
(** a value that cannot be written on one line *)
Definition needs_lines (s : bytes) : bool :=
  existsb is_eol s || negb (beqb (strip s) s).
Definition write_value (d : edoc) (key : bytes) (l : eline) : bytes :=
  (match l_comment l with Some c => LF :: write_text c | None => [] end)
  ++ key ++ (if d_spaces d then bs " = " else bs "=")
  ++ (if d_multiline d && needs_lines (l_value l) then bs "<<<END_OF_TEXT" ++ [LF] ++ write_text (l_value l) ++ bs "END_OF_TEXT" else l_value l)
  ++ [LF].
(** all values of a key are written together, where the first is, with the spelling of the first *)
Definition write_key (d : edoc) (p : epart) (l : eline) : bytes :=
  concat (map (write_value d (l_key l)) (if d_multi d then lines_of (l_key l) p else [l])).
Definition write_part (d : edoc) (p : epart) : bytes :=
  (match p_comment p with Some c => write_text c | None => [] end)
  ++ (match p_name p with [] => [] | n => bs "[" ++ n ++ bs "]" ++ [LF] end)
  ++ concat (map (write_key d p) (first_lines [] (p_lines p))).
(** an empty line before every section but the first thing in the text *)
Fixpoint write_parts (d : edoc) (gap : bool) (ps : list epart) : bytes :=
  match ps with [] => [] | p :: r => (if gap then [LF; LF] else []) ++ write_part d p ++ write_parts d true r end.
Definition write_doc (d : edoc) : bytes :=
  (match d_comment d with Some c => write_text c | None => [] end)
  ++ write_parts d (match d_comment d with Some _ => true | None => false end) (d_parts d) ++ [LF].

(** Calls. Strings are the caller's own; [None] is a null pointer. *)
Inductive call :=
| CSet (sec : bytes) (key value comment : option bytes) (force : bool)
| CDelete (sec key : option bytes) (prune : bool)
| CGet (sec key : option bytes)
| CAll (sec key : option bytes)
| CSize (sec : option bytes)
| CSections
| CKeys (sec : option bytes)
| CSave
| CReset
| CMultiKey (b : bool) | CMultiLine (b : bool) | CSpaces (b : bool)
| CLoad (comment : option bytes) (entries : list (bytes * option (bytes * bytes) * option bytes)).
(** What a caller is told. *)
Inductive answer :=
| Added | Changed
| Yes | No
| Value (v : option bytes) (several : bool)
| Told (l : option (list told))
| Size (n : Z)
| Written (s : bytes)
| Done.

Definition both {A B} (a : option A) (b : option B) : option (A * B) :=
  match a, b with Some x, Some y => Some (x, y) | _, _ => None end.
Fixpoint load_doc (entries : list (bytes * option (bytes * bytes) * option bytes)) (d : edoc) : edoc :=
  match entries with
  | [] => d
  | (sec, kv, comment) :: r => load_doc r (set_doc sec kv comment false d)
  end.
Definition expect (c : call) (d : edoc) : answer * edoc :=
  match c with
  | CSet sec key value comment force =>
      let kv := both key value in (if added sec kv d then Added else Changed, set_doc sec kv comment force d)
  | CDelete None _ _ => (No, d)
  | CDelete (Some sec) key prune => let '(b, d') := delete_doc sec key prune d in (if b then Yes else No, d')
  | CGet sec key =>
      (match both sec key with
       | None => Value None false
       | Some (s, k) => match values_of s k d with
                        | [] => Value None false
                        | l :: r => Value (Some (l_value l)) (match r with [] => false | _ => true end)
                        end
       end, d)
  | CAll sec key =>
      (Told (match both sec key with
             | None => None
             | Some (s, k) => match values_of s k d with [] => None | l => Some (map value_told l) end
             end), d)
  | CSize sec => (Size (match sec with None => -1 | Some s => size_of s d end), d)
  | CSections => (Told (Some (by_name (map (fun p => (p_name p, p_comment p)) (d_parts d)))), d)
  | CKeys sec => (Told (match sec with Some s => if has_section s d then Some (keys_of s d) else None | None => None end), d)
  | CSave => (Written (write_doc d), d)
  | CReset => (Done, {| d_multi := d_multi d; d_multiline := d_multiline d; d_spaces := d_spaces d; d_comment := None; d_parts := [] |})
  | CMultiKey b => (Done, {| d_multi := b; d_multiline := d_multiline d; d_spaces := d_spaces d; d_comment := d_comment d; d_parts := d_parts d |})
  | CMultiLine b => (Done, {| d_multi := d_multi d; d_multiline := b; d_spaces := d_spaces d; d_comment := d_comment d; d_parts := d_parts d |})
  | CSpaces b => (Done, {| d_multi := d_multi d; d_multiline := d_multiline d; d_spaces := b; d_comment := d_comment d; d_parts := d_parts d |})
  | CLoad comment entries =>
      let d1 := {| d_multi := d_multi d; d_multiline := d_multiline d; d_spaces := d_spaces d;
                   d_comment := match d_comment d with Some c => Some c | None => comment end; d_parts := d_parts d |} in
      (Done, load_doc entries d1)
  end.
Fixpoint expect_all (h : list call) (d : edoc) : list answer * edoc :=
  match h with
  | [] => ([], d)
  | c :: r => let '(a, d1) := expect c d in let '(l, d2) := expect_all r d1 in (a :: l, d2)
  end.
