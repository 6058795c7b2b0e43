(** Model of src/library/base/string_utils.cpp (except dates, see Dates.v). *)
From Verif Require Import Base CTypes.

(** string_utils.cpp 25-35: forward over leading isspace, backward over trailing
    isspace or NUL, not crossing the forward iterator. *)
Definition trim_copy (s : bytes) : bytes :=
  rdrop_while (fun c => isspace c || Ascii.eqb c NUL) (drop_while isspace s).

(** string_utils.cpp 37-41 *)
Definition toupper_copy (s : bytes) : bytes := map toupper s.

(** string_utils.cpp 74-83: repeated std::getline with delimiter [sep]; getline
    fails (ends the loop) only when it extracts nothing at all, so a final empty
    segment is not reported. [cur] is the segment read so far, reversed. *)
Fixpoint split_go (sep : ascii) (s cur : bytes) : list bytes :=
  match s with
  | [] => match cur with [] => [] | _ => [rev cur] end
  | c :: r => if Ascii.eqb c sep then rev cur :: split_go sep r []
              else split_go sep r (c :: cur)
  end.
(** string_utils.cpp 74-83 *)
Definition split_string (s : bytes) (sep : ascii) : list bytes := split_go sep s [].

(** string_utils.h FILE_FORMAT *)
Inductive file_format := FmtIni | FmtBase64 | FmtUnknown.

(** [A-Za-z0-9+/] *)
Definition is_b64_char (c : ascii) : bool :=
  isupper c || islower c || isdigit c || Ascii.eqb c "+"%char || Ascii.eqb c "/"%char.

(** string_utils.cpp 86: regex_match with
    ^(?:[A-Za-z0-9+/]{4})*(?:[A-Za-z0-9+/]{2}==|[A-Za-z0-9+/]{3}=)?$ *)
Fixpoint b64_match (s : bytes) : bool :=
  match s with
  | [] => true
  | a :: b :: c :: d :: r =>
      is_b64_char a && is_b64_char b &&
      ((is_b64_char c && is_b64_char d && b64_match r) ||
       match r with
       | [] => Ascii.eqb d "="%char && (Ascii.eqb c "="%char || is_b64_char c)
       | _ => false
       end)
  | _ => false
  end.

(** ECMAScript '.' does not match line terminators. *)
Definition is_nl (c : ascii) : bool := Ascii.eqb c LF || Ascii.eqb c CR.

(** after a '[': some ']' follows with no line terminator before it *)
Fixpoint close_on_line (s : bytes) : bool :=
  match s with
  | [] => false
  | c :: r => if Ascii.eqb c "]"%char then true
              else if is_nl c then false else close_on_line r
  end.

(** string_utils.cpp 85: regex_search for \[.*?\] *)
Fixpoint has_section (s : bytes) : bool :=
  match s with
  | [] => false
  | c :: r => (Ascii.eqb c "["%char && close_on_line r) || has_section r
  end.

(** string_utils.cpp 88-96 *)
Definition identify_format (s : bytes) : file_format :=
  if b64_match s then FmtBase64
  else if has_section s then FmtIni
  else FmtUnknown.

(** string_utils.cpp 99-108 on a non-null pointer to the array [a]: each round
    reads one byte (undefined past the end of [a]), then tests and decrements
    maxsize. *)
Fixpoint mstrnlen_s (a : bytes) (maxsize : nat) : res nat :=
  match a with
  | [] => Undef UbRead
  | c :: r =>
      if Ascii.eqb c NUL then Ok 0
      else match maxsize with
           | 0 => Ok 0
           | S m => n <-- mstrnlen_s r m ;; Ok (S n)
           end
  end.

(** string_utils.cpp 110-122. [dst] and [src] are the arrays the pointers point
    into; the result is the new contents of [dst] and the return value. *)
Fixpoint mstrlcpy_go (n : nat) (dst src : bytes) : res (bytes * nat) :=
  let stop := match dst with
              | [] => Undef UbWrite
              | _ :: dst' => Ok (NUL :: dst', n)
              end in
  match n with
  | 0 => stop
  | S n' =>
      match src with
      | [] => Undef UbRead
      | c :: src' =>
          if Ascii.eqb c NUL then stop
          else match dst with
               | [] => Undef UbWrite
               | _ :: dst' => '(d, rem) <-- mstrlcpy_go n' dst' src' ;; Ok (c :: d, rem)
               end
      end
  end.
(** string_utils.cpp 110-122: n = 0 writes nothing *)
Definition mstrlcpy (dst src : bytes) (n : nat) : res (bytes * nat) :=
  match n with
  | 0 => Ok (dst, 0)
  | S m => '(d, rem) <-- mstrlcpy_go m dst src ;; Ok (d, n - rem)
  end.

(** c_str() of a std::string as an array: the characters and the terminator. *)
Definition c_str (s : bytes) : bytes := s ++ [NUL].

(** std::string(ptr, mstrnlen_s(ptr, n)) for an array [a] *)
Definition string_of_array (a : bytes) (n : nat) : res bytes :=
  k <-- mstrnlen_s a n ;; Ok (firstn k a).

(** base/file_utils.cpp 53-70 *)
Fixpoint find_last (p : ascii -> bool) (s : bytes) : option nat :=
  match s with
  | [] => None
  | c :: r => match find_last p r with
              | Some i => Some (S i)
              | None => if p c then Some 0 else None
              end
  end.
(** base/file_utils.cpp 53-70 *)
Definition is_dot (c : ascii) : bool := Ascii.eqb c "."%char.
Definition is_pathsep (c : ascii) : bool := Ascii.eqb c "\"%char || Ascii.eqb c "/"%char.
Definition remove_extension (path : bytes) : bytes :=
  if beqb path (bs ".") || beqb path (bs "..") then path
  else match find_last is_dot path with
       | None => path
       | Some dotpos =>
           match find_last is_pathsep path with
           | None => if Nat.eqb dotpos 0 then path else firstn dotpos path
           | Some seppos => if Nat.leb (dotpos + 1) seppos then path else firstn dotpos path
           end
       end.
