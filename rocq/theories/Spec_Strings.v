(** Vocabulary for the statements about string utilities: independent of the
    model's own definitions. *)
From Verif Require Import Base.

(** The six ASCII white space characters. *)
Definition blank (c : ascii) : Prop :=
  In c [" "%char; "009"%char; "010"%char; "011"%char; "012"%char; "013"%char].
Definition line_break (c : ascii) : Prop := c = "010"%char \/ c = "013"%char.

(** [Clean m]: nothing left to trim. *)
Definition no_leading_blank (m : bytes) : Prop := forall c r, m = c :: r -> ~ blank c.
Definition no_trailing_blank_or_nul (m : bytes) : Prop :=
  forall c r, m = r ++ [c] -> ~ (blank c \/ c = "000"%char).

(** Joining pieces with a separator character. *)
Fixpoint join (sep : ascii) (ps : list bytes) : bytes :=
  match ps with
  | [] => []
  | [p] => p
  | p :: r => p ++ sep :: join sep r
  end.

(** base64 alphabet and padded base64 text without line breaks (RFC 4648) *)
Definition b64_alpha (c : ascii) : Prop :=
  In c (bs "ABCDEFGHIJKLMNOPQRSTUVWXYZabcdefghijklmnopqrstuvwxyz0123456789+/").
Inductive b64_text : bytes -> Prop :=
| b64_nil : b64_text []
| b64_pad2 a b : b64_alpha a -> b64_alpha b -> b64_text [a; b; "="%char; "="%char]
| b64_pad1 a b c : b64_alpha a -> b64_alpha b -> b64_alpha c -> b64_text [a; b; c; "="%char]
| b64_quad a b c d r : b64_alpha a -> b64_alpha b -> b64_alpha c -> b64_alpha d ->
    b64_text r -> b64_text (a :: b :: c :: d :: r).

(** some "[...]" on a single line *)
Definition bracketed_section (s : bytes) : Prop :=
  exists p name q, s = p ++ "["%char :: name ++ "]"%char :: q /\ forall c, In c name -> ~ line_break c.

(** characters that end a file name extension (searched backwards) *)
Definition dot_or_sep (c : ascii) : Prop := c = "."%char \/ c = "/"%char \/ c = "\"%char.

(** ** The same vocabulary as functions, for use in other specifications *)
Definition blankb (c : ascii) : bool := existsb (Ascii.eqb c) [" "; "009"; "010"; "011"; "012"; "013"]%char.
(** without its leading characters satisfying [p] *)
Fixpoint unlead (p : ascii -> bool) (s : bytes) : bytes :=
  match s with c :: r => if p c then unlead p r else s | [] => [] end.
(** without leading blanks and without trailing blanks and NULs *)
Definition trimmed (s : bytes) : bytes :=
  rev (unlead (fun c => blankb c || Ascii.eqb c "000"%char) (rev (unlead blankb s))).
(** in upper case (ASCII letters) *)
Definition upper (s : bytes) : bytes :=
  map (fun c => let n := N_of_ascii c in if (97 <=? n)%N && (n <=? 122)%N then ascii_of_N (n - 32) else c) s.
(** the text between the characters satisfying [p] *)
Fixpoint fields (p : ascii -> bool) (s : bytes) : list bytes :=
  match s with
  | [] => [[]]
  | c :: r => if p c then [] :: fields p r
              else match fields p r with f :: fs => (c :: f) :: fs | [] => [[c]] end
  end.
(** ... but nothing after a final separator *)
Definition pieces (sep : ascii) (s : bytes) : list bytes :=
  match rev (fields (Ascii.eqb sep) s) with [] :: r => rev r | l => rev l end.
(** the text before and after the last [x] *)
Fixpoint cut_last (x : ascii) (s : bytes) : option (bytes * bytes) :=
  match s with
  | [] => None
  | c :: r => match cut_last x r with
              | Some (a, b) => Some (c :: a, b)
              | None => if Ascii.eqb c x then Some ([], r) else None
              end
  end.
(** a path without the extension of its last component; what starts with its only dot
    is no extension *)
Definition stem (path : bytes) : bytes :=
  if beqb path (bs "..") then path
  else match cut_last "."%char path with
       | Some ((_ :: _) as a, ext) => if existsb (fun c => Ascii.eqb c "/"%char || Ascii.eqb c "\"%char) ext then path else a
       | _ => path
       end.
(** a text that is base64: of a length divisible by four, alphabet characters only,
    up to two '=' at its end aside *)
Definition unpad (s : bytes) : bytes :=
  match rev s with
  | "="%char :: "="%char :: r => rev r
  | "="%char :: r => rev r
  | _ => s
  end.
Definition looks_base64 (s : bytes) : bool :=
  (length s mod 4 =? 0) &&
  forallb (fun c => existsb (Ascii.eqb c) (bs "ABCDEFGHIJKLMNOPQRSTUVWXYZabcdefghijklmnopqrstuvwxyz0123456789+/")) (unpad s).
(** a text with some "[...]" on a line *)
Fixpoint after (x : ascii) (s : bytes) : option bytes :=
  match s with [] => None | c :: r => if Ascii.eqb c x then Some r else after x r end.
Definition looks_ini (s : bytes) : bool :=
  existsb (fun line => match after "["%char line with Some r => existsb (Ascii.eqb "]"%char) r | None => false end)
          (fields (fun c => Ascii.eqb c "010"%char || Ascii.eqb c "013"%char) s).
