(** What the three encoding forms of Unicode are, and what it means that a conversion
    between them accounts for its input and its output. Of the model only the type of the
    results is used. *)
From Coq Require Import ZArith List Bool.
From Verif Require Import Base ConvertUtf.
Import ListNotations.
Local Open Scope Z_scope.

(** 0xD800-0xDBFF, 0xDC00-0xDFFF; code points that are characters *)
Definition high (c : Z) : Prop := 55296 <= c <= 56319.
Definition low (c : Z) : Prop := 56320 <= c <= 57343.
Definition surrogate (c : Z) : Prop := high c \/ low c.
Definition scalar (c : Z) : Prop := 0 <= c <= 1114111 /\ ~ surrogate c.

(** the encoding forms *)
Definition utf8_of (c : Z) : list Z :=
  if c <? 128 then [c]
  else if c <? 2048 then [192 + c / 64; 128 + c mod 64]
  else if c <? 65536 then [224 + c / 4096; 128 + c / 64 mod 64; 128 + c mod 64]
  else [240 + c / 262144; 128 + c / 4096 mod 64; 128 + c / 64 mod 64; 128 + c mod 64].
Definition utf16_of (c : Z) : list Z :=
  if c <? 65536 then [c] else [55296 + (c - 65536) / 1024; 56320 + (c - 65536) mod 1024].
Definition utf32_of (c : Z) : list Z := [c].

(** texts *)
Definition utf8 (cs : list Z) : list Z := flat_map utf8_of cs.
Definition utf16 (cs : list Z) : list Z := flat_map utf16_of cs.
Definition utf32 (cs : list Z) : list Z := cs.

(** arrays of elements of so many bits *)
Definition units (bits : Z) (l : list Z) : Prop := Forall (fun x => 0 <= x < 2 ^ bits) l.

(** [reads su after c]: at a place where the units [su] come next and then [after], they
    are read as the character c. [read_as reads src cs rest]: the characters cs are read
    one after the other from the start of src, and rest is what is left. *)
Section Reading.
Variable reads : list Z -> list Z -> Z -> Prop.
Inductive read_as : list Z -> list Z -> list Z -> Prop :=
  | nothing_read : forall rest, read_as rest [] rest
  | one_read : forall su after c cs rest, reads su after c -> read_as after cs rest -> read_as (su ++ after) (c :: cs) rest.
End Reading.

(** how many bytes a first byte announces *)
Definition announced (b : Z) : nat :=
  if b <? 192 then 1 else if b <? 224 then 2 else if b <? 240 then 3 else if b <? 248 then 4 else if b <? 252 then 5 else 6.

(** UTF-8 as this library reads it: proper UTF-8, and two kinds of improper sequences *)
Inductive reads8 : list Z -> list Z -> Z -> Prop :=
  | read_proper : forall c after, scalar c -> reads8 (utf8_of c) after c
  | read_ED : forall a b after, 0 <= a < 128 -> 128 <= b <= 191 ->
      reads8 [237; a; b] after (45056 + 64 * a + (b - 128))
  | read_F4 : forall a b d after, 0 <= a < 128 -> 128 <= b <= 191 -> 128 <= d <= 191 ->
      reads8 [244; a; b; d] after (524288 + 4096 * a + 64 * (b - 128) + (d - 128)).
(** the text ends within a sequence; the text goes on with something else *)
Definition cut8 (rest : list Z) : Prop := exists b more, rest = b :: more /\ (length rest < announced b)%nat.
Definition malformed8 (rest : list Z) : Prop :=
  rest <> [] /\ ~ cut8 rest /\ forall su after c, rest = su ++ after -> ~ reads8 su after c.

(** UTF-16: proper, and (unless strict) surrogates without a partner as themselves *)
Inductive reads16 (strict : bool) : list Z -> list Z -> Z -> Prop :=
  | read_units : forall c after, scalar c -> reads16 strict (utf16_of c) after c
  | read_high : forall h x after, strict = false -> high h -> ~ low x -> reads16 strict [h] (x :: after) h
  | read_low : forall l after, strict = false -> low l -> reads16 strict [l] after l.
Definition cut16 (rest : list Z) : Prop := exists h, rest = [h] /\ high h.
(** (strict only) a surrogate without its partner comes next *)
Definition unpaired (rest : list Z) : Prop :=
  (exists l more, rest = l :: more /\ low l) \/ (exists h x more, rest = h :: x :: more /\ high h /\ ~ low x).

(** UTF-32: any value, but (if strict) no surrogates *)
Inductive reads32 (strict : bool) : list Z -> list Z -> Z -> Prop :=
  | read_value : forall c after, (strict = true -> ~ surrogate c) -> reads32 strict [c] after c.

(** what is written for a value that need not be a character *)
Definition as_utf8 (c : Z) : list Z := if c <=? 1114111 then utf8_of c else [239; 191; 189].
Definition as_utf16 (strict : bool) (c : Z) : list Z :=
  if c <=? 1114111 then if (55296 <=? c) && (c <=? 57343) then [65533] else utf16_of c
  else if strict then [] else [65533].

(** A conversion from [src] into the array [tgt] answers with its result, with how far it
    came in both arrays, and with the contents of [tgt]. It accounts for them if it has
    written exactly the characters [cs] that it read, nothing beyond them, and had the
    reason that its result names for not going on. *)
Definition accounts (reads : list Z -> list Z -> Z -> Prop) (enc : Z -> list Z) (cut bad : list Z -> Prop) (src tgt : list Z) (a : res answer) : Prop :=
  exists r cs rest, let out := flat_map enc cs in
    read_as reads src cs rest /\
    a = Ok (r, (length src - length rest)%nat, length out, out ++ skipn (length out) tgt) /\
    (length out <= length tgt)%nat /\
    match r with
    | ConversionOK => rest = []
    | TargetExhausted => exists su after c, rest = su ++ after /\ reads su after c /\ (length tgt < length out + length (enc c))%nat
    | SourceExhausted => cut rest
    | SourceIllegal => bad rest
    end.
(** The same for UTF-32, which can hold values above all characters. Such a value is
    counted ([counted]: the values that make the result SourceIllegal) but does not stop
    the conversion. [room c]: the units that must be free before c is looked at. *)
Definition accounts32 (strict : bool) (enc : Z -> list Z) (counted : Z -> Prop) (room : Z -> nat) (checked_first : bool) (src tgt : list Z) (a : res answer) : Prop :=
  exists r cs rest, let out := flat_map enc cs in
    read_as (reads32 strict) src cs rest /\
    a = Ok (r, (length src - length rest)%nat, length out, out ++ skipn (length out) tgt) /\
    (length out <= length tgt)%nat /\
    match r with
    | ConversionOK => rest = [] /\ Forall (fun c => ~ counted c) cs
    | TargetExhausted => exists c after, rest = c :: after /\ (length tgt < length out + room c)%nat /\
                                         (checked_first = false -> strict = true -> ~ surrogate c)
    | SourceExhausted => False
    | SourceIllegal =>
        (rest = [] /\ Exists counted cs) \/
        (strict = true /\ exists c after, rest = c :: after /\ surrogate c /\ (checked_first = true -> (length out < length tgt)%nat))
    end.

(** ds is the longest beginning of the text cs that fits into so many units, and es the rest *)
Definition fits (enc : Z -> list Z) (room : nat) (cs : list Z) : Prop := (length (flat_map enc cs) <= room)%nat.
Definition longest (enc : Z -> list Z) (room : nat) (cs ds es : list Z) : Prop :=
  cs = ds ++ es /\ fits enc room ds /\ match es with [] => True | c :: _ => ~ fits enc room (ds ++ [c]) end.
