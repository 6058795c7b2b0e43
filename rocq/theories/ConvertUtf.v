(** Model of src/library/ini/ConvertUTF.cpp and of the class SI_ConvertW of
    src/library/ini/SimpleIni.h (2801-2996) for a store in UTF-8.
    A pointer is an index into the array it points into; every read and write is checked
    against the end of the array. Comparisons of pointers beyond the end (such as
    [source + extraBytesToRead >= sourceEnd]) compare the indices. The element types UTF8,
    UTF16 and UTF32 are unsigned of 8, 16 and 32 bits (ConvertUTF.h 90-92). *)
From Coq Require Import ZArith.
From Verif Require Import Base.
Local Open Scope Z_scope.

(** ConvertUTF.h 102-112 *)
Inductive conversion := ConversionOK | SourceExhausted | TargetExhausted | SourceIllegal.
Inductive flag := Strict | Lenient.
Definition is_strict (f : flag) : bool := match f with Strict => true | Lenient => false end.

(** unsigned arithmetic, the casts (UTF16) and (UTF8) *)
Definition u32 (x : Z) : Z := x mod 4294967296.
Definition u16 (x : Z) : Z := x mod 65536.
Definition u8 (x : Z) : Z := x mod 256.

(** *p, *p = v *)
Definition get (a : list Z) (p : nat) : res Z := match nth_error a p with Some v => Ok v | None => Undef UbRead end.
Definition set (a : list Z) (p : nat) (v : Z) : res (list Z) :=
  if Nat.ltb p (length a) then Ok (firstn p a ++ v :: skipn (S p) a) else Undef UbWrite.
(** --p: no pointer before the array is formed *)
Definition prev (p : nat) : res nat := match p with O => Undef UbRead | S q => Ok q end.

(** ConvertUTF.h 96-100; ConvertUTF.cpp 47-55 *)
Definition REPLACEMENT : Z := 65533.      (* 0xFFFD *)
Definition MAX_BMP : Z := 65535.          (* 0xFFFF *)
Definition MAX_UTF16 : Z := 1114111.      (* 0x10FFFF *)
Definition MAX_LEGAL : Z := 1114111.      (* 0x10FFFF *)
Definition halfShift : Z := 10.
Definition halfBase : Z := 65536.         (* 0x10000 *)
Definition halfMask : Z := 1023.          (* 0x3FF *)
Definition HIGH_START : Z := 55296.       (* 0xD800 *)
Definition HIGH_END : Z := 56319.         (* 0xDBFF *)
Definition LOW_START : Z := 56320.        (* 0xDC00 *)
Definition LOW_END : Z := 57343.          (* 0xDFFF *)

(** *sourceStart, *targetStart, the target array, the result *)
Definition answer := (conversion * nat * nat * list Z)%type.

(** ConvertUTF.cpp 61-106 ConvertUTF32toUTF16 *)
Fixpoint loop_32_16 (fuel : nat) (src : list Z) (f : flag) (result : conversion) (s t : nat) (tgt : list Z) : res answer :=
  match fuel with
  | O => OutOfFuel
  | S fuel =>
      if negb (Nat.ltb s (length src)) then Ok (result, s, t, tgt)
      else if Nat.leb (length tgt) t then Ok (TargetExhausted, s, t, tgt)
      else
        ch <-- get src s ;; let s := S s in
        if ch <=? MAX_BMP then
          if (HIGH_START <=? ch) && (ch <=? LOW_END) then
            if is_strict f then s <-- prev s ;; Ok (SourceIllegal, s, t, tgt)
            else tgt <-- set tgt t (u16 REPLACEMENT) ;; loop_32_16 fuel src f result s (S t) tgt
          else tgt <-- set tgt t (u16 ch) ;; loop_32_16 fuel src f result s (S t) tgt
        else if MAX_LEGAL <? ch then
          if is_strict f then loop_32_16 fuel src f SourceIllegal s t tgt
          else tgt <-- set tgt t (u16 REPLACEMENT) ;; loop_32_16 fuel src f result s (S t) tgt
        else if Nat.leb (length tgt) (t + 1) then s <-- prev s ;; Ok (TargetExhausted, s, t, tgt)
        else
          let ch := u32 (ch - halfBase) in
          tgt <-- set tgt t (u16 (u32 (Z.shiftr ch halfShift + HIGH_START))) ;; let t := S t in
          tgt <-- set tgt t (u16 (u32 (Z.land ch halfMask + LOW_START))) ;; let t := S t in
          loop_32_16 fuel src f result s t tgt
  end.
Definition ConvertUTF32toUTF16 (src tgt : list Z) (f : flag) : res answer := loop_32_16 (S (length src)) src f ConversionOK 0 0 tgt.

(** ConvertUTF.cpp 119-146 and 226-253, the same text twice: the character that begins at [s]. [inl]: the
    loop is left; [inr (ch, source)] *)
Definition next_16 (src : list Z) (f : flag) (s : nat) : res ((conversion * nat) + (Z * nat)) :=
  ch <-- get src s ;; let s := S s in
  if (HIGH_START <=? ch) && (ch <=? HIGH_END) then
    if Nat.ltb s (length src) then
      ch2 <-- get src s ;;
      if (LOW_START <=? ch2) && (ch2 <=? LOW_END) then
        Ok (inr (u32 (u32 (u32 (Z.shiftl (u32 (ch - HIGH_START)) halfShift) + u32 (ch2 - LOW_START)) + halfBase), S s))
      else if is_strict f then s <-- prev s ;; Ok (inl (SourceIllegal, s))
      else Ok (inr (ch, s))
    else s <-- prev s ;; Ok (inl (SourceExhausted, s))
  else if is_strict f then
    if (LOW_START <=? ch) && (ch <=? LOW_END) then s <-- prev s ;; Ok (inl (SourceIllegal, s))
    else Ok (inr (ch, s))
  else Ok (inr (ch, s)).

(** ConvertUTF.cpp 110-163 ConvertUTF16toUTF32 *)
Fixpoint loop_16_32 (fuel : nat) (src : list Z) (f : flag) (s t : nat) (tgt : list Z) : res answer :=
  match fuel with
  | O => OutOfFuel
  | S fuel =>
      if negb (Nat.ltb s (length src)) then Ok (ConversionOK, s, t, tgt)
      else
        let oldSource := s in
        x <-- next_16 src f s ;;
        match x with
        | inl (result, s) => Ok (result, s, t, tgt)
        | inr (ch, s) =>
            if Nat.leb (length tgt) t then Ok (TargetExhausted, oldSource, t, tgt)
            else tgt <-- set tgt t ch ;; loop_16_32 fuel src f s (S t) tgt
        end
  end.
Definition ConvertUTF16toUTF32 (src tgt : list Z) (f : flag) : res answer := loop_16_32 (S (length src)) src f 0 0 tgt.

(** ConvertUTF.cpp 200 firstByteMark *)
Definition firstByteMark (n : nat) : Z := nth n [0; 0; 192; 224; 240; 248; 252] 0.
(** ConvertUTF.cpp 255-262 and 429-440, without what is assigned for a character out of range *)
Definition bytesToWrite (ch : Z) : nat := if ch <? 128 then 1 else if ch <? 2048 then 2 else if ch <? 65536 then 3 else if ch <? 1114112 then 4 else 3.
(** ConvertUTF.cpp 269-274 and 447-452: the cases from [n] on; [t] is one past the place to be written *)
Definition tail_byte (ch : Z) : Z := u8 (Z.land (Z.lor ch 128) 191).
Fixpoint write_back (n : nat) (mark : Z) (ch : Z) (t : nat) (tgt : list Z) : res (list Z) :=
  match n with
  | O => Ok tgt
  | 1%nat => t <-- prev t ;; set tgt t (u8 (Z.lor ch mark))
  | S n => t <-- prev t ;; tgt <-- set tgt t (tail_byte ch) ;; write_back n mark (Z.shiftr ch 6) t tgt
  end.

(** ConvertUTF.cpp 214-280 ConvertUTF16toUTF8 *)
Fixpoint loop_16_8 (fuel : nat) (src : list Z) (f : flag) (s t : nat) (tgt : list Z) : res answer :=
  match fuel with
  | O => OutOfFuel
  | S fuel =>
      if negb (Nat.ltb s (length src)) then Ok (ConversionOK, s, t, tgt)
      else
        let oldSource := s in
        x <-- next_16 src f s ;;
        match x with
        | inl (result, s) => Ok (result, s, t, tgt)
        | inr (ch, s) =>
            let n := bytesToWrite ch in
            let ch := if ch <? 1114112 then ch else REPLACEMENT in
            let t := (t + n)%nat in
            if Nat.ltb (length tgt) t then Ok (TargetExhausted, oldSource, (t - n)%nat, tgt)
            else
              tgt <-- write_back n (firstByteMark n) ch t tgt ;;
              (* target is now at t - n, and moves n forward *)
              loop_16_8 fuel src f s t tgt
        end
  end.
Definition ConvertUTF16toUTF8 (src tgt : list Z) (f : flag) : res answer := loop_16_8 (S (length src)) src f 0 0 tgt.

(** ConvertUTF.cpp 174-183 trailingBytesForUTF8, a table of 256 entries *)
Definition trailing (b : Z) : nat :=
  if b <? 192 then 0 else if b <? 224 then 1 else if b <? 240 then 2 else if b <? 248 then 3 else if b <? 252 then 4 else 5.
(** ConvertUTF.cpp 190-191 offsetsFromUTF8 *)
Definition offset (n : nat) : Z := nth n [0; 12416; 925824; 63447168; 4194836608; 2181570688] 0.

(** ConvertUTF.cpp 295-318 isLegalUTF8 *)
Definition legal_1 (b : Z) : bool := if (128 <=? b) && (b <? 194) then false else if 244 <? b then false else true.
Definition legal_2 (b a : Z) : bool :=
  if 191 <? a then false
  else if (if b =? 224 then a <? 160 else if b =? 237 then 159 <? a else if b =? 240 then a <? 144 else if b =? 244 then 143 <? a else a <? 128) then false
  else legal_1 b.
Definition isLegalUTF8 (src : list Z) (s length : nat) : res bool :=
  let srcptr := (s + length)%nat in
  let case_2 (srcptr : nat) :=
    srcptr <-- prev srcptr ;; a <-- get src srcptr ;;
    if 191 <? a then Ok false else b <-- get src s ;; Ok (legal_2 b a) in
  let case_3 (srcptr : nat) :=
    srcptr <-- prev srcptr ;; a <-- get src srcptr ;;
    if (a <? 128) || (191 <? a) then Ok false else case_2 srcptr in
  match length with
  | 4%nat => srcptr <-- prev srcptr ;; a <-- get src srcptr ;; if (a <? 128) || (191 <? a) then Ok false else case_3 srcptr
  | 3%nat => case_3 srcptr
  | 2%nat => case_2 srcptr
  | 1%nat => b <-- get src s ;; Ok (legal_1 b)
  | _ => Ok false
  end.

(** ConvertUTF.cpp 326-332 isLegalUTF8Sequence: [src] is the array from [source] to [sourceEnd] *)
Definition isLegalUTF8Sequence (src : list Z) : res bool :=
  b <-- get src 0 ;;
  let n := S (trailing b) in
  if Nat.ltb (length src) n then Ok false else isLegalUTF8 src 0 n.

(** ConvertUTF.cpp 356-363 and 482-489: the fall through from case [n] on *)
Fixpoint gather (n : nat) (src : list Z) (s : nat) (ch : Z) : res (Z * nat) :=
  x <-- get src s ;;
  let ch := u32 (ch + x) in
  match n with
  | O => Ok (ch, S s)
  | S n => gather n src (S s) (u32 (Z.shiftl ch 6))
  end.
(** ConvertUTF.cpp 343-364 and 469-490 *)
Definition next_8 (src : list Z) (s : nat) : res ((conversion * nat) + (Z * nat * nat)) :=
  b <-- get src s ;;
  let extra := trailing b in
  if Nat.leb (length src) (s + extra) then Ok (inl (SourceExhausted, s))
  else
    ok <-- isLegalUTF8 src s (extra + 1) ;;
    if negb ok then Ok (inl (SourceIllegal, s))
    else
      y <-- gather extra src s 0 ;;
      let '(ch, s) := y in
      Ok (inr (u32 (ch - offset extra), extra, s)).

(** ConvertUTF.cpp 336-405 ConvertUTF8toUTF16 *)
Fixpoint loop_8_16 (fuel : nat) (src : list Z) (f : flag) (s t : nat) (tgt : list Z) : res answer :=
  match fuel with
  | O => OutOfFuel
  | S fuel =>
      if negb (Nat.ltb s (length src)) then Ok (ConversionOK, s, t, tgt)
      else
        x <-- next_8 src s ;;
        match x with
        | inl (result, s) => Ok (result, s, t, tgt)
        | inr (ch, extra, s) =>
            if Nat.leb (length tgt) t then Ok (TargetExhausted, (s - (extra + 1))%nat, t, tgt)
            else if ch <=? MAX_BMP then
              if (HIGH_START <=? ch) && (ch <=? LOW_END) then
                if is_strict f then Ok (SourceIllegal, (s - (extra + 1))%nat, t, tgt)
                else tgt <-- set tgt t (u16 REPLACEMENT) ;; loop_8_16 fuel src f s (S t) tgt
              else tgt <-- set tgt t (u16 ch) ;; loop_8_16 fuel src f s (S t) tgt
            else if MAX_UTF16 <? ch then
              if is_strict f then Ok (SourceIllegal, (s - (extra + 1))%nat, t, tgt)
              else tgt <-- set tgt t (u16 REPLACEMENT) ;; loop_8_16 fuel src f s (S t) tgt
            else if Nat.leb (length tgt) (t + 1) then Ok (TargetExhausted, (s - (extra + 1))%nat, t, tgt)
            else
              let ch := u32 (ch - halfBase) in
              tgt <-- set tgt t (u16 (u32 (Z.shiftr ch halfShift + HIGH_START))) ;; let t := S t in
              tgt <-- set tgt t (u16 (u32 (Z.land ch halfMask + LOW_START))) ;; let t := S t in
              loop_8_16 fuel src f s t tgt
        end
  end.
Definition ConvertUTF8toUTF16 (src tgt : list Z) (f : flag) : res answer := loop_8_16 (S (length src)) src f 0 0 tgt.

(** ConvertUTF.cpp 409-458 ConvertUTF32toUTF8 *)
Fixpoint loop_32_8 (fuel : nat) (src : list Z) (f : flag) (result : conversion) (s t : nat) (tgt : list Z) : res answer :=
  match fuel with
  | O => OutOfFuel
  | S fuel =>
      if negb (Nat.ltb s (length src)) then Ok (result, s, t, tgt)
      else
        ch <-- get src s ;; let s := S s in
        if is_strict f && ((HIGH_START <=? ch) && (ch <=? LOW_END)) then s <-- prev s ;; Ok (SourceIllegal, s, t, tgt)
        else
          let n := bytesToWrite ch in
          let result := if ch <=? MAX_LEGAL then result else SourceIllegal in
          let ch := if ch <=? MAX_LEGAL then ch else REPLACEMENT in
          let t := (t + n)%nat in
          if Nat.ltb (length tgt) t then s <-- prev s ;; Ok (TargetExhausted, s, (t - n)%nat, tgt)
          else
            tgt <-- write_back n (firstByteMark n) ch t tgt ;;
            loop_32_8 fuel src f result s t tgt
  end.
Definition ConvertUTF32toUTF8 (src tgt : list Z) (f : flag) : res answer := loop_32_8 (S (length src)) src f ConversionOK 0 0 tgt.

(** ConvertUTF.cpp 462-520 ConvertUTF8toUTF32 *)
Fixpoint loop_8_32 (fuel : nat) (src : list Z) (f : flag) (result : conversion) (s t : nat) (tgt : list Z) : res answer :=
  match fuel with
  | O => OutOfFuel
  | S fuel =>
      if negb (Nat.ltb s (length src)) then Ok (result, s, t, tgt)
      else
        x <-- next_8 src s ;;
        match x with
        | inl (result, s) => Ok (result, s, t, tgt)
        | inr (ch, extra, s) =>
            if Nat.leb (length tgt) t then Ok (TargetExhausted, (s - (extra + 1))%nat, t, tgt)
            else if ch <=? MAX_LEGAL then
              if (HIGH_START <=? ch) && (ch <=? LOW_END) then
                if is_strict f then Ok (SourceIllegal, (s - (extra + 1))%nat, t, tgt)
                else tgt <-- set tgt t REPLACEMENT ;; loop_8_32 fuel src f result s (S t) tgt
              else tgt <-- set tgt t ch ;; loop_8_32 fuel src f result s (S t) tgt
            else tgt <-- set tgt t REPLACEMENT ;; loop_8_32 fuel src f SourceIllegal s (S t) tgt
        end
  end.
Definition ConvertUTF8toUTF32 (src tgt : list Z) (f : flag) : res answer := loop_8_32 (S (length src)) src f ConversionOK 0 0 tgt.

(** sizeof(wchar_t) *)
Inductive wide := Wide16 | Wide32.
Definition is_ok (a : answer) : bool := match a with (ConversionOK, _, _, _) => true | _ => false end.
Definition array_of (a : answer) : list Z := match a with (_, _, _, t) => t end.

(** SimpleIni.h 2832-2842 SizeFromStore, 2869-2899 ConvertFromStore of SI_ConvertW *)
Definition SizeFromStore (input : list Z) : nat := length input.
Definition ConvertFromStore (w : wide) (input out : list Z) : res (bool * list Z) :=
  a <-- match w with Wide32 => ConvertUTF8toUTF32 input out Lenient | Wide16 => ConvertUTF8toUTF16 input out Lenient end ;;
  Ok (is_ok a, array_of a).

(** while (a_pInputData[uLen]) ++uLen; *)
Fixpoint wide_length (fuel : nat) (input : list Z) (n : nat) : res nat :=
  match fuel with
  | O => OutOfFuel
  | S fuel => c <-- get input n ;; if c =? 0 then Ok n else wide_length fuel input (S n)
  end.
(** SimpleIni.h 2916-2927 SizeToStore, 2949-2984 ConvertToStore *)
Definition SizeToStore (input : list Z) : res nat :=
  n <-- wide_length (S (length input)) input 0 ;; Ok (6 * n + 1)%nat.
Definition ConvertToStore (w : wide) (input out : list Z) : res (bool * list Z) :=
  n <-- wide_length (S (length input)) input 0 ;;
  let n := S n in
  a <-- match w with Wide32 => ConvertUTF32toUTF8 (firstn n input) out Lenient | Wide16 => ConvertUTF16toUTF8 (firstn n input) out Lenient end ;;
  Ok (is_ok a, array_of a).

(** SimpleIni.h LoadData 1391-1421 in wide characters: what is parsed, as an array that ends with a NUL;
    [None] SI_FAIL *)
Definition load_wide (w : wide) (data : list Z) : res (option (list Z)) :=
  match data with
  | [] => Ok None
  | _ =>
      let data := match data with 239 :: 187 :: 191 :: rest => rest | _ => data end in
      let uLen := SizeFromStore data in
      let pData := repeat 0 (uLen + 1) in
      r <-- ConvertFromStore w data (firstn uLen pData) ;;
      let '(ok, out) := r in
      Ok (if ok then Some (out ++ [0]) else None)
  end.
(** SimpleIni.h 426-438 Converter::ConvertToStore with its scratch string (1024 bytes at
    first, 419); [None]: false is returned *)
Fixpoint grow (fuel : nat) (n : nat) (scratch : list Z) : res (list Z) :=
  match fuel with
  | O => OutOfFuel
  | S fuel => if Nat.ltb (length scratch) n then grow fuel n (scratch ++ repeat 0 (length scratch)) else Ok scratch
  end.
Definition store_wide (w : wide) (scratch : list Z) (input : list Z) : res (bool * list Z) :=
  n <-- SizeToStore input ;;
  scratch <-- grow (S n) n scratch ;;
  ConvertToStore w input scratch.
