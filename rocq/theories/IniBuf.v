(** Model of the loading of a text by src/library/ini/SimpleIni.h as it works on its
    own copy of the text: characters are read and overwritten in place, names, keys and
    values are pointers into the copy. A pointer is an index; every access is checked
    against the size of the copy. Options as in Ini.v (no multi-line values). *)
From Verif Require Import Base CTypes StringUtils Ini.

(** a computation on the copy *)
Definition B (A : Type) := bytes -> res (A * bytes).
Definition bret {A} (a : A) : B A := fun b => Ok (a, b).
Definition bfail {A} (u : ub) : B A := fun _ => Undef u.
Definition bfuel {A} : B A := fun _ => OutOfFuel.
Definition bbind {A C} (m : B A) (k : A -> B C) : B C := fun b => match m b with Ok (a, b') => k a b' | Throw e => Throw e | Undef u => Undef u | OutOfFuel => OutOfFuel end.
Notation "x <# m ;; k" := (bbind m (fun x => k)) (at level 61, m at next level, right associativity).
Notation "' p <# m ;; k" := (bbind m (fun x => let p := x in k)) (at level 61, p pattern, m at next level, right associativity).

(** *p *)
Definition rd (p : nat) : B ascii := fun b => match nth_error b p with Some c => Ok (c, b) | None => Undef UbRead end.
(** *p = c *)
Definition put (p : nat) (c : ascii) (b : bytes) : bytes := firstn p b ++ c :: skipn (S p) b.
Definition wr (p : nat) (c : ascii) : B unit := fun b => if Nat.ltb p (length b) then Ok (tt, put p c b) else Undef UbWrite.
(** memmove(to, from, n) *)
Definition move (to from n : nat) : B unit := fun b =>
  if Nat.ltb (length b) (from + n) then Undef UbRead
  else if Nat.ltb (length b) (to + n) then Undef UbWrite
  else Ok (tt, firstn to b ++ firstn n (skipn from b) ++ skipn (to + n) b).
(** --p: no pointer before the copy is formed *)
Definition back (p : nat) : B nat := match p with 0 => bfail UbRead | S q => bret q end.

(** while ( *p && P( *p)) ++p; *)
Fixpoint fwd (fuel : nat) (P : ascii -> bool) (p : nat) : B nat :=
  match fuel with
  | 0 => bfuel
  | S f => c <# rd p ;; if negb (Ascii.eqb c NUL) && P c then fwd f P (S p) else bret p
  end.
(** 1171-1173 SkipNewLine *)
Definition skip_nl (p : nat) : B nat :=
  c <# rd p ;;
  if Ascii.eqb c CR then d <# rd (S p) ;; bret (if Ascii.eqb d LF then S (S p) else S p) else bret (S p).
(** 1553-1558, 1592-1597, 1612, 1616-1620: [lo] start of the text, [hi] its end *)
Fixpoint trail (fuel : nat) (lo p : nat) : B nat :=
  match fuel with
  | 0 => bfuel
  | S f => if Nat.leb lo p then c <# rd p ;; if ini_space c then q <# back p ;; trail f lo q else bret p else bret p
  end.
Definition trim_end (fuel : nat) (lo hi : nat) : B unit :=
  p <# back hi ;; p <# trail fuel lo p ;; wr (S p) NUL.

(** LoadMultiLineText 1730-1738: blank lines read ahead; [n] counts line ends *)
Fixpoint ahead (fuel : nat) (p n : nat) : B (nat * nat) :=
  match fuel with
  | 0 => bfuel
  | S f =>
      c <# rd p ;;
      if ini_space c then
        if is_nl c then p <# skip_nl p ;; ahead f p (S n) else ahead f (S p) n
      else bret (p, n)
  end.
(** 1743 *)
Fixpoint put_newlines (n p : nat) : B nat :=
  match n with 0 => bret p | S n => _ <# wr p LF ;; put_newlines n (S p) end.
(** LoadMultiLineText 1718-1793 with a_pTagName = NULL. [start] a_pVal, [out] pDataLine,
    [p] a_pData. Result: a_pData, and a_pVal if a comment was found. *)
Fixpoint comment (fuel N : nat) (blank : bool) (start out p : nat) : B (nat * option nat) :=
  match fuel with
  | 0 => bfuel
  | S f =>
      let finish := if Nat.eqb start p then bret (p, None) else q <# back out ;; _ <# wr q NUL ;; bret (p, Some start) in
      c <# rd p ;;
      if negb (ini_comment c) then
        if negb blank then finish
        else
          '(q, n) <# ahead N p 0 ;;
          d <# rd q ;;
          if ini_comment d then out <# put_newlines n out ;; comment f N blank start out q else finish
      else
        e <# fwd N (fun x => negb (is_nl x)) p ;;
        _ <# (if Nat.ltb out p then _ <# move out p (e - p) ;; wr (out + (e - p)) NUL else bret tt) ;;
        ch <# rd e ;;
        _ <# wr e NUL ;;
        if Ascii.eqb ch NUL then bret (e, Some start)
        else
          let out := out + (e - p) in
          _ <# wr e ch ;;
          q <# skip_nl e ;;
          _ <# wr out LF ;;
          comment f N blank start (S out) q
  end.

(** a_pSection: the static empty string, or in the copy *)
Inductive sptr := SEmpty | SAt (p : nat).
(** an entry found: the section and, unless it is a section header, key and value *)
Record entry := { e_sec : sptr; e_kv : option (nat * nat); e_comment : option nat }.

(** FindEntry 1514-1633; the new a_pData and a_pSection with the entry *)
Fixpoint find_entry (fuel N : nat) (p : nat) (sec : sptr) (com : option nat) : B (option entry * nat * sptr) :=
  match fuel with
  | 0 => bfuel
  | S f =>
      c <# rd p ;;
      if Ascii.eqb c NUL then bret (None, p, sec)
      else
        p <# fwd N ini_space p ;;
        c <# rd p ;;
        if Ascii.eqb c NUL then bret (None, p, sec)
        else if ini_comment c then
          '(p, com) <# comment N N true p p p ;; find_entry f N p sec com
        else if Ascii.eqb c "["%char then
          s <# fwd N ini_space (S p) ;;
          p <# fwd N (fun x => negb (Ascii.eqb x "]"%char) && negb (is_nl x)) s ;;
          c <# rd p ;;
          if negb (Ascii.eqb c "]"%char) then find_entry f N p (SAt s) com
          else
            _ <# trim_end N s p ;;
            p <# fwd N (fun x => negb (is_nl x)) (S p) ;;
            bret (Some {| e_sec := SAt s; e_kv := None; e_comment := com |}, p, SAt s)
        else
          let key := p in
          p <# fwd N (fun x => negb (Ascii.eqb x "="%char) && negb (is_nl x)) p ;;
          c <# rd p ;;
          if negb (Ascii.eqb c "="%char) then find_entry f N p sec com
          else if Nat.eqb key p then
            p <# fwd N (fun x => negb (is_nl x)) p ;; find_entry f N p sec com
          else
            _ <# trim_end N key p ;;
            v <# fwd N (fun x => negb (is_nl x) && ini_space x) (S p) ;;
            p <# fwd N (fun x => negb (is_nl x)) v ;;
            q <# back p ;;
            c <# rd p ;;
            next <# (if Ascii.eqb c NUL then bret p else skip_nl p) ;;
            q <# trail N v q ;;
            _ <# wr (S q) NUL ;;
            bret (Some {| e_sec := sec; e_kv := Some (key, v); e_comment := com |}, next, sec)
  end.

(** reading a C string *)
Fixpoint rd_str (fuel p : nat) : B bytes :=
  match fuel with
  | 0 => bfuel
  | S f => c <# rd p ;; if Ascii.eqb c NUL then bret [] else r <# rd_str f (S p) ;; bret (c :: r)
  end.
Definition rd_sec (N : nat) (s : sptr) : B bytes := match s with SEmpty => bret [] | SAt p => rd_str N p end.
(** An entry as AddEntry (1846-1948) sees it when it is added: the strings behind the pointers *)
Definition seen := (bytes * option (bytes * bytes))%type.
Definition see (N : nat) (e : entry) : B seen :=
  s <# rd_sec N (e_sec e) ;;
  match e_kv e with
  | None => bret (s, None)
  | Some (k, v) => ks <# rd_str N k ;; vs <# rd_str N v ;; bret (s, Some (ks, vs))
  end.
(** LoadData 1438-1444: every entry with what was seen of it *)
Fixpoint load_entries (fuel N : nat) (p : nat) (sec : sptr) (com : option nat) : B (list (entry * seen)) :=
  match fuel with
  | 0 => bfuel
  | S f =>
      '(e, p, sec) <# find_entry N N p sec com ;;
      match e with
      | None => bret []
      | Some e => s <# see N e ;; r <# load_entries f N p sec None ;; bret ((e, s) :: r)
      end
  end.
(** LoadData 1384-1456: the copy ends with a NUL; result: the entries and the copy as it is kept *)
Definition load_copy (data : bytes) : res (list (entry * seen) * bytes) :=
  match data with
  | [] => Ok ([], [])
  | _ =>
      let N := S (S (length data)) in
      ('(p, _) <# comment N N false 0 0 0 ;; load_entries N N p SEmpty None) (data ++ [NUL])
  end.

(** AddEntry 1846-1948 with the strings of an entry (no copies: bCopyStrings is false) *)
Definition add_seen (d : ini) (s : seen) : ini :=
  match s with
  | (n, None) => ini_update n (fun kv => kv) d
  | (n, Some (k, v)) => ini_update n (kv_set k v) d
  end.
(** LoadData 1384-1456 *)
Definition load_in_place (data : bytes) : res ini :=
  match load_copy data with
  | Ok (l, _) => Ok (fold_left add_seen (map snd l) [])
  | Throw e => Throw e | Undef u => Undef u | OutOfFuel => OutOfFuel
  end.
