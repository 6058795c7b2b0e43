(** Loading a text with multi-line values (SetMultiLine(true)) in src/library/ini/SimpleIni.h,
    on the loader's own copy of the text as in IniBuf.v: LoadMultiLineText with a tag, FindEntry
    and LoadData with m_bAllowMultiLine. *)
From Verif Require Import Base CTypes StringUtils Ini IniBuf.

(** IsMultiLineTag 1636-1648 *)
Definition is_tag (v : nat) : B bool :=
  c <# rd v ;; if negb (Ascii.eqb c "<"%char) then bret false else
  c <# rd (S v) ;; if negb (Ascii.eqb c "<"%char) then bret false else
  c <# rd (S (S v)) ;; bret (Ascii.eqb c "<"%char).

(** LoadMultiLineText 1695-1817 with a_pTagName = [tag]. [start] is a_pVal, [out] pDataLine,
    [p] a_pData. The comparison 1771-1776 reads both strings to their ends here; the code
    stops at the first difference. Result: a_pData, and a_pVal unless it returns false. *)
Fixpoint multi_text (fuel N : nat) (tag start out p : nat) : B (nat * option nat) :=
  match fuel with
  | 0 => bfuel
  | S f =>
      e <# fwd N (fun x => negb (is_nl x)) p ;;
      _ <# (if Nat.ltb out p then _ <# move out p (e - p) ;; wr (out + (e - p)) NUL else bret tt) ;;
      ch <# rd e ;;
      _ <# wr e NUL ;;
      l <# rd_str N out ;;
      t <# rd_str N tag ;;
      if negb (nocase_less l t) && negb (nocase_less t l) then
        if Nat.eqb start e then bret (e, None)
        else
          q <# back out ;;
          _ <# wr q NUL ;;
          if Ascii.eqb ch NUL then bret (e, Some start)
          else _ <# wr e ch ;; n <# skip_nl e ;; bret (n, Some start)
      else if Ascii.eqb ch NUL then bret (e, Some start)
      else
        let out := out + (e - p) in
        _ <# wr e ch ;;
        q <# skip_nl e ;;
        _ <# wr out LF ;;
        multi_text f N tag start (S out) q
  end.

(** FindEntry 1503-1634; [ml] is m_bAllowMultiLine *)
Fixpoint find_entry_ml (ml : bool) (fuel N : nat) (p : nat) (sec : sptr) (com : option nat) : B (option entry * nat * sptr) :=
  match fuel with
  | 0 => bfuel
  | S f =>
      c <# rd p ;;
      if Ascii.eqb c NUL then bret (None, p, sec)
      else
        p <# fwd N ini_space p ;;
        c <# rd p ;;
        if Ascii.eqb c NUL then bret (None, p, sec)
        else if ini_comment c then
          '(p, com) <# comment N N true p p p ;; find_entry_ml ml f N p sec com
        else if Ascii.eqb c "["%char then
          s <# fwd N ini_space (S p) ;;
          p <# fwd N (fun x => negb (Ascii.eqb x "]"%char) && negb (is_nl x)) s ;;
          c <# rd p ;;
          if negb (Ascii.eqb c "]"%char) then find_entry_ml ml f N p (SAt s) com
          else
            _ <# trim_end N s p ;;
            p <# fwd N (fun x => negb (is_nl x)) (S p) ;;
            bret (Some {| e_sec := SAt s; e_kv := None; e_comment := com |}, p, SAt s)
        else
          let key := p in
          p <# fwd N (fun x => negb (Ascii.eqb x "="%char) && negb (is_nl x)) p ;;
          c <# rd p ;;
          if negb (Ascii.eqb c "="%char) then find_entry_ml ml f N p sec com
          else if Nat.eqb key p then
            p <# fwd N (fun x => negb (is_nl x)) p ;; find_entry_ml ml f N p sec com
          else
            _ <# trim_end N key p ;;
            v <# fwd N (fun x => negb (is_nl x) && ini_space x) (S p) ;;
            p <# fwd N (fun x => negb (is_nl x)) v ;;
            q <# back p ;;
            c <# rd p ;;
            next <# (if Ascii.eqb c NUL then bret p else skip_nl p) ;;
            q <# trail N v q ;;
            _ <# wr (S q) NUL ;;
            tagged <# (if ml then is_tag v else bret false) ;;
            if tagged then
              '(p, val) <# multi_text N N (v + 3) next next next ;;
              bret (match val with Some t => Some {| e_sec := sec; e_kv := Some (key, t); e_comment := com |} | None => None end, p, sec)
            else bret (Some {| e_sec := sec; e_kv := Some (key, v); e_comment := com |}, next, sec)
  end.
(** LoadData 1438-1444: the loop ends when FindEntry returns false *)
Fixpoint load_entries_ml (ml : bool) (fuel N : nat) (p : nat) (sec : sptr) (com : option nat) : B (list (entry * seen)) :=
  match fuel with
  | 0 => bfuel
  | S f =>
      '(e, p, sec) <# find_entry_ml ml N N p sec com ;;
      match e with
      | None => bret []
      | Some e => s <# see N e ;; r <# load_entries_ml ml f N p sec None ;; bret ((e, s) :: r)
      end
  end.
(** LoadData 1384-1456: the entries, the copy as it is kept, and the file comment (FindFileComment 1476-1500) *)
Definition load_copy_ml (ml : bool) (data : bytes) : res (option nat * list (entry * seen) * bytes) :=
  match data with
  | [] => Ok (None, [], [])
  | _ =>
      let N := S (S (length data)) in
      '(r, b) <-- ('(p, c) <# comment N N false 0 0 0 ;; l <# load_entries_ml ml N N p SEmpty None ;; bret (c, l)) (data ++ [NUL]) ;;
      Ok (fst r, snd r, b)
  end.
