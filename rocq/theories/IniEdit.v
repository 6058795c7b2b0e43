(** Model of the editing interface of src/library/ini/SimpleIni.h (CSimpleIniTempl with
    char, SI_GenericNoCase, no UTF-8): the string pointers kept in the tables, the copies
    owned by m_strings, and every function that reads or changes the tables. Strings are
    the characters before the NUL. Allocation never fails and m_nOrder (an int) does not
    overflow: fewer than 2^31 entries are added to one object. *)
From Verif Require Import Base CTypes StringUtils Ini InspectorOut.

(** A const char*: to a string of the caller (or a literal, or the buffer of a LoadData in
    progress), to a string inside the block m_pData, or to a copy made by CopyString. The
    number of a copy is its address: addresses are not used again. *)
Inductive ptr := Given (s : bytes) | InBlock (s : bytes) | Copied (i : nat).
(** Entry 300-328 *)
Record named := { n_item : ptr; n_comment : option ptr; n_order : nat }.
(** TKeyVal 349: a multimap, its elements in iteration order *)
Definition keyed := list (named * ptr).
(** the members of CSimpleIniTempl 1204-1246. [st_block]: m_pData is not NULL. [st_strings]:
    m_strings with the text of each copy; [st_fresh]: no copy has this or a greater number.
    TSection 352: a map, its elements in iteration order *)
Record store := {
  st_multi : bool; st_multiline : bool; st_spaces : bool;
  st_block : bool; st_comment : option ptr;
  st_strings : list (nat * bytes); st_fresh : nat; st_order : nat;
  st_data : list (named * keyed) }.

(** CSimpleIniTempl() 1253-1266 *)
Definition new_store (multi multiline : bool) : store :=
  {| st_multi := multi; st_multiline := multiline; st_spaces := true; st_block := false; st_comment := None;
     st_strings := []; st_fresh := 0; st_order := 0; st_data := [] |}.
(** SetMultiKey 511-513, SetMultiLine 524-526, SetSpaces 537-539 *)
Definition set_multi_key (b : bool) (st : store) : store :=
  {| st_multi := b; st_multiline := st_multiline st; st_spaces := st_spaces st; st_block := st_block st; st_comment := st_comment st;
     st_strings := st_strings st; st_fresh := st_fresh st; st_order := st_order st; st_data := st_data st |}.
Definition set_multi_line (b : bool) (st : store) : store :=
  {| st_multi := st_multi st; st_multiline := b; st_spaces := st_spaces st; st_block := st_block st; st_comment := st_comment st;
     st_strings := st_strings st; st_fresh := st_fresh st; st_order := st_order st; st_data := st_data st |}.
Definition set_spaces (b : bool) (st : store) : store :=
  {| st_multi := st_multi st; st_multiline := st_multiline st; st_spaces := b; st_block := st_block st; st_comment := st_comment st;
     st_strings := st_strings st; st_fresh := st_fresh st; st_order := st_order st; st_data := st_data st |}.
(** assignments to members (no code of their own) *)
Definition with_data (d : list (named * keyed)) (st : store) : store :=
  {| st_multi := st_multi st; st_multiline := st_multiline st; st_spaces := st_spaces st; st_block := st_block st; st_comment := st_comment st;
     st_strings := st_strings st; st_fresh := st_fresh st; st_order := st_order st; st_data := d |}.
Definition with_strings (l : list (nat * bytes)) (fresh : nat) (st : store) : store :=
  {| st_multi := st_multi st; st_multiline := st_multiline st; st_spaces := st_spaces st; st_block := st_block st; st_comment := st_comment st;
     st_strings := l; st_fresh := fresh; st_order := st_order st; st_data := st_data st |}.
Definition with_order (n : nat) (st : store) : store :=
  {| st_multi := st_multi st; st_multiline := st_multiline st; st_spaces := st_spaces st; st_block := st_block st; st_comment := st_comment st;
     st_strings := st_strings st; st_fresh := st_fresh st; st_order := n; st_data := st_data st |}.
Definition with_comment (c : option ptr) (st : store) : store :=
  {| st_multi := st_multi st; st_multiline := st_multiline st; st_spaces := st_spaces st; st_block := st_block st; st_comment := c;
     st_strings := st_strings st; st_fresh := st_fresh st; st_order := st_order st; st_data := st_data st |}.
Definition with_block (b : bool) (st : store) : store :=
  {| st_multi := st_multi st; st_multiline := st_multiline st; st_spaces := st_spaces st; st_block := b; st_comment := st_comment st;
     st_strings := st_strings st; st_fresh := st_fresh st; st_order := st_order st; st_data := st_data st |}.

(** a computation on the object *)
Definition E (A : Type) := store -> res (A * store).
Definition eret {A} (a : A) : E A := fun st => Ok (a, st).
Definition ebind {A C} (m : E A) (k : A -> E C) : E C := fun st =>
  match m st with Ok (a, st') => k a st' | Throw e => Throw e | Undef u => Undef u | OutOfFuel => OutOfFuel end.
Notation "x <! m ;; k" := (ebind m (fun x => k)) (at level 61, m at next level, right associativity).
Notation "' p <! m ;; k" := (ebind m (fun x => match x with p => k end)) (at level 61, p pattern, m at next level, right associativity).
Definition ask {A} (f : store -> res A) : E A := fun st => a <-- f st ;; Ok (a, st).
Definition change (f : store -> store) : E unit := fun st => Ok (tt, f st).

(** the copy with a number *)
Fixpoint copy_at (i : nat) (l : list (nat * bytes)) : option bytes :=
  match l with [] => None | (j, s) :: r => if Nat.eqb j i then Some s else copy_at i r end.
(** reading a string; a copy that was deleted must not be read *)
Definition deref (st : store) (p : ptr) : res bytes :=
  match p with
  | Given s | InBlock s => Ok s
  | Copied i => match copy_at i (st_strings st) with Some s => Ok s | None => Undef UbRead end
  end.
(** IsLess 1193-1196 with SI_GenericNoCase 2655-2670 *)
Definition is_less (st : store) (p q : ptr) : res bool :=
  a <-- deref st p ;; b <-- deref st q ;; Ok (nocase_less a b).

(** CopyString 1820-1844: the new pointer *)
Definition copy_string (p : ptr) : E ptr := fun st =>
  s <-- deref st p ;;
  Ok (Copied (st_fresh st), with_strings (st_strings st ++ [(st_fresh st, s)]) (S (st_fresh st)) st).
(** DeleteString 2590-2608: only a copy is in m_strings; a pointer that is not there is ignored *)
Definition delete_string (p : ptr) : E unit :=
  change (fun st => match p with
                    | Copied i => with_strings (filter (fun e => negb (Nat.eqb (fst e) i)) (st_strings st)) (st_fresh st) st
                    | _ => st
                    end).

(** Iterators are positions. std::map / std::multimap lower_bound and find with KeyOrder
    330-335; the tree is searched by the same comparisons, here from the left. *)
Fixpoint lower_bound {V} (st : store) (k : ptr) (i : nat) (l : list (named * V)) : res nat :=
  match l with
  | [] => Ok i
  | (n, _) :: r => b <-- is_less st (n_item n) k ;; if b then lower_bound st k (S i) r else Ok i
  end.
Definition find_name {V} (st : store) (k : ptr) (l : list (named * V)) : res (option nat) :=
  i <-- lower_bound st k 0 l ;;
  match nth_error l i with
  | None => Ok None
  | Some (n, _) => b <-- is_less st k (n_item n) ;; Ok (if b then None else Some i)
  end.
(** insert: a map puts a new key before the first greater one, a multimap after the equal ones *)
Fixpoint insert {V} (st : store) (n : named) (v : V) (l : list (named * V)) : res (list (named * V)) :=
  match l with
  | [] => Ok [(n, v)]
  | (m, w) :: r => b <-- is_less st (n_item n) (n_item m) ;;
                   if b then Ok ((n, v) :: l) else r' <-- insert st n v r ;; Ok ((m, w) :: r')
  end.
(** the loops "while (i != end && !IsLess(a_pKey, i->first.pItem)) ++i" 1905, 2208: the elements passed *)
Fixpoint equals {V} (st : store) (k : ptr) (l : list (named * V)) : res (list (named * V)) :=
  match l with
  | [] => Ok []
  | (n, v) :: r => b <-- is_less st k (n_item n) ;; if b then Ok [] else r' <-- equals st k r ;; Ok ((n, v) :: r')
  end.
(** an element replaced or erased (no code of their own) *)
Definition replace_at {A} (i : nat) (x : A) (l : list A) : list A := firstn i l ++ x :: skipn (S i) l.
Definition erase_at {A} (i : nat) (l : list A) : list A := firstn i l ++ skipn (S i) l.

(** Delete 2552-2561: the keys equal to [k] from the iterator on; the elements left after them *)
Fixpoint delete_run (k : ptr) (l : keyed) : E keyed :=
  match l with
  | [] => eret []
  | (n, v) :: r =>
      _ <! delete_string (n_item n) ;;
      _ <! delete_string v ;;
      match r with
      | [] => eret []
      | (m, _) :: _ => b <! ask (fun st => is_less st k (n_item m)) ;; if b then eret r else delete_run k r
      end
  end.
(** Delete 2574-2578 *)
Fixpoint delete_strings (l : keyed) : E unit :=
  match l with
  | [] => eret tt
  | (n, v) :: r => _ <! delete_string (n_item n) ;; _ <! delete_string v ;; delete_strings r
  end.
(** Delete 2581-2582 *)
Definition delete_section (i : nat) (n : named) : E bool :=
  _ <! delete_string (n_item n) ;;
  _ <! change (fun st => with_data (erase_at i (st_data st)) st) ;;
  eret true.
(** Delete 2527-2585. NULL is None *)
Definition delete (sec key : option ptr) (remove_empty : bool) : E bool :=
  match sec with
  | None => eret false
  | Some sec =>
      f <! ask (fun st => find_name st sec (st_data st)) ;;
      match f with
      | None => eret false
      | Some i =>
          e <! ask (fun st => Ok (nth_error (st_data st) i)) ;;
          match e with
          | None => eret false                          (* not reached: i was found *)
          | Some (n, kvs) =>
              match key with
              | Some k =>
                  g <! ask (fun st => find_name st k kvs) ;;
                  match g with
                  | None => eret false
                  | Some j =>
                      r <! delete_run k (skipn j kvs) ;;
                      let kvs' := firstn j kvs ++ r in
                      _ <! change (fun st => with_data (replace_at i (n, kvs') (st_data st)) st) ;;
                      match kvs' with
                      | [] => if remove_empty then delete_section i n else eret true
                      | _ => eret true
                      end
                  end
              | None => _ <! delete_strings kvs ;; delete_section i n
              end
          end
      end
  end.

(** SI_Error 236-246 *)
Inductive si_code := SI_OK | SI_UPDATED | SI_INSERTED | SI_FAIL.

(** CopyString of an optional pointer, if strings are copied *)
Definition copy_if (copy : bool) (p : ptr) : E ptr := if copy then copy_string p else eret p.
Definition copy_opt (copy : bool) (p : option ptr) : E (option ptr) :=
  match p with Some q => q' <! copy_if copy q ;; eret (Some q') | None => eret None end.
(** ++m_nOrder *)
Definition next_order : E nat := fun st => Ok (S (st_order st), with_order (S (st_order st)) st).

(** AddEntry 1869-1890: the section, found or made; its position and whether it was made *)
Definition add_section (sec : ptr) (key value comment : option ptr) (copy : bool) : E (nat * bool) :=
  f <! ask (fun st => find_name st sec (st_data st)) ;;
  match f with
  | Some i => eret (i, false)
  | None =>
      sec <! copy_if copy sec ;;
      o <! next_order ;;
      let c := match key, value with Some _, Some _ => None | _, _ => comment end in
      let n := {| n_item := sec; n_comment := c; n_order := o |} in
      i <! ask (fun st => lower_bound st sec 0 (st_data st)) ;;
      d <! ask (fun st => insert st n [] (st_data st)) ;;
      _ <! change (with_data d) ;;
      eret (i, true)
  end.
(** AddEntry 1904-1911: the smallest load order of the equal keys, and the comment there *)
Fixpoint oldest (l : keyed) (o : nat) (c : option ptr) : nat * option ptr :=
  match l with
  | [] => (o, c)
  | (n, _) :: r => if Nat.ltb (n_order n) o then oldest r (n_order n) (n_comment n) else oldest r o c
  end.
(** the keys of the section at a position *)
Definition keys_at (i : nat) (st : store) : keyed := match nth_error (st_data st) i with Some (_, l) => l | None => [] end.
Definition set_keys (i : nat) (l : keyed) (st : store) : store :=
  match nth_error (st_data st) i with Some (n, _) => with_data (replace_at i (n, l) (st_data st)) st | None => st end.
(** AddEntry 1846-1948. In 1943-1947 the element is inserted with a null value that is then
    assigned; here it is inserted with the value. *)
Definition add_entry (sec : ptr) (key value comment : option ptr) (force copy : bool) : E si_code :=
  comment <! copy_opt copy comment ;;
  '(i, made) <! add_section sec key value comment copy ;;
  match key, value with
  | Some key, Some value =>
      g <! ask (fun st => find_name st key (keys_at i st)) ;;
      o <! next_order ;;
      multi <! ask (fun st => Ok (st_multi st)) ;;
      '(g, o, comment) <!
        (match g with
         | Some j =>
             if multi && force then
               l <! ask (fun st => equals st key (skipn j (keys_at i st))) ;;
               let '(o, c) := oldest l o None in
               comment <! (match c with
                           | None => eret comment
                           | Some c =>
                               _ <! (match comment with Some q => delete_string q | None => eret tt end) ;;
                               c <! copy_string c ;;
                               eret (Some c)
                           end) ;;
               _ <! delete (Some sec) (Some key) false ;;
               eret (None, o, comment)
             else eret (g, o, comment)
         | None => eret (g, o, comment)
         end) ;;
      let create := multi && negb force in
      key <! (match g with Some _ => if create then copy_if copy key else eret key | None => copy_if copy key end) ;;
      value <! copy_if copy value ;;
      let put := (
        let n := {| n_item := key; n_comment := comment; n_order := o |} in
        l <! ask (fun st => insert st n value (keys_at i st)) ;;
        _ <! change (set_keys i l) ;;
        eret SI_INSERTED) in
      match g with
      | None => put
      | Some j =>
          if create then put
          else
            _ <! change (fun st => match nth_error (keys_at i st) j with
                                   | Some (n, _) => set_keys i (replace_at j (n, value) (keys_at i st)) st
                                   | None => st
                                   end) ;;
            eret (if made then SI_INSERTED else SI_UPDATED)
      end
  | _, _ => eret (if made then SI_INSERTED else SI_UPDATED)
  end.

(** SetValue 995-1004. A null section is dereferenced *)
Definition set_value (sec key value comment : option ptr) (force : bool) : E si_code :=
  match sec with
  | None => fun _ => Undef UbNull
  | Some sec => add_entry sec key value comment force true
  end.

(** An entry found by FindEntry: section, key and value unless it is a section header, comment *)
Record found := { f_sec : bytes; f_kv : option (bytes * bytes); f_comment : option bytes }.
(** LoadData 1424-1444: what was found in a text that is not empty is added; [fc] the file
    comment at its beginning. Only a first text stays in m_pData, a later one is copied. *)
Fixpoint load_found (copy : bool) (l : list found) : E unit :=
  match l with
  | [] => eret tt
  | f :: r =>
      let p (s : bytes) := if copy then Given s else InBlock s in
      _ <! add_entry (p (f_sec f)) (option_map (fun kv => p (fst kv)) (f_kv f)) (option_map (fun kv => p (snd kv)) (f_kv f))
                     (option_map p (f_comment f)) false copy ;;
      load_found copy r
  end.
(** LoadData 1384-1456; FindFileComment 1476-1500 looks for a file comment only if there is none *)
Definition load (fc : option bytes) (l : list found) : E unit :=
  copy <! ask (fun st => Ok (st_block st)) ;;
  c <! ask (fun st => Ok (st_comment st)) ;;
  _ <! (match c, fc with
        | None, Some s =>
            p <! copy_if copy (if copy then Given s else InBlock s) ;; change (with_comment (Some p))
        | _, _ => eret tt
        end) ;;
  _ <! load_found copy l ;;
  if copy then eret tt else change (with_block true).

(** GetValue 1951-1986: the value and *a_pHasMultiple. NULL is None *)
Definition get_value_at (sec key def : option ptr) (st : store) : res (option ptr * bool) :=
  match sec, key with
  | Some sec, Some key =>
      f <-- find_name st sec (st_data st) ;;
      match f with
      | None => Ok (def, false)
      | Some i =>
          let l := keys_at i st in
          g <-- find_name st key l ;;
          match g with
          | None => Ok (def, false)
          | Some j =>
              more <-- (if st_multi st then
                          match nth_error l (S j) with
                          | Some (n, _) => b <-- is_less st key (n_item n) ;; Ok (negb b)
                          | None => Ok false
                          end
                        else Ok false) ;;
              Ok (match nth_error l j with Some (_, v) => Some v | None => None end, more)
          end
      end
  | _, _ => Ok (def, false)
  end.
(** GetAllValues 2183-2215: the values with the comments and load orders of their keys *)
Definition value_entry (e : named * ptr) : named := {| n_item := snd e; n_comment := n_comment (fst e); n_order := n_order (fst e) |}.
Definition get_all_values (sec key : option ptr) (st : store) : res (option (list named)) :=
  match sec, key with
  | Some sec, Some key =>
      f <-- find_name st sec (st_data st) ;;
      match f with
      | None => Ok None
      | Some i =>
          let l := keys_at i st in
          g <-- find_name st key l ;;
          match g with
          | None => Ok None
          | Some j =>
              r <-- (if st_multi st then equals st key (skipn (S j) l) else Ok []) ;;
              Ok (Some (map value_entry (match nth_error l j with Some e => [e] | None => [] end ++ r)))
          end
      end
  | _, _ => Ok None
  end.
(** GetAllKeys 2295-2306 and GetSectionSize 2240-2247: of equal keys in a row the first; [last] is pLastKey *)
Fixpoint distinct {V} (st : store) (last : option ptr) (l : list (named * V)) : res (list named) :=
  match l with
  | [] => Ok []
  | (n, _) :: r =>
      b <-- (match last with None => Ok true | Some q => is_less st q (n_item n) end) ;;
      if b then t <-- distinct st (Some (n_item n)) r ;; Ok (n :: t) else distinct st last r
  end.
(** GetSectionSize 2217-2250 *)
Definition section_size (sec : option ptr) (st : store) : res Z :=
  match sec with
  | None => Ok (-1)%Z
  | Some sec =>
      f <-- find_name st sec (st_data st) ;;
      match f with
      | None => Ok (-1)%Z
      | Some i =>
          let l := keys_at i st in
          if negb (st_multi st) then Ok (Z.of_nat (length l))
          else d <-- distinct st None l ;; Ok (Z.of_nat (length d))
      end
  end.
(** GetAllSections 2267-2277 *)
Definition all_sections (st : store) : list named := map fst (st_data st).
(** GetAllKeys 2280-2309 *)
Definition all_keys (sec : option ptr) (st : store) : res (option (list named)) :=
  match sec with
  | None => Ok None
  | Some sec =>
      f <-- find_name st sec (st_data st) ;;
      match f with
      | None => Ok None
      | Some i => d <-- distinct st None (keys_at i st) ;; Ok (Some d)
      end
  end.

(** Reset 1275-1295: m_nOrder is kept *)
Definition reset (st : store) : store :=
  {| st_multi := st_multi st; st_multiline := st_multiline st; st_spaces := st_spaces st; st_block := false; st_comment := None;
     st_strings := []; st_fresh := st_fresh st; st_order := st_order st; st_data := [] |}.

(** LoadOrder 337-344 *)
Definition load_less (st : store) (a b : named) : res bool :=
  if Nat.eqb (n_order a) (n_order b) then is_less st (n_item a) (n_item b) else Ok (Nat.ltb (n_order a) (n_order b)).
(** std::list::sort (stable) *)
Fixpoint sort_insert (st : store) (a : named) (l : list named) : res (list named) :=
  match l with
  | [] => Ok [a]
  | b :: r => x <-- load_less st b a ;; if x then r' <-- sort_insert st a r ;; Ok (b :: r') else Ok (a :: l)
  end.
Fixpoint sort_load (st : store) (l : list named) : res (list named) :=
  match l with [] => Ok [] | a :: r => r' <-- sort_load st r ;; sort_insert st a r' end.

(** OutputMultiLineText 2498-2524, SI_NEWLINE_A as on Unix (254) *)
Fixpoint out_lines (s : bytes) : bytes :=
  match s with
  | [] => [LF]
  | c :: r => if Ascii.eqb c LF then LF :: out_lines r else c :: out_lines r
  end.
Definition out_text (s : bytes) : bytes := match s with [] => [] | _ => out_lines s end.
(** IsMultiLineData 1653-1686 *)
Definition multi_line_data (s : bytes) : bool :=
  match s with
  | [] => false
  | c :: _ => ini_space c || existsb is_nl s || match rev s with d :: _ => ini_space d | [] => false end
  end.
(** Save 2456-2487: one value of a key *)
Definition save_value (st : store) (key : bytes) (v : named) : res bytes :=
  c <-- (match n_comment v with Some p => s <-- deref st p ;; Ok (LF :: out_text s) | None => Ok [] end) ;;
  t <-- deref st (n_item v) ;;
  Ok (c ++ key ++ (if st_spaces st then bs " = " else bs "=") ++
      (if st_multiline st && multi_line_data t then bs "<<<END_OF_TEXT" ++ [LF] ++ out_text t ++ bs "END_OF_TEXT" else t) ++ [LF]).
(** a loop that writes (no code of its own) *)
Fixpoint concat_res {A} (f : A -> res bytes) (l : list A) : res bytes :=
  match l with [] => Ok [] | a :: r => s <-- f a ;; t <-- concat_res f r ;; Ok (s ++ t) end.
(** Save 2447-2488: one key *)
Definition save_key (st : store) (sec : ptr) (k : named) : res bytes :=
  vs <-- get_all_values (Some sec) (Some (n_item k)) st ;;
  s <-- deref st (n_item k) ;;
  concat_res (save_value st s) (match vs with Some l => l | None => [] end).
(** Save 2404-2491: one section; [nl] is bNeedNewLine *)
Definition save_part (st : store) (nl : bool) (n : named) : res bytes :=
  let gap : bytes := if nl then [LF; LF] else [] in
  c <-- (match n_comment n with Some p => s <-- deref st p ;; Ok (out_text s) | None => Ok [] end) ;;
  s <-- deref st (n_item n) ;;
  let head := match s with [] => [] | _ => bs "[" ++ s ++ bs "]" ++ [LF] end in
  ks <-- all_keys (Some (n_item n)) st ;;
  ks <-- sort_load st (match ks with Some l => l | None => [] end) ;;
  body <-- concat_res (save_key st (n_item n)) ks ;;
  Ok (gap ++ c ++ head ++ body).
Fixpoint save_parts (st : store) (nl : bool) (l : list named) : res bytes :=
  match l with [] => Ok [] | n :: r => s <-- save_part st nl n ;; t <-- save_parts st true r ;; Ok (s ++ t) end.
(** Save 2368-2496 *)
Definition save (st : store) : res bytes :=
  secs <-- sort_load st (all_sections st) ;;
  c <-- (match st_comment st with Some p => s <-- deref st p ;; Ok (out_text s) | None => Ok [] end) ;;
  body <-- save_parts st (match st_comment st with Some _ => true | None => false end) secs ;;
  Ok (c ++ body ++ [LF]).

(** sprintf "%ld" and "0x%lx" *)
Definition print_long (z : Z) : bytes :=
  if Z.ltb z 0 then "-"%char :: print_num 10 (Z.to_N (- z)) else print_num 10 (Z.to_N z).
Definition print_hex (z : Z) : bytes := bs "0x" ++ print_num 16 (Z.to_N (z mod 18446744073709551616)).
(** SetLongValue 2027-2056. The text and its NUL fit in char[64] *)
Definition set_long_value (sec key : option ptr) (z : Z) (comment : option ptr) (hex force : bool) : E si_code :=
  match sec, key with
  | Some _, Some _ =>
      let t := if hex then print_hex z else print_long z in
      if Nat.ltb 64 (length t + 1) then fun _ => Undef UbWrite
      else set_value sec key (Some (Given t)) comment force
  | _, _ => eret SI_FAIL
  end.
(** GetLongValue 1988-2025 *)
Definition get_long_at (sec key : option ptr) (def : Z) (st : store) : res Z :=
  '(v, _) <-- get_value_at sec key None st ;;
  match v with
  | None => Ok def
  | Some p => s <-- deref st p ;; Ok (long_of (Some s) def)
  end.
(** SetBoolValue 2158-2181 *)
Definition set_bool_value (sec key : option ptr) (b : bool) (comment : option ptr) (force : bool) : E si_code :=
  match sec, key with
  | Some _, Some _ => set_value sec key (Some (Given (if b then bs "true" else bs "false"))) comment force
  | _, _ => eret SI_FAIL
  end.
(** GetBoolValue 2120-2156: the value of the text [s] *)
Definition bool_of (s : bytes) (def : bool) : bool :=
  match s with
  | [] => def
  | c :: r =>
      if existsb (Ascii.eqb c) (bs "tTyY1") then true
      else if existsb (Ascii.eqb c) (bs "fFnN0") then false
      else if existsb (Ascii.eqb c) (bs "oO") then
        match r with
        | d :: _ => if existsb (Ascii.eqb d) (bs "nN") then true
                    else if existsb (Ascii.eqb d) (bs "fF") then false else def
        | [] => def
        end
      else def
  end.
Definition get_bool_at (sec key : option ptr) (def : bool) (st : store) : res bool :=
  '(v, _) <-- get_value_at sec key None st ;;
  match v with
  | None => Ok def
  | Some p => s <-- deref st p ;; Ok (bool_of s def)
  end.

(** A finite double: its absolute value is [db_m] * 2 ^ [db_e]. *)
Record double := { db_neg : bool; db_m : N; db_e : Z }.
(** sprintf "%f": millionths, rounded to the nearest, ties to even (glibc); infinities and NaN are not modelled *)
Definition millionths (x : double) : N :=
  (if Z.leb 0 (db_e x) then db_m x * 2 ^ Z.to_N (db_e x) * 1000000
  else
    let d := 2 ^ Z.to_N (- db_e x) in
    let q := db_m x * 1000000 / d in
    let r := (db_m x * 1000000) mod d in
    if N.ltb d (2 * r) || (N.eqb (2 * r) d && N.odd q) then q + 1 else q)%N.
Definition six_digits (n : N) : bytes :=
  map (fun d => digit_char ((n / d) mod 10)%N) [100000; 10000; 1000; 100; 10; 1]%N.
Definition print_double (x : double) : bytes :=
  (if db_neg x then bs "-" else []) ++ print_num 10 (millionths x / 1000000)%N ++ bs "." ++ six_digits (millionths x mod 1000000)%N.
(** SetDoubleValue 2090-2118: sprintf into char szInput[64] *)
Definition set_double_value (sec key : option ptr) (x : double) (comment : option ptr) (force : bool) : E si_code :=
  match sec, key with
  | Some _, Some _ =>
      if Nat.ltb 64 (length (print_double x) + 1) then fun _ => Undef UbWrite
      else set_value sec key (Some (Given (print_double x))) comment force
  | _, _ => eret SI_FAIL
  end.
