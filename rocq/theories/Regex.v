(** The regular expressions of identify_format (base/string_utils.cpp 85-96) from the text of
    their patterns on: the parts of the ECMAScript syntax that they use, and a matcher that
    searches as the one of libstdc++ does (std::__detail::_Executor in its depth-first mode, in
    its order of alternatives, with the number of calls that are active at once). *)
From Verif Require Import Base CTypes StringUtils.

Inductive re :=
| Eps                                   (* nothing *)
| Set_ (l : list (ascii * ascii))       (* one character in one of the ranges *)
| Any                                   (* '.': one character that ends no line *)
| Bol | Eol                             (* '^', '$' *)
| Cat (a b : re) | Or (a b : re)
| Star (greedy : bool) (a : re).

(** string_utils.cpp 85, 86: the patterns, after the escapes of C++ string literals *)
Definition INI_SECTION : bytes := bs "\[.*?\]".
Definition B64 : bytes := bs "^(?:[A-Za-z0-9+/]{4})*(?:[A-Za-z0-9+/]{2}==|[A-Za-z0-9+/]{3}=)?$".

(** ** Reading a pattern *)
Definition single (c : ascii) : re := Set_ [(c, c)].
(** after '[', up to ']': the ranges *)
Fixpoint read_class (s : bytes) : option (list (ascii * ascii) * bytes) :=
  match s with
  | [] => None
  | "]"%char :: r => Some ([], r)
  | a :: "-"%char :: b :: r =>
      match read_class r with
      | Some (l, r') => Some ((a, b) :: l, r')
      | None => None
      end
  | a :: r =>
      match read_class r with
      | Some (l, r') => Some ((a, a) :: l, r')
      | None => None
      end
  end.
Fixpoint times (n : nat) (a : re) : re := match n with 0 => Eps | S m => Cat a (times m a) end.
(** a quantifier after [a], if there is one *)
Definition read_quantifier (a : re) (s : bytes) : option (re * bytes) :=
  match s with
  | "*"%char :: "?"%char :: r => Some (Star false a, r)
  | "*"%char :: r => Some (Star true a, r)
  | "?"%char :: r => Some (Or a Eps, r)
  | "{"%char :: n :: "}"%char :: r => if isdigit n then Some (times (N.to_nat (N_of_ascii n) - 48) a, r) else None
  | "{"%char :: _ => None
  | _ => Some (a, s)
  end.
(** alternatives, up to the end or ')'; [n]: enough for every nested step *)
Fixpoint read_alt (n : nat) (s : bytes) : option (re * bytes) :=
  match n with
  | 0 => None
  | S n =>
      match read_seq n s with
      | Some (a, "|"%char :: r) =>
          match read_alt n r with
          | Some (b, r') => Some (Or a b, r')
          | None => None
          end
      | x => x
      end
  end
with read_seq (n : nat) (s : bytes) : option (re * bytes) :=
  match n with
  | 0 => None
  | S n =>
      let atom :=
        match s with
        | [] | "|"%char :: _ | ")"%char :: _ => None
        | "^"%char :: r => Some (Bol, r)
        | "$"%char :: r => Some (Eol, r)
        | "."%char :: r => Some (Any, r)
        | "["%char :: r => match read_class r with Some (l, r') => Some (Set_ l, r') | None => None end
        | "\"%char :: c :: r => Some (single c, r)
        | "("%char :: "?"%char :: ":"%char :: r =>
            match read_alt n r with
            | Some (a, ")"%char :: r') => Some (a, r')
            | _ => None
            end
        | c :: r => Some (single c, r)
        end in
      match s with
      | [] | "|"%char :: _ | ")"%char :: _ => Some (Eps, s)
      | _ =>
          match atom with
          | None => None
          | Some (a, r) =>
              match read_quantifier a r with
              | None => None
              | Some (q, r') =>
                  match read_seq n r' with
                  | Some (b, r'') => Some (Cat q b, r'')
                  | None => None
                  end
              end
          end
      end
  end.
(** the constructor of std::regex; None: regex_error *)
Definition compile (pattern : bytes) : option re :=
  match read_alt (2 * S (length pattern)) pattern with
  | Some (a, []) => Some a
  | _ => None
  end.

(** ** The matcher *)
Definition in_set (c : ascii) (l : list (ascii * ascii)) : bool :=
  existsb (fun r => (N_of_ascii (fst r) <=? N_of_ascii c)%N && (N_of_ascii c <=? N_of_ascii (snd r))%N) l.
(** a call more on the stack *)
Definition deeper (x : bool * nat) : bool * nat := (fst x, S (snd x)).
(** one attempt, and another if it fails *)
Definition or_else (x : bool * nat) (y : unit -> bool * nat) : bool * nat :=
  if fst x then deeper x else deeper (fst (y tt), Nat.max (snd x) (snd (y tt))).
(** [start]: nothing precedes [s]; [k]: what is to match after [r]. The result: whether there is a
    match, and how many calls were active at once. [fuel]: rounds of a loop. *)
Fixpoint dfs (fuel : nat) (r : re) (start : bool) (s : bytes) (k : bool -> bytes -> bool * nat) : bool * nat :=
  match r with
  | Eps => k start s
  | Set_ l => match s with c :: t => if in_set c l then deeper (k false t) else (false, 1) | [] => (false, 1) end
  | Any => match s with c :: t => if is_nl c then (false, 1) else deeper (k false t) | [] => (false, 1) end
  | Bol => if start then deeper (k start s) else (false, 1)
  | Eol => match s with [] => deeper (k start s) | _ => (false, 1) end
  | Cat a b => dfs fuel a start s (fun st t => dfs fuel b st t k)
  | Or a b => or_else (dfs fuel a start s k) (fun _ => dfs fuel b start s k)
  | Star greedy a =>
      (fix loop (n : nat) (start : bool) (s : bytes) : bool * nat :=
         match n with
         | 0 => (false, 1)
         | S n =>
             if greedy then or_else (dfs fuel a start s (fun st t => loop n st t)) (fun _ => k start s)
             else or_else (k start s) (fun _ => dfs fuel a start s (fun st t => loop n st t))
         end) fuel start s
  end.
(** std::regex_match: the match must end at the end *)
Definition run_match (r : re) (s : bytes) : bool * nat :=
  dfs (S (length s)) r true s (fun _ t => (match t with [] => true | _ => false end, 1)).
(** std::regex_search: from the beginning, then from every later place. ^ does not match there. *)
Fixpoint search_from (r : re) (start : bool) (s : bytes) : bool :=
  fst (dfs (S (length s)) r start s (fun _ _ => (true, 1))) || match s with [] => false | _ :: t => search_from r false t end.
Definition run_search (r : re) (s : bytes) : bool := search_from r true s.
(** the calls that are active at once in the attempts of a search *)
Fixpoint search_calls (r : re) (start : bool) (s : bytes) : nat :=
  let x := dfs (S (length s)) r start s (fun _ _ => (true, 1)) in
  if fst x then snd x else match s with [] => snd x | _ :: t => Nat.max (snd x) (search_calls r false t) end.

(** string_utils.cpp 88-96 *)
Definition identify_format_re (license : bytes) : option file_format :=
  match compile B64, compile INI_SECTION with
  | Some b64, Some ini =>
      Some (if fst (run_match b64 license) then FmtBase64
            else if run_search ini license then FmtIni
            else FmtUnknown)
  | _, _ => None
  end.
(** ... and the calls of the matcher that are active at once *)
Definition format_calls (license : bytes) : option nat :=
  match compile B64, compile INI_SECTION with
  | Some b64, Some ini =>
      let x := run_match b64 license in
      Some (if fst x then snd x else Nat.max (snd x) (search_calls ini true license))
  | _, _ => None
  end.
