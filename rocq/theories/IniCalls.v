(** A caller of the editing interface modelled in IniEdit.v: every call is made with strings
    of the caller, and what it returns is read at once. *)
From Verif Require Import Base CTypes StringUtils Ini IniEdit Spec_Ini Spec_IniEdit.

(** reading the strings of a returned Entry (SimpleIni.h 300-328) *)
Definition read_opt (st : store) (p : option ptr) : res (option bytes) :=
  match p with None => Ok None | Some q => s <-- deref st q ;; Ok (Some s) end.
Definition read_named (st : store) (n : named) : res told :=
  s <-- deref st (n_item n) ;; c <-- read_opt st (n_comment n) ;; Ok (s, c).
Fixpoint read_all (st : store) (l : list named) : res (list told) :=
  match l with [] => Ok [] | n :: r => t <-- read_named st n ;; ts <-- read_all st r ;; Ok (t :: ts) end.
Definition read_list (st : store) (l : option (list named)) : res answer :=
  match l with None => Ok (Told None) | Some l => ts <-- read_all st l ;; Ok (Told (Some ts)) end.
Definition given (s : option bytes) : option ptr := option_map Given s.
(** SI_Error 236-246 as an answer *)
Definition code_answer (c : si_code) : answer := match c with SI_INSERTED => Added | SI_UPDATED => Changed | _ => Done end.
Definition found_of (e : bytes * option (bytes * bytes) * option bytes) : found :=
  let '(s, kv, c) := e in {| f_sec := s; f_kv := kv; f_comment := c |}.

(** SimpleIni.h: SetValue 995-1004, Delete 2527-2585, GetValue 1951-1986, GetAllValues 2183-2215,
    GetSectionSize 2217-2250, GetAllSections 2267-2277, GetAllKeys 2280-2309, Save 2368-2496,
    Reset 1275-1295, SetMultiKey 511-513, SetMultiLine 524-526, SetSpaces 537-539, LoadData 1384-1456 *)
Definition perform (c : call) : E answer :=
  match c with
  | CSet sec key value comment force =>
      r <! set_value (Some (Given sec)) (given key) (given value) (given comment) force ;; eret (code_answer r)
  | CDelete sec key prune => b <! delete (given sec) (given key) prune ;; eret (if b then Yes else No)
  | CGet sec key =>
      '(v, more) <! ask (get_value_at (given sec) (given key) None) ;;
      s <! ask (fun st => read_opt st v) ;; eret (Value s more)
  | CAll sec key => l <! ask (get_all_values (given sec) (given key)) ;; ask (fun st => read_list st l)
  | CSize sec => n <! ask (section_size (given sec)) ;; eret (Size n)
  | CSections => l <! ask (fun st => Ok (all_sections st)) ;; ask (fun st => read_list st (Some l))
  | CKeys sec => l <! ask (all_keys (given sec)) ;; ask (fun st => read_list st l)
  | CSave => s <! ask save ;; eret (Written s)
  | CReset => _ <! change reset ;; eret Done
  | CMultiKey b => _ <! change (set_multi_key b) ;; eret Done
  | CMultiLine b => _ <! change (set_multi_line b) ;; eret Done
  | CSpaces b => _ <! change (set_spaces b) ;; eret Done
  | CLoad comment entries => _ <! load comment (map found_of entries) ;; eret Done
  end.
Fixpoint perform_all (h : list call) : E (list answer) :=
  match h with
  | [] => eret []
  | c :: r => a <! perform c ;; l <! perform_all r ;; eret (a :: l)
  end.
