(** Model of the texts printed by src/inspector/inspector.cpp: the items of InspectorMain.v
    as characters on standard output (cout) and standard error (cerr). The two streams are
    separate; how they interleave is not modelled. *)
From Verif Require Import Base CTypes StringUtils Dates Base64 HwId Registry Ini Network Disks CpuInfo ExecEnv Strategies Locate Licensecc Inspector InspectorMain.

(** std::ostream << unsigned int / long / enum, std::dec or std::hex (no std::uppercase) *)
Definition digit_char (d : N) : ascii := ascii_of_N (if N.ltb d 10 then 48 + d else 87 + d)%N.
Fixpoint print_loop (base : N) (fuel : nat) (n : N) (acc : bytes) : bytes :=
  match fuel with
  | O => acc
  | S f => let acc' := digit_char (n mod base) :: acc in
           if N.eqb (n / base) 0 then acc' else print_loop base f (n / base) acc'
  end.
Definition print_num (base n : N) : bytes := print_loop base (S (N.to_nat (N.log2 n))) n [].

Inductive stream := Cout | Cerr.
(** std::endl *)
Definition endl : bytes := [LF].

(** base/base.h 42: the values of FUNCTION_RETURN *)
Definition func_ret_value (r : func_ret) : N :=
  match r with FUNC_RET_OK => 0 | FUNC_RET_NOT_AVAIL => 1 | FUNC_RET_ERROR => 2 | FUNC_RET_BUFFER_TOO_SMALL => 3 end.

(** the octets of an address, separated (105-108, 110-115) *)
Fixpoint joined (base : N) (sep : ascii) (l : list N) : bytes :=
  match l with
  | [] => []
  | [n] => print_num base n
  | n :: r => print_num base n ++ [sep] ++ joined base sep r
  end.

(** 59-63, 74-78 *)
Definition render_line (project : bytes) (l : line) : stream * bytes :=
  match l with
  | (None, Fine) => (Cout, bs "default project [" ++ project ++ bs "]: license OK" ++ endl)
  | (None, Problem d) => (Cerr, bs "default project [" ++ project ++ bs "]:" ++ d ++ endl)
  | (Some s, Fine) => (Cout, bs "project [" ++ s ++ bs "]: license OK" ++ endl)
  | (Some s, Problem d) => (Cerr, bs "project [" ++ s ++ bs "]" ++ d ++ endl)
  end.

(** 88-161 *)
Definition render (project : bytes) (i : item) : list (stream * bytes) :=
  match i with
  | IdLine name (Some id) => [(Cout, name ++ bs ":" ++ id ++ endl)]
  | IdLine name None => [(Cout, name ++ bs ": NA" ++ endl)]
  | EnvLines v d c =>
      [(Cout, bs "Virtualiz. class :" ++ v ++ endl); (Cout, bs "Virtualiz. detail:" ++ d ++ endl); (Cout, bs "Cloud provider   :" ++ c ++ endl)]
  | AdapterLines id name ip mac =>
      [(Cout, bs "Network adapter [" ++ print_num 10 id ++ bs "]: " ++ name ++ endl);
       (Cout, bs "   ip address [" ++ joined 10 "-"%char ip ++ bs "]" ++ endl);
       (Cout, bs "   mac address [" ++ joined 16 ":"%char mac ++ bs "]" ++ endl)]
  | NoAdapters r => [(Cout, bs "problem in getting adapter informations:" ++ print_num 10 (func_ret_value r) ++ endl)]
  | CpuLines vendor brand hyp model =>
      [(Cout, bs "Cpu Vendor       :" ++ vendor ++ endl); (Cout, bs "Cpu Brand        :" ++ brand ++ endl);
       (Cout, bs "Cpu hypervisor   :" ++ print_num 10 (if hyp then 1 else 0)%N ++ endl);
       (Cout, bs "Cpu model        :0x" ++ print_num 16 model ++ endl)]
  | DmiLines bv bd sv cm cores =>
      [(Cout, bs "Bios vendor      :" ++ bv ++ endl); (Cout, bs "Bios description :" ++ bd ++ endl); (Cout, bs "System vendor    :" ++ sv ++ endl);
       (Cout, bs "Cpu Vendor (dmi) :" ++ cm ++ endl); (Cout, bs "Cpu Cores  (dmi) :" ++ print_num 10 cores ++ endl)]
  | Separator => [(Cout, bs "==================" ++ endl)]
  | LicenseLines ls => map (render_line project) ls
  | FileNotFound path => [(Cerr, bs "license file :" ++ path ++ bs " not found." ++ endl)]
  | VarValue v => [(Cout, bs "environment variable [" ++ LICENSE_LOCATION_VAR ++ bs "] value [" ++ v ++ bs "]" ++ endl)]
  | VarUndefined => [(Cout, bs "environment variable [" ++ LICENSE_LOCATION_VAR ++ bs "] configured but not defined." ++ endl)]
  end.
(** the characters on one of the two streams *)
Definition on_stream (s : stream) (l : list (stream * bytes)) : bytes :=
  flat_map (fun p => match s, fst p with Cout, Cout | Cerr, Cerr => snd p | _, _ => [] end) l.
(** 84-162: standard output and standard error of the program; it ends with status 0 *)
Definition inspector_program (w : world) (g : nat -> leftovers) (buf : bytes) (args : list bytes) : M (bytes * bytes) :=
  items <~ inspector_main w g buf args ;;
  let l := flat_map (render (w_project w)) items in
  mret (on_stream Cout l, on_stream Cerr l).
