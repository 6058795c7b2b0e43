(** The texts of the inspector, for C95. *)
From Verif Require Import Base CTypes StringUtils Network Disks CpuInfo ExecEnv Strategies Locate Licensecc Inspector.
From Verif Require Import Spec_Exec Spec_Cpu Spec_Hw.
Local Open Scope N_scope.

(** [s] is the number [n] written in base [b], without leading zeros *)
Definition numeral (b n : N) (s : bytes) : Prop :=
  exists ds : list N, ds <> [] /\ Forall (fun d => d < b) ds /\ (hd 0 ds = 0 -> ds = [0]) /\
    fold_left (fun a d => a * b + d) ds 0 = n /\
    s = map (fun d => nth (N.to_nat d) (bs "0123456789abcdef") NUL) ds.

(** one line: its label, its text *)
Definition row (label : string) (text : bytes) : bytes := bs label ++ text ++ [LF].
(** an identifier, if there is one *)
Definition id_row (strategy : string) (id : option bytes) : bytes :=
  match id with Some id => row strategy (bs ":" ++ id) | None => row strategy (bs ": NA") end.

(** the three lines of an interface: the octets of the IP address in decimal, from the last to
    the first; those of the MAC address in hexadecimal *)
Definition interface_rows (l : list ifaddr) (name text : bytes) : Prop :=
  exists a b c d p q r s u v,
    iface_ip l name = Ip a b c d /\ iface_mac l name = Mac p q r s u v /\
    exists ta tb tc td tp tq tr ts tu tv,
    numeral 10 (code a) ta /\ numeral 10 (code b) tb /\ numeral 10 (code c) tc /\ numeral 10 (code d) td /\
    numeral 16 (code p) tp /\ numeral 16 (code q) tq /\ numeral 16 (code r) tr /\ numeral 16 (code s) ts /\ numeral 16 (code u) tu /\ numeral 16 (code v) tv /\
    text = row "Network adapter [0]: " (firstn 1024 name) ++
           row "   ip address [" (td ++ bs "-" ++ tc ++ bs "-" ++ tb ++ bs "-" ++ ta ++ bs "]") ++
           row "   mac address [" (tp ++ bs ":" ++ tq ++ bs ":" ++ tr ++ bs ":" ++ ts ++ bs ":" ++ tu ++ bs ":" ++ tv ++ bs "]").
(** all interfaces, in any order *)
Definition network_rows (m : machine) (text : bytes) : Prop :=
  match hw_ifaddrs m with
  | None => text = row "problem in getting adapter informations:" (bs "2")
  | Some l =>
      (forall n, heard n l = []) /\ text = row "problem in getting adapter informations:" (bs "1") \/
      exists names texts, names <> [] /\ NoDup names /\ (forall n, In n names <-> heard n l <> []) /\
        Forall2 (interface_rows l) names texts /\ text = concat texts
  end.

(** the processor *)
Definition cpu_rows (c : cpu) (text : bytes) : Prop :=
  exists vendor brand flag model,
    (answers32 c -> r_eax (c 0) <> 0 -> spells vendor [r_ebx (c 0); r_edx (c 0); r_ecx (c 0)]) /\
    (forall name, called c name -> brand = if Nat.leb (length name) 32 then bs "NA" else name) /\
    (flag = bs "0" \/ flag = bs "1") /\ (answers32 c -> (flag = bs "1" <-> supports c 1 /\ 2147483648 <= r_ecx (c 1))) /\
    (exists n, numeral 16 n model /\ (supports c 1 -> forall i, N.testbit n i =
       ((i <? 14) && N.testbit (r_eax (c 1)) i) || ((13 <=? i) && (i <? 24) && N.testbit (r_eax (c 1)) (i + 2)) || ((24 <=? i) && (i <? 32) && N.testbit (r_ebx (c 1)) (i - 24)))) /\
    text = row "Cpu Vendor       :" vendor ++ row "Cpu Brand        :" brand ++ row "Cpu hypervisor   :" flag ++ row "Cpu model        :0x" model.

(** the DMI texts *)
Definition dmi_rows (x : exec_files) : bytes :=
  row "Bios vendor      :" (dmi_text x Vendor) ++ row "Bios description :" (dmi_text x Description) ++
  row "System vendor    :" (dmi_text x RawVendor) ++ row "Cpu Vendor (dmi) :" [] ++ row "Cpu Cores  (dmi) :" (bs "0").

(** one line of a report about a license file: on standard output if it is good, on
    standard error if not *)
Definition verdict_rows (project : bytes) (l : line) : bytes * bytes :=
  match l with
  | (None, Fine) => (bs "default project [" ++ project ++ bs "]: license OK" ++ [LF], [])
  | (None, Problem d) => ([], bs "default project [" ++ project ++ bs "]:" ++ d ++ [LF])
  | (Some s, Fine) => (bs "project [" ++ s ++ bs "]: license OK" ++ [LF], [])
  | (Some s, Problem d) => ([], bs "project [" ++ s ++ bs "]" ++ d ++ [LF])
  end.
Local Open Scope nat_scope.
(** about one file: what is printed on standard output and on standard error *)
Inductive file_rows (w : world) (path : bytes) : bytes -> bytes -> Prop :=
| fr_missing t : w_good w t (cstr path) = false -> file_rows w path [] (bs "license file :" ++ path ++ bs " not found." ++ [LF])
| fr_verified t leftover t1 code ls t2 : w_good w t (cstr path) = true -> inspect w leftover path t1 = Ok ((code, ls), t2) ->
    file_rows w path (flat_map (fun l => fst (verdict_rows (w_project w) l)) ls) (flat_map (fun l => snd (verdict_rows (w_project w) l)) ls).
Inductive files_rows (w : world) : list bytes -> bytes -> bytes -> Prop :=
| frs_none : files_rows w [] [] []
| frs_some p l o e o' e' : file_rows w p o e -> files_rows w l o' e' -> files_rows w (p :: l) (o ++ o') (e ++ e').
