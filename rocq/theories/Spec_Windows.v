(** A Windows machine: its drives, adapters and what an identifier may be derived from. *)
From Verif Require Import Base HwId Network Disks Strategies Shared CpuInfo ExecEnv Spec_Exec WinSmbios WinNetwork Spec_WinNet WinMachine.
From Coq Require Import Permutation.

(** the volumes that count: fixed drives among the first 40 that can be read *)
Definition volumes (l : list drive) : list (drive * volume) :=
  flat_map (fun d => match dr_fixed d, dr_volume d with true, Some v => [(d, v)] | _, _ => [] end) (firstn 40 l).
Definition machine_volumes (m : win_machine) : list (drive * volume) := match wm_drives m with Some l => volumes l | None => [] end.
(** four bytes holding a number, lowest first *)
Definition le32_bytes (n : N) (a b c d : ascii) : Prop :=
  (n mod 4294967296 = N_of_ascii a + 256 * N_of_ascii b + 65536 * N_of_ascii c + 16777216 * N_of_ascii d)%N.
Definition on_drive_c (d : drive) : Prop := exists r, dr_root d = "C"%char :: r.

(** Seven bytes of which a Windows machine can show the origin, by strategy number: 0 = MAC
    address and 1 = IP address of a usable adapter, 2 = serial number or file system name
    of a volume. *)
Inductive win_own (m : win_machine) : Z -> data7 -> Prop :=
| wo_mac l w a b c d e f : delivers (wm_net m) l -> In w l -> usable w = true -> mac w = Mac a b c d e f ->
    win_own m 0 (D7 NUL a b c d e f)
| wo_ip l w a b c d : delivers (wm_net m) l -> In w l -> usable w = true -> sound w (Ip a b c d) ->
    ~ (a = NUL /\ b = NUL /\ c = NUL /\ d = NUL) -> win_own m 1 (D7 NUL a b c d "*" "*")
| wo_serial dr v a b c d : In (dr, v) (machine_volumes m) -> le32_bytes (vo_serial v) a b c d ->
    win_own m 2 (D7 a b c d NUL NUL NUL)
| wo_file_system dr v : In (dr, v) (machine_volumes m) ->
    win_own m 2 (let b i := nth i (cstr (vo_file_system v)) NUL in D7 (b 0) (b 1) (b 2) (b 3) (b 4) (b 5) NUL).

(** the system delivers its adapters, with addresses in dotted decimal; std::sort sorts *)
Definition healthy (m : win_machine) : Prop :=
  std_sort cmp (wm_sort m) /\ exists l, delivers (wm_net m) l /\ Forall (fun a => exists ip, sound a ip) l.
(** the same machine, asked again: the adapters may come in another order *)
Definition same_windows (m m' : win_machine) : Prop :=
  wm_drives m' = wm_drives m /\ wm_firmware m' = wm_firmware m /\ wm_cpu m' = wm_cpu m /\
  forall l l', delivers (wm_net m) l -> delivers (wm_net m') l' -> Permutation l l'.

(** What the firmware says about the machine, as texts: nothing if there is no table. *)
From Verif Require Import Spec_Smbios Spec_Cpu.
Definition or_nothing (o : option bytes) : bytes := match o with Some x => x | None => [] end.
Definition told_text (ss : list structure) (t : text_id) : bytes :=
  match t with
  | Description => or_nothing (last_told told_system ss)
  | Vendor => or_nothing (last_told told_bios ss)
  | RawVendor => or_nothing (last_told told_board ss)
  end.
Definition firmware_tells (f : firmware) (text : text_id -> bytes) : Prop :=
  ((fw_size f = 0 \/ fw_table f = None) /\ forall t, text t = []) \/
  (exists ss delivery, delivered ss delivery /\ fw_table f = Some delivery /\ fw_size f = length delivery /\
     Forall well_formed ss /\ Forall complete ss /\ ~ Exists bad_reference ss /\ forall t, text t = told_text ss t).
(** the conclusions: as on Linux (Spec_Exec), from other texts *)
Definition row_in (text : text_id -> bytes) (row : cloud * list (text_id * string)) : Prop :=
  exists t w, In (t, w) (snd row) /\ has (bs w) (text t).
Definition cloud_in (text : text_id -> bytes) (c : cloud) : Prop :=
  (exists before row after, cloud_words = before ++ row :: after /\ row_in text row /\ fst row = c /\ forall r, In r before -> ~ row_in text r) \/
  (c = PROV_UNKNOWN /\ forall r, In r cloud_words -> ~ row_in text r).
Definition some_cloud_in (text : text_id -> bytes) : Prop := exists c, cloud_in text c /\ c <> ON_PREMISE /\ c <> PROV_UNKNOWN.
(** the processor's maker in ebx, edx, ecx of leaf 0; its name; the hypervisor bit *)
Definition made_by (c : cpu) (maker : bytes) : Prop := spells maker [r_ebx (c 0%N); r_edx (c 0%N); r_ecx (c 0%N)].
Definition named_cpu (c : cpu) (name : bytes) : Prop :=
  called c name \/ ((r_eax (c 2147483648) < 2147483652)%N /\ name = bs "NA").
Definition hypervisor_on (c : cpu) : Prop := (2147483648 <= r_ecx (c 1%N))%N.
Definition search_list (text : text_id -> bytes) (maker name : bytes) : list (list (string * virt_detail) * bytes) :=
  [(vendor_words, text Description); (vendor_words, text Vendor); (vendor_words, text RawVendor); (cpu_words, maker); (cpu_words, name)].
Definition detail_in (text : text_id -> bytes) (c : cpu) (maker name : bytes) (v : virt_detail) : Prop :=
  (exists before q after, search_list text maker name = before ++ q :: after /\ shows (fst q) (snd q) v /\ forall r v', In r before -> ~ shows (fst r) (snd r) v') \/
  ((forall r v', In r (search_list text maker name) -> ~ shows (fst r) (snd r) v') /\
   ((v = V_OTHER /\ (hypervisor_on c \/ some_cloud_in text)) \/ (v = BARE_TO_METAL /\ ~ hypervisor_on c /\ ~ some_cloud_in text))).
Definition table_orders (m : win_machine) : Prop :=
  (forall l, Permutation (wm_vendor_order m l) l) /\ (forall l, Permutation (wm_cpu_order m l) l).

(** Which origin a generated identifier has: the first volume on drive C, or the first one
    if there is none there; a usable adapter of the highest rank, for the IP address among
    those with an address that is not zero. *)
Definition chosen_volume (m : win_machine) (d : drive) (v : volume) : Prop :=
  (exists before after, machine_volumes m = before ++ (d, v) :: after /\ on_drive_c d /\ forall q, In q before -> ~ on_drive_c (fst q)) \/
  ((forall q, In q (machine_volumes m) -> ~ on_drive_c (fst q)) /\ exists r, machine_volumes m = (d, v) :: r).
Definition zero_ip (ip : ipv4) : Prop := ip = Ip NUL NUL NUL NUL.
Definition has_address (w : win_adapter) : Prop := exists ip, sound w ip /\ ~ zero_ip ip.
Definition best_among (m : win_machine) (good : win_adapter -> Prop) (w : win_adapter) : Prop :=
  exists l, delivers (wm_net m) l /\ In w l /\ usable w = true /\ good w /\
    forall w' i j, In w' l -> usable w' = true -> good w' -> rank (description w) i -> rank (description w') j -> (j <= i)%Z.
