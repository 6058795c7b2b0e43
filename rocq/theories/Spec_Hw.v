(** What belongs to a machine: its network addresses and disks, and the data an
    identifier may be derived from. *)
From Verif Require Import Base HwId Registry Network Disks Strategies Spec_Disks Spec_Listing.
From Coq Require Import Permutation.

(** Everything getifaddrs reports about the interface [n], loopback entries and
    entries without an address aside, in order. Of a name 1025 characters count. *)
Fixpoint heard (n : bytes) (l : list ifaddr) : list sockaddr :=
  match l with
  | [] => []
  | i :: r =>
      match ifa_addr i with
      | Some sa => if negb (ifa_loopback i) && beqb (firstn 1025 (cstr (ifa_name i))) n then sa :: heard n r else heard n r
      | None => heard n r
      end
  end.

(** The last MAC address and the last IPv4 address among them (zero if none). *)
Fixpoint last_mac (l : list sockaddr) (m : mac6) : mac6 :=
  match l with
  | [] => m
  | SaPacket true m' :: r => last_mac r m'
  | _ :: r => last_mac r m
  end.
Fixpoint last_ip (l : list sockaddr) (i : N) : N :=
  match l with
  | [] => i
  | SaInet i' :: r => last_ip r i'
  | _ :: r => last_ip r i
  end.
(** the four bytes of an s_addr, in memory order (little endian machine) *)
Definition ip_bytes (i : N) : ipv4 :=
  Ip (ascii_of_N (i mod 256)) (ascii_of_N (i / 256 mod 256))
     (ascii_of_N (i / 65536 mod 256)) (ascii_of_N (i / 16777216 mod 256)).

Definition iface_mac (l : list ifaddr) (n : bytes) : mac6 := last_mac (heard n l) mac_zero.
Definition iface_ip (l : list ifaddr) (n : bytes) : ipv4 := ip_bytes (last_ip (heard n l) 0).

(** The data (7 bytes) of which the machine [m] can show the origin, by strategy
    number: 0 = MAC address, 1 = IP address, 2 = disk. *)
Inductive own (m : machine) : Z -> data7 -> Prop :=
| own_mac l n a b c d e f : hw_ifaddrs m = Some l -> heard n l <> [] ->
    iface_mac l n = Mac a b c d e f -> ~ (a = NUL /\ b = NUL /\ c = NUL /\ d = NUL /\ e = NUL /\ f = NUL) ->
    own m 0 (D7 NUL a b c d e f)
| own_ip l n a b c d : hw_ifaddrs m = Some l -> heard n l <> [] ->
    iface_ip l n = Ip a b c d -> ~ (a = NUL /\ b = NUL /\ c = NUL /\ d = NUL) ->
    own m 1 (D7 NUL a b c d "*" "*")
| own_serial disks dk : disks_of (hw_disks m) = Ok (FUNC_RET_OK, disks) -> In dk disks ->
    dk_sn_init dk = true ->
    own m 2 (let b i := nth i (dk_sn dk) NUL in D7 (b 0) (b 1) (b 2) (b 3) (b 4) (b 5) (b 6))
| own_label disks dk lab : disks_of (hw_disks m) = Ok (FUNC_RET_OK, disks) -> In dk disks ->
    dk_label_init dk = true -> dk_label dk = Some lab ->
    own m 2 (let b i := nth i (cstr lab) NUL in D7 (b 0) (b 1) (b 2) (b 3) (b 4) (b 5) NUL).

(** The iteration order of the adapters is some reordering. *)
Definition order_ok (m : machine) : Prop := forall l, Permutation (hw_order m l) l.

(** Same hardware; the adapters may be iterated in another order. *)
Definition same_hardware (m m' : machine) : Prop :=
  hw_ifaddrs m' = hw_ifaddrs m /\ hw_disks m' = hw_disks m /\ hw_exec m' = hw_exec m.
