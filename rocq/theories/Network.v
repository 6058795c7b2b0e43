(** Model of src/library/os/linux/network.cpp and the adapter data of
    src/library/os/network.hpp. *)
From Verif Require Import Base CTypes.

(** os/network.hpp 36-37: unsigned char mac_address[6], ipv4_address[4] *)
Inductive mac6 := Mac (a b c d e f : ascii).
Inductive ipv4 := Ip (a b c d : ascii).
(** os/linux/network.cpp 68-69: a fresh OsAdapterInfo is zeroed *)
Definition mac_zero := Mac NUL NUL NUL NUL NUL NUL.
Definition ip_zero := Ip NUL NUL NUL NUL.

(** os/network.hpp OsAdapterInfo (only the fields the library reads) *)
Record adapter := { ad_mac : mac6; ad_ip : ipv4 }.

(** One node of the list returned by getifaddrs(3). *)
Inductive sockaddr :=
| SaInet (s_addr : N)                       (* AF_INET: the 32-bit s_addr as loaded *)
| SaPacket (has_data : bool) (ll : mac6)    (* AF_PACKET, ifa_data non-null, first 6 bytes of sll_addr *)
| SaOther.
(** <ifaddrs.h> struct ifaddrs: the fields read by os/linux/network.cpp *)
Record ifaddr := { ifa_name : bytes; ifa_loopback : bool; ifa_addr : option sockaddr }.

(** network.cpp 84-98 *)
Definition update_adapter (sa : sockaddr) (a : adapter) : adapter :=
  match sa with
  | SaInet i =>
      {| ad_mac := ad_mac a;
         ad_ip := Ip (ascii_of_N (N.land i 255))
                     (ascii_of_N (N.shiftr (N.land i 65280) 8))
                     (ascii_of_N (N.shiftr (N.land i 16711680) 16))
                     (ascii_of_N (N.shiftr (N.land i 4278190080) 24)) |}
  | SaPacket true m => {| ad_mac := m; ad_ip := ad_ip a |}
  | _ => a
  end.

(** adapterByName (an unordered_map) as an association list in insertion order *)
Fixpoint upsert (name : bytes) (sa : sockaddr) (m : list (bytes * adapter)) : list (bytes * adapter) :=
  match m with
  | [] => [(name, update_adapter sa {| ad_mac := mac_zero; ad_ip := ip_zero |})]
  | (n, a) :: r => if beqb n name then (n, update_adapter sa a) :: r else (n, a) :: upsert name sa r
  end.

(** network.cpp 63: at most LCC_ADAPTER_DESCRIPTION_LEN (NI_MAXHOST = 1025) characters *)
Definition if_name (i : ifaddr) : bytes := firstn 1025 (cstr (ifa_name i)).

(** network.cpp 59-101 *)
Definition collect_adapters (l : list ifaddr) : list (bytes * adapter) :=
  fold_left (fun m i =>
    match ifa_addr i with
    | None => m
    | Some sa => if ifa_loopback i then m else upsert (if_name i) sa m
    end) l [].

(** FUNCTION_RETURN, base/base.h *)
Inductive func_ret := FUNC_RET_OK | FUNC_RET_NOT_AVAIL | FUNC_RET_ERROR | FUNC_RET_BUFFER_TOO_SMALL.

(** network.cpp 46-115. [None] = getifaddrs failed; [order] = iteration order of
    the unordered_map. *)
Definition get_adapter_infos (order : list (bytes * adapter) -> list (bytes * adapter))
           (ifs : option (list ifaddr)) : func_ret * list adapter :=
  match ifs with
  | None => (FUNC_RET_ERROR, [])
  | Some l =>
      match collect_adapters l with
      | [] => (FUNC_RET_NOT_AVAIL, [])
      | m => (FUNC_RET_OK, map snd (order m))
      end
  end.
