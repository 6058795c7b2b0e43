(** Model of src/library/os/windows/network.cpp. *)
From Verif Require Import Base CTypes Disks Network.

(** <iptypes.h> IP_ADAPTER_INFO: the fields network.cpp reads. Description (132
    characters) and the address text (16 characters) are arrays that hold a C string;
    Address has 8 bytes. *)
Record win_adapter := {
  wa_ethernet : bool;          (* Type == MIB_IF_TYPE_ETHERNET *)
  wa_description : bytes;
  wa_addr_len : N;             (* AddressLength *)
  wa_address : bytes;          (* Address[8] *)
  wa_ip : bytes                (* IpAddressList.IpAddress.String[16] *)
}.
(** OsAdapterInfo as this file fills it (network.hpp 32-38) *)
Record os_adapter := { oa_description : bytes; oa_adapter : adapter }.

(** ipv4[index] *= 10; ipv4[index] += c - '0' on unsigned chars (network.cpp 42-43) *)
Definition add_digit (o c : ascii) : ascii := ascii_of_N ((code o * 10 + (code c - 48)) mod 256).
(** the write of network.cpp 42-43 at [index] of a four byte array *)
Definition put_digit (index : nat) (c : ascii) (ip : ipv4) : res ipv4 :=
  let '(Ip a b d e) := ip in
  match index with
  | 0 => Ok (Ip (add_digit a c) b d e)
  | 1 => Ok (Ip a (add_digit b c) d e)
  | 2 => Ok (Ip a b (add_digit d c) e)
  | 3 => Ok (Ip a b d (add_digit e c))
  | _ => Undef UbWrite
  end.
(** network.cpp 40-48: the loop of translate over the array [s] *)
Fixpoint translate_loop (s : bytes) (index : nat) (ip : ipv4) : res ipv4 :=
  match s with
  | [] => Undef UbRead
  | c :: r =>
      if Ascii.eqb c NUL then Ok ip
      else if isdigit c then ip <-- put_digit index c ip ;; translate_loop r index ip
      else translate_loop r (S index) ip
  end.
(** network.cpp 36-50, on the zeroed array of a fresh OsAdapterInfo (132) *)
Definition translate (s : bytes) : res ipv4 := translate_loop s 0 ip_zero.

(** <cctype> tolower (C locale) *)
Definition tolower (c : ascii) : ascii := if isupper c then ascii_of_N (code c + 32) else c.

(** network.cpp 55-56 *)
Definition bads : list bytes := [bs "virtual"; bs "ppp"; bs "tunnel"; bs "vpn"].
Definition goods : list bytes := [bs "realtek"; bs "intel"; bs "wireless"].
(** network.cpp 52-74: [d] is the description as a C string, so "not all zero" means not empty *)
Definition score (d : bytes) : Z :=
  let s0 := match d with [] => 0%Z | _ => 1%Z end in
  let descr := map tolower d in
  let s1 := fold_left (fun s bad => (s + if contains bad descr then -1 else 1)%Z) bads s0 in
  fold_left (fun s good => (s + if contains good descr then 1 else -1)%Z) goods s1.
(** network.cpp 76 *)
Definition cmp (a b : os_adapter) : bool := Z.ltb (score (oa_description b)) (score (oa_description a)).

(** the [i]th byte of Address *)
Definition addr_at (a : win_adapter) (i : nat) : res ascii :=
  match nth_error (wa_address a) i with Some c => Ok c | None => Undef UbRead end.
(** network.cpp 136-139: are the first [n] bytes of the address zero *)
Fixpoint all_zero (a : win_adapter) (i n : nat) : res bool :=
  match n with
  | 0 => Ok true
  | S m => c <-- addr_at a i ;; if Ascii.eqb c NUL then all_zero a (S i) m else Ok false
  end.
(** network.cpp 143: memcpy into the zeroed mac_address[6] *)
Definition copied (a : win_adapter) (n : nat) : mac6 :=
  let b i := if Nat.ltb i n then nth i (wa_address a) NUL else NUL in
  Mac (b 0) (b 1) (b 2) (b 3) (b 4) (b 5).
(** network.cpp 131-149: one adapter of the list; strncpy copies at most 128 characters *)
Definition one_adapter (a : win_adapter) : res (list os_adapter) :=
  if wa_ethernet a then
    if N.ltb 0 (wa_addr_len a) then
      let n := N.to_nat (N.min 6 (wa_addr_len a)) in
      z <-- all_zero a 0 n ;;
      if z then Ok []
      else
        ip <-- translate (wa_ip a) ;;
        Ok [{| oa_description := firstn 128 (cstr (wa_description a));
               oa_adapter := {| ad_mac := copied a n; ad_ip := ip |} |}]
    else Ok []
  else Ok [].
(** network.cpp 129-151 *)
Fixpoint walk_adapters (l : list win_adapter) : res (list os_adapter) :=
  match l with
  | [] => Ok []
  | a :: r => x <-- one_adapter a ;; y <-- walk_adapters r ;; Ok (x ++ y)
  end.

(** What GetAdaptersInfo answers: NO_ERROR and a list with at least one node,
    ERROR_BUFFER_OVERFLOW, or another error, in which case the buffer is not written. *)
Inductive adapters_answer := GaOk (first : win_adapter) (others : list win_adapter) | GaOverflow | GaError.
(** The calls made: does the first allocation succeed, the first answer, does the second
    allocation succeed, the second answer. *)
Record win_net := { wn_alloc1 : bool; wn_first : adapters_answer; wn_alloc2 : bool; wn_second : adapters_answer }.

(** network.cpp 129-162 once the buffer holds the list; [sort] is std::sort with cmp *)
Definition adapters_found (sort : list os_adapter -> list os_adapter) (l : list win_adapter) : res (func_ret * list os_adapter) :=
  t <-- walk_adapters l ;;
  match t with
  | [] => Ok (FUNC_RET_NOT_AVAIL, [])
  | _ => Ok (FUNC_RET_OK, sort t)
  end.
(** network.cpp 83-163. An error of the first call other than the overflow is ignored:
    the buffer is walked as it was allocated. *)
Definition win_adapter_infos (sort : list os_adapter -> list os_adapter) (w : win_net) : res (func_ret * list os_adapter) :=
  if wn_alloc1 w then
    match wn_first w with
    | GaOk a r => adapters_found sort (a :: r)
    | GaError => Undef UbUninit
    | GaOverflow =>
        if wn_alloc2 w then
          match wn_second w with
          | GaOk a r => adapters_found sort (a :: r)
          | GaOverflow => Ok (FUNC_RET_BUFFER_TOO_SMALL, [])
          | GaError => Ok (FUNC_RET_ERROR, [])
          end
        else Ok (FUNC_RET_BUFFER_TOO_SMALL, [])
    end
  else Ok (FUNC_RET_ERROR, []).
