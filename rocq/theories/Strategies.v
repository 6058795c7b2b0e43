(** Model of src/library/hw_identifier/{identification_strategy, ethernet,
    disk_strategy, default_strategy, hw_identifier_facade}.cpp. *)
From Verif Require Import Base CTypes StringUtils HwId Registry Network Disks ExecEnv.

(** Everything the identification strategies read from the machine.
    [hw_order] is the iteration order of adapterByName. *)
Record machine := {
  hw_ifaddrs : option (list ifaddr);
  hw_order : list (bytes * adapter) -> list (bytes * adapter);
  hw_disks : disk_env;
  hw_exec : exec_files
}.

(** A std::unique_ptr<IdentificationStrategy> by dynamic type *)
Inductive strategy := StDefault | StEthernet (use_ip : bool) | StDisk.

(** identification_strategy.cpp 35-54 *)
Definition get_strategy (s : Z) : res strategy :=
  if Z.eqb s STRATEGY_DEFAULT then Ok StDefault
  else if Z.eqb s STRATEGY_ETHERNET then Ok (StEthernet false)
  else if Z.eqb s STRATEGY_IP_ADDRESS then Ok (StEthernet true)
  else if Z.eqb s STRATEGY_DISK then Ok StDisk
  else Throw ExLogic.

(** ethernet.cpp 65-67, disk_strategy.cpp 61-63, default_strategy.cpp 42 *)
Definition identification_strategy (s : strategy) : Z :=
  match s with
  | StDefault => STRATEGY_DEFAULT
  | StEthernet false => STRATEGY_ETHERNET
  | StEthernet true => STRATEGY_IP_ADDRESS
  | StDisk => STRATEGY_DISK
  end.

(** ethernet.cpp 38-41: all_zero *)
Definition is_zero (c : ascii) : bool := Ascii.eqb c NUL.
Definition mac_is_zero (m : mac6) : bool :=
  let '(Mac a b c d e f) := m in
  is_zero a && is_zero b && is_zero c && is_zero d && is_zero e && is_zero f.
Definition ip_is_zero (i : ipv4) : bool :=
  let '(Ip a b c d) := i in is_zero a && is_zero b && is_zero c && is_zero d.

(** ethernet.cpp 35-55, one adapter: skipped when all zero, else byte 0 is 0, the
    address follows, the rest is filled with 42. *)
Definition adapter_data (use_ip : bool) (a : adapter) : option data7 :=
  if use_ip then
    if ip_is_zero (ad_ip a) then None
    else let '(Ip i0 i1 i2 i3) := ad_ip a in Some (D7 NUL i0 i1 i2 i3 "*"%char "*"%char)
  else
    if mac_is_zero (ad_mac a) then None
    else let '(Mac m0 m1 m2 m3 m4 m5) := ad_mac a in Some (D7 NUL m0 m1 m2 m3 m4 m5).

(** ethernet.cpp 34-56: the loop over the adapters, with continue *)
Fixpoint filter_map {A B} (f : A -> option B) (l : list A) : list B :=
  match l with
  | [] => []
  | a :: r => match f a with Some b => b :: filter_map f r | None => filter_map f r end
  end.

(** ethernet.cpp 22-59 *)
Definition generate_ethernet_pc_id (use_ip : bool) (m : machine) : func_ret * list data7 :=
  match get_adapter_infos (hw_order m) (hw_ifaddrs m) with
  | (FUNC_RET_OK, []) => (FUNC_RET_NOT_AVAIL, [])
  | (FUNC_RET_OK, ads) => (FUNC_RET_OK, filter_map (adapter_data use_ip) ads)
  | (r, _) => (r, [])
  end.

(** disk_strategy.cpp 15-22: the first 7 of the 8 serial bytes *)
Definition generate_id_by_sn (d : disk) : data7 :=
  let b i := nth i (dk_sn d) NUL in D7 (b 0) (b 1) (b 2) (b 3) (b 4) (b 5) (b 6).

(** disk_strategy.cpp 24-28: strncpy of 6 characters, zero padded, byte 6 zero *)
Definition generate_id_by_label (lab : bytes) : data7 :=
  let l := cstr lab in
  let b i := nth i l NUL in D7 (b 0) (b 1) (b 2) (b 3) (b 4) (b 5) NUL.

(** disk_strategy.cpp 44-53, one disk *)
Definition disk_data (d : disk) : res (list data7) :=
  let by_sn := if dk_sn_init d then [generate_id_by_sn d] else [] in
  if dk_label_init d then
    match dk_label d with
    | None => Undef UbUninit
    | Some lab => Ok (by_sn ++ [generate_id_by_label lab])
    end
  else Ok by_sn.

(** disk_strategy.cpp 43-54: the loop over the disks of one preference *)
Fixpoint disks_data (l : list disk) : res (list data7) :=
  match l with
  | [] => Ok []
  | d :: r => x <-- disk_data d ;; y <-- disks_data r ;; Ok (x ++ y)
  end.

(** disk_strategy.cpp 30-57 *)
Definition generate_disk_pc_id (m : machine) : res (func_ret * list data7) :=
  '(r, disks) <-- get_disk_infos (hw_disks m) ;;
  match r with
  | FUNC_RET_OK =>
      match disks with
      | [] => Ok (FUNC_RET_NOT_AVAIL, [])
      | _ =>
          pref <-- disks_data (filter dk_preferred disks) ;;
          others <-- disks_data (filter (fun d => negb (dk_preferred d)) disks) ;;
          let v := pref ++ others in
          Ok (match v with [] => FUNC_RET_NOT_AVAIL | _ => FUNC_RET_OK end, v)
      end
  | _ => Ok (r, [])
  end.

(** ethernet.cpp 75-80 and disk_strategy.cpp 71-76: one identifier *)
Definition make_id (strategy : Z) (d : data7) : res hwid :=
  h <-- set_identification_strategy strategy hw_empty ;; Ok (set_data d h).

(** ethernet.cpp 75-80 and disk_strategy.cpp 71-76 *)
Fixpoint make_ids (strategy : Z) (l : list data7) : res (list hwid) :=
  match l with
  | [] => Ok []
  | d :: r => h <-- make_id strategy d ;; hs <-- make_ids strategy r ;; Ok (h :: hs)
  end.

(** ethernet.cpp 69-83 and disk_strategy.cpp 65-79. DefaultStrategy::
    alternative_ids (default_strategy.cpp 58-69) passes iterators of another
    vector to insert; no caller reaches it. *)
Definition alternative_ids (s : strategy) (m : machine) : res (list hwid) :=
  match s with
  | StDefault => Undef UbRead
  | StEthernet use_ip =>
      match generate_ethernet_pc_id use_ip m with
      | (FUNC_RET_OK, data) => make_ids (identification_strategy s) data
      | _ => Ok []
      end
  | StDisk =>
      '(r, data) <-- generate_disk_pc_id m ;;
      match r with
      | FUNC_RET_OK => make_ids (identification_strategy s) data
      | _ => Ok []
      end
  end.

(** identification_strategy.cpp 10-23; default_strategy.cpp 74-77 *)
Definition validate_identifier (s : strategy) (m : machine) (id : hwid) : res event_type :=
  match s with
  | StDefault => Ok IDENTIFIERS_MISMATCH
  | _ =>
      if Z.eqb (get_identification_strategy id) (identification_strategy s) then
        ids <-- alternative_ids s m ;;
        Ok (if existsb (fun x => hw_eqb x id) ids then LICENSE_OK else IDENTIFIERS_MISMATCH)
      else Ok IDENTIFIERS_MISMATCH
  end.

(** identification_strategy.cpp 25-33 *)
Definition generate_concrete (s : strategy) (m : machine) : res (option hwid) :=
  ids <-- alternative_ids s m ;; Ok (hd_error ids).

(** licensecc_properties.h.in: LCC_*_STRATEGIES *)
Definition LCC_BARE_TO_METAL_STRATEGIES := [STRATEGY_DISK; STRATEGY_HOST_NAME; STRATEGY_NONE].
Definition LCC_VM_STRATEGIES := [STRATEGY_ETHERNET; STRATEGY_NONE].
Definition LCC_LXC_STRATEGIES := [STRATEGY_ETHERNET; STRATEGY_NONE].
Definition LCC_DOCKER_STRATEGIES := [STRATEGY_NONE].
Definition LCC_CLOUD_STRATEGIES := [STRATEGY_NONE].

(** default_strategy.cpp 16-36 *)
Definition available_strategies (m : machine) : res (list Z) :=
  e <-- make_exec_env (hw_exec m) ;;
  Ok (match virtualization e with
      | VS_CONTAINER => if is_docker e then LCC_DOCKER_STRATEGIES else LCC_LXC_STRATEGIES
      | VS_VM => if is_cloud e then LCC_CLOUD_STRATEGIES else LCC_VM_STRATEGIES
      | VS_NONE => LCC_BARE_TO_METAL_STRATEGIES
      end).

(** default_strategy.cpp 47-54: none of the lists contains STRATEGY_DEFAULT, so the
    nested strategy is always a concrete one. *)
Fixpoint try_strategies (l : list Z) (m : machine) : res (option hwid) :=
  match l with
  | [] => Ok None
  | s :: r =>
      st <-- get_strategy s ;;
      o <-- match st with StDefault => Undef UbRead | _ => generate_concrete st m end ;;
      match o with
      | Some h => Ok (Some h)
      | None => try_strategies r m
      end
  end.

(** generate_pc_id, default_strategy.cpp 44-56 and identification_strategy.cpp 25 *)
Definition generate_pc_id (s : strategy) (m : machine) : res (option hwid) :=
  match s with
  | StDefault => l <-- available_strategies m ;; try_strategies l m
  | _ => generate_concrete s m
  end.

(** hw_identifier_facade.cpp 23-35 *)
Definition validate_pc_signature (m : machine) (str_code : bytes) : res event_type :=
  let body :=
    pc_id <-- hw_of_string str_code ;;
    st <-- get_strategy (get_identification_strategy pc_id) ;;
    validate_identifier st m pc_id in
  match body with
  | Throw e => if is_logic_error e then Ok IDENTIFIERS_MISMATCH else Throw e
  | r => r
  end.

(** hw_identifier_facade.cpp 37-61; [env] = getenv("IDENTIFICATION_STRATEGY") *)
Definition generate_user_pc_signature (env : option bytes) (m : machine) (strategy : Z) : res bytes :=
  let '(strategy, use_env_var) :=
    if Z.eqb strategy STRATEGY_DEFAULT then
      match env with
      | Some (c :: r) =>
          let v := atoi (c :: r) in
          if Z.ltb v 0 || Z.ltb 3 v then (strategy, false) else (v, true)
      | _ => (strategy, false)
      end
    else (strategy, false) in
  st <-- get_strategy strategy ;;
  o <-- generate_pc_id st m ;;
  match o with
  | None => Throw ExLogic
  | Some h => hw_print (set_use_environment_var use_env_var h)
  end.
