(** Properties C29 - C36: the identifiers of a machine. *)
From Verif Require Import Base CTypes StringUtils HwId Registry Network Disks CpuInfo ExecEnv Strategies Licensecc.
From Verif Require Import P_Base Spec_Listing P_DiskList Spec_Strings Spec_Base64 P_Decode Spec_HwId P_HwId P_HwText Spec_Hw P_Hw P_Hw2 P_Listing P_Hw3.
From Coq Require Import Permutation.

(** ** Two example machines *)
(** a processor with these vendor, brand and hypervisor bit *)
Definition word_at (s : bytes) (i : nat) : N :=
  (N_of_ascii (nth i s NUL) + 256 * N_of_ascii (nth (i + 1) s NUL) + 65536 * N_of_ascii (nth (i + 2) s NUL) + 16777216 * N_of_ascii (nth (i + 3) s NUL))%N.
Definition row_at (s : bytes) (i : nat) : regs :=
  {| r_eax := word_at s i; r_ebx := word_at s (i + 4); r_ecx := word_at s (i + 8); r_edx := word_at s (i + 12) |}.
Definition some_cpu (vendor brand : bytes) (hypervisor : bool) : cpu := fun leaf =>
  if N.eqb leaf 0 then {| r_eax := 13; r_ebx := word_at vendor 0; r_edx := word_at vendor 4; r_ecx := word_at vendor 8 |}
  else if N.eqb leaf 1 then {| r_eax := 591593; r_ebx := 0; r_edx := 0; r_ecx := if hypervisor then 2147483649 else 1 |}
  else if N.eqb leaf 2147483648 then {| r_eax := 2147483656; r_ebx := 0; r_edx := 0; r_ecx := 0 |}
  else if N.eqb leaf 2147483650 then row_at brand 0
  else if N.eqb leaf 2147483651 then row_at brand 16
  else if N.eqb leaf 2147483652 then row_at brand 32
  else no_regs.
Definition no_files : exec_files :=
  {| xf_cgroup := None; xf_systemd := None; xf_sys_vendor := None; xf_modalias := None; xf_cpu := some_cpu (bs "GenuineIntel") [] false;
     xf_vendor_order := fun l => l; xf_cpu_order := fun l => l |}.
Definition disk_machine (uuid : string) : machine :=
  {| hw_ifaddrs := None; hw_order := fun l => l;
     hw_disks := {| de_by_uuid := Some [ {| de_name := bs uuid; de_ino := Some 7%Z; de_link := Some (bs "../../sda1") |} ];
                    de_by_label := None; de_by_partlabel := None; de_blkid := []; de_fstab := None |};
     hw_exec := no_files |}.
Definition net_machine (l : list ifaddr) : machine :=
  {| hw_ifaddrs := Some l; hw_order := @rev _;
     hw_disks := {| de_by_uuid := None; de_by_label := None; de_by_partlabel := None; de_blkid := []; de_fstab := None |};
     hw_exec := no_files |}.
Definition some_interfaces : list ifaddr :=
  [ {| ifa_name := bs "lo"; ifa_loopback := true; ifa_addr := Some (SaInet 16777343) |};
    {| ifa_name := bs "eth0"; ifa_loopback := false; ifa_addr := Some (SaPacket true (Mac "a" "b" "c" "d" "e" "f")) |};
    {| ifa_name := bs "wlan0"; ifa_loopback := false; ifa_addr := Some (SaInet 16842762) |};
    {| ifa_name := bs "eth0"; ifa_loopback := false; ifa_addr := Some (SaInet 33620000) |} ].
Lemma some_order : order_ok (net_machine some_interfaces).
Proof. intros l. cbn. symmetry. apply Permutation_rev. Qed.

(** ** C29: an identifier produced by identify_pc validates on the same hardware,
    whatever the iteration orders were then and are now. *)
Theorem C29_generated_id_validates :
  forall (env : option bytes) (m m' : machine) (method : Z) (buf : bytes) (size : nat) (info : bool) (buf' : bytes) (size' : nat) (x : option exec_info),
  order_ok m -> order_ok m' -> same_hardware m m' -> size <= length buf ->
  identify_pc env m method (Some buf) size info = Ok (true, Some buf', size', x) ->
  validate_pc_signature m' (cstr buf') = Ok LICENSE_OK.
Proof.
  intros env m m' z buf size info buf' size' x Ho Ho' Hs Hl H. rewrite identify_cases in H by (intros a [= <-]; exact Hl).
  destruct (Nat.ltb 19 size); [|cbn [rbind] in H; apply rbind_ok in H as [y [_ H]]; discriminate].
  destruct (generate_user_pc_signature env m z) as [id|e|u|] eqn:Eg; cbn [rbind] in H; try discriminate;
    apply rbind_ok in H as [y [_ H]]; [|discriminate].
  injection H as <- _ _. rewrite cstr_copied by (eapply generate_text, Eg). eapply (generate_validate env m m' z); eassumption.
Qed.
Print Assumptions C29_generated_id_validates.

Example C29_case : exists buf', identify_pc None (net_machine some_interfaces) 1 (Some (repeat NUL 20)) 20 false = Ok (true, Some buf', 20, None) /\
  cstr buf' = bs "ACAK-AAEB-Kio=".
Proof. eexists. split; vm_compute; reflexivity. Qed.

(** ** C30 *)
(** the iteration order of the adapter map is irrelevant *)
Theorem C30_adapter_order : forall (m m' : machine) (text : bytes), order_ok m -> order_ok m' -> same_hardware m m' ->
  validate_pc_signature m' text = validate_pc_signature m text.
Proof. exact validate_order. Qed.
Print Assumptions C30_adapter_order.

(** so is the way entries of different interfaces interleave in getifaddrs *)
Theorem C30_interleaving : forall (m m' : machine) (l l' : list ifaddr) (text : bytes), order_ok m -> order_ok m' ->
  hw_ifaddrs m = Some l -> hw_ifaddrs m' = Some l' -> hw_disks m' = hw_disks m ->
  (forall n, heard n l' = heard n l) -> validate_pc_signature m' text = validate_pc_signature m text.
Proof. exact validate_interleave. Qed.
Print Assumptions C30_interleaving.

(** new interfaces keep valid identifiers valid *)
Theorem C30_added_adapters : forall (m m' : machine) (l l' : list ifaddr) (text : bytes), order_ok m -> order_ok m' ->
  hw_ifaddrs m = Some l -> hw_ifaddrs m' = Some l' -> hw_disks m' = hw_disks m ->
  (forall n, heard n l <> [] -> heard n l' = heard n l) ->
  validate_pc_signature m text = Ok LICENSE_OK -> validate_pc_signature m' text = Ok LICENSE_OK.
Proof. exact validate_added. Qed.
Print Assumptions C30_added_adapters.

(** the order of the disks, and which of them are preferred, is irrelevant *)
Theorem C30_disk_order : forall (m m' : machine) (ds ds' : list disk) (text : bytes) (e e' : event_type),
  order_ok m -> order_ok m' -> hw_ifaddrs m' = hw_ifaddrs m ->
  disks_of (hw_disks m) = Ok (FUNC_RET_OK, ds) -> disks_of (hw_disks m') = Ok (FUNC_RET_OK, ds') ->
  (forall d, In d ds -> exists d', In d' ds' /\ same_disk d d') -> (forall d, In d ds' -> exists d', In d' ds /\ same_disk d d') ->
  validate_pc_signature m text = Ok e -> validate_pc_signature m' text = Ok e' -> e = e'.
Proof. exact validate_disks. Qed.
Print Assumptions C30_disk_order.

Example C30_case :
  (forall n, heard n (some_interfaces ++ [{| ifa_name := bs "lo2"; ifa_loopback := true; ifa_addr := Some SaOther |}]) = heard n some_interfaces) /\
  validate_pc_signature (net_machine some_interfaces) (bs "ACAK-AAEB-Kio=") = Ok LICENSE_OK.
Proof.
  split; [|vm_compute; reflexivity].
  intros n. rewrite heard_app. cbn [heard ifa_addr ifa_loopback negb andb]. apply app_nil_r.
Qed.

(** ** C31: exactly the machine's own identifiers are accepted *)
Theorem C31_accepted_iff_own : forall (m : machine) (text : bytes) (e : event_type), order_ok m -> validate_pc_signature m text = Ok e ->
  (e = LICENSE_OK \/ e = IDENTIFIERS_MISMATCH) /\
  (e = LICENSE_OK <-> exists h d, denotes text h /\ own m (strategy_bits h) d /\ data53 h = d7_53 d).
Proof. exact validate_spec. Qed.
Print Assumptions C31_accepted_iff_own.

Theorem C31_never_throws : forall (m : machine) (text : bytes) (e : exn), validate_pc_signature m text <> Throw e.
Proof. exact validate_no_throw. Qed.
Print Assumptions C31_never_throws.

(** Undefined behaviour: a text the decoder reads beyond, or an identifier of the disk
    strategy on a machine where listing the disks is undefined behaviour (see C34..C39). *)
Theorem C31_undefined_iff : forall (m : machine) (text : bytes) (u : ub), validate_pc_signature m text = Undef u <->
  (over_read (undashed text) /\ u = UbRead) \/
  (exists h, denotes text h /\ strategy_bits h = 2%Z /\ disks_of (hw_disks m) = Undef u).
Proof. exact validate_undef. Qed.
Print Assumptions C31_undefined_iff.
Theorem C31_undefined_case : forall m : machine, validate_pc_signature m (bs "AA") = Undef UbRead.
Proof. intros. apply C31_undefined_iff. left. split; [|reflexivity]. unfold over_read. cbn. repeat split; [lia|discriminate|lia]. Qed.
(** An identifier of the ethernet or ip strategy always gets a verdict: undefined
    behaviour can only come from decoding the text or reading the disks. *)
Theorem C31_network_total : forall (m : machine) (text : bytes) (h : hwid), denotes text h -> strategy_bits h <> 2%Z ->
  exists e, validate_pc_signature m text = Ok e.
Proof.
  intros m text h E H2. apply denotes_iff in E. rewrite validate_verdict, E. unfold verdict.
  destruct (get_strategy (strategy_bits h)) as [[|u|]|x|x|] eqn:Es; eauto.
  - destruct (eth_total u m) as [ids ->]. eauto.
  - apply get_strategy_num in Es. exfalso. apply H2. rewrite Es. reflexivity.
  - exfalso. clear -Es. unfold get_strategy in Es. repeat destruct (Z.eqb _ _); discriminate.
  - exfalso. clear -Es. unfold get_strategy in Es. repeat destruct (Z.eqb _ _); discriminate.
Qed.
Print Assumptions C31_network_total.

Example C31_case : validate_pc_signature (net_machine some_interfaces) (bs "AABh-YmNk-ZWY=") = Ok LICENSE_OK /\
  validate_pc_signature (net_machine some_interfaces) (bs "AABh-YmNk-ZWZ=") = Ok LICENSE_OK /\
  validate_pc_signature (net_machine some_interfaces) (bs "AABh-YmNk-ZWc=") = Ok IDENTIFIERS_MISMATCH.
Proof. repeat split; vm_compute; reflexivity. Qed.

(** ** C32 *)
Theorem C32_unsupported_rejected : forall (m : machine) (text : bytes) (h : hwid), denotes text h -> (3 <= strategy_bits h)%Z ->
  validate_pc_signature m text = Ok IDENTIFIERS_MISMATCH.
Proof. exact unsupported_validate. Qed.
Print Assumptions C32_unsupported_rejected.

Theorem C32_undecodable_rejected : forall (m : machine) (text : bytes), ~ over_read (undashed text) -> (forall h, ~ denotes text h) ->
  validate_pc_signature m text = Ok IDENTIFIERS_MISMATCH.
Proof. exact undecodable_validate. Qed.
Print Assumptions C32_undecodable_rejected.

Theorem C32_identify_unsupported : forall (env : option bytes) (m : machine) (method : Z) (buf : bytes) (size : nat) (info : bool)
    (b : bool) (buf' : option bytes) (size' : nat) (x : option exec_info),
  (method < -1 \/ 2 < method)%Z -> size <= length buf ->
  identify_pc env m method (Some buf) size info = Ok (b, buf', size', x) ->
  b = false /\ buf' = Some buf /\ size' = (if Nat.ltb size 20 then 20 else size).
Proof.
  intros env m z buf size info b buf' size' x Hz Hl H. rewrite identify_cases in H by (intros a [= <-]; exact Hl).
  rewrite unsupported_generate in H by lia. destruct (Nat.ltb_spec 19 size); destruct (Nat.ltb_spec size 20); try lia;
    cbn [rbind] in H; apply rbind_ok in H as [y [_ H]]; injection H as <- <- <- _; auto.
Qed.
Print Assumptions C32_identify_unsupported.

Example C32_case : exists h, denotes (bs "AGBh-YmNk-ZWY=") h /\ strategy_bits h = 3%Z /\
  exists x, identify_pc None (net_machine some_interfaces) 3 (Some (bs "01234567890123456789")) 20 true = Ok (false, Some (bs "01234567890123456789"), 20, Some x).
Proof. eexists. split; [apply denotes_iff; vm_compute; reflexivity|]. split; [reflexivity|]. eexists. vm_compute. reflexivity. Qed.

(** ** C33: the buffer protocol. Whatever the buffer ([size] bytes of which may be
    written), identify_pc returns, or reading the hardware is undefined. *)
Theorem C33_protocol : forall (env : option bytes) (m : machine) (method : Z) (buf : option bytes) (size : nat) (info : bool)
    (b : bool) (buf' : option bytes) (size' : nat) (x : option exec_info),
  (forall a, buf = Some a -> size <= length a) ->
  identify_pc env m method buf size info = Ok (b, buf', size', x) ->
  ((buf = None \/ size < 20) -> b = false /\ buf' = buf /\ size' = 20) /\
  (b = false -> buf' = buf) /\
  (b = true -> size' = size /\ exists a id, buf = Some a /\ buf' = Some (id ++ NUL :: skipn 15 a) /\ length id = 14 /\ nul_free id) /\
  (x <> None <-> info = true).
Proof.
  intros env m z buf size info b buf' size' x Hb H. rewrite identify_cases in H by exact Hb.
  assert (G : forall b0 b1 n0, (exists y, Ok (b0, b1, n0, if info then Some y else None) = Ok (b, buf', size', x)) ->
     b0 = b /\ b1 = buf' /\ n0 = size' /\ (x <> None <-> info = true)).
  { intros b0 b1 n0 [y E]. injection E as <- <- <- <-. repeat split; destruct info; congruence. }
  destruct buf as [a|].
  - destruct (Nat.ltb_spec 19 size) as [Hs|Hs].
    + destruct (generate_user_pc_signature env m z) as [id|e|u|] eqn:Eg; cbn [rbind] in H; try discriminate;
        apply rbind_ok in H as [y [_ H]]; destruct (G _ _ _ (ex_intro _ _ H)) as [<- [<- [<- Hx]]].
      * destruct (generate_text _ _ _ _ Eg) as [Hn Hl]. split; [intros [[=]|Hlt]; lia|]. split; [discriminate|]. split; [|exact Hx].
        intros _. split; [reflexivity|]. exists a, id. auto.
      * split; [intros [[=]|Hlt]; lia|]. split; [reflexivity|]. split; [discriminate|exact Hx].
    + cbn [rbind] in H. apply rbind_ok in H as [y [_ H]]; destruct (G _ _ _ (ex_intro _ _ H)) as [<- [<- [<- Hx]]].
      split; [auto|]. split; [reflexivity|]. split; [discriminate|exact Hx].
  - cbn [rbind] in H. apply rbind_ok in H as [y [_ H]]; destruct (G _ _ _ (ex_intro _ _ H)) as [<- [<- [<- Hx]]].
    split; [auto|]. split; [reflexivity|]. split; [discriminate|exact Hx].
Qed.
Print Assumptions C33_protocol.

(** it never throws, and writes outside the buffer nothing but what reading the
    hardware does *)
Theorem C33_never_throws : forall (env : option bytes) (m : machine) (method : Z) (buf : option bytes) (size : nat) (info : bool) (e : exn),
  (forall a, buf = Some a -> size <= length a) -> identify_pc env m method buf size info <> Throw e.
Proof. exact identify_no_throw. Qed.
Print Assumptions C33_never_throws.

Theorem C33_undefined_only_from_hardware : forall (env : option bytes) (m : machine) (method : Z) (buf : option bytes) (size : nat) (info : bool) (u : ub),
  (forall a, buf = Some a -> size <= length a) -> identify_pc env m method buf size info = Undef u ->
  generate_user_pc_signature env m method = Undef u \/ make_exec_env (hw_exec m) = Undef u.
Proof.
  intros env m z buf size info u Hb H. rewrite identify_cases in H by exact Hb.
  destruct buf as [a|]; [destruct (Nat.ltb 19 size); [destruct (generate_user_pc_signature env m z) eqn:Eg|]|]; cbn [rbind] in H; try discriminate;
    try (injection H as ->; left; congruence); destruct (make_exec_env (hw_exec m)); cbn [rbind] in H; try discriminate; injection H as ->; auto.
Qed.
Print Assumptions C33_undefined_only_from_hardware.

Example C33_case : identify_pc None (net_machine some_interfaces) 1 (Some (repeat "x"%char 21)) 21 false =
    Ok (true, Some (bs "ACAK-AAEB-Kio=" ++ NUL :: repeat "x"%char 6), 21, None) /\
  identify_pc None (net_machine some_interfaces) 1 (Some (repeat "x"%char 19)) 19 false = Ok (false, Some (repeat "x"%char 19), 20, None) /\
  identify_pc None (net_machine some_interfaces) 1 None 0 false = Ok (false, None, 20, None).
Proof. repeat split; vm_compute; reflexivity. Qed.

(** ** C34 *)
(** MAC and IP identifiers: accepted by two machines only if both have the address *)
Theorem C34_network_distinct : forall (m m' : machine) (text : bytes) (h : hwid), order_ok m -> order_ok m' ->
  denotes text h -> strategy_bits h <> 2%Z ->
  validate_pc_signature m text = Ok LICENSE_OK -> validate_pc_signature m' text = Ok LICENSE_OK ->
  exists l l' n n', hw_ifaddrs m = Some l /\ hw_ifaddrs m' = Some l' /\ heard n l <> [] /\ heard n' l' <> [] /\
    ((strategy_bits h = 0%Z /\ iface_mac l n = iface_mac l' n') \/ (strategy_bits h = 1%Z /\ iface_ip l n = iface_ip l' n')).
Proof.
  intros m m' text h Ho Ho' E H2 V V'.
  destruct (validate_spec _ _ _ Ho V) as [_ [HX _]]. destruct (HX eq_refl) as [h1 [d [E1 [O1 D1]]]]. clear HX.
  destruct (validate_spec _ _ _ Ho' V') as [_ [HX _]]. destruct (HX eq_refl) as [h2 [d' [E2 [O2 D2]]]]. clear HX.
  rewrite <- (denotes_fun _ _ _ E E1), <- (denotes_fun _ _ _ E E2) in *. clear h1 h2 E1 E2.
  assert (d = d') as <- by (eapply (own_net_inj m m'); eauto; congruence).
  set (z := strategy_bits h) in *. clearbody z. clear D1 D2.
  inversion O1 as [l n a b c dd e f Hl Hn Hm Hz|l n a b c dd Hl Hn Hm Hz| |]; subst; try congruence; inversion O2; subst; try congruence;
    do 4 eexists; (split; [eassumption|]); (split; [eassumption|]); (split; [eassumption|]); (split; [eassumption|]); [left|right]; (split; [reflexivity|congruence]).
Qed.
Print Assumptions C34_network_distinct.
Example C34_network_case : validate_pc_signature (net_machine some_interfaces) (bs "ACAK-AAEB-Kio=") = Ok LICENSE_OK /\
  validate_pc_signature (net_machine (map (fun i => {| ifa_name := ifa_name i; ifa_loopback := false; ifa_addr := ifa_addr i |}) some_interfaces)) (bs "ACAK-AAEB-Kio=") = Ok LICENSE_OK.
Proof. split; vm_compute; reflexivity. Qed.

(** Disks: the identifier of one disk is accepted on a machine whose only disk has
    another serial number: the 8th byte and the top three bits of the first are
    dropped, longer numbers are xor-folded. *)
Definition told_apart : Prop := forall (m m' : machine) (e e' : dirent) (text : bytes),
  de_by_uuid (hw_disks m) = Some [e] -> de_by_uuid (hw_disks m') = Some [e'] -> order_ok m -> order_ok m' -> de_name e <> de_name e' ->
  de_blkid (hw_disks m) = [] -> de_blkid (hw_disks m') = [] -> de_by_label (hw_disks m') = None -> de_by_partlabel (hw_disks m') = None ->
  generate_user_pc_signature None m 2 = Ok text -> validate_pc_signature m' text <> Ok LICENSE_OK.
Theorem C34_disks_refuted : ~ told_apart.
Proof.
  intros H. refine (H (disk_machine "11223344556677-88") (disk_machine "11223344556677-99") _ _ (bs "AFEi-M0RV-Znc=") eq_refl eq_refl _ _ _ eq_refl eq_refl eq_refl eq_refl _ _);
    try (intros l; reflexivity); try discriminate; vm_compute; reflexivity.
Qed.
Print Assumptions C34_disks_refuted.
Example C34_top_bits : exists text, generate_user_pc_signature None (disk_machine "11223344-55667788") 2 = Ok text /\
  validate_pc_signature (disk_machine "F1223344-55667788") text = Ok LICENSE_OK /\
  validate_pc_signature (disk_machine "12223344-55667788") text = Ok IDENTIFIERS_MISMATCH.
Proof. eexists. repeat split; vm_compute; reflexivity. Qed.
Example C34_folding : exists text, generate_user_pc_signature None (disk_machine "11223344-55667788") 2 = Ok text /\
  validate_pc_signature (disk_machine "1122334455667788-AB000000-00000000-AB") text = Ok LICENSE_OK.
Proof. eexists. repeat split; vm_compute; reflexivity. Qed.

(** ** C35 *)
(** what is generated is derived from something the machine owns ([own] excludes
    all-zero addresses); by C31 the same holds of what is accepted *)
Theorem C35_generated_own : forall (env : option bytes) (m : machine) (method : Z) (text : bytes) (h : hwid), order_ok m ->
  generate_user_pc_signature env m method = Ok text -> denotes text h ->
  exists d, own m (strategy_bits h) d /\ data53 h = d7_53 d.
Proof. exact generate_owned. Qed.
Print Assumptions C35_generated_own.

(** exactly one identifier per interface with a non-zero address *)
Theorem C35_one_per_adapter : forall (use_ip : bool) (m : machine) (l : list ifaddr) (ids : list hwid), order_ok m -> hw_ifaddrs m = Some l ->
  alternative_ids (StEthernet use_ip) m = Ok ids ->
  exists names, NoDup names /\
    (forall n, In n names <-> heard n l <> [] /\ (if use_ip then iface_ip l n <> ip_zero else iface_mac l n <> mac_zero)) /\
    Permutation (map data53 ids) (map (fun n => d7_53 (if use_ip then ip_data (iface_ip l n) else mac_data (iface_mac l n))) names).
Proof. exact eth_exactly. Qed.
Print Assumptions C35_one_per_adapter.

Theorem C35_zero_not_accepted : forall (m : machine) (text : bytes) (h : hwid), order_ok m -> denotes text h ->
  (strategy_bits h = 0%Z /\ data53 h = d7_53 (mac_data mac_zero) \/ strategy_bits h = 1%Z /\ data53 h = d7_53 (ip_data ip_zero)) ->
  validate_pc_signature m text = Ok IDENTIFIERS_MISMATCH.
Proof.
  intros m text h Ho E Hz. destruct (C31_network_total m text h E) as [e V]; [intros X; destruct Hz as [[Y _]|[Y _]]; congruence|].
  rewrite V. f_equal. destruct (validate_spec _ _ _ Ho V) as [[->| ->] [HX _]]; [|reflexivity]. exfalso.
  destruct (HX eq_refl) as [h' [d [E' [Hown Hd]]]]. rewrite <- (denotes_fun _ _ _ E E') in *. clear h' E'.
  destruct Hz as [[Hs Hz]|[Hs Hz]]; rewrite Hs in Hown; rewrite Hd in Hz; inversion Hown; subst; cbn [d7_53 mac_data ip_data mac_zero ip_zero] in Hz;
    injection Hz as; subst; tauto.
Qed.
Print Assumptions C35_zero_not_accepted.

Example C35_case : alternative_ids (StEthernet true) (net_machine some_interfaces) =
    Ok [HwId NUL " " "010" "000" "001" "001" "*" "*"; HwId NUL " " " " "000" "001" "002" "*" "*"].
Proof. vm_compute. reflexivity. Qed.

(** ** C36 *)
Theorem C36_adapters : forall (order : list (bytes * adapter) -> list (bytes * adapter)) (l : list ifaddr) (ads : list adapter),
  (forall x, Permutation (order x) x) -> get_adapter_infos order (Some l) = (FUNC_RET_OK, ads) ->
  exists names, NoDup names /\ (forall n, In n names <-> heard n l <> []) /\
    Permutation ads (map (fun n => {| ad_mac := iface_mac l n; ad_ip := iface_ip l n |}) names).
Proof. exact adapters_exact. Qed.
Print Assumptions C36_adapters.

Theorem C36_none : forall (order : list (bytes * adapter) -> list (bytes * adapter)) (l : list ifaddr),
  (fst (get_adapter_infos order (Some l)) = FUNC_RET_OK \/ fst (get_adapter_infos order (Some l)) = FUNC_RET_NOT_AVAIL) /\
  (fst (get_adapter_infos order (Some l)) = FUNC_RET_NOT_AVAIL <-> forall n, heard n l = []).
Proof.
  intros order l. split; [|apply adapters_none]. rewrite adapters_codes. destruct (existsb _ _); auto.
Qed.
Print Assumptions C36_none.

Theorem C36_interleaving : forall (order order' : list (bytes * adapter) -> list (bytes * adapter)) (l l' : list ifaddr) (ads ads' : list adapter),
  (forall x, Permutation (order x) x) -> (forall x, Permutation (order' x) x) ->
  (forall n, heard n l' = heard n l) ->
  get_adapter_infos order (Some l) = (FUNC_RET_OK, ads) -> get_adapter_infos order' (Some l') = (FUNC_RET_OK, ads') -> Permutation ads ads'.
Proof.
  intros order order' l l' ads ads' Ho Ho' H E E'. destruct (adapters_exact _ _ _ Ho E) as [ns [N1 [I1 P1]]], (adapters_exact _ _ _ Ho' E') as [ns' [N2 [I2 P2]]].
  rewrite P1, P2. assert (Permutation ns ns') as P by (apply NoDup_Permutation; [assumption..|]; intros n; rewrite I1, I2, H; reflexivity).
  rewrite (Permutation_map (adapter_of l) P). apply Permutation_refl', map_ext. intros n. unfold adapter_of, iface_mac, iface_ip. rewrite H. reflexivity.
Qed.
Print Assumptions C36_interleaving.

Example C36_case : exists ads, get_adapter_infos (fun l => l) (Some some_interfaces) = (FUNC_RET_OK, ads) /\ length ads = 2 /\
  iface_ip some_interfaces (bs "eth0") = Ip " " "000" "001" "002" /\ iface_mac some_interfaces (bs "eth0") = Mac "a" "b" "c" "d" "e" "f" /\ heard (bs "lo") some_interfaces = [].
Proof. eexists. repeat split. Qed.
