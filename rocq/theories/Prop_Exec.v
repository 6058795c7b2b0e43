(** Properties C54 and C57: the execution environment and the default strategy. *)
From Verif Require Import Base CTypes StringUtils HwId Registry Network Disks CpuInfo ExecEnv Strategies Licensecc.
From Verif Require Import P_Base P_Strings Spec_HwId Spec_Hw P_Hw P_Hw2 P_Hw3 Spec_Disks P_Disks P_Blkid Spec_Exec P_Exec Spec_Cpu P_Cpu P_Exec2 Prop_Hw.
From Coq Require Import Permutation.

Definition real_cloud (c : cloud) : Prop := In c [GOOGLE_CLOUD; AZURE_CLOUD; AWS; ALI_CLOUD].

(** ** C54: what identify_pc reports about the environment *)
Theorem C54_summary : forall (env : option bytes) (m : machine) (z : Z) (buf : option bytes) (size : nat) (b : bool) (buf' : option bytes) (size' : nat) (i : exec_info),
  identify_pc env m z buf size true = Ok (b, buf', size', Some i) ->
  (xi_virt i = VS_CONTAINER <-> in_container (hw_exec m)) /\
  (xi_virt i = VS_VM <-> ~ in_container (hw_exec m) /\ xi_detail i <> BARE_TO_METAL) /\
  (xi_virt i = VS_NONE <-> ~ in_container (hw_exec m) /\ xi_detail i = BARE_TO_METAL) /\
  (real_cloud (xi_cloud i) -> xi_virt i = VS_VM \/ xi_virt i = VS_CONTAINER) /\ xi_cloud i <> AZURE_CLOUD.
Proof.
  intros env m z buf size b buf' size' i H. rewrite identify_pc_eq in H. apply rbind_ok in H as [[[r b1] s1] [_ H]].
  apply rbind_ok in H as [e [E H]]. injection H as _ _ _ <-. cbn [xi_virt xi_detail xi_cloud].
  destruct (exec_container _ _ E) as [Hc _]. destruct (virtualization_spec e) as [V1 [V2 V3]].
  assert (Hn : xe_container e = CT_NONE <-> ~ in_container (hw_exec m)).
  { rewrite <- Hc. destruct (xe_container e); split; try congruence; intros X; exfalso; apply X; discriminate. }
  split; [rewrite V1; exact Hc|]. split; [rewrite V2, Hn; tauto|]. split; [rewrite V3, Hn; tauto|]. split; [|apply never_azure].
  intros C. assert (K : virtualization e <> VS_NONE).
  { apply cloud_virtual. unfold is_cloud. destruct C as [C|[C|[C|[C|[]]]]]; rewrite <- C; reflexivity. }
  destruct (virtualization e); [contradiction|auto|auto].
Qed.
Print Assumptions C54_summary.

Definition kvm_files (order : list (bytes * virt_detail) -> list (bytes * virt_detail)) (vendor : string) (cgroup : option (list bytes)) : exec_files :=
  {| xf_cgroup := cgroup; xf_systemd := None; xf_sys_vendor := Some {| f_size := 256; f_data := bs vendor |}; xf_modalias := None;
     xf_cpu := some_cpu (bs "GenuineIntel") [] false; xf_vendor_order := order; xf_cpu_order := fun l => l |}.
Definition exec_machine (x : exec_files) : machine :=
  {| hw_ifaddrs := Some some_interfaces; hw_order := fun l => l;
     hw_disks := {| de_by_uuid := None; de_by_label := None; de_by_partlabel := None; de_blkid := []; de_fstab := None |}; hw_exec := x |}.
Example C54_case : identify_pc None (exec_machine (kvm_files (fun l => l) "Kvm host" None)) 0 None 0 true =
    Ok (false, None, 20, Some {| xi_cloud := PROV_UNKNOWN; xi_virt := VS_VM; xi_detail := KVM |}) /\
  identify_pc None (exec_machine (kvm_files (fun l => l) "Kvm host" (Some [bs "1:cpu:/"; bs "0::/docker/af"]))) 0 None 0 true =
    Ok (false, None, 20, Some {| xi_cloud := PROV_UNKNOWN; xi_virt := VS_CONTAINER; xi_detail := KVM |}) /\
  identify_pc None (exec_machine (kvm_files (fun l => l) "AWS x" None)) 0 None 0 true =
    Ok (false, None, 20, Some {| xi_cloud := AWS; xi_virt := VS_VM; xi_detail := V_OTHER |}).
Proof. vm_compute. auto. Qed.

(** The summary and the provider do not depend on the hash tables. *)
Theorem C54_hash_order : forall (x x' : exec_files) (e e' : exec_env), hash_orders x -> hash_orders x' -> same_readings x x' ->
  make_exec_env x = Ok e -> make_exec_env x' = Ok e' -> virtualization e = virtualization e' /\ cloud_provider e = cloud_provider e'.
Proof. exact order_summary. Qed.
Print Assumptions C54_hash_order.

(** Nor does the detail if no text names two vendors. *)
Theorem C54_hash_order_detail : forall (x x' : exec_files) (e e' : exec_env), hash_orders x -> hash_orders x' -> same_readings x x' ->
  make_exec_env x = Ok e -> make_exec_env x' = Ok e' ->
  (forall s, In s [dmi_bios_description (xe_dmi e); dmi_bios_vendor (xe_dmi e); dmi_sys_vendor (xe_dmi e)] ->
     forall v v', matches vm_vendors s v -> matches vm_vendors s v' -> v = v') ->
  (forall s, In s [xf_cpu_vendor x; xf_cpu_brand x] -> forall v v', matches virtual_cpu_names s v -> matches virtual_cpu_names s v' -> v = v') ->
  virtualization_detail e = virtualization_detail e'.
Proof. exact order_detail. Qed.
Print Assumptions C54_hash_order_detail.

(** Otherwise it does. *)
Theorem C54_detail_order_refuted : ~ (forall (x x' : exec_files) (e e' : exec_env), hash_orders x -> hash_orders x' -> same_readings x x' ->
  make_exec_env x = Ok e -> make_exec_env x' = Ok e' -> virtualization_detail e = virtualization_detail e').
Proof.
  intros H. specialize (H (kvm_files (fun l => l) "MICROSOFT KVM" None) (kvm_files (@rev _) "MICROSOFT KVM" None)).
  assert (H1 : exists e, make_exec_env (kvm_files (fun l => l) "MICROSOFT KVM" None) = Ok e /\ virtualization_detail e = HV) by (eexists; split; [vm_compute; reflexivity|vm_compute; reflexivity]).
  assert (H2 : exists e, make_exec_env (kvm_files (@rev _) "MICROSOFT KVM" None) = Ok e /\ virtualization_detail e = KVM) by (eexists; split; [vm_compute; reflexivity|vm_compute; reflexivity]).
  destruct H1 as [e [E1 D1]], H2 as [e' [E2 D2]]. specialize (H e e').
  rewrite D1, D2 in H. discriminate H; try assumption; repeat split; intros l; try reflexivity. cbn. symmetry. apply Permutation_rev.
Qed.
Print Assumptions C54_detail_order_refuted.

(** Which one: provider and summary are the ones Spec_Exec describes, and the detail is
    one that it allows. *)
Theorem C54_environment : forall (env : option bytes) (m : machine) (z : Z) (buf : option bytes) (size : nat) (b : bool) (buf' : option bytes) (size' : nat) (i : exec_info),
  hash_orders (hw_exec m) -> identify_pc env m z buf size true = Ok (b, buf', size', Some i) ->
  (forall c, xi_cloud i = c <-> cloud_found (hw_exec m) c) /\ detail_found (hw_exec m) (xi_detail i) /\ summary_found (hw_exec m) (xi_virt i).
Proof.
  intros env m z buf size b buf' size' i Ho H. rewrite identify_pc_eq in H. apply rbind_ok in H as [[[r b1] s1] [_ H]].
  apply rbind_ok in H as [e [E H]]. injection H as _ _ _ <-. cbn [xi_virt xi_detail xi_cloud].
  split; [intros c; apply cloud_spec, E|]. split; [apply detail_sound; assumption|apply summary_is; assumption].
Qed.
Print Assumptions C54_environment.
(** No more details than necessary are allowed: each is reported for some hash table. *)
Theorem C54_detail_complete : forall (x : exec_files) (v : virt_detail), ~ bad_dmi x -> detail_found x v ->
  exists x' e', same_readings x x' /\ hash_orders x' /\ make_exec_env x' = Ok e' /\ virtualization_detail e' = v.
Proof. exact detail_complete. Qed.
Print Assumptions C54_detail_complete.
(** The provider and the container are determined. *)
Theorem C54_determined : forall (x : exec_files), (exists! c, cloud_found x c) /\ (exists! c, container_found x c).
Proof.
  intros x. split.
  - exists (first_row x cloud_words). assert (F : cloud_found x (first_row x cloud_words)) by apply first_row_spec.
    split; [exact F|]. intros c. apply cloud_found_unique, F.
  - exists (get_container_type x). split; [apply container_is|]. intros c. apply container_unique, container_is.
Qed.
Print Assumptions C54_determined.
Example C54_found_case : cloud_found (kvm_files (fun l => l) "AWS x" None) AWS /\ container_found (kvm_files (fun l => l) "AWS x" (Some [bs "1:cpu:/"; bs "0::/docker/af"])) CT_DOCKER /\
  detail_found (kvm_files (fun l => l) "MICROSOFT KVM" None) KVM /\ detail_found (kvm_files (fun l => l) "MICROSOFT KVM" None) HV /\
  summary_found (kvm_files (fun l => l) "Dull corp" None) VS_NONE.
Proof.
  assert (HO : forall f v g, (forall l, Permutation (f l) l) -> hash_orders (kvm_files f v g)) by (intros f v g P; split; cbn; intros l; [apply P|reflexivity]).
  assert (MK : forall {A} (f : exec_env -> A) (v : A) x, match make_exec_env x with Ok e => f e = v | _ => False end -> exists e, make_exec_env x = Ok e /\ f e = v).
  { intros A f v x H. destruct (make_exec_env x) as [e| | |]; try contradiction. exists e. auto. }
  split; [|split; [|split; [|split]]].
  - destruct (MK _ cloud_provider AWS (kvm_files (fun l => l) "AWS x" None)) as [e [E <-]]; [vm_compute; reflexivity|]. apply (cloud_spec _ _ _ E). reflexivity.
  - destruct (MK _ xe_container CT_DOCKER (kvm_files (fun l => l) "AWS x" (Some [bs "1:cpu:/"; bs "0::/docker/af"]))) as [e [E <-]]; [vm_compute; reflexivity|]. apply (container_env _ _ _ E). reflexivity.
  - change (detail_found (kvm_files (@rev _) "MICROSOFT KVM" None) KVM).
    destruct (MK _ virtualization_detail KVM (kvm_files (@rev _) "MICROSOFT KVM" None)) as [e [E <-]]; [vm_compute; reflexivity|].
    apply detail_sound; [apply HO; intros l; symmetry; apply Permutation_rev|exact E].
  - destruct (MK _ virtualization_detail HV (kvm_files (fun l => l) "MICROSOFT KVM" None)) as [e [E <-]]; [vm_compute; reflexivity|]. apply detail_sound; [apply HO; reflexivity|exact E].
  - destruct (MK _ virtualization VS_NONE (kvm_files (fun l => l) "Dull corp" None)) as [e [E <-]]; [vm_compute; reflexivity|]. apply summary_is; [apply HO; reflexivity|exact E].
Qed.

(** Building the execution environment is undefined behaviour exactly for an empty
    (or all blank) modalias file, or a sys_vendor file of fewer than two bytes; else
    it succeeds. *)
Theorem C54_defined_iff : forall (x : exec_files),
  (bad_dmi x -> make_exec_env x = Undef UbRead) /\ (~ bad_dmi x -> exists e, make_exec_env x = Ok e).
Proof. intros x. destruct (make_exec_eq x) as [A B]. split; [exact A|]. intros H. rewrite (B H). eauto. Qed.
Print Assumptions C54_defined_iff.
Example C54_defined_case : exists e, make_exec_env no_files = Ok e.
Proof. eexists. vm_compute. reflexivity. Qed.
Theorem C54_defined_refuted : ~ (forall x, exists e, make_exec_env x = Ok e).
Proof.
  intros H. destruct (H {| xf_cgroup := None; xf_systemd := None; xf_sys_vendor := Some {| f_size := 1; f_data := [LF] |}; xf_modalias := None; xf_cpu := fun _ => no_regs;
     xf_vendor_order := fun l => l; xf_cpu_order := fun l => l |}) as [e E]. vm_compute in E. discriminate.
Qed.
Print Assumptions C54_defined_refuted.

(** ** C57: what the default strategy does. On bare metal it is the disk strategy,
    in a virtual machine outside the known clouds and in an lxc container the ethernet
    strategy; in docker and in the known clouds there is never an identifier. *)
Theorem C57_default_strategy : forall (m : machine) (default := generate_user_pc_signature None m STRATEGY_DEFAULT),
  hash_orders (hw_exec m) ->
  (bad_dmi (hw_exec m) -> default = Undef UbRead) /\
  (~ bad_dmi (hw_exec m) ->
    (container_found (hw_exec m) CT_DOCKER -> default = Throw ExLogic) /\
    (container_found (hw_exec m) CT_LXC -> default = generate_user_pc_signature None m STRATEGY_ETHERNET) /\
    (container_found (hw_exec m) CT_NONE ->
      (in_cloud (hw_exec m) -> default = Throw ExLogic) /\
      (~ in_cloud (hw_exec m) -> detail_found (hw_exec m) BARE_TO_METAL -> default = generate_user_pc_signature None m STRATEGY_DISK) /\
      (~ in_cloud (hw_exec m) -> ~ detail_found (hw_exec m) BARE_TO_METAL -> default = generate_user_pc_signature None m STRATEGY_ETHERNET))).
Proof.
  intros m default Ho. split.
  - intros B. unfold default, generate_user_pc_signature. rewrite Z.eqb_refl. change (get_strategy STRATEGY_DEFAULT) with (Ok StDefault). cbn [rbind]. unfold generate_pc_id, available_strategies. rewrite (proj1 (make_exec_eq _) B). reflexivity.
  - intros B. destruct (proj2 (C54_defined_iff _) B) as [e E]. unfold default.
    pose proof (default_is m e E) as D. change (-1)%Z with STRATEGY_DEFAULT in D. rewrite D. clear D default.
    pose proof (container_env _ _ CT_DOCKER E) as K1. pose proof (container_env _ _ CT_LXC E) as K2. pose proof (container_env _ _ CT_NONE E) as K3.
    pose proof (in_cloud_spec _ _ E) as Kc. unfold virtualization, is_container, is_docker in *.
    split; [intros H; apply K1 in H; rewrite H; reflexivity|]. split; [intros H; apply K2 in H; rewrite H; reflexivity|].
    intros H; apply K3 in H; rewrite H. rewrite detail_eqb_bare. pose proof (bare_detail _ _ Ho E) as Kb. split; [|split].
    + intros C. apply Kc in C. rewrite C, orb_true_r. reflexivity.
    + intros C F. apply Kb, bare_iff in F. rewrite F. destruct (is_cloud e); [exfalso; apply C, Kc; reflexivity|reflexivity].
    + intros C F. destruct (bare (virtualization_detail e)) eqn:Eb; [exfalso; apply F, Kb, bare_iff, Eb|]. cbn [negb orb].
      destruct (is_cloud e); [exfalso; apply C, Kc; reflexivity|reflexivity].
Qed.
Print Assumptions C57_default_strategy.

(** So identify_pc fails there whatever the hardware is. *)
Theorem C57_docker_cloud_fails : forall (m : machine) (buf : option bytes) (size : nat) (info : bool),
  hash_orders (hw_exec m) -> ~ bad_dmi (hw_exec m) -> (forall b, buf = Some b -> size <= length b) ->
  (container_found (hw_exec m) CT_DOCKER \/ container_found (hw_exec m) CT_NONE /\ in_cloud (hw_exec m)) ->
  exists size' x, identify_pc None m STRATEGY_DEFAULT buf size info = Ok (false, buf, size', x).
Proof.
  intros m buf size info Ho Hb Hl H. destruct (C57_default_strategy m Ho) as [_ D]. specialize (D Hb) as [D1 [_ D3]].
  assert (G : generate_user_pc_signature None m STRATEGY_DEFAULT = Throw ExLogic) by (destruct H as [H|[H H']]; [apply D1, H|apply (D3 H), H']).
  destruct (proj2 (C54_defined_iff _) Hb) as [e E]. rewrite identify_cases by exact Hl. rewrite E, G. destruct buf as [b|]; [destruct (Nat.ltb _ _)|]; cbn [rbind]; eauto.
Qed.
Print Assumptions C57_docker_cloud_fails.
Theorem C57_always_available_refuted : ~ (forall (m : machine) (s : bytes), generate_user_pc_signature None m STRATEGY_ETHERNET = Ok s ->
  exists s', generate_user_pc_signature None m STRATEGY_DEFAULT = Ok s').
Proof.
  intros H. set (m := exec_machine (kvm_files (fun l => l) "AWS x" None)).
  assert (E : exists s, generate_user_pc_signature None m STRATEGY_ETHERNET = Ok s) by (eexists; vm_compute; reflexivity). destruct E as [s E].
  destruct (H m s E) as [s' E']. vm_compute in E'. discriminate.
Qed.
Print Assumptions C57_always_available_refuted.
Example C57_case : generate_user_pc_signature None (exec_machine (kvm_files (fun l => l) "Kvm host" None)) STRATEGY_DEFAULT = Ok (bs "AABh-YmNk-ZWY=") /\
  generate_user_pc_signature None (exec_machine (kvm_files (fun l => l) "Kvm host" (Some [bs "0::/docker/af"]))) STRATEGY_DEFAULT = Throw ExLogic.
Proof. vm_compute. auto. Qed.

(** ** C60: the processor *)
(** The vendor is the 12 characters in ebx, edx, ecx. *)
Theorem C60_vendor : forall (c : cpu), answers32 c -> r_eax (c 0%N) <> 0%N -> spells (get_cpu_vendor c) [r_ebx (c 0%N); r_edx (c 0%N); r_ecx (c 0%N)].
Proof. exact vendor_spells. Qed.
Print Assumptions C60_vendor.
(** The brand is the processor's name, if that has more than 32 characters. *)
Theorem C60_brand : forall (c : cpu) (name : bytes), called c name -> get_cpu_brand c = (if Nat.leb (length name) 32 then bs "NA" else name).
Proof. exact brand_of. Qed.
Print Assumptions C60_brand.
Theorem C60_brand_short : forall (c : cpu), length (get_cpu_brand c) <= 48.
Proof. exact brand_length. Qed.
Print Assumptions C60_brand_short.
Theorem C60_hypervisor : forall (c : cpu), answers32 c -> is_hypervisor_set c = true <-> supports c 1 /\ (2147483648 <= r_ecx (c 1%N))%N.
Proof. exact hypervisor_bit. Qed.
Print Assumptions C60_hypervisor.
Theorem C60_model : forall (c : cpu) (i : N), supports c 1 ->
  N.testbit (cpu_model c) i = ((i <? 14)%N && N.testbit (r_eax (c 1%N)) i) || ((13 <=? i)%N && (i <? 24)%N && N.testbit (r_eax (c 1%N)) (i + 2)) || ((24 <=? i)%N && (i <? 32)%N && N.testbit (r_ebx (c 1%N)) (i - 24)).
Proof. intros c i S. rewrite model_bits. cbv zeta. rewrite (get_supported c 1 _ eq_refl S). reflexivity. Qed.
Print Assumptions C60_model.
(** A processor that does not answer: twelve NUL characters, no hypervisor and model 0. *)
Theorem C60_silent : forall (c : cpu),
  (r_eax (c 0%N) = 0%N -> get_cpu_vendor c = repeat NUL 12) /\
  (~ supports c 1 -> cpu_model c = 0%N /\ is_hypervisor_set c = false).
Proof.
  intros c. split.
  - intros H. unfold get_cpu_vendor. rewrite (get_unsupported c 0 _ eq_refl); [reflexivity|]. unfold supports. cbv zeta. change (range_of 0) with 0%N. rewrite H. intros [A _]. apply A. reflexivity.
  - intros H. unfold cpu_model, is_hypervisor_set. rewrite (get_unsupported c 1 _ eq_refl H). split; reflexivity.
Qed.
Print Assumptions C60_silent.
(** So a processor with a short name containing KVM is not recognised as virtual. *)
Lemma word_packs (s : bytes) i : i + 4 <= length s -> packs (firstn 4 (skipn i s)) (word_at s i).
Proof.
  intros H. unfold word_at. assert (E : firstn 4 (skipn i s) = [nth i s NUL; nth (i+1) s NUL; nth (i+2) s NUL; nth (i+3) s NUL]).
  { revert s H; induction i as [|i IH]; intros s H.
    - destruct s as [|a [|b [|c [|d s]]]]; cbn in H; try lia. reflexivity.
    - destruct s as [|a s]; cbn in H; [lia|]. cbn [skipn nth Nat.add]. apply IH. lia. }
  rewrite E. repeat eexists.
Qed.
Lemma word_pad (s : bytes) k i : word_at (s ++ repeat NUL k) i = word_at s i.
Proof.
  assert (G : forall j, nth j (s ++ repeat NUL k) NUL = nth j s NUL).
  { intros j. destruct (Nat.lt_ge_cases j (length s)); [apply app_nth1; assumption|]. rewrite app_nth2 by assumption. rewrite nth_repeat, nth_overflow by assumption. reflexivity. }
  unfold word_at. rewrite !G. reflexivity.
Qed.
Lemma some_cpu_called v name h : ~ In NUL name -> length name <= 48 -> called (some_cpu v name h) name.
Proof.
  intros N L. split; [split; vm_compute; discriminate|]. split; [exact N|]. split; [exact L|].
  set (s := name ++ repeat NUL (48 - length name)). assert (Ls : length s = 48) by (unfold s; rewrite app_length, repeat_length; lia).
  exists (map (fun i => firstn 4 (skipn i s)) [0;4;8;12;16;20;24;28;32;36;40;44]). split.
  - clearbody s. do 48 (destruct s as [|? s]; [discriminate|]). destruct s; [reflexivity|discriminate].
  - change (brand_words (some_cpu v name h)) with (map (fun i => word_at name i) [0;4;8;12;16;20;24;28;32;36;40;44]).
    assert (E : forall l, map (fun i => word_at name i) l = map (fun i => word_at s i) l) by (intros l; apply map_ext; intros i; symmetry; apply word_pad).
    rewrite E. cbn [map]. repeat (constructor; [apply word_packs; rewrite Ls; lia|]). constructor.
Qed.
Theorem C60_brand_recognised_refuted : ~ (forall (x : exec_files) (e : exec_env) (name : bytes), hash_orders x -> make_exec_env x = Ok e -> called (xf_cpu x) name ->
  has (bs "KVM") name -> virtualization_detail e <> BARE_TO_METAL).
Proof.
  intros H. set (x := {| xf_cgroup := None; xf_systemd := None; xf_sys_vendor := None; xf_modalias := None; xf_cpu := some_cpu (bs "GenuineIntel") (bs "Common KVM processor") false;
     xf_vendor_order := fun l => l; xf_cpu_order := fun l => l |}).
  assert (E : exists e, make_exec_env x = Ok e /\ virtualization_detail e = BARE_TO_METAL) by (eexists; split; [vm_compute; reflexivity|vm_compute; reflexivity]). destruct E as [e [E D]].
  apply (H x e (bs "Common KVM processor")); [split; reflexivity|exact E| |exists (bs "Common "), (bs " processor"); reflexivity|exact D].
  apply some_cpu_called; [|cbn; lia]. intros I. repeat (destruct I as [I|I]; [discriminate I|]). destruct I.
Qed.
Print Assumptions C60_brand_recognised_refuted.
Example C60_case : get_cpu_vendor (some_cpu (bs "GenuineIntel") [] true) = bs "GenuineIntel" /\ is_hypervisor_set (some_cpu [] [] true) = true /\
  get_cpu_brand (some_cpu [] (bs "Intel(R) Xeon(R) CPU E5-2630 v3 @ 2.40GHz") true) = bs "Intel(R) Xeon(R) CPU E5-2630 v3 @ 2.40GHz" /\
  get_cpu_brand (some_cpu [] (bs "QEMU Virtual CPU version 2.5+") true) = bs "NA" /\ cpu_model (some_cpu [] [] true) = 149225%N.
Proof. vm_compute. repeat split. Qed.

(** ** C61: the environment is examined once in the life of a process *)
(** Whatever later calls look at, all report the environment of the first; the
    identifiers are always the current ones. *)
Theorem C61_first_environment : forall (c : id_call) (l : list id_call) (rs : list (bool * option bytes * nat * option exec_info)),
  hash_orders (hw_exec (ic_machine c)) -> identify_calls None (c :: l) = Ok rs ->
  exists i, cloud_found (hw_exec (ic_machine c)) (xi_cloud i) /\ detail_found (hw_exec (ic_machine c)) (xi_detail i) /\ summary_found (hw_exec (ic_machine c)) (xi_virt i) /\
    Forall2 (fun c r => snd r = if ic_info c then Some i else None) (c :: l) rs.
Proof.
  intros c l rs Ho H. cbn [identify_calls] in H. apply rbind_ok in H as [[r e] [H1 H]]. apply rbind_ok in H as [rs' [H2 H]]. injection H as <-.
  unfold identify_call in H1. apply rbind_ok in H1 as [[[b b1] s1] [_ H1]]. apply rbind_ok in H1 as [e' [E H1]]. injection H1 as <- <-.
  exists {| xi_cloud := cloud_provider e'; xi_virt := virtualization e'; xi_detail := virtualization_detail e' |}. cbn [xi_cloud xi_detail xi_virt].
  split; [apply (cloud_spec _ _ _ E); reflexivity|]. split; [apply detail_sound; assumption|]. split; [apply summary_is; assumption|].
  constructor; [reflexivity|]. clear E Ho c b b1 s1. revert rs' H2. induction l as [|c l IH]; intros rs H; cbn [identify_calls] in H.
  - injection H as <-. constructor.
  - apply rbind_ok in H as [[r e] [H1 H]]. apply rbind_ok in H as [rs' [H2 H]]. injection H as <-.
    unfold identify_call in H1. apply rbind_ok in H1 as [[[b b1] s1] [_ H1]]. cbn [rbind] in H1. injection H1 as <- <-.
    constructor; [reflexivity|]. apply IH, H2.
Qed.
Print Assumptions C61_first_environment.
Theorem C61_current_identifier : forall (l : list id_call) (st : option exec_env) (rs : list (bool * option bytes * nat * option exec_info)),
  identify_calls st l = Ok rs ->
  Forall2 (fun c r => ~ bad_dmi (hw_exec (ic_machine c)) ->
     exists x, identify_pc (ic_env c) (ic_machine c) (ic_method c) (ic_buf c) (ic_size c) (ic_info c) = Ok (fst r, x)) l rs.
Proof.
  induction l as [|c l IH]; intros st rs H; cbn [identify_calls] in H.
  - injection H as <-. constructor.
  - apply rbind_ok in H as [[r e] [H1 H]]. apply rbind_ok in H as [rs' [H2 H]]. injection H as <-.
    unfold identify_call in H1. apply rbind_ok in H1 as [[[b b1] s1] [H0 H1]]. apply rbind_ok in H1 as [e' [E H1]]. injection H1 as <- <-.
    constructor; [|eapply IH, H2]. intros B. destruct (proj2 (C54_defined_iff _) B) as [e0 E0]. rewrite identify_pc_eq, H0, E0. cbn [rbind fst]. eauto.
Qed.
Print Assumptions C61_current_identifier.
(** A process that is moved (or whose container is) is told about the old place. *)
Definition asks (m : machine) : id_call := {| ic_env := None; ic_machine := m; ic_method := 0; ic_buf := None; ic_size := 0; ic_info := true |}.
Theorem C61_current_environment_refuted : ~ (forall (l : list id_call) (rs : list (bool * option bytes * nat * option exec_info)),
  Forall (fun c => hash_orders (hw_exec (ic_machine c))) l -> identify_calls None l = Ok rs ->
  Forall2 (fun c r => forall i, snd r = Some i -> cloud_found (hw_exec (ic_machine c)) (xi_cloud i)) l rs).
Proof.
  intros H. set (m1 := exec_machine (kvm_files (fun l => l) "AWS x" None)). set (m2 := exec_machine (kvm_files (fun l => l) "Google" None)).
  assert (E : exists i j, xi_cloud i = AWS /\ xi_cloud j = AWS /\ identify_calls None [asks m1; asks m2] = Ok [(false, None, 20, Some i); (false, None, 20, Some j)]).
  { eexists _, _. split; [|split; [|vm_compute; reflexivity]]; reflexivity. }
  destruct E as [i [j [Ei [Ej E]]]]. apply H in E; [|repeat apply Forall_cons; [split; reflexivity|split; reflexivity|constructor]].
  inversion E as [|? ? ? ? _ E']; subst. inversion E' as [|? ? ? ? X _]; subst. specialize (X j eq_refl). rewrite Ej in X.
  assert (K : exists e, make_exec_env (kvm_files (fun l => l) "Google" None) = Ok e /\ cloud_provider e = PROV_UNKNOWN) by (eexists; split; [vm_compute; reflexivity|vm_compute; reflexivity]).
  destruct K as [e [K1 K2]]. apply (cloud_spec _ _ _ K1) in X. congruence.
Qed.
Print Assumptions C61_current_environment_refuted.
