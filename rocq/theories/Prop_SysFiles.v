(** C96: what the identification of the hardware depends on. *)
From Verif Require Import Base CTypes StringUtils HwId Registry Network Disks CpuInfo ExecEnv Strategies SysFiles Locate Licensecc AcquireGen Trace HwResources.
From Verif Require Import P_Base Spec_Strings Spec_HwId Spec_Exec Spec_Acquire Spec_Repeat Spec_Faults Spec_Choice Spec_SysFiles P_Choice P_Blkid P_HwText P_HwId P_Hw2 Spec_Cpu P_Cpu P_Exec P_Exec2 Prop_Hw Prop_Exec P_Acquire1 P_Acquire2 P_Acquire3 P_Faults P_Faults2 P_AcqGen1 P_Rel Prop_WinAcquire Prop_Repeat.
From Coq Require Import Lia.

(** ** The disks *)
Lemma counts n : is_dots n || is_prefix (bs "usb") n = false <-> disk_name n.
Proof.
  unfold is_dots, disk_name. rewrite !orb_false_iff. split.
  - intros [[A B] C]. split; [|split].
    + intros ->. discriminate A.
    + intros ->. discriminate B.
    + intros H. apply is_prefix_spec in H. congruence.
  - intros [A [B C]]. split; [split|].
    + destruct (beqb n (bs ".")) eqn:E; [|reflexivity]. apply beqb_eq in E. contradiction.
    + destruct (beqb n (bs "..")) eqn:E; [|reflexivity]. apply beqb_eq in E. contradiction.
    + destruct (is_prefix (bs "usb") n) eqn:E; [|reflexivity]. apply is_prefix_spec in E. contradiction.
Qed.
Lemma dots n : is_dots n = false <-> entry_name n.
Proof.
  unfold is_dots, entry_name. rewrite orb_false_iff. split.
  - intros [A B]. split; intros ->; discriminate.
  - intros [A B]. split; [destruct (beqb n (bs ".")) eqn:E|destruct (beqb n (bs "..")) eqn:E]; try reflexivity; apply beqb_eq in E; contradiction.
Qed.
Lemma dev_loop_same s s' dir names infos m :
  (forall n, In n names -> disk_name n -> sy_inode s' (under dir n) = sy_inode s (under dir n) /\ sy_link s' (under dir n) = sy_link s (under dir n)) ->
  dev_loop (map (entry_at s' (bs dir)) names) infos m = dev_loop (map (entry_at s (bs dir)) names) infos m.
Proof.
  revert infos m. induction names as [|n names IH]; intros infos m H; [reflexivity|]. cbn [map dev_loop].
  destruct (Nat.leb _ _); [reflexivity|]. cbn [entry_at de_name de_ino de_link].
  assert (IH' : forall infos m, dev_loop (map (entry_at s' (bs dir)) names) infos m = dev_loop (map (entry_at s (bs dir)) names) infos m).
  { intros. apply IH. intros; apply H; [right; assumption|assumption]. }
  destruct (_ || _) eqn:E; [apply IH'|]. destruct (H n (or_introl eq_refl) (proj1 (counts n) E)) as [H1 H2]. unfold under in H1, H2. rewrite H1, H2.
  destruct (sy_inode s _); [|apply IH']. destruct (sy_link s _); [|apply IH']. unfold rbind. destruct (parse_uuid n); [|reflexivity..]. apply IH'.
Qed.
(** something was found or not *)
Definition counted (s : system) (dir : string) (n : bytes) : Prop := disk_name n /\ sy_inode s (under dir n) <> None /\ sy_link s (under dir n) <> None.
Lemma dev_loop_grows s dir names infos m l m' : dev_loop (map (entry_at s (bs dir)) names) infos m = Ok (l, m') -> infos <> [] -> l <> [].
Proof.
  revert infos m. induction names as [|n names IH]; intros infos m H N; [injection H as <- <-; exact N|]. cbn [map dev_loop] in H.
  destruct (Nat.leb _ _); [injection H as <- <-; exact N|]. cbn [entry_at de_name de_ino de_link] in H.
  destruct (_ || _); [eapply IH; eassumption|].
  destruct (sy_inode s _) in H; [|eapply IH; eassumption]. destruct (sy_link s _) in H; [|eapply IH; eassumption].
  apply rbind_ok in H as [sn [_ H]]. cbv zeta in H. eapply IH; [exact H|]. destruct (existsb _ _); [exact N|]. destruct infos; discriminate.
Qed.
Lemma dev_loop_found s dir names m l m' : dev_loop (map (entry_at s (bs dir)) names) [] m = Ok (l, m') ->
  (l <> [] <-> exists n, In n names /\ counted s dir n).
Proof.
  revert m. induction names as [|n names IH]; intros m H.
  - injection H as <- <-. split; [congruence|]. intros [n [[] _]].
  - cbn [map dev_loop] in H. change (Nat.leb MAX_UNITS (@length disk [])) with false in H. cbn [entry_at de_name de_ino de_link] in H.
    assert (K : ~ counted s dir n -> forall m, dev_loop (map (entry_at s (bs dir)) names) [] m = Ok (l, m') -> (l <> [] <-> exists n0, In n0 (n :: names) /\ counted s dir n0)).
    { intros C m0 H0. rewrite (IH _ H0). split; intros [n0 [I X]]; exists n0; (split; [|exact X]); [right; exact I|]. destruct I as [<-|I]; [contradiction|exact I]. }
    destruct (_ || _) eqn:E.
    { apply (K ltac:(intros [C _]; apply counts in C; congruence) m H). }
    apply counts in E. unfold counted, under in *. destruct (sy_inode s _) as [i|] eqn:Ei in H.
    2:{ apply (K ltac:(intros [_ [C _]]; congruence) m H). }
    destruct (sy_link s _) as [k|] eqn:Ek in H.
    2:{ apply (K ltac:(intros [_ [_ C]]; congruence) m H). }
    apply rbind_ok in H as [sn [_ H]]. cbn [existsb app] in H. split.
    + intros _. exists n. split; [left; reflexivity|]. split; [exact E|]. rewrite Ei, Ek. split; discriminate.
    + intros _. eapply dev_loop_grows; [exact H|discriminate].
Qed.
Lemma labels_same s s' dir names l :
  (forall n, In n names -> entry_name n -> sy_inode s' (under dir n) = sy_inode s (under dir n)) ->
  fold_left (fun acc e => if is_dots (de_name e) then acc else match de_ino e with None => acc | Some ino =>
    update_first (fun d => Z.eqb (wrap_int ino) (dk_id d)) (set_label (fit 255 (de_name e))) acc end) (map (entry_at s' (bs dir)) names) l =
  fold_left (fun acc e => if is_dots (de_name e) then acc else match de_ino e with None => acc | Some ino =>
    update_first (fun d => Z.eqb (wrap_int ino) (dk_id d)) (set_label (fit 255 (de_name e))) acc end) (map (entry_at s (bs dir)) names) l.
Proof.
  revert l. induction names as [|n names IH]; intros l H; [reflexivity|]. cbn [map fold_left entry_at de_name de_ino].
  destruct (is_dots n) eqn:E.
  - apply IH. intros; apply H; [right; assumption|assumption].
  - pose proof (H n (or_introl eq_refl) (proj1 (dots n) E)) as H1. unfold under in H1. rewrite H1. apply IH. intros; apply H; [right; assumption|assumption].
Qed.
Lemma no_labels env : read_disk_labels env [] = [].
Proof.
  unfold read_disk_labels. destruct (match de_by_label env with Some l => Some l | None => de_by_partlabel env end) as [es|]; [|reflexivity].
  induction es as [|e es IH]; [reflexivity|]. cbn [fold_left]. destruct (is_dots _); [exact IH|]. destruct (de_ino e); exact IH.
Qed.

(** The list of disks is determined by: the names in /dev/disk/by-uuid and the inodes and
    link targets of those that count; if a disk is found there, the names and inodes in
    /dev/disk/by-label, and in /dev/disk/by-partlabel only without the former; if none is
    found, the contents of /run/blkid/blkid.tab, and of /etc/blkid.tab only without the
    former; and /etc/fstab. *)
Theorem C96_disks s s' : same_disks s s' -> get_disk_infos (disks_at s') = get_disk_infos (disks_at s).
Proof.
  intros [ED [EN [EL [EP [EB [EC EF]]]]]]. unfold get_disk_infos, get_disk_infos_dev. cbn [de_by_uuid disks_at]. unfold listing. rewrite ED.
  assert (ES : set_preferred_disks (disks_at s') = set_preferred_disks (disks_at s)) by (unfold set_preferred_disks; cbn [de_fstab disks_at]; rewrite EF; reflexivity).
  rewrite ES.
  set (first := match option_map (map (entry_at s' (bs "/dev/disk/by-uuid"))) (sy_dir s (bs "/dev/disk/by-uuid")) with Some es => dev_loop es [] [] | None => Ok ([], []) end).
  assert (EQ : match option_map (map (entry_at s (bs "/dev/disk/by-uuid"))) (sy_dir s (bs "/dev/disk/by-uuid")) with Some es => dev_loop es [] [] | None => Ok ([], []) end = first).
  { unfold first. destruct (sy_dir s (bs "/dev/disk/by-uuid")) as [names|] eqn:E; [|reflexivity]. cbn [option_map]. symmetry. apply dev_loop_same. intros n I D. apply (EN names n eq_refl I D). }
  rewrite EQ. destruct first as [[infos m]|e|u|] eqn:E1; cbn [rbind]; try reflexivity.
  assert (K : infos <> [] <-> some_disk s).
  { unfold some_disk. destruct (sy_dir s (bs "/dev/disk/by-uuid")) as [names|] eqn:E; cbn [option_map] in EQ.
    - rewrite (dev_loop_found _ _ _ _ _ _ EQ). unfold counted. split; [intros [n X]; exists names, n; split; [reflexivity|exact X]|intros [ns [n [[= <-] X]]]; exists n; exact X].
    - injection EQ as <- <-. split; [congruence|]. intros [ns [n [X _]]]. discriminate X. }
  destruct infos as [|d infos].
  - rewrite !no_labels. assert (N : ~ some_disk s) by (rewrite <- K; congruence). specialize (EB N). specialize (EC N). unfold same_content in EB, EC. cbn [de_blkid disks_at first_some].
    change content with f_data. rewrite EB. destruct (sy_file s (bs "/run/blkid/blkid.tab")) as [f|]; [reflexivity|]. cbn [option_map]. rewrite EC by reflexivity. reflexivity.
  - assert (D : some_disk s) by (apply K; discriminate). destruct (EL D) as [L1 L2]. specialize (EP D).
    assert (R : forall l, read_disk_labels (disks_at s') l = read_disk_labels (disks_at s) l).
    { intros l. unfold read_disk_labels. cbn [de_by_label de_by_partlabel disks_at]. unfold listing. rewrite L1. destruct (sy_dir s (bs "/dev/disk/by-label")) as [names|]; cbn [option_map].
      - apply labels_same. intros n I X. apply (L2 names n eq_refl I X).
      - destruct (EP eq_refl) as [P1 P2]. rewrite P1. destruct (sy_dir s (bs "/dev/disk/by-partlabel")) as [names|]; cbn [option_map]; [|reflexivity]. apply labels_same. intros n I X. apply (P2 names n eq_refl I X). }
    rewrite R. reflexivity.
Qed.
Print Assumptions C96_disks.

(** ** The kind of machine *)
Lemma kind_same s s' : same_kind s s' ->
  match make_exec_env (exec_at s), make_exec_env (exec_at s') with
  | Ok e, Ok e' => cloud_provider e' = cloud_provider e /\ virtualization e' = virtualization e /\ virtualization_detail e' = virtualization_detail e /\ is_docker e' = is_docker e
  | Undef u, Undef u' => u' = u
  | Throw x, Throw x' => x' = x
  | OutOfFuel, OutOfFuel => True
  | _, _ => False
  end.
Proof.
  intros [K1 [K2 [K3 [K4 [K5 [K6 K7]]]]]].
  assert (C : get_container_type (exec_at s') = get_container_type (exec_at s)).
  { unfold get_container_type, exec_at. cbn [xf_cgroup xf_systemd]. unfold same_content, content in *.
    assert (M : forall b f, option_map (fun f => text_lines b (f_data f)) f = option_map (text_lines b) (option_map f_data f)) by (intros b [f|]; reflexivity).
    rewrite !M, K1, K2. reflexivity. }
  assert (D : read_dmi (exec_at s') = read_dmi (exec_at s)).
  { unfold read_dmi. cbn [exec_at xf_sys_vendor xf_modalias]. unfold same_first256 in K3, K4. rewrite !first256_eq. rewrite !K3, !K4. reflexivity. }
  unfold make_exec_env. rewrite C, D. destruct (read_dmi (exec_at s)) as [d|x|u|]; cbn [rbind]; try reflexivity; try exact I.
  unfold virtualization, virtualization_detail, is_container, is_docker, is_cloud, cloud_provider, xf_cpu_vendor, xf_cpu_brand, xf_hypervisor.
  cbn [xe_container xe_dmi xe_files exec_at xf_cpu xf_vendor_order xf_cpu_order]. rewrite K5, K6, K7. repeat split; reflexivity.
Qed.

(** ** Identifiers *)
Lemma adapters_same use_ip s s' : same_network s s' -> generate_ethernet_pc_id use_ip (machine_at s') = generate_ethernet_pc_id use_ip (machine_at s).
Proof. intros [E1 E2]. unfold generate_ethernet_pc_id. cbn [machine_at hw_order hw_ifaddrs]. rewrite E1, E2. reflexivity. Qed.
Lemma diskids_same s s' : same_disks s s' -> generate_disk_pc_id (machine_at s') = generate_disk_pc_id (machine_at s).
Proof. intros H. unfold generate_disk_pc_id. cbn [machine_at hw_disks]. rewrite (C96_disks _ _ H). reflexivity. Qed.
Definition enough (st : strategy) (s s' : system) : Prop := match st with StDefault => True | StEthernet _ => same_network s s' | StDisk => same_disks s s' end.
Lemma ids_same st s s' : enough st s s' -> alternative_ids st (machine_at s') = alternative_ids st (machine_at s).
Proof.
  destruct st; cbn [enough]; intros H; [reflexivity| |].
  - cbn [alternative_ids]. rewrite (adapters_same _ _ _ H). reflexivity.
  - cbn [alternative_ids]. rewrite (diskids_same _ _ H). reflexivity.
Qed.
Lemma concrete_same st s s' : enough st s s' -> generate_concrete st (machine_at s') = generate_concrete st (machine_at s).
Proof. intros H. unfold generate_concrete. rewrite (ids_same _ _ _ H). reflexivity. Qed.

(** The verdict on an identifier that denotes a network address depends on the network
    only, on one that denotes a disk on the disks only, and on no part of the machine if it
    is neither. *)
Theorem C96_validate s s' text :
  (forall h, denotes text h -> (strategy_bits h = 0 \/ strategy_bits h = 1)%Z -> same_network s s') ->
  (forall h, denotes text h -> strategy_bits h = 2%Z -> same_disks s s') ->
  validate_pc_signature (machine_at s') text = validate_pc_signature (machine_at s) text.
Proof.
  intros HN HD. unfold validate_pc_signature. destruct (hw_of_string text) as [h|x|u|] eqn:E; cbn [rbind]; try reflexivity.
  apply denotes_iff in E. specialize (HN h E). specialize (HD h E).
  rewrite <- strategy_bits_eq in HN, HD.
  unfold get_strategy.
  destruct (Z.eqb_spec (get_identification_strategy h) STRATEGY_DEFAULT) as [Z|_]; [reflexivity|].
  destruct (Z.eqb_spec (get_identification_strategy h) STRATEGY_ETHERNET) as [Z|_]; [|destruct (Z.eqb_spec (get_identification_strategy h) STRATEGY_IP_ADDRESS) as [Z|_]; [|destruct (Z.eqb_spec (get_identification_strategy h) STRATEGY_DISK) as [Z|_]; [|reflexivity]]];
    cbn [rbind validate_identifier].
  - rewrite (ids_same (StEthernet false) s s'); [reflexivity|]. apply HN. left. exact Z.
  - rewrite (ids_same (StEthernet true) s s'); [reflexivity|]. apply HN. right. exact Z.
  - rewrite (ids_same StDisk s s'); [reflexivity|]. apply HD. exact Z.
Qed.
Print Assumptions C96_validate.

(** acquire_license: of the machine, only what the identifiers of the genuine licenses made
    for this product denote is consulted - the disks or the network. *)
Theorem C96_acquire w (s s' : nat -> system) c hint out t : let f := feature_of w (option_map ci_feature c) in
  (forall es sig code h, carried (with_machine w (fun i => machine_at (s i))) f hint t es sig -> signature_good w f es sig -> magic_of (option_map ci_magic c) = w_magic w -> locked es code -> denotes code h ->
     ((strategy_bits h = 0 \/ strategy_bits h = 1)%Z -> forall i, same_network (s i) (s' i)) /\ (strategy_bits h = 2%Z -> forall i, same_disks (s i) (s' i))) ->
  acquire_license (with_machine w (fun i => machine_at (s' i))) c hint out t = acquire_license (with_machine w (fun i => machine_at (s i))) c hint out t.
Proof.
  intros f H. apply (other_surroundings (with_machine w (fun i => machine_at (s i)))); [constructor; intros; subst; reflexivity|].
  change (feature_of (with_machine w (fun i => machine_at (s i))) (option_map ci_feature c)) with f. intros id es sig f' Hc. subst f'. constructor.
  - reflexivity.
  - intros _ i j ->. reflexivity.
  - intros _ _ _ i j ->. reflexivity.
  - intros V M code Hl i j ->. cbn [fl_limits lic_of] in Hl. rewrite lim_get in Hl.
    assert (G : signature_good w f es sig).
    { assert (G : signature_good (with_machine w (fun i => machine_at (s i))) f es sig) by (eapply os_verify_good; [exact V|reflexivity]). exact G. }
    rewrite given_zero in M. cbn [bk_validate linux_backend with_machine w_machine]. symmetry. apply C96_validate; intros h Hd Hs; destruct (H es sig code h Hc G M Hl Hd) as [A B]; auto.
Qed.
Print Assumptions C96_acquire.

(** ** identify_pc *)
Lemma try_same l s s' : same_disks s s' -> same_network s s' -> try_strategies l (machine_at s') = try_strategies l (machine_at s).
Proof.
  intros D N. induction l as [|z l IH]; [reflexivity|]. cbn [try_strategies]. destruct (get_strategy z) as [st|x|u|]; cbn [rbind]; try reflexivity.
  destruct st; [reflexivity| |]; rewrite (concrete_same _ s s') by assumption; rewrite IH; reflexivity.
Qed.
Lemma user_same env z s s' : same_kind s s' ->
  (forall z', in_force env z z' -> same_origin z' s s') ->
  generate_user_pc_signature env (machine_at s') z = generate_user_pc_signature env (machine_at s) z.
Proof.
  intros K H. unfold generate_user_pc_signature.
  set (q := if Z.eqb z STRATEGY_DEFAULT then _ else _). assert (Q : same_origin (fst q) s s').
  { apply H. unfold q, STRATEGY_DEFAULT. destruct (Z.eqb_spec z (-1)) as [E|E]; [|left; cbn [fst]; auto]. right. unfold in_environment. destruct env as [[|c r]|].
    - right. split; [exact E|]. split; [exact E|]. intros v [t [[= <-] [N _]]]. congruence.
    - cbv zeta. destruct (Z.ltb_spec (atoi (c :: r)) 0) as [L|L]; [|destruct (Z.ltb_spec 3 (atoi (c :: r))) as [L'|L']]; cbn [orb fst].
      3:{ left. split; [exact E|]. exists (c :: r). split; [reflexivity|]. split; [discriminate|]. split; [apply atoi_spec; reflexivity|]. lia. }
      1,2: right; (split; [exact E|]; split; [exact E|]); intros v [t [[= <-] [_ [X Y]]]]; apply atoi_spec in X; subst v; lia.
    - right. split; [exact E|]. split; [exact E|]. intros v [t [[=] _]]. }
  destruct q as [z' b]. cbn [fst] in Q. destruct Q as [Q1 Q2].
  assert (G : forall st, get_strategy z' = Ok st -> generate_pc_id st (machine_at s') = generate_pc_id st (machine_at s)).
  { intros st. unfold get_strategy, STRATEGY_DEFAULT, STRATEGY_ETHERNET, STRATEGY_IP_ADDRESS, STRATEGY_DISK in *.
    destruct (Z.eqb_spec z' (-1)) as [E|_].
    { intros [= <-]. assert (D : same_disks s s') by auto. assert (N : same_network s s') by auto. cbn [generate_pc_id]. unfold available_strategies. cbn [machine_at hw_exec]. pose proof (kind_same _ _ K) as X.
      destruct (make_exec_env (exec_at s)) as [e|x|u|], (make_exec_env (exec_at s')) as [e'|x'|u'|]; try contradiction; cbn [rbind]; try (subst; reflexivity).
      destruct X as [X1 [X2 [X3 X4]]]. unfold is_cloud. rewrite X1, X2, X4. apply try_same; assumption. }
    destruct (Z.eqb_spec z' 0) as [E|_]; [intros [= <-]; apply concrete_same; cbn; auto|].
    destruct (Z.eqb_spec z' 1) as [E|_]; [intros [= <-]; apply concrete_same; cbn; auto|].
    destruct (Z.eqb_spec z' 2) as [E|_]; [intros [= <-]; apply concrete_same; cbn; auto|]. discriminate. }
  destruct (get_strategy z') as [st|x|u|]; cbn [rbind]; try reflexivity. rewrite (G st eq_refl). reflexivity.
Qed.
(** identify_pc: the identifier and the execution environment are determined by the kind of
    machine and, for a network identifier the network, for a disk identifier the disks, for
    the default both. *)
Theorem C96_identify s s' env z buf n want : same_kind s s' ->
  (forall z', in_force env z z' -> same_origin z' s s') ->
  identify_pc env (machine_at s') z buf n want = identify_pc env (machine_at s) z buf n want.
Proof.
  intros K H. unfold identify_pc, identify_call, identify_buffer. rewrite (user_same env z s s' K H).
  set (r := match buf with Some b => _ | None => _ end). destruct r as [[[b o] k]|x|u|]; cbn [rbind]; try reflexivity.
  cbn [machine_at hw_exec]. pose proof (kind_same _ _ K) as X.
  destruct (make_exec_env (exec_at s)) as [e|x|u|], (make_exec_env (exec_at s')) as [e'|x'|u'|]; try contradiction; cbn [rbind]; try (subst; reflexivity).
  destruct X as [X1 [X2 [X3 X4]]]. rewrite X1, X2, X3. reflexivity.
Qed.
Print Assumptions C96_identify.

(** ** What is opened *)
Definition opens {A} (P : hw_resource -> Prop) (m : T hw_resource A) : Prop := forall r, In (Acquired r) (snd m) -> P r.
Lemma opens_bind {A B} P (m : T hw_resource A) (k : A -> T hw_resource B) : opens P m -> (forall a, opens P (k a)) -> opens P (tbind m k).
Proof.
  intros H1 H2 r. unfold tbind. destruct (fst m) as [a| | |]; cbn [snd]; try apply H1. rewrite in_app_iff. intros [H|H]; [apply H1, H|eapply H2, H].
Qed.
Lemma opens_ret {A} P (a : A) : opens P (tret a).
Proof. intros r []. Qed.
Lemma opens_lift {A} P (a : res A) : opens P (tlift a).
Proof. intros r []. Qed.
Lemma opens_acq (P : hw_resource -> Prop) r : P r -> opens P (tlog (Acquired r)).
Proof. intros H r' [[= ->]|[]]. exact H. Qed.
Lemma opens_rel (P : hw_resource -> Prop) r : opens P (tlog (Released r)).
Proof. intros r' [E|[]]. discriminate E. Qed.
Ltac op := repeat first [apply opens_bind; [|intros ?]|apply opens_ret|apply opens_lift|apply opens_rel|apply opens_acq].
(** what may be opened: of the disks *)
Definition disk_source (s : system) (r : hw_resource) : Prop :=
  match r with
  | HDir p => (p = bs "/dev/disk/by-uuid" \/ p = bs "/dev/disk/by-label" \/ (p = bs "/dev/disk/by-partlabel" /\ sy_dir s (bs "/dev/disk/by-label") = None)) /\ sy_dir s p <> None
  | HStream p => p = bs "/etc/fstab" /\ sy_mounts s p <> None
  | HScratch => True
  | _ => False
  end.
(** ... of the container *)
Definition container_source (s : system) (r : hw_resource) : Prop :=
  match r with HStream p => p = bs "/proc/self/cgroup" /\ sy_file s p <> None | HLine => True | _ => False end.
Lemma opens_uuid s u : opens (disk_source s) (parse_uuid_t u).
Proof. unfold parse_uuid_t. op. exact I. Qed.
Lemma opens_dev s es infos m : opens (disk_source s) (dev_loop_t es infos m).
Proof.
  revert infos m. induction es as [|e es IH]; intros infos m; [apply opens_ret|]. cbn [dev_loop_t]. destruct (Nat.leb _ _); [apply opens_ret|]. destruct (_ || _); [apply IH|].
  destruct (de_ino e); [|apply IH]. destruct (de_link e); [|apply IH]. apply opens_bind; [apply opens_uuid|]. intros sn. apply IH.
Qed.
Lemma opens_blkid s f c o n out m : opens (disk_source s) (parse_blkid_loop_t f c o n out m).
Proof.
  revert o n out m. induction f as [|f IH]; intros o n out m; cbn [parse_blkid_loop_t]; destruct (str_find _ c o); try apply opens_ret; [apply opens_lift|].
  apply opens_bind; [apply opens_lift|]. intros ?. apply opens_bind; [apply opens_lift|]. intros ?. apply opens_bind; [apply opens_lift|]. intros ?. apply opens_bind; [apply opens_lift|]. intros ?.
  apply opens_bind; [apply opens_uuid|]. intros ?. apply opens_bind; [apply opens_lift|]. intros ?. apply IH.
Qed.
Lemma opens_preferred s m l : opens (disk_source s) (set_preferred_disks_t (disks_at s) m l).
Proof.
  unfold set_preferred_disks_t. cbn [disks_at de_fstab]. destruct (sy_mounts s (bs "/etc/fstab")) as [es|] eqn:E; op. split; [reflexivity|]. unfold FSTAB. rewrite E. discriminate.
Qed.
(** The enumeration of the disks opens no directory but /dev/disk/by-uuid,
    /dev/disk/by-label and (only without that one) /dev/disk/by-partlabel, and no stream but
    /etc/fstab, each only if it is there; the detection of a container opens no stream but
    /proc/self/cgroup. *)
Theorem C96_opened s : (forall r, In (Acquired r) (snd (get_disk_infos_t (disks_at s))) -> disk_source s r) /\
  (forall r, In (Acquired r) (snd (get_container_type_t (exec_at s))) -> container_source s r).
Proof.
  split.
  - change (opens (disk_source s) (get_disk_infos_t (disks_at s))). unfold get_disk_infos_t. apply opens_bind.
    + unfold get_disk_infos_dev_t. apply opens_bind.
      * cbn [disks_at de_by_uuid]. unfold listing. destruct (sy_dir s (bs "/dev/disk/by-uuid")) as [names|] eqn:E; cbn [option_map]; [|apply opens_ret].
        apply opens_bind; [apply opens_acq; split; [left; reflexivity|]; unfold BY_UUID; rewrite E; discriminate|]. intros _. apply opens_bind; [apply opens_dev|]. intros x. op.
      * intros [infos m]. apply opens_bind; [|intros; apply opens_ret]. unfold read_disk_labels_t. cbn [disks_at de_by_label de_by_partlabel]. unfold listing.
        destruct (sy_dir s (bs "/dev/disk/by-label")) as [names|] eqn:E; cbn [option_map]; op.
        { split; [right; left; reflexivity|]. unfold BY_LABEL. rewrite E. discriminate. }
        destruct (sy_dir s (bs "/dev/disk/by-partlabel")) as [names|] eqn:E'; cbn [option_map]; op.
        split; [right; right; split; [reflexivity|exact E]|]. unfold BY_PARTLABEL. rewrite E'. discriminate.
    + intros [[r infos] m]. destruct r; try (apply opens_bind; [apply opens_preferred|intros; apply opens_ret]);
        (destruct (first_some _); [|apply opens_ret]; apply opens_bind; [apply opens_blkid|]; intros [i' m']; apply opens_bind; [apply opens_preferred|intros; apply opens_ret]).
  - change (opens (container_source s) (get_container_type_t (exec_at s))). unfold get_container_type_t. apply opens_bind; [|intros; apply opens_ret].
    unfold check_container_proc_t. cbn [exec_at xf_cgroup]. destruct (sy_file s (bs "/proc/self/cgroup")) as [f|] eqn:E; cbn [option_map]; [|apply opens_ret].
    apply opens_bind; [apply opens_acq; split; [reflexivity|]; unfold CGROUP; rewrite E; discriminate|]. intros _. unfold cgroup_loop_t. op. exact I.
Qed.
Print Assumptions C96_opened.

(** ** The container, from the contents of the files *)
Definition no_lf (s : bytes) : Prop := forallb (fun c => negb (Ascii.eqb c LF)) s = true.
Lemma has_step n (c : ascii) s : has n (c :: s) <-> (exists b, c :: s = n ++ b) \/ has n s.
Proof.
  split.
  - intros [[|x a] [b E]]; [left; exists b; exact E|]. cbn [app] in E. injection E as -> E. right. exists a, b. exact E.
  - intros [[b E]|[a [b E]]]; [exists [], b; exact E|]. exists (c :: a), b. rewrite E. reflexivity.
Qed.
Lemma has_nil n : has n [] <-> n = [].
Proof. split; [intros [a [b E]]; symmetry in E; apply app_eq_nil in E as [_ E]; apply app_eq_nil in E as [E _]; exact E|intros ->; exists [], []; reflexivity]. Qed.
(** a word without line feeds lies on one side of a line feed *)
Lemma has_split n a s : no_lf n -> n <> [] -> (has n (a ++ LF :: s) <-> has n a \/ has n s).
Proof.
  intros Hn Nn. induction a as [|c a IH].
  - cbn [app]. rewrite has_step, has_nil. split; [intros [[b E]|H]; [|right; exact H]|intros [H|H]; [contradiction|right; exact H]].
    destruct n as [|x n]; [congruence|]. cbn [app] in E. injection E as <- _. discriminate Hn.
  - cbn [app]. rewrite !has_step, IH. split.
    + intros [[b E]|[H|H]]; [|tauto|tauto]. left. left.
      assert (L : length n <= length (c :: a)).
      { destruct (Nat.le_gt_cases (length n) (length (c :: a))) as [L|L]; [exact L|]. exfalso. apply (f_equal (firstn (length n))) in E.
        rewrite firstn_app, Nat.sub_diag, firstn_all, app_nil_r in E. unfold no_lf in Hn. rewrite forallb_forall in Hn.
        assert (I : In LF n). { rewrite <- E. change (c :: a ++ LF :: s) with ((c :: a) ++ LF :: s). rewrite firstn_app. apply in_or_app. right. destruct (length n - length (c :: a)) as [|k] eqn:K; [lia|]. left. reflexivity. }
        apply Hn in I. discriminate I. }
      exists (skipn (length n) (c :: a)). rewrite <- (firstn_skipn (length n) (c :: a)) at 1. f_equal. apply (f_equal (firstn (length n))) in E. rewrite firstn_app, Nat.sub_diag, firstn_all, app_nil_r in E.
      change (c :: a ++ LF :: s) with ((c :: a) ++ LF :: s) in E. rewrite firstn_app in E. replace (length n - length (c :: a)) with 0 in E by lia. cbn [firstn] in E. rewrite app_nil_r in E. exact E.
    + intros [[[b E]|H]|H]; [|tauto|tauto]. left. exists (b ++ LF :: s). rewrite app_assoc, <- E. reflexivity.
Qed.
Lemma lines_have n keep s cur : no_lf n -> n <> [] -> ((exists l, In l (lines_loop keep cur s) /\ has n l) <-> has n (rev cur ++ s)).
Proof.
  intros Hn Nn. revert cur. induction s as [|c s IH]; intros cur.
  - cbn [lines_loop]. rewrite app_nil_r. destruct cur as [|x cur].
    + split; [intros [l [[] _]]|]. cbn [rev]. rewrite has_nil. contradiction.
    + split; [intros [l [[<-|[]] H]]; exact H|intros H; exists (rev (x :: cur)); split; [left; reflexivity|exact H]].
  - cbn [lines_loop]. destruct (Ascii.eqb_spec c LF) as [->|Hc].
    + rewrite (has_split n _ s Hn Nn). specialize (IH []). cbn [rev app] in IH. rewrite <- IH.
      assert (K : has n (rev (if keep then LF :: cur else cur)) <-> has n (rev cur)).
      { destruct keep; [|tauto]. cbn [rev]. rewrite (has_split n _ [] Hn Nn), has_nil. tauto. }
      rewrite <- K. split.
      * intros [l [[<-|I] H]]; [left; exact H|right; exists l; auto].
      * intros [H|[l [I H]]]; [eexists; split; [left; reflexivity|exact H]|exists l; split; [right; exact I|exact H]].
    + rewrite IH. cbn [rev]. rewrite <- app_assoc. reflexivity.
Qed.
Lemma lines_nul keep s cur : nul_free (rev cur) -> nul_free s -> Forall nul_free (lines_loop keep cur s).
Proof.
  assert (A : forall a b, nul_free a -> nul_free b -> nul_free (a ++ b)) by (intros a b Ha Hb; unfold nul_free in *; rewrite forallb_app, Ha, Hb; reflexivity).
  revert cur. induction s as [|c s IH]; intros cur Hr Hs; cbn [lines_loop]; [destruct cur; constructor; [exact Hr|constructor]|].
  unfold nul_free in Hs. cbn [forallb] in Hs. apply andb_true_iff in Hs as [H1 H2]. destruct (Ascii.eqb_spec c LF) as [->|Hc].
  - constructor; [|apply IH; [reflexivity|exact H2]]. destruct keep; [|exact Hr]. cbn [rev]. apply A; [exact Hr|reflexivity].
  - apply IH; [|exact H2]. cbn [rev]. apply A; [exact Hr|]. unfold nul_free. cbn. rewrite H1. reflexivity.
Qed.
(** identify_pc reports a container exactly if /proc/self/cgroup mentions docker or lxc, or
    /var/run/systemd/container can be opened. *)
Theorem C96_container s env z buf size b buf' size' i : (forall f, sy_file s (bs "/proc/self/cgroup") = Some f -> nul_free (f_data f)) ->
  identify_pc env (machine_at s) z buf size true = Ok (b, buf', size', Some i) ->
  (xi_virt i = VS_CONTAINER <-> (exists f, sy_file s (bs "/proc/self/cgroup") = Some f /\ (has (bs "docker") (f_data f) \/ has (bs "lxc") (f_data f))) \/
                                sy_file s (bs "/var/run/systemd/container") <> None).
Proof.
  intros HN H. destruct (C54_summary _ _ _ _ _ _ _ _ _ H) as [-> _]. cbn [machine_at hw_exec]. unfold in_container. cbn [exec_at xf_cgroup xf_systemd].
  assert (K : sy_file s (bs "/var/run/systemd/container") <> None <-> option_map (fun f => text_lines false (content f)) (sy_file s (bs "/var/run/systemd/container")) <> None) by (destruct (sy_file s (bs "/var/run/systemd/container")); split; cbn [option_map]; congruence).
  rewrite K. clear K. destruct (sy_file s (bs "/proc/self/cgroup")) as [f|]; cbn [option_map].
  2:{ split; (intros [X|X]; [|right; exact X]); destruct X as [? X]; [destruct X as [? [X _]]|destruct X as [X _]]; discriminate X. }
  assert (N : Forall nul_free (text_lines true (f_data f))) by (apply lines_nul; [reflexivity|apply HN; reflexivity]). rewrite Forall_forall in N.
  pose proof (lines_have (bs "docker") true (f_data f) [] eq_refl ltac:(discriminate)) as D. pose proof (lines_have (bs "lxc") true (f_data f) [] eq_refl ltac:(discriminate)) as L. cbn [rev app] in D, L.
  assert (E : (exists ls l, Some (text_lines true (content f)) = Some ls /\ In l ls /\ (has (bs "docker") (cstr l) \/ has (bs "lxc") (cstr l))) <->
              (exists f0, Some f = Some f0 /\ (has (bs "docker") (f_data f0) \/ has (bs "lxc") (f_data f0)))); [|rewrite E; tauto].
  split.
  - intros [ls [l [[= <-] [I X]]]]. exists f. split; [reflexivity|]. rewrite cstr_id in X by (apply N, I). destruct X as [X|X]; [left; apply D|right; apply L]; exists l; auto.
  - intros [f0 [[= <-] [X|X]]]; [apply D in X as [l [I X]]|apply L in X as [l [I X]]]; exists (text_lines true (f_data f)), l; (split; [reflexivity|]; split; [exact I|]; rewrite cstr_id by (apply N, I); auto).
Qed.
Print Assumptions C96_container.

(** ** A machine; each of the sources matters *)
Definition look {A} (l : list (string * A)) (p : bytes) : option A := option_map snd (find (fun x => beqb (bs (fst x)) p) l).
Definition text_file (s : string) : file := {| f_size := N.of_nat (String.length s); f_data := bs s |}.
Definition a_system (dirs : list (string * list bytes)) (inodes : list (string * Z)) (links : list (string * bytes)) (fs : list (string * file)) (mounts : list (string * list bytes)) (ifs : list ifaddr) : system :=
  {| sy_dir := look dirs; sy_inode := look inodes; sy_link := look links; sy_file := look fs; sy_mounts := look mounts; sy_ifaddrs := Some ifs;
     sy_cpu := some_cpu (bs "GenuineIntel") [] false; sy_order := fun l => l; sy_vendor_order := fun l => l; sy_cpu_order := fun l => l |}.
Definition DIRS : list (string * list bytes) := [("/dev/disk/by-uuid"%string, [bs "."; bs ".."; bs "12-34"; bs "usb-1"]); ("/dev/disk/by-label"%string, [bs "root"])].
Definition INODES (u l : Z) : list (string * Z) := [("/dev/disk/by-uuid/12-34"%string, u); ("/dev/disk/by-label/root"%string, l)].
Definition LINKS (d : string) : list (string * bytes) := [("/dev/disk/by-uuid/12-34"%string, bs d)].
Definition MOUNTS (f : string) : list (string * list bytes) := [("/etc/fstab"%string, [bs f])].
Definition disk_view (r : res (func_ret * list disk)) : option (func_ret * list (Z * bytes * option bytes * bool)) :=
  match r with Ok (f, l) => Some (f, map (fun d => (dk_id d, dk_device d, dk_label d, dk_preferred d)) l) | _ => None end.
(** labels, devices and preference come from where the theorem says *)
Example C96_sources :
  disk_view (get_disk_infos (disks_at (a_system DIRS (INODES 7 7) (LINKS "../../sda1") [] (MOUNTS "UUID=12-34") []))) = Some (FUNC_RET_OK, [(7%Z, bs "sda1", Some (bs "root"), true)]) /\
  disk_view (get_disk_infos (disks_at (a_system DIRS (INODES 7 8) (LINKS "../../sda2") [] (MOUNTS "UUID=9-9") []))) = Some (FUNC_RET_OK, [(7%Z, bs "sda2", None, false)]) /\
  disk_view (get_disk_infos (disks_at (a_system [("/dev/disk/by-uuid"%string, [bs "12-34"]); ("/dev/disk/by-partlabel"%string, [bs "boot"])]
    [("/dev/disk/by-uuid/12-34"%string, 7%Z); ("/dev/disk/by-partlabel/boot"%string, 7%Z)] (LINKS "../../sda1") [] [] []))) = Some (FUNC_RET_OK, [(7%Z, bs "sda1", Some (bs "boot"), false)]) /\
  disk_view (get_disk_infos (disks_at (a_system [] [] [] [("/run/blkid/blkid.tab"%string, text_file "<device UUID=""12-34"" TYPE=""swap"" PARTLABEL=""a"">/dev/sda1</device>")] [] []))) =
    Some (FUNC_RET_OK, [(0%Z, bs "/dev/sda1", Some (bs "a"), true)]) /\
  disk_view (get_disk_infos (disks_at (a_system [] [] [] [("/etc/blkid.tab"%string, text_file "<device UUID=""12-34"" TYPE=""ext"" PARTLABEL=""b"">/dev/sda2</device>")] [] []))) =
    Some (FUNC_RET_OK, [(0%Z, bs "/dev/sda2", Some (bs "b"), false)]).
Proof. vm_compute. repeat split. Qed.
(** two systems that differ in everything else agree on the disks *)
Example C96_case : same_disks (a_system DIRS (INODES 7 7) (LINKS "../../sda1") [] (MOUNTS "UUID=12-34") [])
  (a_system (("/tmp"%string, [bs "x"]) :: DIRS) (("/dev/disk/by-uuid/usb-1"%string, 3%Z) :: INODES 7 7) (LINKS "../../sda1") [("/etc/blkid.tab"%string, text_file "x"); ("/proc/self/cgroup"%string, text_file "docker")] (MOUNTS "UUID=12-34")
     [{| ifa_name := bs "eth0"; ifa_loopback := false; ifa_addr := Some (SaInet 1) |}]).
Proof.
  split; [reflexivity|]. split.
  { intros names n [= <-] I [A [B C]]. cbn [In] in I. destruct I as [<-|[<-|[<-|[<-|[]]]]].
    - exfalso. apply A. reflexivity.
    - exfalso. apply B. reflexivity.
    - split; reflexivity.
    - exfalso. apply C. exists (bs "-1"). reflexivity. }
  split; [intros _; split; [reflexivity|]; intros names n [= <-] [<-|[]] _; reflexivity|].
  split; [discriminate|]. assert (D : some_disk (a_system DIRS (INODES 7 7) (LINKS "../../sda1") [] (MOUNTS "UUID=12-34") [])).
  { exists [bs "."; bs ".."; bs "12-34"; bs "usb-1"], (bs "12-34"). split; [reflexivity|]. split; [right; right; left; reflexivity|]. split; [|split; vm_compute; discriminate]. apply counts. reflexivity. }
  split; [intros N; contradiction|]. split; [intros N; contradiction|]. reflexivity.
Qed.
Example C96_container_case : exists b o n i, identify_pc None (machine_at (a_system [] [] [] [("/proc/self/cgroup"%string, text_file "1:cpu:/
0::/docker/af
")] [] [])) 0 None 0 true = Ok (b, o, n, Some i) /\ xi_virt i = VS_CONTAINER.
Proof. vm_compute. do 4 eexists. split; reflexivity. Qed.
