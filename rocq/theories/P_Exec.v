From Verif Require Import Base CTypes StringUtils HwId Registry Network Disks ExecEnv Strategies Licensecc.
From Verif Require Import P_Base P_Strings Spec_Disks P_Disks P_Blkid Spec_Exec P_Hw P_Hw2 P_Hw3.
From Coq Require Import Permutation.

Lemma contains_spec n s : contains n s = true <-> has n s.
Proof.
  unfold contains, has. destruct (find_here n s) as [i|] eqn:E.
  - split; [intros _|reflexivity]. destruct (find_here_some _ _ _ E) as [a [b [[H _] _]]]. eauto.
  - split; [discriminate|]. intros [a [b H]]. exfalso. exact (proj1 (find_here_none n s) E a b H).
Qed.
Lemma cgroup_spec ls : cgroup_loop ls <> CT_NONE <-> exists l, In l ls /\ (has (bs "docker") (cstr l) \/ has (bs "lxc") (cstr l)).
Proof.
  induction ls as [|l ls IH]; cbn [cgroup_loop]; [split; [congruence|intros [l [[] _]]]|].
  destruct (contains (bs "lxc") (cstr l)) eqn:E1.
  - split; [intros _; exists l; split; [left; reflexivity|right; apply contains_spec, E1]|discriminate].
  - destruct (contains (bs "docker") (cstr l)) eqn:E2.
    + split; [intros _; exists l; split; [left; reflexivity|left; apply contains_spec, E2]|discriminate].
    + rewrite IH. split.
      * intros [x [H1 H2]]. exists x. split; [right; exact H1|exact H2].
      * intros [x [[<-|H1] [H2|H2]]]; [apply contains_spec in H2; congruence|apply contains_spec in H2; congruence|eauto|eauto].
Qed.
Lemma systemd_spec ls : systemd_loop ls <> CT_NONE.
Proof. induction ls as [|l ls IH]; cbn [systemd_loop]; [discriminate|]. destruct (contains _ l); [discriminate|]. destruct (contains _ l); [discriminate|exact IH]. Qed.
Lemma container_spec x : get_container_type x <> CT_NONE <-> in_container x.
Proof.
  unfold get_container_type, in_container. destruct (xf_cgroup x) as [ls|].
  - pose proof (cgroup_spec ls) as H. destruct (cgroup_loop ls).
    + destruct (xf_systemd x) as [l|]; [pose proof (systemd_spec l) as Hs; split; [intros _; right; discriminate|intros _; exact Hs]|].
      split; [congruence|]. intros [[l1 [l2 [[= <-] [A B]]]]|A]; [|congruence]. apply H. eauto.
    + split; [intros _; left|discriminate]. destruct (proj1 H ltac:(discriminate)) as [l [A B]]. exists ls, l. auto.
    + split; [intros _; left|discriminate]. destruct (proj1 H ltac:(discriminate)) as [l [A B]]. exists ls, l. auto.
  - destruct (xf_systemd x) as [l|]; [pose proof (systemd_spec l) as Hs; split; [intros _; right; discriminate|intros _; exact Hs]|].
    split; [congruence|]. intros [[l1 [l2 [[=] _]]]|A]; congruence.
Qed.

(** ** tables *)
Definition real_values (m : list (bytes * virt_detail)) : Prop := forall k v, In (k, v) m -> v <> BARE_TO_METAL.
Lemma find_matches m s : (find_in_map m s <> BARE_TO_METAL -> matches m s (find_in_map m s)) /\
  (real_values m -> (exists v, matches m s v) -> find_in_map m s <> BARE_TO_METAL).
Proof.
  induction m as [|[k v] m [IH1 IH2]]; cbn [find_in_map]; [split; [congruence|intros _ [v [k [[] _]]]]|]. split.
  - destruct (contains k s) eqn:E.
    + intros _. exists k. split; [left; reflexivity|apply contains_spec, E].
    + intros H. destruct (IH1 H) as [k' [A B]]. exists k'. split; [right; exact A|exact B].
  - intros R [v' [k' [A B]]]. destruct (contains k s) eqn:E; [apply (R k); left; reflexivity|].
    apply IH2; [intros k1 v1 H1; apply (R k1); right; exact H1|]. destruct A as [[= <- <-]|A]; [apply contains_spec in B; congruence|]. exists v', k'. auto.
Qed.
Lemma matches_perm m m' s v : Permutation m m' -> matches m s v -> matches m' s v.
Proof. intros P [k [A B]]. exists k. split; [eapply Permutation_in; eassumption|exact B]. Qed.
Lemma real_perm m m' : Permutation m m' -> real_values m -> real_values m'.
Proof. intros P R k v H. apply (R k). eapply Permutation_in; [symmetry; exact P|exact H]. Qed.
Definition bare (v : virt_detail) : bool := match v with BARE_TO_METAL => true | _ => false end.
Lemma bare_iff v : bare v = true <-> v = BARE_TO_METAL.
Proof. destruct v; split; cbn; congruence. Qed.
Lemma find_perm_bare m m' s : Permutation m m' -> real_values m -> bare (find_in_map m s) = bare (find_in_map m' s).
Proof.
  intros P R. assert (A : forall m m', Permutation m m' -> real_values m -> bare (find_in_map m s) = true -> bare (find_in_map m' s) = true).
  { clear. intros m m' P R H. apply bare_iff. destruct (find_matches m s) as [_ H2]. destruct (find_matches m' s) as [H1 _].
    destruct (find_in_map m' s) eqn:E; try reflexivity; exfalso; assert (X : find_in_map m s <> BARE_TO_METAL) by (apply H2; [exact R|]; eexists; eapply matches_perm; [symmetry; exact P|apply H1; discriminate]); apply X, bare_iff, H. }
  apply eq_true_iff_eq. split; [apply A; assumption|apply A; [symmetry; exact P|eapply real_perm; eassumption]].
Qed.
Lemma find_perm_unique m m' s : Permutation m m' -> real_values m -> (forall v v', matches m s v -> matches m s v' -> v = v') -> find_in_map m s = find_in_map m' s.
Proof.
  intros P R U. pose proof (find_perm_bare m m' s P R) as B. destruct (bare (find_in_map m' s)) eqn:E.
  - apply bare_iff in B, E. congruence.
  - apply U; [|eapply matches_perm; [symmetry; exact P|]]; apply find_matches; intros X; apply bare_iff in X; congruence.
Qed.
Lemma vendors_real : real_values vm_vendors.
Proof. intros k v H. cbn in H. repeat (destruct H as [[= <- <-]|H]; [discriminate|]). destruct H. Qed.
Lemma cpus_real : real_values virtual_cpu_names.
Proof. intros k v H. cbn in H. repeat (destruct H as [[= <- <-]|H]; [discriminate|]). destruct H. Qed.

(** ** the summary *)
Lemma cloud_not_bare e : is_cloud e = true -> virtualization_detail e <> BARE_TO_METAL.
Proof.
  intros H. unfold virtualization_detail. cbv zeta. rewrite H, orb_true_r.
  match goal with |- match ?r with _ => _ end <> _ => destruct r end; discriminate.
Qed.
Lemma detail_eqb_bare v : detail_eqb v BARE_TO_METAL = bare v.
Proof. destruct v; reflexivity. Qed.
Lemma virtualization_spec e :
  (virtualization e = VS_CONTAINER <-> xe_container e <> CT_NONE) /\
  (virtualization e = VS_VM <-> xe_container e = CT_NONE /\ virtualization_detail e <> BARE_TO_METAL) /\
  (virtualization e = VS_NONE <-> xe_container e = CT_NONE /\ virtualization_detail e = BARE_TO_METAL).
Proof.
  unfold virtualization, is_container. rewrite detail_eqb_bare. pose proof (cloud_not_bare e) as Hc.
  destruct (xe_container e); [|repeat split; try discriminate; intros [H _]; discriminate..].
  destruct (virtualization_detail e); destruct (is_cloud e); cbn [bare negb orb]; repeat split; try congruence; try discriminate; try (intros [_ H]; congruence); exfalso; apply Hc; reflexivity.
Qed.

Lemma exec_container x e : make_exec_env x = Ok e -> (xe_container e <> CT_NONE <-> in_container x) /\ xe_files e = x.
Proof. unfold make_exec_env. intros H. apply rbind_ok in H as [d [_ H]]. injection H as <-. split; [apply container_spec|reflexivity]. Qed.

Lemma dmi_same x x' : same_readings x x' -> read_dmi x' = read_dmi x.
Proof. intros [_ [_ [E1 [E2 _]]]]. unfold read_dmi. rewrite E1, E2. reflexivity. Qed.
Lemma env_same x x' e : same_readings x x' -> make_exec_env x = Ok e -> exists e', make_exec_env x' = Ok e' /\ xe_container e' = xe_container e /\ xe_dmi e' = xe_dmi e /\ xe_files e' = x'.
Proof.
  intros S H. unfold make_exec_env in *. rewrite (dmi_same _ _ S). apply rbind_ok in H as [d [-> H]]. injection H as <-. cbn [rbind].
  eexists. split; [reflexivity|]. cbn. split; [|auto]. destruct S as [E1 [E2 _]]. unfold get_container_type. rewrite E1, E2. reflexivity.
Qed.
Lemma table_perm (o o' : list (bytes * virt_detail) -> list (bytes * virt_detail)) t : (forall l, Permutation (o l) l) -> (forall l, Permutation (o' l) l) -> Permutation (o t) (o' t).
Proof. intros H H'. rewrite H, H'. reflexivity. Qed.

Lemma order_summary x x' e e' : hash_orders x -> hash_orders x' -> same_readings x x' -> make_exec_env x = Ok e -> make_exec_env x' = Ok e' ->
  virtualization e = virtualization e' /\ cloud_provider e = cloud_provider e'.
Proof.
  intros [Hv Hc] [Hv' Hc'] S H H'. destruct (env_same _ _ _ S H) as [e2 [H2 [E1 [E2 E3]]]]. rewrite H' in H2. injection H2 as <-.
  destruct (exec_container _ _ H) as [_ Ef].
  assert (Ecl : cloud_provider e = cloud_provider e') by (unfold cloud_provider; rewrite E2; reflexivity). split; [|exact Ecl].
  unfold virtualization, is_container. rewrite E1. destruct (xe_container e); try reflexivity. rewrite !detail_eqb_bare.
  assert (Ecl' : is_cloud e = is_cloud e') by (unfold is_cloud; rewrite Ecl; reflexivity).
  assert (B : bare (virtualization_detail e) = bare (virtualization_detail e')); [|rewrite B, Ecl'; reflexivity].
  unfold virtualization_detail. cbv zeta. rewrite <- Ecl', E2, E3, Ef. destruct S as [_ [_ [_ [_ S1]]]]. unfold xf_cpu_vendor, xf_cpu_brand, xf_hypervisor. rewrite S1.
  pose proof (table_perm _ _ vm_vendors Hv Hv') as PV. pose proof (table_perm _ _ virtual_cpu_names Hc Hc') as PC.
  assert (RV : real_values (xf_vendor_order x vm_vendors)) by (eapply real_perm; [symmetry; apply Hv|apply vendors_real]).
  assert (RC : real_values (xf_cpu_order x virtual_cpu_names)) by (eapply real_perm; [symmetry; apply Hc|apply cpus_real]).
  set (b := xf_hypervisor x || is_cloud e). clearbody b.
  assert (St : forall m m' s k k', Permutation m m' -> real_values m -> bare k = bare k' ->
     bare (match find_in_map m s with BARE_TO_METAL => k | r => r end) = bare (match find_in_map m' s with BARE_TO_METAL => k' | r => r end)).
  { clear. intros m m' s k k' P R Hk. pose proof (find_perm_bare m m' s P R). destruct (find_in_map m s), (find_in_map m' s); cbn in *; congruence. }
  match goal with |- bare (match ?r with _ => _ end) = bare (match ?r' with _ => _ end) => assert (Hr : bare r = bare r'); [|destruct r, r'; cbn in *; try congruence; destruct b; reflexivity] end.
  do 4 (apply St; [assumption|assumption|]). apply find_perm_bare; assumption.
Qed.
(** with at most one match per text the detail is fixed, too *)
Definition unique_match (x : exec_files) (d : dmi) : Prop :=
  forall s, In s [dmi_bios_description d; dmi_bios_vendor d; dmi_sys_vendor d] -> forall v v', matches vm_vendors s v -> matches vm_vendors s v' -> v = v'.
Definition unique_cpu (x : exec_files) : Prop :=
  forall s, In s [xf_cpu_vendor x; xf_cpu_brand x] -> forall v v', matches virtual_cpu_names s v -> matches virtual_cpu_names s v' -> v = v'.
Lemma order_detail x x' e e' : hash_orders x -> hash_orders x' -> same_readings x x' -> make_exec_env x = Ok e -> make_exec_env x' = Ok e' ->
  unique_match x (xe_dmi e) -> unique_cpu x -> virtualization_detail e = virtualization_detail e'.
Proof.
  intros Ho Ho' S H H' UV UC. destruct (order_summary _ _ _ _ Ho Ho' S H H') as [_ Ecl]. destruct Ho as [Hv Hc], Ho' as [Hv' Hc'].
  destruct (env_same _ _ _ S H) as [e2 [H2 [E1 [E2 E3]]]]. rewrite H' in H2. injection H2 as <-. destruct (exec_container _ _ H) as [_ Ef].
  assert (Ecl' : is_cloud e = is_cloud e') by (unfold is_cloud; rewrite Ecl; reflexivity).
  unfold virtualization_detail. cbv zeta. rewrite <- Ecl', E2, E3, Ef. destruct S as [_ [_ [_ [_ S1]]]]. unfold xf_cpu_vendor, xf_cpu_brand, xf_hypervisor. rewrite S1. fold (xf_cpu_vendor x) (xf_cpu_brand x) (xf_hypervisor x).
  assert (FV : forall s, In s [dmi_bios_description (xe_dmi e); dmi_bios_vendor (xe_dmi e); dmi_sys_vendor (xe_dmi e)] ->
    find_in_map (xf_vendor_order x vm_vendors) s = find_in_map (xf_vendor_order x' vm_vendors) s).
  { intros s Hs. rewrite <- (find_perm_unique vm_vendors (xf_vendor_order x vm_vendors) s), <- (find_perm_unique vm_vendors (xf_vendor_order x' vm_vendors) s); try reflexivity;
      try (symmetry; auto; fail); try apply vendors_real; try (apply UV; exact Hs); symmetry; auto. }
  assert (FC : forall s, In s [xf_cpu_vendor x; xf_cpu_brand x] -> find_in_map (xf_cpu_order x virtual_cpu_names) s = find_in_map (xf_cpu_order x' virtual_cpu_names) s).
  { intros s Hs. rewrite <- (find_perm_unique virtual_cpu_names (xf_cpu_order x virtual_cpu_names) s), <- (find_perm_unique virtual_cpu_names (xf_cpu_order x' virtual_cpu_names) s); try reflexivity;
      try apply cpus_real; try (apply UC; exact Hs); symmetry; auto. }
  rewrite (FV (dmi_bios_description (xe_dmi e))), (FV (dmi_bios_vendor (xe_dmi e))), (FV (dmi_sys_vendor (xe_dmi e))), (FC (xf_cpu_vendor x)), (FC (xf_cpu_brand x)) by (cbn; tauto).
  reflexivity.
Qed.

(** ** exactly when the constructor is undefined *)
Definition readable (f : option file) (s : bytes) : Prop := get_file_contents f 256 = Ok s.
Lemma file_outcome f : get_file_contents f 256 = Throw ExRuntime \/ exists s, get_file_contents f 256 = Ok s.
Proof. unfold get_file_contents. destruct f; eauto. Qed.
Lemma at_back_spec s k : 0 < k -> (k <= length s -> exists c, at_back s k = Ok c) /\ (length s < k -> at_back s k = Undef UbRead).
Proof.
  intros Hk. unfold at_back. destruct (Nat.ltb_spec (length s) k); split; try lia; try reflexivity. intros _. destruct (nth_error _ _); eauto.
Qed.
Lemma exec_defined x :
  ((exists s, readable (xf_modalias x) s /\ trim_copy s = []) \/ (exists s, readable (xf_sys_vendor x) s /\ length s < 2) -> make_exec_env x = Undef UbRead) /\
  (~ ((exists s, readable (xf_modalias x) s /\ trim_copy s = []) \/ (exists s, readable (xf_sys_vendor x) s /\ length s < 2)) -> exists e, make_exec_env x = Ok e).
Proof.
  unfold make_exec_env, read_dmi, readable.
  destruct (file_outcome (xf_sys_vendor x)) as [E1|[s1 E1]], (file_outcome (xf_modalias x)) as [E2|[s2 E2]]; rewrite !E1, !E2; cbn [rbind or_empty].
  - split; [intros [[s [[=] _]]|[s [[=] _]]]|eauto].
  - set (s := toupper_copy (trim_copy s2)). assert (Hl : length s = length (trim_copy s2)) by (apply map_length). clearbody s.
    destruct (at_back_spec s 1 ltac:(lia)) as [A B]. destruct (trim_copy s2) as [|c t] eqn:Et.
    + split; [|intros H; exfalso; apply H; left; eauto]. intros _. rewrite B by (cbn [length] in Hl; lia). reflexivity.
    + split; [intros [[s' [[= <-] H]]|[s' [[=] _]]]; congruence|]. intros _. destruct A as [ch ->]; [cbn [length] in Hl; lia|]. cbn [rbind or_empty]. eauto.
  - destruct (at_back_spec s1 2 ltac:(lia)) as [A B]. destruct (Nat.lt_ge_cases (length s1) 2) as [L|L].
    + split; [|intros H; exfalso; apply H; right; eauto]. intros _. rewrite B by lia. reflexivity.
    + split; [intros [[s' [[=] _]]|[s' [[= <-] H]]]; lia|]. intros _. destruct A as [ch ->]; [lia|]. cbn [rbind or_empty]. eauto.
  - set (s := toupper_copy (trim_copy s2)). assert (Hl : length s = length (trim_copy s2)) by (apply map_length). clearbody s.
    destruct (at_back_spec s 1 ltac:(lia)) as [A B]. destruct (at_back_spec s1 2 ltac:(lia)) as [A' B'].
    destruct (trim_copy s2) as [|c t] eqn:Et.
    + split; [|intros H; exfalso; apply H; left; eauto]. intros _. rewrite B by (cbn [length] in Hl; lia). reflexivity.
    + destruct A as [ch ->]; [cbn [length] in Hl; lia|]. cbn [rbind or_empty]. destruct (Nat.lt_ge_cases (length s1) 2) as [L|L].
      * split; [|intros H; exfalso; apply H; right; eauto]. intros _. rewrite B' by lia. reflexivity.
      * split; [intros [[s' [[= <-] H]]|[s' [[= <-] H]]]; [congruence|lia]|]. intros _. destruct A' as [ch' ->]; [lia|]. cbn [rbind or_empty]. eauto.
Qed.

(** ** the default strategy where no strategy is configured *)
Lemma default_generate m e : make_exec_env (hw_exec m) = Ok e ->
  (virtualization e = VS_CONTAINER /\ is_docker e = true \/ virtualization e = VS_VM /\ is_cloud e = true) ->
  generate_user_pc_signature None m (-1) = Throw ExLogic.
Proof.
  intros E H. unfold generate_user_pc_signature. change ((-1 =? STRATEGY_DEFAULT)%Z) with true. cbv iota beta. change (get_strategy (-1)) with (Ok StDefault). cbn [rbind generate_pc_id].
  unfold available_strategies. rewrite E. cbn [rbind]. destruct H as [[-> ->]|[-> ->]]; reflexivity.
Qed.

Lemma default_is m e : make_exec_env (hw_exec m) = Ok e ->
  generate_user_pc_signature None m (-1) =
  match virtualization e with
  | VS_NONE => generate_user_pc_signature None m 2
  | VS_VM => if is_cloud e then Throw ExLogic else generate_user_pc_signature None m 0
  | VS_CONTAINER => if is_docker e then Throw ExLogic else generate_user_pc_signature None m 0
  end.
Proof.
  intros E. unfold generate_user_pc_signature. change (-1 =? STRATEGY_DEFAULT)%Z with true. change (0 =? STRATEGY_DEFAULT)%Z with false. change (2 =? STRATEGY_DEFAULT)%Z with false. cbv iota beta.
  change (get_strategy (-1)) with (Ok StDefault). change (get_strategy 0) with (Ok (StEthernet false)). change (get_strategy 2) with (Ok StDisk). cbn [rbind generate_pc_id].
  unfold available_strategies. rewrite E. cbn [rbind]. destruct (virtualization e).
  - unfold LCC_BARE_TO_METAL_STRATEGIES. cbn [try_strategies]. change (get_strategy STRATEGY_DISK) with (Ok StDisk). cbn [rbind].
    destruct (generate_concrete StDisk m) as [[h|]| | |]; reflexivity.
  - destruct (is_docker e); [reflexivity|]. unfold LCC_LXC_STRATEGIES. cbn [try_strategies]. change (get_strategy STRATEGY_ETHERNET) with (Ok (StEthernet false)). cbn [rbind].
    destruct (generate_concrete (StEthernet false) m) as [[h|]| | |]; reflexivity.
  - destruct (is_cloud e); [reflexivity|]. unfold LCC_VM_STRATEGIES. cbn [try_strategies]. change (get_strategy STRATEGY_ETHERNET) with (Ok (StEthernet false)). cbn [rbind].
    destruct (generate_concrete (StEthernet false) m) as [[h|]| | |]; reflexivity.
Qed.
Lemma never_azure e : cloud_provider e <> AZURE_CLOUD.
Proof.
  unfold cloud_provider. cbv zeta. repeat (match goal with |- context [if ?b then _ else _] => destruct b end); discriminate.
Qed.
Lemma cloud_virtual e : is_cloud e = true -> virtualization e <> VS_NONE.
Proof. intros H X. apply virtualization_spec in X as [_ X]. exact (cloud_not_bare e H X). Qed.
