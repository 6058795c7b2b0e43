(** The shared identification code: agreement with the Linux model, and what follows
    from the data read. *)
From Verif Require Import Base CTypes StringUtils Base64 HwId Registry Network Disks ExecEnv Strategies Locate Licensecc
  P_Base P_Strings Spec_Base64 P_Base64 P_Decode Spec_HwId P_HwId P_HwText P_Hw P_Hw2 P_Hw3 Shared.
From Coq Require Import Lia Permutation.

(** ** Linux *)
Definition platform_of (x : exec_files) (e : exec_env) : platform :=
  {| pl_container := xe_container e; pl_bios_vendor := dmi_bios_vendor (xe_dmi e);
     pl_bios_description := dmi_bios_description (xe_dmi e); pl_sys_vendor := dmi_sys_vendor (xe_dmi e);
     pl_cpu_vendor := xf_cpu_vendor x; pl_cpu_brand := xf_cpu_brand x; pl_hypervisor := xf_hypervisor x;
     pl_vendor_order := xf_vendor_order x; pl_cpu_order := xf_cpu_order x |}.
Lemma env_files x e : make_exec_env x = Ok e -> xe_files e = x.
Proof. unfold make_exec_env. intros H. apply rbind_ok in H as [d [_ H]]. injection H as <-. reflexivity. Qed.
Lemma cloud_same x e : s_cloud_provider (platform_of x e) = cloud_provider e.
Proof. reflexivity. Qed.
Lemma detail_same x e : xe_files e = x -> s_virtualization_detail (platform_of x e) = virtualization_detail e.
Proof. intros <-. reflexivity. Qed.
Lemma virt_same x e : xe_files e = x -> s_virtualization (platform_of x e) = virtualization e.
Proof. intros H. unfold s_virtualization, virtualization. rewrite (detail_same x e H). unfold is_container. cbn [pl_container platform_of]. destruct (xe_container e); reflexivity. Qed.
Lemma available_same m : s_available_strategies (linux_readings m) = available_strategies m.
Proof.
  unfold s_available_strategies, available_strategies. cbn [rd_platform linux_readings]. unfold linux_platform.
  destruct (make_exec_env (hw_exec m)) as [e| | |] eqn:E; cbn [rbind]; try reflexivity. fold (platform_of (hw_exec m) e).
  rewrite (virt_same _ _ (env_files _ _ E)). destruct (virtualization e); try reflexivity. unfold is_docker. cbn [pl_container platform_of]. destruct (xe_container e); reflexivity.
Qed.
Lemma alternative_same s m : s_alternative_ids s (linux_readings m) = alternative_ids s m.
Proof.
  unfold s_alternative_ids, alternative_ids. destruct s as [|u|]; [reflexivity| |].
  - unfold s_ethernet, generate_ethernet_pc_id. cbn [rd_adapters linux_readings rbind]. destruct (get_adapter_infos (hw_order m) (hw_ifaddrs m)) as [[] [|a l]]; reflexivity.
  - reflexivity.
Qed.
Lemma try_same l m : s_try_strategies l (linux_readings m) = try_strategies l m.
Proof.
  induction l as [|z l IH]; [reflexivity|]. cbn [s_try_strategies try_strategies]. destruct (get_strategy z) as [s| | |]; try reflexivity. cbn [rbind].
  unfold s_generate_concrete, generate_concrete. rewrite alternative_same, IH. reflexivity.
Qed.
Lemma generate_same s m : s_generate_pc_id s (linux_readings m) = generate_pc_id s m.
Proof.
  destruct s; cbn [s_generate_pc_id generate_pc_id]; unfold s_generate_concrete, generate_concrete; rewrite ?alternative_same, ?available_same; try reflexivity.
  destruct (available_strategies m); try reflexivity. cbn [rbind]. apply try_same.
Qed.
Lemma validate_same m text : s_validate_pc_signature (linux_readings m) text = validate_pc_signature m text.
Proof.
  unfold s_validate_pc_signature, validate_pc_signature. destruct (hw_of_string text) as [h| | |]; try reflexivity. cbn [rbind].
  destruct (get_strategy (get_identification_strategy h)) as [s| | |]; try reflexivity. cbn [rbind].
  unfold s_validate_identifier, validate_identifier. destruct s; try reflexivity; rewrite alternative_same; reflexivity.
Qed.
Lemma user_same env m z : s_generate_user_pc_signature env (linux_readings m) z = generate_user_pc_signature env m z.
Proof.
  unfold s_generate_user_pc_signature, generate_user_pc_signature. fold (chosen env z). destruct (chosen env z) as [z' b].
  destruct (get_strategy z') as [s| | |]; try reflexivity. cbn [rbind]. rewrite generate_same. reflexivity.
Qed.
Lemma identify_same env m z buf size info : s_identify_pc env (linux_readings m) z buf size info = identify_pc env m z buf size info.
Proof.
  rewrite identify_pc_eq. unfold s_identify_pc, s_identify_buffer, identify_buffer. rewrite user_same.
  match goal with |- rbind ?a _ = rbind ?a _ => destruct a as [[[b b'] s']| | |]; try reflexivity end. cbn [rbind rd_platform linux_readings]. unfold linux_platform.
  destruct (make_exec_env (hw_exec m)) as [e| | |] eqn:E; cbn [rbind]; try reflexivity. fold (platform_of (hw_exec m) e).
  rewrite (virt_same _ _ (env_files _ _ E)), (detail_same _ _ (env_files _ _ E)), cloud_same. reflexivity.
Qed.

(** ** Any readings *)
Definition s_data (s : strategy) (r : readings) : res (func_ret * list data7) :=
  match s with StDefault => Undef UbRead | StEthernet use_ip => s_ethernet use_ip r | StDisk => s_disk r end.
Lemma s_data_code s r c data : s_data s r = Ok (c, data) -> c <> FUNC_RET_OK -> data = [].
Proof.
  destruct s as [|u|]; cbn [s_data]; [discriminate| |].
  - unfold s_ethernet. destruct (rd_adapters r) as [[c0 l]| | |]; try discriminate. cbn [rbind]. destruct c0, l; intros [= <- <-]; congruence.
  - unfold s_disk. destruct (rd_disks r) as [[c0 l]| | |]; try discriminate. cbn [rbind]. destruct c0; try (intros [= <- <-]; congruence).
    destruct l as [|d l]; [intros [= <- <-]; congruence|]. intros H. apply rbind_ok in H as [p [_ H]]. apply rbind_ok in H as [o [_ H]]. injection H as E <-. destruct (p ++ o); congruence.
Qed.
Definition made (z : Z) (d : data7) (h : hwid) : Prop := strategy_bits h = z /\ data53 h = d7_53 d.
Lemma strat_num_range s : concrete s -> (0 <= strat_num s < 8)%Z.
Proof. intros H. destruct s as [|[|]|]; [congruence| | |]; unfold strat_num, identification_strategy, STRATEGY_IP_ADDRESS, STRATEGY_ETHERNET, STRATEGY_DISK; lia. Qed.
Lemma s_alternative_data s r c data : concrete s -> s_data s r = Ok (c, data) ->
  exists ids, s_alternative_ids s r = Ok ids /\ Forall2 (made (strat_num s)) data ids.
Proof.
  intros Hc H. unfold s_alternative_ids. fold (s_data s r). rewrite H. cbn [rbind].
  assert (D : c = FUNC_RET_OK \/ c <> FUNC_RET_OK) by (destruct c; [left; reflexivity|right; discriminate..]). destruct D as [->|D].
  - destruct (make_ids_ok (strat_num s) data (strat_num_range s Hc)) as [hs [E F]]. exists hs. split; [exact E|].
    clear -F. induction F as [|d h l hs [H1 H2] F IH]; constructor; [|exact IH]. split; [rewrite <- strategy_bits_eq; exact H1|exact H2].
  - pose proof (s_data_code _ _ _ _ H D) as ->. exists []. split; [destruct c; congruence|constructor].
Qed.
Lemma s_alternative_undef s r u : concrete s -> s_data s r = Undef u -> s_alternative_ids s r = Undef u.
Proof. intros Hc H. unfold s_alternative_ids. fold (s_data s r). rewrite H. reflexivity. Qed.
Lemma s_alternative_inv s r ids : s_alternative_ids s r = Ok ids -> exists c data, s_data s r = Ok (c, data).
Proof. unfold s_alternative_ids. fold (s_data s r). intros H. apply rbind_ok in H as [[c data] [E _]]. eauto. Qed.
Lemma made_left z l ids : Forall2 (made z) l ids -> forall h, In h ids -> exists d, In d l /\ made z d h.
Proof. induction 1 as [|d h l ids H F IH]; intros x Hx; [contradiction|]. destruct Hx as [<-|Hx]; [exists d; cbn; auto|]. destruct (IH x Hx) as [y [A B]]. exists y. cbn. auto. Qed.
Lemma made_right z l ids : Forall2 (made z) l ids -> forall d, In d l -> exists h, In h ids /\ made z d h.
Proof. induction 1 as [|d h l ids H F IH]; intros x Hx; [contradiction|]. destruct Hx as [<-|Hx]; [exists h; cbn; auto|]. destruct (IH x Hx) as [y [A B]]. exists y. cbn. auto. Qed.

Lemma strategy_concrete h s : get_strategy (strategy_bits h) = Ok s -> concrete s.
Proof. intros Es ->. apply get_strategy_num in Es. pose proof (strategy_bits_range h) as R. rewrite Es in R. unfold strat_num, identification_strategy, STRATEGY_DEFAULT in R. lia. Qed.
Lemma s_validate_known r text h s c data : hw_of_string text = Ok h -> get_strategy (strategy_bits h) = Ok s -> s_data s r = Ok (c, data) ->
  exists e, s_validate_pc_signature r text = Ok e /\ (e = LICENSE_OK \/ e = IDENTIFIERS_MISMATCH) /\
    (e = LICENSE_OK <-> exists d, In d data /\ data53 h = d7_53 d).
Proof.
  intros Eh Es Ed. pose proof (strategy_concrete _ _ Es) as Hc. destruct (s_alternative_data _ _ _ _ Hc Ed) as [ids [Ei F]].
  unfold s_validate_pc_signature. rewrite Eh. cbn [rbind]. rewrite strategy_bits_eq, Es. cbn [rbind].
  assert (E : s_validate_identifier s r h = Ok (if existsb (fun x => hw_eqb x h) ids then LICENSE_OK else IDENTIFIERS_MISMATCH)).
  { unfold s_validate_identifier. rewrite strategy_bits_eq, (get_strategy_num _ _ Es). unfold strat_num. rewrite Z.eqb_refl. rewrite Ei. destruct s; [congruence|reflexivity|reflexivity]. }
  rewrite E. eexists. split; [reflexivity|]. split; [destruct (existsb _ ids); auto|].
  destruct (existsb (fun x => hw_eqb x h) ids) eqn:Ex.
  - split; [|reflexivity]. intros _. apply existsb_exists in Ex as [x [Hin Hx]]. apply hw_eqb_fields in Hx as [_ Hx]. destruct (made_left _ _ _ F x Hin) as [d [Hd [_ M]]]. exists d. split; [exact Hd|congruence].
  - split; [discriminate|]. intros [d [Hd Hh]]. destruct (made_right _ _ _ F d Hd) as [x [Hin [Hs Hx]]]. exfalso. apply not_true_iff_false in Ex. apply Ex, existsb_exists. exists x. split; [exact Hin|].
    apply hw_eqb_fields. rewrite !strategy_bits_eq. split; [rewrite Hs; symmetry; apply get_strategy_num, Es|congruence].
Qed.
Lemma s_validate_unknown r text h e : hw_of_string text = Ok h -> get_strategy (strategy_bits h) = Throw e -> s_validate_pc_signature r text = Ok IDENTIFIERS_MISMATCH.
Proof. intros Eh Es. unfold s_validate_pc_signature. rewrite Eh. cbn [rbind]. rewrite strategy_bits_eq, Es. cbn [rbind]. rewrite (calm_get_strategy _ _ Es). reflexivity. Qed.
Lemma s_validate_undef_text r text u : hw_of_string text = Undef u -> s_validate_pc_signature r text = Undef u.
Proof. intros Eh. unfold s_validate_pc_signature. rewrite Eh. reflexivity. Qed.
Lemma s_validate_bad_text r text e : hw_of_string text = Throw e -> s_validate_pc_signature r text = Ok IDENTIFIERS_MISMATCH.
Proof. intros Eh. unfold s_validate_pc_signature. rewrite Eh. cbn [rbind]. rewrite (calm_hw_of_string _ _ Eh). reflexivity. Qed.
Lemma get_strategy_cases z : (exists s, get_strategy z = Ok s) \/ get_strategy z = Throw ExLogic.
Proof. unfold get_strategy. repeat match goal with |- context [if ?b then _ else _] => destruct b end; eauto. Qed.

(** generation *)
Lemma s_concrete_in s r h : s_generate_concrete s r = Ok (Some h) -> exists ids, s_alternative_ids s r = Ok ids /\ In h ids.
Proof. unfold s_generate_concrete. intros H. apply rbind_ok in H as [ids [E H]]. injection H as H. exists ids. split; [exact E|]. destruct ids; [discriminate|]. injection H as ->. left. reflexivity. Qed.
Lemma s_try_in l r h : s_try_strategies l r = Ok (Some h) -> exists s ids, concrete s /\ In (strat_num s) l /\ s_alternative_ids s r = Ok ids /\ In h ids.
Proof.
  induction l as [|z l IH]; [discriminate|]. cbn [s_try_strategies]. intros H. apply rbind_ok in H as [s [Es H]]. apply rbind_ok in H as [o [Eo H]].
  apply get_strategy_num in Es. destruct o as [h'|].
  - injection H as ->. destruct s as [|u|]; [discriminate| |]; apply s_concrete_in in Eo as [ids [A B]]; eexists _, ids; (split; [|split; [left; exact Es|split; [exact A|exact B]]]); discriminate.
  - destruct (IH H) as [s' [ids [A [B C]]]]. exists s', ids. split; [exact A|]. split; [right; exact B|exact C].
Qed.
Lemma s_generate_in s r h : s_generate_pc_id s r = Ok (Some h) -> exists s' ids, concrete s' /\ (concrete s -> s' = s) /\ s_alternative_ids s' r = Ok ids /\ In h ids.
Proof.
  destruct s as [|u|]; cbn [s_generate_pc_id]; intros H.
  - apply rbind_ok in H as [l [_ H]]. apply s_try_in in H as [s [ids [A [_ B]]]]. exists s, ids. split; [exact A|]. split; [congruence|exact B].
  - apply s_concrete_in in H as [ids H]. exists (StEthernet u), ids. split; [discriminate|]. split; [reflexivity|exact H].
  - apply s_concrete_in in H as [ids H]. exists StDisk, ids. split; [discriminate|]. split; [reflexivity|exact H].
Qed.
Lemma s_user_eq env r z : s_generate_user_pc_signature env r z =
  st <-- get_strategy (fst (chosen env z)) ;; o <-- s_generate_pc_id st r ;;
  match o with None => Throw ExLogic | Some h => hw_print (set_use_environment_var (snd (chosen env z)) h) end.
Proof. unfold s_generate_user_pc_signature. fold (chosen env z). destruct (chosen env z). reflexivity. Qed.
Lemma s_user_in env r z text : s_generate_user_pc_signature env r z = Ok text ->
  exists s s' h, get_strategy (fst (chosen env z)) = Ok s /\ concrete s' /\ (concrete s -> s' = s) /\
    hw_print (set_use_environment_var (snd (chosen env z)) h) = Ok text /\
    exists c data d, s_data s' r = Ok (c, data) /\ In d data /\ made (strat_num s') d h.
Proof.
  rewrite s_user_eq. intros H. apply rbind_ok in H as [s [Es H]]. apply rbind_ok in H as [o [Eo H]]. destruct o as [h|]; [|discriminate].
  apply s_generate_in in Eo as [s' [ids [A [B [C D]]]]]. exists s, s', h. split; [exact Es|]. split; [exact A|]. split; [exact B|]. split; [exact H|].
  destruct (s_alternative_inv _ _ _ C) as [c [data E]]. destruct (s_alternative_data _ _ _ _ A E) as [ids' [E' F]]. rewrite C in E'. injection E' as <-.
  destruct (made_left _ _ _ F h D) as [d [I M]]. exists c, data, d. auto.
Qed.
(** a machine that reads the same data accepts what was generated *)
Lemma s_generate_validate env r r' z text : s_generate_user_pc_signature env r z = Ok text ->
  (forall s c data, concrete s -> s_data s r = Ok (c, data) -> exists c' data', s_data s r' = Ok (c', data') /\ (forall d, In d data -> In d data')) ->
  s_validate_pc_signature r' text = Ok LICENSE_OK.
Proof.
  intros H Hr. apply s_user_in in H as [s [s' [h [_ [Hc [_ [Hp [c [data [d [Ed [Hd [Hs Hm]]]]]]]]]]]]].
  destruct (Hr _ _ _ Hc Ed) as [c' [data' [Ed' Sub]]].
  destruct (hw_round_trip (set_use_environment_var (snd (chosen env z)) h)) as [t [Ht Ho]]. rewrite Hp in Ht. injection Ht as <-.
  destruct (set_env_fields (snd (chosen env z)) h) as [F1 F2].
  destruct (s_validate_known r' text _ s' c' data' Ho) as [e [E [_ V]]].
  - rewrite F1, Hs. apply get_strategy_inv.
  - exact Ed'.
  - rewrite E. f_equal. apply V. exists d. split; [apply Sub, Hd|congruence].
Qed.
Lemma s_user_text env r z text : s_generate_user_pc_signature env r z = Ok text -> nul_free text /\ length text = 14.
Proof. intros H. apply s_user_in in H as [s [s' [h [_ [_ [_ [Hp _]]]]]]]. split; [eapply print_nul_free, Hp|eapply hw_print_len, Hp]. Qed.
Lemma s_identify_true env r z a size info b' s' x : size <= length a -> s_identify_pc env r z (Some a) size info = Ok (true, Some b', s', x) ->
  exists id, s_generate_user_pc_signature env r z = Ok id /\ cstr b' = id /\ 20 <= size.
Proof.
  intros L. unfold s_identify_pc, s_identify_buffer. unfold PC_IDENTIFIER_SIZE. destruct (Nat.ltb_spec 19 size) as [S1|S1].
  - destruct (s_generate_user_pc_signature env r z) as [id|e|u|] eqn:E; cbn [rbind]; try discriminate.
    + destruct (s_user_text _ _ _ _ E) as [T1 T2]. rewrite copy_id by (assumption || lia). cbn [rbind]. intros H. apply rbind_ok in H as [p [_ H]]. injection H as <- _ _.
      exists id. split; [reflexivity|]. split; [apply cstr_copied, T1|lia].
    + intros H. apply rbind_ok in H as [p [_ H]]. discriminate.
  - cbn [rbind]. intros H. apply rbind_ok in H as [p [_ H]]. discriminate.
Qed.
