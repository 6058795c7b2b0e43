(** One identifier per usable adapter; disks that are told apart or not. *)
From Verif Require Import Base CTypes StringUtils HwId Registry Network Disks ExecEnv Strategies Licensecc.
From Verif Require Import P_Base Spec_Base64 Spec_HwId P_HwId P_HwText Spec_Hw P_Hw P_Hw2.
From Coq Require Import Permutation.

Lemma filter_map_perm {A B} (f : A -> option B) l l' : Permutation l l' -> Permutation (filter_map f l) (filter_map f l').
Proof.
  induction 1; cbn [filter_map].
  - constructor.
  - destruct (f x); [constructor|]; assumption.
  - destruct (f y), (f x); try reflexivity. constructor.
  - etransitivity; eassumption.
Qed.
Lemma filter_map_map {A B C} (g : A -> B) (f : B -> option C) l : filter_map f (map g l) = filter_map (fun a => f (g a)) l.
Proof. induction l as [|a l IH]; cbn; [reflexivity|]. rewrite IH. reflexivity. Qed.
Lemma filter_map_filter {A B} (f : A -> option B) (d : B) l :
  filter_map f l = map (fun a => match f a with Some b => b | None => d end) (filter (fun a => match f a with Some _ => true | None => false end) l).
Proof. induction l as [|a l IH]; cbn; [reflexivity|]. destruct (f a) eqn:E; cbn; [rewrite E, IH|]; congruence. Qed.

(** the data of the identifier of an interface *)
Definition mac_data (m : mac6) : data7 := let '(Mac a b c d e f) := m in D7 NUL a b c d e f.
Definition ip_data (i : ipv4) : data7 := let '(Ip a b c d) := i in D7 NUL a b c d "*" "*".

Lemma mac_zero_eq m : mac_is_zero m = true <-> m = mac_zero.
Proof. destruct m. rewrite mac_zero_iff. split; [intros [-> [-> [-> [-> [-> ->]]]]]; reflexivity|intros [=]; subst; tauto]. Qed.
Lemma ip_zero_eq m : ip_is_zero m = true <-> m = ip_zero.
Proof. destruct m. rewrite ip_zero_iff. split; [intros [-> [-> [-> ->]]]; reflexivity|intros [=]; subst; tauto]. Qed.

Lemma Forall2_map53 z data hs : Forall2 (fun d h => get_identification_strategy h = z /\ data53 h = d7_53 d) data hs -> map data53 hs = map d7_53 data.
Proof. induction 1 as [|d h l hs [_ E] F IH]; cbn; [reflexivity|]. congruence. Qed.

Lemma eth_exactly use_ip m l ids : order_ok m -> hw_ifaddrs m = Some l -> alternative_ids (StEthernet use_ip) m = Ok ids ->
  exists names, NoDup names /\
    (forall n, In n names <-> heard n l <> [] /\ (if use_ip then iface_ip l n <> ip_zero else iface_mac l n <> mac_zero)) /\
    Permutation (map data53 ids) (map (fun n => d7_53 (if use_ip then ip_data (iface_ip l n) else mac_data (iface_mac l n))) names).
Proof.
  intros Ho El H. cbn [alternative_ids] in H. unfold generate_ethernet_pc_id in H. rewrite El in H.
  destruct (get_adapter_infos (hw_order m) (Some l)) as [r ads] eqn:Eg.
  assert (Hr : r = FUNC_RET_OK \/ r <> FUNC_RET_OK) by (destruct r; [left; reflexivity|right; discriminate..]).
  destruct Hr as [->|Hr].
  - destruct (adapters_exact _ _ _ Ho Eg) as [names [Hnd [Hin Hp]]].
    set (f := fun n => adapter_data use_ip (adapter_of l n)).
    exists (filter (fun n => match f n with Some _ => true | None => false end) names).
    split; [apply NoDup_filter, Hnd|].
    assert (Hf : forall n, f n = if use_ip then (if ip_is_zero (iface_ip l n) then None else Some (ip_data (iface_ip l n)))
                           else (if mac_is_zero (iface_mac l n) then None else Some (mac_data (iface_mac l n)))).
    { intros n. unfold f, adapter_data, adapter_of. cbn [ad_ip ad_mac]. destruct use_ip.
      - destruct (ip_is_zero (iface_ip l n)); [reflexivity|]. destruct (iface_ip l n). reflexivity.
      - destruct (mac_is_zero (iface_mac l n)); [reflexivity|]. destruct (iface_mac l n). reflexivity. }
    assert (Hfm : forall data, data = filter_map (adapter_data use_ip) ads -> make_ids (identification_strategy (StEthernet use_ip)) data = Ok ids ->
      Permutation (map data53 ids) (map (fun n => d7_53 (if use_ip then ip_data (iface_ip l n) else mac_data (iface_mac l n)))
        (filter (fun n => match f n with Some _ => true | None => false end) names))).
    { intros data -> Hm.
      destruct (make_ids_ok (identification_strategy (StEthernet use_ip)) (filter_map (adapter_data use_ip) ads)) as [hs [E F]].
      { destruct use_ip; unfold identification_strategy, STRATEGY_IP_ADDRESS, STRATEGY_ETHERNET; lia. }
      rewrite E in Hm. injection Hm as ->. rewrite (Forall2_map53 _ _ _ F).
      rewrite (filter_map_perm (adapter_data use_ip) _ _ Hp), filter_map_map. fold f.
      rewrite (filter_map_filter f (D7 NUL NUL NUL NUL NUL NUL NUL)), map_map.
      apply Permutation_refl', map_ext_in. intros n Hn. apply filter_In in Hn as [_ Hn]. rewrite Hf in *.
      destruct use_ip; [destruct (ip_is_zero (iface_ip l n))|destruct (mac_is_zero (iface_mac l n))]; congruence || reflexivity. }
    split.
    + intros n. rewrite filter_In, Hin, Hf. destruct use_ip.
      * destruct (ip_is_zero (iface_ip l n)) eqn:E; [apply ip_zero_eq in E|]; (split; [|tauto || intros [A B]]); intros [A B]; (split; [assumption|]); try congruence.
        intros C. apply ip_zero_eq in C. congruence.
      * destruct (mac_is_zero (iface_mac l n)) eqn:E; [apply mac_zero_eq in E|]; (split; [|tauto || intros [A B]]); intros [A B]; (split; [assumption|]); try congruence.
        intros C. apply mac_zero_eq in C. congruence.
    + destruct ads as [|a ads'].
      * injection H as <-. apply (Hfm []); reflexivity.
      * apply (Hfm _ eq_refl), H.
  - assert (r = FUNC_RET_NOT_AVAIL) as ->.
    { pose proof (adapters_codes (hw_order m) l) as E. rewrite Eg in E. cbn [fst] in E. destruct (existsb _ _); congruence. }
    assert (ids = []) as -> by (destruct ads; congruence). exists []. split; [constructor|]. split; [|constructor].
    intros n. split; [intros []|]. intros [Hn _]. apply Hn. apply (adapters_none (hw_order m)). rewrite Eg. reflexivity.
Qed.

Lemma get_strategy_throws z : ~ (z = -1 \/ z = 0 \/ z = 1 \/ z = 2)%Z -> get_strategy z = Throw ExLogic.
Proof.
  unfold get_strategy, STRATEGY_DEFAULT, STRATEGY_ETHERNET, STRATEGY_IP_ADDRESS, STRATEGY_DISK. intros H.
  destruct (Z.eqb_spec z (-1)); [tauto|]. destruct (Z.eqb_spec z 0); [tauto|]. destruct (Z.eqb_spec z 1); [tauto|]. destruct (Z.eqb_spec z 2); [tauto|]. reflexivity.
Qed.
Lemma unsupported_generate env m z : ~ (z = -1 \/ z = 0 \/ z = 1 \/ z = 2)%Z -> generate_user_pc_signature env m z = Throw ExLogic.
Proof.
  intros H. unfold generate_user_pc_signature. destruct (Z.eqb_spec z STRATEGY_DEFAULT) as [->|]; [unfold STRATEGY_DEFAULT in H; tauto|].
  rewrite get_strategy_throws by exact H. reflexivity.
Qed.
Lemma unsupported_validate m text h : denotes text h -> (3 <= strategy_bits h)%Z -> validate_pc_signature m text = Ok IDENTIFIERS_MISMATCH.
Proof.
  intros E H. apply denotes_iff in E. rewrite validate_verdict, E. unfold verdict. rewrite get_strategy_throws by lia. reflexivity.
Qed.
Lemma undecodable_validate m text : ~ over_read (undashed text) -> (forall h, ~ denotes text h) -> validate_pc_signature m text = Ok IDENTIFIERS_MISMATCH.
Proof. intros H1 H2. destruct (proj2 (hw_of_string_throw text) (conj H1 H2)) as [x E]. rewrite validate_verdict, E. reflexivity. Qed.

Lemma cstr_copied id a : nul_free id -> cstr (id ++ NUL :: a) = id.
Proof. apply cstr_app_nul. Qed.
