From Verif Require Import Base CTypes StringUtils Base64 HwId Registry Network Disks ExecEnv Strategies Locate Licensecc
  P_Base P_Strings Spec_Base64 P_Base64 P_Decode Spec_HwId P_HwId P_HwText Spec_Listing P_DiskList Spec_Hw P_Hw.
From Coq Require Import Lia Permutation.

Lemma unbase64_shape s : (exists o, unbase64 s = Ok o) \/ unbase64 s = Throw ExLength \/ unbase64 s = Undef UbRead.
Proof.
  rewrite unbase64_strip.
  destruct (unbase64_cases (strip_lf s)) as [[_ H]|[[_ H]|[_ [_ [[_ H]|[_ [o H]]]]]]]; rewrite H; eauto.
Qed.
Lemma calm_unbase64 s : calm (unbase64 s).
Proof. destruct (unbase64_shape s) as [[o ->]|[-> | ->]]; auto with calm. apply calm_logic. reflexivity. Qed.
Lemma calm_hw_of_string s : calm (hw_of_string s).
Proof.
  unfold hw_of_string. apply calm_bind; [apply calm_unbase64|]. intros d _. destruct (hw_of_bytes d); [auto with calm|apply calm_logic; reflexivity].
Qed.
Lemma calm_get_strategy z : calm (get_strategy z).
Proof. unfold get_strategy. repeat match goal with |- context [if ?b then _ else _] => destruct b end; auto with calm. apply calm_logic. reflexivity. Qed.
Lemma calm_validate_id s m h : calm (validate_identifier s m h).
Proof.
  destruct s; cbn [validate_identifier]; [auto with calm| |]; (destruct (Z.eqb _ _); [|auto with calm]); apply calm_bind; try apply calm_alternative; auto with calm.
Qed.

(** ** validate_pc_signature *)
Lemma validate_no_throw m text e : validate_pc_signature m text <> Throw e.
Proof.
  unfold validate_pc_signature. set (body := rbind _ _).
  assert (Hc : calm body).
  { apply calm_bind; [apply calm_hw_of_string|]. intros h _. apply calm_bind; [apply calm_get_strategy|]. intros s _. apply calm_validate_id. }
  destruct body; try discriminate. rewrite (Hc e0 eq_refl). discriminate.
Qed.

(** the verdict on a decoded identifier *)
Definition verdict (m : machine) (h : hwid) : res event_type :=
  match get_strategy (strategy_bits h) with
  | Ok StDefault => Ok IDENTIFIERS_MISMATCH
  | Ok s => match alternative_ids s m with
            | Ok ids => Ok (if existsb (fun x => hw_eqb x h) ids then LICENSE_OK else IDENTIFIERS_MISMATCH)
            | Throw _ => Ok IDENTIFIERS_MISMATCH
            | Undef u => Undef u
            | OutOfFuel => OutOfFuel
            end
  | Throw _ => Ok IDENTIFIERS_MISMATCH
  | Undef u => Undef u
  | OutOfFuel => OutOfFuel
  end.
Lemma validate_verdict m text : validate_pc_signature m text =
  match hw_of_string text with
  | Ok h => verdict m h
  | Throw _ => Ok IDENTIFIERS_MISMATCH
  | Undef u => Undef u
  | OutOfFuel => OutOfFuel
  end.
Proof.
  unfold validate_pc_signature. destruct (hw_of_string text) as [h|x|u|] eqn:Eh; cbn [rbind]; try reflexivity.
  2: { rewrite (calm_hw_of_string _ _ Eh). reflexivity. }
  rewrite strategy_bits_eq. unfold verdict.
  destruct (get_strategy (strategy_bits h)) as [s|x|u|] eqn:Es; cbn [rbind]; try reflexivity.
  2: { rewrite (calm_get_strategy _ _ Es). reflexivity. }
  apply get_strategy_num in Es.
  destruct s as [|use_ip|]; [reflexivity| |]; cbn [validate_identifier]; rewrite strategy_bits_eq, Es; unfold strat_num; rewrite Z.eqb_refl;
    match goal with |- match rbind ?a _ with _ => _ end = _ => destruct a as [ids|x|u|] eqn:Ea end; cbn [rbind]; try reflexivity;
    rewrite (calm_alternative _ _ _ Ea); reflexivity.
Qed.

Lemma disks_data_no_throw ds e : disks_data ds <> Throw e.
Proof.
  induction ds as [|d ds IH]; cbn [disks_data]; [discriminate|]. unfold disk_data.
  destruct (dk_label_init d); [destruct (dk_label d); [|discriminate]|]; cbn [rbind]; destruct (disks_data ds); cbn; congruence.
Qed.
Lemma alternative_throw s m x : concrete s -> alternative_ids s m = Throw x -> forall d, ~ own m (strat_num s) d.
Proof.
  intros Hc H. destruct s as [|use_ip|]; [congruence| |]; cbn [alternative_ids] in H.
  - exfalso. destruct (generate_ethernet_pc_id use_ip m) as [[] data]; try discriminate.
    destruct (make_ids_ok (identification_strategy (StEthernet use_ip)) data) as [hs [E _]].
    { destruct use_ip; unfold identification_strategy, STRATEGY_IP_ADDRESS, STRATEGY_ETHERNET; lia. }
    congruence.
  - assert (Hd : forall ds, disks_of (hw_disks m) <> Ok (FUNC_RET_OK, ds)).
    { intros ds E. unfold generate_disk_pc_id in H. rewrite listing_eq, E in H. cbn [rbind] in H.
      destruct ds as [|d0 ds]; [discriminate|].
      destruct (disks_data (filter dk_preferred (d0 :: ds))) as [p|e| |] eqn:E1; cbn [rbind] in H; try discriminate; [|eapply disks_data_no_throw, E1].
      destruct (disks_data (filter (fun d => negb (dk_preferred d)) (d0 :: ds))) as [o|e| |] eqn:E2; cbn [rbind] in H; try discriminate; [|eapply disks_data_no_throw, E2].
      destruct (p ++ o) eqn:Epo; [discriminate|].
      destruct (make_ids_ok (identification_strategy StDisk) (p ++ o)) as [hs [E3 _]]; [unfold identification_strategy, STRATEGY_DISK; lia|]. rewrite Epo in E3. congruence. }
    intros d Hown. inversion Hown; eapply Hd; eassumption.
Qed.

Lemma verdict_spec m h e : order_ok m -> verdict m h = Ok e ->
  (e = LICENSE_OK \/ e = IDENTIFIERS_MISMATCH) /\ (e = LICENSE_OK <-> exists d, own m (strategy_bits h) d /\ data53 h = d7_53 d).
Proof.
  intros Ho H. unfold verdict in H. destruct (get_strategy (strategy_bits h)) as [s|x|u|] eqn:Es; try discriminate.
  2: { injection H as <-. split; [auto|]. split; [discriminate|]. intros [d [Hown _]]. destruct (own_strategy _ _ _ Hown) as [s [_ En]].
       rewrite <- En, get_strategy_inv in Es. discriminate. }
  apply get_strategy_num in Es. assert (Hc : concrete s).
  { intros ->. pose proof (strategy_bits_range h) as R. rewrite Es in R. unfold strat_num, identification_strategy, STRATEGY_DEFAULT in R. lia. }
  assert (Hal : match alternative_ids s m with
            | Ok ids => Ok (if existsb (fun x => hw_eqb x h) ids then LICENSE_OK else IDENTIFIERS_MISMATCH)
            | Throw _ => Ok IDENTIFIERS_MISMATCH
            | Undef u => Undef u
            | OutOfFuel => OutOfFuel
            end = Ok e) by (destruct s; [congruence|exact H|exact H]).
  clear H. rewrite Es. destruct (alternative_ids s m) as [ids|x|u|] eqn:Ea; try discriminate.
  2: { injection Hal as <-. split; [auto|]. split; [discriminate|]. intros [d [Hown _]]. exfalso. eapply alternative_throw; eassumption. }
  injection Hal as <-. destruct (alternative_spec _ _ _ Ho Hc Ea) as [H1 H2]. split; [destruct (existsb _ ids); auto|].
  destruct (existsb (fun x => hw_eqb x h) ids) eqn:Ex.
  - split; [|reflexivity]. intros _. apply existsb_exists in Ex as [x [Hin Hx]]. apply hw_eqb_fields in Hx as [_ Hx].
    destruct (H1 x Hin) as [_ [d [Hown Hd]]]. exists d. split; [exact Hown|congruence].
  - split; [discriminate|]. intros [d [Hown Hd]]. destruct (H2 d Hown) as [x [Hin [Hs Hx]]]. exfalso.
    apply not_true_iff_false in Ex. apply Ex, existsb_exists. exists x. split; [exact Hin|]. apply hw_eqb_fields.
    split; [rewrite Hs, strategy_bits_eq, Es; reflexivity|congruence].
Qed.

Lemma validate_spec0 m text e : order_ok m -> validate_pc_signature m text = Ok e ->
  (e = LICENSE_OK \/ e = IDENTIFIERS_MISMATCH) /\
  (e = LICENSE_OK <-> exists h d, hw_of_string text = Ok h /\ own m (strategy_bits h) d /\ data53 h = d7_53 d).
Proof.
  intros Ho H. rewrite validate_verdict in H. destruct (hw_of_string text) as [h|x|u|]; try discriminate.
  - destruct (verdict_spec _ _ _ Ho H) as [H1 H2]. split; [exact H1|]. rewrite H2. split.
    + intros [d Hd]. eauto.
    + intros [h' [d [[= <-] Hd]]]. eauto.
  - injection H as <-. split; [auto|]. split; [discriminate|]. intros [h [d [E _]]]. discriminate E.
Qed.

Lemma validate_spec m text e : order_ok m -> validate_pc_signature m text = Ok e ->
  (e = LICENSE_OK \/ e = IDENTIFIERS_MISMATCH) /\
  (e = LICENSE_OK <-> exists h d, denotes text h /\ own m (strategy_bits h) d /\ data53 h = d7_53 d).
Proof.
  intros Ho H. destruct (validate_spec0 _ _ _ Ho H) as [H1 H2]. split; [exact H1|]. rewrite H2.
  split; intros [h [d [E X]]]; exists h, d; (split; [apply denotes_iff, E|exact X]).
Qed.

(** ** Independence of the iteration order *)
Lemma eth_total use_ip m : exists ids, alternative_ids (StEthernet use_ip) m = Ok ids.
Proof.
  cbn [alternative_ids]. destruct (generate_ethernet_pc_id use_ip m) as [[] data]; eauto.
  destruct (make_ids_ok (identification_strategy (StEthernet use_ip)) data) as [hs [E _]]; [|eauto].
  destruct use_ip; unfold identification_strategy, STRATEGY_IP_ADDRESS, STRATEGY_ETHERNET; lia.
Qed.
Lemma eth_not_two use_ip z : strat_num (StEthernet use_ip) = z -> z <> 2%Z.
Proof. destruct use_ip; cbn; intros <-; discriminate. Qed.

(** The verdict is determined by what the machine owns (for the network) and by its
    disks: a decoded identifier is judged alike on machines that agree on these. *)
Lemma verdict_agree m m' h : order_ok m -> order_ok m' -> hw_disks m' = hw_disks m ->
  (forall z d, z <> 2%Z -> own m z d <-> own m' z d) -> verdict m h = verdict m' h.
Proof.
  intros Ho Ho' Hd Hag. unfold verdict. destruct (get_strategy (strategy_bits h)) as [[|use_ip|]|x|u|] eqn:Es; try reflexivity.
  - apply get_strategy_num in Es. destruct (eth_total use_ip m) as [ids E], (eth_total use_ip m') as [ids' E'].
    rewrite E, E'. assert (Hc : concrete (StEthernet use_ip)) by discriminate.
    destruct (alternative_spec _ _ _ Ho Hc E) as [H1 H2], (alternative_spec _ _ _ Ho' Hc E') as [H1' H2'].
    assert (Hz : strat_num (StEthernet use_ip) <> 2%Z) by (eapply eth_not_two; reflexivity).
    assert (G : existsb (fun x => hw_eqb x h) ids = existsb (fun x => hw_eqb x h) ids'); [|rewrite G; reflexivity].
    apply eq_true_iff_eq. rewrite !existsb_exists. split; intros [x [Hin Hx]]; apply hw_eqb_fields in Hx as [Hs Hx].
    + destruct (H1 x Hin) as [Hsx [d [Hown Hd1]]]. apply Hag in Hown; [|exact Hz]. destruct (H2' d Hown) as [x' [Hin' [Hs' Hd']]].
      exists x'. split; [exact Hin'|]. apply hw_eqb_fields. split; congruence.
    + destruct (H1' x Hin) as [Hsx [d [Hown Hd1]]]. apply Hag in Hown; [|exact Hz]. destruct (H2 d Hown) as [x' [Hin' [Hs' Hd']]].
      exists x'. split; [exact Hin'|]. apply hw_eqb_fields. split; congruence.
  - cbn [alternative_ids]. unfold generate_disk_pc_id. rewrite Hd. reflexivity.
Qed.

Lemma own_heard m m' l l' : hw_ifaddrs m = Some l -> hw_ifaddrs m' = Some l' ->
  (forall n, heard n l <> [] -> heard n l' = heard n l) -> forall z d, z <> 2%Z -> own m z d -> own m' z d.
Proof.
  intros El El' H z d Hz Hown. inversion Hown as [l0 n a b c dd e f Hl Hn Hi Hzr|l0 n a b c dd Hl Hn Hi Hzr| |]; subst; try congruence;
    rewrite El in Hl; injection Hl as <-; pose proof (H n Hn) as E.
  - eapply own_mac; [exact El'|rewrite E; exact Hn|unfold iface_mac; rewrite E; exact Hi|exact Hzr].
  - eapply own_ip; [exact El'|rewrite E; exact Hn|unfold iface_ip; rewrite E; exact Hi|exact Hzr].
Qed.

Lemma validate_order m m' text : order_ok m -> order_ok m' -> same_hardware m m' ->
  validate_pc_signature m' text = validate_pc_signature m text.
Proof.
  intros Ho Ho' [Hi [Hd _]]. rewrite !validate_verdict. destruct (hw_of_string text) as [h|x|u|]; try reflexivity.
  apply verdict_agree; [exact Ho'|exact Ho|congruence|]. intros z d Hz.
  split; intros Hown; destruct Hown; try congruence; solve [eapply own_mac; eauto; congruence|eapply own_ip; eauto; congruence].
Qed.
Lemma validate_interleave m m' l l' text : order_ok m -> order_ok m' ->
  hw_ifaddrs m = Some l -> hw_ifaddrs m' = Some l' -> hw_disks m' = hw_disks m ->
  (forall n, heard n l' = heard n l) -> validate_pc_signature m' text = validate_pc_signature m text.
Proof.
  intros Ho Ho' El El' Hd Hh. rewrite !validate_verdict. destruct (hw_of_string text) as [h|x|u|]; try reflexivity.
  apply verdict_agree; [exact Ho'|exact Ho|congruence|]. intros z d Hz. split; eapply own_heard; eauto.
Qed.
Lemma validate_added m m' l l' text : order_ok m -> order_ok m' ->
  hw_ifaddrs m = Some l -> hw_ifaddrs m' = Some l' -> hw_disks m' = hw_disks m ->
  (forall n, heard n l <> [] -> heard n l' = heard n l) ->
  validate_pc_signature m text = Ok LICENSE_OK -> validate_pc_signature m' text = Ok LICENSE_OK.
Proof.
  intros Ho Ho' El El' Hd Hh H. rewrite validate_verdict in *. destruct (hw_of_string text) as [h|x|u|]; try discriminate.
  destruct (verdict_spec _ _ _ Ho H) as [_ [HX _]]. destruct (HX eq_refl) as [d [Hown Hx]]. clear HX.
  destruct (Z.eq_dec (strategy_bits h) 2) as [E2|E2].
  - unfold verdict in *. rewrite E2 in *. change (get_strategy 2) with (Ok StDisk) in *. cbn [alternative_ids] in *.
    unfold generate_disk_pc_id in *. rewrite Hd. exact H.
  - assert (Hown' : own m' (strategy_bits h) d) by (eapply (own_heard m m'); eauto).
    destruct (own_strategy _ _ _ Hown') as [s [Hc Es]]. assert (exists e, verdict m' h = Ok e) as [e He].
    { unfold verdict. rewrite <- Es, get_strategy_inv. destruct s as [|u|]; [congruence| |].
      - destruct (eth_total u m') as [ids ->]. eauto.
      - exfalso. apply E2. rewrite <- Es. reflexivity. }
    rewrite He. f_equal. apply (verdict_spec _ _ _ Ho' He). eauto.
Qed.
(** disks in another order, or with other preferences *)
Definition same_disk (d d' : disk) : Prop :=
  dk_sn d = dk_sn d' /\ dk_sn_init d = dk_sn_init d' /\ dk_label d = dk_label d' /\ dk_label_init d = dk_label_init d'.
Lemma validate_disks m m' ds ds' text e e' : order_ok m -> order_ok m' -> hw_ifaddrs m' = hw_ifaddrs m ->
  disks_of (hw_disks m) = Ok (FUNC_RET_OK, ds) -> disks_of (hw_disks m') = Ok (FUNC_RET_OK, ds') ->
  (forall d, In d ds -> exists d', In d' ds' /\ same_disk d d') -> (forall d, In d ds' -> exists d', In d' ds /\ same_disk d d') ->
  validate_pc_signature m text = Ok e -> validate_pc_signature m' text = Ok e' -> e = e'.
Proof.
  intros Ho Ho' Hi Ed Ed' H1 H2 He He'. destruct (validate_spec _ _ _ Ho He) as [C1 C2], (validate_spec _ _ _ Ho' He') as [C1' C2'].
  assert (G : forall z d, own m z d <-> own m' z d).
  { assert (A : forall m m' ds ds', hw_ifaddrs m' = hw_ifaddrs m -> disks_of (hw_disks m) = Ok (FUNC_RET_OK, ds) ->
       disks_of (hw_disks m') = Ok (FUNC_RET_OK, ds') -> (forall d, In d ds -> exists d', In d' ds' /\ same_disk d d') -> forall z d, own m z d -> own m' z d).
    { clear. intros m m' ds ds' Hi Ed Ed' H1 z d Hown. inversion Hown as [l n a b c dd e f Hl Hn Hm Hz|l n a b c dd Hl Hn Hm Hz|ds0 dk E Hin Hs|ds0 dk lab E Hin Hl Hb]; subst.
      - eapply own_mac; eauto. congruence.
      - eapply own_ip; eauto. congruence.
      - rewrite Ed in E. injection E as <-. destruct (H1 dk Hin) as [dk' [Hin' [S1 [S2 [S3 S4]]]]]. rewrite S1. eapply own_serial; [exact Ed'|exact Hin'|congruence].
      - rewrite Ed in E. injection E as <-. destruct (H1 dk Hin) as [dk' [Hin' [S1 [S2 [S3 S4]]]]]. eapply own_label; [exact Ed'|exact Hin'|congruence|congruence]. }
    intros z d. split; [eapply (A m m'); eauto|eapply (A m' m); eauto]. }
  assert (e = LICENSE_OK <-> e' = LICENSE_OK) as Hiff.
  { rewrite C2, C2'. split; intros [h [d [A [B C]]]]; exists h, d; (split; [exact A|]); (split; [apply G; exact B|exact C]). }
  destruct C1 as [->| ->], C1' as [->| ->]; try reflexivity; exfalso; [assert (IDENTIFIERS_MISMATCH = LICENSE_OK) by (apply Hiff; reflexivity)|assert (IDENTIFIERS_MISMATCH = LICENSE_OK) by (apply Hiff; reflexivity)]; discriminate.
Qed.

(** ** Generation *)
Lemma generate_concrete_in s m h : generate_concrete s m = Ok (Some h) -> exists ids, alternative_ids s m = Ok ids /\ In h ids.
Proof.
  unfold generate_concrete. intros H. apply rbind_ok in H as [ids [E H]]. exists ids. split; [exact E|].
  destruct ids as [|x l]; [discriminate|]. injection H as ->. left. reflexivity.
Qed.
Lemma try_in l m h : try_strategies l m = Ok (Some h) -> exists s ids, concrete s /\ In (strat_num s) l /\ alternative_ids s m = Ok ids /\ In h ids.
Proof.
  induction l as [|z l IH]; cbn [try_strategies]; [discriminate|]. intros H. apply rbind_ok in H as [s [Es H]]. apply rbind_ok in H as [o [Eo H]].
  pose proof (get_strategy_num _ _ Es) as Ez.
  destruct o as [h'|].
  - injection H as ->. destruct s as [|u|]; [discriminate| |]; apply generate_concrete_in in Eo as [ids [E1 E2]];
      eexists _, ids; (split; [|split; [left; exact Ez|split; [exact E1|exact E2]]]); discriminate.
  - destruct (IH H) as [s' [ids [A [B C]]]]. exists s', ids. split; [exact A|]. split; [right; exact B|exact C].
Qed.
Lemma generate_in s m h : generate_pc_id s m = Ok (Some h) -> exists s' ids, concrete s' /\ (concrete s -> s' = s) /\ alternative_ids s' m = Ok ids /\ In h ids.
Proof.
  destruct s as [|u|]; cbn [generate_pc_id]; intros H.
  - apply rbind_ok in H as [l [_ H]]. apply try_in in H as [s [ids [A [_ B]]]]. exists s, ids. split; [exact A|]. split; [congruence|exact B].
  - apply generate_concrete_in in H as [ids H]. exists (StEthernet u), ids. split; [discriminate|]. split; [reflexivity|exact H].
  - apply generate_concrete_in in H as [ids H]. exists StDisk, ids. split; [discriminate|]. split; [reflexivity|exact H].
Qed.
(** the strategy generate_user_pc_signature settles for *)
Definition chosen (env : option bytes) (z : Z) : Z * bool :=
  if Z.eqb z STRATEGY_DEFAULT then
    match env with
    | Some (c :: r) => let v := atoi (c :: r) in if Z.ltb v 0 || Z.ltb 3 v then (z, false) else (v, true)
    | _ => (z, false)
    end
  else (z, false).
Lemma generate_user_in env m z text : generate_user_pc_signature env m z = Ok text ->
  exists s s' ids h, get_strategy (fst (chosen env z)) = Ok s /\ concrete s' /\ (concrete s -> s' = s) /\
    alternative_ids s' m = Ok ids /\ In h ids /\ hw_print (set_use_environment_var (snd (chosen env z)) h) = Ok text.
Proof.
  unfold generate_user_pc_signature. fold (chosen env z). destruct (chosen env z) as [z' b]. cbn [fst snd].
  intros H. apply rbind_ok in H as [s [Es H]]. apply rbind_ok in H as [o [Eo H]].
  destruct o as [h|]; [|discriminate]. apply generate_in in Eo as [s' [ids [A [B [C D]]]]].
  exists s, s', ids, h. repeat split; assumption.
Qed.

Lemma set_env_fields b h : strategy_bits (set_use_environment_var b h) = strategy_bits h /\ data53 (set_use_environment_var b h) = data53 h.
Proof. destruct h. split; reflexivity. Qed.

Lemma generated_valid m h s ids b : order_ok m -> concrete s -> alternative_ids s m = Ok ids -> In h ids ->
  verdict m (set_use_environment_var b h) = Ok LICENSE_OK.
Proof.
  intros Ho Hc Ea Hin. destruct (alternative_spec _ _ _ Ho Hc Ea) as [H1 _]. destruct (H1 h Hin) as [Hs _].
  unfold verdict. destruct (set_env_fields b h) as [-> Hd]. rewrite strategy_bits_eq in Hs. rewrite Hs, get_strategy_inv.
  assert (existsb (fun x => hw_eqb x (set_use_environment_var b h)) ids = true) as G.
  { apply existsb_exists. exists h. split; [exact Hin|]. apply hw_eqb_fields. rewrite Hd, !strategy_bits_eq. split; [|reflexivity]. destruct h. reflexivity. }
  destruct s as [|u|]; [congruence| |]; rewrite Ea, G; reflexivity.
Qed.
Lemma generate_validate env m m' z text : order_ok m -> order_ok m' -> same_hardware m m' ->
  generate_user_pc_signature env m z = Ok text -> validate_pc_signature m' text = Ok LICENSE_OK.
Proof.
  intros Ho Ho' Hs H. rewrite (validate_order m m' text Ho Ho' Hs). apply generate_user_in in H as [s [s' [ids [h [_ [Hc [_ [Ea [Hin Hp]]]]]]]]]. set (b := snd (chosen env z)) in *.
  rewrite validate_verdict. destruct (hw_round_trip (set_use_environment_var b h)) as [t [Ht Hr]]. rewrite Hp in Ht. injection Ht as <-. rewrite Hr.
  eapply generated_valid; eassumption.
Qed.
Lemma generate_owned env m z text h : order_ok m -> generate_user_pc_signature env m z = Ok text -> denotes text h ->
  exists d, own m (strategy_bits h) d /\ data53 h = d7_53 d.
Proof.
  intros Ho H Hh. assert (validate_pc_signature m text = Ok LICENSE_OK) as V by (eapply (generate_validate env m m); [exact Ho|exact Ho|repeat split|exact H]).
  destruct (validate_spec _ _ _ Ho V) as [_ [HX _]]. destruct (HX eq_refl) as [h' [d [E Hd]]]. rewrite (denotes_fun _ _ _ Hh E). eauto.
Qed.

(** ** identify_pc *)
Lemma or_empty_no_throw r e : or_empty r <> Throw e.
Proof. destruct r; discriminate. Qed.
Lemma exec_no_throw x e : make_exec_env x <> Throw e.
Proof.
  unfold make_exec_env, read_dmi. set (a := or_empty _). set (b := or_empty _). set (c := or_empty _).
  assert (Ha : forall e, a <> Throw e) by (intros; apply or_empty_no_throw). assert (Hb : forall e, b <> Throw e) by (intros; apply or_empty_no_throw).
  assert (Hc : forall e, c <> Throw e) by (intros; apply or_empty_no_throw).
  destruct a; cbn [rbind]; try discriminate; [|intros _; eapply Ha; reflexivity].
  destruct b; cbn [rbind]; try discriminate; [|intros _; eapply Hb; reflexivity].
  destruct c; cbn [rbind]; try discriminate. intros _; eapply Hc; reflexivity.
Qed.
Lemma alpha_nonnul c : Spec_Strings.b64_alpha c -> nonnul c = true.
Proof.
  unfold Spec_Strings.b64_alpha. intros H. destruct (nonnul c) eqn:E; [reflexivity|].
  exfalso. unfold nonnul in E. apply negb_false_iff, Ascii.eqb_eq in E. subst c.
  repeat (destruct H as [H|H]; [discriminate H|]). destruct H.
Qed.
Lemma print_nul_free h s : hw_print h = Ok s -> nul_free s.
Proof.
  intros H. destruct (hw_print_format _ _ H) as [a [b [c [-> [_ [_ [_ F]]]]]]]. unfold nul_free.
  assert (G : forall l, Forall Spec_Strings.b64_alpha l -> forallb nonnul l = true).
  { induction 1; cbn; [reflexivity|]. rewrite alpha_nonnul by assumption. assumption. }
  apply Forall_app in F as [Fa F]. apply Forall_app in F as [Fb Fc].
  rewrite forallb_app. cbn [forallb]. rewrite forallb_app. cbn [forallb]. rewrite forallb_app. rewrite !G by assumption. reflexivity.
Qed.
Lemma generate_text env m z text : generate_user_pc_signature env m z = Ok text -> nul_free text /\ length text = 14.
Proof. intros H. apply generate_user_in in H as [s [s' [ids [h [_ [_ [_ [_ [_ Hp]]]]]]]]]. split; [eapply print_nul_free, Hp|eapply hw_print_len, Hp]. Qed.

Lemma copy_id a id size : nul_free id -> length id = 14 -> 20 <= size -> size <= length a ->
  mstrlcpy a (c_str id) size = Ok (id ++ NUL :: skipn 15 a, 15).
Proof.
  intros Hn Hl Hs Ha. unfold c_str. rewrite mstrlcpy_spec by (try assumption; lia).
  rewrite firstn_all2 by lia. rewrite Nat.min_r by lia. rewrite Hl. reflexivity.
Qed.

Lemma identify_pc_eq env m z buf size info :
  identify_pc env m z buf size info =
  '(b, buf', size') <-- identify_buffer env m z buf size ;;
  e <-- make_exec_env (hw_exec m) ;;
  Ok (b, buf', size', if info : bool then Some {| xi_cloud := cloud_provider e; xi_virt := virtualization e; xi_detail := virtualization_detail e |} else None).
Proof.
  unfold identify_pc, identify_call. destruct (identify_buffer env m z buf size) as [[[b b1] s1]| | |]; cbn [rbind]; try reflexivity.
  destruct (make_exec_env (hw_exec m)); reflexivity.
Qed.
Lemma identify_cases env m z buf size info : (forall a, buf = Some a -> size <= length a) ->
  identify_pc env m z buf size info =
  '(b, buf', size') <--
    match buf with
    | Some a => if Nat.ltb 19 size then
                  match generate_user_pc_signature env m z with
                  | Ok id => Ok (true, Some (id ++ NUL :: skipn 15 a), size)
                  | Throw _ => Ok (false, buf, size)
                  | Undef u => Undef u
                  | OutOfFuel => OutOfFuel
                  end
                else Ok (false, buf, 20)
    | None => Ok (false, buf, 20)
    end ;;
  e <-- make_exec_env (hw_exec m) ;;
  Ok (b, buf', size', if info : bool then Some {| xi_cloud := cloud_provider e; xi_virt := virtualization e; xi_detail := virtualization_detail e |} else None).
Proof.
  intros Hb. rewrite identify_pc_eq. unfold identify_buffer. destruct buf as [a|]; [|reflexivity]. unfold PC_IDENTIFIER_SIZE. destruct (Nat.ltb_spec 19 size) as [Hs|Hs]; [|reflexivity].
  destruct (generate_user_pc_signature env m z) as [id|e|u|] eqn:Eg; try reflexivity.
  destruct (generate_text _ _ _ _ Eg) as [Hn Hl]. rewrite copy_id; [reflexivity|exact Hn|exact Hl|lia|apply Hb; reflexivity].
Qed.

Lemma identify_no_throw env m z buf size info e : (forall a, buf = Some a -> size <= length a) -> identify_pc env m z buf size info <> Throw e.
Proof.
  intros Hb. rewrite identify_cases by exact Hb.
  assert (Hx := exec_no_throw (hw_exec m)). destruct (make_exec_env (hw_exec m)) as [x|e'|u|]; [| exfalso; eapply Hx; reflexivity | |];
    destruct buf as [a|]; cbn [rbind]; try discriminate; destruct (Nat.ltb 19 size); cbn [rbind]; try discriminate;
    destruct (generate_user_pc_signature env m z); cbn [rbind]; discriminate.
Qed.

(** MAC and IP identifiers determine the address *)
Lemma own_net_inj m m' z d d' : z <> 2%Z -> own m z d -> own m' z d' -> d7_53 d = d7_53 d' -> d = d'.
Proof.
  intros Hz H H'. destruct H; try congruence; inversion H'; subst; cbn [d7_53]; intros E; injection E as; subst; reflexivity.
Qed.
