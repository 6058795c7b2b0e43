(** What a Windows machine generates. *)
From Verif Require Import Base CTypes StringUtils HwId Registry Network Disks CpuInfo ExecEnv Strategies Licensecc Shared WinSmbios WinNetwork WinMachine.
From Verif Require Import P_Base Spec_HwId P_HwId P_HwText P_Hw P_Hw2 Spec_WinNet P_WinNet P_Shared Spec_Windows P_Windows.
From Coq Require Import Permutation Sorted Lia.

(** a strategy generates the first of its data *)
Lemma s_first s r c data : concrete s -> s_data s r = Ok (c, data) ->
  match data with
  | [] => s_generate_user_pc_signature None r (strat_num s) = Throw ExLogic
  | d :: _ => exists text h, s_generate_user_pc_signature None r (strat_num s) = Ok text /\ denotes text h /\ strategy_bits h = strat_num s /\ data53 h = d7_53 d
  end.
Proof.
  intros Hc E. destruct (s_alternative_data _ _ _ _ Hc E) as [ids [Ei F]]. rewrite s_user_eq.
  assert (Ech : chosen None (strat_num s) = (strat_num s, false)) by (unfold chosen; destruct (Z.eqb _ _); reflexivity). rewrite Ech. cbn [fst snd].
  rewrite get_strategy_inv. cbn [rbind].
  assert (G : s_generate_pc_id s r = Ok (hd_error ids)) by (destruct s; [congruence| |]; cbn [s_generate_pc_id]; unfold s_generate_concrete; rewrite Ei; reflexivity).
  rewrite G. cbn [rbind]. destruct F as [|d h data ids [M1 M2] F]; cbn [hd_error]; [reflexivity|].
  destruct (hw_round_trip (set_use_environment_var false h)) as [t [Ht Ho]]. destruct (set_env_fields false h) as [F1 F2].
  exists t, (set_use_environment_var false h). split; [exact Ht|]. split; [apply denotes_iff, Ho|]. split; congruence.
Qed.

(** ** Disk *)
Lemma filter_first {A} (f : A -> bool) l : match filter f l with
  | [] => forall x, In x l -> f x = false
  | a :: _ => exists b c, l = b ++ a :: c /\ f a = true /\ forall x, In x b -> f x = false end.
Proof.
  induction l as [|a l IH]; cbn; [intros x []|]. destruct (f a) eqn:E; [exists [], l; repeat split; [exact E|intros x []]|].
  destruct (filter f l) as [|y r]; [intros x [<-|H]; auto|]. destruct IH as [b [c [-> [H1 H2]]]]. exists (a :: b), c. split; [reflexivity|]. split; [exact H1|]. intros x [<-|H]; auto.
Qed.
Lemma disks_data_head dk l x : disks_data (dk :: l) = Ok x -> (exists k d v, dk = disk_of_volume k d v) -> exists r, x = generate_id_by_sn dk :: r.
Proof.
  intros H [k [d [v ->]]]. cbn [disks_data] in H. rewrite one_disk_data in H. cbn [rbind] in H. apply rbind_ok in H as [y [_ H]]. injection H as <-. eexists. reflexivity.
Qed.
Lemma preferred_iff k d v : dk_preferred (disk_of_volume k d v) = true <-> on_drive_c d.
Proof.
  unfold on_drive_c. cbn [dk_preferred disk_of_volume]. destruct (dr_root d) as [|c r]; [split; [discriminate|intros [r H]; discriminate]|].
  rewrite Ascii.eqb_eq. split; [intros ->; eauto|intros [r' H]; injection H as -> _; reflexivity].
Qed.
Lemma disks_found_split m b dk c : disks_found m = b ++ dk :: c ->
  exists before d v after, machine_volumes m = before ++ (d, v) :: after /\ length before = length b /\ dk = disk_of_volume (length b) d v.
Proof.
  intros E. assert (Hk : nth_error (disks_found m) (length b) = Some dk) by (rewrite E, nth_error_app2, Nat.sub_diag by lia; reflexivity).
  rewrite disks_nth in Hk. destruct (nth_error (machine_volumes m) (length b)) as [[d v]|] eqn:Ev; [|discriminate]. injection Hk as <-.
  apply nth_error_split in Ev as [b' [a' [Ev L]]]. exists b', d, v, a'. auto.
Qed.
Lemma disk_first m : (machine_volumes m = [] /\ exists c, s_data StDisk (win_readings m) = Ok (c, [])) \/
  (exists c d v a b e f rest, chosen_volume m d v /\ le32_bytes (vo_serial v) a b e f /\ s_data StDisk (win_readings m) = Ok (c, D7 a b e f NUL NUL NUL :: rest)).
Proof.
  cbn [s_data]. unfold s_disk. cbn [rd_disks win_readings rbind]. rewrite disks_eq.
  destruct (disks_data_ok (filter dk_preferred (disks_found m))) as [p Ep]. { intros dk H. apply filter_In in H as [H _]. apply disks_in in H as [k [d [v [_ ->]]]]. eauto. }
  destruct (disks_data_ok (filter (fun d => negb (dk_preferred d)) (disks_found m))) as [o Eo]. { intros dk H. apply filter_In in H as [H _]. apply disks_in in H as [k [d [v [_ ->]]]]. eauto. }
  destruct (disks_found m) as [|d0 ds] eqn:Ef.
  - left. split; [|eexists; reflexivity]. destruct (machine_volumes m) as [|q r] eqn:Ev; [reflexivity|].
    pose proof (disks_nth m 0) as X. rewrite Ef, Ev in X. destruct q. discriminate.
  - right. rewrite Ep. cbn [rbind]. rewrite Eo. cbn [rbind].
    pose proof (filter_first dk_preferred (d0 :: ds)) as FP. destruct (filter dk_preferred (d0 :: ds)) as [|dk r] eqn:EP.
    + cbn [disks_data] in Ep. injection Ep as <-.
      assert (EO : filter (fun d => negb (dk_preferred d)) (d0 :: ds) = d0 :: filter (fun d => negb (dk_preferred d)) ds) by (cbn [filter]; rewrite (FP d0 (or_introl eq_refl)); reflexivity).
      rewrite EO in Eo. destruct (disks_found_split m [] d0 ds Ef) as [before [d [v [after [Ev [L ->]]]]]]. destruct before; [|discriminate L]. cbn [app length] in *.
      apply disks_data_head in Eo as [rest ->]; [|eauto]. destruct (le32_of (vo_serial v)) as [a [b [e [f [_ H]]]]]. rewrite (serial_data _ _ _ _ _ _ _ H).
      do 8 eexists. split; [|split; [exact H|reflexivity]]. right. split; [|eauto]. intros [d' v'] Hq. cbn [fst]. apply In_nth_error in Hq as [k Hk].
      intros C. apply (preferred_iff k d' v') in C. assert (In (disk_of_volume k d' v') (disks_found m)) as I by (apply disks_in; eauto). rewrite Ef in I. apply FP in I. congruence.
    + destruct FP as [b [c [Eb [Hp Hb]]]]. rewrite Eb in Ef. destruct (disks_found_split m b dk c Ef) as [before [d [v [after [Ev [L ->]]]]]].
      apply disks_data_head in Ep as [rest ->]; [|eauto]. destruct (le32_of (vo_serial v)) as [x [y [e [f [_ H]]]]]. rewrite (serial_data _ _ _ _ _ _ _ H). cbn [app].
      do 8 eexists. split; [|split; [exact H|reflexivity]]. left. exists before, after. split; [exact Ev|]. split; [apply preferred_iff in Hp; exact Hp|].
      intros [d' v'] Hq. cbn [fst]. apply In_nth_error in Hq as [k Hk]. intros C. apply (preferred_iff k d' v') in C.
      assert (Lk : k < length before) by (apply nth_error_Some; congruence).
      assert (N : nth_error (disks_found m) k = Some (disk_of_volume k d' v')) by (rewrite disks_nth, Ev, nth_error_app1 by lia; rewrite Hk; reflexivity).
      rewrite Ef, nth_error_app1 in N by lia. apply nth_error_In in N. apply Hb in N. congruence.
Qed.

(** ** Network *)
Lemma ip_zero ip : ip_is_zero ip = true <-> zero_ip ip.
Proof. unfold zero_ip. destruct ip as [a b c d]. rewrite ip_zero_iff. split; [intros [-> [-> [-> ->]]]; reflexivity|intros [= -> -> -> ->]; auto]. Qed.
(** the first datum comes from the first adapter that has one *)
Lemma filter_map_first {A B} (f : A -> option B) l : match filter_map f l with
  | [] => forall x, In x l -> f x = None
  | y :: _ => exists b a c, l = b ++ a :: c /\ f a = Some y /\ forall x, In x b -> f x = None end.
Proof.
  induction l as [|a l IH]; cbn [filter_map]; [intros x []|]. destruct (f a) as [y|] eqn:E.
  - exists [], a, l. repeat split; [exact E|intros x []].
  - destruct (filter_map f l) as [|y r]; [intros x [<-|H]; auto|]. destruct IH as [b [a' [c [-> [H1 H2]]]]]. exists (a :: b), a', c. split; [reflexivity|]. split; [exact H1|]. intros x [<-|H]; auto.
Qed.
Lemma map_split {A B} (f : A -> B) l b a c : map f l = b ++ a :: c -> exists b' a' c', l = b' ++ a' :: c' /\ map f b' = b /\ f a' = a.
Proof.
  revert l; induction b as [|x b IH]; intros [|y l] H; try discriminate; cbn in H.
  - injection H as <- <-. exists [], y, l. auto.
  - injection H as <- H. destruct (IH l H) as [b' [a' [c' [-> [<- <-]]]]]. exists (y :: b'), a', c'. auto.
Qed.
Lemma sorted_after b o c : StronglySorted ranked_before (b ++ o :: c) -> Forall (ranked_before o) c.
Proof. induction b as [|x b IH]; cbn; intros H; apply StronglySorted_inv in H as [H F]; [exact F|apply IH, H]. Qed.
Lemma ranked_refl o : ranked_before o o.
Proof. intros i j H H'. apply rank_score in H, H'. lia. Qed.
Lemma eth_first u m : healthy m -> exists c data, s_data (StEthernet u) (win_readings m) = Ok (c, data) /\
  match data with
  | [] => forall l w, delivers (wm_net m) l -> In w l -> usable w = true -> u = true /\ ~ has_address w
  | x :: _ => exists w, best_among m (fun w => u = true -> has_address w) w /\
      if u then exists a b e f, sound w (Ip a b e f) /\ x = D7 NUL a b e f "*" "*"
      else exists a b e f g h, mac w = Mac a b e f g h /\ x = D7 NUL a b e f g h
  end.
Proof.
  intros Hh. destruct (adapters_read m Hh) as [c [l [cards [E [D [C [I T]]]]]]]. cbn [s_data]. unfold s_ethernet. rewrite E. cbn [rbind].
  assert (G : match filter_map (adapter_data u) (map oa_adapter cards) with
    | [] => forall l w, delivers (wm_net m) l -> In w l -> usable w = true -> u = true /\ ~ has_address w
    | x :: _ => exists w, best_among m (fun w => u = true -> has_address w) w /\
      if u then exists a b e f, sound w (Ip a b e f) /\ x = D7 NUL a b e f "*" "*"
      else exists a b e f g h, mac w = Mac a b e f g h /\ x = D7 NUL a b e f g h
    end).
  { assert (Sd : forall o, In o cards -> exists a, In a l /\ usable a = true /\ card a o) by (intros o; apply I).
    assert (Dt : forall o, In o cards -> (adapter_data u (oa_adapter o) = None <-> u = true /\ zero_ip (ad_ip (oa_adapter o)))).
    { intros o Ho. destruct (Sd o Ho) as [a [_ [Ua [_ [Cm _]]]]]. unfold adapter_data. rewrite Cm, (usable_mac a Ua). rewrite <- ip_zero. destruct u, (ad_ip (oa_adapter o)) as [i0 i1 i2 i3], (mac a); [destruct (ip_is_zero (Ip i0 i1 i2 i3))|]; split; try discriminate; try (intros [? ?]; discriminate); auto. }
    assert (Ha : forall a o, card a o -> has_address a <-> ~ zero_ip (ad_ip (oa_adapter o))).
    { intros a o [_ [_ S1]]. split; [intros [ip [S2 N]]; rewrite (sound_eq _ _ _ S1 S2); exact N|intros N; exists (ad_ip (oa_adapter o)); auto]. }
    assert (Cd : forall w, In w l -> usable w = true -> exists o, In o cards /\ card w o).
    { intros w Iw Uw. destruct Hh as [_ [l' [D' Hl]]]. rewrite (delivers_eq _ _ _ D' D) in Hl. rewrite Forall_forall in Hl. destruct (Hl w Iw) as [ip S1].
      exists {| oa_description := description w; oa_adapter := {| ad_mac := mac w; ad_ip := ip |} |}. assert (K : card w {| oa_description := description w; oa_adapter := {| ad_mac := mac w; ad_ip := ip |} |}) by (split; [reflexivity|split; [reflexivity|exact S1]]).
      split; [apply I; eauto|exact K]. }
    pose proof (filter_map_first (adapter_data u) (map oa_adapter cards)) as FF. destruct (filter_map (adapter_data u) (map oa_adapter cards)) as [|x rest].
    - intros l' w Dl Iw Uw. rewrite (delivers_eq _ _ _ Dl D) in Iw. destruct (Cd w Iw Uw) as [o [Io Co]].
      assert (X : adapter_data u (oa_adapter o) = None) by (apply FF, in_map, Io). apply (Dt o Io) in X as [X1 X2]. split; [exact X1|]. rewrite (Ha w o Co). tauto.
    - destruct FF as [b [ad [c' [Em [Ex Hb]]]]]. apply map_split in Em as [b' [o [c'' [Ec [Eb Eo]]]]].
      assert (Io : In o cards) by (rewrite Ec; apply in_elt). destruct (Sd o Io) as [w [Iw [Uw Cw]]]. exists w. split.
      + exists l. split; [exact D|]. split; [exact Iw|]. split; [exact Uw|]. split.
        * intros Hu. apply (Ha w o Cw). intros Z. assert (X : adapter_data u (oa_adapter o) = None) by (apply (Dt o Io); auto). congruence.
        * intros w' i j Iw' Uw' Gw' Ri Rj. destruct (Cd w' Iw' Uw') as [o' [Io' Co']]. assert (RB : ranked_before o o').
          { pose proof Io' as Io2. rewrite Ec in Io2. apply in_app_or in Io2 as [Io2|[<-|Io2]].
            - exfalso. assert (X : adapter_data u (oa_adapter o') = None) by (apply Hb; rewrite <- Eb; apply in_map, Io2). apply (Dt o' Io') in X as [X1 X2]. exact (proj1 (Ha w' o' Co') (Gw' X1) X2).
            - apply ranked_refl.
            - rewrite Ec in T. apply sorted_after in T. rewrite Forall_forall in T. apply T, Io2. }
          apply (RB i j); [rewrite (proj1 Cw); exact Ri|rewrite (proj1 Co'); exact Rj].
      + subst ad. unfold adapter_data in Ex. destruct Cw as [_ [Cm Cs]]. rewrite Cm, (usable_mac w Uw) in Ex. destruct u.
        * destruct (ad_ip (oa_adapter o)) as [a0 b0 c0 d0]. destruct (ip_is_zero _); [discriminate|]. injection Ex as <-. do 4 eexists. split; [exact Cs|reflexivity].
        * destruct (mac w) as [a0 b0 c0 d0 e0 f0]. injection Ex as <-. do 6 eexists. split; reflexivity. }
  destruct c.
  - destruct cards as [|o cards]; [exists FUNC_RET_NOT_AVAIL, []; split; [reflexivity|exact G]|]. eexists _, _. split; [reflexivity|exact G].
  - destruct C as [C|C]; [discriminate|]. subst cards. exists FUNC_RET_NOT_AVAIL, []. split; [reflexivity|exact G].
  - destruct C as [C|C]; [discriminate|]. subst cards. exists FUNC_RET_ERROR, []. split; [reflexivity|exact G].
  - destruct C as [C|C]; [discriminate|]. subst cards. exists FUNC_RET_BUFFER_TOO_SMALL, []. split; [reflexivity|exact G].
Qed.
