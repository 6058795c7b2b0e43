(** What a Windows machine reads. *)
From Verif Require Import Base CTypes StringUtils HwId Registry Network Disks CpuInfo ExecEnv Strategies Licensecc
  P_Base P_Strings Spec_HwId P_HwId P_HwText P_Hw P_Hw2 P_Hw3 Shared P_Shared WinSmbios WinNetwork Spec_WinNet P_WinNet WinMachine Spec_Windows.
From Coq Require Import Lia Permutation Sorted.

(** ** Disks *)
Lemma scan_spec : forall l s n, s <= 40 ->
  scan_drives l s n = map (fun p => disk_of_volume (fst p) (fst (snd p)) (snd (snd p)))
    (combine (seq n (length (flat_map (fun d => match dr_fixed d, dr_volume d with true, Some v => [(d, v)] | _, _ => [] end) (firstn (40 - s) l))))
             (flat_map (fun d => match dr_fixed d, dr_volume d with true, Some v => [(d, v)] | _, _ => [] end) (firstn (40 - s) l))).
Proof.
  induction l as [|d l IH]; intros s n L; [rewrite firstn_nil; reflexivity|]. cbn [scan_drives]. destruct (Nat.ltb_spec s 40) as [S1|S1].
  - replace (40 - s) with (S (40 - S s)) by lia. cbn [firstn flat_map]. destruct (dr_fixed d), (dr_volume d) as [v|]; cbn [app length seq combine map fst snd]; rewrite IH by lia; reflexivity.
  - replace (40 - s) with 0 by lia. reflexivity.
Qed.
Lemma scan_volumes l : scan_drives l 0 0 = map (fun p => disk_of_volume (fst p) (fst (snd p)) (snd (snd p))) (combine (seq 0 (length (volumes l))) (volumes l)).
Proof. rewrite scan_spec by lia. reflexivity. Qed.
Definition disks_found (m : win_machine) : list disk :=
  map (fun p => disk_of_volume (fst p) (fst (snd p)) (snd (snd p))) (combine (seq 0 (length (machine_volumes m))) (machine_volumes m)).
Lemma disks_eq m : win_disk_infos (wm_drives m) = (match disks_found m with [] => FUNC_RET_NOT_AVAIL | _ => FUNC_RET_OK end, disks_found m).
Proof.
  unfold win_disk_infos, disks_found, machine_volumes. destruct (wm_drives m) as [l|]; [|reflexivity]. rewrite scan_volumes. destruct (map _ _); reflexivity.
Qed.
Lemma nth_combine {A} (l : list A) : forall n k, nth_error (combine (seq n (length l)) l) k = match nth_error l k with Some x => Some (n + k, x) | None => None end.
Proof.
  induction l as [|a l IH]; intros n k; [destruct k; reflexivity|]. cbn [length seq combine]. destruct k as [|k]; [cbn; rewrite Nat.add_0_r; reflexivity|]. cbn [nth_error]. rewrite IH.
  destruct (nth_error l k); [|reflexivity]. do 2 f_equal. lia.
Qed.
Lemma disks_nth m k : nth_error (disks_found m) k = match nth_error (machine_volumes m) k with Some (d, v) => Some (disk_of_volume k d v) | None => None end.
Proof. unfold disks_found. rewrite nth_error_map, nth_combine. destruct (nth_error (machine_volumes m) k) as [[d v]|]; reflexivity. Qed.
Lemma disks_in m dk : In dk (disks_found m) <-> exists k d v, nth_error (machine_volumes m) k = Some (d, v) /\ dk = disk_of_volume k d v.
Proof.
  split.
  - intros H. apply In_nth_error in H as [k H]. rewrite disks_nth in H. destruct (nth_error (machine_volumes m) k) as [[d v]|] eqn:E; [|discriminate]. injection H as <-. eauto.
  - intros [k [d [v [E ->]]]]. apply (nth_error_In _ k). rewrite disks_nth, E. reflexivity.
Qed.
Lemma le32_of n : exists a b c d, u32_bytes n = [a; b; c; d] /\ le32_bytes n a b c d.
Proof.
  unfold u32_bytes. cbn [map]. do 4 eexists. split; [reflexivity|]. unfold le32_bytes.
  rewrite !N_ascii_embedding by (apply N.mod_lt; lia).
  replace 4294967296%N with (256 * 16777216)%N by reflexivity. rewrite N.mod_mul_r by lia.
  replace 16777216%N with (256 * 65536)%N at 1 by reflexivity. rewrite (N.mod_mul_r (n / 256)) by lia.
  replace 65536%N with (256 * 256)%N at 1 by reflexivity. rewrite (N.mod_mul_r (n / 256 / 256)) by lia.
  rewrite !N.div_div by lia. change (256 * 256)%N with 65536%N. change (65536 * 256)%N with 16777216%N. lia.
Qed.
Lemma le32_unique n a b c d a' b' c' d' : le32_bytes n a b c d -> le32_bytes n a' b' c' d' -> [a; b; c; d] = [a'; b'; c'; d'].
Proof.
  unfold le32_bytes. intros H H'.
  pose proof (N_ascii_bounded a). pose proof (N_ascii_bounded b). pose proof (N_ascii_bounded c). pose proof (N_ascii_bounded d).
  pose proof (N_ascii_bounded a'). pose proof (N_ascii_bounded b'). pose proof (N_ascii_bounded c'). pose proof (N_ascii_bounded d').
  assert (code a = code a') by (unfold code; lia). assert (code b = code b') by (unfold code in *; lia). assert (code c = code c') by (unfold code in *; lia). assert (code d = code d') by (unfold code in *; lia).
  repeat f_equal; apply code_inj; assumption.
Qed.
Lemma serial_data k d v a b c e : le32_bytes (vo_serial v) a b c e -> generate_id_by_sn (disk_of_volume k d v) = D7 a b c e NUL NUL NUL.
Proof.
  intros H. destruct (le32_of (vo_serial v)) as [a' [b' [c' [e' [E H']]]]]. pose proof (le32_unique _ _ _ _ _ _ _ _ _ H H') as X. injection X as <- <- <- <-.
  unfold generate_id_by_sn, disk_of_volume. cbn [dk_sn]. rewrite E. reflexivity.
Qed.
Lemma cstr_nth l i : nth i (cstr (firstn 254 (cstr l))) NUL = nth i (cstr l) NUL \/ 254 <= i.
Proof.
  destruct (Nat.le_gt_cases 254 i) as [H|H]; [right; exact H|left].
  assert (NF : ~ In NUL (cstr l)).
  { unfold cstr. clear. induction l as [|c l IH]; cbn; [tauto|]. destruct (Ascii.eqb_spec c NUL) as [->|N0]; cbn [negb]; [cbn; tauto|]. destruct (span _ l) as [x y]. cbn [fst] in *. intros [E|E]; [congruence|tauto]. }
  assert (C : forall s, ~ In NUL s -> cstr s = s).
  { induction s as [|c s IH]; intros Hn; [reflexivity|]. unfold cstr in *. cbn. destruct (Ascii.eqb_spec c NUL) as [->|N0]; [destruct Hn; left; reflexivity|]. cbn [negb].
    destruct (span _ s) as [x y] eqn:E. cbn [fst] in *. f_equal. apply IH. intros X. apply Hn. right. exact X. }
  rewrite C.
  - revert H. generalize 254 (cstr l). clear. intros n l H. revert n i H; induction l as [|c l IH]; intros [|n] [|i] H; try lia; try reflexivity; cbn [firstn nth]. apply IH. lia.
  - intros X. apply NF. rewrite <- (firstn_skipn 254). apply in_or_app. left. exact X.
Qed.
Lemma fs_data k d v : generate_id_by_label (fit 255 (vo_file_system v)) = (let b i := nth i (cstr (vo_file_system v)) NUL in D7 (b 0) (b 1) (b 2) (b 3) (b 4) (b 5) NUL) /\ dk_label (disk_of_volume k d v) = Some (fit 255 (vo_file_system v)).
Proof.
  split; [|reflexivity]. unfold generate_id_by_label, fit. change (255 - 1) with 254. cbv zeta.
  assert (E : forall i, i < 6 -> nth i (cstr (firstn 254 (cstr (vo_file_system v)))) NUL = nth i (cstr (vo_file_system v)) NUL) by (intros i Hi; destruct (cstr_nth (vo_file_system v) i); [assumption|lia]).
  rewrite !E by lia. reflexivity.
Qed.
Lemma one_disk_data k d v : disk_data (disk_of_volume k d v) = Ok [generate_id_by_sn (disk_of_volume k d v); generate_id_by_label (fit 255 (vo_file_system v))].
Proof. reflexivity. Qed.
Lemma disks_data_ok l : (forall dk, In dk l -> exists k d v, dk = disk_of_volume k d v) -> exists x, disks_data l = Ok x.
Proof.
  induction l as [|dk l IH]; intros H; [exists []; reflexivity|]. destruct (H dk (or_introl eq_refl)) as [k [d [v ->]]]. destruct IH as [x E]; [intros y Hy; apply H; right; exact Hy|].
  cbn [disks_data]. rewrite one_disk_data, E. eexists. reflexivity.
Qed.
Lemma win_disk_data m : exists c data, s_data StDisk (win_readings m) = Ok (c, data) /\ forall x, In x data <-> win_own m 2 x.
Proof.
  cbn [s_data]. unfold s_disk. cbn [rd_disks win_readings rbind]. rewrite disks_eq.
  destruct (disks_data_ok (filter dk_preferred (disks_found m))) as [p Ep]. { intros dk H. apply filter_In in H as [H _]. apply disks_in in H as [k [d [v [_ ->]]]]. eauto. }
  destruct (disks_data_ok (filter (fun d => negb (dk_preferred d)) (disks_found m))) as [o Eo]. { intros dk H. apply filter_In in H as [H _]. apply disks_in in H as [k [d [v [_ ->]]]]. eauto. }
  assert (Hin : forall x, In x (p ++ o) <-> win_own m 2 x).
  { intros x. rewrite in_app_iff, (disks_data_in _ _ _ Ep), (disks_data_in _ _ _ Eo). split.
    - intros H. assert (G : exists dk y, In dk (disks_found m) /\ disk_data dk = Ok y /\ In x y).
      { destruct H as [[dk [y [H1 H2]]]|[dk [y [H1 H2]]]]; apply filter_In in H1 as [H1 _]; eauto. }
      destruct G as [dk [y [H1 [H2 H3]]]]. apply disks_in in H1 as [k [d [v [Hv ->]]]]. apply nth_error_In in Hv. rewrite one_disk_data in H2. injection H2 as <-. destruct H3 as [<-|[<-|[]]].
      + destruct (le32_of (vo_serial v)) as [a [b [c [e [_ L]]]]]. rewrite (serial_data _ _ _ _ _ _ _ L). eapply wo_serial; eassumption.
      + rewrite (proj1 (fs_data k d v)). eapply wo_file_system, Hv.
    - intros H. assert (G : exists dk y, In dk (disks_found m) /\ disk_data dk = Ok y /\ In x y).
      { inversion H as [| |dr v a b c e Hv L|dr v Hv]; subst; apply In_nth_error in Hv as [k Hk]; exists (disk_of_volume k dr v); eexists; (split; [apply disks_in; eauto|]); (split; [apply one_disk_data|]).
        - left. apply serial_data, L.
        - right. left. apply (proj1 (fs_data k dr v)). }
      destruct G as [dk [y [H1 [H2 H3]]]]. destruct (dk_preferred dk) eqn:Ed; [left|right]; exists dk, y; (split; [apply filter_In; rewrite Ed; auto|auto]). }
  destruct (disks_found m) as [|d0 ds] eqn:Ef.
  - exists FUNC_RET_NOT_AVAIL, []. split; [reflexivity|]. cbn in Ep, Eo. injection Ep as <-. injection Eo as <-. exact Hin.
  - rewrite Ep. cbn [rbind]. rewrite Eo. cbn [rbind]. eexists _, (p ++ o). split; [reflexivity|exact Hin].
Qed.

(** ** Network *)
Lemma delivers_eq w l l' : delivers w l -> delivers w l' -> l = l'.
Proof.
  intros [_ [a [r [-> H]]]] [_ [a' [r' [-> H']]]]. destruct H as [H|[H [_ H2]]], H' as [H'|[H' [_ H2']]]; congruence.
Qed.
Lemma sound_eq a ip ip' : sound a ip -> sound a ip' -> ip = ip'.
Proof.
  intros [_ [t [r [E D]]]] [_ [t' [r' [E' D']]]]. apply (translate_dotted _ _ r) in D. apply (translate_dotted _ _ r') in D'. rewrite <- E in D. rewrite <- E' in D'. congruence.
Qed.
Lemma adapters_read m : healthy m -> exists c l cards, rd_adapters (win_readings m) = Ok (c, map oa_adapter cards) /\ delivers (wm_net m) l /\
  (c = FUNC_RET_OK \/ cards = []) /\ (forall o, In o cards <-> exists a, In a l /\ usable a = true /\ card a o) /\ StronglySorted ranked_before cards.
Proof.
  intros [Hs [l [Hd Hl]]]. destruct (walk_spec l Hl) as [cards [E F]].
  assert (W : win_adapter_infos (wm_sort m) (wm_net m) = adapters_found (wm_sort m) l).
  { destruct Hd as [Ha [a [r [El Hd]]]]. unfold win_adapter_infos. rewrite Ha. destruct Hd as [->|[-> [-> ->]]]; subst l; reflexivity. }
  assert (I : forall o, In o cards <-> exists a, In a l /\ usable a = true /\ card a o).
  { intros o. split.
    - intros H. destruct (forall2_in _ _ _ F o H) as [a [Ia Ca]]. apply filter_In in Ia as [Ia Ua]. eauto.
    - intros [a [Ia [Ua Ca]]]. assert (Fa : In a (filter usable l)) by (apply filter_In; auto). clear -F Fa Ca. induction F as [|b p bs ps Hb F IH]; [contradiction|]. destruct Fa as [->|Fa]; [left|right; apply IH, Fa].
      destruct Hb as [B1 [B2 B3]], Ca as [C1 [C2 C3]]. pose proof (sound_eq _ _ _ B3 C3) as X. destruct p as [pd [pm pi]], o as [od [om oi]]. cbn in *. congruence. }
  cbn [rd_adapters win_readings]. rewrite W. unfold adapters_found. rewrite E. cbn [rbind]. destruct cards as [|c0 cards].
  - exists FUNC_RET_NOT_AVAIL, l, []. split; [reflexivity|]. split; [exact Hd|]. split; [right; reflexivity|]. split; [exact I|constructor].
  - exists FUNC_RET_OK, l, (wm_sort m (c0 :: cards)). split; [reflexivity|]. split; [exact Hd|]. split; [left; reflexivity|].
    destruct (Hs (c0 :: cards)) as [P T]. split; [|clear -T; induction T as [|o t T IH Fo]; constructor; [exact IH|]; eapply Forall_impl; [|exact Fo]; cbn beta; intros p; apply ranked_score].
    intros o. rewrite <- I. split; apply Permutation_in; [exact P|apply Permutation_sym, P].
Qed.
Lemma usable_mac a : usable a = true -> mac_is_zero (mac a) = false.
Proof.
  unfold usable, mac. intros H. apply andb_true_iff in H as [_ H]. set (l := firstn _ _) in *.
  assert (L : length l <= 6). { unfold l. rewrite firstn_length. lia. } clearbody l.
  unfold mac_is_zero, is_zero. apply existsb_exists in H as [c [Hin Hc]]. apply negb_true_iff in Hc.
  destruct l as [|b0 [|b1 [|b2 [|b3 [|b4 [|b5 [|b6 l]]]]]]]; cbn [app nth repeat length] in *; try lia; cbn [In] in Hin;
    (repeat destruct Hin as [<-|Hin]); try contradiction; rewrite Hc; rewrite ?andb_false_r; reflexivity.
Qed.
Lemma mac_data x : mac_is_zero (ad_mac x) = false -> exists a b c d e f, ad_mac x = Mac a b c d e f /\ adapter_data false x = Some (D7 NUL a b c d e f).
Proof. intros H. unfold adapter_data. rewrite H. destruct (ad_mac x). do 6 eexists. split; reflexivity. Qed.
Lemma ip_zero_iff a b c d : ip_is_zero (Ip a b c d) = true <-> a = NUL /\ b = NUL /\ c = NUL /\ d = NUL.
Proof. cbn. unfold is_zero. rewrite !andb_true_iff, !Ascii.eqb_eq. tauto. Qed.
Lemma win_eth_data u m : healthy m -> exists c data, s_data (StEthernet u) (win_readings m) = Ok (c, data) /\
  forall x, In x data <-> win_own m (strat_num (StEthernet u)) x.
Proof.
  intros H. destruct (adapters_read m H) as [c [l [cards [E [Hd [Hc [I _]]]]]]]. cbn [s_data]. unfold s_ethernet. rewrite E. cbn [rbind].
  assert (G : forall x, In x (filter_map (adapter_data u) (map oa_adapter cards)) <-> win_own m (strat_num (StEthernet u)) x).
  { intros x. rewrite filter_map_in. split.
    - intros [y [Hy Ex]]. apply in_map_iff in Hy as [o [<- Ho]]. apply I in Ho as [a [Ia [Ua [_ [Cm Cs]]]]]. destruct u.
      + unfold adapter_data in Ex. destruct (ad_ip (oa_adapter o)) as [i0 i1 i2 i3] eqn:Ei. destruct (ip_is_zero (Ip i0 i1 i2 i3)) eqn:Z; [discriminate|]. injection Ex as <-.
        eapply wo_ip; [exact Hd|exact Ia|exact Ua|exact Cs|]. intros X. apply ip_zero_iff in X. congruence.
      + pose proof (usable_mac a Ua) as Z. rewrite <- Cm in Z. destruct (mac_data _ Z) as [m0 [m1 [m2 [m3 [m4 [m5 [Em Ed]]]]]]]. rewrite Ed in Ex. injection Ex as <-. eapply wo_mac; [exact Hd|exact Ia|exact Ua|]. rewrite <- Cm. exact Em.
    - intros Ho. destruct H as [_ [l0 [D0 S0]]]. pose proof (delivers_eq _ _ _ Hd D0) as <-. rewrite Forall_forall in S0. destruct u; inversion Ho as [l' w a b d e f g Dl Iw Uw Em|l' w a b d e Dl Iw Uw Sw Nz| |]; subst.
      + pose proof (delivers_eq _ _ _ Hd Dl) as <-. exists {| ad_mac := mac w; ad_ip := Ip a b d e |}. split.
        * apply in_map_iff. exists {| oa_description := description w; oa_adapter := {| ad_mac := mac w; ad_ip := Ip a b d e |} |}. split; [reflexivity|]. apply I. exists w. split; [exact Iw|]. split; [exact Uw|]. split; [reflexivity|]. split; [reflexivity|exact Sw].
        * unfold adapter_data. cbn [ad_ip]. destruct (ip_is_zero (Ip a b d e)) eqn:Z; [apply ip_zero_iff in Z; contradiction|reflexivity].
      + pose proof (delivers_eq _ _ _ Hd Dl) as <-. destruct (S0 w Iw) as [ip Sw]. exists {| ad_mac := mac w; ad_ip := ip |}. split.
        * apply in_map_iff. exists {| oa_description := description w; oa_adapter := {| ad_mac := mac w; ad_ip := ip |} |}. split; [reflexivity|]. apply I. exists w. split; [exact Iw|]. split; [exact Uw|]. split; [reflexivity|]. split; [reflexivity|exact Sw].
        * unfold adapter_data. cbn [ad_mac]. rewrite (usable_mac w Uw), Em. reflexivity. }
  destruct (map oa_adapter cards) as [|y ys] eqn:Em.
  - exists (match c with FUNC_RET_OK => FUNC_RET_NOT_AVAIL | _ => c end), []. split; [destruct c; reflexivity|exact G].
  - destruct Hc as [->| ->]; [|discriminate Em]. eexists _, _. split; [reflexivity|exact G].
Qed.
Lemma win_data s m : healthy m -> concrete s -> exists c data, s_data s (win_readings m) = Ok (c, data) /\ forall x, In x data <-> win_own m (strat_num s) x.
Proof. intros H Hc. destruct s as [|u|]; [congruence|apply win_eth_data, H|apply win_disk_data]. Qed.
Lemma win_own_range m z d : win_own m z d -> z = 0%Z \/ z = 1%Z \/ z = 2%Z.
Proof. intros []; auto. Qed.
(** the same machine owns the same *)
Lemma own_same m m' z d : healthy m' -> same_windows m m' -> win_own m z d -> win_own m' z d.
Proof.
  intros [_ [l' [D' _]]] [S1 [_ [_ S2]]] H. assert (V : machine_volumes m' = machine_volumes m) by (unfold machine_volumes; rewrite S1; reflexivity).
  destruct H as [l w a b c e f g Dl Iw Uw Em|l w a b c e Dl Iw Uw Sw Nz|dr v a b c e Iv L|dr v Iv].
  - eapply wo_mac; [exact D'| |exact Uw|exact Em]. eapply Permutation_in; [apply S2; eassumption|exact Iw].
  - eapply wo_ip; [exact D'| |exact Uw|exact Sw|exact Nz]. eapply Permutation_in; [apply S2; eassumption|exact Iw].
  - eapply wo_serial; [rewrite V; exact Iv|exact L].
  - eapply wo_file_system. rewrite V. exact Iv.
Qed.
