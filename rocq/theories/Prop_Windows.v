(** Properties C68 - C71: the identifiers of a Windows machine. *)
From Verif Require Import Base CTypes StringUtils HwId Registry Network Disks CpuInfo ExecEnv Strategies Licensecc Shared WinSmbios WinNetwork WinMachine.
From Verif Require Import P_Base Spec_Base64 P_Decode Spec_HwId P_HwId P_HwText P_Hw P_Hw2 Prop_Hw Spec_Cpu P_Cpu Spec_Exec P_Exec Spec_Smbios Prop_Smbios.
From Verif Require Prop_Exec.
From Verif Require Import Spec_WinNet P_WinNet Prop_WinNet P_Shared Spec_Windows P_Windows P_WinExec P_WinPick.
From Coq Require Import Permutation Lia.

(** ** C68: the disks are the readable volumes on fixed drives among the first 40 drives, in
    order; each with its number, serial number and file system name; preferred on drive C. *)
Theorem C68_disks : forall m : win_machine, exists code disks, rd_disks (win_readings m) = Ok (code, disks) /\
  (code = FUNC_RET_OK /\ machine_volumes m <> [] \/ code = FUNC_RET_NOT_AVAIL /\ machine_volumes m = []) /\
  Forall2 (fun q dk =>
      (exists a b c e : ascii, le32_bytes (vo_serial (snd q)) a b c e /\ dk_sn dk = [a; b; c; e; NUL; NUL; NUL; NUL]) /\
      dk_label dk = Some (firstn 254 (cstr (vo_file_system (snd q)))) /\ dk_device dk = firstn 259 (cstr (vo_name (snd q))) /\
      (dk_preferred dk = true <-> on_drive_c (fst q)))
    (machine_volumes m) disks /\
  (forall k dk, nth_error disks k = Some dk -> dk_id dk = Z.of_nat k).
Proof.
  intros m. exists (match disks_found m with [] => FUNC_RET_NOT_AVAIL | _ => FUNC_RET_OK end), (disks_found m).
  split; [cbn [rd_disks win_readings]; rewrite disks_eq; reflexivity|]. split; [|split].
  - pose proof (disks_nth m 0) as X. destruct (disks_found m), (machine_volumes m) as [|[d0 v] r]; cbn in X; try discriminate; [right|left]; split; congruence || reflexivity.
  - unfold disks_found. match goal with |- Forall2 ?P _ _ => assert (G : forall l k, Forall2 P l (map (fun p => disk_of_volume (fst p) (fst (snd p)) (snd (snd p))) (combine (seq k (length l)) l))); [|apply G] end.
    induction l as [|[d v] l IH]; intros k; cbn [length seq combine map fst snd]; constructor; [|apply IH].
    split; [|split; [reflexivity|split; [reflexivity|apply preferred_iff]]].
    destruct (le32_of (vo_serial v)) as [a [b [c [e [E L]]]]]. exists a, b, c, e. split; [exact L|]. unfold disk_of_volume. cbn [dk_sn]. rewrite E. reflexivity.
  - intros k dk. rewrite disks_nth. destruct (nth_error (machine_volumes m) k) as [[d v]|]; [|discriminate]. intros [= <-]. reflexivity.
Qed.
Print Assumptions C68_disks.

(** *** examples *)
Definition some_net (m : list nat) : win_net := net_of [an_adapter "Intel(R) Ethernet" m "192.168.1.10"].
Definition drive_c (serial : N) : drive := {| dr_root := bs "C:\"; dr_fixed := true; dr_volume := Some {| vo_name := bs "System"; vo_serial := serial; vo_file_system := bs "NTFS" |} |}.
Definition drive_d (serial : N) : drive := {| dr_root := bs "D:\"; dr_fixed := true; dr_volume := Some {| vo_name := bs "Data"; vo_serial := serial; vo_file_system := bs "ReFS" |} |}.
Definition a_pc (m : list nat) (drives : list drive) (f : firmware) (c : cpu) : win_machine :=
  {| wm_net := some_net m; wm_sort := by_rank; wm_drives := Some drives; wm_firmware := f; wm_cpu := c; wm_vendor_order := fun l => l; wm_cpu_order := fun l => l |}.
Definition no_firmware : firmware := {| fw_size := 0; fw_table := None |}.
Definition plain_cpu : cpu := some_cpu (bs "GenuineIntel") (bs "Intel(R) Core(TM) i5") false.
Lemma pc_healthy m drives f c : length m = 6 -> healthy (a_pc m drives f c).
Proof.
  intros L. split; [exact by_rank_sorts|]. exists [an_adapter "Intel(R) Ethernet" m "192.168.1.10"]. split.
  - split; [reflexivity|]. do 2 eexists. split; [reflexivity|]. right. repeat split.
  - constructor; [|constructor]. exists (Ip "192" "168" "001" "010"). split; [cbn [wa_address an_adapter]; rewrite app_length, map_length, L; reflexivity|].
    exists (bs "192.168.1.10"), (repeat NUL 3). split; [reflexivity|]. exists (bs "192"), (bs "168"), (bs "1"), (bs "10").
    repeat split; try discriminate; try (vm_compute; reflexivity); repeat constructor; unfold digit; vm_compute; lia.
Qed.
Definition pc_one := a_pc [0;27;33;1;2;3] [drive_d 7; drive_c 2882400001] no_firmware plain_cpu.
Definition pc_two := a_pc [0;27;33;1;2;4] [drive_c 305419896] no_firmware plain_cpu.
Example C68_case : map (fun q => vo_serial (snd q)) (machine_volumes pc_one) = [7; 2882400001]%N.
Proof. reflexivity. Qed.

(** ** C69: on a machine whose network is readable a code gets a verdict unless the decoder
    reads beyond it, and is accepted exactly if it is of something the machine owns. *)
Theorem C69_accepted_iff_own : forall (m : win_machine) (text : bytes), healthy m -> ~ over_read (undashed text) ->
  exists e, s_validate_pc_signature (win_readings m) text = Ok e /\ (e = LICENSE_OK \/ e = IDENTIFIERS_MISMATCH) /\
    (e = LICENSE_OK <-> exists h d, denotes text h /\ win_own m (strategy_bits h) d /\ data53 h = d7_53 d).
Proof.
  intros m text Hh No. destruct (hw_of_string text) as [h|x|u|] eqn:Eh.
  - assert (Dh := proj1 (denotes_iff _ _) Eh). destruct (get_strategy_cases (strategy_bits h)) as [[s Es]|Es].
    + pose proof (strategy_concrete _ _ Es) as Hc. destruct (win_data s m Hh Hc) as [c [data [Ed I]]].
      destruct (s_validate_known _ _ _ _ _ _ Eh Es Ed) as [e [E [R V]]]. exists e. split; [exact E|]. split; [exact R|]. rewrite V. apply get_strategy_num in Es. split.
      * intros [d [Hd Hx]]. exists h, d. split; [exact Dh|]. split; [rewrite Es; apply I, Hd|exact Hx].
      * intros [h' [d [Dh' [Ho Hx]]]]. rewrite (denotes_fun _ _ _ Dh' Dh) in *. exists d. split; [apply I; rewrite <- Es; exact Ho|exact Hx].
    + exists IDENTIFIERS_MISMATCH. split; [eapply s_validate_unknown; eassumption|]. split; [auto|]. split; [discriminate|].
      intros [h' [d [Dh' [Ho _]]]]. rewrite (denotes_fun _ _ _ Dh' Dh) in *. apply win_own_range in Ho as [Ho|[Ho|Ho]]; rewrite Ho in Es; discriminate Es.
  - exists IDENTIFIERS_MISMATCH. split; [eapply s_validate_bad_text; eassumption|]. split; [auto|]. split; [discriminate|].
    intros [h' [d [Dh' _]]]. apply denotes_iff in Dh'. congruence.
  - apply hw_of_string_undef in Eh as [Eh _]. contradiction.
  - exfalso. rewrite hw_of_string_eq in Eh. destruct (unbase64_outcome (undashed text)) as [[_ E]|[[_ E]|[_ E]]]; rewrite E in Eh; cbn [rbind] in Eh; try discriminate. destruct (hw_of_bytes _); discriminate.
Qed.
Print Assumptions C69_accepted_iff_own.
Theorem C69_undefined_iff : forall (m : win_machine) (text : bytes) (u : ub), healthy m ->
  s_validate_pc_signature (win_readings m) text = Undef u <-> over_read (undashed text) /\ u = UbRead.
Proof.
  intros m text u Hh. split.
  - intros H. destruct (hw_of_string text) as [h|x|u'|] eqn:Eh.
    + exfalso. destruct (C69_accepted_iff_own m text Hh) as [e [E _]]; [|congruence]. intros O. assert (X : hw_of_string text = Undef UbRead) by (apply hw_of_string_undef; auto). congruence.
    + rewrite (s_validate_bad_text _ _ _ Eh) in H. discriminate.
    + rewrite (s_validate_undef_text _ _ _ Eh) in H. injection H as <-. apply hw_of_string_undef, Eh.
    + unfold s_validate_pc_signature in H. rewrite Eh in H. discriminate.
  - intros H. apply s_validate_undef_text, hw_of_string_undef, H.
Qed.
Print Assumptions C69_undefined_iff.
(** a code of the disk strategy gets its verdict whatever the state of the network *)
Theorem C69_disk_codes : forall (m : win_machine) (text : bytes) (h : hwid), denotes text h -> strategy_bits h = 2%Z ->
  exists e, s_validate_pc_signature (win_readings m) text = Ok e /\ (e = LICENSE_OK <-> exists d, win_own m 2 d /\ data53 h = d7_53 d).
Proof.
  intros m text h Dh Hb. apply denotes_iff in Dh. destruct (win_disk_data m) as [c [data [Ed I]]].
  assert (Es : get_strategy (strategy_bits h) = Ok StDisk) by (rewrite Hb; reflexivity). destruct (s_validate_known _ _ _ _ _ _ Dh Es Ed) as [e [E [_ V]]].
  exists e. split; [exact E|]. rewrite V. split; intros [d [Hd Hx]]; exists d; (split; [apply I, Hd|exact Hx]).
Qed.
Print Assumptions C69_disk_codes.
(** the code above the platform's own is the one the other properties are about *)
Theorem C69_same_as_linux : forall (m : machine) (text : bytes) (env : option bytes) (z : Z) (buf : option bytes) (size : nat) (info : bool),
  s_validate_pc_signature (linux_readings m) text = validate_pc_signature m text /\
  s_identify_pc env (linux_readings m) z buf size info = identify_pc env m z buf size info.
Proof. intros. split; [apply validate_same|apply identify_same]. Qed.
Print Assumptions C69_same_as_linux.
(** Finding: the label of a disk is the name of its file system, which is an accepted origin:
    one code is good for all machines with such a volume. *)
Definition code_ntfs : bytes := bs "AE5U-RlMA-AAA=".
Theorem C69_file_system_accepted : forall (m : win_machine) (d : drive) (v : volume), In (d, v) (machine_volumes m) -> vo_file_system v = bs "NTFS" ->
  s_validate_pc_signature (win_readings m) code_ntfs = Ok LICENSE_OK.
Proof.
  intros m d v Hv Hf. destruct (C69_disk_codes m code_ntfs (HwId NUL "N" "T" "F" "S" NUL NUL NUL)) as [e [E V]].
  - apply denotes_iff. vm_compute. reflexivity.
  - reflexivity.
  - rewrite E. f_equal. apply V. eexists. split; [eapply wo_file_system, Hv|]. rewrite Hf. reflexivity.
Qed.
Print Assumptions C69_file_system_accepted.
Theorem C69_code_of_one_machine_refuted : ~ (forall (m m' : win_machine) (text : bytes), healthy m -> healthy m' ->
  s_validate_pc_signature (win_readings m) text = Ok LICENSE_OK -> s_validate_pc_signature (win_readings m') text = Ok LICENSE_OK ->
  (exists l l' w w', delivers (wm_net m) l /\ delivers (wm_net m') l' /\ In w l /\ In w' l' /\ mac w = mac w') \/
  (exists d v d' v', In (d, v) (machine_volumes m) /\ In (d', v') (machine_volumes m') /\ vo_serial v = vo_serial v')).
Proof.
  intros H. destruct (H pc_one pc_two code_ntfs) as [[l [l' [w [w' [D [D' [I [I' E]]]]]]]]|[d [v [d' [v' [I [I' E]]]]]]].
  - apply pc_healthy. reflexivity.
  - apply pc_healthy. reflexivity.
  - vm_compute. reflexivity.
  - vm_compute. reflexivity.
  - assert (X : delivers (wm_net pc_one) [an_adapter "Intel(R) Ethernet" [0;27;33;1;2;3] "192.168.1.10"]) by (split; [reflexivity|]; do 2 eexists; split; [reflexivity|]; right; repeat split).
    assert (X' : delivers (wm_net pc_two) [an_adapter "Intel(R) Ethernet" [0;27;33;1;2;4] "192.168.1.10"]) by (split; [reflexivity|]; do 2 eexists; split; [reflexivity|]; right; repeat split).
    rewrite (delivers_eq _ _ _ D X) in I. rewrite (delivers_eq _ _ _ D' X') in I'. destruct I as [<-|[]], I' as [<-|[]]. vm_compute in E. discriminate.
  - cbn in I, I'. destruct I as [[= <- <-]|[[= <- <-]|[]]], I' as [[= <- <-]|[]]; vm_compute in E; discriminate.
Qed.
Print Assumptions C69_code_of_one_machine_refuted.
Example C69_case : healthy pc_one /\ ~ over_read (undashed (bs "AEHv-zasA-AAA=")) /\
  s_validate_pc_signature (win_readings pc_one) (bs "AEHv-zasA-AAA=") = Ok LICENSE_OK /\ s_validate_pc_signature (win_readings pc_two) (bs "AEHv-zasA-AAA=") = Ok IDENTIFIERS_MISMATCH.
Proof. split; [apply pc_healthy; reflexivity|]. split; [|split; vm_compute; reflexivity]. intros [_ [_ [H|[_ H]]]]; vm_compute in H; [lia|discriminate]. Qed.

(** ** C70: a generated identifier is accepted by the same machine, in whatever order its
    adapters are enumerated next time. *)
Theorem C70_generated_is_accepted : forall (env : option bytes) (m m' : win_machine) (z : Z) (buf : bytes) (size : nat) (info : bool) (buf' : bytes) (size' : nat) (i : option exec_info),
  healthy m -> healthy m' -> same_windows m m' -> size <= length buf ->
  s_identify_pc env (win_readings m) z (Some buf) size info = Ok (true, Some buf', size', i) ->
  s_validate_pc_signature (win_readings m') (cstr buf') = Ok LICENSE_OK.
Proof.
  intros env m m' z buf size info buf' size' i Hh Hh' Sm L H. apply s_identify_true in H as [id [G [-> _]]]; [|exact L].
  eapply s_generate_validate; [exact G|]. intros s c data Hc Ed. destruct (win_data s m' Hh' Hc) as [c' [data' [Ed' I']]]. exists c', data'. split; [exact Ed'|].
  destruct (win_data s m Hh Hc) as [c2 [data2 [Ed2 I]]]. rewrite Ed in Ed2. injection Ed2 as <- <-. intros d Hd. apply I', (own_same m); [exact Hh'|exact Sm|apply I, Hd].
Qed.
Print Assumptions C70_generated_is_accepted.
(** what it is made of *)
Theorem C70_disk_origin : forall m : win_machine,
  (machine_volumes m = [] -> s_generate_user_pc_signature None (win_readings m) STRATEGY_DISK = Throw ExLogic) /\
  (machine_volumes m <> [] -> exists text h d v a b c e, s_generate_user_pc_signature None (win_readings m) STRATEGY_DISK = Ok text /\
     denotes text h /\ strategy_bits h = 2%Z /\ chosen_volume m d v /\ le32_bytes (vo_serial v) a b c e /\ data53 h = d7_53 (D7 a b c e NUL NUL NUL)).
Proof.
  intros m. destruct (disk_first m) as [[Ev [c Ed]]|[c [d [v [a [b [e [f [rest [Hc [L Ed]]]]]]]]]]].
  - split; [intros _|congruence]. exact (s_first StDisk _ _ _ ltac:(discriminate) Ed).
  - split.
    + intros X. exfalso. destruct Hc as [[b' [a' [Ev _]]]|[_ [r Ev]]]; rewrite Ev in X; [destruct b'|]; discriminate.
    + intros _. destruct (s_first StDisk _ _ _ ltac:(discriminate) Ed) as [text [h [E [Dh [B X]]]]]. exists text, h, d, v, a, b, e, f. auto 10.
Qed.
Print Assumptions C70_disk_origin.
Theorem C70_ethernet_origin : forall m : win_machine, healthy m ->
  ((forall w, ~ best_among m (fun _ => True) w) /\ s_generate_user_pc_signature None (win_readings m) STRATEGY_ETHERNET = Throw ExLogic) \/
  (exists text h w a b c d e f, s_generate_user_pc_signature None (win_readings m) STRATEGY_ETHERNET = Ok text /\
     denotes text h /\ strategy_bits h = 0%Z /\ best_among m (fun _ => True) w /\ mac w = Mac a b c d e f /\ data53 h = d7_53 (D7 NUL a b c d e f)).
Proof.
  intros m Hh. destruct (eth_first false m Hh) as [c [data [Ed G]]]. pose proof (s_first (StEthernet false) _ _ _ ltac:(discriminate) Ed) as F. destruct data as [|x data].
  - left. split; [|exact F]. intros w [l [Dl [Iw [Uw _]]]]. destruct (G l w Dl Iw Uw). discriminate.
  - right. destruct F as [text [h [E [Dh [B X]]]]]. destruct G as [w [[l [Dl [Iw [Uw [_ Bw]]]]] [a [b [e [f [g [i [Em ->]]]]]]]]].
    exists text, h, w, a, b, e, f, g, i. split; [exact E|]. split; [exact Dh|]. split; [exact B|]. split; [|split; [exact Em|exact X]].
    exists l. split; [exact Dl|]. split; [exact Iw|]. split; [exact Uw|]. split; [exact I|]. intros w' i' j Iw' Uw' _. apply Bw; [exact Iw'|exact Uw'|discriminate].
Qed.
Print Assumptions C70_ethernet_origin.
Theorem C70_ip_origin : forall m : win_machine, healthy m ->
  ((forall w, ~ best_among m has_address w) /\ s_generate_user_pc_signature None (win_readings m) STRATEGY_IP_ADDRESS = Throw ExLogic) \/
  (exists text h w a b c d, s_generate_user_pc_signature None (win_readings m) STRATEGY_IP_ADDRESS = Ok text /\
     denotes text h /\ strategy_bits h = 1%Z /\ best_among m has_address w /\ sound w (Ip a b c d) /\ data53 h = d7_53 (D7 NUL a b c d "*" "*")).
Proof.
  intros m Hh. destruct (eth_first true m Hh) as [c [data [Ed G]]]. pose proof (s_first (StEthernet true) _ _ _ ltac:(discriminate) Ed) as F. destruct data as [|x data].
  - left. split; [|exact F]. intros w [l [Dl [Iw [Uw [Hw _]]]]]. destruct (G l w Dl Iw Uw). contradiction.
  - right. destruct F as [text [h [E [Dh [B X]]]]]. destruct G as [w [[l [Dl [Iw [Uw [Gw Bw]]]]] [a [b [e [f [Em ->]]]]]]].
    exists text, h, w, a, b, e, f. split; [exact E|]. split; [exact Dh|]. split; [exact B|]. split; [|split; [exact Em|exact X]].
    exists l. split; [exact Dl|]. split; [exact Iw|]. split; [exact Uw|]. split; [apply Gw; reflexivity|]. intros w' i' j Iw' Uw' Hw'. apply Bw; [exact Iw'|exact Uw'|intros _; exact Hw'].
Qed.
Print Assumptions C70_ip_origin.
(** Without a strategy: the disk on bare metal, the adapter in a virtual machine, nothing in
    a cloud. *)
Theorem C70_default_strategy : forall (m : win_machine) (text : text_id -> bytes) (maker name : bytes) (default := s_generate_user_pc_signature None (win_readings m) STRATEGY_DEFAULT),
  firmware_tells (wm_firmware m) text -> answers32 (wm_cpu m) -> made_by (wm_cpu m) maker -> named_cpu (wm_cpu m) name -> table_orders m ->
  (some_cloud_in text -> default = Throw ExLogic) /\
  (~ some_cloud_in text -> detail_in text (wm_cpu m) maker name BARE_TO_METAL -> default = s_generate_user_pc_signature None (win_readings m) STRATEGY_DISK) /\
  (~ some_cloud_in text -> ~ detail_in text (wm_cpu m) maker name BARE_TO_METAL -> default = s_generate_user_pc_signature None (win_readings m) STRATEGY_ETHERNET).
Proof.
  intros m text maker name default F A M N [PV PC]. destruct (win_platform_read m text maker name F A M N) as [p [E [Ec [Et [Em [En [Eh [Ev Eu]]]]]]]].
  assert (Dd : default = _) by (apply (s_default_is (win_readings m) p E)). rewrite Dd. clear Dd default. rewrite (s_virt_none p Ec).
  assert (Cl : s_is_cloud p = true <-> some_cloud_in text) by (rewrite s_is_cloud_spec; apply some_cloud_ext, Et).
  assert (Sd : detail_in text (wm_cpu m) maker name (s_virtualization_detail p)).
  { apply (detail_in_ext (text_of p)); [exact Et|]. rewrite <- Em, <- En. apply s_detail_sound; [rewrite Ev; exact PV|rewrite Eu; exact PC|exact Eh]. }
  assert (Bd : detail_in text (wm_cpu m) maker name BARE_TO_METAL -> s_virtualization_detail p = BARE_TO_METAL).
  { intros B. apply (detail_bare_unique text (wm_cpu m) maker name); assumption. }
  split; [|split].
  - intros C. apply Cl in C. pose proof (s_cloud_not_bare p C). rewrite C. destruct (s_virtualization_detail p); congruence || reflexivity.
  - intros _ B. rewrite (Bd B). reflexivity.
  - intros C B. destruct (s_is_cloud p); [exfalso; apply C, Cl; reflexivity|]. destruct (s_virtualization_detail p); try reflexivity. contradiction.
Qed.
Print Assumptions C70_default_strategy.
Definition vm_firmware : firmware := firmware_of demo_table.
Definition vm_texts : text_id -> bytes := told_text demo_table.
Lemma vm_tells : firmware_tells vm_firmware vm_texts.
Proof.
  right. exists demo_table, (delivery_of demo_table). split.
  { exists (map ascii_of_nat [0; 2; 8; 0]), (map ascii_of_nat [147; 0; 0; 0]), []. split; [reflexivity|]. split; [|vm_compute; reflexivity]. do 4 eexists. split; reflexivity. }
  split; [reflexivity|]. split; [reflexivity|]. split; [exact demo_well|]. split; [repeat constructor|]. split; [|reflexivity].
  intros H. repeat (apply Exists_cons in H as [H|H]; [unfold bad_reference, dangling, in_use in H; cbn [st_type bios system board processor the_end] in H; vm_compute in H; try exact H; decompose [and or] H; lia|]). apply Exists_nil in H. exact H.
Qed.
Lemma no_table_tells : firmware_tells no_firmware (fun _ => []).
Proof. left. split; [left; reflexivity|reflexivity]. Qed.
Lemma some_answers32 v b h : answers32 (some_cpu v b h).
Proof.
  assert (W : forall s i, is32 (word_at s i)).
  { intros s i. unfold is32, word_at. pose proof (code_lt (nth i s NUL)). pose proof (code_lt (nth (i+1) s NUL)). pose proof (code_lt (nth (i+2) s NUL)). pose proof (code_lt (nth (i+3) s NUL)). lia. }
  intros leaf. unfold some_cpu. repeat match goal with |- context [if N.eqb leaf ?n then _ else _] => destruct (N.eqb leaf n) end; cbn [r_eax r_ebx r_ecx r_edx row_at no_regs];
    repeat split; try apply W; unfold is32; try lia; destruct h; lia.
Qed.
Lemma pc_one_same : same_windows pc_one {| wm_net := {| wn_alloc1 := true; wn_first := GaOk (an_adapter "Intel(R) Ethernet" [0;27;33;1;2;3] "192.168.1.10") []; wn_alloc2 := false; wn_second := GaError |};
  wm_sort := by_rank; wm_drives := wm_drives pc_one; wm_firmware := no_firmware; wm_cpu := plain_cpu; wm_vendor_order := @rev _; wm_cpu_order := @rev _ |}.
Proof.
  split; [reflexivity|]. split; [reflexivity|]. split; [reflexivity|].
  intros l l' [_ [a [r [-> D]]]] [_ [a' [r' [-> D']]]]. destruct D as [D|[_ [_ D]]]; [discriminate|]. destruct D' as [D'|[D' _]]; [|discriminate].
  cbn in D, D'. injection D as <- <-. injection D' as <- <-. reflexivity.
Qed.
Definition vm_pc := a_pc [0;27;33;1;2;3] [drive_c 7] vm_firmware (some_cpu (bs "GenuineIntel") (bs "Common KVM processor") true).
Example C70_case :
  s_identify_pc None (win_readings pc_one) STRATEGY_DISK (Some (repeat NUL 20)) 20 true =
    Ok (true, Some (bs "AEHv-zasA-AAA=" ++ repeat NUL 6), 20, Some {| xi_cloud := PROV_UNKNOWN; xi_virt := VS_NONE; xi_detail := BARE_TO_METAL |}) /\
  s_generate_user_pc_signature None (win_readings pc_one) STRATEGY_DEFAULT = Ok (bs "AEHv-zasA-AAA=") /\
  s_generate_user_pc_signature None (win_readings vm_pc) STRATEGY_DEFAULT = Ok (bs "AAAA-GyEB-AgM=").
Proof. repeat split; vm_compute; reflexivity. Qed.
Example C70_default_case : firmware_tells (wm_firmware vm_pc) vm_texts /\ answers32 (wm_cpu vm_pc) /\ made_by (wm_cpu vm_pc) (bs "GenuineIntel") /\ named_cpu (wm_cpu vm_pc) (bs "Common KVM processor") /\ table_orders vm_pc /\
  ~ some_cloud_in vm_texts /\ ~ detail_in vm_texts (wm_cpu vm_pc) (bs "GenuineIntel") (bs "Common KVM processor") BARE_TO_METAL.
Proof.
  assert (A : answers32 (wm_cpu vm_pc)) by apply some_answers32.
  assert (NC : ~ some_cloud_in vm_texts).
  { intros [c [Hc [N1 N2]]]. assert (G : cloud_in vm_texts PROV_UNKNOWN); [|rewrite (cloud_in_unique _ _ _ Hc G) in N2; congruence].
    right. split; [reflexivity|]. intros r Hr [t [w [Hw Hh]]]. apply contains_spec in Hh. destruct Hr as [<-|[<-|[<-|[<-|[]]]]]; cbn [snd] in Hw; repeat (destruct Hw as [[= <- <-]|Hw]; [vm_compute in Hh; discriminate|]); destruct Hw. }
  split; [exact vm_tells|]. split; [exact A|]. split; [|split; [|split; [split; reflexivity|split; [exact NC|]]]].
  - pose proof (win_vendor_spells (wm_cpu vm_pc) A) as H. vm_compute in H. vm_compute. exact H.
  - left. apply Prop_Exec.some_cpu_called; [|cbn; lia]. intros I. repeat (destruct I as [I|I]; [discriminate I|]). destruct I.
  - intros [[b [q [a [E [[w [Iw _]] _]]]]]|[_ [[X _]|[_ [X _]]]]]; [|discriminate|].
    + assert (Hq : In q (search_list vm_texts (bs "GenuineIntel") (bs "Common KVM processor"))) by (rewrite E; apply in_elt).
      destruct Hq as [<-|[<-|[<-|[<-|[<-|[]]]]]]; cbn [fst] in Iw; repeat (destruct Iw as [Iw|Iw]; [discriminate Iw|]); destruct Iw.
    + apply X. unfold hypervisor_on. vm_compute. discriminate.
Qed.

(** ** C71: what identify_pc reports about the platform. *)
Theorem C71_environment : forall (env : option bytes) (m : win_machine) (z : Z) (buf : option bytes) (size : nat) (b : bool) (buf' : option bytes) (size' : nat) (i : exec_info) (text : text_id -> bytes) (maker name : bytes),
  firmware_tells (wm_firmware m) text -> answers32 (wm_cpu m) -> made_by (wm_cpu m) maker -> named_cpu (wm_cpu m) name -> table_orders m ->
  s_identify_pc env (win_readings m) z buf size true = Ok (b, buf', size', Some i) ->
  (forall c, xi_cloud i = c <-> cloud_in text c) /\ detail_in text (wm_cpu m) maker name (xi_detail i) /\
  xi_virt i = match xi_detail i with BARE_TO_METAL => VS_NONE | _ => VS_VM end.
Proof.
  intros env m z buf size b buf' size' i text maker name F A M N [PV PC] H. destruct (win_platform_read m text maker name F A M N) as [p [E [Ec [Et [Em [En [Eh [Ev Eu]]]]]]]].
  unfold s_identify_pc in H. apply rbind_ok in H as [[[r b1] s1] [_ H]]. cbn [rd_platform win_readings] in H. rewrite E in H. cbn [rbind] in H. injection H as _ _ _ <-. cbn [xi_cloud xi_detail xi_virt].
  split; [|split].
  - intros c. rewrite s_cloud_spec. split; apply cloud_in_ext; [exact Et|intros t; symmetry; apply Et].
  - apply (detail_in_ext (text_of p)); [exact Et|]. rewrite <- Em, <- En. apply s_detail_sound; [rewrite Ev; exact PV|rewrite Eu; exact PC|exact Eh].
  - apply s_virt_none, Ec.
Qed.
Print Assumptions C71_environment.
(** the processor: unlike on Linux (C60) a name of any length is read *)
Theorem C71_processor : forall (c : cpu), answers32 c ->
  made_by c (win_cpu_vendor c) /\ (forall name, called c name -> win_cpu_brand c = name) /\
  ((r_eax (c 2147483648) < 2147483652)%N -> win_cpu_brand c = bs "NA") /\
  (win_hypervisor c = true <-> (2147483648 <= r_ecx (c 1%N))%N) /\ (supports c 1 -> win_cpu_model c = cpu_model c).
Proof.
  intros c A. split; [apply win_vendor_spells, A|]. split; [intros name; apply win_brand_called|]. split; [intros H; apply win_brand_named; right; auto|].
  split; [apply win_hypervisor_bit, A|apply win_model_linux].
Qed.
Print Assumptions C71_processor.
Example C71_processor_case : win_cpu_brand (some_cpu [] (bs "QEMU Virtual CPU version 2.5+") true) = bs "QEMU Virtual CPU version 2.5+" /\
  called (some_cpu [] (bs "QEMU Virtual CPU version 2.5+") true) (bs "QEMU Virtual CPU version 2.5+").
Proof. split; [vm_compute; reflexivity|]. apply Prop_Exec.some_cpu_called; [|cbn; lia]. intros I. repeat (destruct I as [I|I]; [discriminate I|]). destruct I. Qed.
(** Finding: the words are in upper case and, unlike on Linux, the texts are searched as
    they are; virtual machines with the usual spellings are not recognised by them. *)
Definition vbox_table : list structure := [ {| st_type := "000"; st_handle := ("000", "000")%char; st_fields := ("001"%char :: repeat NUL 19); st_strings := [bs "innotek GmbH"] |} ].
Theorem C71_usual_spelling_refuted : ~ (forall (m : win_machine) (text : text_id -> bytes) (b : bool) (buf' : option bytes) (size' : nat) (i : exec_info) (t : text_id) (w : string) (v : virt_detail),
  firmware_tells (wm_firmware m) text -> answers32 (wm_cpu m) -> table_orders m ->
  s_identify_pc None (win_readings m) STRATEGY_DEFAULT None 0 true = Ok (b, buf', size', Some i) ->
  In (w, v) vendor_words -> has (bs w) (Spec_Strings.upper (text t)) -> xi_detail i <> BARE_TO_METAL).
Proof.
  intros H. refine (H (a_pc [0;27;33;1;2;3] [drive_c 7] (firmware_of vbox_table) plain_cpu) (told_text vbox_table) false None 20
    {| xi_cloud := PROV_UNKNOWN; xi_virt := VS_NONE; xi_detail := BARE_TO_METAL |} Vendor "INNOTEK GMBH"%string VIRTUALBOX _ _ _ _ _ _ eq_refl).
  - right. exists vbox_table, (delivery_of vbox_table). split.
    { exists (map ascii_of_nat [0; 2; 8; 0]), (map ascii_of_nat [38; 0; 0; 0]), []. split; [reflexivity|]. split; [|vm_compute; reflexivity]. do 4 eexists. split; reflexivity. }
    split; [reflexivity|]. split; [reflexivity|]. split; [|split; [repeat constructor|split; [|reflexivity]]].
    + apply Forall_cons; [|constructor]. split; [cbn; lia|]. apply Forall_cons; [|constructor]. split; [discriminate|]. cbn. intros X. repeat destruct X as [X|X]; try discriminate; exact X.
    + intros X. apply Exists_cons in X as [X|X]; [cbn in X; unfold dangling, in_use in X; cbn in X; lia|]. apply Exists_nil in X. exact X.
  - apply some_answers32.
  - split; reflexivity.
  - vm_compute. reflexivity.
  - cbn. tauto.
  - apply contains_spec. vm_compute. reflexivity.
Qed.
Print Assumptions C71_usual_spelling_refuted.
Example C71_case : s_identify_pc None (win_readings vm_pc) STRATEGY_DEFAULT None 0 true = Ok (false, None, 20, Some {| xi_cloud := PROV_UNKNOWN; xi_virt := VS_VM; xi_detail := KVM |}).
Proof. vm_compute. reflexivity. Qed.
(** The function meant to detect Wine in a container, which nothing calls: any readable
    file var/run/systemd/container on one of the first 20 drives counts. *)
Theorem C71_wine_container : forall l : list (drive * option (list bytes)),
  wine_container (Some l) <> CT_NONE <-> exists d ls, In (d, Some ls) (firstn 20 l) /\ dr_fixed d = true.
Proof.
  assert (W : forall ls, wine_file ls <> CT_NONE) by (induction ls as [|x ls IH]; cbn [wine_file]; [discriminate|]; destruct (contains _ x); [discriminate|]; destruct (contains _ x); [discriminate|exact IH]).
  assert (G : forall l n r, n <= 20 -> wine_scan l n r <> CT_NONE <-> r <> CT_NONE \/ exists d ls, In (d, Some ls) (firstn (20 - n) l) /\ dr_fixed d = true).
  { induction l as [|[d f] l IH]; intros n r L; cbn [wine_scan].
    - rewrite firstn_nil. split; [auto|]. intros [H|[d [ls [[] _]]]]; exact H.
    - destruct (Nat.ltb_spec n 20) as [Ln|Ln].
      + replace (20 - n) with (S (20 - S n)) by lia. cbn [firstn]. rewrite IH by lia. destruct (dr_fixed d) eqn:Ed; [destruct f as [ls|]|].
        * split; [intros _; right; exists d, ls; split; [left; reflexivity|exact Ed]|intros _; left; apply W].
        * split; (intros [H|[d' [ls [I H]]]]; [left; exact H|right; exists d', ls; split; [|exact H]]); [right; exact I|destruct I as [[=]|I]; exact I].
        * split; (intros [H|[d' [ls [I H]]]]; [left; exact H|right; exists d', ls; split; [|exact H]]); [right; exact I|destruct I as [[= -> _]|I]; [congruence|exact I]].
      + replace (20 - n) with 0 by lia. split; [auto|]. intros [H|[d' [ls [[] _]]]]. exact H. }
  intros l. unfold wine_container. rewrite (G l 0 CT_NONE) by lia. split; [intros [H|H]; [congruence|exact H]|auto].
Qed.
Print Assumptions C71_wine_container.
(** Which one is told: that of the last of these files; LXC if a line names lxc and neither
    it nor an earlier one names docker, Docker in every other case, even for an empty file. *)
Theorem C71_wine_kind : forall l d ls r, length l < 20 -> dr_fixed d = true ->
  (forall d' ls', In (d', Some ls') (firstn (19 - length l) r) -> dr_fixed d' = false) ->
  (wine_container (Some (l ++ (d, Some ls) :: r)) = CT_LXC \/ wine_container (Some (l ++ (d, Some ls) :: r)) = CT_DOCKER) /\
  (wine_container (Some (l ++ (d, Some ls) :: r)) = CT_LXC <->
     exists a x b, ls = a ++ x :: b /\ (exists u v, x = u ++ bs "lxc" ++ v) /\ forall y, In y (a ++ [x]) -> ~ exists u v, y = u ++ bs "docker" ++ v).
Proof.
  intros l d ls r L D N.
  assert (E : wine_container (Some (l ++ (d, Some ls) :: r)) = wine_file ls).
  { unfold wine_container. assert (Q : forall l n res, n + length l < 20 -> (forall d' ls', In (d', Some ls') (firstn (19 - (n + length l)) r) -> dr_fixed d' = false) ->
      wine_scan (l ++ (d, Some ls) :: r) n res = wine_file ls).
    { clear l L N. induction l as [|[d0 f0] l IH]; intros n res L N; cbn [app wine_scan length] in *.
      - assert (X : Nat.ltb n 20 = true) by (apply Nat.ltb_lt; lia). rewrite X, D.
        assert (T : forall r n res, (forall d' ls', In (d', Some ls') (firstn (20 - n) r) -> dr_fixed d' = false) -> wine_scan r n res = res).
        { clear. induction r as [|[d0 f0] r IH]; intros n res N; cbn [wine_scan]; [reflexivity|]. destruct (Nat.ltb_spec n 20) as [Ln|]; [|reflexivity].
          replace (20 - n) with (S (20 - S n)) in N by lia. cbn [firstn] in N. rewrite IH; [|intros d' ls' I; apply (N d' ls'); right; exact I].
          destruct (dr_fixed d0) eqn:F; [|reflexivity]. destruct f0 as [ls0|]; [|reflexivity]. rewrite (N d0 ls0) in F; [discriminate|left; reflexivity]. }
        apply T. intros d' ls' I. apply (N d' ls'). replace (19 - (n + 0)) with (20 - S n) by lia. exact I.
      - assert (X : Nat.ltb n 20 = true) by (apply Nat.ltb_lt; lia). rewrite X. apply IH; [lia|]. replace (S n + length l) with (n + S (length l)) by lia. exact N. }
    apply Q; cbn [Nat.add]; assumption. }
  rewrite E. clear E N L D l r d. induction ls as [|x ls [IH1 IH2]]; cbn [wine_file].
  - split; [right; reflexivity|]. split; [discriminate|]. intros [a [x [b [H _]]]]. destruct a; discriminate.
  - destruct (contains (bs "docker") x) eqn:C1; [split; [right; reflexivity|]; split; [discriminate|]; intros [a [y [b [H [_ K]]]]]; exfalso; apply (K x); [destruct a as [|a0 a]; injection H as -> _; left; reflexivity|apply contains_spec; exact C1]|].
    assert (ND : ~ exists u v, x = u ++ bs "docker" ++ v) by (intros X; apply contains_spec in X; congruence).
    destruct (contains (bs "lxc") x) eqn:C2.
    + split; [left; reflexivity|]. split; [intros _|reflexivity]. exists [], x, ls. split; [reflexivity|]. split; [apply contains_spec; exact C2|]. intros y [<- |[]]. exact ND.
    + split; [exact IH1|]. rewrite IH2. split.
      * intros [a [y [b [-> [H K]]]]]. exists (x :: a), y, b. split; [reflexivity|]. split; [exact H|]. intros z [<- |I]; [exact ND|apply K, I].
      * intros [a [y [b [H [Y K]]]]]. destruct a as [|a0 a]; injection H as -> ->; [apply contains_spec in Y; congruence|]. exists a, y, b. split; [reflexivity|]. split; [exact Y|]. intros z I. apply K. right. exact I.
Qed.
Print Assumptions C71_wine_kind.
Example C71_wine_case : wine_container (Some [(drive_d 7, None); (drive_c 7, Some [bs "lxc"])]) = CT_LXC.
Proof. reflexivity. Qed.
