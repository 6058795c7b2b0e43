(** Properties C37 - C39: disks (and one more counterexample to C34). *)
From Verif Require Import Base CTypes StringUtils HwId Registry Network Disks ExecEnv Strategies Licensecc.
From Verif Require Import P_Base Spec_Listing P_DiskList P_Strings Spec_HwId P_HwId Spec_Hw P_Hw P_Hw2 P_Hw3 Spec_Disks P_Disks P_Blkid P_Blkid2 P_Blkid3 Spec_Prefer P_Prefer P_Prefer2 Prop_Hw.

(** ** C37 *)
(** The identifiers of the preferred disks come first, both groups in enumeration
    order, for each disk the serial before the label. *)
Theorem C37_order : forall (m : machine) (ds : list disk) (ids : list hwid),
  disks_of (hw_disks m) = Ok (FUNC_RET_OK, ds) -> alternative_ids StDisk m = Ok ids ->
  map data53 ids = map d7_53 (flat_map disk_idents (filter dk_preferred ds) ++ flat_map disk_idents (filter (fun d => negb (dk_preferred d)) ds)) /\
  Forall (fun h => get_identification_strategy h = 2%Z) ids.
Proof. exact disk_order. Qed.
Print Assumptions C37_order.

Theorem C37_first_is_generated : forall (m : machine) (h : hwid), generate_pc_id StDisk m = Ok (Some h) ->
  exists ids, alternative_ids StDisk m = Ok ids /\ hd_error ids = Some h.
Proof. exact disk_generated. Qed.
Print Assumptions C37_first_is_generated.

(** Disks listed in /dev/disk/by-uuid: at most 40, one per device (inode), each with
    the serial of an entry; every usable entry is there unless the limit was hit. *)
Theorem C37_by_uuid : forall (env : disk_env) (es : list dirent) (ds : list disk), uuid_listing env es ds ->
  NoDup (map dk_id ds) /\ length ds <= 40 /\
  (forall d, In d ds -> exists e, In e es /\ usable e (dk_id d) /\ dk_sn d = serial_of (cstr (de_name e)) /\ dk_sn_init d = true) /\
  (length ds < 40 -> forall e id, In e es -> usable e id -> exists d, In d ds /\ dk_id d = id).
Proof.
  intros env es ds L. destruct (uuid_disks _ _ _ L) as [seen [rest [by_uuid [base [-> [Hr [N1 [L40 [H1 [H2 _]]]]]]]]]].
  split; [exact N1|]. split; [exact L40|]. split.
  - intros d Hd. destruct (H1 d Hd) as [e [He X]]. exists e. split; [apply in_or_app; auto|exact X].
  - intros Hlt e id He U. destruct rest as [|r rest]; [|assert (length ds = 40) by (apply Hr; discriminate); lia]. rewrite app_nil_r in He. eauto.
Qed.
Print Assumptions C37_by_uuid.

(** an fstab line UUID=... makes the disk with that UUID preferred *)
Theorem C37_fstab_uuid : forall (env : disk_env) (es : list dirent) (ds : list disk) (fs : list bytes) (e : dirent) (id : Z) (d : disk),
  uuid_listing env es ds -> NoDup (map de_name es) -> length ds < 40 -> de_fstab env = Some fs ->
  In e es -> usable e id -> In (bs "UUID=" ++ de_name e) fs -> In d ds -> dk_id d = id -> dk_preferred d = true.
Proof. exact uuid_preferred. Qed.
Print Assumptions C37_fstab_uuid.

(** a line LABEL=... the first disk with that label *)
Theorem C37_fstab_label : forall (env : disk_env) (es : list dirent) (ds : list disk) (fs : list bytes) (lab : bytes) (k : nat) (d : disk),
  uuid_listing env es ds -> de_fstab env = Some fs -> In (bs "LABEL=" ++ lab) fs ->
  first_with (fun d => dk_label d = Some lab) ds k -> nth_error ds k = Some d -> dk_preferred d = true.
Proof. exact label_preferred. Qed.
Print Assumptions C37_fstab_label.

(** nothing else does *)
Theorem C37_preferred_only_if : forall (env : disk_env) (es : list dirent) (ds : list disk) (d : disk),
  uuid_listing env es ds -> In d ds -> dk_preferred d = true ->
  exists fs f, de_fstab env = Some fs /\ In f fs /\
    ((exists e, In e es /\ usable e (dk_id d) /\ f = bs "UUID=" ++ de_name e) \/ (exists lab, dk_label d = Some lab /\ f = bs "LABEL=" ++ lab)).
Proof. exact preferred_why. Qed.
Print Assumptions C37_preferred_only_if.

Definition two_disks (fstab : list bytes) (labels : option (list dirent)) : disk_env :=
  {| de_by_uuid := Some [ {| de_name := bs "11223344-55667788"; de_ino := Some 7%Z; de_link := Some (bs "../../sda1") |};
                          {| de_name := bs "99AABBCC-DDEEFF00"; de_ino := Some 8%Z; de_link := Some (bs "../../sdb1") |} ];
     de_by_label := labels; de_by_partlabel := None; de_blkid := []; de_fstab := Some fstab |}.
Example C37_case : exists d1 d2, get_disk_infos (two_disks [bs "UUID=99AABBCC-DDEEFF00"] None) = Ok (FUNC_RET_OK, [d1; d2]) /\
  dk_preferred d1 = false /\ dk_preferred d2 = true /\ dk_device d2 = bs "sdb1".
Proof. do 2 eexists. repeat split; vm_compute; reflexivity. Qed.
Example C37_case_listing : uuid_listing (two_disks [bs "UUID=99AABBCC-DDEEFF00"] None)
  [ {| de_name := bs "11223344-55667788"; de_ino := Some 7%Z; de_link := Some (bs "../../sda1") |};
    {| de_name := bs "99AABBCC-DDEEFF00"; de_ino := Some 8%Z; de_link := Some (bs "../../sdb1") |} ]
  (match get_disk_infos (two_disks [bs "UUID=99AABBCC-DDEEFF00"] None) with Ok (_, ds) => ds | _ => [] end).
Proof.
  split; [reflexivity|]. split; [|vm_compute; reflexivity]. do 2 eexists. split; [left; reflexivity|]. unfold usable. cbn.
  repeat split; try discriminate. exists 7%Z. split; reflexivity.
Qed.

(** ... although an fstab line naming the device is meant to *)
Definition device_lines_count : Prop := forall (env : disk_env) (es : list dirent) (ds : list disk) (fs : list bytes) (dev : bytes) (d : disk),
  uuid_listing env es ds -> de_fstab env = Some fs -> In (bs "/dev/" ++ dev) fs -> In d ds -> dk_device d = dev -> dk_preferred d = true.
Theorem C37_fstab_device_refuted : ~ device_lines_count.
Proof.
  intros H.
  set (env := two_disks [bs "/dev/sdb1"] None).
  destruct (get_disk_infos env) as [[r ds]| | |] eqn:E; try (vm_compute in E; discriminate).
  assert (L : uuid_listing env (match de_by_uuid env with Some l => l | None => [] end) ds).
  { split; [reflexivity|]. split; [|rewrite E; vm_compute in E; injection E as <- _; reflexivity].
    do 2 eexists. split; [left; reflexivity|]. unfold usable. cbn. repeat split; try discriminate. exists 7%Z. split; reflexivity. }
  assert (exists d, In d ds /\ dk_device d = bs "sdb1" /\ dk_preferred d = false) as [d [Hin [Hdev Hp]]].
  { vm_compute in E. injection E as _ <-. eexists. split; [right; left; reflexivity|]. split; reflexivity. }
  assert (dk_preferred d = true); [|congruence].
  eapply (H env); [exact L|reflexivity|left; reflexivity|exact Hin|exact Hdev].
Qed.
Print Assumptions C37_fstab_device_refuted.

(** and a LABEL= line makes the code read label arrays that were never written *)
Theorem C37_fstab_label_uninitialised : get_disk_infos (two_disks [bs "LABEL=root"] None) = Undef UbUninit.
Proof. vm_compute. reflexivity. Qed.
Print Assumptions C37_fstab_label_uninitialised.

(** ** C38 *)
(** the value, and exactly when the scratch buffer is overrun: fewer non-hex
    characters than the terminator and the padding digit need *)
Theorem C38_parse_uuid : forall u : bytes, nul_free u ->
  parse_uuid u = if Nat.ltb (length (hex_digits u) mod 2) (others u) then Ok (serial_of u) else Undef UbWrite.
Proof. intros u Hu. rewrite parse_uuid_spec, (cstr_id _ Hu). reflexivity. Qed.
Print Assumptions C38_parse_uuid.

Theorem C38_short_uuid : forall u : bytes, length (hex_digits u) <= 16 ->
  serial_of u = firstn 8 (map ascii_of_N (hex_pairs (hex_digits u)) ++ repeat NUL 8).
Proof.
  intros u H. apply serial_short. assert (G : forall n l, length l <= 2 * n -> length (hex_pairs l) <= n).
  { clear. induction n as [|n IH]; intros [|a [|b l]] H; cbn [length hex_pairs] in *; try lia. specialize (IH l). lia. }
  apply (G 8). exact H.
Qed.
Print Assumptions C38_short_uuid.

Definition scratch_is_safe : Prop := forall u : bytes, nul_free u -> forall x, parse_uuid u <> Undef x.
Theorem C38_scratch_refuted : ~ scratch_is_safe.
Proof. intros H. apply (H (bs "1234ABCD") eq_refl UbWrite). vm_compute. reflexivity. Qed.
Print Assumptions C38_scratch_refuted.

(** every UUID written without separators overruns it *)
Theorem C38_no_separator_overruns : forall u : bytes, forallb isxdigit u = true -> parse_uuid u = Undef UbWrite.
Proof.
  intros u Hu. assert (Hn : nul_free u).
  { unfold nul_free. apply forallb_forall. intros c Hc. rewrite forallb_forall in Hu. apply Hu in Hc. unfold nonnul.
    destruct (Ascii.eqb_spec c NUL) as [->|]; [discriminate|reflexivity]. }
  rewrite C38_parse_uuid by exact Hn. unfold others. rewrite <- !filter_len.
  assert (filter isxdigit u = u) as ->.
  { clear Hn. induction u as [|c u IH]; [reflexivity|]. cbn in Hu |- *. apply andb_true_iff in Hu as [-> Hu]. rewrite IH by exact Hu. reflexivity. }
  rewrite Nat.sub_diag. destruct (Nat.ltb_spec (length u mod 2) 0); [lia|reflexivity].
Qed.
Print Assumptions C38_no_separator_overruns.
Example C38_case : parse_uuid (bs "1234-ABCD") = Ok ["018"; "052"; "171"; "205"; NUL; NUL; NUL; NUL]%char.
Proof. vm_compute. reflexivity. Qed.

(** ** C39 *)
(** one disk per closing tag, numbered from 0; the scan always ends *)
Theorem C39_count : forall (content : bytes) (ds : list disk) (m : list (bytes * Z)), parse_blkid content = Ok (ds, m) ->
  length ds = occurrences (bs "</device>") content /\ map dk_id ds = map Z.of_nat (seq 0 (length ds)).
Proof. exact parse_blkid_count. Qed.
Print Assumptions C39_count.

Theorem C39_terminates : forall content : bytes, parse_blkid content <> OutOfFuel.
Proof. exact parse_blkid_fuel. Qed.
Print Assumptions C39_terminates.

(** When every device has UUID, PARTLABEL and TYPE, each is reported with its own. *)
Theorem C39_attributes : forall (devs : list blkid_dev) (tail : bytes),
  Forall blkid_ok devs -> (forall a b, tail <> a ++ bs "</device>" ++ b) -> Forall (fun d => exists sn, parse_uuid (bd_uuid d) = Ok sn) devs ->
  exists ds m, parse_blkid (blkid_text devs tail) = Ok (ds, m) /\ all_reported 0 devs ds.
Proof.
  intros devs tail F Ht Fu. destruct (blkid_devices (S (length (blkid_text devs tail))) (blkid_text devs tail) 0 0 [] [] [] devs tail) as [new [m [E A]]]; auto.
  - lia.
  - unfold blkid_text. rewrite app_length. assert (length devs <= length (concat (map (fun d => bd_text d ++ bs "</device>") devs))); [|lia].
    clear. induction devs as [|d devs IH]; cbn [map concat length]; [lia|]. rewrite !app_length. assert (length (bs "</device>") = 9) by reflexivity. lia.
  - exists new, m. split; assumption.
Qed.
Print Assumptions C39_attributes.

Lemma attribute_by_search s attr v a b : s = a ++ (attr ++ bs "=""") ++ v ++ bs """" ++ b -> find_here (attr ++ bs "=""") s = Some (length a) ->
  existsb (fun c => Ascii.eqb c """"%char) v = false -> attribute s attr v.
Proof.
  intros E Ef Hv. exists a, b. split.
  - destruct (find_here_some _ _ _ Ef) as [a' [b' [[E' H] L]]]. split; [exact E|]. intros x y Hxy. rewrite <- L. exact (H x y Hxy).
  - intros Hin. assert (existsb (fun c => Ascii.eqb c """"%char) v = true) by (apply existsb_exists; exists """"%char; split; [exact Hin|reflexivity]). congruence.
Qed.
Example C39_attributes_case : blkid_ok {| bd_text := bs "<device UUID=""12-34"" TYPE=""swap"" PARTLABEL=""a"">/dev/sda1"; bd_uuid := bs "12-34"; bd_label := bs "a"; bd_type := bs "swap" |}.
Proof.
  repeat split; cbn [bd_text bd_uuid bd_label bd_type].
  - apply find_here_none. vm_compute. reflexivity.
  - eapply (attribute_by_search _ _ _ (bs "<device ")); vm_compute; reflexivity.
  - eapply (attribute_by_search _ _ _ (bs "<device UUID=""12-34"" TYPE=""swap"" ")); vm_compute; reflexivity.
  - eapply (attribute_by_search _ _ _ (bs "<device UUID=""12-34"" ")); vm_compute; reflexivity.
Qed.

(** the first device also with its own name *)
Theorem C39_first_name : forall (content : bytes) (ds : list disk) (m : list (bytes * Z)) (pre name rest : bytes),
  parse_blkid content = Ok (ds, m) -> first_at (bs "</device>") content (pre ++ ">"%char :: name) rest -> ~ In ">"%char name ->
  exists d ds', ds = d :: ds' /\ dk_device d = firstn 1023 (cstr name).
Proof. exact first_device. Qed.
Print Assumptions C39_first_name.

Definition dev_text (attrs name : string) : bytes := bs "<device " ++ bs attrs ++ bs ">" ++ bs name ++ bs "</device>" ++ [LF].
Definition cache : bytes := dev_text "UUID=""1234-ABCD"" TYPE=""vfat"" PARTLABEL=""a""" "/dev/sda1" ++ dev_text "UUID=""55-66"" TYPE=""swap"" PARTLABEL=""b""" "/dev/sda2".
Example C39_case : exists d1 d2 m, parse_blkid cache = Ok ([d1; d2], m) /\ dk_device d1 = bs "/dev/sda1" /\
  dk_sn d2 = serial_of (bs "55-66") /\ dk_label d2 = Some (bs "b") /\ dk_preferred d1 = false /\ dk_preferred d2 = true /\ dk_device d2 = [LF].
Proof. do 3 eexists. repeat split; vm_compute; reflexivity. Qed.

(** Every later device is reported under a wrong name... *)
Definition all_named : Prop := forall (ds : list disk) (m : list (bytes * Z)) (a1 n1 a2 n2 : string),
  parse_blkid (dev_text a1 n1 ++ dev_text a2 n2) = Ok (ds, m) ->
  forallb (fun c => negb (Ascii.eqb c ">"%char || Ascii.eqb c "<"%char)) (bs a1 ++ bs n1 ++ bs a2 ++ bs n2) = true ->
  map dk_device ds = [bs n1; bs n2].
Theorem C39_names_refuted : ~ all_named.
Proof.
  intros H. destruct (parse_blkid cache) as [[ds m]| | |] eqn:E; try (vm_compute in E; discriminate).
  assert (X : map dk_device ds = [bs "/dev/sda1"; bs "/dev/sda2"]) by (unfold cache in E; eapply H; [exact E|vm_compute; reflexivity]).
  vm_compute in E. injection E as <- _. vm_compute in X. discriminate.
Qed.
Print Assumptions C39_names_refuted.

(** ... and a device without a PARTLABEL is given a label all the same *)
Definition labels_are_labels : Prop := forall (attrs name : string) (ds : list disk) (m : list (bytes * Z)) (d : disk),
  parse_blkid (dev_text attrs name) = Ok (ds, m) -> occurrences (bs "LABEL=") (bs attrs) = 0 -> In d ds -> dk_label_init d = false.
Theorem C39_labels_refuted : ~ labels_are_labels.
Proof.
  intros H. assert (exists d m, parse_blkid (dev_text "DEVNO=""0x0801"" UUID=""1234-ABCD"" TYPE=""ext4""" "/dev/sda1") = Ok ([d], m) /\ dk_label_init d = true) as [d [m [E Hl]]].
  { do 2 eexists. split; vm_compute; reflexivity. }
  assert (dk_label_init d = false) by (eapply H; [exact E|reflexivity|left; reflexivity]). congruence.
Qed.
Print Assumptions C39_labels_refuted.

(** The invented label is the same text on every such machine: an identifier made
    from it is accepted by machines that have no disk in common (C34). *)
Definition blkid_machine (attrs : string) : machine :=
  {| hw_ifaddrs := None; hw_order := fun l => l;
     hw_disks := {| de_by_uuid := None; de_by_label := None; de_by_partlabel := None; de_blkid := [Some (dev_text attrs "/dev/sda1")]; de_fstab := None |};
     hw_exec := no_files |}.
Definition attrs_1 := "DEVNO=""0x0801"" UUID=""1234-ABCD"" TYPE=""ext4"""%string.
Definition attrs_2 := "DEVNO=""0xfd00"" UUID=""0ac3-7e45"" TYPE=""xfs"""%string.
Theorem C34_blkid_refuted : exists text : bytes,
  validate_pc_signature (blkid_machine attrs_1) text = Ok LICENSE_OK /\ validate_pc_signature (blkid_machine attrs_2) text = Ok LICENSE_OK /\
  generate_user_pc_signature None (blkid_machine attrs_1) 2 <> generate_user_pc_signature None (blkid_machine attrs_2) 2 /\
  (forall id, generate_user_pc_signature None (blkid_machine attrs_1) 2 = Ok id -> validate_pc_signature (blkid_machine attrs_2) id = Ok IDENTIFIERS_MISMATCH).
Proof.
  destruct (make_id 2 (label_data (bs "VNO="))) as [h| | |] eqn:Eh; try (vm_compute in Eh; discriminate).
  destruct (hw_print h) as [text| | |] eqn:Et; try (vm_compute in Eh; injection Eh as <-; vm_compute in Et; discriminate).
  exists text. vm_compute in Eh. injection Eh as <-. vm_compute in Et. injection Et as <-.
  split; [vm_compute; reflexivity|]. split; [vm_compute; reflexivity|]. split; [vm_compute; discriminate|].
  intros id E. vm_compute in E. injection E as <-. vm_compute. reflexivity.
Qed.
Print Assumptions C34_blkid_refuted.

(** ** C59 *)
(** The whole listing, for every content of /dev/disk, of the blkid cache and of
    fstab: which disks, their serials, devices, labels and preferences, and exactly
    when and how it fails. *)
Theorem C59_listing : forall env : disk_env, get_disk_infos env = disks_of env.
Proof. exact listing_eq. Qed.
Print Assumptions C59_listing.

(** A listing never fails on by-uuid entries named as udev names them: dashes (at
    least two characters that are no hex digits) in each name, and no LABEL= line in fstab. *)
Theorem C59_by_uuid_defined : forall (env : disk_env) (es : list dirent),
  de_by_uuid env = Some es -> usables es <> [] ->
  (forall x, In x (usables es) -> 2 <= others (cstr (u_name x))) ->
  (forall ls line, de_fstab env = Some ls -> In line ls -> starts_with (bs "LABEL=") line = false) ->
  exists ds, get_disk_infos env = Ok (FUNC_RET_OK, ds) /\ map dk_id ds = map u_id (distinct [] (examined (usables es))).
Proof.
  intros env es Hes Hne Ho Hl. rewrite listing_eq. unfold disks_of. rewrite Hes.
  assert (Hsub : forall x, In x (examined (usables es)) -> In x (usables es)).
  { intros x Hx. unfold examined in Hx. apply in_map_iff in Hx as [[k y] [<- Hx]]. apply filter_In in Hx as [Hx _]. apply in_combine_r in Hx. exact Hx. }
  destruct (examined (usables es)) as [|x l] eqn:E.
  - exfalso. rewrite examined_exr in E. destruct (usables es); [congruence|]. cbn in E. discriminate.
  - assert (Hov : existsb (fun y => overflows (u_name y)) (x :: l) = false).
    { apply not_true_iff_false. intros H. apply existsb_exists in H as [y [Hy H]]. apply Hsub, Ho in Hy. unfold overflows in H. apply Nat.leb_le in H.
      pose proof (Nat.mod_upper_bound (length (hex_digits (cstr (u_name y)))) 2 ltac:(lia)). lia. }
    rewrite Hov. unfold with_preferences.
    assert (Hun : forall ds, existsb (unknown_label ds) (match de_fstab env with Some ls => ls | None => [] end) = false).
    { intros ds. apply not_true_iff_false. intros H. apply existsb_exists in H as [line [Hin H]]. destruct (de_fstab env) as [ls|] eqn:Ef; [|destruct Hin].
      unfold unknown_label in H. rewrite (Hl ls line eq_refl Hin) in H. discriminate. }
    rewrite Hun. cbn [rbind]. eexists. split; [reflexivity|]. rewrite !map_map. reflexivity.
Qed.
Print Assumptions C59_by_uuid_defined.
Example C59_case : exists d1 d2, disks_of (two_disks [bs "UUID=99AABBCC-DDEEFF00"] None) = Ok (FUNC_RET_OK, [d1; d2]) /\
  dk_preferred d1 = false /\ dk_preferred d2 = true /\ dk_device d2 = bs "sdb1".
Proof. do 2 eexists. repeat split; vm_compute; reflexivity. Qed.
(** The window of a device in the blkid cache runs past its closing tag, so a device
    without a PARTLABEL shows the PARTLABEL of the device after it. *)
Example C59_window : match disks_of {| de_by_uuid := None; de_by_label := None; de_by_partlabel := None; de_fstab := None;
     de_blkid := [None; Some (bs "<device UUID=""11-22-33"" TYPE=""swap"">/dev/sda1</device>" ++ bs "<device UUID=""44-55-66"" TYPE=""ext4"">/dev/sda2</device>" ++ bs "<device UUID=""77-88-99"" PARTLABEL=""P3"" TYPE=""ext4"">/dev/sda3</device>")] |} with
  | Ok (_, ds) => map dk_label ds = [Some (bs "ID="); Some (bs "P3"); Some (bs "P3")] /\ map dk_preferred ds = [true; false; false]
  | _ => False end.
Proof. vm_compute. split; reflexivity. Qed.
