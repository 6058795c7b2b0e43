(** What DmiInfo takes from a firmware table. *)
From Verif Require Import Base P_Base WinSmbios Spec_Smbios P_Smbios.
From Coq Require Import Lia.

Lemma field_at s pre post k : 4 <= k < length (st_fields s) + 4 -> byte_at (pre ++ image s ++ post) (length pre + k) = Ok (field s k).
Proof.
  intros H. rewrite byte_at_app. unfold byte_at, field, image. destruct k as [|[|[|[|k]]]]; try lia. cbn [app nth_error]. replace (S (S (S (S k))) - 4) with k by lia.
  rewrite <- app_assoc. rewrite nth_error_app1 by lia. rewrite (nth_error_nth' _ NUL) by lia. reflexivity.
Qed.
Lemma type_at s pre post : byte_at (pre ++ image s ++ post) (length pre) = Ok (st_type s).
Proof. rewrite <- (Nat.add_0_r (length pre)). rewrite byte_at_app. reflexivity. Qed.
Lemma len_at s pre post : byte_at (pre ++ image s ++ post) (length pre + 1) = Ok (ascii_of_nat (length (st_fields s) + 4)).
Proof. rewrite byte_at_app. reflexivity. Qed.

Lemma code_of c : code c = N.of_nat (nat_of_ascii c).
Proof. unfold code, nat_of_ascii. rewrite N2Nat.id. reflexivity. Qed.
Lemma in_length_spec s k : well_formed s -> in_length (field s k) (ascii_of_nat (length (st_fields s) + 4)) = true <-> in_use s k.
Proof.
  intros [H _]. unfold in_length, in_use. rewrite !code_of, nat_ascii_embedding by lia. rewrite andb_true_iff, !N.ltb_lt. lia.
Qed.
(** a used reference: to a string, or to none *)
Lemma string_no_spec s k : in_use s k -> (exists t, string_no (st_strings s) (field s k) = Ok t /\ named s k = Some t /\ ~ dangling s k) \/
  (string_no (st_strings s) (field s k) = Undef UbRead /\ dangling s k).
Proof.
  intros [H1 H2]. unfold string_no, named, dangling, in_use. rewrite code_of, Nat2N.id. set (n := nat_of_ascii (field s k)) in *.
  replace (0 <? n) with true by (symmetry; apply Nat.ltb_lt; lia). replace (n <? length (st_fields s) + 4) with true by (symmetry; apply Nat.ltb_lt; lia). cbn [andb].
  destruct n as [|n]; [lia|]. replace (S n - 1) with n by lia. destruct (nth_error (st_strings s) n) as [t|] eqn:E.
  - left. exists t. split; [reflexivity|]. split; [reflexivity|]. assert (n < length (st_strings s)) by (apply nth_error_Some; congruence). lia.
  - right. split; [reflexivity|]. apply nth_error_None in E. lia.
Qed.
Lemma unused_none s k : ~ in_use s k -> named s k = None.
Proof. intros H. unfold named, in_use in *. destruct (Nat.ltb_spec 0 (nat_of_ascii (field s k))), (Nat.ltb_spec (nat_of_ascii (field s k)) (length (st_fields s) + 4)); cbn; try reflexivity; lia. Qed.

Definition or_else {A} (x : option A) (y : A) : A := match x with Some a => a | None => y end.
Definition take_in (s : structure) (m : dmi) : dmi :=
  {| dm_sys_vendor := or_else (told_board s) (dm_sys_vendor m); dm_bios_vendor := or_else (told_bios s) (dm_bios_vendor m);
     dm_bios_description := or_else (told_system s) (dm_bios_description m); dm_cpu_manufacturer := or_else (told_cpu s) (dm_cpu_manufacturer m);
     dm_cpu_cores := or_else (told_cores s) (dm_cpu_cores m) |}.

Lemma dmi_header_spec s pre post m : well_formed s -> complete s ->
  (~ bad_reference s /\ dmi_header (pre ++ image s ++ post) (length pre) m = Ok (take_in s m)) \/
  (bad_reference s /\ dmi_header (pre ++ image s ++ post) (length pre) m = Undef UbRead).
Proof.
  intros HW HC. assert (HL := HW). destruct HL as [HL _]. unfold dmi_header. rewrite extract_ok by exact HW. cbn [rbind]. rewrite type_at, len_at. cbn [rbind].
  assert (Z : N.eqb (code (ascii_of_nat (length (st_fields s) + 4))) 0 = false) by (apply N.eqb_neq; rewrite code_of, nat_ascii_embedding by lia; lia). rewrite Z. clear Z.
  unfold bad_reference, complete, take_in, told_board, told_bios, told_system, told_cpu, told_cores, of_type in *. rewrite code_of.
  set (t := nat_of_ascii (st_type s)) in *. set (d := pre ++ image s ++ post).
  assert (F : forall k, 4 <= k < length (st_fields s) + 4 -> byte_at d (length pre + k) = Ok (field s k)) by (intros k Hk; apply field_at, Hk).
  assert (U : forall k, (in_length (field s k) (ascii_of_nat (length (st_fields s) + 4)) = true /\ in_use s k) \/ (in_length (field s k) (ascii_of_nat (length (st_fields s) + 4)) = false /\ ~ in_use s k)).
  { intros k. assert (Q := in_length_spec s k HW). destruct (in_length (field s k) _); [left|right]; split; try reflexivity; [apply Q; reflexivity|]. intros X. apply Q in X. discriminate. }
  assert (D : forall k, dangling s k -> in_use s k) by (intros k [X _]; exact X).
  destruct m as [v b de cm cc]. cbn [dm_sys_vendor dm_bios_vendor dm_bios_description dm_cpu_manufacturer dm_cpu_cores].
  destruct t as [|[|[|[|[|t]]]]]; cbn [Nat.eqb or_else]; [cbn [N.of_nat Pos.of_succ_nat Pos.succ]..|].
  - rewrite F by lia. cbn [rbind]. destruct (U 4) as [[-> I]|[-> I]].
    + destruct (string_no_spec s 4 I) as [[x [-> [-> ND]]]|[-> DD]]; [left|right]; split; auto.
    + left. rewrite (unused_none s 4 I). split; [intros X; apply I, D, X|reflexivity].
  - rewrite F by lia. cbn [rbind]. destruct (U 4) as [[-> I]|[-> I]].
    + rewrite F by lia. cbn [rbind]. destruct (U 5) as [[-> J]|[-> J]].
      * destruct (string_no_spec s 4 I) as [[x [-> [-> ND]]]|[-> DD]]; [|right; auto]. cbn [rbind].
        destruct (string_no_spec s 5 J) as [[y [-> [-> ND2]]]|[-> DD]]; [left|right; auto]. split; [tauto|reflexivity].
      * left. rewrite (unused_none s 5 J). split; [tauto|]. destruct (named s 4); reflexivity.
    + left. rewrite (unused_none s 4 I). split; [tauto|reflexivity].
  - rewrite F by lia. cbn [rbind]. destruct (U 4) as [[-> I]|[-> I]].
    + destruct (string_no_spec s 4 I) as [[x [-> [-> ND]]]|[-> DD]]; [left|right]; split; auto.
    + left. rewrite (unused_none s 4 I). split; [intros X; apply I, D, X|reflexivity].
  - left. split; [auto|reflexivity].
  - rewrite !F by lia. cbn [rbind]. destruct (U 7) as [[-> I]|[-> I]].
    + destruct (string_no_spec s 7 I) as [[x [-> [-> ND]]]|[-> DD]]; [left|right]; split; auto.
    + left. rewrite (unused_none s 7 I). split; [intros X; apply I, D, X|reflexivity].
  - left. split; [auto|]. destruct (N.of_nat (S (S (S (S (S t)))))) as [|[p|[p|[p|p|]|]|]] eqn:E; try reflexivity; exfalso; lia.
Qed.

Fixpoint take_all (ss : list structure) (m : dmi) : dmi := match ss with [] => m | s :: r => take_all r (take_in s m) end.
Lemma or_else_last {A} (what : structure -> option A) s r y : or_else (last_told what (s :: r)) y = or_else (last_told what r) (or_else (what s) y).
Proof. cbn. destruct (last_told what r); reflexivity. Qed.
Lemma take_all_spec ss : forall m, take_all ss m =
  {| dm_sys_vendor := or_else (last_told told_board ss) (dm_sys_vendor m); dm_bios_vendor := or_else (last_told told_bios ss) (dm_bios_vendor m);
     dm_bios_description := or_else (last_told told_system ss) (dm_bios_description m); dm_cpu_manufacturer := or_else (last_told told_cpu ss) (dm_cpu_manufacturer m);
     dm_cpu_cores := or_else (last_told told_cores ss) (dm_cpu_cores m) |}.
Proof.
  induction ss as [|s r IH]; intros m; [destruct m; reflexivity|]. cbn [take_all]. rewrite IH. unfold take_in. cbn [dm_sys_vendor dm_bios_vendor dm_bios_description dm_cpu_manufacturer dm_cpu_cores]. rewrite !or_else_last. reflexivity.
Qed.
Lemma dmi_headers_spec ss : Forall well_formed ss -> Forall complete ss -> forall pre m,
  (~ Exists bad_reference ss /\ dmi_headers (pre ++ table ss) (map (fun x => length pre + x) (starts ss)) m = Ok (take_all ss m)) \/
  (Exists bad_reference ss /\ dmi_headers (pre ++ table ss) (map (fun x => length pre + x) (starts ss)) m = Undef UbRead).
Proof.
  intros HW HC. induction ss as [|s ss IH]; intros pre m; [left; split; [intros X; inversion X|reflexivity]|].
  inversion HW as [|? ? W1 W2]; inversion HC as [|? ? C1 C2]; subst. specialize (IH W2 C2).
  change (table (s :: ss)) with (image s ++ table ss).
  assert (E : map (fun x => length pre + x) (starts (s :: ss)) = length pre :: map (fun x => length (pre ++ image s) + x) (starts ss)).
  { unfold starts. cbn [length seq map firstn]. f_equal; [cbn; lia|]. rewrite <- seq_shift, !map_map. apply map_ext. intros i. cbn [firstn]. change (table (s :: firstn i ss)) with (image s ++ table (firstn i ss)). rewrite !app_length. lia. }
  rewrite E. cbn [dmi_headers take_all]. destruct (dmi_header_spec s pre (table ss) m W1 C1) as [[B ->]|[B ->]].
  - cbn [rbind]. rewrite app_assoc. destruct (IH (pre ++ image s) (take_in s m)) as [[X ->]|[X ->]]; [left|right]; split; try reflexivity; [|right; exact X].
    intros Y. inversion Y; subst; contradiction.
  - right. split; [left; exact B|reflexivity].
Qed.

Lemma read_smbios_full f t : fw_table f = Some t -> fw_size f = length t -> t <> [] -> read_smbios f = Some t.
Proof.
  intros H1 H2 H3. unfold read_smbios. rewrite H1, H2, firstn_all, Nat.sub_diag. destruct t; [congruence|]. cbn. rewrite app_nil_r. reflexivity.
Qed.
Lemma windows_dmi_spec ss b : delivered ss b -> Forall well_formed ss -> Forall complete ss -> forall f, fw_table f = Some b -> fw_size f = length b ->
  (~ Exists bad_reference ss /\ windows_dmi f = Ok (take_all ss no_dmi)) \/ (Exists bad_reference ss /\ windows_dmi f = Undef UbRead).
Proof.
  intros [vs [len [rest [HV [[a0 [a1 [a2 [a3 [-> HN]]]]] ->]]]]] HW HC f F1 F2. unfold windows_dmi. rewrite (read_smbios_full f _ F1 F2) by (destruct vs; [discriminate|discriminate]).
  destruct vs as [|v0 [|v1 [|v2 [|v3 [|]]]]]; try discriminate HV. cbn [app table_length byte_at nth_error rbind].
  replace (N.to_nat (code a0 + 256 * (code a1 + 256 * (code a2 + 256 * code a3)))) with (length (table ss)) by (rewrite HN, !code_of; clear; lia).
  cbn [skipn]. rewrite feed_ok by exact HW. cbn [rbind]. assert (K := dmi_headers_spec ss HW HC [] no_dmi). cbn [app length] in K.
  replace (map (fun x => 0 + x) (starts ss)) with (starts ss) in K by (symmetry; apply map_id). exact K.
Qed.

Lemma parser_clear_null os : Forall (fun o => o = OpClear) os -> parser_run RawNull os = Some RawNull.
Proof. induction 1 as [|o os -> _ IH]; [reflexivity|exact IH]. Qed.
