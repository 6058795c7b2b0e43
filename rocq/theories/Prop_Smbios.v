(** Properties C63 - C65: the firmware table of a Windows machine. *)
From Verif Require Import Base P_Base WinSmbios Spec_Smbios P_Smbios P_Smbios2.
From Coq Require Import Lia.

(** C63: every table is walked to its end or a byte outside it is read; a table of
    well-formed structures is walked structure by structure, with their strings. *)
Theorem C63_structures : forall (ss : list structure) (rest : bytes), Forall well_formed ss ->
  feed (table ss ++ rest) (length (table ss)) = Ok (table ss, starts ss) /\
  forall before s after, ss = before ++ s :: after ->
    In (length (table before)) (starts ss) /\
    extract_strings (table ss) (length (table before)) = Ok (length (table (before ++ [s])), st_strings s).
Proof.
  intros ss rest H. split; [apply feed_ok, H|]. intros a s b ->. apply Forall_app in H as [Ha Hs]. inversion Hs as [|? ? H1 H2]; subst. split.
  - unfold starts. apply in_map_iff. exists (length a). split; [rewrite firstn_app, firstn_all, Nat.sub_diag; cbn; rewrite app_nil_r; reflexivity|].
    apply in_seq. rewrite app_length. cbn. lia.
  - rewrite !table_app. change (table (s :: b)) with (image s ++ table b). rewrite extract_ok by exact H1. do 2 f_equal. replace (table [s]) with (image s) by (unfold table; cbn [map concat]; rewrite app_nil_r; reflexivity). rewrite app_length. reflexivity.
Qed.
Print Assumptions C63_structures.
Theorem C63_any_table : forall (raw : bytes) (size : nat),
  match feed raw size with
  | Ok (d, headers) => size <= length raw /\ d = firstn size raw /\ Forall (fun x => x < size) headers /\
      forall x, In x headers -> exists next strings, extract_strings d x = Ok (next, strings)
  | Undef UbRead => True
  | _ => False
  end.
Proof.
  intros raw size. unfold feed. destruct (Nat.ltb_spec (length raw) size) as [L|L]; [exact I|].
  assert (E : length (firstn size raw) = size) by (rewrite firstn_length; lia).
  destruct (feed_loop_only (S size) (firstn size raw) 0 ltac:(lia)) as [A B].
  destruct (feed_loop (S size) (firstn size raw) 0) as [hs| |u|]; cbn [rbind]; try contradiction.
  - destruct (B hs eq_refl) as [B1 B2]. split; [exact L|]. split; [reflexivity|]. split; [|exact B2]. rewrite E in B1. eapply Forall_impl; [|exact B1]. cbn. lia.
  - destruct u; try contradiction. exact I.
Qed.
Print Assumptions C63_any_table.
(** a table that breaks off inside a structure is read beyond its end *)
Theorem C63_memory_safety_refuted : ~ (forall raw size, size <= length raw -> feed raw size <> Undef UbRead).
Proof. intros H. apply (H (map ascii_of_nat [1; 27; 0; 0; 1; 2]) 6); [cbn; lia|]. vm_compute. reflexivity. Qed.
Print Assumptions C63_memory_safety_refuted.

Definition bios : structure := {| st_type := "000"; st_handle := ("000", "000")%char; st_fields := ("002"%char :: repeat NUL 19); st_strings := [bs "1.0"; bs "SeaBIOS"] |}.
Definition system : structure := {| st_type := "001"; st_handle := ("001", "000")%char; st_fields := ("001"%char :: "002"%char :: repeat NUL 21); st_strings := [bs "QEMU"; bs "Standard PC"] |}.
Definition board : structure := {| st_type := "002"; st_handle := ("002", "000")%char; st_fields := ("001"%char :: repeat NUL 4); st_strings := [bs "innotek"] |}.
Definition processor : structure := {| st_type := "004"; st_handle := ("003", "000")%char; st_fields := map ascii_of_nat [0;3;1;1] ++ repeat NUL 27 ++ ["008"%char]; st_strings := [bs "AMD"] |}.
Definition the_end : structure := {| st_type := "127"; st_handle := ("004", "000")%char; st_fields := []; st_strings := [] |}.
Definition demo_table := [bios; system; board; processor; the_end].
Lemma demo_well : Forall well_formed demo_table.
Proof.
  repeat apply Forall_cons; try apply Forall_nil; (split; [cbn; lia|]); repeat apply Forall_cons; try apply Forall_nil; (split; [discriminate|]); cbn; intros H; repeat destruct H as [H|H]; try discriminate; exact H.
Qed.
Example C63_case : Forall well_formed demo_table /\ starts demo_table = [0; 37; 82; 100; 141] /\ length (table demo_table) = 147.
Proof. split; [exact demo_well|]. split; vm_compute; reflexivity. Qed.

(** C64: the information taken from a delivered table of well-formed structures that are
    long enough: the last string named by a structure of the right kind. Undefined exactly
    if a used reference dangles. *)
Theorem C64_information : forall (ss : list structure) (delivery : bytes) (f : firmware),
  delivered ss delivery -> fw_table f = Some delivery -> fw_size f = length delivery -> Forall well_formed ss -> Forall complete ss ->
  (Exists bad_reference ss -> windows_dmi f = Undef UbRead) /\
  (~ Exists bad_reference ss -> exists m, windows_dmi f = Ok m /\
     dm_sys_vendor m = match last_told told_board ss with Some x => x | None => [] end /\
     dm_bios_vendor m = match last_told told_bios ss with Some x => x | None => [] end /\
     dm_bios_description m = match last_told told_system ss with Some x => x | None => [] end /\
     dm_cpu_manufacturer m = match last_told told_cpu ss with Some x => x | None => [] end /\
     dm_cpu_cores m = match last_told told_cores ss with Some x => x | None => 0%N end).
Proof.
  intros ss b f HD F1 F2 HW HC. destruct (windows_dmi_spec ss b HD HW HC f F1 F2) as [[N E]|[N E]]; split; intros X; try contradiction; [|exact E].
  exists (take_all ss no_dmi). split; [exact E|]. rewrite take_all_spec. cbn. repeat split; reflexivity.
Qed.
Print Assumptions C64_information.
(** no table, no information *)
Theorem C64_unavailable : forall f : firmware, fw_size f = 0 \/ fw_table f = None -> windows_dmi f = Ok no_dmi.
Proof. intros f [H|H]; unfold windows_dmi, read_smbios; rewrite H; [reflexivity|]. destruct (Nat.eqb (fw_size f) 0); reflexivity. Qed.
Print Assumptions C64_unavailable.
(** Findings: a reference is compared with the length of the structure instead of the
    number of strings, and the number of cores of an old (shorter) processor structure is
    a byte of its strings. *)
Definition delivery_of (ss : list structure) : bytes := map ascii_of_nat [0; 2; 8; 0] ++ map ascii_of_nat [length (table ss) mod 256; length (table ss) / 256; 0; 0] ++ table ss.
Definition firmware_of (ss : list structure) : firmware := {| fw_size := length (delivery_of ss); fw_table := Some (delivery_of ss) |}.
Definition nameless_board : structure := {| st_type := "002"; st_handle := ("002", "000")%char; st_fields := ("001"%char :: repeat NUL 4); st_strings := [] |}.
Theorem C64_well_formed_defined_refuted : ~ (forall ss f delivery, delivered ss delivery -> fw_table f = Some delivery -> fw_size f = length delivery ->
  Forall well_formed ss -> Forall complete ss -> exists m, windows_dmi f = Ok m).
Proof.
  intros H. destruct (H [nameless_board] (firmware_of [nameless_board]) (delivery_of [nameless_board])) as [m E].
  - exists (map ascii_of_nat [0; 2; 8; 0]), (map ascii_of_nat [11; 0; 0; 0]), []. split; [reflexivity|]. split; [|reflexivity]. do 4 eexists. split; reflexivity.
  - reflexivity.
  - reflexivity.
  - repeat constructor.
  - repeat constructor.
  - vm_compute in E. discriminate.
Qed.
Print Assumptions C64_well_formed_defined_refuted.
Definition old_processor : structure := {| st_type := "004"; st_handle := ("003", "000")%char; st_fields := map ascii_of_nat [0;3;1;1] ++ repeat NUL 27; st_strings := [bs "AMD"] |}.
Theorem C64_old_processor_refuted : ~ (forall ss f delivery m, delivered ss delivery -> fw_table f = Some delivery -> fw_size f = length delivery ->
  Forall well_formed ss -> windows_dmi f = Ok m -> dm_cpu_cores m <> 0%N -> exists s, In s ss /\ of_type 4 s = true /\ 36 <= length (st_fields s) + 4).
Proof.
  intros H. edestruct (H [old_processor] (firmware_of [old_processor]) (delivery_of [old_processor])) as [s [[<-|[]] [_ L]]].
  - exists (map ascii_of_nat [0; 2; 8; 0]), (map ascii_of_nat [40; 0; 0; 0]), []. split; [reflexivity|]. split; [|reflexivity]. do 4 eexists. split; reflexivity.
  - reflexivity.
  - reflexivity.
  - apply Forall_cons; [|constructor]. split; [cbn; lia|]. apply Forall_cons; [|constructor]. split; [discriminate|]. cbn. intros X. repeat destruct X as [X|X]; try discriminate; exact X.
  - vm_compute. reflexivity.
  - vm_compute. discriminate.
  - cbn in L. lia.
Qed.
Print Assumptions C64_old_processor_refuted.
Example C64_case : delivered demo_table (delivery_of demo_table) /\ Forall well_formed demo_table /\ Forall complete demo_table /\ ~ Exists bad_reference demo_table /\
  windows_dmi (firmware_of demo_table) = Ok {| dm_sys_vendor := bs "innotek"; dm_bios_vendor := bs "SeaBIOS"; dm_bios_description := bs "QEMUStandard PC"; dm_cpu_manufacturer := bs "AMD"; dm_cpu_cores := 8 |}.
Proof.
  split. { exists (map ascii_of_nat [0; 2; 8; 0]), (map ascii_of_nat [147; 0; 0; 0]), []. split; [reflexivity|]. split; [|vm_compute; reflexivity]. do 4 eexists. split; [reflexivity|vm_compute; reflexivity]. }
  split; [exact demo_well|]. split; [repeat constructor|]. split; [|vm_compute; reflexivity].
  intros H. apply Exists_exists in H as [s [[<-|[<-|[<-|[<-|[<-|[]]]]]] B]]; vm_compute in B; intuition lia.
Qed.

Lemma op_dec (a b : parser_op) : {a = b} + {a <> b}.
Proof. decide equality. Qed.

(** C65: the life of a parser object. Deleting the data twice is avoided exactly if clear
    is never called after a feed. *)
Theorem C65_double_free_iff : forall ops : list parser_op,
  parser_life ops = None <-> exists before after, ops = before ++ OpFeed :: after /\ In OpClear after.
Proof.
  intros ops. unfold parser_life.
  assert (Live : forall os, (In OpClear os -> match parser_run RawLive os with Some p => parser_clear p | None => None end = None) /\ (~ In OpClear os -> parser_run RawLive os = Some RawLive)).
  { induction os as [|[|] os [I1 I2]]; split; intros H; try contradiction; try reflexivity.
    - destruct H as [H|H]; [discriminate|]. cbn. apply I1, H.
    - cbn. apply I2. intros X. apply H. right. exact X.
    - cbn. destruct os as [|o os]; [reflexivity|]. destruct o; reflexivity.
    - destruct H. left. reflexivity. }
  induction ops as [|[|] ops IH].
  - split; [discriminate|]. intros [b [a [E _]]]. destruct b; discriminate.
  - cbn [parser_run parser_step parser_clear]. destruct (Live ops) as [L1 L2]. split.
    + intros H. exists [], ops. split; [reflexivity|]. destruct (in_dec op_dec OpClear ops) as [I|I]; [exact I|]. rewrite (L2 I) in H. discriminate.
    + intros [b [a [E I]]]. apply L1. destruct b as [|x b]; injection E as E1; subst; [exact I|]. apply in_or_app. right. right. exact I.
  - cbn [parser_run parser_step parser_clear]. rewrite IH. split.
    + intros [b [a [-> I]]]. exists (OpClear :: b), a. auto.
    + intros [b [a [E I]]]. destruct b as [|x b]; [discriminate|]. injection E as <- ->. eauto.
Qed.
Print Assumptions C65_double_free_iff.
(** the library's own use *)
Example C65_case : parser_life [OpFeed] = Some RawDangling /\ parser_life [OpFeed; OpClear] = None /\ parser_life [OpClear; OpFeed; OpFeed] = Some RawDangling.
Proof. repeat split. Qed.
