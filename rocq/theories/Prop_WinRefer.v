(** On Windows: the clock, the hardware and the key matter only for licenses that refer to them (C84). *)
From Verif Require Import Base CTypes StringUtils Dates Doubles Base64 HwId Registry Ini Network Disks ExecEnv Strategies Locate Licensecc Shared Trace WinSignature WinMachine AcquireGen.
From Verif Require Import P_Base Spec_Strings Spec_Base64 Spec_Dates P_Strings P_Text P_Decode Spec_Ini P_Ini Spec_HwId Spec_Hw P_Hw2 Spec_Registry P_Registry Spec_Acquire P_Acquire1 P_Acquire2 P_Acquire3 P_Acquire4 P_Acquire5 Spec_Faults P_Faults P_Faults2 Spec_AcquireGen P_AcqGen1 P_AcqGen2 P_Rel Spec_Repeat Spec_Der Prop_WinSig Spec_WinNet Spec_Windows Spec_WinAcquire Spec_WinFaults Spec_WinRepeat.
From Verif Require Import Ex_Acquire Prop_Acquire Prop_Windows Prop_WinAcquire Prop_Issue Prop_Repeat.
From Coq Require Import Lia.

Lemma win_licenses ww hint f t : short_names ww hint -> g_read_licenses (places ww) (win_backend ww) hint f t = read_licenses (places ww) hint f t.
Proof.
  intros SHORT. apply (g_licenses_same (places ww) (win_backend ww) (fits 260)).
  - intros e s' info r Hs'. apply g_add_same; [apply win_room|exact Hs'].
  - intros e info r. apply g_add_same; [apply win_room|exact I].
  - vm_compute. lia.
  - vm_compute. lia.
  - apply Forall_forall. exact SHORT.
Qed.
Lemma win_other_surroundings ww ww' c hint out t : short_names ww hint -> alike_worlds eq (places ww) (places ww') ->
  (forall id es sig, let f := feature_of (places ww) (option_map ci_feature c) in carried (places ww) f hint t es sig ->
     fair eq (places ww) (places ww') (win_backend ww) (win_backend ww') (option_map ci_magic c) (lic_of f id es sig)) ->
  win_acquire_license ww' c hint out t = win_acquire_license ww c hint out t.
Proof.
  intros SH HW HF. unfold win_acquire_license. assert (R : requested_feature (places ww') c = requested_feature (places ww) c) by (unfold requested_feature; rewrite (aw_project _ _ _ HW); reflexivity).
  destruct (requested_feature (places ww) c) as [f|e|b|] eqn:E.
  2,3,4: rewrite !feature_fails by (intros f; rewrite ?R, ?E; discriminate); rewrite R, E; reflexivity.
  symmetry. apply rel_refl. eapply rel_acquire with (f := f) (f' := f); auto using eq_S.
  intros r ls t' H. rewrite win_licenses in H by exact SH. apply carried_data in H. pose proof (requested_feature_ok _ _ _ E) as Ef. rewrite <- Ef in HF. eapply Forall_impl; [|exact H].
  intros l [id [es [sig [-> Hc]]]]. apply HF, Hc.
Qed.
Lemma win_signed ww modulus exponent f id es sig : win_ready ww modulus exponent -> bk_verify (win_backend ww) (print_for_sign (lic_of f id es sig)) sig = Ok true ->
  exists text, signs f es text /\ win_good (ww_provider ww) modulus exponent text sig.
Proof.
  intros R H. rewrite signed_text_print in H. cbn [fl_project fl_limits lic_of] in H. eexists. split; [exists (lim es); split; [apply lim_of|reflexivity]|]. eapply win_verifies; [exact R|exact H|reflexivity].
Qed.
Theorem C84_clock_windows ww modulus exponent clock c hint out t : win_ready ww modulus exponent -> short_names ww hint -> let f := feature_of (places ww) (option_map ci_feature c) in
  (forall es sig, carried (places ww) f hint t es sig -> exact_value es (bs "valid-to") = None) ->
  (forall es sig text, carried (places ww) f hint t es sig -> signs f es text -> win_good (ww_provider ww) modulus exponent text sig ->
     magic_of (option_map ci_magic c) = ww_magic ww -> exact_value es (bs "valid-from") = None) ->
  win_acquire_license (win_with_clock ww clock) c hint out t = win_acquire_license ww c hint out t.
Proof.
  intros R SH f H1 H2. apply win_other_surroundings; [exact SH|constructor; intros; subst; reflexivity|]. fold f. intros id es sig f' Hc. subst f'. constructor.
  - reflexivity.
  - cbn [fl_limits lic_of]. rewrite lim_get. intros X. destruct X. apply (H1 es sig Hc).
  - intros V M. cbn [fl_limits lic_of]. rewrite lim_get. intros X. destruct X. destruct (win_signed _ _ _ _ _ _ _ R V) as [text [G1 G2]]. apply (H2 es sig text Hc G1 G2).
    rewrite given_zero in M. exact M.
  - intros V M code _ i j ->. reflexivity.
Qed.
Print Assumptions C84_clock_windows.
Theorem C84_machine_windows ww modulus exponent m c hint out t : win_ready ww modulus exponent -> short_names ww hint -> let f := feature_of (places ww) (option_map ci_feature c) in
  (forall es sig text code, carried (places ww) f hint t es sig -> signs f es text -> win_good (ww_provider ww) modulus exponent text sig ->
     magic_of (option_map ci_magic c) = ww_magic ww -> ~ locked es code) ->
  win_acquire_license (win_with_machine ww m) c hint out t = win_acquire_license ww c hint out t.
Proof.
  intros R SH f H. apply win_other_surroundings; [exact SH|constructor; intros; subst; reflexivity|]. fold f. intros id es sig f' Hc. subst f'. constructor.
  - reflexivity.
  - intros _ i j ->. reflexivity.
  - intros _ _ _ i j ->. reflexivity.
  - intros V M code Hl. cbn [fl_limits lic_of] in Hl. rewrite lim_get in Hl. exfalso. destruct (win_signed _ _ _ _ _ _ _ R V) as [text [G1 G2]]. apply (H es sig text code Hc G1 G2); [rewrite given_zero in M; exact M|exact Hl].
Qed.
Print Assumptions C84_machine_windows.
(** Another provider or key that verifies the signatures of the licenses found alike. *)
Theorem C84_key_windows ww v key c hint out t : short_names ww hint -> let f := feature_of (places ww) (option_map ci_feature c) in
  (forall es sig text, carried (places ww) f hint t es sig -> signs f es text -> fst (win_verify_signature v key text sig) = fst (win_verify_signature (ww_provider ww) (ww_key ww) text sig)) ->
  win_acquire_license (win_with_key ww v key) c hint out t = win_acquire_license ww c hint out t.
Proof.
  intros SH f H. apply win_other_surroundings; [exact SH|constructor; intros; subst; reflexivity|]. fold f. intros id es sig f' Hc. subst f'. constructor.
  - cbn [bk_verify win_backend]. rewrite signed_text_print. cbn [fl_project fl_limits fl_signature lic_of win_with_key ww_provider ww_key]. rewrite (H es sig _ Hc); [reflexivity|]. eexists. split; [apply lim_of|reflexivity].
  - intros _ i j ->. reflexivity.
  - intros _ _ _ i j ->. reflexivity.
  - intros _ _ code _ i j ->. reflexivity.
Qed.
Print Assumptions C84_key_windows.
(** a license for anybody, on any machine, at any time *)
Lemma any_entries now m es sig : carried (places (pc false false now [] [] m)) (bs "demo") (Some (hint_of 1 any_license)) 0 es sig -> es = section_entries any_license (bs "demo").
Proof.
  intros [s [t' [content [Hs [_ [Hg [-> _]]]]]]]. revert Hs. unfold hint_of. rewrite sole_source; [|reflexivity|reflexivity|discriminate|vm_compute; reflexivity|unfold HINT_SIZE; apply Nat.leb_le; vm_compute; reflexivity].
  intros [<-|[]]. inversion Hg; subst. reflexivity.
Qed.
Example C84_case_windows clock m out : let ww := pc false false 0 [] [] pc_one in
  win_acquire_license (win_with_clock ww clock) (Some (asking "demo")) (Some (hint_of 1 any_license)) out 0 = win_acquire_license ww (Some (asking "demo")) (Some (hint_of 1 any_license)) out 0 /\
  win_acquire_license (win_with_machine ww m) (Some (asking "demo")) (Some (hint_of 1 any_license)) out 0 = win_acquire_license ww (Some (asking "demo")) (Some (hint_of 1 any_license)) out 0 /\
  code_of (win_acquire_license ww (Some (asking "demo")) (Some (hint_of 1 any_license)) out 0) = Ok LICENSE_OK.
Proof.
  cbv zeta. assert (R : win_ready (pc false false 0 [] [] pc_one) (odd_modulus 126) ["001"%char; "000"%char; "001"%char]) by (apply pc_ready; reflexivity).
  assert (SH : short_names (pc false false 0 [] [] pc_one) (Some (hint_of 1 any_license))).
  { intros s Hs. revert Hs. unfold hint_of. rewrite sole_source; [|reflexivity|reflexivity|discriminate|vm_compute; reflexivity|unfold HINT_SIZE; apply Nat.leb_le; vm_compute; reflexivity]. intros [<-|[]]. vm_compute. lia. }
  split; [|split].
  - eapply C84_clock_windows; [exact R|exact SH| |].
    + intros es sig H. apply any_entries in H as ->. vm_compute. reflexivity.
    + intros es sig text H _ _ _. apply any_entries in H as ->. vm_compute. reflexivity.
  - eapply C84_machine_windows; [exact R|exact SH|]. intros es sig text code H _ _ _ L. apply any_entries in H as ->. vm_compute in L. discriminate L.
  - destruct out; vm_compute; reflexivity.
Qed.
