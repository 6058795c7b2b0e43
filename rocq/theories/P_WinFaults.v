(** acquire_license on Windows does not fail without one of the reasons of Spec_WinFaults
    (the proofs of P_Faults and P_Faults2, for the checks done on Windows). *)
From Verif Require Import Base CTypes StringUtils Dates Doubles P_Double Base64 HwId Registry Ini Network Disks ExecEnv Strategies Locate Licensecc Shared Trace WinSignature WinMachine AcquireGen.
From Verif Require Import P_Base Spec_Listing Spec_Strings Spec_Base64 Spec_Dates P_Strings P_Text P_Decode P_DateText P_HwText Spec_Ini P_Ini Spec_HwId Spec_Hw P_Hw P_Hw2 P_Dates Spec_Registry P_Registry Spec_Acquire P_Acquire1 P_Acquire2 P_Acquire3 P_Acquire4 P_Acquire5 Spec_AcquireGen P_AcqGen1 P_AcqGen2 Spec_Faults P_Faults P_Faults2 Spec_Der Prop_WinSig Spec_WinNet Spec_Windows Prop_Windows Spec_WinAcquire Prop_WinAcquire Spec_WinFaults.
From Coq Require Import Sorted Lia.

Lemma safe_weaken {A} (H H' : fault -> Prop) (r : res A) : (forall f, H f -> H' f) -> safe H r -> safe H' r.
Proof. intros X. destruct r; cbn; auto. Qed.

(** a failed check is on record *)
Section Recorded.
Context (MN : means).
Lemma win_report_recorded w f m t t' gs rss r : Forall2 (fun g rs => Forall2 (p_reported w MN f m t t') (g_sources g) rs) gs rss -> In r (concat rss) -> rp_code r <> LICENSE_OK ->
  exists k, In (rp_code r, k) (call_trace gs rss).
Proof.
  intros HF Hr Hn. unfold call_trace. destruct gs as [|g0 gs0] eqn:Eg; [inversion HF; subst; destruct Hr|]. rewrite <- Eg in *. clear Eg g0 gs0.
  assert (H0 := Hr). apply in_concat in Hr as [rs [Hrs Hr]]. destruct (combine_in _ _ _ _ HF Hrs) as [g [Hg HF']]. destruct (combine_in _ _ _ _ HF' Hr) as [s [Hs R]].
  assert (RD : In (rp_code r) (rp_reading r) -> exists k, In (rp_code r, k) (zip_with group_trace gs rss ++ zip_with (fun s r => about s (rp_checking r)) (flat_map g_sources gs) (concat rss))).
  { intros X. exists (firstn 1024 (cstr (name_of s))). apply in_or_app. left. eapply zip_in; [exact Hg|]. unfold group_trace. apply in_or_app. right. apply in_or_app. right. eapply zip_in; [exact Hs|].
    unfold about. apply in_map_iff. exists (rp_code r). auto. }
  inversion R as [i Hi Hl|content P G E|content P G E N|content sig code x steps P G F D C X]; subst r; cbn [rp_code rp_reading rp_checking] in *.
  - exists (firstn 1024 (cstr (name_of s))). apply in_or_app. left. eapply zip_in; [exact Hg|]. unfold group_trace. apply in_or_app. right. apply in_or_app. left. eapply zip_in; [exact Hs|].
    unfold looked, missing. cbn [rp_code]. destruct s; cbn [listed] in Hl; try discriminate; unfold about; rewrite map_app; apply in_or_app; right; left; reflexivity.
  - apply RD. left. reflexivity.
  - apply RD. right. left. reflexivity.
  - destruct (combine_in _ _ _ _ (Forall2_flat _ _ _ HF) H0) as [s' [Hs' _]]. exists (firstn 1024 (cstr (name_of s'))). apply in_or_app. right. eapply zip_in; [exact Hs'|]. cbn [rp_checking].
    unfold about. apply in_map_iff. exists code. split; [reflexivity|]. inversion C; subst; [left; reflexivity|congruence|right; left; reflexivity].
Qed.
Lemma win_place_recorded w f m t t' hint rss e : Forall2 (fun g rs => Forall2 (p_reported w MN f m t t') (g_sources g) rs) (groups w hint) rss -> place_failure w hint e ->
  exists k, In (e, k) (call_trace (groups w hint) rss).
Proof.
  intros HF HP. assert (NW : forall g k, In g (groups w hint) -> In (e, k) (g_news g) -> exists k, In (e, k) (call_trace (groups w hint) rss)).
  { intros g k Hg Hk. exists k. destruct (Forall2_in_l _ _ _ _ HF Hg) as [rs0 _]. assert (X : exists rs, In (g, rs) (combine (groups w hint) rss)).
    { clear -HF Hg. induction HF as [|x y l l' Hxy HF IH]; [destruct Hg|]. destruct Hg as [->|Hg]; [exists y; left; reflexivity|]. destruct (IH Hg) as [rs X]. exists rs. right. exact X. }
    destruct X as [rs X]. unfold call_trace. destruct (groups w hint) eqn:Eg; [destruct Hg|]. rewrite <- Eg in *. apply in_or_app. left. eapply zip_in; [exact X|]. unfold group_trace. apply in_or_app. left. exact Hk. }
  destruct HP as [[He [-> [HV|HV]]]|[[He [-> [d [HV HI]]]]|[H1 [H2 [-> ->]]]]].
  - eapply (NW {| g_news := _; g_announce := true; g_sources := location_sources w |}).
    + unfold groups. rewrite He. apply in_or_app. right. left. reflexivity.
    + cbn [g_news]. rewrite HV. left. reflexivity.
  - eapply (NW {| g_news := _; g_announce := false; g_sources := data_sources w |}).
    + unfold groups. rewrite He. apply in_or_app. right. right. left. reflexivity.
    + cbn [g_news]. rewrite HV. left. reflexivity.
  - eapply (NW {| g_news := _; g_announce := false; g_sources := data_sources w |}).
    + unfold groups. rewrite He. apply in_or_app. right. right. left. reflexivity.
    + cbn [g_news]. rewrite HV, HI. right. left. reflexivity.
  - unfold groups. rewrite H1, H2. exists (bs "UNDEF"). left. reflexivity.
Qed.
Lemma win_silent w f m t t' hint rss : Forall2 (fun g rs => Forall2 (p_reported w MN f m t t') (g_sources g) rs) (groups w hint) rss ->
  Forall (fun r => rp_code r <> LICENSE_OK) (concat rss) -> Forall (fun x => ~ failure (fst x)) (call_trace (groups w hint) rss) ->
  sources w hint = [] /\ forall e, ~ place_failure w hint e.
Proof.
  intros HF HN HT. rewrite Forall_forall in HN, HT. split.
  - pose proof (Forall2_flat _ _ _ HF) as HF'. fold (sources w hint) in HF'. destruct (concat rss) as [|r rs] eqn:E; [inversion HF'; reflexivity|]. exfalso.
    assert (Hr : In r (concat rss)) by (rewrite E; left; reflexivity). assert (Hn : rp_code r <> LICENSE_OK) by (apply HN; left; reflexivity).
    destruct (win_report_recorded _ _ _ _ _ _ _ _ HF Hr Hn) as [k Hk]. apply (HT _ Hk). cbn [fst]. apply is_failure.
    destruct (Forall2_in_r _ _ _ _ (Forall2_flat _ _ _ HF) Hr) as [s [_ R]]. destruct (p_reported_codes MN _ _ _ _ _ _ _ R); [contradiction|assumption].
  - intros e HP. destruct (win_place_recorded _ _ _ _ _ _ _ _ HF HP) as [k Hk]. apply (HT _ Hk). cbn [fst]. eapply is_failure, place_codes, HP.
Qed.
End Recorded.

Section Windows.
Context (ww : win_world) (modulus exponent : bytes) (c : option caller) (hint : option location) (t0 : nat).
Hypothesis READY : win_ready ww modulus exponent.
Hypothesis SHORT : short_names ww hint.
Notation w := (places ww).
Notation bk := (win_backend ww).
Notation MN := (win_means ww modulus exponent).
Notation HZ := (win_hazard ww modulus exponent c hint t0).
Notation feature := (feature_of w (option_map ci_feature c)).
Notation CR := (carried w feature hint t0).
Notation LIC d mg := {| fl_source := ld_id d; fl_project := feature; fl_signature := ld_sig d; fl_magic := mg; fl_limits := lim (ld_entries d) |}.

(** reading is as on Linux: the Linux reasons that do not concern cryptography or hardware *)
Lemma linux_hazard f : hazard w c hint t0 f -> HZ f.
Proof using SHORT.
  assert (NG : forall es sig, ~ signature_good w feature es sig) by (intros es sig [m [n [data [_ [K _]]]]]; discriminate).
  intros H. destruct H.
  - eapply wh_feature; eassumption.
  - eapply wh_hint; eassumption.
  - eapply wh_type; eassumption.
  - exfalso. apply SHORT in H. lia.
  - eapply wh_vanished; eassumption.
  - eapply wh_unset; eassumption.
  - eapply wh_unterminated; eassumption.
  - eapply wh_cut; eassumption.
  - eapply wh_padding; eassumption.
  - discriminate.
  - eapply wh_valid_to; eassumption.
  - eapply wh_days; eassumption.
  - destruct (NG _ _ H0).
  - destruct (NG _ _ H0).
  - destruct (NG _ _ H0).
  - apply wh_silent; assumption.
Qed.
Lemma linux_safe {A} (r : res A) : safe (hazard w c hint t0) r -> safe HZ r.
Proof using SHORT. apply safe_weaken, linux_hazard. Qed.
Lemma win_fits s : In s (sources w hint) -> fits (bk_ref bk) (sid s).
Proof using SHORT. intros Hs. apply SHORT, Hs. Qed.
Lemma win_add e s info r : In s (sources w hint) -> safe HZ (g_add_event bk e (Some (sid s)) info r).
Proof using SHORT.
  intros Hs. rewrite g_add_same; [|apply win_room|apply win_fits, Hs]. apply safe_add. intros L. exfalso. pose proof (SHORT s Hs). change (reference (Some (sid s))) with (cstr (sid s)) in L. change (name_of s) with (sid s) in H. lia.
Qed.
Lemma win_verify_safe es sig m mg id : CR es sig -> limits_of es m -> safe HZ (bk_verify bk (print_for_sign {| fl_source := id; fl_project := feature; fl_signature := sig; fl_magic := mg; fl_limits := lim es |}) sig).
Proof using READY.
  intros Hc Hm. rewrite signed_text_print. cbn [fl_project fl_limits]. assert (SG : signs feature es (signed_text feature (lim es))) by (exists (lim es); split; [apply lim_of|reflexivity]).
  destruct READY as [HK _]. set (text := signed_text feature (lim es)) in *. cbn [bk_verify win_backend].
  pose proof (win_cases_any (ww_provider ww) (ww_key ww) text sig modulus exponent HK) as C. cbv zeta in C.
  destruct C as [[A [E _]]|[[_ [_ [E _]]]|[[_ [_ [_ [E _]]]]|[[_ [_ [_ [_ [E _]]]]]|[h [Hh C]]]]]]; try (rewrite E; exact I).
  - rewrite E. cbn. eapply wh_provider; eassumption.
  - destruct C as [[O E]|[[O [E _]]|[[D [N E]]|[[_ [_ [_ [E _]]]]|[_ [_ [_ [_ E]]]]]]]]; rewrite E; cbn; try exact I.
    + eapply wh_sig_cut; eassumption.
    + eapply wh_sig_padding; eassumption.
    + eapply wh_sig_empty; eassumption.
Qed.
Lemma win_validate_safe i code : (over_read (undashed code) -> HZ (FUndef UbRead)) -> safe HZ (bk_validate bk i code).
Proof using READY.
  intros X. destruct READY as [_ HM]. cbn [bk_validate win_backend]. assert (D : over_read (undashed code) \/ ~ over_read (undashed code)).
  { destruct (unbase64_outcome (undashed code)) as [[O _]|[[O _]|[[O _] _]]]; auto. right. intros [_ [Y _]]. contradiction. }
  destruct D as [O|O].
  - rewrite (proj2 (C69_undefined_iff _ _ UbRead (HM i)) (conj O eq_refl)). apply X, O.
  - destruct (C69_accepted_iff_own _ _ (HM i) O) as [e [E _]]. rewrite E. exact I.
Qed.
Lemma win_limits_safe d mg r t : t0 <= t -> CR (ld_entries d) (ld_sig d) -> p_signature_good MN feature (ld_entries d) (ld_sig d) -> mg = magic_of (option_map ci_magic c) ->
  (exists s, In s (sources w hint) /\ ld_id d = sid s) -> safe HZ (g_verify_limits w bk (LIC d mg) r t).
Proof using READY SHORT.
  intros Ht Hc [lm [Hlm Hg]] Hm [s [Hs Hid]]. assert (SG : signs feature (ld_entries d) (signed_text feature lm)) by (exists lm; auto). assert (L : forall e info r, safe HZ (g_add_event bk e (Some (ld_id d)) info r)) by (intros; rewrite Hid; apply win_add, Hs).
  unfold g_verify_limits. cbn [fl_limits fl_source fl_magic]. rewrite !lim_get.
  change PARAM_EXPIRY_DATE with (bs "valid-to"). change PARAM_BEGIN_DATE with (bs "valid-from"). change PARAM_CLIENT_SIGNATURE with (bs "client-signature").
  destruct (N.eqb_spec mg (w_magic w)) as [Em|Em].
  2:{ apply safe_mbind; [apply safe_lift, L|]. intros r1 t1 _. apply safe_mbind; [exact I|]. intros now t2 _. apply safe_mbind; [exact I|]. intros [v r2] t3 E. apply mret_ok in E as [[= -> ->] ->].
      apply safe_mbind; [exact I|]. intros [v r2] t4 E. apply mret_ok in E as [[= -> ->] ->]. exact I. }
  subst mg. apply safe_mbind; [exact I|]. intros r1 t1 E. apply mret_ok in E as [-> ->]. apply safe_mbind; [exact I|]. intros now t2 E. unfold m_now in E. injection E as <- <-.
  apply safe_mbind.
  { destruct (exact_value (ld_entries d) (bs "valid-to")) as [x|] eqn:Ev; [|exact I]. apply safe_mbind; [apply safe_lift, seconds_safe; intros Hf; eapply wh_valid_to; eassumption|]. intros secs t3 _.
    destruct (Z.ltb _ _); [|exact I]. apply safe_mbind; [apply safe_lift, L|intros; exact I]. }
  intros [v r2] t3 E1. assert (T3 : t3 = S t).
  { destruct (exact_value (ld_entries d) (bs "valid-to")); [|apply mret_ok in E1 as [_ ->]; reflexivity]. apply mbind_ok in E1 as [secs [t4 [E1 E2]]]. apply mlift_ok in E1 as [_ ->]. destruct (Z.ltb _ _); [|apply mret_ok in E2 as [_ ->]; reflexivity].
    apply mbind_ok in E2 as [? [? [E2 E3]]]. apply mlift_ok in E2 as [_ ->]. apply mret_ok in E3 as [_ ->]. reflexivity. }
  subst t3. clear E1. apply safe_mbind.
  { destruct v; [|exact I]. destruct (exact_value (ld_entries d) (bs "valid-from")) as [x|] eqn:Ev; [|exact I].
    apply safe_mbind; [apply safe_lift, seconds_safe; intros Hf; eapply wh_valid_from; eassumption|]. intros secs t4 _.
    destruct (Z.ltb _ _); [|exact I]. apply safe_mbind; [apply safe_lift, L|intros; exact I]. }
  intros [v' r3] t4 E1. assert (T4 : t4 = S t).
  { destruct v; [|apply mret_ok in E1 as [_ ->]; reflexivity]. destruct (exact_value (ld_entries d) (bs "valid-from")); [|apply mret_ok in E1 as [_ ->]; reflexivity]. apply mbind_ok in E1 as [secs [t5 [E1 E2]]]. apply mlift_ok in E1 as [_ ->]. destruct (Z.ltb _ _); [|apply mret_ok in E2 as [_ ->]; reflexivity].
    apply mbind_ok in E2 as [? [? [E2 E3]]]. apply mlift_ok in E2 as [_ ->]. apply mret_ok in E3 as [_ ->]. reflexivity. }
  subst t4. destruct v'; [|exact I]. destruct (exact_value (ld_entries d) (bs "client-signature")) as [code|] eqn:Ec; [|exact I].
  apply safe_mbind; [unfold m_validate; apply safe_bind; [apply win_validate_safe; intros O; eapply (wh_identifier _ _ _ _ _ _ _ _ _ code); eassumption|intros; exact I]|]. intros e t6 _.
  apply safe_mbind; [apply safe_lift, L|intros; exact I].
Qed.
Lemma win_verify_all_safe ds r ok bad t : t0 <= t ->
  Forall (fun d => CR (ld_entries d) (ld_sig d) /\ license_form (ld_entries d) (ld_sig d) /\ exists s, In s (sources w hint) /\ ld_id d = sid s) ds ->
  safe HZ (g_verify_all w bk (option_map ci_magic c) (map (lic_full feature) ds) r ok bad t).
Proof using READY SHORT.
  pose proof (p_verify_limits_ok bk MN (fits (bk_ref bk)) (fun e s info r => g_add_same bk e (Some s) info r (win_room ww)) (fun e info r => g_add_same bk e None info r (win_room ww) I)
    (win_verifies ww modulus exponent READY) (win_validates ww modulus exponent READY)) as LIMOK.
  revert r ok bad t. induction ds as [|d ds IH]; intros r ok bad t Ht HF; cbn [map g_verify_all]; [exact I|].
  inversion HF as [|? ? [Hc [Hf Hs]] HF']; subst. fold (lic_at (option_map ci_magic c) (lic_full feature d)). unfold lic_full at 1 2 3. rewrite lic_at_eq.
  assert (L : forall e info r, safe HZ (g_add_event bk e (Some (ld_id d)) info r)) by (destruct Hs as [s [Hs Hid]]; intros; rewrite Hid; apply win_add, Hs).
  match goal with |- context [g_verify_signature w bk ?l r] => set (lic := l) end.
  apply safe_mbind.
  { apply safe_lift. unfold g_verify_signature. apply safe_bind; [|intros b _; apply safe_bind; [apply L|intros; exact I]].
    eapply win_verify_safe; [exact Hc|apply lim_of]. }
  intros [b r1] t1 H1. apply mlift_ok in H1 as [H1 ->]. unfold g_verify_signature in H1. apply rbind_ok in H1 as [b' [Hb H1]]. apply rbind_ok in H1 as [r2 [_ H1]]. injection H1 as H1 H1r. subst b r2.
  pose proof (p_verify_good bk MN (win_verifies ww modulus exponent READY) _ _ _ _ _ _ Hb) as Hg.
  apply safe_mbind; [apply linux_safe, (info_safe w c hint t0 d _ t Ht Hc)|]. intros i t1 H2. apply to_license_info_ok in H2 as [Ht1 _].
  destruct b'; [|apply IH; [lia|exact HF']].
  apply safe_mbind; [apply (win_limits_safe d _ r1 t1); [lia|exact Hc|apply Hg; reflexivity| |exact Hs]; destruct c; reflexivity|]. intros [lo r2] t2 H3. apply LIMOK in H3 as [Ht2 _]; [|destruct Hs as [s [Hs Hid]]; rewrite Hid; apply win_fits, Hs|exact Hf|apply Hg; reflexivity].
  destruct lo; apply IH; try exact HF'; lia.
Qed.
Theorem win_acquire_safe out : safe HZ (win_acquire_license ww c hint out t0).
Proof using READY SHORT.
  pose proof (fun e s info r => g_add_same bk e (Some s) info r (win_room ww)) as SAME. pose proof (fun e info r => g_add_same bk e None info r (win_room ww) I) as SAME0.
  pose proof (win_verifies ww modulus exponent READY) as HVER. pose proof (win_validates ww modulus exponent READY) as HIDN.
  assert (FIT : Forall (fun s => fits (bk_ref bk) (name_of s)) (sources w hint)) by (apply Forall_forall; exact SHORT).
  assert (OKL : fits (bk_ref bk) LICENSE_LOCATION_VAR) by (vm_compute; lia). assert (OKE : fits (bk_ref bk) EXTERNAL_NAME) by (vm_compute; lia).
  unfold win_acquire_license, g_acquire_license. apply safe_mbind; [apply safe_lift, linux_safe, feature_safe|]. intros f t1 H1. apply mlift_ok in H1 as [H1 ->]. apply requested_feature_ok in H1. subst f.
  set (f := feature_of w (option_map ci_feature c)). apply safe_mbind; [rewrite (g_licenses_same w bk (fits (bk_ref bk)) SAME SAME0 OKL OKE) by exact FIT; apply linux_safe, read_licenses_safe, le_n|]. intros [er ls] t1 H2. rewrite (g_licenses_same w bk (fits (bk_ref bk)) SAME SAME0 OKL OKE) in H2 by exact FIT. apply read_licenses_ok in H2 as [Ht1 [oss [Hos [Hls Hh]]]].
  rewrite zip_licenses in Hls. pose proof (seen_flat _ _ _ _ _ Hos) as Hfl. fold (sources w hint) in Hfl. destruct ls as [|l ls].
  - assert (Hz : zip_with (data_of f) (sources w hint) (concat oss) = []) by (symmetry in Hls; apply map_eq_nil in Hls; exact Hls).
    apply safe_mbind; [eapply safe_lift, raise_safe, Hh|]. intros [er2 b] t2 H3. apply mlift_ok in H3 as [H3 ->]. apply safe_mbind; [|intros; exact I]. apply safe_lift. eapply code_safe; [exact Hh|exact H3|]. intros HT.
    destruct (p_reports_groups bk MN (fits (bk_ref bk)) SAME HVER HIDN w f (magic_of (option_map ci_magic c)) t0 t1 t1 (groups w hint) oss [] ltac:(lia) ltac:(lia) Hos) as [rss [Hr [Hsh [Hf [Hk Hno]]]]].
    { change (flat_map g_sources (groups w hint)) with (sources w hint). rewrite Hz. constructor. }
    change (flat_map g_sources (groups w hint)) with (sources w hint) in Hk. rewrite Hz in Hk. cbn [zip_with] in Hk.
    assert (HE : reading_all f (groups w hint) oss = call_trace (groups w hint) rss).
    { unfold reading_all, call_trace, sources in *. destruct (groups w hint) as [|g gs]; [reflexivity|]. rewrite <- Hk, app_nil_r. exact Hf. }
    rewrite HE in HT. apply no_licenses in Hsh. destruct (win_silent MN _ _ _ _ _ _ _ Hr) as [A B]; [|exact HT|apply wh_silent; assumption].
    rewrite Forall_forall in *. intros r Hin. apply Hno; [exact Hin|apply Hsh, Hin].
  - rewrite Hls. assert (Hn : zip_with (data_of f) (sources w hint) (concat oss) <> []) by (intros E; rewrite E in Hls; discriminate).
    pose proof (data_carried w f hint t0 t1 _ _ (incl_refl _) Hfl) as HC.
    clear Hls l ls. set (ds := zip_with (data_of f) (sources w hint) (concat oss)) in *.
    destruct (map (lic_full f) ds) as [|l0 ls0] eqn:Ed; [apply map_eq_nil in Ed; contradiction|]. rewrite <- Ed. clear Ed l0 ls0.
    apply safe_mbind; [apply win_verify_all_safe; [exact Ht1|exact HC]|]. intros [[er2 ok] bad] t2 H3.
    apply (p_verify_all_ok bk MN (fits (bk_ref bk)) SAME SAME0 HVER HIDN) in H3 as [Ht2 [vs [Hvs [Hok [Hbad Hh2]]]]]; [|apply data_names; exact FIT|apply data_form]. cbn [app] in Hok, Hbad. cbv zeta.
    destruct ok as [|i0 ok']; [|destruct (turn_errors_into_warnings er2); exact I]. symmetry in Hok. apply info_nonempty in Hok.
    pose proof (grown_trans _ _ _ _ _ Hh Hh2) as Hh3. apply safe_mbind; [eapply safe_lift, raise_safe, Hh3|]. intros [er3 b] t3 H4. apply mlift_ok in H4 as [H4 ->].
    apply safe_mbind; [|intros; exact I]. apply safe_lift. eapply code_safe; [exact Hh3|exact H4|]. intros HT.
    destruct (p_reports_groups bk MN (fits (bk_ref bk)) SAME HVER HIDN w f (magic_of (option_map ci_magic c)) t0 t1 t2 (groups w hint) oss vs ltac:(lia) ltac:(lia) Hos Hvs) as [rss [Hr [Hsh [Hf [Hk Hno]]]]].
    change (flat_map g_sources (groups w hint)) with (sources w hint) in Hk. fold ds in Hk.
    assert (HE : reading_all f (groups w hint) oss ++ zip_with check_news ds vs = call_trace (groups w hint) rss).
    { unfold reading_all, call_trace in *. destruct (groups w hint) as [|g gs] eqn:Eg; [|rewrite Hf, Hk; unfold sources; rewrite Eg; reflexivity].
      exfalso. apply Hn. unfold ds, sources. rewrite Eg. reflexivity. }
    rewrite HE in HT. destruct (win_silent MN _ _ _ _ _ _ _ Hr) as [A B]; [|exact HT|apply wh_silent; assumption].
    apply Forall_forall. intros r Hin E. rewrite Forall_forall in Hno. destruct (rp_told r) as [x|] eqn:Ex; [|destruct (Hno _ Hin Ex E)].
    assert (Hin' : In (LICENSE_OK, x) (map tell vs)) by (rewrite <- Hsh; unfold shown; apply in_flat_map; exists r; split; [exact Hin|rewrite Ex, E; left; reflexivity]).
    apply in_map_iff in Hin' as [v [[= E1 E2] Hin']]. assert (Y : In v (filter is_ok vs)) by (apply filter_In; split; [exact Hin'|unfold is_ok; rewrite E1; reflexivity]). rewrite Hok in Y. destruct Y.
Qed.
End Windows.
