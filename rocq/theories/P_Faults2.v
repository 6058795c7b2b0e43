From Verif Require Import Base CTypes StringUtils Dates Base64 HwId Registry Ini Network Disks ExecEnv Strategies Locate Licensecc.
From Verif Require Import P_Base Spec_Listing P_DiskList Spec_Strings Spec_Base64 Spec_Dates P_Strings P_Text P_Decode P_DateText P_HwText Spec_Ini P_Ini Spec_HwId Spec_Hw P_Hw P_Hw2 P_Dates Spec_Registry P_Registry Spec_Acquire P_Acquire1 P_Acquire2 P_Acquire3 P_Acquire4 P_Acquire5 Spec_Faults P_Faults.
From Coq Require Import Sorted Lia.

Lemma feature_safe w c hint t : safe (hazard w c hint t) (requested_feature w c).
Proof.
  unfold requested_feature. destruct c as [x|]; [|exact I]. apply safe_bind; [apply mstrnlen_safe; intros N; eapply hz_feature; [reflexivity|exact N]|]. intros n _. destruct (Nat.ltb 0 n); exact I.
Qed.
Lemma data_carried w f hint t t1 ss os : incl ss (sources w hint) -> Forall2 (seen w t t1) ss os ->
  Forall (fun d => carried w f hint t (ld_entries d) (ld_sig d) /\ license_form (ld_entries d) (ld_sig d) /\ exists s, In s (sources w hint) /\ ld_id d = sid s) (zip_with (data_of f) ss os).
Proof.
  intros Hi HF. induction HF as [|s o ss os Hs HF IH]; cbn [zip_with]; [constructor|]. apply Forall_app. split; [|apply IH; intros x Hx; apply Hi; right; exact Hx].
  unfold data_of. destruct o as [content|]; [|constructor]. cbv zeta. destruct (found (section_entries content f)) as [sig|] eqn:E; [|constructor]. apply found_form in E.
  constructor; [|constructor]. cbn [ld_entries ld_sig ld_id]. assert (Hin : In s (sources w hint)) by (apply Hi; left; reflexivity). split; [|split; [exact E|exists s; auto]].
  exists s, t1, content. destruct Hs as [Hg Hc]. split; [exact Hin|]. split; [|auto]. destruct s; cbn [present checked] in *; auto.
Qed.
Lemma seen_flat w t t1 gs oss : Forall2 (fun g os => Forall2 (seen w t t1) (g_sources g) os) gs oss -> Forall2 (seen w t t1) (flat_map g_sources gs) (concat oss).
Proof. induction 1; cbn; [constructor|]. apply Forall2_app; assumption. Qed.

(** a failed check is on record *)
Lemma is_failure e : In e failure_list -> failure e.
Proof. intros H n S. inversion S; subst; cbn in H; intuition discriminate. Qed.
Lemma zip_in {A B C} (f : A -> B -> list C) l l' a b x : In (a, b) (combine l l') -> In x (f a b) -> In x (zip_with f l l').
Proof.
  revert l'; induction l as [|a0 l IH]; intros [|b0 l']; cbn [combine zip_with]; [intros []..|]. intros [[= -> ->]|H] Hx; apply in_or_app; [left; exact Hx|right; eapply IH; eassumption].
Qed.
Lemma combine_in {A B} (R : A -> B -> Prop) l l' b : Forall2 R l l' -> In b l' -> exists a, In (a, b) (combine l l') /\ R a b.
Proof.
  induction 1 as [|x y l l' Hxy HF IH]; intros H; [destruct H|]. destruct H as [->|H].
  - exists x. cbn. auto.
  - destruct (IH H) as [a [X Y]]. exists a. cbn. auto.
Qed.
Lemma report_recorded w f m t t' gs rss r : Forall2 (fun g rs => Forall2 (reported w f m t t') (g_sources g) rs) gs rss -> In r (concat rss) -> rp_code r <> LICENSE_OK ->
  exists k, In (rp_code r, k) (call_trace gs rss).
Proof.
  intros HF Hr Hn. unfold call_trace. destruct gs as [|g0 gs0] eqn:Eg; [inversion HF; subst; destruct Hr|]. rewrite <- Eg in *. clear Eg g0 gs0.
  assert (H0 := Hr). apply in_concat in Hr as [rs [Hrs Hr]]. destruct (combine_in _ _ _ _ HF Hrs) as [g [Hg HF']]. destruct (combine_in _ _ _ _ HF' Hr) as [s [Hs R]].
  assert (RD : In (rp_code r) (rp_reading r) -> exists k, In (rp_code r, k) (zip_with group_trace gs rss ++ zip_with (fun s r => about s (rp_checking r)) (flat_map g_sources gs) (concat rss))).
  { intros X. exists (firstn 1024 (cstr (name_of s))). apply in_or_app. left. eapply zip_in; [exact Hg|]. unfold group_trace. apply in_or_app. right. apply in_or_app. right. eapply zip_in; [exact Hs|].
    unfold about. apply in_map_iff. exists (rp_code r). auto. }
  inversion R as [i Hi Hl|content P G E|content P G E N|content sig code x steps P G F D C X]; subst r; cbn [rp_code rp_reading rp_checking] in *.
  - exists (firstn 1024 (cstr (name_of s))). apply in_or_app. left. eapply zip_in; [exact Hg|]. unfold group_trace. apply in_or_app. right. apply in_or_app. left. eapply zip_in; [exact Hs|].
    unfold looked, missing. cbn [rp_code]. destruct s; cbn [listed] in Hl; try discriminate; unfold about; rewrite map_app; apply in_or_app; right; left; reflexivity.
  - apply RD. left. reflexivity.
  - apply RD. right. left. reflexivity.
  - destruct (combine_in _ _ _ _ (Forall2_flat _ _ _ HF) H0) as [s' [Hs' _]]. exists (firstn 1024 (cstr (name_of s'))). apply in_or_app. right. eapply zip_in; [exact Hs'|]. cbn [rp_checking].
    unfold about. apply in_map_iff. exists code. split; [reflexivity|]. inversion C; subst; [left; reflexivity|congruence|right; left; reflexivity].
Qed.
Lemma place_recorded w f m t t' hint rss e : Forall2 (fun g rs => Forall2 (reported w f m t t') (g_sources g) rs) (groups w hint) rss -> place_failure w hint e ->
  exists k, In (e, k) (call_trace (groups w hint) rss).
Proof.
  intros HF HP. assert (NW : forall g k, In g (groups w hint) -> In (e, k) (g_news g) -> exists k, In (e, k) (call_trace (groups w hint) rss)).
  { intros g k Hg Hk. exists k. destruct (Forall2_in_l _ _ _ _ HF Hg) as [rs0 _]. assert (X : exists rs, In (g, rs) (combine (groups w hint) rss)).
    { clear -HF Hg. induction HF as [|x y l l' Hxy HF IH]; [destruct Hg|]. destruct Hg as [->|Hg]; [exists y; left; reflexivity|]. destruct (IH Hg) as [rs X]. exists rs. right. exact X. }
    destruct X as [rs X]. unfold call_trace. destruct (groups w hint) eqn:Eg; [destruct Hg|]. rewrite <- Eg in *. apply in_or_app. left. eapply zip_in; [exact X|]. unfold group_trace. apply in_or_app. left. exact Hk. }
  destruct HP as [[He [-> [HV|HV]]]|[[He [-> [d [HV HI]]]]|[H1 [H2 [-> ->]]]]].
  - eapply (NW {| g_news := _; g_announce := true; g_sources := location_sources w |}).
    + unfold groups. rewrite He. apply in_or_app. right. left. reflexivity.
    + cbn [g_news]. rewrite HV. left. reflexivity.
  - eapply (NW {| g_news := _; g_announce := false; g_sources := data_sources w |}).
    + unfold groups. rewrite He. apply in_or_app. right. right. left. reflexivity.
    + cbn [g_news]. rewrite HV. left. reflexivity.
  - eapply (NW {| g_news := _; g_announce := false; g_sources := data_sources w |}).
    + unfold groups. rewrite He. apply in_or_app. right. right. left. reflexivity.
    + cbn [g_news]. rewrite HV, HI. right. left. reflexivity.
  - unfold groups. rewrite H1, H2. exists (bs "UNDEF"). left. reflexivity.
Qed.
Lemma place_codes w hint e : place_failure w hint e -> In e failure_list.
Proof. intros [[_ [-> _]]|[[_ [-> _]]|[_ [_ [_ ->]]]]]; cbn; auto. Qed.
Lemma silent w f m t t' hint rss : Forall2 (fun g rs => Forall2 (reported w f m t t') (g_sources g) rs) (groups w hint) rss ->
  Forall (fun r => rp_code r <> LICENSE_OK) (concat rss) -> Forall (fun x => ~ failure (fst x)) (call_trace (groups w hint) rss) ->
  sources w hint = [] /\ forall e, ~ place_failure w hint e.
Proof.
  intros HF HN HT. rewrite Forall_forall in HN, HT. split.
  - pose proof (Forall2_flat _ _ _ HF) as HF'. fold (sources w hint) in HF'. destruct (concat rss) as [|r rs] eqn:E; [inversion HF'; reflexivity|]. exfalso.
    assert (Hr : In r (concat rss)) by (rewrite E; left; reflexivity). assert (Hn : rp_code r <> LICENSE_OK) by (apply HN; left; reflexivity).
    destruct (report_recorded _ _ _ _ _ _ _ _ HF Hr Hn) as [k Hk]. apply (HT _ Hk). cbn [fst]. apply is_failure.
    destruct (Forall2_in_r _ _ _ _ (Forall2_flat _ _ _ HF) Hr) as [s [_ R]]. destruct (reported_codes _ _ _ _ _ _ _ R); [contradiction|assumption].
  - intros e HP. destruct (place_recorded _ _ _ _ _ _ _ _ HF HP) as [k Hk]. apply (HT _ Hk). cbn [fst]. eapply is_failure, place_codes, HP.
Qed.
Lemma code_safe (H : fault -> Prop) T r r' b : grown reg_empty T r -> turn_warnings_into_errors r = Ok (r', b) -> (Forall (fun x => ~ failure (fst x)) T -> H (FUndef UbNull)) -> safe H (failure_code r').
Proof.
  intros [[ops [H1 H2]] H3] E HS. destruct (selection_summary ops r H1 H2) as [r2 [b2 [o [s [E2 [Ef [Hs Hsel]]]]]]].
  rewrite E in E2. injection E2 as <- <-. unfold failure_code. rewrite Ef. cbn [rbind]. destruct o as [ev|]; [exact I|]. cbn. apply HS. cbn in H3, Hsel. rewrite H3 in Hsel. inversion Hsel; subst. assumption.
Qed.

Theorem acquire_safe w c hint out t : (forall i, order_ok (w_machine w i)) -> safe (hazard w c hint t) (acquire_license w c hint out t).
Proof.
  intros HO. unfold acquire_license. apply safe_mbind; [apply safe_lift, feature_safe|]. intros f t1 H1. apply mlift_ok in H1 as [H1 ->]. apply requested_feature_ok in H1. subst f.
  set (f := feature_of w (option_map ci_feature c)). apply safe_mbind; [apply read_licenses_safe, le_n|]. intros [er ls] t1 H2. apply read_licenses_ok in H2 as [Ht1 [oss [Hos [Hls Hh]]]].
  rewrite zip_licenses in Hls. pose proof (seen_flat _ _ _ _ _ Hos) as Hfl. fold (sources w hint) in Hfl. destruct ls as [|l ls].
  - assert (Hz : zip_with (data_of f) (sources w hint) (concat oss) = []) by (symmetry in Hls; apply map_eq_nil in Hls; exact Hls).
    apply safe_mbind; [eapply safe_lift, raise_safe, Hh|]. intros [er2 b] t2 H3. apply mlift_ok in H3 as [H3 ->]. apply safe_mbind; [|intros; exact I]. apply safe_lift. eapply code_safe; [exact Hh|exact H3|]. intros HT.
    destruct (reports_groups w f (magic_of (option_map ci_magic c)) t t1 t1 (groups w hint) oss [] ltac:(lia) ltac:(lia) Hos) as [rss [Hr [Hsh [Hf [Hk Hno]]]]].
    { change (flat_map g_sources (groups w hint)) with (sources w hint). rewrite Hz. constructor. }
    change (flat_map g_sources (groups w hint)) with (sources w hint) in Hk. rewrite Hz in Hk. cbn [zip_with] in Hk.
    assert (HE : reading_all f (groups w hint) oss = call_trace (groups w hint) rss).
    { unfold reading_all, call_trace, sources in *. destruct (groups w hint) as [|g gs]; [reflexivity|]. rewrite <- Hk, app_nil_r. exact Hf. }
    rewrite HE in HT. apply no_licenses in Hsh. destruct (silent _ _ _ _ _ _ _ Hr) as [A B]; [|exact HT|apply hz_silent; assumption].
    rewrite Forall_forall in *. intros r Hin. apply Hno; [exact Hin|apply Hsh, Hin].
  - rewrite Hls. assert (Hn : zip_with (data_of f) (sources w hint) (concat oss) <> []) by (intros E; rewrite E in Hls; discriminate).
    pose proof (data_carried w f hint t t1 _ _ (incl_refl _) Hfl) as HC.
    clear Hls l ls. set (ds := zip_with (data_of f) (sources w hint) (concat oss)) in *.
    destruct (map (lic_full f) ds) as [|l0 ls0] eqn:Ed; [apply map_eq_nil in Ed; contradiction|]. rewrite <- Ed. clear Ed l0 ls0.
    apply safe_mbind; [apply verify_all_safe; [exact HO|exact Ht1|exact HC]|]. intros [[er2 ok] bad] t2 H3.
    apply verify_all_ok in H3 as [Ht2 [vs [Hvs [Hok [Hbad Hh2]]]]]; [|exact HO|apply data_form]. cbn [app] in Hok, Hbad. cbv zeta.
    destruct ok as [|i0 ok']; [|destruct (turn_errors_into_warnings er2); exact I]. symmetry in Hok. apply info_nonempty in Hok.
    pose proof (grown_trans _ _ _ _ _ Hh Hh2) as Hh3. apply safe_mbind; [eapply safe_lift, raise_safe, Hh3|]. intros [er3 b] t3 H4. apply mlift_ok in H4 as [H4 ->].
    apply safe_mbind; [|intros; exact I]. apply safe_lift. eapply code_safe; [exact Hh3|exact H4|]. intros HT.
    destruct (reports_groups w f (magic_of (option_map ci_magic c)) t t1 t2 (groups w hint) oss vs ltac:(lia) ltac:(lia) Hos Hvs) as [rss [Hr [Hsh [Hf [Hk Hno]]]]].
    change (flat_map g_sources (groups w hint)) with (sources w hint) in Hk. fold ds in Hk.
    assert (HE : reading_all f (groups w hint) oss ++ zip_with check_news ds vs = call_trace (groups w hint) rss).
    { unfold reading_all, call_trace in *. destruct (groups w hint) as [|g gs] eqn:Eg; [|rewrite Hf, Hk; unfold sources; rewrite Eg; reflexivity].
      exfalso. apply Hn. unfold ds, sources. rewrite Eg. reflexivity. }
    rewrite HE in HT. destruct (silent _ _ _ _ _ _ _ Hr) as [A B]; [|exact HT|apply hz_silent; assumption].
    apply Forall_forall. intros r Hin E. rewrite Forall_forall in Hno. destruct (rp_told r) as [x|] eqn:Ex; [|destruct (Hno _ Hin Ex E)].
    assert (Hin' : In (LICENSE_OK, x) (map tell vs)) by (rewrite <- Hsh; unfold shown; apply in_flat_map; exists r; split; [exact Hin|rewrite Ex, E; left; reflexivity]).
    apply in_map_iff in Hin' as [v [[= E1 E2] Hin']]. assert (Y : In v (filter is_ok vs)) by (apply filter_In; split; [exact Hin'|unfold is_ok; rewrite E1; reflexivity]). rewrite Hok in Y. destruct Y.
Qed.
