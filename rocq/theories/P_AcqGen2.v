(** acquire_license for any platform: what it does (the proofs of P_Acquire3, P_Acquire4 and
    P_Acquire5, for any means of checking signatures and hardware). *)
From Verif Require Import Base CTypes StringUtils Dates Doubles Base64 HwId Registry Ini Network Disks ExecEnv Strategies Locate Licensecc Shared AcquireGen.
From Verif Require Import P_Base Spec_Strings Spec_Base64 Spec_Dates P_Strings P_Text P_Decode P_DateText P_HwText Spec_Ini P_Ini Spec_HwId Spec_Hw P_Hw P_Hw2 Spec_Registry P_Registry Spec_Acquire P_Acquire1 P_Acquire2 P_Acquire3 P_Acquire4 P_Acquire5 Spec_AcquireGen P_AcqGen1.
From Coq Require Import Sorted Lia.

Section Means.
Variables (bk : backend) (mn : means) (fit : bytes -> Prop).
Hypothesis SAME : forall e s info r, fit s -> g_add_event bk e (Some s) info r = add_event e (Some s) info r.
Hypothesis SAME0 : forall e info r, g_add_event bk e None info r = add_event e None info r.
Hypothesis OKL : fit LICENSE_LOCATION_VAR.
Hypothesis OKE : fit EXTERNAL_NAME.
Hypothesis HVER : forall text sig b, bk_verify bk text sig = Ok b -> (b = true <-> mn_good mn text sig).
Hypothesis HIDN : forall i code e, bk_validate bk i code = Ok e -> (e = LICENSE_OK \/ e = IDENTIFIERS_MISMATCH) /\ (e = LICENSE_OK <-> mn_ident mn i code).

Lemma g_grown_add e id info r r' : fit id -> g_add_event bk e (Some id) info r = Ok r' -> grown r [(e, ref_name (Some id))] r'.
Proof using SAME. intros H1 H2. rewrite SAME in H2 by exact H1. eapply grown_add, H2. Qed.
Lemma p_verify_good product id es sig m b :
  bk_verify bk (print_for_sign {| fl_source := id; fl_project := product; fl_signature := sig; fl_magic := m; fl_limits := lim es |}) sig = Ok b ->
  b = true <-> p_signature_good mn product es sig.
Proof using HVER.
  intros H. rewrite signed_text_print in H. cbn [fl_project fl_limits] in H. apply HVER in H. rewrite H. unfold p_signature_good. split.
  - intros X. exists (lim es). split; [apply lim_of|exact X].
  - intros [m' [Hm X]]. rewrite (limits_unique _ _ _ Hm (lim_of es)) in X. exact X.
Qed.
Lemma data_names product ss os : Forall (fun s => fit (name_of s)) ss -> Forall (fun d => fit (ld_id d)) (zip_with (data_of product) ss os).
Proof.
  intros H. revert os; induction H as [|s ss Hs H IH]; intros [|o os]; try constructor. cbn [zip_with]. apply Forall_app. split; [|apply IH]. destruct o as [c|]; [|constructor]. cbn [data_of].
  destruct (found _); [|constructor]. constructor; [exact Hs|constructor].
Qed.
Lemma p_verify_limits_ok w product id es sig mg r t b r' t' : fit id -> license_form es sig -> p_signature_good mn product es sig -> g_verify_limits w bk {| fl_source := id; fl_project := product; fl_signature := sig; fl_magic := mg; fl_limits := lim es |} r t = Ok ((b, r'), t') ->
  t <= t' /\ exists code L, p_diagnosis w mn product mg t t' es code /\ (b = true <-> code = LICENSE_OK) /\
    p_checking w mn product es sig code (SIGNATURE_VERIFIED :: L) /\ grown r (map (fun e => (e, ref_name (Some id))) L) r'.
Proof.
  intros HX HF HG. unfold g_verify_limits. cbn [fl_limits fl_source fl_magic]. rewrite !lim_get.
  change PARAM_EXPIRY_DATE with (bs "valid-to"). change PARAM_BEGIN_DATE with (bs "valid-from"). change PARAM_CLIENT_SIGNATURE with (bs "client-signature").
  destruct (N.eqb_spec mg (w_magic w)) as [Em|Em].
  2:{ intros H. apply mbind_ok in H as [r1 [t1 [H1 H]]]. apply mlift_ok in H1 as [H1 ->]. apply mbind_ok in H as [now [t2 [H2 H]]]. unfold m_now in H2. injection H2 as <- <-.
      cbn in H. injection H as <- <- <-. split; [lia|]. exists LICENSE_CORRUPTED, [LICENSE_CORRUPTED]. split; [eapply p_dg_magic; eassumption|]. split; [split; discriminate|].
      split; [apply p_ck_verdict; [exact HG|discriminate]|]. eapply g_grown_add; [exact HX|exact H1]. }
  intros H. apply mbind_ok in H as [r1 [t1 [H1 H]]]. apply mret_ok in H1 as [-> ->]. apply mbind_ok in H as [now [t2 [H2 H]]]. unfold m_now in H2. injection H2 as <- <-.
  set (now := w_clock w t) in *.
  apply mbind_ok in H as [[v1 r1] [t1 [H1 H]]].
  assert (A1 : t1 = S t /\ ((v1 = false /\ (exists s, dated w es "valid-to" s /\ (s < now)%Z) /\ g_add_event bk PRODUCT_EXPIRED (Some id) (match exact_value es (bs "valid-to") with Some d => Some (bs "Expired " ++ d) | None => None end) r = Ok r1) \/
            (v1 = true /\ (exact_value es (bs "valid-to") = None \/ exists s, dated w es "valid-to" s /\ (now <= s)%Z) /\ r1 = r))).
  { destruct (exact_value es (bs "valid-to")) as [d|] eqn:Ed.
    - apply mbind_ok in H1 as [s [t3 [H3 H1]]]. apply mlift_ok in H3 as [H3 ->]. destruct (Z.ltb_spec s now).
      + apply mbind_ok in H1 as [r2 [t3 [H4 H1]]]. apply mlift_ok in H4 as [H4 ->]. apply mret_ok in H1 as [[= -> ->] ->]. split; [reflexivity|]. left. split; [reflexivity|].
        split; [exists s; split; [apply dated_iff; exists d; auto|lia]|]. exact H4.
      + apply mret_ok in H1 as [[= -> ->] ->]. split; [reflexivity|]. right. split; [reflexivity|]. split; [right; exists s; split; [apply dated_iff; exists d; auto|lia]|reflexivity].
    - apply mret_ok in H1 as [[= -> ->] ->]. auto 8. }
  destruct A1 as [-> [[-> [Hx Ha]]|[-> [Hx ->]]]].
  { cbn in H. injection H as <- <- <-. split; [lia|]. exists PRODUCT_EXPIRED, [PRODUCT_EXPIRED]. split; [eapply (p_dg_expired w mn product mg t (S t) es sig t); auto; left; exact Hx|]. split; [split; discriminate|].
    split; [apply p_ck_verdict; [exact HG|discriminate]|]. eapply g_grown_add; [exact HX|exact Ha]. }
  apply mbind_ok in H as [[v2 r2] [t1 [H2 H]]].
  assert (A2 : t1 = S t /\ ((v2 = false /\ (exists s, dated w es "valid-from" s /\ (now < s)%Z) /\ g_add_event bk PRODUCT_EXPIRED (Some id) (match exact_value es (bs "valid-from") with Some d => Some (bs "Valid from " ++ d) | None => None end) r = Ok r2) \/
            (v2 = true /\ (exact_value es (bs "valid-from") = None \/ exists s, dated w es "valid-from" s /\ (s <= now)%Z) /\ r2 = r))).
  { destruct (exact_value es (bs "valid-from")) as [d|] eqn:Ed.
    - apply mbind_ok in H2 as [s [t3 [H3 H2]]]. apply mlift_ok in H3 as [H3 ->]. destruct (Z.ltb_spec now s).
      + apply mbind_ok in H2 as [r3 [t3 [H4 H2]]]. apply mlift_ok in H4 as [H4 ->]. apply mret_ok in H2 as [[= -> ->] ->]. split; [reflexivity|]. left. split; [reflexivity|].
        split; [exists s; split; [apply dated_iff; exists d; auto|lia]|]. exact H4.
      + apply mret_ok in H2 as [[= -> ->] ->]. split; [reflexivity|]. right. split; [reflexivity|]. split; [right; exists s; split; [apply dated_iff; exists d; auto|lia]|reflexivity].
    - apply mret_ok in H2 as [[= -> ->] ->]. auto 8. }
  destruct A2 as [-> [[-> [Hy Ha]]|[-> [Hy ->]]]].
  { cbn in H. injection H as <- <- <-. split; [lia|]. exists PRODUCT_EXPIRED, [PRODUCT_EXPIRED]. split; [eapply (p_dg_expired w mn product mg t (S t) es sig t); auto; right; exact Hy|]. split; [split; discriminate|].
    split; [apply p_ck_verdict; [exact HG|discriminate]|]. eapply g_grown_add; [exact HX|exact Ha]. }
  destruct (exact_value es (bs "client-signature")) as [c|] eqn:Ec.
  - apply mbind_ok in H as [e [t4 [H4 H]]]. unfold m_validate in H4. apply rbind_ok in H4 as [e' [H4 E4]]. injection E4 as -> <-.
    apply mbind_ok in H as [r3 [t5 [H5 H]]]. apply mlift_ok in H5 as [H5 ->]. apply mret_ok in H as [[= -> ->] ->]. split; [lia|]. exists e, [e].
    destruct (HIDN _ _ _ H4) as [[-> | ->] Hv].
    + split; [|split; [split; reflexivity|split; [apply p_ck_verdict; [exact HG|intros _; exists c; exact Ec]|eapply g_grown_add; [exact HX|exact H5]]]]. apply (p_dg_ok w mn product mg t (S (S t)) es t (S t)); [lia|lia|].
      exists sig. split; [exact HF|]. split; [exact HG|]. split; [exact Em|]. split; [split; [exact Hx|exact Hy]|]. intros code Hc. unfold locked in Hc. rewrite Ec in Hc. injection Hc as <-. apply Hv. reflexivity.
    + split; [|split; [split; discriminate|split; [apply p_ck_verdict; [exact HG|discriminate]|eapply g_grown_add; [exact HX|exact H5]]]].
      apply (p_dg_mismatch w mn product mg t (S (S t)) es sig t (S t) c); [exact HF|exact HG|exact Em|lia|split; [exact Hx|exact Hy]|lia|exact Ec|]. intros X. apply Hv in X. discriminate.
  - apply mret_ok in H as [[= -> ->] ->]. split; [lia|]. exists LICENSE_OK, []. split; [|split; [split; reflexivity|split; [apply p_ck_free; [exact HG|exact Ec]|apply grown_refl]]]. apply (p_dg_ok w mn product mg t (S t) es t t); [lia|lia|].
    exists sig. split; [exact HF|]. split; [exact HG|]. split; [exact Em|]. split; [split; [exact Hx|exact Hy]|]. intros code Hc. unfold locked in Hc. congruence.
Qed.

Definition p_verdict_on (w : world) (product : bytes) (mg : N) (t t' : nat) (d : lic_data) (x : verdict_rec) : Prop :=
  p_diagnosis w mn product mg t t' (ld_entries d) (v_code x) /\ p_checking w mn product (ld_entries d) (ld_sig d) (v_code x) (v_steps x) /\
  describes w t t' (ld_entries d) (told_of (v_info x)).

Lemma p_diagnosis_wide w product mg t t' u u' es code : u <= t -> t' <= u' -> p_diagnosis w mn product mg t t' es code -> p_diagnosis w mn product mg u u' es code.
Proof.
  intros H1 H2 D. inversion D; subst; [eapply p_dg_absent|eapply p_dg_malformed|eapply p_dg_forged|eapply p_dg_magic|eapply p_dg_expired with (i := i)|eapply p_dg_mismatch with (i := i) (j := j)|eapply p_dg_ok with (i := i) (j := j)]; eauto; lia.
Qed.

Lemma p_verdict_wide w product mg t t' u u' d x : u <= t -> t' <= u' -> p_verdict_on w product mg t t' d x -> p_verdict_on w product mg u u' d x.
Proof. intros H1 H2 [A [B C]]. split; [eapply p_diagnosis_wide; [| |exact A]; lia|]. split; [exact B|]. eapply describes_wide; [| |exact C]; lia. Qed.

Lemma p_verify_all_ok w product mg ds r ok bad t r' ok' bad' t' : Forall (fun d => fit (ld_id d)) ds -> Forall (fun d => license_form (ld_entries d) (ld_sig d)) ds ->
  g_verify_all w bk mg (map (lic_full product) ds) r ok bad t = Ok ((r', ok', bad'), t') ->
  t <= t' /\ exists vs, Forall2 (p_verdict_on w product (mag mg) t t') ds vs /\
    ok' = ok ++ map v_info (filter is_ok vs) /\ bad' = bad ++ map v_info (filter (fun x => negb (is_ok x)) vs) /\
    grown r (zip_with check_news ds vs) r'.
Proof.
  revert r ok bad t. induction ds as [|d ds IH]; intros r ok bad t HN HF; cbn [map g_verify_all].
  - intros H. apply mret_ok in H as [[= -> -> ->] ->]. split; [lia|]. exists []. split; [constructor|]. cbn [filter map]. rewrite !app_nil_r. split; [reflexivity|]. split; [reflexivity|apply grown_refl].
  - inversion HF as [|? ? Hf HF']; subst. inversion HN as [|? ? Hx HN']; subst. intros H. fold (lic_at mg (lic_full product d)) in H. unfold lic_full in H at 1 2 3. rewrite lic_at_eq in H.
    apply mbind_ok in H as [[b r1] [t1 [H1 H]]]. apply mlift_ok in H1 as [H1 ->]. unfold g_verify_signature in H1. cbn [fl_signature fl_source] in H1.
    apply rbind_ok in H1 as [b' [Hb H1]]. apply rbind_ok in H1 as [r2 [Ha H1]]. injection H1 as H1 H1r. subst b r2. pose proof (p_verify_good _ _ _ _ _ _ Hb) as Hg. apply g_grown_add in Ha; [|exact Hx].
    apply mbind_ok in H as [i [t1 [H2 H]]]. apply to_license_info_ok in H2 as [Ht1 Hd].
    assert (STEP : forall code L r2 t2, t1 <= t2 -> p_diagnosis w mn product (mag mg) t t2 (ld_entries d) code ->
      p_checking w mn product (ld_entries d) (ld_sig d) code L ->
      grown r (map (fun e => (e, ref_name (Some (ld_id d)))) L) r2 ->
      g_verify_all w bk mg (map (lic_full product) ds) r2 (if event_eqb code LICENSE_OK then ok ++ [i] else ok) (if event_eqb code LICENSE_OK then bad else bad ++ [i]) t2 = Ok ((r', ok', bad'), t') ->
      t <= t' /\ exists vs, Forall2 (p_verdict_on w product (mag mg) t t') (d :: ds) vs /\
        ok' = ok ++ map v_info (filter is_ok vs) /\ bad' = bad ++ map v_info (filter (fun x => negb (is_ok x)) vs) /\
        grown r (zip_with check_news (d :: ds) vs) r').
    { intros code L r2 t2 Ht2 Hdg Hck Hh Hrest. apply IH in Hrest as [Ht3 [vs [Hvs [-> [-> Hh']]]]]; [|exact HN'|exact HF']. split; [lia|]. exists ({| v_code := code; v_info := i; v_steps := L |} :: vs). split; [|split; [|split]].
      - constructor; [split; cbn [v_code v_info v_steps]; [eapply p_diagnosis_wide; [| |exact Hdg]; lia|split; [exact Hck|eapply describes_wide; [| |exact Hd]; lia]]|].
        eapply Forall2_impl; [|exact Hvs]. intros a x X. eapply p_verdict_wide; [| |exact X]; lia.
      - cbn [filter]. unfold is_ok at 2. cbn [v_code]. destruct (event_eqb code LICENSE_OK); [cbn [map v_info]; rewrite <- app_assoc|]; reflexivity.
      - cbn [filter]. unfold is_ok at 2. cbn [v_code]. destruct (event_eqb code LICENSE_OK); [|cbn [map v_info negb]; rewrite <- app_assoc]; reflexivity.
      - cbn [zip_with]. eapply grown_trans; [exact Hh|exact Hh']. }
    destruct b'.
    + apply mbind_ok in H as [[lo r2] [t2 [H3 H]]]. apply p_verify_limits_ok in H3 as [Ht2 [code [L [Hdg [Hlo [Hck Hh]]]]]]; [|exact Hx|exact Hf|apply Hg; reflexivity].
      apply (STEP code (SIGNATURE_VERIFIED :: L) r2 t2 Ht2); [eapply p_diagnosis_wide; [| |exact Hdg]; lia|exact Hck| |].
      * cbn [map]. eapply (grown_trans _ [_]); [exact Ha|exact Hh].
      * destruct lo; [rewrite (proj1 Hlo eq_refl); exact H|]. replace (event_eqb code LICENSE_OK) with false; [exact H|]. destruct code; try reflexivity. discriminate (proj2 Hlo eq_refl).
    + assert (Hng : ~ p_signature_good mn product (ld_entries d) (ld_sig d)) by (intros X; apply Hg in X; discriminate).
      apply (STEP LICENSE_CORRUPTED [LICENSE_CORRUPTED] r1 t1 (le_n _)); [|apply p_ck_forged; exact Hng|exact Ha|exact H].
      eapply p_dg_forged; [exact Hf|exact Hng].
Qed.

Lemma p_report_of w product mg t u t' s o vs : t <= u -> u <= t' -> seen w t u s o ->
  Forall2 (p_verdict_on w product mg u t') (data_of product s o) vs ->
  exists r, p_reported w mn product mg t t' s r /\ shown [r] = map tell vs /\
    (forall ann, look ann s (is_some o) = looked ann s r) /\ read_news product s o = about s (rp_reading r) /\
    zip_with check_news (data_of product s o) vs = about s (rp_checking r) /\
    (rp_told r = None -> rp_code r <> LICENSE_OK).
Proof.
  intros Htu Hut Hs HV1. destruct o as [c|].
  - destruct Hs as [Hg Hc]. cbn [data_of] in *. assert (Hg' : given w t t' s c) by (eapply given_wide; [| |exact Hg]; lia).
    assert (Hp : present w t t' s) by (destruct s; cbn [present checked] in *; auto; destruct Hc as [i [X Y]]; exists i; (split; [lia|exact Y])).
    destruct (found (section_entries c product)) as [sig|] eqn:Ef.
    + inversion HV1 as [|? v ? v1' Hv1 HV1' E1 E2]; subst. inversion HV1'; subst. destruct Hv1 as [Hd [Hk Hx]]. cbn [ld_entries ld_sig] in *.
      assert (Hne : v_code v <> LICENSE_FILE_NOT_FOUND) by (intros E; rewrite E in Hd; inversion Hd).
      exists {| rp_code := v_code v; rp_told := Some (told_of (v_info v)); rp_reading := [PRODUCT_FOUND]; rp_checking := v_steps v |}.
      split; [eapply p_rep_license; [exact Hp|exact Hg'|apply found_form, Ef|eapply p_diagnosis_wide; [| |exact Hd]; lia|exact Hk|eapply describes_wide; [| |exact Hx]; lia]|].
      split; [reflexivity|]. split; [|split; [|split]].
      * intros ann. unfold look, looked, missing. cbn [rp_code is_some]. replace (event_eqb (v_code v) LICENSE_FILE_NOT_FOUND) with false by (destruct (v_code v); try reflexivity; congruence). reflexivity.
      * unfold read_news, read_events. cbn [rp_reading]. destruct (section_entries c product) eqn:Ee; [discriminate Ef|]. rewrite Ef. reflexivity.
      * cbn [zip_with]. rewrite app_nil_r. reflexivity.
      * discriminate.
    + inversion HV1; subst. assert (Hn : forall sig, ~ license_form (section_entries c product) sig) by (apply found_none, Ef).
      destruct (section_entries c product) as [|e0 es0] eqn:Hes.
      * exists {| rp_code := PRODUCT_NOT_LICENSED; rp_told := None; rp_reading := [PRODUCT_NOT_LICENSED]; rp_checking := [] |}.
        split; [eapply p_rep_absent; eassumption|]. split; [reflexivity|]. split; [intros ann; unfold look, looked; destruct s; reflexivity|]. split; [unfold read_news, read_events; rewrite Hes; reflexivity|]. split; [reflexivity|discriminate].
      * exists {| rp_code := LICENSE_MALFORMED; rp_told := None; rp_reading := [PRODUCT_FOUND; LICENSE_MALFORMED]; rp_checking := [] |}.
        split; [eapply p_rep_malformed; [exact Hp|exact Hg'|rewrite Hes; discriminate|rewrite Hes; exact Hn]|]. split; [reflexivity|].
        split; [intros ann; unfold look, looked; destruct s; reflexivity|]. split; [unfold read_news, read_events; rewrite Hes, Ef; reflexivity|]. split; [reflexivity|discriminate].
  - cbn [data_of] in *. inversion HV1; subst. destruct Hs as [i [Hi Hl]]. exists {| rp_code := LICENSE_FILE_NOT_FOUND; rp_told := None; rp_reading := []; rp_checking := [] |}.
    split; [eapply p_rep_missing; [|exact Hl]; lia|]. split; [reflexivity|]. split; [intros ann; unfold look, looked; destruct s; reflexivity|]. split; [reflexivity|]. split; [reflexivity|discriminate].
Qed.

Lemma p_reports_of w product mg t u t' ss os vs : t <= u -> u <= t' -> Forall2 (seen w t u) ss os ->
  Forall2 (p_verdict_on w product mg u t') (zip_with (data_of product) ss os) vs ->
  exists rs, Forall2 (p_reported w mn product mg t t') ss rs /\ shown rs = map tell vs /\
    (forall ann, zip_with (fun s o => look ann s (is_some o)) ss os = zip_with (looked ann) ss rs) /\
    zip_with (read_news product) ss os = zip_with (fun s r => about s (rp_reading r)) ss rs /\
    zip_with check_news (zip_with (data_of product) ss os) vs = zip_with (fun s r => about s (rp_checking r)) ss rs /\
    Forall (fun r => rp_told r = None -> rp_code r <> LICENSE_OK) rs.
Proof.
  intros Htu Hut HS. revert vs. induction HS as [|s o ss os Hs HS IH]; intros vs HV.
  - cbn [zip_with] in HV. inversion HV; subst. exists []. repeat split; constructor.
  - cbn [zip_with] in *. apply Forall2_app_inv_l in HV as [v1 [v2 [HV1 [HV2 ->]]]]. destruct (IH _ HV2) as [rs [A [B [C [D [E F]]]]]].
    destruct (p_report_of w product mg t u t' s o v1 Htu Hut Hs HV1) as [r [A1 [B1 [C1 [D1 [E1 F1]]]]]]. exists (r :: rs). split; [constructor; assumption|].
    split; [unfold shown in *; cbn [flat_map] in *; rewrite app_nil_r in B1; rewrite B1, B, map_app; reflexivity|].
    split; [intros ann; cbn [zip_with]; rewrite C1, C; reflexivity|]. cbn [zip_with]. split; [rewrite D1, D; reflexivity|].
    split; [rewrite zip_app by (eapply Forall2_len, HV1); rewrite E1, E; reflexivity|]. constructor; assumption.
Qed.

Lemma p_reports_groups w product mg t u t' gs oss vs : t <= u -> u <= t' ->
  Forall2 (fun g os => Forall2 (seen w t u) (g_sources g) os) gs oss ->
  Forall2 (p_verdict_on w product mg u t') (zip_with (data_of product) (flat_map g_sources gs) (concat oss)) vs ->
  exists rss, Forall2 (fun g rs => Forall2 (p_reported w mn product mg t t') (g_sources g) rs) gs rss /\ shown (concat rss) = map tell vs /\
    zip_with (reading_trace product) gs oss = zip_with group_trace gs rss /\
    zip_with check_news (zip_with (data_of product) (flat_map g_sources gs) (concat oss)) vs = zip_with (fun s r => about s (rp_checking r)) (flat_map g_sources gs) (concat rss) /\
    Forall (fun r => rp_told r = None -> rp_code r <> LICENSE_OK) (concat rss).
Proof.
  intros Htu Hut HS. revert vs. induction HS as [|g os gs oss Hs HS IH]; intros vs HV.
  - cbn [zip_with flat_map] in HV. inversion HV; subst. exists []. repeat split; constructor.
  - cbn [zip_with flat_map concat] in *. rewrite zip_app in * by (eapply Forall2_len, Hs). apply Forall2_app_inv_l in HV as [v1 [v2 [HV1 [HV2 ->]]]].
    destruct (IH _ HV2) as [rss [A [B [C [D E]]]]]. destruct (p_reports_of w product mg t u t' _ _ v1 Htu Hut Hs HV1) as [rs [A1 [B1 [C1 [D1 [E1 F1]]]]]].
    exists (rs :: rss). split; [constructor; assumption|]. cbn [concat]. split; [unfold shown in *; rewrite flat_map_app, B1, B, map_app; reflexivity|].
    split; [cbn [zip_with]; rewrite C; f_equal; unfold reading_trace, group_trace; rewrite C1, D1; reflexivity|].
    split; [rewrite (zip_app check_news) by (eapply Forall2_len, HV1); rewrite (zip_app (fun s r => about s (rp_checking r))) by (eapply Forall2_len, A1); rewrite E1, D; reflexivity|].
    apply Forall_app. auto.
Qed.

Theorem p_acquire_outcome w c hint out t code out' t' : Forall (fun s => fit (name_of s)) (sources w hint) ->
  g_acquire_license w bk c hint out t = Ok ((code, out'), t') -> t <= t' /\ exists rss log, p_outcome w mn c hint out t code out' t' rss log.
Proof.
  intros HX H. unfold g_acquire_license in H. apply mbind_ok in H as [f [t1 [H1 H]]]. apply mlift_ok in H1 as [H1 ->]. apply requested_feature_ok in H1.
  apply mbind_ok in H as [[er ls] [t1 [H2 H]]]. rewrite (g_licenses_same w bk fit SAME SAME0 OKL OKE) in H2 by exact HX. apply read_licenses_ok in H2 as [Ht1 [oss [Hos [Hls Hh]]]].
  rewrite zip_licenses in Hls. destruct ls as [|l ls].
  - assert (Hz : zip_with (data_of f) (sources w hint) (concat oss) = []) by (symmetry in Hls; apply map_eq_nil in Hls; exact Hls).
    apply mbind_ok in H as [[er2 b] [t2 [H3 H]]]. apply mlift_ok in H3 as [H3 ->]. apply mbind_ok in H as [res [t2 [H4 H]]]. apply mlift_ok in H4 as [H4 ->].
    apply mret_ok in H as [[= -> ->] ->]. split; [exact Ht1|].
    destruct (p_reports_groups w f (magic_of (option_map ci_magic c)) t t1 t1 (groups w hint) oss [] ltac:(lia) ltac:(lia) Hos) as [rss [Hr [Hsh [Hf [Hk Hno]]]]].
    { change (flat_map g_sources (groups w hint)) with (sources w hint). rewrite Hz. constructor. }
    change (flat_map g_sources (groups w hint)) with (sources w hint) in Hk. rewrite Hz in Hk. cbn [zip_with] in Hk.
    assert (HT : reading_all f (groups w hint) oss = call_trace (groups w hint) rss).
    { unfold reading_all, call_trace, sources in *. destruct (groups w hint) as [|g gs]; [reflexivity|]. rewrite <- Hk, app_nil_r. exact Hf. }
    rewrite HT in Hh. destruct (grown_code _ _ _ _ _ Hh H3 H4) as [s [k [Hfu Hsel]]]. pose proof (not_ok_failure _ _ _ _ Hsel) as Hne.
    assert (Hnone : Forall (fun r => rp_told r = None) (concat rss)) by (apply no_licenses, Hsh).
    exists rss, (logs er2). constructor.
    + rewrite <- H1. exact Hr.
    + pose proof (grown_raise _ _ _ (grown_inv _ _ _ empty_inv Hh) H3) as G. destruct (grown_trans _ _ _ _ _ Hh G) as [_ X]. rewrite app_nil_r in X. exact X.
    + split; [intros; contradiction|]. intros Hin. exfalso. apply in_map_iff in Hin as [r [E Hin]]. rewrite Forall_forall in Hno, Hnone. eapply Hno; [exact Hin|apply Hnone, Hin|exact E].
    + intros _. eauto.
    + destruct out; split; cbn; congruence.
    + intros o o' -> [= <-]. split; [|apply export_status_fields]. apply io_none; try reflexivity. exact Hnone.
    + intros; contradiction.
  - rewrite Hls in H. assert (Hn : zip_with (data_of f) (sources w hint) (concat oss) <> []) by (intros E; rewrite E in Hls; discriminate).
    clear Hls l ls. set (ds := zip_with (data_of f) (sources w hint) (concat oss)) in *.
    assert (H' : ('(er0, ok, bad) <~ g_verify_all w bk (option_map ci_magic c) (map (lic_full f) ds) er [] [] ;;
       (let copy ls o := match merge_licenses ls None INT_MIN with Some i => out_of_linfo i | None => o end in
        match ok with
        | _ :: _ => let '(er, _) := turn_errors_into_warnings er0 in mret (LICENSE_OK, option_map (fun o => export_status er (copy ok o)) out)
        | [] => '(er, _) <~ mlift (turn_warnings_into_errors er0) ;; result <~ mlift (failure_code er) ;; mret (result, option_map (fun o => export_status er (copy bad o)) out)
        end)) t1 = Ok ((code, out'), t')).
    { destruct (map (lic_full f) ds) eqn:E; [apply map_eq_nil in E; contradiction|]. exact H. }
    clear H. apply mbind_ok in H' as [[[er2 ok] bad] [t2 [H3 H]]]. cbv zeta in H. apply p_verify_all_ok in H3 as [Ht2 [vs [Hvs [Hok [Hbad Hh2]]]]]; [|apply data_names; exact HX|apply data_form]. cbn [app] in Hok, Hbad.
    destruct (p_reports_groups w f (magic_of (option_map ci_magic c)) t t1 t2 (groups w hint) oss vs ltac:(lia) ltac:(lia) Hos Hvs) as [rss [Hr [Hsh [Hf [Hk Hno]]]]].
    change (flat_map g_sources (groups w hint)) with (sources w hint) in Hk. fold ds in Hk.
    assert (HT : reading_all f (groups w hint) oss ++ zip_with check_news ds vs = call_trace (groups w hint) rss).
    { unfold reading_all, call_trace in *. destruct (groups w hint) as [|g gs] eqn:Eg; [|rewrite Hf, Hk; unfold sources; rewrite Eg; reflexivity].
      exfalso. apply Hn. unfold ds, sources. rewrite Eg. reflexivity. }
    pose proof (grown_trans _ _ _ _ _ Hh Hh2) as Hh3. rewrite HT in Hh3.
    assert (Hvn : vs <> []) by (intros ->; inversion Hvs; congruence).
    assert (Hdays : Forall (fun v => (0 <= li_days_left (v_info v))%Z) vs).
    { clear -Hvs. induction Hvs as [|d v ds vs [_ [_ X]] _ IH]; constructor; [|exact IH]. apply describes_days in X. exact X. }
    assert (Hmerge : forall g, filter g vs <> [] -> exists i, merge_licenses (map v_info (filter g vs)) None INT_MIN = Some i /\ best (map told_of (map v_info (filter g vs))) (told_of i)).
    { intros g Hg. apply merge_best; [intros E; apply Hg, info_nonempty, E|]. apply Forall_map, Forall_forall. intros v Hv'. apply filter_In in Hv' as [Hv' _]. rewrite Forall_forall in Hdays. apply Hdays, Hv'. }
    assert (Hokin : In LICENSE_OK (map rp_code (concat rss)) <-> filter is_ok vs <> []).
    { split.
      - intros Hin. apply in_map_iff in Hin as [r [E Hin]]. rewrite Forall_forall in Hno. destruct (rp_told r) as [x|] eqn:Ex; [|destruct (Hno _ Hin Ex E)].
        assert (Hin' : In (LICENSE_OK, x) (map tell vs)) by (rewrite <- Hsh; unfold shown; apply in_flat_map; exists r; split; [exact Hin|rewrite Ex, E; left; reflexivity]).
        apply in_map_iff in Hin' as [v [[= E1 E2] Hin']]. assert (In v (filter is_ok vs)) by (apply filter_In; split; [exact Hin'|unfold is_ok; rewrite E1; reflexivity]).
        intros Z. rewrite Z in H0. destruct H0.
      - intros Hne. destruct (filter is_ok vs) as [|v vs'] eqn:E; [congruence|]. assert (Hin : In v (filter is_ok vs)) by (rewrite E; left; reflexivity).
        apply filter_In in Hin as [Hin Eo]. assert (Ev : v_code v = LICENSE_OK) by (unfold is_ok in Eo; destruct (v_code v); try discriminate; reflexivity).
        assert (Hin' : In (tell v) (shown (concat rss))) by (rewrite Hsh; apply in_map; exact Hin). unfold shown in Hin'. apply in_flat_map in Hin' as [r [Hr' X]].
        destruct (rp_told r); [|destruct X]. destruct X as [X|[]]. unfold tell in X. injection X as X _. rewrite <- Ev, <- X. apply in_map. exact Hr'. }
    destruct ok as [|i0 ok'].
    + symmetry in Hok. apply info_nonempty in Hok.
      apply mbind_ok in H as [[er3 b] [t3 [H4 H]]]. apply mlift_ok in H4 as [H4 ->]. apply mbind_ok in H as [res [t3 [H5 H]]]. apply mlift_ok in H5 as [H5 ->]. apply mret_ok in H as [[= -> ->] ->].
      split; [lia|]. destruct (grown_code _ _ _ _ _ Hh3 H4 H5) as [s [k [Hfu Hsel]]]. pose proof (not_ok_failure _ _ _ _ Hsel) as Hne.
      assert (Hall : filter (fun v => negb (is_ok v)) vs = vs).
      { clear -Hok. induction vs as [|v vs IH]; [reflexivity|]. cbn [filter] in *. destruct (is_ok v); [discriminate|]. cbn [negb]. f_equal. apply IH, Hok. }
      exists rss, (logs er3). constructor.
      * rewrite <- H1. exact Hr.
      * pose proof (grown_raise _ _ _ (grown_inv _ _ _ empty_inv Hh3) H4) as G. destruct (grown_trans _ _ _ _ _ Hh3 G) as [_ X]. rewrite app_nil_r in X. exact X.
      * split; [intros; contradiction|]. rewrite Hokin, Hok. congruence.
      * intros _. eauto.
      * destruct out; split; cbn; congruence.
      * intros o o' -> [= <-]. split; [|apply export_status_fields]. subst bad. destruct (Hmerge (fun v => negb (is_ok v))) as [i [-> Hb]]; [rewrite Hall; exact Hvn|].
        apply (io_some _ _ _ _ (told_of i)); try reflexivity. replace (event_eqb res LICENSE_OK) with false by (destruct res; try reflexivity; congruence).
        rewrite (shown_tolds _ _ _ Hsh). rewrite (filter_ext (fun v => Bool.eqb (is_ok v) false) (fun v => negb (is_ok v))); [exact Hb|]. intros v. destruct (is_ok v); reflexivity.
      * intros; contradiction.
    + assert (Hoke : filter is_ok vs <> []) by (intros E; rewrite E in Hok; discriminate). pose proof (lower_summary er2 (grown_inv _ _ _ empty_inv Hh3)) as [er3 [H4 [Hl1 [Hl2 _]]]]. rewrite H4 in H.
      apply mret_ok in H as [H ->]. apply pair_equal_spec in H as [-> ->]. split; [lia|].
      exists rss, (logs er3). constructor.
      * rewrite <- H1. exact Hr.
      * destruct Hh3 as [_ X]. cbn [app log_trace reg_empty logs map] in X. rewrite <- X. unfold log_trace. apply nth_error_ext. intros n. rewrite !nth_error_map.
        destruct (nth_error (logs er2) n) as [ev0|] eqn:E0.
        -- destruct (Hl2 _ _ E0) as [ev' [E' [Ht' [Hr' _]]]]. rewrite E'. cbn [option_map]. rewrite Ht', Hr'. reflexivity.
        -- replace (nth_error (logs er3) n) with (@None event); [reflexivity|]. symmetry. apply nth_error_None. apply nth_error_None in E0. lia.
      * split; [intros _; apply Hokin, Hoke|reflexivity].
      * intros; congruence.
      * destruct out; split; cbn; congruence.
      * intros o o' -> Ho. cbn [option_map] in Ho. rewrite Hok in Ho. destruct (Hmerge is_ok Hoke) as [i [Em Hb]]. rewrite Em in Ho. injection Ho as <-. split; [|apply export_status_fields]. apply (io_some _ _ _ _ (told_of i)); try reflexivity.
        cbn [event_eqb]. rewrite (shown_tolds _ _ _ Hsh). rewrite (filter_ext (fun v => Bool.eqb (is_ok v) true) is_ok); [exact Hb|]. intros v. destruct (is_ok v); reflexivity.
      * intros _. apply Forall_forall. intros ev Hin. apply In_nth_error in Hin as [n Hin]. destruct (nth_error (logs er2) n) as [ev0|] eqn:E0.
        -- destruct (Hl2 _ _ E0) as [ev' [E' [_ [_ [_ Hs]]]]]. rewrite E' in Hin. injection Hin as <-. rewrite Hs. destruct (ev_sev ev0); discriminate.
        -- apply nth_error_None in E0. assert (n < length (logs er3)) by (apply nth_error_Some; congruence). lia.
Qed.

End Means.

(** consequences *)
Section Consequences.
Variable mn : means.
Lemma p_outcome_reports w c hint out t code out' t' rss log : p_outcome w mn c hint out t code out' t' rss log ->
  Forall2 (p_reported w mn (feature_of w (option_map ci_feature c)) (magic_of (option_map ci_magic c)) t t') (sources w hint) (concat rss).
Proof. intros H. eapply Forall2_flat, (p_oc_reports _ _ _ _ _ _ _ _ _ _ _ H). Qed.

Lemma p_reported_ok w f m t t' s r : p_reported w mn f m t t' s r -> rp_code r = LICENSE_OK ->
  exists content i j x, present w t t' s /\ given w t t' s content /\ t <= i < t' /\ t <= j < t' /\
    p_valid_license w mn f m (section_entries content f) (w_clock w i) j /\
    rp_told r = Some x /\ describes w t t' (section_entries content f) x.
Proof.
  intros H. inversion H; subst; cbn [rp_code rp_told]; try discriminate. intros ->.
  match goal with D : p_diagnosis _ _ _ _ _ _ _ LICENSE_OK |- _ => inversion D as [| | | | | |i j Hi Hj Hv]; subst end. exists content, i, j, x. auto 9.
Qed.

Lemma p_valid_diagnosis w f m t t' es code : (forall i j, t <= i <= t' -> t <= j <= t' -> p_valid_license w mn f m es (w_clock w i) j) -> t <= t' ->
  p_diagnosis w mn f m t t' es code -> code = LICENSE_OK.
Proof.
  intros HV Ht D. destruct (HV t t ltac:(lia) ltac:(lia)) as [sig [F [G [M _]]]].
  inversion D as [E|_ N|sig' F' N|sig' F' G' N|sig' i F' G' M' Hi O|sig' i j code' F' G' M' Hi O Hj L I|]; subst; try reflexivity; exfalso.
  - eapply form_entries; [exact F|reflexivity].
  - eapply N, F.
  - rewrite (form_fun _ _ _ F F') in G. contradiction.
  - congruence.
  - destruct (HV i i ltac:(lia) ltac:(lia)) as [_ [_ [_ [_ [T _]]]]]. eapply in_out_time; eassumption.
  - destruct (HV i j ltac:(lia) ltac:(lia)) as [_ [_ [_ [_ [_ K]]]]]. apply I, K, L.
Qed.

Lemma p_valid_reported w f m t t' s r : t <= t' -> (forall i, t <= i <= t' -> listed w s i = true) ->
  (forall content i j, given w t t' s content -> t <= i <= t' -> t <= j <= t' -> p_valid_license w mn f m (section_entries content f) (w_clock w i) j) ->
  p_reported w mn f m t t' s r -> rp_code r = LICENSE_OK.
Proof.
  intros Ht HL HV H. inversion H as [i Hi Hn|content _ Hg He|content _ Hg He Hn|content sig code x steps _ Hg Hf Hd _ _]; subst; cbn [rp_code].
  - rewrite HL in Hn by lia. discriminate.
  - exfalso. destruct (HV content t t Hg ltac:(lia) ltac:(lia)) as [sig [F _]]. apply form_entries in F. contradiction.
  - exfalso. destruct (HV content t t Hg ltac:(lia) ltac:(lia)) as [sig [F _]]. eapply Hn, F.
  - eapply p_valid_diagnosis; [|exact Ht|exact Hd]. intros i j Hi Hj. apply HV; assumption.
Qed.

Lemma p_reported_diagnosis w f m t t' s r : p_reported w mn f m t t' s r ->
  (rp_code r = LICENSE_FILE_NOT_FOUND /\ exists i, t <= i < t' /\ listed w s i = false) \/
  (exists content, present w t t' s /\ given w t t' s content /\ p_diagnosis w mn f m t t' (section_entries content f) (rp_code r)).
Proof.
  intros H. inversion H as [i Hi Hn|content P Hg He|content P Hg He Hn|content sig code x steps P Hg Hf Hd _ _]; subst; cbn [rp_code].
  - left. eauto.
  - right. exists content. split; [exact P|]. split; [exact Hg|]. apply p_dg_absent, He.
  - right. exists content. split; [exact P|]. split; [exact Hg|]. apply p_dg_malformed; assumption.
  - right. exists content. auto.
Qed.

Lemma p_reported_codes w f m t t' s r : p_reported w mn f m t t' s r -> rp_code r = LICENSE_OK \/ In (rp_code r) failure_list.
Proof.
  intros H. apply p_reported_diagnosis in H as [[-> _]|[content [_ [_ D]]]]; [right; cbn; auto|]. inversion D; cbn; auto 9.
Qed.

Lemma p_checking_failure w f es sig code steps e : p_checking w mn f es sig code steps -> In e steps -> failure e -> e = code.
Proof.
  intros H Hin Hf. assert (NS : ~ failure SIGNATURE_VERIFIED) by (intros X; eapply X; constructor).
  inversion H; subst; cbn [In] in Hin.
  - destruct Hin as [<-|[]]. reflexivity.
  - destruct Hin as [<-|[]]. contradiction.
  - destruct Hin as [<-|[<-|[]]]; [contradiction|reflexivity].
Qed.

Lemma p_reported_failure w f m t t' s r e : p_reported w mn f m t t' s r -> failure e ->
  (exists k ann, In (e, k) (looked ann s r)) \/ In e (rp_reading r) \/ In e (rp_checking r) -> e = rp_code r.
Proof.
  intros H Hf Hin. assert (NS : forall e n, stage e n -> ~ failure e) by (intros e0 n X Y; eapply Y, X). destruct Hin as [[k [ann Hin]]|[Hin|Hin]].
  - unfold looked in Hin. destruct s; try destruct Hin.
    all: apply about_in, in_app_or in Hin as [Hin|[Hin|[]]]; [destruct ann; [destruct Hin as [<-|[]]; exfalso; eapply NS; [constructor|exact Hf]|destruct Hin]|].
    all: unfold missing in Hin; destruct (event_eqb (rp_code r) LICENSE_FILE_NOT_FOUND) eqn:E; [|subst e; exfalso; eapply NS; [constructor|exact Hf]].
    all: subst e; unfold event_eqb in E; destruct (event_eq_dec (rp_code r) LICENSE_FILE_NOT_FOUND); [symmetry; assumption|discriminate].
  - inversion H; subst; cbn [rp_reading rp_code] in *.
    + destruct Hin.
    + destruct Hin as [<-|[]]. reflexivity.
    + destruct Hin as [<-|[<-|[]]]; [exfalso; eapply NS; [constructor|exact Hf]|reflexivity].
    + destruct Hin as [<-|[]]. exfalso. eapply NS; [constructor|exact Hf].
  - inversion H; subst; cbn [rp_checking rp_code] in *; try destruct Hin. eapply p_checking_failure; eassumption.
Qed.

Lemma p_trace_failure w f m t t' hint rss e k : Forall2 (fun g rs => Forall2 (p_reported w mn f m t t') (g_sources g) rs) (groups w hint) rss ->
  In (e, k) (call_trace (groups w hint) rss) -> failure e -> In e (map rp_code (concat rss)) \/ place_failure w hint e.
Proof.
  intros HF Hin Hf. unfold call_trace in Hin. destruct (groups w hint) as [|g0 gs0] eqn:Eg.
  - destruct Hin as [[= <- _]|[]]. right. right. right. unfold groups in Eg. destruct (w_near_module w); [discriminate|]. destruct (w_with_env w); [discriminate|]. destruct hint; [discriminate|]. auto.
  - rewrite <- Eg in *. clear g0 gs0 Eg. pose proof (Forall2_flat _ _ _ HF) as HF'. apply in_app_or in Hin as [Hin|Hin].
    + apply in_zip in Hin as [g [rs [Hc Hin]]]. pose proof (Forall2_combine _ _ _ _ _ HF Hc) as Hg. pose proof (in_combine_l _ _ _ _ Hc) as Hgl. pose proof (in_combine_r _ _ _ _ Hc) as Hgr.
      unfold group_trace in Hin. apply in_app_or in Hin as [Hin|Hin]; [right; eapply news_failure; eassumption|]. left.
      assert (K : forall s r, In (s, r) (combine (g_sources g) rs) -> e = rp_code r -> In e (map rp_code (concat rss))).
      { intros s r Hsr ->. apply in_map. apply in_concat. exists rs. split; [exact Hgr|]. eapply in_combine_r, Hsr. }
      apply in_app_or in Hin as [Hin|Hin]; apply in_zip in Hin as [s [r [Hsr Hin]]]; apply (K s r Hsr); pose proof (Forall2_combine _ _ _ _ _ Hg Hsr) as Hr.
      * eapply p_reported_failure; [exact Hr|exact Hf|left; eauto].
      * eapply p_reported_failure; [exact Hr|exact Hf|right; left; eapply about_in, Hin].
    + left. apply in_zip in Hin as [s [r [Hsr Hin]]]. pose proof (Forall2_combine _ _ _ _ _ HF' Hsr) as Hr. assert (E : e = rp_code r) by (eapply p_reported_failure; [exact Hr|exact Hf|right; right; eapply about_in, Hin]).
      rewrite E. apply in_map. eapply in_combine_r, Hsr.
Qed.

Lemma p_outcome_code w c hint out t code out' t' rss log : p_outcome w mn c hint out t code out' t' rss log ->
  code = LICENSE_OK \/ (In code failure_list /\ (In code (map rp_code (concat rss)) \/ place_failure w hint code)).
Proof.
  intros H. destruct (event_eq_dec code LICENSE_OK) as [E|E]; [left; exact E|right]. destruct (p_oc_fail _ _ _ _ _ _ _ _ _ _ _ H E) as [s [k [_ Hs]]]. apply selects_in in Hs as [Hf Hin].
  pose proof (p_trace_failure _ _ _ _ _ _ _ _ _ (p_oc_reports _ _ _ _ _ _ _ _ _ _ _ H) Hin Hf) as K. split; [|exact K]. destruct K as [K|[[_ [-> _]]|[[_ [-> _]]|[_ [_ [_ ->]]]]]]; try (cbn; auto 9; fail).
  apply in_map_iff in K as [r [<- Hr]]. destruct (Forall2_in_r _ _ _ _ (p_outcome_reports _ _ _ _ _ _ _ _ _ _ H) Hr) as [s' [_ X]]. destruct (p_reported_codes _ _ _ _ _ _ _ X) as [Y|Y]; [contradiction|exact Y].
Qed.

End Consequences.
