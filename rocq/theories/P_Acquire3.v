(** The verification phase, and acquire_license as a whole. *)
From Verif Require Import Base CTypes StringUtils Dates Doubles P_Double Base64 HwId Registry Ini Network Disks ExecEnv Strategies Locate Licensecc.
From Verif Require Import P_Base Spec_Strings Spec_Base64 Spec_Dates P_Strings P_Text P_Decode P_DateText P_HwText Spec_Ini P_Ini Spec_HwId Spec_Hw P_Hw P_Hw2 Spec_Registry P_Registry Spec_Acquire P_Acquire1 P_Acquire2.
From Coq Require Import Sorted Lia.

Notation mag := magic_of.
Definition lic_at (mg : option N) (l : full_license) : full_license :=
  match mg with
  | Some m => {| fl_source := fl_source l; fl_project := fl_project l; fl_signature := fl_signature l; fl_magic := m; fl_limits := fl_limits l |}
  | None => l
  end.
Lemma lic_at_eq mg product id es sig : lic_at mg (lic_of product id es sig) =
  {| fl_source := id; fl_project := product; fl_signature := sig; fl_magic := mag mg; fl_limits := lim es |}.
Proof. destruct mg; reflexivity. Qed.
Definition told_of (i : linfo) : told :=
  {| td_expiry := li_expiry_date i; td_days := li_days_left i; td_has_expiry := li_has_expiry i; td_linked := li_linked_to_pc i; td_proprietary := li_proprietary i |}.

(** ** the signature *)
Lemma os_verify_good w product id es sig m b :
  os_verify_signature w (print_for_sign {| fl_source := id; fl_project := product; fl_signature := sig; fl_magic := m; fl_limits := lim es |}) sig = Ok b ->
  b = true <-> signature_good w product es sig.
Proof.
  intros H. rewrite signed_text_print in H. cbn [fl_project fl_limits] in H. unfold os_verify_signature in H. unfold signature_good. destruct (w_key_ok w); cbn [negb] in H.
  - destruct (w_bio w sig) as [n data] eqn:Eb. destruct (Z.ltb_spec n 0); [discriminate|]. destruct (Z.leb_spec 512 n); [discriminate|]. cbn [orb] in H. injection H as H. split.
    + intros ->. exists (lim es), n, data. repeat split; auto; apply lim_of.
    + intros [m' [n' [data' [Hm [_ [[= <- <-] [_ Hv]]]]]]]. rewrite (limits_unique _ _ _ Hm (lim_of es)) in Hv. congruence.
  - injection H as <-. split; [discriminate|]. intros [? [? [? [_ [[=] _]]]]].
Qed.

(** ** rounding *)
Lemma round_div_rounded n d : (0 < d)%Z -> rounded n d (round_div n d).
Proof.
  intros Hd. unfold round_div, rounded. set (q := ((2 * Z.abs n + d) / (2 * d))%Z).
  assert (Hq : (2 * Z.abs n + d = 2 * d * q + (2 * Z.abs n + d) mod (2 * d))%Z) by (apply Z.div_mod; lia).
  assert (Hr : (0 <= (2 * Z.abs n + d) mod (2 * d) < 2 * d)%Z) by (apply Z.mod_pos_bound; lia).
  set (rr := ((2 * Z.abs n + d) mod (2 * d))%Z) in *. clearbody rr q.
  exists (n - Z.sgn n * q * d)%Z. assert (Hq0 : (0 <= q)%Z) by nia.
  destruct (Z.lt_trichotomy n 0) as [L|[->|L]].
  - rewrite Z.sgn_neg by lia. rewrite (Z.abs_neq n) in * by lia. split; [lia|]. split; [lia|]. intros E. rewrite Z.abs_mul. rewrite (Z.abs_eq q) by lia. change (Z.abs (-1)) with 1%Z. lia.
  - cbn [Z.sgn Z.abs] in *. rewrite !Z.mul_0_l, Z.sub_0_r. cbn [Z.abs]. split; [lia|]. split; [lia|]. lia.
  - rewrite Z.sgn_pos by lia. rewrite (Z.abs_eq n) in * by lia. split; [lia|]. split; [lia|]. intros E. rewrite Z.abs_mul, (Z.abs_eq q) by lia. change (Z.abs 1) with 1%Z. lia.
Qed.
Lemma rounded_unique n d q q' : (0 < d)%Z -> rounded n d q -> rounded n d q' -> q = q'.
Proof.
  intros Hd [r [H1 [H2 H3]]] [r' [H1' [H2' H3']]].
  destruct (Z.lt_trichotomy q q') as [L|[E|L]]; [|exact E|]; exfalso.
  - assert (Hq : q' = (q + 1)%Z) by nia. subst q'. assert (r = d + r')%Z by lia. assert (2 * r = d)%Z by lia. assert (2 * r' = - d)%Z by lia.
    specialize (H3 ltac:(lia)). specialize (H3' ltac:(lia)). nia.
  - assert (Hq : q = (q' + 1)%Z) by nia. subst q. assert (r' = d + r)%Z by lia. assert (2 * r' = d)%Z by lia. assert (2 * r = - d)%Z by lia.
    specialize (H3 ltac:(lia)). specialize (H3' ltac:(lia)). nia.
Qed.

(** ** the information *)
Lemma to_license_info_ok w product id es sig m t i t' :
  to_license_info w {| fl_source := id; fl_project := product; fl_signature := sig; fl_magic := m; fl_limits := lim es |} t = Ok (i, t') ->
  t <= t' /\ describes w t t' es (told_of i).
Proof.
  unfold to_license_info. cbn [fl_limits]. rewrite !lim_get. change PARAM_EXPIRY_DATE with (bs "valid-to"). change PARAM_CLIENT_SIGNATURE with (bs "client-signature"). change PARAM_EXTRA_DATA with (bs "extra-data").
  unfold describes. destruct (exact_value es (bs "valid-to")) as [d|] eqn:Ed.
  - intros H. apply mbind_ok in H as [s [t1 [H1 H]]]. apply mlift_ok in H1 as [H1 ->]. apply mbind_ok in H as [now [t2 [H2 H]]]. unfold m_now in H2. injection H2 as <- <-.
    apply mbind_ok in H as [days [t3 [H3 H]]]. apply mlift_ok in H3 as [H3 ->]. change (60 * 60 * 24)%Z with 86400%Z in H3. rewrite days_exact in H3. destruct (_ || _) in H3; [discriminate|]. injection H3 as <-. apply mret_ok in H as [-> ->]. split; [lia|]. cbn [told_of td_expiry td_days td_has_expiry td_linked td_proprietary li_expiry_date li_days_left li_has_expiry li_linked_to_pc li_proprietary].
    split; [destruct (exact_value es (bs "client-signature")); split; try congruence; discriminate|]. split; [reflexivity|]. split; [reflexivity|]. split; [reflexivity|].
    exists s, t. eexists. split; [lia|]. split; [apply dated_iff; exists d; auto|]. split; [apply round_div_rounded; lia|reflexivity].
  - intros H. apply mret_ok in H as [-> ->]. split; [lia|]. cbn [told_of td_expiry td_days td_has_expiry td_linked td_proprietary li_expiry_date li_days_left li_has_expiry li_linked_to_pc li_proprietary].
    split; [destruct (exact_value es (bs "client-signature")); split; try congruence; discriminate|]. auto.
Qed.

(** ** the limits *)
Lemma verify_limits_ok w product id es sig mg r t b r' t' : license_form es sig -> signature_good w product es sig -> (forall i, order_ok (w_machine w i)) ->
  verify_limits w {| fl_source := id; fl_project := product; fl_signature := sig; fl_magic := mg; fl_limits := lim es |} r t = Ok ((b, r'), t') ->
  t <= t' /\ exists code L, diagnosis w product mg t t' es code /\ (b = true <-> code = LICENSE_OK) /\
    checking w product es sig code (SIGNATURE_VERIFIED :: L) /\ grown r (map (fun e => (e, ref_name (Some id))) L) r'.
Proof.
  intros HF HG HO. unfold verify_limits. cbn [fl_limits fl_source fl_magic]. rewrite !lim_get.
  change PARAM_EXPIRY_DATE with (bs "valid-to"). change PARAM_BEGIN_DATE with (bs "valid-from"). change PARAM_CLIENT_SIGNATURE with (bs "client-signature").
  destruct (N.eqb_spec mg (w_magic w)) as [Em|Em].
  2:{ intros H. apply mbind_ok in H as [r1 [t1 [H1 H]]]. apply mlift_ok in H1 as [H1 ->]. apply mbind_ok in H as [now [t2 [H2 H]]]. unfold m_now in H2. injection H2 as <- <-.
      cbn in H. injection H as <- <- <-. split; [lia|]. exists LICENSE_CORRUPTED, [LICENSE_CORRUPTED]. split; [eapply dg_magic; eassumption|]. split; [split; discriminate|].
      split; [apply ck_verdict; [exact HG|discriminate]|]. eapply grown_add, H1. }
  intros H. apply mbind_ok in H as [r1 [t1 [H1 H]]]. apply mret_ok in H1 as [-> ->]. apply mbind_ok in H as [now [t2 [H2 H]]]. unfold m_now in H2. injection H2 as <- <-.
  set (now := w_clock w t) in *.
  apply mbind_ok in H as [[v1 r1] [t1 [H1 H]]].
  assert (A1 : t1 = S t /\ ((v1 = false /\ (exists s, dated w es "valid-to" s /\ (s < now)%Z) /\ add_event PRODUCT_EXPIRED (Some id) (match exact_value es (bs "valid-to") with Some d => Some (bs "Expired " ++ d) | None => None end) r = Ok r1) \/
            (v1 = true /\ (exact_value es (bs "valid-to") = None \/ exists s, dated w es "valid-to" s /\ (now <= s)%Z) /\ r1 = r))).
  { destruct (exact_value es (bs "valid-to")) as [d|] eqn:Ed.
    - apply mbind_ok in H1 as [s [t3 [H3 H1]]]. apply mlift_ok in H3 as [H3 ->]. destruct (Z.ltb_spec s now).
      + apply mbind_ok in H1 as [r2 [t3 [H4 H1]]]. apply mlift_ok in H4 as [H4 ->]. apply mret_ok in H1 as [[= -> ->] ->]. split; [reflexivity|]. left. split; [reflexivity|].
        split; [exists s; split; [apply dated_iff; exists d; auto|lia]|]. exact H4.
      + apply mret_ok in H1 as [[= -> ->] ->]. split; [reflexivity|]. right. split; [reflexivity|]. split; [right; exists s; split; [apply dated_iff; exists d; auto|lia]|reflexivity].
    - apply mret_ok in H1 as [[= -> ->] ->]. auto 8. }
  destruct A1 as [-> [[-> [Hx Ha]]|[-> [Hx ->]]]].
  { cbn in H. injection H as <- <- <-. split; [lia|]. exists PRODUCT_EXPIRED, [PRODUCT_EXPIRED]. split; [eapply (dg_expired w product mg t (S t) es sig t); auto; left; exact Hx|]. split; [split; discriminate|].
    split; [apply ck_verdict; [exact HG|discriminate]|]. eapply grown_add, Ha. }
  apply mbind_ok in H as [[v2 r2] [t1 [H2 H]]].
  assert (A2 : t1 = S t /\ ((v2 = false /\ (exists s, dated w es "valid-from" s /\ (now < s)%Z) /\ add_event PRODUCT_EXPIRED (Some id) (match exact_value es (bs "valid-from") with Some d => Some (bs "Valid from " ++ d) | None => None end) r = Ok r2) \/
            (v2 = true /\ (exact_value es (bs "valid-from") = None \/ exists s, dated w es "valid-from" s /\ (s <= now)%Z) /\ r2 = r))).
  { destruct (exact_value es (bs "valid-from")) as [d|] eqn:Ed.
    - apply mbind_ok in H2 as [s [t3 [H3 H2]]]. apply mlift_ok in H3 as [H3 ->]. destruct (Z.ltb_spec now s).
      + apply mbind_ok in H2 as [r3 [t3 [H4 H2]]]. apply mlift_ok in H4 as [H4 ->]. apply mret_ok in H2 as [[= -> ->] ->]. split; [reflexivity|]. left. split; [reflexivity|].
        split; [exists s; split; [apply dated_iff; exists d; auto|lia]|]. exact H4.
      + apply mret_ok in H2 as [[= -> ->] ->]. split; [reflexivity|]. right. split; [reflexivity|]. split; [right; exists s; split; [apply dated_iff; exists d; auto|lia]|reflexivity].
    - apply mret_ok in H2 as [[= -> ->] ->]. auto 8. }
  destruct A2 as [-> [[-> [Hy Ha]]|[-> [Hy ->]]]].
  { cbn in H. injection H as <- <- <-. split; [lia|]. exists PRODUCT_EXPIRED, [PRODUCT_EXPIRED]. split; [eapply (dg_expired w product mg t (S t) es sig t); auto; right; exact Hy|]. split; [split; discriminate|].
    split; [apply ck_verdict; [exact HG|discriminate]|]. eapply grown_add, Ha. }
  destruct (exact_value es (bs "client-signature")) as [c|] eqn:Ec.
  - apply mbind_ok in H as [m [t3 [H3 H]]]. unfold m_machine in H3. injection H3 as <- <-. apply mbind_ok in H as [e [t4 [H4 H]]]. apply mlift_ok in H4 as [H4 ->].
    apply mbind_ok in H as [r3 [t5 [H5 H]]]. apply mlift_ok in H5 as [H5 ->]. apply mret_ok in H as [[= -> ->] ->]. split; [lia|]. exists e, [e].
    destruct (validate_spec _ _ _ (HO (S t)) H4) as [[-> | ->] Hv].
    + split; [|split; [split; reflexivity|split; [apply ck_verdict; [exact HG|intros _; exists c; exact Ec]|eapply grown_add, H5]]]. apply (dg_ok w product mg t (S (S t)) es t (S t)); [lia|lia|].
      exists sig. split; [exact HF|]. split; [exact HG|]. split; [exact Em|]. split; [split; [exact Hx|exact Hy]|]. intros code Hc. unfold locked in Hc. rewrite Ec in Hc. injection Hc as <-. apply Hv. reflexivity.
    + split; [|split; [split; discriminate|split; [apply ck_verdict; [exact HG|discriminate]|eapply grown_add, H5]]].
      apply (dg_mismatch w product mg t (S (S t)) es sig t (S t) c); [exact HF|exact HG|exact Em|lia|split; [exact Hx|exact Hy]|lia|exact Ec|]. intros X. apply Hv in X. discriminate.
  - apply mret_ok in H as [[= -> ->] ->]. split; [lia|]. exists LICENSE_OK, []. split; [|split; [split; reflexivity|split; [apply ck_free; [exact HG|exact Ec]|apply grown_refl]]]. apply (dg_ok w product mg t (S t) es t t); [lia|lia|].
    exists sig. split; [exact HF|]. split; [exact HG|]. split; [exact Em|]. split; [split; [exact Hx|exact Hy]|]. intros code Hc. unfold locked in Hc. congruence.
Qed.

(** ** all of them *)
Record lic_data := { ld_id : bytes; ld_entries : list (bytes * bytes); ld_sig : bytes }.
Definition lic_full (product : bytes) (d : lic_data) : full_license := lic_of product (ld_id d) (ld_entries d) (ld_sig d).
Record verdict_rec := { v_code : event_type; v_info : linfo; v_steps : list event_type }.
Definition verdict_on (w : world) (product : bytes) (mg : N) (t t' : nat) (d : lic_data) (x : verdict_rec) : Prop :=
  diagnosis w product mg t t' (ld_entries d) (v_code x) /\ checking w product (ld_entries d) (ld_sig d) (v_code x) (v_steps x) /\
  describes w t t' (ld_entries d) (told_of (v_info x)).
Definition is_ok (x : verdict_rec) : bool := event_eqb (v_code x) LICENSE_OK.

Lemma diagnosis_wide w product mg t t' u u' es code : u <= t -> t' <= u' -> diagnosis w product mg t t' es code -> diagnosis w product mg u u' es code.
Proof.
  intros H1 H2 D. inversion D; subst; [eapply dg_absent|eapply dg_malformed|eapply dg_forged|eapply dg_magic|eapply dg_expired with (i := i)|eapply dg_mismatch with (i := i) (j := j)|eapply dg_ok with (i := i) (j := j)]; eauto; lia.
Qed.
Lemma describes_wide w t t' u u' es x : u <= t -> t' <= u' -> describes w t t' es x -> describes w u u' es x.
Proof.
  intros H1 H2 [A [B C]]. split; [exact A|]. split; [exact B|]. destruct (exact_value es (bs "valid-to")); [|exact C].
  destruct C as [C1 [C2 [s [i [q [Hi C]]]]]]. split; [exact C1|]. split; [exact C2|]. exists s, i, q. split; [lia|exact C].
Qed.
Lemma verdict_wide w product mg t t' u u' d x : u <= t -> t' <= u' -> verdict_on w product mg t t' d x -> verdict_on w product mg u u' d x.
Proof. intros H1 H2 [A [B C]]. split; [eapply diagnosis_wide; [| |exact A]; lia|]. split; [exact B|]. eapply describes_wide; [| |exact C]; lia. Qed.
Definition check_news (d : lic_data) (x : verdict_rec) : trace := map (fun e => (e, ref_name (Some (ld_id d)))) (v_steps x).

Lemma verify_all_ok w product mg ds r ok bad t r' ok' bad' t' : (forall i, order_ok (w_machine w i)) ->
  Forall (fun d => license_form (ld_entries d) (ld_sig d)) ds ->
  verify_all w mg (map (lic_full product) ds) r ok bad t = Ok ((r', ok', bad'), t') ->
  t <= t' /\ exists vs, Forall2 (verdict_on w product (mag mg) t t') ds vs /\
    ok' = ok ++ map v_info (filter is_ok vs) /\ bad' = bad ++ map v_info (filter (fun x => negb (is_ok x)) vs) /\
    grown r (zip_with check_news ds vs) r'.
Proof.
  intros HO. revert r ok bad t. induction ds as [|d ds IH]; intros r ok bad t HF; cbn [map verify_all].
  - intros H. apply mret_ok in H as [[= -> -> ->] ->]. split; [lia|]. exists []. split; [constructor|]. cbn [filter map]. rewrite !app_nil_r. split; [reflexivity|]. split; [reflexivity|apply grown_refl].
  - inversion HF as [|? ? Hf HF']; subst. intros H. fold (lic_at mg (lic_full product d)) in H. unfold lic_full in H at 1 2 3. rewrite lic_at_eq in H.
    apply mbind_ok in H as [[b r1] [t1 [H1 H]]]. apply mlift_ok in H1 as [H1 ->]. unfold verify_signature in H1. cbn [fl_signature fl_source] in H1.
    apply rbind_ok in H1 as [b' [Hb H1]]. apply rbind_ok in H1 as [r2 [Ha H1]]. injection H1 as H1 H1r. subst b r2. pose proof (os_verify_good _ _ _ _ _ _ _ Hb) as Hg. apply grown_add in Ha.
    apply mbind_ok in H as [i [t1 [H2 H]]]. apply to_license_info_ok in H2 as [Ht1 Hd].
    assert (STEP : forall code L r2 t2, t1 <= t2 -> diagnosis w product (mag mg) t t2 (ld_entries d) code ->
      checking w product (ld_entries d) (ld_sig d) code L ->
      grown r (map (fun e => (e, ref_name (Some (ld_id d)))) L) r2 ->
      verify_all w mg (map (lic_full product) ds) r2 (if event_eqb code LICENSE_OK then ok ++ [i] else ok) (if event_eqb code LICENSE_OK then bad else bad ++ [i]) t2 = Ok ((r', ok', bad'), t') ->
      t <= t' /\ exists vs, Forall2 (verdict_on w product (mag mg) t t') (d :: ds) vs /\
        ok' = ok ++ map v_info (filter is_ok vs) /\ bad' = bad ++ map v_info (filter (fun x => negb (is_ok x)) vs) /\
        grown r (zip_with check_news (d :: ds) vs) r').
    { intros code L r2 t2 Ht2 Hdg Hck Hh Hrest. apply IH in Hrest as [Ht3 [vs [Hvs [-> [-> Hh']]]]]; [|exact HF']. split; [lia|]. exists ({| v_code := code; v_info := i; v_steps := L |} :: vs). split; [|split; [|split]].
      - constructor; [split; cbn [v_code v_info v_steps]; [eapply diagnosis_wide; [| |exact Hdg]; lia|split; [exact Hck|eapply describes_wide; [| |exact Hd]; lia]]|].
        eapply Forall2_impl; [|exact Hvs]. intros a x X. eapply verdict_wide; [| |exact X]; lia.
      - cbn [filter]. unfold is_ok at 2. cbn [v_code]. destruct (event_eqb code LICENSE_OK); [cbn [map v_info]; rewrite <- app_assoc|]; reflexivity.
      - cbn [filter]. unfold is_ok at 2. cbn [v_code]. destruct (event_eqb code LICENSE_OK); [|cbn [map v_info negb]; rewrite <- app_assoc]; reflexivity.
      - cbn [zip_with]. eapply grown_trans; [exact Hh|exact Hh']. }
    destruct b'.
    + apply mbind_ok in H as [[lo r2] [t2 [H3 H]]]. apply verify_limits_ok in H3 as [Ht2 [code [L [Hdg [Hlo [Hck Hh]]]]]]; [|exact Hf|apply Hg; reflexivity|exact HO].
      apply (STEP code (SIGNATURE_VERIFIED :: L) r2 t2 Ht2); [eapply diagnosis_wide; [| |exact Hdg]; lia|exact Hck| |].
      * cbn [map]. eapply (grown_trans _ [_]); [exact Ha|exact Hh].
      * destruct lo; [rewrite (proj1 Hlo eq_refl); exact H|]. replace (event_eqb code LICENSE_OK) with false; [exact H|]. destruct code; try reflexivity. discriminate (proj2 Hlo eq_refl).
    + assert (Hng : ~ signature_good w product (ld_entries d) (ld_sig d)) by (intros X; apply Hg in X; discriminate).
      apply (STEP LICENSE_CORRUPTED [LICENSE_CORRUPTED] r1 t1 (le_n _)); [|apply ck_forged; exact Hng|exact Ha|exact H].
      eapply dg_forged; [exact Hf|exact Hng].
Qed.
