(** Failure codes and the exported events (C15); the unwritten field (C12). *)
From Verif Require Import Base CTypes StringUtils Dates Base64 HwId Registry Ini Network Disks ExecEnv Strategies Locate Licensecc.
From Verif Require Import P_Base Spec_Strings Spec_Base64 Spec_Dates P_Strings P_Text P_Decode P_DateText P_HwText Spec_Ini P_Ini Spec_HwId Spec_Hw P_Hw P_Hw2 Spec_Registry P_Registry Spec_Acquire P_Acquire1 P_Acquire2 P_Acquire3 P_Acquire4 P_Acquire5.
From Coq Require Import Sorted Lia.
From Verif Require Import Ex_Acquire Prop_Acquire.

(** ** C12, second half: false *)
(** Without extra-data the field of an accepted license is left as it was found
    (its content is that of the stack: [None]). *)
Theorem C12_default_refuted : ~ (forall w c hint out t code o' t', (forall i, order_ok (w_machine w i)) ->
  acquire_license w c hint (Some out) t = Ok ((code, Some o'), t') -> o_proprietary o' <> None).
Proof.
  intros H. refine (H (demo true false NOW files []) (Some (asking "demo")) None blank_out 0 _ _ _ (demo_order _ _ _ _ _) _ _); [vm_compute; reflexivity|]. reflexivity.
Qed.
Print Assumptions C12_default_refuted.
(** it happens exactly when the license reported on has no extra-data *)
Theorem C12_unwritten w c hint out t code o' t' : (forall i, order_ok (w_machine w i)) ->
  acquire_license w c hint (Some out) t = Ok ((code, Some o'), t') -> o_proprietary o' = None ->
  let feature := feature_of w (option_map ci_feature c) in
  exists s content sig, In s (sources w hint) /\ given w t t' s content /\ license_form (section_entries content feature) sig /\
    exact_value (section_entries content feature) (bs "extra-data") = None.
Proof.
  intros HO H HN f. apply info_source in H as [[_ [_ [_ B]]]|[s [content [sig [d [x [A [P [G [F [D [K [R [_ [_ [_ [_ E5]]]]]]]]]]]]]]]]]; [congruence| |exact HO].
  exists s, content, sig. split; [exact A|]. split; [exact G|]. split; [exact F|]. rewrite E5 in HN. destruct R as [_ [R _]]. rewrite R in HN. fold f in HN. destruct (exact_value _ (bs "extra-data")); [discriminate|reflexivity].
Qed.
Print Assumptions C12_unwritten.

(** ** C15 *)
(** The code is always among what was recorded ... *)
Theorem C15_code_recorded w c hint out t code o' t' : (forall i, order_ok (w_machine w i)) ->
  acquire_license w c hint (Some out) t = Ok ((code, Some o'), t') -> code <> LICENSE_OK ->
  let feature := feature_of w (option_map ci_feature c) in
  exists rss log rest,
    Forall2 (fun g rs => Forall2 (reported w feature (magic_of (option_map ci_magic c)) t t') (g_sources g) rs) (groups w hint) rss /\
    map (fun ev => (ev_type ev, ev_ref ev)) log = call_trace (groups w hint) rss /\
    o_status o' = map Some (skipn (length log - 5) log) ++ rest /\
    In code (map ev_type log).
Proof.
  intros HO H Hn f. apply acquire_outcome in H as [Ht [rss [log H]]]; [|exact HO]. destruct (oc_info _ _ _ _ _ _ _ _ _ _ H out o' eq_refl eq_refl) as [_ [rest X]].
  exists rss, log, rest. split; [exact (oc_reports _ _ _ _ _ _ _ _ _ _ H)|]. pose proof (oc_log _ _ _ _ _ _ _ _ _ _ H) as HL. split; [exact HL|]. split; [exact X|].
  destruct (oc_fail _ _ _ _ _ _ _ _ _ _ H Hn) as [s [k [_ Hs]]]. apply selects_in in Hs as [_ Hin]. rewrite <- HL in Hin. apply in_map_iff in Hin as [ev [[= <- _] Hin]]. apply in_map, Hin.
Qed.
Print Assumptions C15_code_recorded.
(** ... but not always among what is exported: an expired license first, then five
    forged ones. *)
Definition six : bytes := bs "/b;/c;/c;/c;/c;/c;/c".
Theorem C15_exported_refuted : ~ (forall w c hint out t code o' t', (forall i, order_ok (w_machine w i)) ->
  acquire_license w c hint (Some out) t = Ok ((code, Some o'), t') -> code <> LICENSE_OK ->
  exists ev, In (Some ev) (o_status o') /\ ev_type ev = code).
Proof.
  intros H. destruct (acquire_license (demo false false NOW files []) (Some (asking "demo")) (Some (hint_of 0 six)) (Some blank_out) 0) as [[[code [o'|]] t']|e|u|] eqn:E;
    [|vm_compute in E; discriminate..].
  pose proof (H _ _ _ _ _ _ _ _ (demo_order _ _ _ _ _) E) as K. clear H.
  assert (S : status_of (acquire_license (demo false false NOW files []) (Some (asking "demo")) (Some (hint_of 0 six)) (Some blank_out) 0) = Some (PRODUCT_EXPIRED, repeat (Some (LICENSE_CORRUPTED, bs "/c")) 5)) by (vm_compute; reflexivity).
  rewrite E in S. cbn [status_of] in S. injection S as Ec S. subst code. destruct K as [ev [K1 K2]]; [discriminate|].
  apply (in_map (option_map (fun ev => (ev_type ev, ev_ref ev)))) in K1. rewrite S in K1. cbn [option_map] in K1. rewrite K2 in K1. cbn [In] in K1. destruct K1 as [K1|[K1|[K1|[K1|[K1|[]]]]]]; discriminate.
Qed.
Print Assumptions C15_exported_refuted.

(** One source only, and nothing wrong with the places: the code is exported. *)
Lemma in_last5 {A} (a b : list A) x : length b <= 4 -> In x (skipn (length (a ++ x :: b) - 5) (a ++ x :: b)).
Proof.
  intros H. rewrite app_length. cbn [length]. rewrite skipn_app. apply in_or_app. right.
  replace (length a + S (length b) - 5 - length a) with 0 by lia. left. reflexivity.
Qed.
Lemma split_one {A} (f : A -> list source) (gs : list A) s : flat_map f gs = [s] ->
  exists g1 g g2, gs = g1 ++ g :: g2 /\ flat_map f g1 = [] /\ f g = [s] /\ flat_map f g2 = [].
Proof.
  induction gs as [|g gs IH]; cbn [flat_map]; [discriminate|]. intros H. destruct (f g) as [|x l] eqn:E.
  - destruct (IH H) as [g1 [g' [g2 [-> [A1 [A2 A3]]]]]]. exists (g :: g1), g', g2. cbn [flat_map app]. rewrite E. auto.
  - cbn [app] in H. injection H as -> H. apply app_eq_nil in H as [-> H]. exists [], g, gs. auto.
Qed.
Lemma empty_groups w f m t t' gs rss : Forall2 (fun g rs => Forall2 (reported w f m t t') (g_sources g) rs) gs rss -> flat_map g_sources gs = [] ->
  zip_with group_trace gs rss = flat_map g_news gs /\ concat rss = [].
Proof.
  induction 1 as [|g rs gs rss H HF IH]; [auto|]. cbn [flat_map zip_with concat]. intros E. apply app_eq_nil in E as [E1 E2]. rewrite E1 in H. inversion H; subst.
  destruct (IH E2) as [-> ->]. unfold group_trace. rewrite E1. cbn [zip_with]. rewrite !app_nil_r. auto.
Qed.
Lemma news_short w hint g1 g2 : (forall e, ~ place_failure w hint e) -> groups w hint = g1 ++ g2 -> length (flat_map g_news g2) <= 3.
Proof.
  intros HP HG. assert (L : length (flat_map g_news (groups w hint)) <= 3).
  { unfold groups. rewrite !flat_map_app, !app_length. cbn [flat_map]. destruct (w_near_module w); cbn [flat_map g_news app length].
    all: destruct (w_with_env w) eqn:Ew; cbn [flat_map g_news app length].
    all: assert (X : match hint with None => True | Some l => True end) by (destruct hint; exact I); clear X.
    all: try (destruct (variable w LOCATION) eqn:EL; [|exfalso; eapply HP; left; split; [exact Ew|split; [reflexivity|left; exact EL]]]).
    all: try (destruct (variable w DATA) as [d|] eqn:ED; [|exfalso; eapply HP; left; split; [exact Ew|split; [reflexivity|right; exact ED]]]).
    all: try (destruct (looks d)).
    all: destruct hint as [l|]; cbn [flat_map g_news app length]; try destruct (cstr (firstn HINT_SIZE (loc_data l))); cbn [flat_map g_news app length]; lia. }
  rewrite HG, flat_map_app, app_length in L. lia.
Qed.
Lemma report_last w f m t t' s r ann k : reported w f m t t' s r -> rp_code r <> LICENSE_OK ->
  k = firstn 1024 (cstr (name_of s)) ->
  (exists a, about s (rp_checking r) = a ++ [(rp_code r, k)]) \/
  (rp_checking r = [] /\ exists a, looked ann s r ++ about s (rp_reading r) = a ++ [(rp_code r, k)]).
Proof.
  intros H Hn ->. inversion H; subst; cbn [rp_code rp_checking rp_reading] in *.
  - right. split; [reflexivity|]. destruct s; cbn [listed] in *; try discriminate.
    all: unfold looked, about; cbn [missing rp_code event_eqb map app]; rewrite map_app, app_nil_r; eexists; reflexivity.
  - right. split; [reflexivity|]. eexists. reflexivity.
  - right. split; [reflexivity|]. exists (looked ann s {| rp_code := LICENSE_MALFORMED; rp_told := None; rp_reading := [PRODUCT_FOUND; LICENSE_MALFORMED]; rp_checking := [] |} ++ about s [PRODUCT_FOUND]).
    rewrite <- app_assoc. reflexivity.
  - left. match goal with X : checking _ _ _ _ _ _ |- _ => inversion X; subst end; try congruence.
    + exists []. reflexivity.
    + exists (about s [SIGNATURE_VERIFIED]). reflexivity.
Qed.
Theorem C15_single_source w c hint out t code o' t' s : (forall i, order_ok (w_machine w i)) ->
  acquire_license w c hint (Some out) t = Ok ((code, Some o'), t') -> code <> LICENSE_OK ->
  sources w hint = [s] -> (forall e, ~ place_failure w hint e) ->
  exists ev, In (Some ev) (o_status o') /\ ev_type ev = code /\ ev_ref ev = firstn 1024 (cstr (name_of s)).
Proof.
  intros HO H Hn HS HP. apply acquire_outcome in H as [Ht [rss [log H]]]; [|exact HO]. destruct (oc_info _ _ _ _ _ _ _ _ _ _ H out o' eq_refl eq_refl) as [_ [rest X]].
  pose proof (oc_log _ _ _ _ _ _ _ _ _ _ H) as HL. pose proof (oc_reports _ _ _ _ _ _ _ _ _ _ H) as HR. pose proof (outcome_code _ _ _ _ _ _ _ _ _ _ H) as HC.
  unfold sources in HS. destruct (split_one _ _ _ HS) as [g1 [g [g2 [EG [E1 [E2 E3]]]]]]. pose proof (news_short w hint (g1 ++ [g]) g2 HP) as HNW. rewrite <- app_assoc in HNW. specialize (HNW EG).
  rewrite EG in HR, HL. apply Forall2_app_inv_l in HR as [r1 [r2 [F1 [F2 ->]]]]. inversion F2 as [|? rs ? r3 FG F3]; subst. rewrite E2 in FG. inversion FG as [|? r ? rs' Fr Frs]; subst. inversion Frs; subst.
  destruct (empty_groups _ _ _ _ _ _ _ F1 E1) as [Z1 C1]. destruct (empty_groups _ _ _ _ _ _ _ F3 E3) as [Z3 C3].
  assert (CC : code = rp_code r).
  { destruct HC as [K|[_ [K|K]]]; [contradiction| |destruct (HP _ K)]. rewrite concat_app in K. cbn [concat] in K. rewrite C1, C3 in K. destruct K as [K|[]]. symmetry. exact K. }
  subst code.
  assert (HT : call_trace (g1 ++ g :: g2) (r1 ++ [r] :: r3) = flat_map g_news g1 ++ g_news g ++ (looked (g_announce g) s r ++ about s (rp_reading r)) ++ flat_map g_news g2 ++ about s (rp_checking r)).
  { unfold call_trace. rewrite zip_app by (eapply Forall2_len; exact F1). cbn [zip_with]. rewrite Z1, Z3. rewrite flat_map_app. cbn [flat_map]. rewrite E1, E2, E3.
    rewrite concat_app. cbn [concat]. rewrite C1, C3. cbn [app zip_with]. unfold group_trace. rewrite E2. cbn [zip_with]. rewrite !app_nil_r, <- !app_assoc. destruct g1; reflexivity. }
  rewrite HT in HL.
  assert (K : exists a b, map (fun ev => (ev_type ev, ev_ref ev)) log = a ++ (rp_code r, firstn 1024 (cstr (name_of s))) :: b /\ length b <= 4).
  { destruct (report_last _ _ _ _ _ s r (g_announce g) _ Fr Hn eq_refl) as [[a K]|[K1 [a K]]].
    - rewrite HL, K. exists (flat_map g_news g1 ++ g_news g ++ (looked (g_announce g) s r ++ about s (rp_reading r)) ++ flat_map g_news g2 ++ a), []. split; [rewrite <- !app_assoc; reflexivity|cbn [length]; lia].
    - rewrite HL, K, K1. exists (flat_map g_news g1 ++ g_news g ++ a), (flat_map g_news g2). split; [cbn [about map]; rewrite app_nil_r, <- !app_assoc; reflexivity|exact (Nat.le_trans _ _ _ HNW (le_S _ _ (le_n 3)))]. }
  destruct K as [a [b [K KL]]]. apply map_eq_app in K as [la [lb [-> [_ K]]]]. apply map_eq_cons in K as [ev [lb' [-> [K1 K2]]]]. injection K1 as Ke Kr.
  exists ev. split; [|auto]. rewrite X. apply in_or_app. left. apply in_map. apply in_last5. subst b. rewrite map_length in KL. exact KL.
Qed.
Print Assumptions C15_single_source.
Example C15_case : let w := demo false false NOW files [] in let h := Some (hint_of 0 (bs "/b")) in
  code_of (acquire_license w (Some (asking "demo")) h (Some blank_out) 0) = Ok PRODUCT_EXPIRED /\ sources w h = [SFile (bs "/b")] /\ (forall e, ~ place_failure w h e).
Proof.
  cbv zeta. split; [vm_compute; reflexivity|]. split; [vm_compute; reflexivity|]. intros e [[A _]|[[A _]|[_ [_ [A _]]]]]; discriminate.
Qed.
