(** acquire_license as a whole. *)
From Verif Require Import Base CTypes StringUtils Dates Doubles Base64 HwId Registry Ini Network Disks ExecEnv Strategies Locate Licensecc.
From Verif Require Import P_Base Spec_Strings Spec_Base64 Spec_Dates P_Strings P_Text P_Decode P_DateText P_HwText Spec_Ini P_Ini Spec_HwId Spec_Hw P_Hw P_Hw2 Spec_Registry P_Registry Spec_Acquire P_Acquire1 P_Acquire2 P_Acquire3.
From Coq Require Import Sorted Lia.

(** ** the feature *)
Lemma requested_feature_ok w c f : requested_feature w c = Ok f -> f = feature_of w (option_map ci_feature c).
Proof.
  destruct c as [c|]; cbn [requested_feature feature_of option_map]; [|congruence]. intros H. apply rbind_ok in H as [n [Hn H]].
  assert (E : cstr (ci_feature c) = firstn n (ci_feature c)).
  { symmetry. transitivity (cstr (firstn (length (ci_feature c)) (ci_feature c))); [|rewrite firstn_all; reflexivity]. apply string_of_array_text. unfold string_of_array. rewrite Hn. reflexivity. }
  rewrite E. destruct (Nat.ltb_spec 0 n) as [L|L]; injection H as <-.
  - destruct (firstn n (ci_feature c)) eqn:F; [|reflexivity]. destruct n; [lia|]. destruct (ci_feature c); [|discriminate]. cbn in Hn. discriminate.
  - replace n with 0 by lia. reflexivity.
Qed.

(** ** the best license *)
Lemma merge_step a b c ls : Forall (fun i => li_has_expiry i = true) (a ++ b :: c) ->
  Forall (fun i => (li_days_left i < li_days_left b)%Z) a -> Forall (fun i => (li_days_left i <= li_days_left b)%Z) c ->
  exists i, merge_licenses ls (Some b) (li_days_left b) = Some i /\ best (map told_of (a ++ b :: c ++ ls)) (told_of i).
Proof.
  revert a b c; induction ls as [|l ls IH]; intros a b c Hh Ha Hc; cbn [merge_licenses].
  - exists b. split; [reflexivity|]. rewrite app_nil_r, map_app. cbn [map]. apply best_longest.
    + rewrite <- map_cons, <- map_app. apply Forall_map. exact Hh.
    + apply Forall_map. exact Ha.
    + apply Forall_map. exact Hc.
  - destruct (li_has_expiry l) eqn:El; cbn [negb].
    + destruct (Z.ltb_spec (li_days_left b) (li_days_left l)) as [L|L].
      * destruct (IH (a ++ b :: c) l []) as [i [H1 H2]].
        -- apply Forall_app. split; [exact Hh|]. constructor; [exact El|constructor].
        -- apply Forall_app. split; [eapply Forall_impl; [|exact Ha]; cbn; lia|]. constructor; [lia|]. eapply Forall_impl; [|exact Hc]. cbn. lia.
        -- constructor.
        -- exists i. split; [exact H1|]. cbn [app] in H2. rewrite <- app_assoc in H2. exact H2.
      * destruct (IH a b (c ++ [l])) as [i [H1 H2]].
        -- apply Forall_app in Hh as [Hh1 Hh2]. inversion Hh2; subst. apply Forall_app. split; [exact Hh1|]. constructor; [assumption|]. apply Forall_app. split; [assumption|]. constructor; [exact El|constructor].
        -- exact Ha.
        -- apply Forall_app. split; [exact Hc|]. constructor; [lia|constructor].
        -- exists i. split; [exact H1|]. rewrite <- app_assoc in H2. exact H2.
    + exists l. split; [reflexivity|]. replace (a ++ b :: c ++ l :: ls) with ((a ++ b :: c) ++ l :: ls) by (rewrite <- app_assoc; reflexivity). rewrite map_app. cbn [map]. apply best_perpetual; [|exact El].
      apply Forall_map. exact Hh.
Qed.
Lemma merge_best ls : ls <> [] -> Forall (fun i => (0 <= li_days_left i)%Z) ls ->
  exists i, merge_licenses ls None INT_MIN = Some i /\ best (map told_of ls) (told_of i).
Proof.
  intros Hn Hd. destruct ls as [|l ls]; [congruence|]. inversion Hd; subst. cbn [merge_licenses]. destruct (li_has_expiry l) eqn:El; cbn [negb].
  - destruct (Z.ltb_spec INT_MIN (li_days_left l)) as [_|L]; [|unfold INT_MIN in L; lia].
    destruct (merge_step [] l [] ls) as [i [X Y]]; [constructor; [exact El|constructor]|constructor|constructor|]. exists i. split; [exact X|exact Y].
  - exists l. split; [reflexivity|]. apply (best_perpetual [] (told_of l)); [constructor|exact El].
Qed.
Lemma nth_error_ext {A} (l l' : list A) : (forall n, nth_error l n = nth_error l' n) -> l = l'.
Proof.
  revert l'; induction l as [|a l IH]; intros [|b l'] H; [reflexivity|discriminate (H 0)|discriminate (H 0)|].
  pose proof (H 0) as H0. cbn in H0. injection H0 as ->. f_equal. apply IH. intros n. exact (H (S n)).
Qed.
Lemma best_in l x : best l x -> In x l.
Proof. intros H. inversion H; apply in_elt. Qed.
Lemma split_unique {A} (P : A -> Prop) a x b a' x' b' : a ++ x :: b = a' ++ x' :: b' ->
  Forall (fun y => ~ P y) a -> P x -> Forall (fun y => ~ P y) a' -> P x' -> a = a' /\ x = x' /\ b = b'.
Proof.
  revert a'; induction a as [|y a IH]; intros [|y' a'] E Ha Hx Ha' Hx'; cbn [app] in E; injection E as E1 E2; subst.
  - auto.
  - inversion Ha'; subst. contradiction.
  - inversion Ha; subst. contradiction.
  - inversion Ha; inversion Ha'; subst. destruct (IH a') as [-> [-> ->]]; auto.
Qed.
Lemma best_unique l x y : best l x -> best l y -> x = y.
Proof.
  intros H1 H2. inversion H1 as [a1 x1 b1 A1 A2 E1|a1 x1 b1 A1 A2 A3 E1]; subst; inversion H2 as [a2 x2 b2 B1 B2 E2|a2 x2 b2 B1 B2 B3 E2]; subst.
  - destruct (split_unique (fun y => td_has_expiry y = false) _ _ _ _ _ _ E2) as [_ [E _]]; auto; eapply Forall_impl; try eassumption; cbn; congruence.
  - rewrite E2 in B1. apply Forall_elt in B1. congruence.
  - rewrite <- E2 in A1. apply Forall_elt in A1. congruence.
  - assert (D : td_days x = td_days y).
    { assert (In y (a1 ++ x :: b1)) by (rewrite <- E2; apply in_elt). assert (In x (a2 ++ y :: b2)) by (rewrite E2; apply in_elt).
      assert (K : forall (a b : list told) u v, In v (a ++ u :: b) -> Forall (fun y => (td_days y < td_days u)%Z) a -> Forall (fun y => (td_days y <= td_days u)%Z) b -> (td_days v <= td_days u)%Z).
      { intros a b u v Hin Ha Hb. apply in_app_or in Hin as [Hin|[->|Hin]]; [|lia|]; [rewrite Forall_forall in Ha; apply Ha in Hin; lia|rewrite Forall_forall in Hb; apply Hb in Hin; lia]. }
      pose proof (K _ _ _ _ H A2 A3). pose proof (K _ _ _ _ H0 B2 B3). lia. }
    destruct (split_unique (fun z => td_days z = td_days x) _ _ _ _ _ _ E2) as [_ [E _]]; auto; eapply Forall_impl; try eassumption; cbn; lia.
Qed.

(** ** sources, contents, licenses, verdicts: one report for each source *)
Definition data_of (product : bytes) (s : source) (o : option bytes) : list lic_data :=
  match o with
  | None => []
  | Some c => let es := section_entries c product in match found es with Some sig => [{| ld_id := name_of s; ld_entries := es; ld_sig := sig |}] | None => [] end
  end.
Lemma licenses_data product s o : licenses product s o = map (lic_full product) (data_of product s o).
Proof. destruct o as [c|]; [|reflexivity]. cbn [licenses data_of]. destruct (found _); reflexivity. Qed.
Lemma zip_licenses product ss os : zip_with (licenses product) ss os = map (lic_full product) (zip_with (data_of product) ss os).
Proof. revert os; induction ss as [|s ss IH]; intros [|o os]; try reflexivity. cbn [zip_with]. rewrite licenses_data, IH, map_app. reflexivity. Qed.
Lemma data_form product ss os : Forall (fun d => license_form (ld_entries d) (ld_sig d)) (zip_with (data_of product) ss os).
Proof.
  revert os; induction ss as [|s ss IH]; intros [|o os]; try constructor. cbn [zip_with]. apply Forall_app. split; [|apply IH]. destruct o as [c|]; [|constructor]. cbn [data_of].
  destruct (found _) eqn:E; [|constructor]. constructor; [apply found_form, E|constructor].
Qed.
Definition shown (rs : list report) : list (event_type * told) :=
  flat_map (fun r => match rp_told r with Some x => [(rp_code r, x)] | None => [] end) rs.
Definition tell (v : verdict_rec) : event_type * told := (v_code v, told_of (v_info v)).

(** one source *)
Lemma report_of w product mg t u t' s o vs : t <= u -> u <= t' -> seen w t u s o ->
  Forall2 (verdict_on w product mg u t') (data_of product s o) vs ->
  exists r, reported w product mg t t' s r /\ shown [r] = map tell vs /\
    (forall ann, look ann s (is_some o) = looked ann s r) /\ read_news product s o = about s (rp_reading r) /\
    zip_with check_news (data_of product s o) vs = about s (rp_checking r) /\
    (rp_told r = None -> rp_code r <> LICENSE_OK).
Proof.
  intros Htu Hut Hs HV1. destruct o as [c|].
  - destruct Hs as [Hg Hc]. cbn [data_of] in *. assert (Hg' : given w t t' s c) by (eapply given_wide; [| |exact Hg]; lia).
    assert (Hp : present w t t' s) by (destruct s; cbn [present checked] in *; auto; destruct Hc as [i [X Y]]; exists i; (split; [lia|exact Y])).
    destruct (found (section_entries c product)) as [sig|] eqn:Ef.
    + inversion HV1 as [|? v ? v1' Hv1 HV1' E1 E2]; subst. inversion HV1'; subst. destruct Hv1 as [Hd [Hk Hx]]. cbn [ld_entries ld_sig] in *.
      assert (Hne : v_code v <> LICENSE_FILE_NOT_FOUND) by (intros E; rewrite E in Hd; inversion Hd).
      exists {| rp_code := v_code v; rp_told := Some (told_of (v_info v)); rp_reading := [PRODUCT_FOUND]; rp_checking := v_steps v |}.
      split; [eapply rep_license; [exact Hp|exact Hg'|apply found_form, Ef|eapply diagnosis_wide; [| |exact Hd]; lia|exact Hk|eapply describes_wide; [| |exact Hx]; lia]|].
      split; [reflexivity|]. split; [|split; [|split]].
      * intros ann. unfold look, looked, missing. cbn [rp_code is_some]. replace (event_eqb (v_code v) LICENSE_FILE_NOT_FOUND) with false by (destruct (v_code v); try reflexivity; congruence). reflexivity.
      * unfold read_news, read_events. cbn [rp_reading]. destruct (section_entries c product) eqn:Ee; [discriminate Ef|]. rewrite Ef. reflexivity.
      * cbn [zip_with]. rewrite app_nil_r. reflexivity.
      * discriminate.
    + inversion HV1; subst. assert (Hn : forall sig, ~ license_form (section_entries c product) sig) by (apply found_none, Ef).
      destruct (section_entries c product) as [|e0 es0] eqn:Hes.
      * exists {| rp_code := PRODUCT_NOT_LICENSED; rp_told := None; rp_reading := [PRODUCT_NOT_LICENSED]; rp_checking := [] |}.
        split; [eapply rep_absent; eassumption|]. split; [reflexivity|]. split; [intros ann; unfold look, looked; destruct s; reflexivity|]. split; [unfold read_news, read_events; rewrite Hes; reflexivity|]. split; [reflexivity|discriminate].
      * exists {| rp_code := LICENSE_MALFORMED; rp_told := None; rp_reading := [PRODUCT_FOUND; LICENSE_MALFORMED]; rp_checking := [] |}.
        split; [eapply rep_malformed; [exact Hp|exact Hg'|rewrite Hes; discriminate|rewrite Hes; exact Hn]|]. split; [reflexivity|].
        split; [intros ann; unfold look, looked; destruct s; reflexivity|]. split; [unfold read_news, read_events; rewrite Hes, Ef; reflexivity|]. split; [reflexivity|discriminate].
  - cbn [data_of] in *. inversion HV1; subst. destruct Hs as [i [Hi Hl]]. exists {| rp_code := LICENSE_FILE_NOT_FOUND; rp_told := None; rp_reading := []; rp_checking := [] |}.
    split; [eapply rep_missing; [|exact Hl]; lia|]. split; [reflexivity|]. split; [intros ann; unfold look, looked; destruct s; reflexivity|]. split; [reflexivity|]. split; [reflexivity|discriminate].
Qed.
(** the sources of a group *)
Lemma reports_of w product mg t u t' ss os vs : t <= u -> u <= t' -> Forall2 (seen w t u) ss os ->
  Forall2 (verdict_on w product mg u t') (zip_with (data_of product) ss os) vs ->
  exists rs, Forall2 (reported w product mg t t') ss rs /\ shown rs = map tell vs /\
    (forall ann, zip_with (fun s o => look ann s (is_some o)) ss os = zip_with (looked ann) ss rs) /\
    zip_with (read_news product) ss os = zip_with (fun s r => about s (rp_reading r)) ss rs /\
    zip_with check_news (zip_with (data_of product) ss os) vs = zip_with (fun s r => about s (rp_checking r)) ss rs /\
    Forall (fun r => rp_told r = None -> rp_code r <> LICENSE_OK) rs.
Proof.
  intros Htu Hut HS. revert vs. induction HS as [|s o ss os Hs HS IH]; intros vs HV.
  - cbn [zip_with] in HV. inversion HV; subst. exists []. repeat split; constructor.
  - cbn [zip_with] in *. apply Forall2_app_inv_l in HV as [v1 [v2 [HV1 [HV2 ->]]]]. destruct (IH _ HV2) as [rs [A [B [C [D [E F]]]]]].
    destruct (report_of w product mg t u t' s o v1 Htu Hut Hs HV1) as [r [A1 [B1 [C1 [D1 [E1 F1]]]]]]. exists (r :: rs). split; [constructor; assumption|].
    split; [unfold shown in *; cbn [flat_map] in *; rewrite app_nil_r in B1; rewrite B1, B, map_app; reflexivity|].
    split; [intros ann; cbn [zip_with]; rewrite C1, C; reflexivity|]. cbn [zip_with]. split; [rewrite D1, D; reflexivity|].
    split; [rewrite zip_app by (eapply Forall2_len, HV1); rewrite E1, E; reflexivity|]. constructor; assumption.
Qed.
(** all groups *)
Lemma reports_groups w product mg t u t' gs oss vs : t <= u -> u <= t' ->
  Forall2 (fun g os => Forall2 (seen w t u) (g_sources g) os) gs oss ->
  Forall2 (verdict_on w product mg u t') (zip_with (data_of product) (flat_map g_sources gs) (concat oss)) vs ->
  exists rss, Forall2 (fun g rs => Forall2 (reported w product mg t t') (g_sources g) rs) gs rss /\ shown (concat rss) = map tell vs /\
    zip_with (reading_trace product) gs oss = zip_with group_trace gs rss /\
    zip_with check_news (zip_with (data_of product) (flat_map g_sources gs) (concat oss)) vs = zip_with (fun s r => about s (rp_checking r)) (flat_map g_sources gs) (concat rss) /\
    Forall (fun r => rp_told r = None -> rp_code r <> LICENSE_OK) (concat rss).
Proof.
  intros Htu Hut HS. revert vs. induction HS as [|g os gs oss Hs HS IH]; intros vs HV.
  - cbn [zip_with flat_map] in HV. inversion HV; subst. exists []. repeat split; constructor.
  - cbn [zip_with flat_map concat] in *. rewrite zip_app in * by (eapply Forall2_len, Hs). apply Forall2_app_inv_l in HV as [v1 [v2 [HV1 [HV2 ->]]]].
    destruct (IH _ HV2) as [rss [A [B [C [D E]]]]]. destruct (reports_of w product mg t u t' _ _ v1 Htu Hut Hs HV1) as [rs [A1 [B1 [C1 [D1 [E1 F1]]]]]].
    exists (rs :: rss). split; [constructor; assumption|]. cbn [concat]. split; [unfold shown in *; rewrite flat_map_app, B1, B, map_app; reflexivity|].
    split; [cbn [zip_with]; rewrite C; f_equal; unfold reading_trace, group_trace; rewrite C1, D1; reflexivity|].
    split; [rewrite (zip_app check_news) by (eapply Forall2_len, HV1); rewrite (zip_app (fun s r => about s (rp_checking r))) by (eapply Forall2_len, A1); rewrite E1, D; reflexivity|].
    apply Forall_app. auto.
Qed.

Lemma shown_tolds b rs vs : shown rs = map tell vs -> tolds b rs = map told_of (map v_info (filter (fun v => Bool.eqb (is_ok v) b) vs)).
Proof.
  intros H. assert (E : tolds b rs = flat_map (fun x => if Bool.eqb (event_eqb (fst x) LICENSE_OK) b then [snd x] else []) (shown rs)).
  { clear H. unfold tolds, shown. induction rs as [|r rs IH]; [reflexivity|]. cbn [flat_map]. rewrite flat_map_app, <- IH. f_equal. destruct (rp_told r); [|reflexivity]. cbn. rewrite app_nil_r. reflexivity. }
  rewrite E, H. clear. induction vs as [|v vs IH]; [reflexivity|]. cbn [map flat_map filter]. rewrite IH. cbn [tell fst snd]. unfold is_ok at 2. destruct (Bool.eqb _ b); reflexivity.
Qed.

(** ** The whole call *)
Lemma export_status_fields r o : status_out (logs r) (export_status r o).
Proof. unfold status_out, export_status. cbn [o_status]. eexists. f_equal. f_equal. unfold export_last_events. change AUDIT_EVENT_NUM with 5. f_equal. lia. Qed.
Lemma info_nonempty (vs : list verdict_rec) : map v_info vs = [] -> vs = [].
Proof. destruct vs; [reflexivity|discriminate]. Qed.
Lemma describes_days w t t' es x : describes w t t' es x -> (0 <= td_days x)%Z.
Proof. intros [_ [_ H]]. destruct (exact_value _ _); [destruct H as [_ [_ [s [i [q [_ [_ [_ ->]]]]]]]]; lia|destruct H as [_ [-> _]]; lia]. Qed.
Lemma no_licenses rs : shown rs = [] -> Forall (fun r => rp_told r = None) rs.
Proof. unfold shown. induction rs as [|r rs IH]; constructor; cbn [flat_map] in *; destruct (rp_told r); try discriminate; auto. Qed.
Lemma trace_nil gs rss : match gs with [] => True | _ => False end -> call_trace gs rss = [(LICENSE_FILE_NOT_FOUND, bs "UNDEF")].
Proof. destruct gs; [reflexivity|intros []]. Qed.

Lemma not_ok_failure code T s k : selects T s (Some (code, k)) -> code <> LICENSE_OK.
Proof. intros H ->. apply selects_in in H as [H _]. eapply H. constructor. Qed.

Theorem acquire_outcome w c hint out t code out' t' : (forall i, order_ok (w_machine w i)) ->
  acquire_license w c hint out t = Ok ((code, out'), t') -> t <= t' /\ exists rss log, outcome w c hint out t code out' t' rss log.
Proof.
  intros HO H. unfold acquire_license in H. apply mbind_ok in H as [f [t1 [H1 H]]]. apply mlift_ok in H1 as [H1 ->]. apply requested_feature_ok in H1.
  apply mbind_ok in H as [[er ls] [t1 [H2 H]]]. apply read_licenses_ok in H2 as [Ht1 [oss [Hos [Hls Hh]]]].
  rewrite zip_licenses in Hls. destruct ls as [|l ls].
  - assert (Hz : zip_with (data_of f) (sources w hint) (concat oss) = []) by (symmetry in Hls; apply map_eq_nil in Hls; exact Hls).
    apply mbind_ok in H as [[er2 b] [t2 [H3 H]]]. apply mlift_ok in H3 as [H3 ->]. apply mbind_ok in H as [res [t2 [H4 H]]]. apply mlift_ok in H4 as [H4 ->].
    apply mret_ok in H as [[= -> ->] ->]. split; [exact Ht1|].
    destruct (reports_groups w f (magic_of (option_map ci_magic c)) t t1 t1 (groups w hint) oss [] ltac:(lia) ltac:(lia) Hos) as [rss [Hr [Hsh [Hf [Hk Hno]]]]].
    { change (flat_map g_sources (groups w hint)) with (sources w hint). rewrite Hz. constructor. }
    change (flat_map g_sources (groups w hint)) with (sources w hint) in Hk. rewrite Hz in Hk. cbn [zip_with] in Hk.
    assert (HT : reading_all f (groups w hint) oss = call_trace (groups w hint) rss).
    { unfold reading_all, call_trace, sources in *. destruct (groups w hint) as [|g gs]; [reflexivity|]. rewrite <- Hk, app_nil_r. exact Hf. }
    rewrite HT in Hh. destruct (grown_code _ _ _ _ _ Hh H3 H4) as [s [k [Hfu Hsel]]]. pose proof (not_ok_failure _ _ _ _ Hsel) as Hne.
    assert (Hnone : Forall (fun r => rp_told r = None) (concat rss)) by (apply no_licenses, Hsh).
    exists rss, (logs er2). constructor.
    + rewrite <- H1. exact Hr.
    + pose proof (grown_raise _ _ _ (grown_inv _ _ _ empty_inv Hh) H3) as G. destruct (grown_trans _ _ _ _ _ Hh G) as [_ X]. rewrite app_nil_r in X. exact X.
    + split; [intros; contradiction|]. intros Hin. exfalso. apply in_map_iff in Hin as [r [E Hin]]. rewrite Forall_forall in Hno, Hnone. eapply Hno; [exact Hin|apply Hnone, Hin|exact E].
    + intros _. eauto.
    + destruct out; split; cbn; congruence.
    + intros o o' -> [= <-]. split; [|apply export_status_fields]. apply io_none; try reflexivity. exact Hnone.
    + intros; contradiction.
  - rewrite Hls in H. assert (Hn : zip_with (data_of f) (sources w hint) (concat oss) <> []) by (intros E; rewrite E in Hls; discriminate).
    clear Hls l ls. set (ds := zip_with (data_of f) (sources w hint) (concat oss)) in *.
    assert (H' : ('(er0, ok, bad) <~ verify_all w (option_map ci_magic c) (map (lic_full f) ds) er [] [] ;;
       (let copy ls o := match merge_licenses ls None INT_MIN with Some i => out_of_linfo i | None => o end in
        match ok with
        | _ :: _ => let '(er, _) := turn_errors_into_warnings er0 in mret (LICENSE_OK, option_map (fun o => export_status er (copy ok o)) out)
        | [] => '(er, _) <~ mlift (turn_warnings_into_errors er0) ;; result <~ mlift (failure_code er) ;; mret (result, option_map (fun o => export_status er (copy bad o)) out)
        end)) t1 = Ok ((code, out'), t')).
    { destruct (map (lic_full f) ds) eqn:E; [apply map_eq_nil in E; contradiction|]. exact H. }
    clear H. apply mbind_ok in H' as [[[er2 ok] bad] [t2 [H3 H]]]. cbv zeta in H. apply verify_all_ok in H3 as [Ht2 [vs [Hvs [Hok [Hbad Hh2]]]]]; [|exact HO|apply data_form]. cbn [app] in Hok, Hbad.
    destruct (reports_groups w f (magic_of (option_map ci_magic c)) t t1 t2 (groups w hint) oss vs ltac:(lia) ltac:(lia) Hos Hvs) as [rss [Hr [Hsh [Hf [Hk Hno]]]]].
    change (flat_map g_sources (groups w hint)) with (sources w hint) in Hk. fold ds in Hk.
    assert (HT : reading_all f (groups w hint) oss ++ zip_with check_news ds vs = call_trace (groups w hint) rss).
    { unfold reading_all, call_trace in *. destruct (groups w hint) as [|g gs] eqn:Eg; [|rewrite Hf, Hk; unfold sources; rewrite Eg; reflexivity].
      exfalso. apply Hn. unfold ds, sources. rewrite Eg. reflexivity. }
    pose proof (grown_trans _ _ _ _ _ Hh Hh2) as Hh3. rewrite HT in Hh3.
    assert (Hvn : vs <> []) by (intros ->; inversion Hvs; congruence).
    assert (Hdays : Forall (fun v => (0 <= li_days_left (v_info v))%Z) vs).
    { clear -Hvs. induction Hvs as [|d v ds vs [_ [_ X]] _ IH]; constructor; [|exact IH]. apply describes_days in X. exact X. }
    assert (Hmerge : forall g, filter g vs <> [] -> exists i, merge_licenses (map v_info (filter g vs)) None INT_MIN = Some i /\ best (map told_of (map v_info (filter g vs))) (told_of i)).
    { intros g Hg. apply merge_best; [intros E; apply Hg, info_nonempty, E|]. apply Forall_map, Forall_forall. intros v Hv'. apply filter_In in Hv' as [Hv' _]. rewrite Forall_forall in Hdays. apply Hdays, Hv'. }
    assert (Hokin : In LICENSE_OK (map rp_code (concat rss)) <-> filter is_ok vs <> []).
    { split.
      - intros Hin. apply in_map_iff in Hin as [r [E Hin]]. rewrite Forall_forall in Hno. destruct (rp_told r) as [x|] eqn:Ex; [|destruct (Hno _ Hin Ex E)].
        assert (Hin' : In (LICENSE_OK, x) (map tell vs)) by (rewrite <- Hsh; unfold shown; apply in_flat_map; exists r; split; [exact Hin|rewrite Ex, E; left; reflexivity]).
        apply in_map_iff in Hin' as [v [[= E1 E2] Hin']]. assert (In v (filter is_ok vs)) by (apply filter_In; split; [exact Hin'|unfold is_ok; rewrite E1; reflexivity]).
        intros Z. rewrite Z in H0. destruct H0.
      - intros Hne. destruct (filter is_ok vs) as [|v vs'] eqn:E; [congruence|]. assert (Hin : In v (filter is_ok vs)) by (rewrite E; left; reflexivity).
        apply filter_In in Hin as [Hin Eo]. assert (Ev : v_code v = LICENSE_OK) by (unfold is_ok in Eo; destruct (v_code v); try discriminate; reflexivity).
        assert (Hin' : In (tell v) (shown (concat rss))) by (rewrite Hsh; apply in_map; exact Hin). unfold shown in Hin'. apply in_flat_map in Hin' as [r [Hr' X]].
        destruct (rp_told r); [|destruct X]. destruct X as [X|[]]. unfold tell in X. injection X as X _. rewrite <- Ev, <- X. apply in_map. exact Hr'. }
    destruct ok as [|i0 ok'].
    + symmetry in Hok. apply info_nonempty in Hok.
      apply mbind_ok in H as [[er3 b] [t3 [H4 H]]]. apply mlift_ok in H4 as [H4 ->]. apply mbind_ok in H as [res [t3 [H5 H]]]. apply mlift_ok in H5 as [H5 ->]. apply mret_ok in H as [[= -> ->] ->].
      split; [lia|]. destruct (grown_code _ _ _ _ _ Hh3 H4 H5) as [s [k [Hfu Hsel]]]. pose proof (not_ok_failure _ _ _ _ Hsel) as Hne.
      assert (Hall : filter (fun v => negb (is_ok v)) vs = vs).
      { clear -Hok. induction vs as [|v vs IH]; [reflexivity|]. cbn [filter] in *. destruct (is_ok v); [discriminate|]. cbn [negb]. f_equal. apply IH, Hok. }
      exists rss, (logs er3). constructor.
      * rewrite <- H1. exact Hr.
      * pose proof (grown_raise _ _ _ (grown_inv _ _ _ empty_inv Hh3) H4) as G. destruct (grown_trans _ _ _ _ _ Hh3 G) as [_ X]. rewrite app_nil_r in X. exact X.
      * split; [intros; contradiction|]. rewrite Hokin, Hok. congruence.
      * intros _. eauto.
      * destruct out; split; cbn; congruence.
      * intros o o' -> [= <-]. split; [|apply export_status_fields]. subst bad. destruct (Hmerge (fun v => negb (is_ok v))) as [i [-> Hb]]; [rewrite Hall; exact Hvn|].
        apply (io_some _ _ _ _ (told_of i)); try reflexivity. replace (event_eqb res LICENSE_OK) with false by (destruct res; try reflexivity; congruence).
        rewrite (shown_tolds _ _ _ Hsh). rewrite (filter_ext (fun v => Bool.eqb (is_ok v) false) (fun v => negb (is_ok v))); [exact Hb|]. intros v. destruct (is_ok v); reflexivity.
      * intros; contradiction.
    + assert (Hoke : filter is_ok vs <> []) by (intros E; rewrite E in Hok; discriminate). pose proof (lower_summary er2 (grown_inv _ _ _ empty_inv Hh3)) as [er3 [H4 [Hl1 [Hl2 _]]]]. rewrite H4 in H.
      apply mret_ok in H as [H ->]. apply pair_equal_spec in H as [-> ->]. split; [lia|].
      exists rss, (logs er3). constructor.
      * rewrite <- H1. exact Hr.
      * destruct Hh3 as [_ X]. cbn [app log_trace reg_empty logs map] in X. rewrite <- X. unfold log_trace. apply nth_error_ext. intros n. rewrite !nth_error_map.
        destruct (nth_error (logs er2) n) as [ev0|] eqn:E0.
        -- destruct (Hl2 _ _ E0) as [ev' [E' [Ht' [Hr' _]]]]. rewrite E'. cbn [option_map]. rewrite Ht', Hr'. reflexivity.
        -- replace (nth_error (logs er3) n) with (@None event); [reflexivity|]. symmetry. apply nth_error_None. apply nth_error_None in E0. lia.
      * split; [intros _; apply Hokin, Hoke|reflexivity].
      * intros; congruence.
      * destruct out; split; cbn; congruence.
      * intros o o' -> Ho. cbn [option_map] in Ho. rewrite Hok in Ho. destruct (Hmerge is_ok Hoke) as [i [Em Hb]]. rewrite Em in Ho. injection Ho as <-. split; [|apply export_status_fields]. apply (io_some _ _ _ _ (told_of i)); try reflexivity.
        cbn [event_eqb]. rewrite (shown_tolds _ _ _ Hsh). rewrite (filter_ext (fun v => Bool.eqb (is_ok v) true) is_ok); [exact Hb|]. intros v. destruct (is_ok v); reflexivity.
      * intros _. apply Forall_forall. intros ev Hin. apply In_nth_error in Hin as [n Hin]. destruct (nth_error (logs er2) n) as [ev0|] eqn:E0.
        -- destruct (Hl2 _ _ E0) as [ev' [E' [_ [_ [_ Hs]]]]]. rewrite E' in Hin. injection Hin as <-. rewrite Hs. destruct (ev_sev ev0); discriminate.
        -- apply nth_error_None in E0. assert (n < length (logs er3)) by (apply nth_error_Some; congruence). lia.
Qed.
