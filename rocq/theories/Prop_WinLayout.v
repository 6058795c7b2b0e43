(** On Windows: features are isolated, the layout and the size of a license, where licenses are
    looked for, encoded licenses (C19, C50 - C53, C80). *)
From Verif Require Import Base CTypes StringUtils Dates Doubles Base64 HwId Registry Ini Network Disks ExecEnv Strategies Locate Licensecc Shared Trace WinSignature WinMachine AcquireGen.
From Verif Require Import P_Base Spec_Strings Spec_Base64 P_Base64 P_Strings P_Text P_Decode Spec_Ini P_Ini Spec_Registry P_Registry Spec_Acquire P_Acquire1 P_Acquire2 P_Acquire3 P_Acquire4 P_Acquire5 Spec_Ext P_Ext Spec_Layout P_Layout Spec_AcquireGen P_AcqGen1 P_AcqGen2 Spec_Windows Spec_WinAcquire Spec_WinExt.
From Verif Require Import Ex_Acquire Prop_Acquire Prop_Windows Prop_WinAcquire Prop_WinRefer Prop_Isolation Prop_Layout.
From Coq Require Import Lia.

Lemma win_backend_same ww ww' : win_same_checks ww ww' -> win_backend ww' = win_backend ww.
Proof. intros [_ [_ [_ [_ [H1 [H2 H3]]]]]]. unfold win_backend. rewrite H1, H2, H3. reflexivity. Qed.
Lemma win_verify_same ww ww' bk magic ls r ok bad t : win_same_checks ww ww' -> g_verify_all (places ww') bk magic ls r ok bad t = g_verify_all (places ww) bk magic ls r ok bad t.
Proof.
  intros [_ [E2 [E3 [E4 _]]]].
  assert (H1 : forall l r, g_verify_signature (places ww') bk l r = g_verify_signature (places ww) bk l r) by reflexivity.
  assert (H2 : forall l t, to_license_info (places ww') l t = to_license_info (places ww) l t) by (intros; unfold to_license_info, m_now; cbn [places w_clock w_mktime]; rewrite E3, E4; reflexivity).
  assert (H3 : forall l r t, g_verify_limits (places ww') bk l r t = g_verify_limits (places ww) bk l r t) by (intros; unfold g_verify_limits, m_now; cbn [places w_clock w_mktime w_magic]; rewrite E2, E3, E4; reflexivity).
  revert r ok bad t; induction ls as [|l ls IH]; intros r ok bad t; cbn [g_verify_all]; [reflexivity|]. cbv zeta. set (l0 := match magic with Some _ => _ | None => _ end). rewrite H1.
  unfold mbind. destruct (mlift (g_verify_signature (places ww) bk l0 r) t) as [[[b r1] t1]| | |]; try reflexivity. rewrite H2. destruct (to_license_info (places ww) l0 t1) as [[i t2]| | |]; try reflexivity.
  destruct b; [|apply IH]. rewrite H3. destruct (g_verify_limits (places ww) bk l0 r1 t2) as [[[b r2] t3]| | |]; try reflexivity. destruct b; apply IH.
Qed.
Lemma win_twin ww ww' c hint hint' out t : win_same_checks ww ww' -> short_names ww hint -> short_names ww' hint' ->
  Forall2 (twin (places ww) (places ww') (feature_of (places ww) (option_map ci_feature c)) t) (get_active_strategies (places ww) hint) (get_active_strategies (places ww') hint') ->
  win_acquire_license ww c hint out t = win_acquire_license ww' c hint' out t.
Proof.
  intros HC S1 S2 HF. unfold win_acquire_license, g_acquire_license. pose proof HC as [EP _].
  assert (RQ : requested_feature (places ww') c = requested_feature (places ww) c) by (unfold requested_feature; cbn [places w_project]; rewrite EP; reflexivity). rewrite RQ. apply mbind_ext; [reflexivity|].
  intros f t1 Ef. apply mlift_ok in Ef as [Ef ->]. apply (requested_feature_ok (places ww)) in Ef. subst f. apply mbind_ext.
  - rewrite !win_licenses by assumption. apply read_licenses_twin, HF.
  - intros [er ls] t2 _. destruct ls as [|l ls]; [reflexivity|]. apply mbind_ext; [rewrite (win_backend_same _ _ HC); symmetry; apply win_verify_same, HC|reflexivity].
Qed.
Lemma win_places ww ww' : win_same_places ww ww' -> same_places (places ww) (places ww').
Proof. intros [H1 [H2 [H3 H4]]]. split; [exact H1|]. split; [exact H2|]. split; [|exact H4]. intros N. cbn [places w_module]. rewrite (H3 N). reflexivity. Qed.
Lemma win_sources ww ww' hint : win_same_places ww ww' -> sources (places ww') hint = sources (places ww) hint.
Proof.
  intros [H1 [H2 [H3 H4]]]. rewrite !sources_eq. cbn [places w_near_module w_with_env]. rewrite H1, H2. f_equal.
  - destruct (ww_near_module ww) eqn:E; [|reflexivity]. unfold module_sources. cbn [places w_module]. rewrite (H3 eq_refl). reflexivity.
  - f_equal. destruct (ww_with_env ww) eqn:E; [|reflexivity]. unfold location_sources, data_sources, variable. cbn [places w_getenv]. rewrite !(H4 eq_refl). reflexivity.
Qed.
Lemma win_short ww ww' hint : win_same_places ww ww' -> short_names ww hint -> short_names ww' hint.
Proof. intros H S s Hs. apply S. rewrite <- (win_sources _ _ _ H). exact Hs. Qed.
Theorem C51_nothing_else_windows ww ww' c hint out t : short_names ww hint -> win_same_checks ww ww' -> win_same_places ww ww' ->
  (forall s p, In s (sources (places ww) hint) -> (s = SFile p \/ exists x, s = SNamed p x) -> forall i, ww_good ww' i (cstr p) = ww_good ww i (cstr p)) ->
  (forall p i j, In (SFile p) (sources (places ww) hint) -> t <= i < j -> ww_good ww i (cstr p) = true -> ww_file ww' j (cstr p) = ww_file ww j (cstr p)) ->
  win_acquire_license ww c hint out t = win_acquire_license ww' c hint out t.
Proof.
  intros SH HC HP HG HF. apply win_twin; [exact HC|exact SH|eapply win_short; eassumption|]. apply places_twin; [apply win_places, HP| |].
  - intros s p Hs Hp i. symmetry. exact (HG s p Hs Hp i).
  - intros p i j Hs Hi Hl. cbn [places w_file]. rewrite (HF p i j Hs Hi Hl). unfold file_alike. destruct (ww_file ww j (cstr p)); auto using alike_refl.
Qed.
Print Assumptions C51_nothing_else_windows.
Lemma win_alike ww ww' c hint out t : short_names ww hint -> win_same_checks ww ww' -> win_same_places ww ww' -> ww_good ww' = ww_good ww ->
  (forall i p, file_alike (feature_of (places ww) (option_map ci_feature c)) (ww_file ww i p) (ww_file ww' i p)) ->
  win_acquire_license ww c hint out t = win_acquire_license ww' c hint out t.
Proof.
  intros SH HC HP HG HF. apply win_twin; [exact HC|exact SH|eapply win_short; eassumption|]. apply places_twin; [apply win_places, HP| |].
  - intros. cbn [places w_good]. rewrite HG. reflexivity.
  - intros. apply HF.
Qed.
Theorem C19_features_isolated_windows ww ww' c hint out t : short_names ww hint -> win_same_checks ww ww' -> win_same_places ww ww' -> ww_good ww' = ww_good ww ->
  (forall i p, file_agree (feature_of (places ww) (option_map ci_feature c)) (ww_file ww i p) (ww_file ww' i p)) ->
  win_acquire_license ww c hint out t = win_acquire_license ww' c hint out t.
Proof. intros SH HC HP HG HF. apply win_alike; auto. intros. apply file_agree_alike, HF. Qed.
Print Assumptions C19_features_isolated_windows.
Theorem C50_size_limit_windows ww ww' c hint out t : short_names ww hint -> win_same_checks ww ww' -> win_same_places ww ww' -> ww_good ww' = ww_good ww ->
  (forall i p, match ww_file ww i p, ww_file ww' i p with
               | Some a, Some b => cstr (readable a) = cstr (readable b)
               | None, None => True
               | _, _ => False
               end) ->
  win_acquire_license ww c hint out t = win_acquire_license ww' c hint out t.
Proof.
  intros SH HC HP HG HF. apply C19_features_isolated_windows; auto. intros i p. specialize (HF i p). unfold file_agree.
  destruct (ww_file ww i p), (ww_file ww' i p); try contradiction; try exact I. apply entries_same, HF.
Qed.
Print Assumptions C50_size_limit_windows.
Theorem C80_file_layout_windows ww ww' c hint out t : short_names ww hint -> win_same_checks ww ww' -> win_same_places ww ww' -> ww_good ww' = ww_good ww ->
  (forall i p, same_file_document (ww_file ww i p) (ww_file ww' i p)) ->
  win_acquire_license ww c hint out t = win_acquire_license ww' c hint out t.
Proof.
  intros SH HC HP HG HF. apply win_alike; auto. intros i p. specialize (HF i p). destruct (ww_file ww i p) as [a|], (ww_file ww' i p) as [b|]; try contradiction; try exact I.
  cbn [file_alike]. destruct HF as [->|[d [d' [R [R' D]]]]]; [apply alike_refl|]. rewrite (rendered_entries _ _ _ R), (rendered_entries _ _ _ R'). apply same_alike, D.
Qed.
Print Assumptions C80_file_layout_windows.

(** licenses in the hint, as text (1) or encoded (2) *)
Lemma text_names h s : In (loc_type h) [1; 2]%Z -> In s (hint_sources (Some h)) -> name_of s = EXTERNAL.
Proof.
  intros T Hs. unfold hint_sources in Hs. destruct (cstr (firstn HINT_SIZE (loc_data h))); [destruct Hs|]. destruct T as [T|[T|[]]]; rewrite <- T in Hs; destruct Hs as [<-|[]]; reflexivity.
Qed.
Lemma win_text_short ww h : short_names ww None -> In (loc_type h) [1; 2]%Z -> short_names ww (Some h).
Proof.
  intros SH T s Hs. rewrite sources_eq in Hs. apply in_app_or in Hs as [Hs|Hs]; [apply SH; rewrite sources_eq; apply in_or_app; left; exact Hs|].
  apply in_app_or in Hs as [Hs|Hs]; [apply SH; rewrite sources_eq; apply in_or_app; right; apply in_or_app; left; exact Hs|]. rewrite (text_names _ _ T Hs). vm_compute. lia.
Qed.
Lemma win_hints ww c h h' out t : short_names ww None -> In (loc_type h) [1; 2]%Z -> In (loc_type h') [1; 2]%Z ->
  twin (places ww) (places ww) (feature_of (places ww) (option_map ci_feature c)) t (LocExternal h) (LocExternal h') ->
  win_acquire_license ww c (Some h) out t = win_acquire_license ww c (Some h') out t.
Proof. intros SH T T' H. apply win_twin; [repeat split|apply win_text_short; assumption|apply win_text_short; assumption|]. apply hints_twin, H. Qed.
Theorem C19_hints_isolated_windows ww c out t text text' : short_names ww None -> text <> [] -> text' <> [] -> ~ In NUL text -> ~ In NUL text' ->
  length text <= HINT_SIZE -> length text' <= HINT_SIZE ->
  section_entries text (feature_of (places ww) (option_map ci_feature c)) = section_entries text' (feature_of (places ww) (option_map ci_feature c)) ->
  win_acquire_license ww c (Some {| loc_type := 1; loc_data := text ++ [NUL] |}) out t =
  win_acquire_license ww c (Some {| loc_type := 1; loc_data := text' ++ [NUL] |}) out t.
Proof.
  intros SH N1 N2 F1 F2 L1 L2 E. apply nul_free_in in F1. apply nul_free_in in F2. apply win_hints; [exact SH|cbn; auto|cbn; auto|]. apply hint_twin; try (apply starts_app; assumption); try (cbn; auto; fail).
  unfold hint_text. cbn [loc_data loc_type]. rewrite !array_text_eq by assumption. change (1 =? 2)%Z with false. cbn. cbn in E. rewrite E. auto using alike_refl.
Qed.
Print Assumptions C19_hints_isolated_windows.
Theorem C80_text_layout_windows ww c out t d d' text text' : short_names ww None -> renders d text -> renders d' text' -> same_document d d' ->
  text <> [] -> text' <> [] -> length text <= HINT_SIZE -> length text' <= HINT_SIZE ->
  win_acquire_license ww c (Some {| loc_type := 1; loc_data := text ++ [NUL] |}) out t =
  win_acquire_license ww c (Some {| loc_type := 1; loc_data := text' ++ [NUL] |}) out t.
Proof.
  intros SH R R' D N1 N2 L1 L2. destruct (sets_out_lines _ _ R) as [F1 _]. destruct (sets_out_lines _ _ R') as [F2 _]. apply win_hints; [exact SH|cbn; auto|cbn; auto|].
  apply hint_twin; try (apply starts_app; assumption); try (cbn; auto; fail).
  unfold hint_text. cbn [loc_data loc_type]. rewrite !array_text_eq by assumption. change (1 =? 2)%Z with false. cbn. rewrite (rendered_entries _ _ _ R), (rendered_entries _ _ _ R'). auto using same_alike.
Qed.
Print Assumptions C80_text_layout_windows.
Theorem C52_encoded_with_nul_windows ww c out t text line enc : short_names ww None -> ~ In NUL text -> 2 <= length text -> length text <= HINT_SIZE ->
  base64 (text ++ [NUL]) line = Ok enc -> length enc <= HINT_SIZE ->
  win_acquire_license ww c (Some {| loc_type := 2; loc_data := enc ++ [NUL] |}) out t =
  win_acquire_license ww c (Some {| loc_type := 1; loc_data := text ++ [NUL] |}) out t.
Proof.
  intros SH HN L1 L2 HB L3. apply nul_free_in in HN. pose proof (base64_nul_free _ _ _ HB) as HE.
  destruct (base64_round_trip (text ++ [NUL]) line) as [enc' [E1 E2]]; [rewrite app_length; cbn; lia|]. rewrite HB in E1. injection E1 as <-.
  assert (Ht : text <> []) by (intros ->; cbn in L1; lia). assert (He : enc <> []) by (intros ->; discriminate E2 || (vm_compute in E2; injection E2 as E2; destruct text; discriminate)).
  apply win_hints; [exact SH|cbn; auto|cbn; auto|]. apply hint_twin; try (apply starts_app; assumption); try (cbn; auto; fail).
  unfold hint_text. cbn [loc_data loc_type]. rewrite !array_text_eq by assumption. change (1 =? 2)%Z with false. change (2 =? 2)%Z with true. cbn [rbind]. cbv iota. rewrite E2. cbn [rbind]. rewrite vector_text by exact HN. cbn. auto using alike_refl.
Qed.
Print Assumptions C52_encoded_with_nul_windows.

Theorem C52_encoded_refuted_windows ww modulus exponent c out t text line enc : win_ready ww modulus exponent -> short_names ww None -> ~ In NUL text -> 3 <= length text ->
  base64 text line = Ok enc -> length enc <= HINT_SIZE ->
  forall r, win_acquire_license ww c (Some {| loc_type := 2; loc_data := enc ++ [NUL] |}) out t <> Ok r.
Proof.
  intros R SH HN L HB L3 [[code out'] t'] H. pose proof (base64_nul_free _ _ _ HB) as HE.
  destruct (base64_round_trip text line L) as [enc' [E1 E2]]. rewrite HB in E1. injection E1 as <-.
  assert (He : enc <> []) by (intros ->; vm_compute in E2; injection E2 as E2; subst text; cbn in L; lia).
  assert (Ec : cstr (firstn HINT_SIZE (enc ++ [NUL])) = enc).
  { rewrite firstn_app, (firstn_all2 enc) by exact L3. destruct (HINT_SIZE - length enc) as [|n]; cbn [firstn].
    - rewrite app_nil_r. apply cstr_id, HE.
    - rewrite firstn_nil. apply cstr_app_nul, HE. }
  eapply C78_outcome in H; [|exact R|apply win_text_short; [exact SH|cbn; auto]]. destruct H as [Ht [rss [log H]]].
  assert (Hs : In (SEncoded EXTERNAL enc) (sources (places ww) (Some {| loc_type := 2; loc_data := enc ++ [NUL] |}))).
  { rewrite sources_eq. apply in_or_app. right. apply in_or_app. right. unfold hint_sources. cbn [loc_type loc_data]. rewrite Ec. destruct enc; [contradiction|]. left. reflexivity. }
  destruct (Forall2_in_l _ _ _ _ (p_outcome_reports _ _ _ _ _ _ _ _ _ _ _ H) Hs) as [r [_ X]].
  assert (G : forall x, ~ given (places ww) t t' (SEncoded EXTERNAL enc) x) by (intros x G; inversion G as [| |n s E N|]; subst; apply unbase64_ok in E2 as [_ E2]; rewrite <- E2 in N; contradiction).
  inversion X as [i Hi Hl|c' P Gc E|c' P Gc E N|c' sig' code' x steps P Gc Fo D C Y]; subst r; [discriminate Hl|destruct (G _ Gc)..].
Qed.
Print Assumptions C52_encoded_refuted_windows.
Theorem C53_data_refuted_windows ww ww' c hint out t d d' : short_names ww hint -> win_same_checks ww ww' -> ww_good ww' = ww_good ww -> ww_file ww' = ww_file ww ->
  ww_near_module ww' = ww_near_module ww -> ww_with_env ww' = ww_with_env ww -> ww_module ww' = ww_module ww ->
  (forall v, v <> DATA -> ww_getenv ww' v = ww_getenv ww v) ->
  variable (places ww) DATA = Some d -> variable (places ww') DATA = Some d' -> looks d' = looks d ->
  win_acquire_license ww c hint out t = win_acquire_license ww' c hint out t.
Proof.
  intros SH HC HG HF P1 P2 P3 HV D D' I.
  assert (SH' : short_names ww' hint).
  { intros s Hs. rewrite sources_eq in Hs. assert (X : In s (sources (places ww) hint) \/ In s (data_sources (places ww'))).
    { rewrite sources_eq. cbn [places w_near_module w_with_env] in *. rewrite P1, P2 in Hs. apply in_app_or in Hs as [Hs|Hs].
      - left. apply in_or_app. left. unfold module_sources in *. cbn [places w_module] in *. rewrite P3 in Hs. exact Hs.
      - apply in_app_or in Hs as [Hs|Hs]; [|left; apply in_or_app; right; apply in_or_app; right; exact Hs]. destruct (ww_with_env ww); [|destruct Hs]. apply in_app_or in Hs as [Hs|Hs]; [|right; exact Hs].
        left. apply in_or_app. right. apply in_or_app. left. apply in_or_app. left. unfold location_sources, variable in *. cbn [places w_getenv] in *. rewrite (HV LOCATION) in Hs by discriminate. exact Hs. }
    destruct X as [X|X]; [apply SH, X|]. assert (N : length (cstr (name_of s)) <= 30); [|lia].
    unfold data_sources in X. destruct (variable (places ww') DATA); [|destruct X]. match type of X with context [looks ?z] => destruct (looks z) end; cbn [In] in X; try contradiction X; destruct X as [X|[]]; rewrite <- X; cbn [name_of]; apply Nat.leb_le; vm_compute; reflexivity. }
  rewrite !looks_eq in I. apply win_twin; [exact HC|exact SH|exact SH'|].
  set (w := places ww) in *. set (w' := places ww') in *. set (f := feature_of w (option_map ci_feature c)).
  assert (EA : get_active_strategies w' hint = get_active_strategies w hint) by (unfold get_active_strategies, w, w'; cbn [places w_near_module w_with_env]; rewrite P1, P2; reflexivity). rewrite EA.
  assert (HA : forall l, twin w w' f t l l).
  2:{ clear -HA. induction (get_active_strategies w hint) as [|l ls IH]; constructor; [apply HA|apply IH]. }
  assert (HL : w_getenv w' LOCATION = w_getenv w LOCATION) by (apply HV; discriminate).
  assert (HG' : w_good w' = w_good w) by exact HG. assert (HF' : w_file w' = w_file w) by exact HF. assert (HM : w_module w' = w_module w) by (unfold w, w'; cbn [places w_module]; rewrite P3; reflexivity).
  assert (FF : forall l x r t, filter_existing_files w l x r t = filter_existing_files w' l x r t) by (intros; apply filter_existing_ext; intros; rewrite HG'; reflexivity).
  clearbody w w'. intros l. split.
  - intros r u _. destruct l as [| | |h]; cbn [license_locations].
    + unfold get_module_name. rewrite HM. destruct (w_module w); [|reflexivity]. apply mbind_ext; [unfold m_good; rewrite HG'; reflexivity|reflexivity].
    + unfold env_set. change LICENSE_LOCATION_VAR with LOCATION. rewrite HL. destruct (w_getenv w LOCATION) as [[|]|]; try reflexivity. apply FF.
    + change (env_set w LICENSE_DATA_VAR) with (variable w DATA). change (env_set w' LICENSE_DATA_VAR) with (variable w' DATA). rewrite D, D', I. reflexivity.
    + destruct (loc_data h) as [|x y]; [reflexivity|]. destruct (Ascii.eqb x NUL); [reflexivity|]. apply mbind_ext; [reflexivity|]. intros. destruct (Z.eqb (loc_type h) 0); [|reflexivity]. apply mbind_ext; [reflexivity|]. intros. apply FF.
  - intros r u ids r' t' _ _ id _ x _. apply agree_eq. destruct l as [| | |h]; cbn [retrieve_license_content]; try (apply mbind_ext; [unfold m_file; rewrite HF'; reflexivity|reflexivity]).
    + change LICENSE_LOCATION_VAR with LOCATION. rewrite HL. change (env_set w LICENSE_DATA_VAR) with (variable w DATA). change (env_set w' LICENSE_DATA_VAR) with (variable w' DATA). rewrite D, D', I. reflexivity.
    + destruct (beqb (cstr id) EXTERNAL_NAME); [reflexivity|]. apply mbind_ext; [unfold m_file; rewrite HF'; reflexivity|reflexivity].
Qed.
Print Assumptions C53_data_refuted_windows.
(** the license of Prop_WinAcquire with comments, other line ends and another section *)
Definition any_layout : bytes := bs "; ours" ++ [CR; LF] ++ bs "[other]" ++ [LF] ++ bs "a = b" ++ [LF] ++ bs "[ demo ]" ++ [CR] ++ bs "sig=REVNT2xpY192ZXIyMDA=" ++ [LF; LF] ++ bs "lic_ver =  200".
Example C80_case_windows : let ww := pc false false NOW [] [] pc_one in
  short_names ww None /\ (forall k, last_value (section_entries any_layout (bs "DEMO")) k = last_value (section_entries any_license (bs "DEMO")) k) /\
  pc_run ww (Some (hint_of 1 any_layout)) = Ok LICENSE_OK /\ pc_run ww (Some (hint_of 1 any_license)) = Ok LICENSE_OK.
Proof.
  cbv zeta. split; [intros s Hs; destruct Hs|]. split; [|split; vm_compute; reflexivity].
  assert (E : section_entries any_license (bs "DEMO") = [(bs "lic_ver", bs "200"); (bs "sig", bs "REVNT2xpY192ZXIyMDA=")]) by (vm_compute; reflexivity).
  assert (E' : section_entries any_layout (bs "DEMO") = [(bs "sig", bs "REVNT2xpY192ZXIyMDA="); (bs "lic_ver", bs "200")]) by (vm_compute; reflexivity).
  rewrite E, E'. intros k. cbn [last_value]. destruct (same_nameb (bs "lic_ver") k) eqn:A, (same_nameb (bs "sig") k) eqn:B; try reflexivity.
  exfalso. revert A B. unfold same_nameb. rewrite !beqb_eq. intros A B. rewrite <- B in A. discriminate A.
Qed.
