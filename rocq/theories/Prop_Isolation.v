(** What a call of acquire_license depends on (C19, C50, C51, C52, C53). *)
From Verif Require Import Base CTypes StringUtils Dates Base64 HwId Registry Ini Network Disks ExecEnv Strategies Locate Licensecc.
From Verif Require Import P_Base Spec_Strings Spec_Base64 Spec_Dates P_Strings P_Text P_Decode P_DateText P_HwText Spec_Base64 P_Base64 Spec_Ini P_Ini Spec_HwId Spec_Hw P_Hw P_Hw2 Spec_Registry P_Registry Spec_Acquire P_Acquire1 P_Acquire2 P_Acquire3 P_Acquire4 P_Acquire5 Spec_Ext P_Ext.
From Coq Require Import Sorted Lia.
From Verif Require Import Ex_Acquire Prop_Acquire.

(** ** C19 *)
(** Two worlds with the same places, where the files that exist have the same entries
    for the feature asked for: the same result, in every detail. *)
Theorem C19_features_isolated w w' c hint out t : same_checks w w' -> same_places w w' -> w_good w' = w_good w ->
  (forall i p, file_agree (feature_of w (option_map ci_feature c)) (w_file w i p) (w_file w' i p)) ->
  acquire_license w c hint out t = acquire_license w' c hint out t.
Proof. intros HC HP HG HF. apply acquire_same; [exact HC|exact HP| |]; intros; [rewrite HG; reflexivity|apply file_agree_alike, HF]. Qed.
Print Assumptions C19_features_isolated.
(** The same for licenses passed as text. *)
Theorem C19_hints_isolated w c out t text text' : text <> [] -> text' <> [] -> ~ In NUL text -> ~ In NUL text' ->
  length text <= HINT_SIZE -> length text' <= HINT_SIZE ->
  section_entries text (feature_of w (option_map ci_feature c)) = section_entries text' (feature_of w (option_map ci_feature c)) ->
  acquire_license w c (Some {| loc_type := 1; loc_data := text ++ [NUL] |}) out t =
  acquire_license w c (Some {| loc_type := 1; loc_data := text' ++ [NUL] |}) out t.
Proof.
  intros N1 N2 F1 F2 L1 L2 E. apply nul_free_in in F1. apply nul_free_in in F2. apply acquire_hints, hint_twin; try (apply starts_app; assumption); try (cbn; auto; fail).
  unfold hint_text. cbn [loc_data loc_type]. rewrite !array_text_eq by assumption. change (1 =? 2)%Z with false. cbn. rewrite E. auto using alike_refl.
Qed.
Print Assumptions C19_hints_isolated.
(** Adding, removing or editing the sections of other features does not change the
    entries of a feature. [b]: a block of lines that opens a section of another name and
    then opens none of the name [f]. *)
Theorem C19_foreign_section f a b c : Forall plain_line (a ++ b ++ c) -> Forall not_open (a ++ b ++ c) ->
  (b = [] \/ exists l r n, b = l :: r /\ meaning l = LHeader n) -> (forall l n, In l b -> meaning l = LHeader n -> same_nameb n f = false) ->
  (c = [] \/ exists l r, c = l :: r /\ header_line l) ->
  section_entries (unlines (a ++ b ++ c)) f = section_entries (unlines (a ++ c)) f.
Proof. apply foreign_block. Qed.
Print Assumptions C19_foreign_section.
(** the sections of two other features come and go *)
Example C19_case : let more := LINE "[other]" ++ LINE "valid-to=never" ++ good_license ++ LINE "[demo2]" ++ LINE "lic_ver=7" in
  section_entries more (bs "demo") = section_entries good_license (bs "demo") /\
  code_of (acquire_license (demo false false NOW [] []) (Some (asking "demo")) (Some (hint_of 1 more)) None 0) = Ok LICENSE_OK /\
  code_of (acquire_license (demo false false NOW [] []) (Some (asking "demo2")) (Some (hint_of 1 more)) None 0) = Ok LICENSE_MALFORMED.
Proof. cbv zeta. split; [vm_compute; reflexivity|]. split; vm_compute; reflexivity. Qed.

(** ** C50 *)
Theorem C50_size_limit w w' c hint out t : same_checks w w' -> same_places w w' -> w_good w' = w_good w ->
  (forall i p, match w_file w i p, w_file w' i p with
               | Some a, Some b => cstr (readable a) = cstr (readable b)
               | None, None => True
               | _, _ => False
               end) ->
  acquire_license w c hint out t = acquire_license w' c hint out t.
Proof.
  intros HC HP HG HF. apply C19_features_isolated; [exact HC|exact HP|exact HG|]. intros i p. specialize (HF i p). unfold file_agree.
  destruct (w_file w i p), (w_file w' i p); try contradiction; try exact I. apply entries_same, HF.
Qed.
Print Assumptions C50_size_limit.
(** what matters of a file of n bytes: those before position 4096 and before the first NUL *)
Theorem C50_readable_part (d junk : bytes) : length d = HINT_SIZE \/ In NUL d ->
  cstr (readable {| f_size := N.of_nat (length (d ++ junk)); f_data := d ++ junk |}) = cstr (firstn HINT_SIZE d).
Proof.
  assert (P : forall a b, In NUL a -> cstr (a ++ b) = cstr a).
  { intros a b H. destruct (cstr_split a) as [E|[x E]]; [exfalso; apply nul_free_in in H; [exact H|]; rewrite <- E; apply cstr_nul_free|]. rewrite E at 1. rewrite <- app_assoc. cbn [app]. rewrite cstr_app_nul by apply cstr_nul_free. reflexivity. }
  intros H. unfold readable. cbn [f_size f_data]. set (n := N.to_nat (N.min (N.of_nat (length (d ++ junk))) 4096)).
  assert (E : firstn n (d ++ junk) = firstn HINT_SIZE (d ++ junk)).
  { destruct (Nat.le_gt_cases (length (d ++ junk)) HINT_SIZE) as [L|L].
    - rewrite (firstn_all2 (n := HINT_SIZE)) by exact L. apply firstn_all2. unfold n, HINT_SIZE in *. lia.
    - f_equal. unfold n, HINT_SIZE in *. lia. }
  rewrite E, firstn_app. destruct H as [H|H].
  - replace (HINT_SIZE - length d) with 0 by lia. cbn [firstn]. rewrite app_nil_r. reflexivity.
  - destruct (Nat.le_gt_cases (length d) HINT_SIZE) as [L|L].
    + rewrite (firstn_all2 d L). apply P, H.
    + replace (HINT_SIZE - length d) with 0 by lia. cbn [firstn]. rewrite app_nil_r. reflexivity.
Qed.
Print Assumptions C50_readable_part.

(** ** C51 *)
Definition looked_for (ev : event) : bool := match ev_type ev with LICENSE_FOUND | LICENSE_FILE_NOT_FOUND => true | _ => false end.
Definition on_disk (s : source) : bool := match s with SFile _ | SNamed _ _ => true | _ => false end.
Section ORDER.
Let lf (p : event_type * bytes) : bool := match fst p with LICENSE_FOUND | LICENSE_FILE_NOT_FOUND => true | _ => false end.
Let F (l : trace) : list bytes := map snd (filter lf l).
Lemma F_app a b : F (a ++ b) = F a ++ F b.
Proof. unfold F. rewrite filter_app, map_app. reflexivity. Qed.
Lemma F_looked w f m t t' an ss rs : Forall2 (reported w f m t t') ss rs -> F (zip_with (looked an) ss rs) = map (fun s => firstn 1024 (cstr (name_of s))) (filter on_disk ss).
Proof.
  induction 1 as [|s r ss rs Hs HF IH]; [reflexivity|]. cbn [zip_with filter]. rewrite F_app, IH. destruct s; cbn [on_disk looked map]; try reflexivity; destruct an, (missing r); reflexivity.
Qed.
Lemma F_none w f m t t' (g : report -> list event_type) ss rs : Forall2 (reported w f m t t') ss rs ->
  (forall s r, reported w f m t t' s r -> forall e, In e (g r) -> lf (e, []) = false) -> F (zip_with (fun s r => about s (g r)) ss rs) = [].
Proof.
  intros HF HG. induction HF as [|s r ss rs Hs HF IH]; [reflexivity|]. cbn [zip_with]. rewrite F_app, IH, app_nil_r. specialize (HG s r Hs). unfold about, F.
  induction (g r) as [|e es IHe]; [reflexivity|]. cbn [map filter]. change (lf (e, firstn 1024 (cstr (name_of s)))) with (lf (e, [])). rewrite (HG e) by (left; reflexivity). apply IHe. intros x Hx. apply HG. right. exact Hx.
Qed.
Lemma reading_none w f m t t' s r e : reported w f m t t' s r -> In e (rp_reading r) -> lf (e, []) = false.
Proof. intros H. inversion H; subst; cbn [rp_reading In]; intros X; intuition (subst; reflexivity). Qed.
Lemma checking_none w f m t t' s r e : reported w f m t t' s r -> In e (rp_checking r) -> lf (e, []) = false.
Proof.
  intros H. inversion H as [| | |content sig code x steps P G Fo D C X]; subst; cbn [rp_checking In]; [intros []..|]. inversion C; subst; cbn [In]; intros [<-|X']; try reflexivity; try contradiction.
  destruct X' as [<-|[]]. inversion D; reflexivity.
Qed.
Lemma F_news w hint : Forall (fun g => F (g_news g) = []) (groups w hint).
Proof.
  unfold groups. apply Forall_app. split; [destruct (w_near_module w); repeat constructor|]. apply Forall_app. split; [destruct (w_with_env w); [|constructor]|destruct hint; constructor; [|constructor]].
  - constructor; [cbn [g_news]; destruct (variable w LOCATION); reflexivity|]. constructor; [|constructor]. cbn [g_news]. destruct (variable w DATA) as [d|]; [destruct (looks d)|]; reflexivity.
  - cbn [g_news]. destruct (cstr _); reflexivity.
Qed.
Lemma F_trace w f m t t' gs rss : gs <> [] -> Forall (fun g => F (g_news g) = []) gs -> Forall2 (fun g rs => Forall2 (reported w f m t t') (g_sources g) rs) gs rss ->
  F (call_trace gs rss) = map (fun s => firstn 1024 (cstr (name_of s))) (filter on_disk (flat_map g_sources gs)).
Proof.
  intros Hn HN HF. unfold call_trace. destruct gs as [|g0 gs0] eqn:E; [contradiction|]. rewrite <- E in *. clear Hn E g0 gs0. rewrite F_app, (F_none w f m t t' rp_checking); [|apply Forall2_flat; exact HF|intros; eapply checking_none; eassumption].
  rewrite app_nil_r. induction HF as [|g rs gs rss Hg HF IH]; [reflexivity|]. inversion HN as [|? ? N1 N2]; subst. cbn [zip_with flat_map]. rewrite F_app, IH, filter_app, map_app by assumption. f_equal.
  unfold group_trace. rewrite !F_app, N1, (F_looked w f m t t'), (F_none w f m t t' rp_reading), app_nil_r; [reflexivity|exact Hg|intros; eapply reading_none; eassumption|exact Hg].
Qed.
Lemma sources_eq w hint : sources w hint = (if w_near_module w then module_sources w else []) ++ (if w_with_env w then location_sources w ++ data_sources w else []) ++ hint_sources hint.
Proof.
  unfold sources, groups. rewrite !flat_map_app. f_equal; [destruct (w_near_module w); cbn [flat_map g_sources]; rewrite ?app_nil_r; reflexivity|]. f_equal; [destruct (w_with_env w); cbn [flat_map g_sources]; rewrite ?app_nil_r; reflexivity|].
  destruct hint; cbn [flat_map g_sources]; rewrite ?app_nil_r; reflexivity.
Qed.
Lemma F_log log : map ev_ref (filter looked_for log) = F (map (fun ev => (ev_type ev, ev_ref ev)) log).
Proof. unfold F. induction log as [|e l IH]; [reflexivity|]. cbn [map filter]. unfold lf at 1. cbn [fst]. unfold looked_for at 1. destruct (ev_type e); cbn [map snd]; rewrite IH; reflexivity. Qed.
(** The files looked for, in the order of the log: beside the executable, those of
    LICENSE_LOCATION from left to right, those of the hint from left to right; nothing
    else, and disabled places not at all. *)
Theorem C51_search_order w c hint out t code o' t' : (forall i, order_ok (w_machine w i)) ->
  acquire_license w c hint (Some out) t = Ok ((code, Some o'), t') ->
  (w_near_module w = true \/ w_with_env w = true \/ hint <> None) ->
  exists log rest, o_status o' = map Some (skipn (length log - 5) log) ++ rest /\
    map ev_ref (filter looked_for log) =
    map (fun s => firstn 1024 (cstr (name_of s)))
        (filter on_disk ((if w_near_module w then module_sources w else []) ++ (if w_with_env w then location_sources w ++ data_sources w else []) ++ hint_sources hint)).
Proof.
  intros HO H HE. apply acquire_outcome in H as [Ht [rss [log H]]]; [|exact HO]. destruct (oc_info _ _ _ _ _ _ _ _ _ _ H out o' eq_refl eq_refl) as [_ [rest X]].
  exists log, rest. split; [exact X|]. rewrite F_log, (oc_log _ _ _ _ _ _ _ _ _ _ H). rewrite <- sources_eq. eapply F_trace; [|apply F_news|exact (oc_reports _ _ _ _ _ _ _ _ _ _ H)].
  unfold groups. destruct HE as [->|[->|HE]]; [discriminate|destruct (w_near_module w); discriminate|]. destruct hint; [|contradiction]. destruct (w_near_module w), (w_with_env w); discriminate.
Qed.
End ORDER.
Print Assumptions C51_search_order.
Example C51_case : let w := demo true true NOW files [("LICENSE_LOCATION"%string, bs "/b;/x")] in
  status_of (acquire_license w (Some (asking "none")) (Some (hint_of 0 (bs "/y;/z"))) (Some blank_out) 0) =
    Some (PRODUCT_NOT_LICENSED, map Some [(LICENSE_SPECIFIED, EXTERNAL); (LICENSE_SPECIFIED, bs "/y"); (LICENSE_FILE_NOT_FOUND, bs "/y"); (LICENSE_SPECIFIED, bs "/z"); (LICENSE_FILE_NOT_FOUND, bs "/z")]).
Proof. vm_compute. reflexivity. Qed.

(** Places that are disabled are not consulted: their values do not matter. Nor does
    any file that is not named by a place, nor the content of one that was not found. *)
Theorem C51_nothing_else w w' c hint out t : same_checks w w' -> same_places w w' ->
  (forall s p, In s (sources w hint) -> (s = SFile p \/ exists x, s = SNamed p x) -> forall i, w_good w' i (cstr p) = w_good w i (cstr p)) ->
  (forall p i j, In (SFile p) (sources w hint) -> t <= i < j -> w_good w i (cstr p) = true -> w_file w' j (cstr p) = w_file w j (cstr p)) ->
  acquire_license w c hint out t = acquire_license w' c hint out t.
Proof.
  intros HC HP HG HF. apply acquire_same; [exact HC|exact HP| |].
  - intros s p Hs Hp i. symmetry. eapply HG; eassumption.
  - intros p i j Hs Hi Hl. rewrite (HF p i j Hs Hi Hl). unfold file_alike. destruct (w_file w j (cstr p)); auto using alike_refl.
Qed.
Print Assumptions C51_nothing_else.
(** variables and executable change, nothing is enabled but the hint *)
Example C51_case_disabled : let w := demo false false NOW files [("LICENSE_LOCATION"%string, bs "/a")] in let w' := demo false false NOW (skipn 1 files) [] in
  same_checks w w' /\ same_places w w' /\ sources w (Some (hint_of 0 (bs "/b;/c"))) = [SFile (bs "/b"); SFile (bs "/c")] /\
  code_of (acquire_license w (Some (asking "demo")) (Some (hint_of 0 (bs "/b;/c"))) None 0) = Ok PRODUCT_EXPIRED.
Proof. cbv zeta. split; [repeat split|]. split; [repeat split; discriminate|]. split; vm_compute; reflexivity. Qed.

(** ** C52 *)
Lemma alphabet_nul c i : alpha_index c i -> c <> NUL.
Proof. intros H ->. apply nth_error_In in H. vm_compute in H. repeat (destruct H as [H|H]; [discriminate H|]). destruct H. Qed.
Lemma base64_nul_free d line out : base64 d line = Ok out -> nul_free out.
Proof.
  intros H. apply base64_rfc in H as [chars [idx [zeros [E [HA _]]]]]. apply nul_free_in. intros N.
  assert (X : In NUL (strip_lf out)) by (apply filter_In; split; [exact N|reflexivity]). rewrite E in X. apply in_app_or in X as [X|X]; [|apply repeat_spec in X; discriminate].
  clear -HA X. induction HA as [|c i l l' Hc HA IH]; [destruct X|]. destruct X as [->|X]; [eapply alphabet_nul; [exact Hc|reflexivity]|auto].
Qed.
(** An encoded license that includes a terminating NUL is treated like the plain one. *)
Theorem C52_encoded_with_nul w c out t text line enc : ~ In NUL text -> 2 <= length text -> length text <= HINT_SIZE ->
  base64 (text ++ [NUL]) line = Ok enc -> length enc <= HINT_SIZE ->
  acquire_license w c (Some {| loc_type := 2; loc_data := enc ++ [NUL] |}) out t =
  acquire_license w c (Some {| loc_type := 1; loc_data := text ++ [NUL] |}) out t.
Proof.
  intros HN L1 L2 HB L3. apply nul_free_in in HN. pose proof (base64_nul_free _ _ _ HB) as HE.
  destruct (base64_round_trip (text ++ [NUL]) line) as [enc' [E1 E2]]; [rewrite app_length; cbn; lia|]. rewrite HB in E1. injection E1 as <-.
  assert (Ht : text <> []) by (intros ->; cbn in L1; lia). assert (He : enc <> []) by (intros ->; discriminate E2 || (vm_compute in E2; injection E2 as E2; destruct text; discriminate)).
  apply acquire_hints, hint_twin; try (apply starts_app; assumption); try (cbn; auto; fail).
  unfold hint_text. cbn [loc_data loc_type]. rewrite !array_text_eq by assumption. change (1 =? 2)%Z with false. change (2 =? 2)%Z with true. cbn [rbind]. cbv iota. rewrite E2. cbn [rbind]. rewrite vector_text by exact HN. cbn. auto using alike_refl.
Qed.
Print Assumptions C52_encoded_with_nul.
(** One that does not include a NUL, as every license text encoded in the usual way:
    no call returns. *)
Theorem C52_encoded_refuted w c out t text line enc : (forall i, order_ok (w_machine w i)) -> ~ In NUL text -> 3 <= length text ->
  base64 text line = Ok enc -> length enc <= HINT_SIZE ->
  forall r, acquire_license w c (Some {| loc_type := 2; loc_data := enc ++ [NUL] |}) out t <> Ok r.
Proof.
  intros HO HN L HB L3 [[code out'] t'] H. pose proof (base64_nul_free _ _ _ HB) as HE.
  destruct (base64_round_trip text line L) as [enc' [E1 E2]]. rewrite HB in E1. injection E1 as <-.
  assert (He : enc <> []) by (intros ->; vm_compute in E2; injection E2 as E2; subst text; cbn in L; lia).
  assert (Ec : cstr (firstn HINT_SIZE (enc ++ [NUL])) = enc).
  { rewrite firstn_app, (firstn_all2 enc) by exact L3. destruct (HINT_SIZE - length enc) as [|n]; cbn [firstn].
    - rewrite app_nil_r. apply cstr_id, HE.
    - rewrite firstn_nil. apply cstr_app_nul, HE. }
  apply acquire_outcome in H as [Ht [rss [log H]]]; [|exact HO].
  assert (Hs : In (SEncoded EXTERNAL enc) (sources w (Some {| loc_type := 2; loc_data := enc ++ [NUL] |}))).
  { rewrite sources_eq. apply in_or_app. right. apply in_or_app. right. unfold hint_sources. cbn [loc_type loc_data]. rewrite Ec. destruct enc; [contradiction|]. left. reflexivity. }
  destruct (Forall2_in_l _ _ _ _ (outcome_reports _ _ _ _ _ _ _ _ _ _ H) Hs) as [r [_ R]].
  assert (G : forall x, ~ given w t t' (SEncoded EXTERNAL enc) x) by (intros x G; inversion G as [| |n s E N|]; subst; apply unbase64_ok in E2 as [_ E2]; rewrite <- E2 in N; contradiction).
  inversion R as [i Hi Hl|c' P Gc E|c' P Gc E N|c' sig' code' x steps P Gc Fo D C X]; subst r; [discriminate Hl|destruct (G _ Gc)..].
Qed.
Print Assumptions C52_encoded_refuted.
(** a valid license, plain, encoded with its terminator, and encoded *)
Example C52_case : exists enc enc0, base64 free_license 0 = Ok enc /\ base64 (free_license ++ [NUL]) 0 = Ok enc0 /\
  let run z d := code_of (acquire_license (demo false false NOW [] []) (Some (asking "demo")) (Some (hint_of z d)) None 0) in
  run 1%Z free_license = Ok LICENSE_OK /\ run 2%Z enc0 = Ok LICENSE_OK /\ run 2%Z enc = Undef UbRead.
Proof. eexists _, _. split; [vm_compute; reflexivity|]. split; [vm_compute; reflexivity|]. cbv zeta. split; [vm_compute; reflexivity|]. split; vm_compute; reflexivity. Qed.

(** ** C53 *)
(** What LICENSE_DATA contains does not matter, beyond its format: any two values of
    the same format give the same result. *)
Theorem C53_data_refuted w w' c hint out t d d' : same_checks w w' -> w_good w' = w_good w -> w_file w' = w_file w ->
  w_near_module w' = w_near_module w -> w_with_env w' = w_with_env w -> w_module w' = w_module w ->
  (forall v, v <> DATA -> w_getenv w' v = w_getenv w v) ->
  variable w DATA = Some d -> variable w' DATA = Some d' -> looks d' = looks d ->
  acquire_license w c hint out t = acquire_license w' c hint out t.
Proof.
  intros HC HG HF P1 P2 P3 HV D D' I. rewrite !looks_eq in I. apply acquire_twin; [exact HC|]. set (f := feature_of w (option_map ci_feature c)).
  assert (EA : get_active_strategies w' hint = get_active_strategies w hint) by (unfold get_active_strategies; rewrite P1, P2; reflexivity). rewrite EA.
  assert (HA : forall l, twin w w' f t l l).
  2:{ clear -HA. induction (get_active_strategies w hint) as [|l ls IH]; constructor; [apply HA|apply IH]. }
  assert (HL : w_getenv w' LOCATION = w_getenv w LOCATION) by (apply HV; discriminate).
  assert (FF : forall l x r t, filter_existing_files w l x r t = filter_existing_files w' l x r t) by (intros; apply filter_existing_ext; intros; rewrite HG; reflexivity).
  intros l. split.
  - intros r u _. destruct l as [| | |h]; cbn [license_locations].
    + unfold get_module_name. rewrite P3. destruct (w_module w); [|reflexivity]. apply mbind_ext; [unfold m_good; rewrite HG; reflexivity|reflexivity].
    + unfold env_set. change LICENSE_LOCATION_VAR with LOCATION. rewrite HL. destruct (w_getenv w LOCATION) as [[|]|]; try reflexivity. apply FF.
    + change (env_set w LICENSE_DATA_VAR) with (variable w DATA). change (env_set w' LICENSE_DATA_VAR) with (variable w' DATA). rewrite D, D', I. reflexivity.
    + destruct (loc_data h) as [|x y]; [reflexivity|]. destruct (Ascii.eqb x NUL); [reflexivity|]. apply mbind_ext; [reflexivity|]. intros. destruct (Z.eqb (loc_type h) 0); [|reflexivity]. apply mbind_ext; [reflexivity|]. intros. apply FF.
  - intros r u ids r' t' _ _ id _ x _. apply agree_eq. destruct l as [| | |h]; cbn [retrieve_license_content]; try (apply mbind_ext; [unfold m_file; rewrite HF; reflexivity|reflexivity]).
    + change LICENSE_LOCATION_VAR with LOCATION. rewrite HL. change (env_set w LICENSE_DATA_VAR) with (variable w DATA). change (env_set w' LICENSE_DATA_VAR) with (variable w' DATA). rewrite D, D', I. reflexivity.
    + destruct (beqb (cstr id) EXTERNAL_NAME); [reflexivity|]. apply mbind_ext; [unfold m_file; rewrite HF; reflexivity|reflexivity].
Qed.
Print Assumptions C53_data_refuted.
(** What is examined instead is LICENSE_LOCATION, taken as text: with a license there
    and a stub in LICENSE_DATA the call succeeds; with a valid license in LICENSE_DATA
    it does not. *)
Example C53_case : let run env := code_of (acquire_license (demo false true NOW [] env) (Some (asking "demo")) None None 0) in
  run [("LICENSE_DATA"%string, free_license); ("LICENSE_LOCATION"%string, bs "/nowhere")] = Ok LICENSE_FILE_NOT_FOUND /\
  run [("LICENSE_DATA"%string, bs "[x]"); ("LICENSE_LOCATION"%string, free_license)] = Ok LICENSE_OK /\
  run [("LICENSE_DATA"%string, free_license)] = Undef UbNull.
Proof. cbv zeta. split; [vm_compute; reflexivity|]. split; vm_compute; reflexivity. Qed.
