(** The verdict on a license text that is the only one, on any platform. *)
From Verif Require Import Base CTypes StringUtils Dates Base64 HwId Registry Ini Network Disks ExecEnv Strategies Locate Licensecc.
From Verif Require Import P_Base Spec_Listing Spec_Strings Spec_Base64 Spec_Dates Spec_Ini P_Ini P_IniSave Spec_HwId Spec_Hw Spec_Registry P_Registry Spec_Acquire P_Acquire1 P_Acquire2 P_Acquire3 P_Acquire4 P_Acquire5 Spec_AcquireGen P_AcqGen1 P_AcqGen2 Spec_Ext P_Ext Spec_Layout P_Layout Spec_Issue Spec_Refused Spec_Delivery P_Selected P_Delivery.
From Verif Require Import Prop_Issue.
From Coq Require Import Lia.

Section ANY.
Variables (w : world) (k : means).
Lemma report_shape f m t t' s r : p_reported w k f m t t' s r -> (forall i, listed w s i = true) -> rp_code r <> LICENSE_OK -> missing r = false /\ shape (rp_reading r) (rp_checking r) (rp_code r).
Proof.
  intros H L N. destruct H as [i _ X|content _ _ _|content _ _ _ _|content sig code x steps _ _ _ D C _]; cbn [rp_code rp_reading rp_checking missing] in *.
  - rewrite L in X. discriminate.
  - split; [reflexivity|constructor].
  - split; [reflexivity|constructor].
  - assert (Y : failure code /\ event_eqb code LICENSE_FILE_NOT_FOUND = false) by (destruct D; try (destruct (N eq_refl)); (split; [intros n T; inversion T|reflexivity])).
    destruct Y as [Y1 Y3]. split; [exact Y3|]. destruct C as [_|_ _|code _ _]; [constructor|destruct (N eq_refl)|constructor; assumption].
Qed.
Lemma report_absent f m t t' room s s' r : room <= 1024 -> length (cstr (name_of s)) < room -> elsewhere room w s s' -> p_reported w k f m t t' s' r ->
  absent (firstn 1024 (cstr (name_of s))) s' r /\ rp_told r = None /\ rp_code r = LICENSE_FILE_NOT_FOUND.
Proof.
  intros HR L [[p ->] [N [U L']]] H.
  assert (P : ~ present w t t' (SFile p)) by (intros [i [_ X]]; rewrite U in X; discriminate).
  destruct H as [i _ X|content X _ _|content X _ _ _|content sig code x steps X _ _ _ _ _]; try contradiction. split; [|auto]. split; [|auto]. rewrite !firstn_all2 by lia. exact N.
Qed.
(** the report about the source that is there; the rest says nothing *)
Lemma sole_report room c hint text s out t code out' t' rss log : room <= 1024 -> sole room w hint text s ->
  p_outcome w k c hint out t code out' t' rss log -> let q := firstn 1024 (cstr (name_of s)) in
  exists ra r rb ann, concat rss = ra ++ r :: rb /\ Forall (fun r => rp_told r = None /\ rp_code r = LICENSE_FILE_NOT_FOUND) (ra ++ rb) /\
    p_reported w k (feature_of w (option_map ci_feature c)) (magic_of (option_map ci_magic c)) t t' s r /\
    ons q (call_trace (groups w hint) rss) = ons q (looked ann s r) ++ ons q (about s (rp_reading r)) ++ ons q (about s (rp_checking r)).
Proof.
  intros HR [[a [b [S1 Sx]]] S2 S3 S4 _ _ _ _ S9] H q. set (f := feature_of w (option_map ci_feature c)). set (m := magic_of (option_map ci_magic c)).
  assert (Q : q = cstr (name_of s)) by (unfold q; apply firstn_all2; lia).
  assert (T : Forall (told_none q) (groups w hint)) by (rewrite Q; exact S9).
  destruct (call_ons q (groups w hint) rss a s b (p_reported w k f m t t') T S1 (p_oc_reports _ _ _ _ _ _ _ _ _ _ _ H)) as [ra [r [rb [ann [C [R [FA [FB O]]]]]]]].
  { intros s' r' I X. apply (report_absent _ _ _ _ _ _ _ _ HR S4 (Sx _ I) X). }
  exists ra, r, rb, ann. split; [exact C|]. split; [|split; [exact R|exact O]].
  pose proof (Forall2_app FA FB) as F. assert (I : forall s', In s' (a ++ b) -> elsewhere room w s s') by exact Sx. clear -F I HR S4. induction F as [|x y l l' X _ IH]; constructor; [apply (report_absent _ _ _ _ _ _ _ _ HR S4 (I x (or_introl eq_refl)) X)|]. apply IH. intros s' J. apply I. right. exact J.
Qed.
Lemma about_ons s es : (forall e, In e es -> e <> LICENSE_SPECIFIED) -> ons (firstn 1024 (cstr (name_of s))) (about s es) = about s es.
Proof.
  intros H. unfold about. induction es as [|e es IH]; [reflexivity|]. cbn [map filter]. rewrite IH by (intros x X; apply H; right; exact X). unfold ons_b. cbn [fst snd]. rewrite beqb_refl. cbn [orb andb].
  pose proof (H e (or_introl eq_refl)) as E. destruct e; try reflexivity. contradiction.
Qed.
(** ... and it is what is reported *)
Lemma sole_refused room c hint text s out t code out' t' rss log : room <= 1024 -> sole room w hint text s ->
  p_outcome w k c hint out t code out' t' rss log ->
  stands_out w hint s \/ section_entries text (feature_of w (option_map ci_feature c)) <> [] ->
  exists ra r rb, concat rss = ra ++ r :: rb /\ Forall (fun r => rp_told r = None /\ rp_code r = LICENSE_FILE_NOT_FOUND) (ra ++ rb) /\
    p_reported w k (feature_of w (option_map ci_feature c)) (magic_of (option_map ci_magic c)) t t' s r /\ code = rp_code r.
Proof.
  intros HR So H ST. destruct (sole_report room c hint text s out t code out' t' rss log HR So H) as [ra [r [rb [ann [C [A [R O]]]]]]]. exists ra, r, rb. split; [exact C|]. split; [exact A|]. split; [exact R|].
  pose proof (p_oc_ok _ _ _ _ _ _ _ _ _ _ _ H) as OK.
  destruct (event_eq_dec (rp_code r) LICENSE_OK) as [E|N].
  { rewrite E. apply OK. rewrite C. apply in_map_iff. exists r. split; [exact E|apply in_or_app; right; left; reflexivity]. }
  assert (NC : code <> LICENSE_OK).
  { intros X. apply OK in X. rewrite C in X. apply in_map_iff in X as [r' [X I]]. apply in_app_or in I as [I|[I|I]]; [| subst r'; contradiction|]; (assert (J : In r' (ra ++ rb)) by (apply in_or_app; auto)); apply (proj1 (Forall_forall _ _) A) in J as [_ J]; congruence. }
  destruct (p_oc_fail _ _ _ _ _ _ _ _ _ _ _ H NC) as [st [ref [Fu Sel]]]. set (L := call_trace (groups w hint) rss) in *. set (q := firstn 1024 (cstr (name_of s))) in *.
  destruct (report_shape _ _ _ _ _ _ R (so_listed _ _ _ _ _ So) N) as [M Sh].
  assert (LK : ons q (looked ann s r) = match s with SFile _ | SNamed _ _ => [(LICENSE_FOUND, q)] | _ => [] end).
  { unfold looked. rewrite M. assert (B : beqb q q = true) by apply beqb_refl. destruct s; try reflexivity; destruct ann; unfold about, q; cbn [map app filter]; unfold ons_b; cbn [fst snd]; fold q; rewrite ?B; reflexivity. }
  rewrite LK in O. unfold q in O.
  assert (NS : forall e, failure e -> e <> LICENSE_SPECIFIED) by (intros e X ->; destruct (X 0%Z); constructor).
  assert (N1 : forall e, In e (rp_reading r) -> e <> LICENSE_SPECIFIED) by (intros e I; inversion Sh as [E1 E2|E1 E2|E1 E2|c' Hc E1 E2]; rewrite <- E1 in I; cbn [In] in I; intuition congruence).
  assert (N2 : forall e, In e (rp_checking r) -> e <> LICENSE_SPECIFIED) by (intros e I; inversion Sh as [E1 E2|E1 E2|E1 E2|c' Hc E1 E2 E3]; rewrite <- E2 in I; cbn [In] in I; try (specialize (NS _ Hc)); intuition congruence).
  rewrite (about_ons s _ N1), (about_ons s _ N2) in O.
  unfold about in O. fold q in O. match type of O with _ = ?x ++ _ => set (fd := x) in * end.
  assert (FD : forall x, In x fd -> x = (LICENSE_FOUND, q)) by (intros x I; unfold fd in I; destruct s; cbn [In] in I; intuition congruence).
  assert (FF : forall p, s = SFile p -> fd = [(LICENSE_FOUND, q)]) by (intros p Es; unfold fd; rewrite Es; reflexivity). clearbody fd.
  inversion Sh as [E1 E2 E3|E1 E2 E3|E1 E2 E3|c' Hc E1 E2 E3]; rewrite <- E1, <- E2 in O; cbn [map app] in O.
  - (* the feature is not in the text *)
    destruct ST as [[[p Es]|[G [x [Gs [Es Q]]]]]|ST].
    + rewrite (FF _ Es) in O. cbn [app] in O.
      refine (selects_high L q [(LICENSE_FOUND, q)] PRODUCT_NOT_LICENSED 1 st code ref O _ _ _ _ _ Fu Sel); [intros x [<-|[]]; reflexivity|intros n T; inversion T|exists LICENSE_FOUND; split; [left; reflexivity|constructor]| |lia].
      intros e' m' [X|[]] T. injection X as <-. inversion T. lia.
    + assert (EN : section_entries text (feature_of w (option_map ci_feature c)) = []).
      { inversion R as [i _ X Y|content _ GV E Y|content _ GV E X Y|content sig code' z steps _ GV F _ _ D Y]; subst r; cbn [rp_reading rp_code] in E1, E3; try discriminate. rewrite (so_given _ _ _ _ _ So _ _ _ GV) in E. exact E. }
      pose proof (p_oc_reports _ _ _ _ _ _ _ _ _ _ _ H) as FR. rewrite Gs in FR. unfold L in Fu, Sel. rewrite Gs in Fu, Sel. apply Forall2_app_l in FR as [R1 [R2 [Er [F1 F2]]]]. inversion F2 as [|? rs ? R3 Fg F3]; subst R2. inversion F3; subst R3. cbn [g_sources] in Fg. inversion Fg as [|? r0 ? rr Fr0 Fn]; subst rs. inversion Fn; subst rr. clear F2 F3 Fg Fn.
      assert (AB : forall s' r', In s' (sources w hint) -> p_reported w k (feature_of w (option_map ci_feature c)) (magic_of (option_map ci_magic c)) t t' s' r' ->
        (forall x n, In x (looked false s' r' ++ about s' (rp_reading r')) -> ~ stage (fst x) n) /\ rp_checking r' = []).
      { intros s' r' I' P'. destruct (sole_in _ _ _ _ _ _ So I') as [->|El].
        - inversion P' as [i _ X Y|content _ GV E Y|content _ GV E X Y|content sig code' z steps _ GV F _ _ D Y]; subst r'; [rewrite (so_listed _ _ _ _ _ So) in X; discriminate| |rewrite (so_given _ _ _ _ _ So _ _ _ GV) in E; contradiction|].
          + split; [|reflexivity]. intros y n I T. apply in_app_or in I as [I|I]; [destruct Es as [-> | ->]; destruct I|]. destruct I as [<-|[]]. inversion T.
          + rewrite (so_given _ _ _ _ _ So _ _ _ GV), EN in F. destruct F as [F _]. discriminate F.
        - destruct (report_absent _ _ _ _ _ _ _ _ HR (so_name _ _ _ _ _ So) El P') as [[_ [X1 [X2 X3]]] _]. split; [|exact X2]. rewrite X1. intros y n I T. rewrite app_nil_r in I. unfold looked in I. rewrite X3 in I. destruct El as [[p ->] _]. destruct I as [<-|[]]. inversion T. }
      assert (SR : sources w hint = flat_map g_sources G ++ [s]) by (unfold sources; rewrite Gs, flat_map_app; reflexivity).
      assert (CK : forall l rs, (forall s', In s' l -> In s' (sources w hint)) -> Forall2 (p_reported w k (feature_of w (option_map ci_feature c)) (magic_of (option_map ci_magic c)) t t') l rs ->
        zip_with (fun s r => about s (rp_checking r)) l rs = []).
      { intros lq rq I F. induction F as [|s' r' lp rp P' _ IH]; [reflexivity|]. cbn [zip_with]. rewrite (proj2 (AB _ _ (I _ (or_introl eq_refl)) P')). cbn [about map app]. apply IH. intros y Y. apply I. right. exact Y. }
      assert (Er0 : rp_reading r0 = [PRODUCT_NOT_LICENSED] /\ looked true s r0 = []).
      { inversion Fr0 as [i _ X Y|content _ GV E Y|content _ GV E X Y|content sig code' z steps _ GV F _ _ D Y]; subst r0; [rewrite (so_listed _ _ _ _ _ So) in X; discriminate| |rewrite (so_given _ _ _ _ _ So _ _ _ GV) in E; contradiction|].
        - split; [reflexivity|]. destruct Es as [-> | ->]; reflexivity.
        - rewrite (so_given _ _ _ _ _ So _ _ _ GV), EN in F. destruct F as [F _]. discriminate F. }
      assert (LE : call_trace (G ++ [{| g_news := [(LICENSE_SPECIFIED, EXTERNAL)]; g_announce := true; g_sources := [s] |}]) rss = zip_with group_trace G R1 ++ [(LICENSE_SPECIFIED, EXTERNAL); (PRODUCT_NOT_LICENSED, EXTERNAL)]).
      { subst rss. assert (CT : forall gs' rss', gs' <> [] -> call_trace gs' rss' = zip_with group_trace gs' rss' ++ zip_with (fun s r => about s (rp_checking r)) (flat_map g_sources gs') (concat rss')) by (intros [|? ?] ? Hn; [contradiction|reflexivity]).
        rewrite CT by (destruct G; discriminate). rewrite <- Gs. rewrite CK with (l := flat_map g_sources (groups w hint)); [|intros y Y; exact Y|exact (p_outcome_reports _ _ _ _ _ _ _ _ _ _ _ H)].
        rewrite Gs, app_nil_r, zip_app by (eapply Forall2_len; exact F1). cbn [zip_with]. unfold group_trace at 2. cbn [zip_with g_news g_announce g_sources]. rewrite (proj1 Er0), (proj2 Er0). rewrite !app_nil_r. f_equal. cbn [app about map]. destruct Es as [-> | ->]; reflexivity. }
      rewrite LE in Fu, Sel. refine (selects_low (zip_with group_trace G R1) EXTERNAL PRODUCT_NOT_LICENSED st code ref _ _ Fu Sel); [|intros n T; inversion T].
      assert (GI : forall s', In s' (flat_map g_sources G) -> In s' (sources w hint)) by (intros s' I; rewrite SR; apply in_or_app; auto).
      clear -F1 Q AB GI. induction F1 as [|g rs G R1 Fg _ IH]; [intros ? ? []|]. inversion Q as [|? ? [Q1 Q2] Q3]; subst. intros y n I T. cbn [zip_with] in I. apply in_app_or in I as [I|I]; [|refine (IH Q3 _ y n I T); intros s' J; apply GI; cbn [flat_map]; apply in_or_app; auto].
      unfold group_trace in I. apply in_app_or in I as [I|I]; [exact (Q1 _ _ I T)|].
      destruct Q2 as [Q2|Q2]; [|rewrite Q2 in I, Fg; inversion Fg; subst; destruct I]. rewrite Q2 in I.
      assert (GI' : forall s', In s' (g_sources g) -> In s' (sources w hint)) by (intros s' J; apply GI; cbn [flat_map]; apply in_or_app; auto). clear -Fg AB GI' I T.
      induction Fg as [|s' r' l rs P' _ IH]; [destruct I|]. cbn [zip_with] in I. rewrite !in_app_iff in I. destruct (AB _ _ (GI' _ (or_introl eq_refl)) P') as [Z _].
      destruct I as [[I|I]|[I|I]]; [exact (Z y n (in_or_app _ _ _ (or_introl I)) T)| |exact (Z y n (in_or_app _ _ _ (or_intror I)) T)|]; apply IH; try (intros; apply GI'; right; assumption); apply in_or_app; auto.
    + exfalso. inversion R as [i _ X Y|content _ G E Y|content _ G E X Y|content sig code' z steps _ G F _ _ D Y]; subst r; cbn in E3, E1; try discriminate.
      rewrite (so_given _ _ _ _ _ So _ _ _ G) in E. contradiction.
  - refine (selects_high L q (fd ++ [(PRODUCT_FOUND, q)]) LICENSE_MALFORMED 2 st code ref _ _ _ _ _ _ Fu Sel).
    + rewrite O. rewrite <- app_assoc. reflexivity.
    + intros x X. apply in_app_or in X as [X|[<-|[]]]; [rewrite (FD _ X)|]; reflexivity.
    + intros n T; inversion T.
    + exists PRODUCT_FOUND. split; [apply in_or_app; right; left; reflexivity|constructor].
    + intros e' m' X T. apply in_app_or in X as [X|[X|[]]]; [apply FD in X; injection X as ->|injection X as <-]; inversion T; lia.
    + lia.
  - refine (selects_high L q (fd ++ [(PRODUCT_FOUND, q)]) LICENSE_CORRUPTED 2 st code ref _ _ _ _ _ _ Fu Sel).
    + rewrite O. rewrite <- app_assoc. reflexivity.
    + intros x X. apply in_app_or in X as [X|[<-|[]]]; [rewrite (FD _ X)|]; reflexivity.
    + intros n T; inversion T.
    + exists PRODUCT_FOUND. split; [apply in_or_app; right; left; reflexivity|constructor].
    + intros e' m' X T. apply in_app_or in X as [X|[X|[]]]; [apply FD in X; injection X as ->|injection X as <-]; inversion T; lia.
    + lia.
  - rewrite <- E3 in Hc |- *. refine (selects_high L q (fd ++ [(PRODUCT_FOUND, q); (SIGNATURE_VERIFIED, q)]) c' 3 st code ref _ _ _ _ _ _ Fu Sel).
    + rewrite O. rewrite <- app_assoc. reflexivity.
    + intros x X. apply in_app_or in X as [X|[<-|[<-|[]]]]; [rewrite (FD _ X)| |]; reflexivity.
    + exact Hc.
    + exists SIGNATURE_VERIFIED. split; [apply in_or_app; right; right; left; reflexivity|constructor].
    + intros e' m' X T. apply in_app_or in X as [X|[X|[X|[]]]]; [apply FD in X; injection X as ->|injection X as <-|injection X as <-]; inversion T; lia.
    + lia.
Qed.
Lemma sole_code room c hint text s out t code out' t' rss log : room <= 1024 -> sole room w hint text s ->
  p_outcome w k c hint out t code out' t' rss log ->
  stands_out w hint s \/ section_entries text (feature_of w (option_map ci_feature c)) <> [] ->
  p_diagnosis w k (feature_of w (option_map ci_feature c)) (magic_of (option_map ci_magic c)) t t' (section_entries text (feature_of w (option_map ci_feature c))) code.
Proof.
  intros HR So H ST. destruct (sole_refused _ _ _ _ _ _ _ _ _ _ _ _ HR So H ST) as [ra [r [rb [_ [_ [R ->]]]]]].
  destruct (p_reported_diagnosis _ _ _ _ _ _ _ _ R) as [[_ [i [_ X]]]|[content [_ [G D]]]]; [rewrite (so_listed _ _ _ _ _ So) in X; discriminate|]. rewrite <- (so_given _ _ _ _ _ So _ _ _ G). exact D.
Qed.
(** what the caller is told about it *)
Lemma sole_told room c hint text s x t code y t' rss log : room <= 1024 -> sole room w hint text s ->
  p_outcome w k c hint (Some x) t code (Some y) t' rss log ->
  let es := section_entries text (feature_of w (option_map ci_feature c)) in
  ((forall sig, ~ license_form es sig) /\ license_fields y = (o_expiry_date x, Some 0%Z, o_has_expiry x, Some false, Some [])) \/
  ((exists sig, license_form es sig) /\ exists z, describes w t t' es z /\ license_fields y = (Some (td_expiry z), Some (td_days z), Some (td_has_expiry z), Some (td_linked z), td_proprietary z)).
Proof.
  intros HR So H es. destruct (sole_report room c hint text s _ t code _ t' rss log HR So H) as [ra [r [rb [_ [C [A [R _]]]]]]].
  destruct (p_oc_info _ _ _ _ _ _ _ _ _ _ _ H x y eq_refl eq_refl) as [I _]. rewrite C in I.
  assert (K : (rp_told r = None /\ forall sig, ~ license_form es sig) \/ (exists sig, license_form es sig) /\ exists z, rp_told r = Some z /\ describes w t t' es z).
  { destruct R as [i _ X|content _ G E|content _ G E X|content sig code' z steps _ G F _ _ D]; cbn [rp_told].
    - rewrite (so_listed _ _ _ _ _ So) in X. discriminate.
    - left. split; [reflexivity|]. rewrite (so_given _ _ _ _ _ So _ _ _ G) in E. fold es in E. intros sig [B _]. rewrite E in B. discriminate.
    - left. split; [reflexivity|]. rewrite (so_given _ _ _ _ _ So _ _ _ G) in X. exact X.
    - right. rewrite (so_given _ _ _ _ _ So _ _ _ G) in F, D. split; [exists sig; exact F|]. exists z. split; [reflexivity|exact D]. }
  apply Forall_app in A as [A1 A2].
  assert (TN : forall b l, Forall (fun r => rp_told r = None /\ rp_code r = LICENSE_FILE_NOT_FOUND) l -> tolds b l = []) by (intros b l F; induction F as [|r' l [E _] _ IH]; [reflexivity|]; unfold tolds; cbn [flat_map]; rewrite E; exact IH).
  assert (TE : forall b, tolds b (ra ++ r :: rb) = tolds b [r]) by (intros b; change (r :: rb) with ([r] ++ rb); unfold tolds; rewrite !flat_map_app; fold (tolds b ra) (tolds b rb) (tolds b [r]); rewrite (TN b ra A1), (TN b rb A2), app_nil_r; reflexivity).
  destruct K as [[KN KF]|[KF [z [KS KD]]]].
  - left. split; [exact KF|]. destruct I as [_ B1 B2 B3 B4 B5|z B _ _ _ _ _].
    + unfold license_fields. rewrite B1, B2, B3, B4, B5. reflexivity.
    + exfalso. rewrite TE in B. cbn [tolds flat_map] in B. rewrite KN in B. cbn in B. inversion B as [a ? b ? ? Q|a ? b ? ? ? Q]; destruct a; discriminate Q.
  - right. split; [exact KF|]. exists z. split; [exact KD|]. destruct I as [N _ _ _ _ _|z' B B1 B2 B3 B4 B5].
    + rewrite Forall_forall in N. assert (IR : In r (ra ++ r :: rb)) by (apply in_or_app; right; left; reflexivity). specialize (N r IR). congruence.
    + unfold license_fields. rewrite B1, B2, B3, B4, B5. assert (z' = z) as ->; [|reflexivity]. rewrite TE in B.
      cbn [tolds flat_map] in B. rewrite KS in B. rewrite app_nil_r in B. destruct (Bool.eqb _ _); inversion B as [a ? b ? ? Q|a ? b ? ? ? Q]; subst; destruct a as [|? a]; try discriminate Q; [injection Q; auto| |injection Q; auto|]; destruct a; discriminate Q.
Qed.
(** ... issued for the feature *)
Section ISSUED.
Variables (sign : bytes -> bytes) (f : bytes) (limits es : list (bytes * bytes)).
Hypothesis HI : issued sign f limits es.
Lemma any_good : mn_good k (signed_text f limits) (sign (signed_text f limits)) -> p_signature_good k f es (sign (signed_text f limits)).
Proof using HI. intros G. exists (lim es). split; [apply lim_of|]. rewrite (is_signed sign f limits es HI (lim es)) by apply lim_of. exact G. Qed.
Lemma any_verdict magic t t' code : (forall i, w_clock w i = w_clock w t) -> (forall i id, mn_ident k i id <-> mn_ident k t id) ->
  mn_good k (signed_text f limits) (sign (signed_text f limits)) -> p_diagnosis w k f magic t t' es code ->
  (magic = w_magic w -> in_time w limits (w_clock w t) -> (forall id, locked limits id -> mn_ident k t id) -> code = LICENSE_OK) /\
  (magic = w_magic w -> in_time w limits (w_clock w t) -> (exists id, locked limits id /\ ~ mn_ident k t id) -> code = IDENTIFIERS_MISMATCH) /\
  (magic = w_magic w -> out_of_time w limits (w_clock w t) -> code = PRODUCT_EXPIRED) /\
  (magic <> w_magic w -> code = LICENSE_CORRUPTED).
Proof using HI.
  intros CK MK HG G. pose proof (is_form _ _ _ _ HI) as Fo. pose proof (any_good HG) as Go.
  assert (FU : forall sig, license_form es sig -> sig = sign (signed_text f limits)) by (intros sig [X _]; destruct Fo as [Y _]; congruence).
  rewrite <- (is_time _ _ _ _ HI), <- (is_over _ _ _ _ HI).
  assert (LK : forall id, locked limits id <-> locked es id) by (intros id; rewrite (is_locked _ _ _ _ HI); reflexivity).
  destruct G as [X|_ X|sig X Y|sig X Y Z|sig i X Y M I O|sig i j id X Y M I T J K NI|i j I J [sig [X [Y [M [T K]]]]]].
  + exfalso. destruct Fo as [Fo _]. rewrite X in Fo. discriminate Fo.
  + destruct (X _ Fo).
  + rewrite (FU _ X) in Y. contradiction.
  + repeat split; intros; try contradiction.
  + rewrite CK in O. split; [|split; [|split]]; intros A; try contradiction; intros B; try (intros Q); try reflexivity; destruct (time_excl _ _ _ B O).
  + rewrite CK in T. rewrite MK in NI. split; [|split; [|split]]; intros A; try contradiction; intros B; try (intros Q); try reflexivity.
    * destruct NI. apply Q, LK, K.
    * destruct (time_excl _ _ _ T B).
  + rewrite CK in T. split; [|split; [|split]]; intros A; try contradiction; intros B; try (intros Q); try reflexivity.
    * destruct Q as [id [Q1 Q2]]. destruct Q2. apply (MK j), K, LK, Q1.
    * destruct (time_excl _ _ _ T B).
Qed.
End ISSUED.
Lemma absent_verdict f magic t t' code : p_diagnosis w k f magic t t' [] code -> code = PRODUCT_NOT_LICENSED.
Proof.
  intros G. destruct G as [X|X _|sig X Y|sig X Y Z|sig i X Y M I O|sig i j id X Y M I T J K NI|i j I J [sig [X [Y [M [T K]]]]]]; try reflexivity; try contradiction; destruct X as [X _]; discriminate X.
Qed.
End ANY.

(** ** Linux *)
Definition linux_means (w : world) : means :=
  {| mn_good := fun text sig => w_key_ok w = true /\ exists n data, w_bio w sig = (n, data) /\ (0 <= n < 512)%Z /\ w_verify w text (firstn (Z.to_nat n) data) = true;
     mn_ident := fun i code => identifies (w_machine w i) code |}.
Lemma linux_good w f es sig : signature_good w f es sig <-> p_signature_good (linux_means w) f es sig.
Proof.
  split.
  - intros [m [n [data [A [B [C [D E]]]]]]]. exists m. split; [exact A|]. split; [exact B|]. eauto 8.
  - intros [m [A [B [n [data [C [D E]]]]]]]. exists m, n, data. auto 8.
Qed.
Lemma linux_valid w f m es now j : valid_license w f m es now (w_machine w j) -> p_valid_license w (linux_means w) f m es now j.
Proof. intros [sig [A [B [C [D E]]]]]. exists sig. apply linux_good in B. auto 8. Qed.
Lemma linux_diagnosis w f m t t' es code : diagnosis w f m t t' es code -> p_diagnosis w (linux_means w) f m t t' es code.
Proof.
  intros H. destruct H as [E|E N|sig F N|sig F G N|sig i F G M Hi O|sig i j id F G M Hi O Hj L I|i j Hi Hj X].
  - apply p_dg_absent, E.
  - apply p_dg_malformed; assumption.
  - eapply p_dg_forged; [exact F|]. rewrite <- linux_good. exact N.
  - eapply p_dg_magic; [exact F| |exact N]. apply linux_good, G.
  - eapply p_dg_expired; [exact F|apply linux_good, G|exact M|exact Hi|exact O].
  - eapply p_dg_mismatch; [exact F|apply linux_good, G|exact M|exact Hi|exact O|exact Hj|exact L|exact I].
  - eapply p_dg_ok; [exact Hi|exact Hj|apply linux_valid, X].
Qed.
Lemma linux_reported w f m t t' s r : reported w f m t t' s r -> p_reported w (linux_means w) f m t t' s r.
Proof.
  intros H. destruct H as [i A B|content A B C|content A B C D|content sig code x steps A B C D E F].
  - eapply p_rep_missing; eassumption.
  - eapply p_rep_absent; eassumption.
  - eapply p_rep_malformed; eassumption.
  - eapply p_rep_license; [exact A|exact B|exact C|apply linux_diagnosis, D| |exact F]. destruct E as [X|X Y|code X Y]; constructor; try assumption; rewrite <- linux_good; assumption.
Qed.
Lemma linux_outcome w c hint out t code out' t' rss log : outcome w c hint out t code out' t' rss log -> p_outcome w (linux_means w) c hint out t code out' t' rss log.
Proof.
  intros [X1 X2 X3 X4 X5 X6 X7]. constructor; try assumption.
  clear -X1. induction X1 as [|g rs gs rss' Y X IH]; constructor; [|exact IH].
  clear -Y. induction Y; constructor; [apply linux_reported; assumption|assumption].
Qed.
(** in unchanging surroundings that judge alike, a text has one diagnosis *)
Lemma p_diagnosis_same w k w' k' f m t t' u u' es a b now :
  (forall x y, mn_good k x y <-> mn_good k' x y) -> (forall i j id, mn_ident k i id <-> mn_ident k' j id) ->
  w_magic w' = w_magic w -> w_mktime w' = w_mktime w -> (forall i, w_clock w i = now) -> (forall i, w_clock w' i = now) ->
  p_diagnosis w k f m t t' es a -> p_diagnosis w' k' f m u u' es b -> a = b.
Proof.
  intros HG HI HM HK C C' DA DB.
  assert (G : forall sig, p_signature_good k' f es sig <-> p_signature_good k f es sig) by (intros sig; unfold p_signature_good; split; intros [x [A B]]; exists x; (split; [exact A|]); apply HG; exact B).
  assert (I : in_time w' es now <-> in_time w es now) by (unfold in_time, dated; rewrite HK; reflexivity).
  assert (O : out_of_time w' es now <-> out_of_time w es now) by (unfold out_of_time, dated; rewrite HK; reflexivity).
  destruct DA as [E|E N|sig F N|sig F Gd N|sig i F Gd M Hi T|sig i j id F Gd M Hi T Hj L X|i j Hi Hj [sig [F [Gd [M [T L]]]]]];
  destruct DB as [E'|E' N'|sig' F' N'|sig' F' Gd' N'|sig' i' F' Gd' M' Hi' T'|sig' i' j' id' F' Gd' M' Hi' T' Hj' L' X'|i' j' Hi' Hj' [sig' [F' [Gd' [M' [T' L']]]]]]; try reflexivity; try congruence; exfalso;
  rewrite ?C in *; rewrite ?C' in *;
  try (match goal with F : license_form ?es _, E : ?es = [] |- _ => apply form_entries in F; congruence end);
  try (match goal with F : license_form ?es ?s, N : forall s, ~ license_form ?es s |- _ => destruct (N _ F) end);
  try (pose proof (form_fun _ _ _ F F'); subst sig'; try (apply G in Gd'); try (rewrite G in N'); try contradiction; try congruence).
  all: try (apply I in T'); try (apply O in T').
  all: try (eapply (in_out_time w); eassumption).
  - apply X. apply (HI j j'), L', L.
  - apply X'. apply (HI j j'), L, L'.
Qed.
