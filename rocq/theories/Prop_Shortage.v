(** C117: acquire_license when calls of OpenSSL fail. *)
From Verif Require Import Base CTypes StringUtils Dates Doubles Base64 HwId Registry Ini Network Disks ExecEnv Strategies Locate Licensecc Trace OpenSsl AcquireGen Shortage.
From Verif Require Import P_Base Spec_Strings Spec_Base64 Spec_Dates P_Strings P_Text P_Decode Spec_Ini P_Ini Spec_HwId Spec_Hw P_Hw2 Spec_Registry P_Registry Spec_Acquire P_Acquire1 P_Acquire2 P_Acquire3 P_Acquire4 P_Acquire5 Spec_AcquireGen P_AcqGen1 P_AcqGen2.
From Verif Require Import Ex_Acquire Prop_Acquire Prop_OpenSsl Prop_WinAcquire Spec_Shortage.
From Coq Require Import Lia.

(** What is accepted as a signature (C74). *)
Definition accepted (o : openssl) (text sig : bytes) : Prop :=
  os_key_bio o = true /\ os_key o = true /\ os_pkey o = true /\ os_assign o = true /\ os_ctx o = true /\ os_init o = true /\ os_update o text = true /\
  exists n data, obtained o sig n data /\ (0 <= n < 512)%Z /\ os_final o text (firstn (Z.to_nat n) data) = true.
Definition short_means (w : world) (o : bytes -> bytes -> openssl) : means :=
  {| mn_good := fun text sig => accepted (o text sig) text sig; mn_ident := fun i code => identifies (w_machine w i) code |}.

Lemma all_same w bk mg ls r ok bad t : bk_ref bk = MAX_PATH ->
  (forall text sig, bk_verify bk text sig = os_verify_signature w text sig) -> (forall i code, bk_validate bk i code = validate_pc_signature (w_machine w i) code) ->
  g_verify_all w bk mg ls r ok bad t = g_verify_all w (linux_backend w) mg ls r ok bad t.
Proof.
  intros R V H. assert (ADD : forall e id info r, g_add_event bk e id info r = g_add_event (linux_backend w) e id info r) by (intros; rewrite !g_add_linux by (assumption || reflexivity); reflexivity).
  revert r ok bad t; induction ls as [|l ls IH]; intros r ok bad t; [reflexivity|]. cbn [g_verify_all]. cbv zeta. apply mbind_ext.
  { apply mlift_ext. unfold g_verify_signature. rewrite V. cbn [bk_verify linux_backend]. destruct (os_verify_signature _ _ _) as [b| | |]; cbn [rbind]; try reflexivity. rewrite ADD. reflexivity. }
  intros [b r1] t1 _. apply mbind_ext; [reflexivity|]. intros i t2 _. destruct b; [|apply IH]. apply mbind_ext.
  { unfold g_verify_limits. apply mbind_ext. { destruct (N.eqb _ _); [reflexivity|]. apply mlift_ext, ADD. }
    intros r2 t3 _. apply mbind_ext; [reflexivity|]. intros now t4 _. apply mbind_ext.
    { destruct (N.eqb _ _); [|reflexivity]. destruct (sm_get _ _); [|reflexivity]. apply mbind_ext; [reflexivity|]. intros s t5 _. destruct (Z.ltb s now); [|reflexivity]. apply mbind_ext; [apply mlift_ext, ADD|reflexivity]. }
    intros [v2 r3] t5 _. apply mbind_ext.
    { destruct v2; [|reflexivity]. destruct (sm_get _ _); [|reflexivity]. apply mbind_ext; [reflexivity|]. intros s t6 _. destruct (Z.ltb now s); [|reflexivity]. apply mbind_ext; [apply mlift_ext, ADD|reflexivity]. }
    intros [v3 r4] t6 _. destruct v3; [|reflexivity]. destruct (sm_get _ _) as [code|]; [|reflexivity]. apply mbind_ext.
    { unfold m_validate. rewrite H. reflexivity. }
    intros e t7 _. destruct (event_eqb _ _); apply mbind_ext; try reflexivity; apply mlift_ext, ADD. }
  intros [b' r2] t3 _. destruct b'; apply IH.
Qed.
Lemma acquire_same w bk c hint out t : bk_ref bk = MAX_PATH ->
  (forall text sig, bk_verify bk text sig = os_verify_signature w text sig) -> (forall i code, bk_validate bk i code = validate_pc_signature (w_machine w i) code) ->
  g_acquire_license w bk c hint out t = acquire_license w c hint out t.
Proof.
  intros R V H. unfold g_acquire_license, acquire_license. apply mbind_ext; [reflexivity|]. intros f t1 _. apply mbind_ext.
  { apply (g_licenses_same w bk (fun _ => True)); auto; try (intros; apply g_add_linux, R). apply Forall_forall. auto. }
  intros [er ls] t2 _. destruct ls as [|l ls].
  - apply mbind_ext; [|reflexivity]. reflexivity || apply mlift_ext, g_add_linux, R.
  - apply mbind_ext; [rewrite (all_same w bk) by assumption; apply linux_all|]. intros [[er' ok] bad] t3 _. reflexivity.
Qed.
(** With memory for everything it is the call of the other properties. *)
Theorem C117_same w c hint out t : short_acquire_license w (fun _ _ => plentiful w) c hint out t = acquire_license w c hint out t.
Proof.
  apply acquire_same; [reflexivity| |reflexivity]. intros text sig. cbn [bk_verify short_backend]. rewrite C74_same.
  destruct (os_verify_signature w text sig) as [[]| | |]; reflexivity.
Qed.
Print Assumptions C117_same.

(** ** any failures *)
Lemma short_verifies w o text sig b : bk_verify (short_backend w o) text sig = Ok b -> (b = true <-> mn_good (short_means w o) text sig).
Proof.
  cbn [bk_verify short_backend mn_good short_means]. intros H. apply rbind_ok in H as [ret [Hr H]]. injection H as <-. pose proof (C74_fails_closed (o text sig) text sig) as C. rewrite Hr in C. unfold accepted. rewrite <- C.
  destruct ret; (split; [intros E|intros E]); try discriminate E; reflexivity.
Qed.
(** Everything the call does, with what is accepted as a signature as the only difference. *)
Theorem C117_outcome w o c hint out t code out' t' : (forall i, order_ok (w_machine w i)) ->
  short_acquire_license w o c hint out t = Ok ((code, out'), t') ->
  t <= t' /\ exists rss log, p_outcome w (short_means w o) c hint out t code out' t' rss log.
Proof.
  intros HO. unfold short_acquire_license. apply (p_acquire_outcome (short_backend w o) (short_means w o) (fun _ => True)).
  - intros e s info r _. apply g_add_linux. reflexivity.
  - intros e info r. apply g_add_linux. reflexivity.
  - exact Logic.I.
  - exact Logic.I.
  - apply short_verifies.
  - intros i code0 e H. exact (validate_spec _ _ _ (HO i) H).
  - apply Forall_forall. auto.
Qed.
Print Assumptions C117_outcome.

Lemma obtained_of w o sig n data text : part_of w o -> obtained o sig n data -> (0 <= n < 512)%Z -> os_final o text (firstn (Z.to_nat n) data) = true ->
  (exists n data, w_bio w sig = (n, data) /\ (0 <= n < 512)%Z /\ w_verify w text (firstn (Z.to_nat n) data) = true) \/ w_verify w text sig = true \/ w_verify w text [] = true.
Proof.
  intros (K & R & F) O N V. apply F in V. destruct O as [(_ & _ & E)|[(_ & _ & -> & ->)|(_ & _ & -> & ->)]].
  - destruct (R sig) as [E'|E']; rewrite E in E'.
    + left. exists n, data. auto.
    + right. right. cbn [fst] in E'. replace n with 0%Z in V by lia. exact V.
  - right. left. rewrite Nat2Z.id, firstn_all in V. exact V.
  - right. right. exact V.
Qed.
(** Failing calls make no license good: given that good signatures have a fixed size, and that no
    license there is has a signature that is as long before it is decoded. *)
Theorem C117_accept_sound w o c hint out t out' t' size : (forall i, order_ok (w_machine w i)) ->
  (forall text sig, part_of w (o text sig)) -> signatures_of_size w (S size) ->
  texts_not_of_size w hint t t' (feature_of w (option_map ci_feature c)) (S size) ->
  short_acquire_license w o c hint out t = Ok ((LICENSE_OK, out'), t') ->
  let feature := feature_of w (option_map ci_feature c) in
  exists s content i j, In s (sources w hint) /\ present w t t' s /\ given w t t' s content /\ t <= i < t' /\ t <= j < t' /\
    valid_license w feature (magic_of (option_map ci_magic c)) (section_entries content feature) (w_clock w i) (w_machine w j).
Proof.
  intros HO PART SIZE RAW H f. apply C117_outcome in H as [_ [rss [log H]]]; [|exact HO]. pose proof (proj1 (p_oc_ok _ _ _ _ _ _ _ _ _ _ _ H) eq_refl) as K.
  apply in_map_iff in K as [r [E Hr]]. destruct (Forall2_in_r _ _ _ _ (p_outcome_reports _ _ _ _ _ _ _ _ _ _ _ H) Hr) as [s [Hs X]].
  apply p_reported_ok in X as [content [i [j [x [A [B [C [D [F _]]]]]]]]]; [|exact E]. exists s, content, i, j.
  refine (conj Hs (conj A (conj B (conj C (conj D _))))). destruct F as [sig [F [[m [L (K1 & K2 & _ & _ & _ & _ & _ & n & data & O & N & V)]] G]]]. exists sig. split; [exact F|]. split; [|exact G].
  destruct (obtained_of w _ sig n data _ (PART _ _) O N V) as [(n' & data' & B' & N' & V')|[V'|V']].
  - exists m, n', data'. split; [exact L|]. split; [apply (PART (signed_text f m) sig), K2|]. auto.
  - exfalso. apply (RAW s content sig Hs B F). exact (SIZE _ _ V').
  - apply SIZE in V'. discriminate V'.
Qed.
Print Assumptions C117_accept_sound.
(** ... so the same call with memory succeeds too, if files, clock and hardware do not change. *)
Theorem C117_never_better w o c hint out out2 t out' t' code out'' t'' size : (forall i, order_ok (w_machine w i)) -> static w ->
  (forall text sig, part_of w (o text sig)) -> signatures_of_size w (S size) ->
  texts_not_of_size w hint t t' (feature_of w (option_map ci_feature c)) (S size) ->
  short_acquire_license w o c hint out t = Ok ((LICENSE_OK, out'), t') ->
  acquire_license w c hint out2 t = Ok ((code, out''), t'') -> code = LICENSE_OK.
Proof.
  intros HO HS PART SIZE RAW H H2. apply (C02_static_exact _ _ _ _ _ _ _ _ HO HS H2). apply (C117_accept_sound _ _ _ _ _ _ _ _ _ HO PART SIZE RAW) in H as [s [content [i [j [A [B [C [D [E F]]]]]]]]].
  exists s, content. split; [exact A|]. split; [|split].
  - destruct s; cbn [present] in B; try reflexivity; destruct B as [k [_ B]]; rewrite (static_listed _ _ _ k HS); exact B.
  - apply given_supplies in C as [k C]. eapply static_supplies; eassumption.
  - destruct (HS i t) as [_ [_ [X _]]]. destruct (HS j t) as [_ [_ [_ Y]]]. rewrite X, Y in F. exact F.
Qed.
Print Assumptions C117_never_better.

Lemma blind_rejects o text sig : blind o -> ~ accepted o text sig.
Proof.
  intros B (A1 & A2 & A3 & A4 & A5 & A6 & A7 & n & data & _ & _ & V). destruct B as [B|[B|[B|[B|[B|[B|[B|B]]]]]]]; congruence.
Qed.
(** Where one of the calls that verifying needs always fails, no license is accepted; licenses
    of the right form are reported as corrupted, none as expired or for another machine. *)
Theorem C117_blind w o c hint out t code out' t' : (forall i, order_ok (w_machine w i)) ->
  (forall text sig, blind (o text sig)) ->
  short_acquire_license w o c hint out t = Ok ((code, out'), t') ->
  In code [LICENSE_FILE_NOT_FOUND; ENVIRONMENT_VARIABLE_NOT_DEFINED; LICENSE_MALFORMED; PRODUCT_NOT_LICENSED; LICENSE_CORRUPTED] /\
  exists rss log, p_outcome w (short_means w o) c hint out t code out' t' rss log /\
    Forall (fun r => rp_told r <> None -> rp_code r = LICENSE_CORRUPTED) (concat rss).
Proof.
  intros HO BL H. apply C117_outcome in H as [_ [rss [log H]]]; [|exact HO].
  assert (NG : forall es sig, ~ p_signature_good (short_means w o) (feature_of w (option_map ci_feature c)) es sig) by (intros es sig [m [_ X]]; exact (blind_rejects _ _ _ (BL _ _) X)).
  pose proof (p_outcome_reports _ _ _ _ _ _ _ _ _ _ _ H) as R.
  assert (CODES : forall r, In r (concat rss) -> In (rp_code r) [LICENSE_FILE_NOT_FOUND; LICENSE_MALFORMED; PRODUCT_NOT_LICENSED; LICENSE_CORRUPTED] /\ (rp_told r <> None -> rp_code r = LICENSE_CORRUPTED)).
  { intros r Hr. destruct (Forall2_in_r _ _ _ _ R Hr) as [s [_ X]]. inversion X as [i H1 H2|content H1 H2 H3|content H1 H2 H3 H4|content sig code0 x steps H1 H2 H3 D H5 H6]; subst; cbn [rp_code rp_told]; try (split; [cbn; auto 9|congruence]).
    assert (code0 = LICENSE_CORRUPTED) as ->; [|split; [cbn; auto 9|reflexivity]].
    inversion D as [E0|_ M|sig' F _|sig' F G|sig' k F G|sig' k l cd F G|k l _ _ V]; subst.
    - exfalso. destruct H3 as [L _]. rewrite E0 in L. discriminate L.
    - exfalso. exact (M _ H3).
    - reflexivity.
    - reflexivity.
    - exfalso. exact (NG _ _ G).
    - exfalso. exact (NG _ _ G).
    - exfalso. destruct V as [? [_ [G _]]]. exact (NG _ _ G). }
  split.
  - destruct (p_outcome_code _ _ _ _ _ _ _ _ _ _ _ H) as [->|[F [I|P]]].
    + exfalso. pose proof (proj1 (p_oc_ok _ _ _ _ _ _ _ _ _ _ _ H) eq_refl) as K. apply in_map_iff in K as [r [E Hr]]. destruct (CODES r Hr) as [X _]. rewrite E in X. cbn in X. decompose [or] X; try discriminate; assumption.
    + apply in_map_iff in I as [r [<- Hr]]. destruct (CODES r Hr) as [X _]. cbn in X |- *. tauto.
    + destruct P as [(_ & -> & _)|[(_ & -> & _)|(_ & _ & _ & ->)]]; cbn; auto 9.
  - exists rss, log. split; [exact H|]. apply Forall_forall. intros r Hr. exact (proj2 (CODES r Hr)).
Qed.
Print Assumptions C117_blind.
(** Failures met with other licenses do no harm: a valid license, there all the time, whose own
    verification is served, is accepted. *)
Theorem C117_valid_accepted w o c hint out t code out' t' s : (forall i, order_ok (w_machine w i)) ->
  short_acquire_license w o c hint out t = Ok ((code, out'), t') ->
  let feature := feature_of w (option_map ci_feature c) in
  In s (sources w hint) -> (forall i, t <= i <= t' -> listed w s i = true) ->
  (forall content i j, given w t t' s content -> t <= i <= t' -> t <= j <= t' ->
     valid_license w feature (magic_of (option_map ci_magic c)) (section_entries content feature) (w_clock w i) (w_machine w j) /\
     forall sig limits, license_form (section_entries content feature) sig -> limits_of (section_entries content feature) limits ->
       served w (o (signed_text feature limits) sig)) ->
  code = LICENSE_OK.
Proof.
  intros HO H f Hs HL HV. apply C117_outcome in H as [Ht [rss [log H]]]; [|exact HO]. apply (p_oc_ok _ _ _ _ _ _ _ _ _ _ _ H).
  destruct (Forall2_in_l _ _ _ _ (p_outcome_reports _ _ _ _ _ _ _ _ _ _ _ H) Hs) as [r [Hr X]].
  apply in_map_iff. exists r. split; [|exact Hr]. eapply (p_valid_reported (short_means w o)); [exact Ht|exact HL| |exact X].
  intros content i j G Hi Hj. destruct (HV content i j G Hi Hj) as [[sig [F [[m [n [data [L [K [B [N V]]]]]]] R]]] SV].
  exists sig. split; [exact F|]. split; [|exact R]. exists m. split; [exact L|]. cbn [mn_good short_means]. fold f. destruct (SV sig m F L) as (S1 & S2 & S3 & S4 & S5 & S6 & S7 & S8 & S9 & S10 & S11).
  unfold accepted. rewrite S2. refine (conj S1 (conj K (conj S3 (conj S4 (conj S7 (conj S8 (conj (S9 _) _))))))).
  exists n, data. split; [left; rewrite S10; auto|]. split; [exact N|]. rewrite S11. exact V.
Qed.
Print Assumptions C117_valid_accepted.

(** ** Cases *)
Definition failing (o : openssl) (key_bio pkey b64 encoded ctx : bool) : openssl :=
  {| os_key_bio := key_bio; os_key := os_key o; os_pkey := pkey; os_assign := os_assign o; os_b64 := b64; os_encoded := encoded;
     os_read := os_read o; os_ctx := ctx; os_init := os_init o; os_update := os_update o; os_final := os_final o |}.
Local Notation run w o hint := (code_of (short_acquire_license w o (Some (asking "demo")) hint (Some blank_out) 0)).
Definition here : world := demo true false NOW files [].
(** a signature is the text itself and, in the license, its base64 *)
Definition b64_world (text : bytes) : world :=
  {| w_project := w_project here; w_magic := w_magic here; w_near_module := w_near_module here; w_with_env := w_with_env here; w_module := w_module here;
     w_getenv := w_getenv here; w_good := w_good here; w_file := w_file here; w_clock := w_clock here; w_mktime := w_mktime here;
     w_bio := fun s => if beqb s text then (4%Z, bs "GOOD") else (0%Z, []); w_key_ok := true; w_verify := fun _ s => beqb s (bs "GOOD"); w_machine := w_machine here |}.
Definition THE_SIG : bytes := bs "DEMOclient-signatureACAK-AAEB-Kio=lic_ver200valid-to2030-01-01".
Example C117_cases :
  (* memory for everything; none for the context; none for the decoder; none for the source *)
  run (b64_world THE_SIG) (fun _ _ => plentiful (b64_world THE_SIG)) None = Ok LICENSE_OK /\
  run (b64_world THE_SIG) (fun _ _ => failing (plentiful (b64_world THE_SIG)) true true true true false) None = Ok LICENSE_CORRUPTED /\
  run (b64_world THE_SIG) (fun _ _ => failing (plentiful (b64_world THE_SIG)) true true false true true) None = Ok LICENSE_CORRUPTED /\
  run (b64_world THE_SIG) (fun _ _ => failing (plentiful (b64_world THE_SIG)) true true true false true) None = Ok LICENSE_CORRUPTED /\
  (* without key object or without memory to read the key *)
  run (b64_world THE_SIG) (fun _ _ => failing (plentiful (b64_world THE_SIG)) true false true true true) None = Ok LICENSE_CORRUPTED /\
  run (b64_world THE_SIG) (fun _ _ => failing (plentiful (b64_world THE_SIG)) false true true true true) None = Ok LICENSE_CORRUPTED.
Proof. vm_compute. refine (conj _ (conj _ (conj _ (conj _ (conj _ _))))); reflexivity. Qed.
(** the sizes of C117_accept_sound *)
Example C117_sizes : signatures_of_size (b64_world THE_SIG) 4 /\ length THE_SIG = 62 /\ (forall a b c d e, part_of (b64_world THE_SIG) (failing (plentiful (b64_world THE_SIG)) a b c d e)).
Proof.
  split; [|split; [reflexivity|]].
  - intros text s H. cbn [w_verify b64_world] in H. apply beqb_eq in H as ->. reflexivity.
  - intros a b c d e. split; [intros _; reflexivity|]. split; [intros sig; left; reflexivity|]. intros text s H. exact H.
Qed.
(** Failures can end the process instead: with neither decoder nor source a null pointer is used;
    without decoder a long signature is written beyond its buffer. *)
Theorem C117_returns_refuted :
  run (b64_world THE_SIG) (fun _ _ => failing (plentiful (b64_world THE_SIG)) true true false false true) None = Undef UbNull /\
  run (demo false false NOW [("/long"%string, LINE "[demo]" ++ LINE "lic_ver = 200" ++ bs "sig = " ++ repeat "A"%char 512)] [])
      (fun _ _ => failing (plentiful (b64_world THE_SIG)) true true false true true) (Some (hint_of 0 (bs "/long"))) = Undef UbWrite.
Proof. vm_compute. refine (conj _ _); reflexivity. Qed.
Print Assumptions C117_returns_refuted.
(** Without the sizes it is false: where the text of a signature is itself one, a failing decoder
    accepts what was not accepted. *)
Theorem C117_any_scheme_refuted : exists w o, (forall text sig, part_of w (o text sig)) /\ static w /\
  run w (fun _ _ => plentiful w) None = Ok LICENSE_CORRUPTED /\ run w o None = Ok LICENSE_OK.
Proof.
  pose (w := {| w_project := w_project here; w_magic := w_magic here; w_near_module := w_near_module here; w_with_env := w_with_env here; w_module := w_module here;
     w_getenv := w_getenv here; w_good := w_good here; w_file := w_file here; w_clock := w_clock here; w_mktime := w_mktime here;
     w_bio := fun s => (0%Z, []); w_key_ok := true; w_verify := fun text s => beqb s text; w_machine := w_machine here |}).
  exists w, (fun _ _ => failing (plentiful w) true true false true true). split; [|split; [|split]].
  - intros text sig. split; [intros _; reflexivity|]. split; [intros sig'; left; reflexivity|]. intros text' s H. exact H.
  - intros i j. repeat split.
  - vm_compute. reflexivity.
  - vm_compute. reflexivity.
Qed.
Print Assumptions C117_any_scheme_refuted.
