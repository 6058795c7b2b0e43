(** C119: acquire_license on Windows when calls of the provider fail. *)
From Coq Require Import Lia.
From Verif Require Import Base CTypes StringUtils Dates Doubles Base64 HwId Registry Ini Network Disks ExecEnv Strategies Locate Licensecc Shared Trace WinSignature WinMachine AcquireGen WinShortage.
From Verif Require Import P_Base Spec_Strings Spec_Base64 Spec_Dates P_Strings P_Text P_Decode Spec_Ini P_Ini Spec_HwId Spec_Hw P_Hw2 Spec_Registry P_Registry Spec_Acquire P_Acquire1 P_Acquire2 P_Acquire3 P_Acquire4 P_Acquire5 Spec_AcquireGen P_AcqGen1 P_AcqGen2.
From Verif Require Import Spec_Der Prop_WinSig Spec_WinNet Spec_Windows P_Shared Prop_Windows Spec_WinAcquire Spec_WinShortage.
From Verif Require Import Ex_Acquire Prop_Acquire Prop_WinAcquire Prop_WinFaults.

(** With the same provider all the time it is the call of C78. *)
Theorem C119_same ww c hint out t : short_win_acquire_license ww (fun _ _ => ww_provider ww) c hint out t = win_acquire_license ww c hint out t.
Proof. reflexivity. Qed.
Print Assumptions C119_same.

Definition short_win_means (ww : win_world) (v : bytes -> bytes -> provider) (modulus exponent : bytes) : means :=
  {| mn_good := fun text sig => win_good (v text sig) modulus exponent text sig; mn_ident := fun i code => win_identifies (ww_machine ww i) code |}.
(** the machine [ww] with another provider *)
Lemma one_provider ww v text sig : bk_verify (short_win_backend ww v) text sig = bk_verify (win_backend (with_provider (v text sig) ww)) text sig.
Proof. reflexivity. Qed.

Section Windows.
Variables (ww : win_world) (v : bytes -> bytes -> provider) (modulus exponent : bytes) (hint : option location).
Hypothesis READY : win_ready ww modulus exponent.
Hypothesis SHORT : short_names ww hint.

(** Everything the call does, with what is accepted as a signature as the only difference. *)
Theorem C119_outcome c out t code out' t' :
  short_win_acquire_license ww v c hint out t = Ok ((code, out'), t') ->
  t <= t' /\ exists rss log, p_outcome (places ww) (short_win_means ww v modulus exponent) c hint out t code out' t' rss log.
Proof using READY SHORT.
  unfold short_win_acquire_license. apply (p_acquire_outcome (short_win_backend ww v) (short_win_means ww v modulus exponent) (fits 260)).
  - intros e s info r Hs. apply g_add_same; [apply (win_room ww)|exact Hs].
  - intros e info r. apply g_add_same; [apply (win_room ww)|exact I].
  - vm_compute. lia.
  - vm_compute. lia.
  - intros text sig b H. rewrite one_provider in H. apply (win_verifies (with_provider (v text sig) ww) modulus exponent READY text sig b H).
  - intros i code0 e H. apply (win_validates ww modulus exponent READY i code0 e H).
  - apply Forall_forall. exact SHORT.
Qed.
Lemma part_good v0 v1 text sig : provider_part v0 v1 -> win_good v1 modulus exponent text sig -> win_good v0 modulus exponent text sig.
Proof using Type.
  intros (P1 & P2 & P3 & P4 & P5 & P6 & P7 & P8 & P9 & P10) (h & (H1 & H2 & H3 & H4 & H5 & H6 & H7) & D & N & O & I & V). exists h. unfold hashes. auto 20.
Qed.
Lemma valid_part feature magic es i j : (forall text sig, provider_part (ww_provider ww) (v text sig)) ->
  p_valid_license (places ww) (short_win_means ww v modulus exponent) feature magic es i j -> win_valid_license ww modulus exponent feature magic es i (ww_machine ww j).
Proof using Type.
  intros P [sig [A [[m [B C]] D]]]. exists sig, m. split; [exact A|]. split; [exact B|]. split; [|exact D]. apply (part_good _ _ _ _ (P _ _) C).
Qed.
(** Failing calls make no license good, whatever the signature scheme. *)
Theorem C119_accept_sound c out t out' t' : (forall text sig, provider_part (ww_provider ww) (v text sig)) ->
  short_win_acquire_license ww v c hint out t = Ok ((LICENSE_OK, out'), t') ->
  let feature := feature_of (places ww) (option_map ci_feature c) in
  exists s content i j, In s (sources (places ww) hint) /\ present (places ww) t t' s /\ given (places ww) t t' s content /\ t <= i < t' /\ t <= j < t' /\
    win_valid_license ww modulus exponent feature (magic_of (option_map ci_magic c)) (section_entries content feature) (ww_clock ww i) (ww_machine ww j).
Proof using READY SHORT.
  intros P H f. apply C119_outcome in H as [_ [rss [log H]]]. pose proof (proj1 (p_oc_ok _ _ _ _ _ _ _ _ _ _ _ H) eq_refl) as K.
  apply in_map_iff in K as [r [E Hr]]. destruct (Forall2_in_r _ _ _ _ (p_outcome_reports _ _ _ _ _ _ _ _ _ _ _ H) Hr) as [s [Hs X]].
  apply p_reported_ok in X as [content [i [j [x [A [B [C [D [F _]]]]]]]]]; [|exact E]. exists s, content, i, j. apply (valid_part _ _ _ _ _ P) in F. cbn [w_clock places] in F. auto 7.
Qed.
(** ... so the same call with a provider that does not fail succeeds too, if it returns and nothing changes. *)
Theorem C119_never_better c out out2 t out' t' code out'' t'' : win_static ww -> (forall text sig, provider_part (ww_provider ww) (v text sig)) ->
  short_win_acquire_license ww v c hint out t = Ok ((LICENSE_OK, out'), t') ->
  win_acquire_license ww c hint out2 t = Ok ((code, out''), t'') -> code = LICENSE_OK.
Proof using READY SHORT.
  intros HS P H H2. apply (C78_static_exact ww modulus exponent hint READY SHORT _ _ _ _ _ _ HS H2). apply (C119_accept_sound _ _ _ _ _ P) in H as [s [content [i [j [A [B [C [D [E F]]]]]]]]].
  assert (PS : static (places ww)).
  { intros i' j'. destruct (HS i' j') as (X1 & X2 & X3 & _). cbn. auto. }
  exists s, content. split; [exact A|]. split; [|split].
  - destruct s; cbn [present] in B; try reflexivity; destruct B as [k [_ B]]; rewrite (static_listed _ _ _ k PS); exact B.
  - apply given_supplies in C as [k C]. eapply static_supplies; eassumption.
  - destruct (HS i t) as [_ [_ [X _]]]. destruct (HS j t) as [_ [_ [_ Y]]]. rewrite X, Y in F. exact F.
Qed.
Lemma blind_bad v1 text sig : provider_blind v1 -> ~ win_good v1 modulus exponent text sig.
Proof using Type.
  intros B (h & (H1 & H2 & H3 & H4 & H5 & H6 & H7) & _ & _ & O & I & V).
  destruct B as [B|[B|[B|[B|[B|[B|[B|[B|[B|B]]]]]]]]]; try congruence; specialize (B (truncated text)); congruence.
Qed.
(** Where one of the calls that verifying needs always fails, no license is accepted; licenses
    of the right form are reported as corrupted, none as expired or for another machine. *)
Theorem C119_blind c out t code out' t' : (forall text sig, provider_blind (v text sig)) ->
  short_win_acquire_license ww v c hint out t = Ok ((code, out'), t') ->
  In code [LICENSE_FILE_NOT_FOUND; ENVIRONMENT_VARIABLE_NOT_DEFINED; LICENSE_MALFORMED; PRODUCT_NOT_LICENSED; LICENSE_CORRUPTED] /\
  exists rss log, p_outcome (places ww) (short_win_means ww v modulus exponent) c hint out t code out' t' rss log /\
    Forall (fun r => rp_told r <> None -> rp_code r = LICENSE_CORRUPTED) (concat rss).
Proof using READY SHORT.
  intros BL H. apply C119_outcome in H as [_ [rss [log H]]].
  assert (NG : forall es sig, ~ p_signature_good (short_win_means ww v modulus exponent) (feature_of (places ww) (option_map ci_feature c)) es sig) by (intros es sig [m [_ X]]; exact (blind_bad _ _ _ (BL _ _) X)).
  pose proof (p_outcome_reports _ _ _ _ _ _ _ _ _ _ _ H) as R.
  assert (CODES : forall r, In r (concat rss) -> In (rp_code r) [LICENSE_FILE_NOT_FOUND; LICENSE_MALFORMED; PRODUCT_NOT_LICENSED; LICENSE_CORRUPTED] /\ (rp_told r <> None -> rp_code r = LICENSE_CORRUPTED)).
  { intros r Hr. destruct (Forall2_in_r _ _ _ _ R Hr) as [s [_ X]]. inversion X as [i H1 H2|content H1 H2 H3|content H1 H2 H3 H4|content sig code0 x steps H1 H2 H3 D H5 H6]; subst; cbn [rp_code rp_told]; try (split; [cbn; auto 9|congruence]).
    assert (code0 = LICENSE_CORRUPTED) as ->; [|split; [cbn; auto 9|reflexivity]].
    inversion D as [E0|_ M|sig' F _|sig' F G|sig' k F G|sig' k l cd F G|k l _ _ V]; subst.
    - exfalso. destruct H3 as [L _]. rewrite E0 in L. discriminate L.
    - exfalso. exact (M _ H3).
    - reflexivity.
    - reflexivity.
    - exfalso. exact (NG _ _ G).
    - exfalso. exact (NG _ _ G).
    - exfalso. destruct V as [? [_ [G _]]]. exact (NG _ _ G). }
  split.
  - destruct (p_outcome_code _ _ _ _ _ _ _ _ _ _ _ H) as [->|[F [I|P]]].
    + exfalso. pose proof (proj1 (p_oc_ok _ _ _ _ _ _ _ _ _ _ _ H) eq_refl) as K. apply in_map_iff in K as [r [E Hr]]. destruct (CODES r Hr) as [X _]. rewrite E in X. cbn in X. decompose [or] X; try discriminate; assumption.
    + apply in_map_iff in I as [r [<- Hr]]. destruct (CODES r Hr) as [X _]. cbn in X |- *. tauto.
    + destruct P as [(_ & -> & _)|[(_ & -> & _)|(_ & _ & _ & ->)]]; cbn; auto 9.
  - exists rss, log. split; [exact H|]. apply Forall_forall. intros r Hr. exact (proj2 (CODES r Hr)).
Qed.
(** Failures met with other licenses do no harm, if the call returns: a valid license, there all the
    time, whose own verification is served, is accepted. *)
Theorem C119_valid_accepted c out t code out' t' s :
  short_win_acquire_license ww v c hint out t = Ok ((code, out'), t') ->
  let feature := feature_of (places ww) (option_map ci_feature c) in
  In s (sources (places ww) hint) -> (forall i, t <= i <= t' -> listed (places ww) s i = true) ->
  (forall content i j, given (places ww) t t' s content -> t <= i <= t' -> t <= j <= t' ->
     win_valid_license ww modulus exponent feature (magic_of (option_map ci_magic c)) (section_entries content feature) (ww_clock ww i) (ww_machine ww j) /\
     forall sig limits, license_form (section_entries content feature) sig -> limits_of (section_entries content feature) limits ->
       provider_served (ww_provider ww) (v (signed_text feature limits) sig)) ->
  code = LICENSE_OK.
Proof using READY SHORT.
  intros H f Hs HL HV. apply C119_outcome in H as [Ht [rss [log H]]]. apply (p_oc_ok _ _ _ _ _ _ _ _ _ _ _ H).
  destruct (Forall2_in_l _ _ _ _ (p_outcome_reports _ _ _ _ _ _ _ _ _ _ _ H) Hs) as [r [Hr X]].
  apply in_map_iff. exists r. split; [|exact Hr]. eapply (p_valid_reported (short_win_means ww v modulus exponent)); [exact Ht|exact HL| |exact X].
  intros content i j G Hi Hj. destruct (HV content i j G Hi Hj) as [[sig [m [F [L [W R]]]]] SV].
  exists sig. split; [exact F|]. split; [|exact R]. exists m. split; [exact L|]. cbn [mn_good short_win_means]. fold f.
  refine (part_good _ (ww_provider ww) _ _ _ W). destruct (SV sig m F L) as (S1 & S2 & S3 & S4 & S5 & S6 & S7 & S8 & S9 & S10).
  unfold provider_part. rewrite S1, S2, S3, S4, S5, S6, S8. do 6 (split; [auto|]). split; [intros text h E; rewrite S7; exact E|]. split; [auto|]. split; [intros e n E; rewrite S9; exact E|intros e n h0 s0 E; rewrite S10; exact E].
Qed.
End Windows.
Print Assumptions C119_outcome. Print Assumptions C119_accept_sound. Print Assumptions C119_never_better. Print Assumptions C119_blind. Print Assumptions C119_valid_accepted.

(** ** Cases: the machine of C78; the provider fails at one place, for one license or for all *)
Definition failing_provider (object_length alloc_data rsa : bool) (sha : bytes -> option bytes) : provider :=
  let p := some_provider in
  {| pv_open_hash := pv_open_hash p; pv_object_length := object_length; pv_hash_length := pv_hash_length p; pv_alloc_object := pv_alloc_object p; pv_alloc_data := alloc_data;
     pv_create_hash := pv_create_hash p; pv_sha256 := sha; pv_open_rsa := rsa; pv_import := pv_import p; pv_verify := pv_verify p; pv_stack := pv_stack p |}.
Local Notation run v hint := (code_of (short_win_acquire_license beside v (Some (asking "demo")) hint (Some blank_out) 0)).
Example C119_cases :
  (forall a b c, provider_part (ww_provider beside) (failing_provider a b c (fun _ => None))) /\
  run (fun _ _ => some_provider) None = Ok LICENSE_OK /\
  run (fun _ _ => failing_provider false true true (pv_sha256 some_provider)) None = Ok LICENSE_CORRUPTED /\
  run (fun _ _ => failing_provider true false true (pv_sha256 some_provider)) None = Ok LICENSE_CORRUPTED /\
  run (fun _ _ => failing_provider true true false (pv_sha256 some_provider)) None = Ok LICENSE_CORRUPTED /\
  run (fun _ _ => failing_provider true true true (fun _ => None)) None = Ok LICENSE_CORRUPTED /\
  (* only the license for anybody can be verified *)
  run (fun text _ => failing_provider true (Nat.ltb (length text) 20) true (pv_sha256 some_provider)) (Some (hint_of 0 (bs "D:\any"))) = Ok LICENSE_OK /\
  run (fun text _ => failing_provider true (Nat.ltb (length text) 20) true (pv_sha256 some_provider)) (Some (hint_of 0 (bs "D:\bad"))) = Ok LICENSE_CORRUPTED.
Proof.
  split; [|vm_compute; refine (conj _ (conj _ (conj _ (conj _ (conj _ (conj _ _)))))); reflexivity].
  intros a b c. unfold provider_part. cbn [ww_provider beside pc failing_provider pv_open_hash pv_object_length pv_hash_length pv_alloc_object pv_alloc_data pv_create_hash pv_sha256 pv_open_rsa pv_import pv_verify].
  do 6 (split; [intros _; reflexivity|]). split; [discriminate|]. split; [intros _; reflexivity|]. split; auto.
Qed.
(** A failure can also end the call: when the hash provider cannot be opened for one of the licenses,
    an exception leaves the library, although another license is good. *)
Theorem C119_returns_refuted :
  run (fun _ _ => some_provider) (Some (hint_of 0 (bs "D:\any"))) = Ok LICENSE_OK /\
  run (fun text _ => if Nat.ltb (length text) 20 then no_provider else some_provider) (Some (hint_of 0 (bs "D:\any"))) = Throw ExLogic.
Proof. vm_compute. refine (conj _ _); reflexivity. Qed.
Print Assumptions C119_returns_refuted.
