(** C79: when acquire_license on Windows does not return. *)
From Verif Require Import Base CTypes StringUtils Dates Base64 HwId Registry Ini Network Disks ExecEnv Strategies Locate Licensecc Shared Trace WinSignature WinMachine AcquireGen.
From Verif Require Import P_Base Spec_Listing Spec_Strings Spec_Base64 Spec_Dates P_Text P_Decode P_DateText P_HwText Spec_Ini P_Ini Spec_HwId Spec_Hw P_Dates Spec_Registry P_Registry Spec_Acquire P_Acquire1 P_Acquire2 P_Acquire3 P_Acquire4 P_Acquire5 Spec_AcquireGen P_AcqGen1 P_AcqGen2 Spec_Faults P_Faults P_Faults2 Prop_Acquire Prop_Faults Spec_Der Prop_WinSig Spec_WinNet Spec_Windows Prop_Windows Spec_WinAcquire Ex_Acquire Prop_WinAcquire Spec_WinFaults P_WinFaults.
From Coq Require Import Lia.

Section Windows.
Variables (ww : win_world) (modulus exponent : bytes) (c : option caller) (hint : option location).
Hypothesis READY : win_ready ww modulus exponent.
Hypothesis SHORT : short_names ww hint.
Local Notation feature := (feature_of (places ww) (option_map ci_feature c)).

Theorem C79_returns_or_hazard out t :
  (exists code out' t', win_acquire_license ww c hint out t = Ok ((code, out'), t')) \/
  exists f, raises (win_acquire_license ww c hint out t) f /\ win_hazard ww modulus exponent c hint t f.
Proof using READY SHORT.
  pose proof (win_acquire_safe ww modulus exponent c hint t READY SHORT out) as S. destruct (win_acquire_license ww c hint out t) as [[[code out'] t']|e|u|]; cbn in S.
  - left. eauto.
  - right. exists (FThrow e). split; [constructor|exact S].
  - right. exists (FUndef u). split; [constructor|exact S].
  - destruct S.
Qed.

(** Sufficient circumstances for a call to return. *)
Record win_calm (t : nat) : Prop := {
  wc_feature : forall x, c = Some x -> In NUL (ci_feature x);
  wc_hint : forall l, hint = Some l -> In NUL (loc_data l) /\ In (loc_type l) [0; 1; 2]%Z;
  wc_readable : forall p i j, In (SFile p) (sources (places ww) hint) -> t <= i < j -> ww_good ww i (cstr p) = true -> ww_file ww j (cstr p) <> None;
  wc_env : ww_with_env ww = true -> variable (places ww) DATA <> None -> ww_getenv ww LOCATION <> None;
  wc_encoded : forall n s, In (SEncoded n s) (sources (places ww) hint) -> decodable s /\ In NUL (decoded s);
  wc_provider : pv_open_hash (ww_provider ww) = true;
  wc_signature : forall es sig, carried (places ww) feature hint t es sig -> decodable sig /\ decoded sig <> [];
  wc_dates : forall es sig key d, carried (places ww) feature hint t es sig ->
    In key [bs "valid-to"; bs "valid-from"] -> exact_value es key = Some d ->
    exists y m day, date_text d y m day /\ forall i, (Z.abs (ww_mktime ww y m day - ww_clock ww i) <= 86400 * 2147483647)%Z;
  wc_machine : forall es sig code, carried (places ww) feature hint t es sig -> locked es code -> ~ over_read (undashed code);
  wc_something : sources (places ww) hint <> [] \/ exists e, place_failure (places ww) hint e
}.
Theorem C79_returns_when_calm out t : win_calm t -> exists code out' t', win_acquire_license ww c hint out t = Ok ((code, out'), t').
Proof using READY SHORT.
  intros [K1 K2 K4 K5 K6 KP K7 K8 K9 K10]. destruct (C79_returns_or_hazard out t) as [H|[f [_ H]]]; [exact H|]. exfalso.
  destruct H as [x E N|l E N|l E _ N|p i j Hs Hi Hl N|d He Hd _ Hn|n s Hs E N|n s Hs E|n s Hs E|es sig Hc P|es sig text h Hc _ _ B|es sig text h Hc _ _ B|es sig text h Hc _ _ _ B|es sig d Hc E R|es sig s i q Hc [d [y [m [day [E [S ->]]]]]] Hi R B|es sig text d Hc _ _ _ E R|es sig text code Hc _ _ _ Hk V|E N].
  - apply N. eapply K1, E.
  - apply N. eapply K2, E.
  - apply N. eapply K2, E.
  - eapply K4; eassumption.
  - eapply K5; [exact He| |exact Hn]. congruence.
  - apply N. apply (K6 n s Hs).
  - destruct (K6 n s Hs) as [[D _] _]. contradiction.
  - destruct (K6 n s Hs) as [[_ D] _]. contradiction.
  - congruence.
  - destruct (K7 _ _ Hc) as [[D _] _]. contradiction.
  - destruct (K7 _ _ Hc) as [[_ D] _]. contradiction.
  - destruct (K7 _ _ Hc) as [_ D]. contradiction.
  - destruct (K8 es sig _ d Hc (or_introl eq_refl) E) as [y [m [day [E' _]]]]. destruct (R _ _ _ E').
  - destruct (K8 es sig _ d Hc (or_introl eq_refl) E) as [y' [m' [day' [E' Y]]]]. destruct (date_fun _ _ _ _ _ _ _ S E') as [<- [<- <-]]. pose proof (rounded_bound _ _ R (Y i)). lia.
  - destruct (K8 es sig _ d Hc (or_intror (or_introl eq_refl)) E) as [y [m [day [E' _]]]]. destruct (R _ _ _ E').
  - destruct (K9 es sig code Hc Hk V).
  - destruct K10 as [K10|[e K10]]; [contradiction|destruct (N e K10)].
Qed.
(** ... and if nothing changes meanwhile, a valid license makes it return LICENSE_OK *)
Theorem C79_accepts_total out t s content : win_static ww -> win_calm t ->
  In s (sources (places ww) hint) -> listed (places ww) s t = true -> supplies (places ww) t s content ->
  win_valid_license ww modulus exponent feature (magic_of (option_map ci_magic c)) (section_entries content feature) (ww_clock ww t) (ww_machine ww t) ->
  exists out' t', win_acquire_license ww c hint out t = Ok ((LICENSE_OK, out'), t').
Proof using READY SHORT.
  intros HS HC Hs HL HG HV. destruct (C79_returns_when_calm out t HC) as [code [out' [t' H]]]. exists out', t'.
  rewrite H. replace code with LICENSE_OK; [reflexivity|]. symmetry. apply (C78_static_exact ww modulus exponent hint READY SHORT c out t code out' t' HS H). exists s, content. auto.
Qed.

(** All ways in which an exception escapes. *)
Theorem C79_exceptions_explained out t e : win_acquire_license ww c hint out t = Throw e ->
  (e = ExLogic /\ exists l, hint = Some l /\ ~ In (loc_type l) [0; 1; 2]%Z) \/
  (e = ExLogic /\ pv_open_hash (ww_provider ww) = false) \/
  (e = ExRuntime /\ exists p i j, In (SFile p) (sources (places ww) hint) /\ t <= i < j /\ ww_good ww i (cstr p) = true /\ ww_file ww j (cstr p) = None) \/
  (e = ExLength /\ exists n s, In (SEncoded n s) (sources (places ww) hint) /\ strip_lf s = bs "==") \/
  (e = ExLength /\ exists es sig, carried (places ww) feature hint t es sig /\ strip_lf sig = bs "==") \/
  (e = ExInvalidArg /\ exists es sig key d, carried (places ww) feature hint t es sig /\
     In key [bs "valid-to"; bs "valid-from"] /\ exact_value es key = Some d /\ forall y m day, ~ date_text d y m day).
Proof using READY SHORT.
  intros H. pose proof (win_acquire_safe ww modulus exponent c hint t READY SHORT out) as S. rewrite H in S. cbn in S.
  inversion S as [ | |l E1 E2 E3|p i j Hs Hi Hl N| | | |n s Hs E|es sig Hc P| |es sig text h Hc _ _ B| |es sig d Hc E R| |es sig text d Hc _ _ _ E R| | ]; subst.
  - left. eauto.
  - right; right; left. split; [reflexivity|]. exists p, i, j. auto 6.
  - right; right; right; left. eauto.
  - right; left. auto.
  - right; right; right; right; left. eauto.
  - right; right; right; right; right. split; [reflexivity|]. exists es, sig, (bs "valid-to"), d. cbn [In]. auto 6.
  - right; right; right; right; right. split; [reflexivity|]. exists es, sig, (bs "valid-from"), d. cbn [In]. auto 6.
Qed.
(** A null pointer is used only in two of the cases known from Linux, or when the signature
    of a license decodes to nothing. *)
Theorem C79_null_explained out t : win_acquire_license ww c hint out t = Undef UbNull ->
  (ww_with_env ww = true /\ variable (places ww) DATA <> None /\ ww_getenv ww LOCATION = None) \/
  (exists es sig, carried (places ww) feature hint t es sig /\ decodable sig /\ decoded sig = []) \/
  (sources (places ww) hint = [] /\ forall e, ~ place_failure (places ww) hint e).
Proof using READY SHORT.
  intros H. pose proof (win_acquire_safe ww modulus exponent c hint t READY SHORT out) as S. rewrite H in S. cbn in S.
  inversion S as [ | | | |d He Hd _ Hn| | | | | | |es sig text h Hc _ _ D N| | | | |E N]; subst.
  - left. split; [exact He|]. split; [congruence|exact Hn].
  - right; left. eauto 6.
  - right; right. auto.
Qed.

(** One license whose signature cannot be decoded, or decodes to nothing, in any of the
    places searched: no call returns, however good the other licenses are. *)
Lemma verified_all magic ds r ok bad t x : g_verify_all (places ww) (win_backend ww) magic (map (lic_full feature) ds) r ok bad t = Ok x ->
  Forall (fun d => exists b, bk_verify (win_backend ww) (signed_text feature (lim (ld_entries d))) (ld_sig d) = Ok b) ds.
Proof using.
  revert r ok bad t. induction ds as [|d ds IH]; intros r ok bad t H; [constructor|]. cbn [map g_verify_all] in H. destruct x as [x t']. apply mbind_ok in H as [[b r1] [t1 [H1 H]]].
  apply mlift_ok in H1 as [H1 ->]. unfold g_verify_signature in H1. apply rbind_ok in H1 as [b' [Hb _]]. constructor.
  - exists b'. rewrite <- Hb. rewrite signed_text_print. destruct magic; reflexivity.
  - apply mbind_ok in H as [i [t2 [_ H]]]. destruct b; [apply mbind_ok in H as [[lo r2] [t3 [_ H]]]; destruct lo; eapply IH, H|eapply IH, H].
Qed.
Lemma zip_data s content ss os t t1 sig : static (places ww) -> Forall2 (seen (places ww) t t1) ss os -> In s ss -> t <= t1 -> listed (places ww) s t = true -> supplies (places ww) t s content ->
  found (section_entries content feature) = Some sig ->
  In {| ld_id := sid s; ld_entries := section_entries content feature; ld_sig := sig |} (zip_with (data_of feature) ss os).
Proof using.
  intros HS HF Hs Ht HL HG Hf. induction HF as [|s' o ss os Hso HF IH]; [destruct Hs|]. cbn [zip_with]. apply in_or_app. destruct Hs as [->|Hs]; [left|right; apply IH, Hs].
  destruct o as [c'|]; cbn [seen] in Hso.
  - destruct Hso as [Gc _]. apply given_supplies in Gc as [k Gc]. apply (static_supplies _ _ _ t _ HS) in Gc. rewrite <- (supplies_fun _ _ _ _ _ HG Gc). cbn [data_of]. rewrite Hf. left. reflexivity.
  - exfalso. destruct Hso as [i [_ Hi]]. rewrite (static_listed _ _ _ t HS) in Hi. congruence.
Qed.
Theorem C79_bad_signature_blocks out t s content sig : win_static ww ->
  In s (sources (places ww) hint) -> listed (places ww) s t = true -> supplies (places ww) t s content ->
  license_form (section_entries content feature) sig ->
  (forall text, exists h, hashes (ww_provider ww) text h) -> ~ decodable sig \/ decoded sig = [] ->
  forall r, win_acquire_license ww c hint out t <> Ok r.
Proof using READY SHORT.
  intros HS Hs HL HG HF HH HD [[code out'] t'] H. assert (HS' : static (places ww)) by (intros i j; destruct (HS i j) as [A [B [C _]]]; cbn; auto).
  unfold win_acquire_license, g_acquire_license in H. apply mbind_ok in H as [f [t1 [H1 H]]]. apply mlift_ok in H1 as [H1 ->]. apply requested_feature_ok in H1. subst f.
  apply mbind_ok in H as [[er ls] [t1 [H2 H]]].
  rewrite (g_licenses_same (places ww) (win_backend ww) (fits 260)) in H2.
  2:{ intros e s' info r Hs'. apply g_add_same; [apply win_room|exact Hs']. }
  2:{ intros e info r. apply g_add_same; [apply win_room|exact I]. }
  2:{ vm_compute. lia. }
  2:{ vm_compute. lia. }
  2:{ apply Forall_forall. exact SHORT. }
  apply read_licenses_ok in H2 as [Ht1 [oss [Hos [Hls Hh]]]]. rewrite zip_licenses in Hls. apply seen_flat in Hos. fold (sources (places ww) hint) in Hos.
  pose proof (zip_data s content _ _ t t1 sig HS' Hos Hs Ht1 HL HG (proj2 (found_form _ _) HF)) as Hin.
  destruct ls as [|l ls]; [symmetry in Hls; apply map_eq_nil in Hls; rewrite Hls in Hin; destruct Hin|].
  apply mbind_ok in H as [x [t2 [H _]]]. rewrite Hls in H. apply verified_all in H. rewrite Forall_forall in H. apply H in Hin as [b Hb]. cbn [ld_entries ld_sig] in Hb.
  destruct READY as [HK _]. cbn [bk_verify win_backend] in Hb. apply rbind_ok in Hb as [ret [Hr _]].
  set (text := signed_text feature (lim (section_entries content feature))) in *. destruct (HH (truncated text)) as [h Hh'].
  pose proof (win_cases_any (ww_provider ww) (ww_key ww) text sig modulus exponent HK) as C. cbv zeta in C. rewrite Hr in C.
  destruct C as [[_ [? _]]|[[_ [E2 _]]|[[_ [_ [E2 _]]]|[[_ [_ [_ [E2 _]]]]|[h' [_ C]]]]]]; try discriminate.
  - destruct Hh' as [_ [A [B _]]]. rewrite A, B in E2. discriminate.
  - destruct Hh' as [_ [_ [_ [A [B _]]]]]. rewrite A, B in E2. discriminate.
  - destruct Hh' as [_ [_ [_ [_ [_ [A B]]]]]]. destruct E2; congruence.
  - destruct C as [[_ E]|[[_ [E _]]|[[_ [_ E]]|[[D [N _]]|[D [N _]]]]]]; try discriminate; destruct HD as [HD|HD]; contradiction.
Qed.
End Windows.
Print Assumptions C79_returns_or_hazard. Print Assumptions C79_returns_when_calm. Print Assumptions C79_accepts_total. Print Assumptions C79_exceptions_explained.
Print Assumptions C79_null_explained. Print Assumptions C79_bad_signature_blocks.

(** *** the machine of Prop_WinAcquire *)
Definition one_pc : win_world := pc false false NOW pc_files [] pc_one.
Definition some_exponent : bytes := ["001"%char; "000"%char; "001"%char].
Definition any_hint : option location := Some (hint_of 1 any_license).
Example C79_case_calm : win_ready one_pc (odd_modulus 126) some_exponent /\ short_names one_pc any_hint /\ win_static one_pc /\ win_calm one_pc (Some (asking "demo")) any_hint 0 /\
  (forall text, exists h, hashes (ww_provider one_pc) text h).
Proof.
  assert (S : sources (places one_pc) any_hint = [SText EXTERNAL any_license]) by (vm_compute; reflexivity).
  split; [apply pc_ready; reflexivity|]. split; [intros s; rewrite S; intros [<-|[]]; vm_compute; lia|]. split; [intros i j; repeat split|]. split; [|intros text; exists text; repeat split].
  assert (F : feature_of (places one_pc) (option_map ci_feature (Some (asking "demo"))) = bs "demo") by (vm_compute; reflexivity).
  assert (C : forall es sig, carried (places one_pc) (bs "demo") any_hint 0 es sig -> es = section_entries any_license (bs "demo") /\ last_value es (bs "sig") = Some sig).
  { intros es sig [s [t' [content [Hs [_ [Hg [-> [Hf _]]]]]]]]. rewrite S in Hs. destruct Hs as [<-|[]]. inversion Hg; subst. auto. }
  constructor; rewrite ?F; rewrite ?S.
  - intros x [= <-]. vm_compute. tauto.
  - intros l [= <-]. split; [apply in_or_app; right; left; reflexivity|cbn; auto].
  - intros p i j [H|[]]. discriminate.
  - discriminate.
  - intros n s [H|[]]. discriminate.
  - reflexivity.
  - intros es sig H. apply C in H as [-> H]. vm_compute in H. injection H as <-. split; [apply (unbase64_ok _ (bs "DEMOlic_ver200")); vm_compute; reflexivity|vm_compute; discriminate].
  - intros es sig key d H. apply C in H as [-> _]. intros [<-|[<-|[]]] E; vm_compute in E; discriminate.
  - intros es sig code H. apply C in H as [-> _]. unfold locked. intros E; vm_compute in E; discriminate.
  - left. discriminate.
Qed.
(** the circumstances occur; with a good license beside the executable *)
Definition no_provider : provider :=
  let v := some_provider in
  {| pv_open_hash := false; pv_object_length := pv_object_length v; pv_hash_length := pv_hash_length v; pv_alloc_object := pv_alloc_object v; pv_alloc_data := pv_alloc_data v;
     pv_create_hash := pv_create_hash v; pv_sha256 := pv_sha256 v; pv_open_rsa := pv_open_rsa v; pv_import := pv_import v; pv_verify := pv_verify v; pv_stack := pv_stack v |}.
Definition with_provider (v : provider) (ww : win_world) : win_world :=
  {| ww_project := ww_project ww; ww_magic := ww_magic ww; ww_near_module := ww_near_module ww; ww_with_env := ww_with_env ww; ww_module := ww_module ww; ww_getenv := ww_getenv ww;
     ww_good := ww_good ww; ww_file := ww_file ww; ww_clock := ww_clock ww; ww_mktime := ww_mktime ww; ww_provider := v; ww_key := ww_key ww; ww_machine := ww_machine ww |}.
Definition beside : win_world := pc true false NOW pc_files [] pc_one.
Definition lic (l : list string) : bytes := concat (map LINE ("[DEMO]"%string :: "lic_ver = 200"%string :: l)).
Theorem C79_cases_refuted :
  pc_run beside None = Ok LICENSE_OK /\
  pc_run (with_provider no_provider beside) None = Throw ExLogic /\
  pc_run beside (Some (hint_of 1 (lic ["sig = AA"%string]))) = Undef UbRead /\
  pc_run beside (Some (hint_of 1 (lic ["sig = =="%string]))) = Throw ExLength /\
  pc_run beside (Some (hint_of 1 (lic ["sig = A"%string]))) = Undef UbNull /\
  pc_run beside (Some (hint_of 1 (lic ["valid-to = soon"; "sig = AAAA"]%string))) = Throw ExInvalidArg /\
  pc_run beside (Some (hint_of 3 (bs "x"))) = Throw ExLogic /\
  pc_run beside (Some (hint_of 2 (bs "=="))) = Throw ExLength.
Proof. repeat split; vm_compute; reflexivity. Qed.
Print Assumptions C79_cases_refuted.
