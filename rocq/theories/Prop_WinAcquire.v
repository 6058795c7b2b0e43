(** acquire_license on Windows (C78). *)
From Verif Require Import Base CTypes StringUtils Dates Doubles Base64 HwId Registry Ini Network Disks ExecEnv Strategies Locate Licensecc Shared Trace WinSignature WinMachine AcquireGen.
From Verif Require Import P_Base Spec_Strings Spec_Base64 Spec_Dates P_Strings P_Text P_Decode Spec_Ini P_Ini Spec_HwId Spec_Hw P_Hw2 Spec_Registry P_Registry Spec_Acquire P_Acquire1 P_Acquire2 P_Acquire3 P_Acquire4 P_Acquire5 Spec_AcquireGen P_AcqGen1 P_AcqGen2.
From Verif Require Import Spec_Der Prop_WinSig Spec_WinNet Spec_Windows P_Shared Prop_Windows Spec_WinAcquire.
From Verif Require Import Ex_Acquire Prop_Acquire.
From Coq Require Import Lia.

(** ** With the means of Linux, it is the function of the other properties *)
Lemma linux_add w e id info r : g_add_event (linux_backend w) e id info r = add_event e id info r.
Proof. apply g_add_linux. reflexivity. Qed.
Lemma linux_limits w l r t : g_verify_limits w (linux_backend w) l r t = verify_limits w l r t.
Proof.
  unfold g_verify_limits, verify_limits. apply mbind_ext.
  { destruct (N.eqb _ _); [reflexivity|]. apply mlift_ext, linux_add. }
  intros r1 t1 _. apply mbind_ext; [reflexivity|]. intros now t2 _. apply mbind_ext.
  { destruct (N.eqb _ _); [|reflexivity]. destruct (sm_get _ _); [|reflexivity]. apply mbind_ext; [reflexivity|]. intros s t3 _. destruct (Z.ltb s now); [|reflexivity]. apply mbind_ext; [apply mlift_ext, linux_add|reflexivity]. }
  intros [v2 r2] t3 _. apply mbind_ext.
  { destruct v2; [|reflexivity]. destruct (sm_get _ _); [|reflexivity]. apply mbind_ext; [reflexivity|]. intros s t4 _. destruct (Z.ltb now s); [|reflexivity]. apply mbind_ext; [apply mlift_ext, linux_add|reflexivity]. }
  intros [v3 r3] t4 _. destruct v3; [|reflexivity]. destruct (sm_get _ _) as [code|]; [|reflexivity].
  unfold mbind, m_validate, m_machine, mlift. cbn [bk_validate linux_backend]. destruct (validate_pc_signature _ _) as [e| | |]; reflexivity.
Qed.
Lemma linux_all w mg ls r ok bad t : g_verify_all w (linux_backend w) mg ls r ok bad t = verify_all w mg ls r ok bad t.
Proof.
  revert r ok bad t; induction ls as [|l ls IH]; intros r ok bad t; [reflexivity|]. cbn [g_verify_all verify_all]. cbv zeta. apply mbind_ext.
  { apply mlift_ext. unfold g_verify_signature, verify_signature. cbn [bk_verify linux_backend]. destruct (os_verify_signature _ _ _) as [b| | |]; reflexivity. }
  intros [b r1] t1 _. apply mbind_ext; [reflexivity|]. intros i t2 _. destruct b; [|apply IH]. apply mbind_ext; [apply linux_limits|]. intros [b' r2] t3 _. destruct b'; apply IH.
Qed.
Theorem C78_same_as_linux w c hint out t : g_acquire_license w (linux_backend w) c hint out t = acquire_license w c hint out t.
Proof.
  unfold g_acquire_license, acquire_license. apply mbind_ext; [reflexivity|]. intros f t1 _. apply mbind_ext.
  { apply (g_licenses_same w (linux_backend w) (fun _ => True)); auto; try (intros; apply linux_add). apply Forall_forall. auto. }
  intros [er ls] t2 _. destruct ls as [|l ls]; [reflexivity|]. apply mbind_ext; [apply linux_all|]. intros [[er' ok] bad] t3 _. reflexivity.
Qed.
Print Assumptions C78_same_as_linux.

(** ** Windows *)
Section Windows.
Variables (ww : win_world) (modulus exponent : bytes) (hint : option location).
Hypothesis READY : win_ready ww modulus exponent.
Hypothesis SHORT : short_names ww hint.

Lemma win_verifies text sig b : bk_verify (win_backend ww) text sig = Ok b -> (b = true <-> win_good (ww_provider ww) modulus exponent text sig).
Proof using READY.
  destruct READY as [HK _]. intros H. cbn [bk_verify win_backend] in H. apply rbind_ok in H as [ret [Hr H]]. injection H as <-.
  pose proof (win_cases_any (ww_provider ww) (ww_key ww) text sig modulus exponent HK) as C. cbv zeta in C. rewrite Hr in C. unfold win_good.
  destruct C as [[_ [? _]]|[[_ [E2 [E _]]]|[[_ [_ [E2 [E _]]]]|[[_ [_ [_ [E2 [E _]]]]]|[h [Hh C]]]]]]; try discriminate.
  - injection E as ->. split; [discriminate|]. intros [h [[_ [A [B _]]] _]]. rewrite A, B in E2. discriminate.
  - injection E as ->. split; [discriminate|]. intros [h [[_ [_ [_ [A [B _]]]]] _]]. rewrite A, B in E2. discriminate.
  - injection E as ->. split; [discriminate|]. intros [h [[_ [_ [_ [_ [_ [A B]]]]]] _]]. destruct E2; congruence.
  - destruct C as [[_ E]|[[_ [E _]]|[[_ [_ E]]|[[_ [_ [E2 [E _]]]]|[D [N [O [_ E]]]]]]]]; try discriminate.
    + injection E as ->. split; [discriminate|]. intros [h' [_ [_ [_ [A _]]]]]. congruence.
    + injection E as ->. split.
      * destruct (pv_import _ _ _) eqn:E1; [|discriminate]. destruct (pv_verify _ _ _ _ _) eqn:E2; [|discriminate]. intros _. exists h. auto 8.
      * intros [h' [Hh' [_ [_ [_ [A B]]]]]]. destruct Hh as [_ [_ [_ [_ [_ [_ X]]]]]], Hh' as [_ [_ [_ [_ [_ [_ Y]]]]]]. assert (h' = h) by congruence. subst h'. rewrite A, B. reflexivity.
Qed.
Lemma win_validates i code e : bk_validate (win_backend ww) i code = Ok e ->
  (e = LICENSE_OK \/ e = IDENTIFIERS_MISMATCH) /\ (e = LICENSE_OK <-> win_identifies (ww_machine ww i) code).
Proof using READY.
  destruct READY as [_ HM]. cbn [bk_validate win_backend]. intros H. destruct (C69_accepted_iff_own (ww_machine ww i) code (HM i)) as [e' [E [A B]]].
  - intros O. pose proof (proj2 (C69_undefined_iff (ww_machine ww i) code UbRead (HM i)) (conj O eq_refl)). congruence.
  - rewrite H in E. injection E as <-. auto.
Qed.
Lemma win_room : room (win_backend ww).
Proof. unfold room. cbn [bk_ref win_backend]. unfold WIN_MAX_PATH. lia. Qed.
Theorem C78_outcome c out t code out' t' :
  win_acquire_license ww c hint out t = Ok ((code, out'), t') ->
  t <= t' /\ exists rss log, p_outcome (places ww) (win_means ww modulus exponent) c hint out t code out' t' rss log.
Proof using READY SHORT.
  unfold win_acquire_license. apply (p_acquire_outcome (win_backend ww) (win_means ww modulus exponent) (fits 260)).
  - intros e s info r Hs. apply g_add_same; [apply win_room|exact Hs].
  - intros e info r. apply g_add_same; [apply win_room|exact I].
  - vm_compute. lia.
  - vm_compute. lia.
  - apply win_verifies.
  - apply win_validates.
  - apply Forall_forall. exact SHORT.
Qed.
Lemma valid_same feature magic es i j :
  p_valid_license (places ww) (win_means ww modulus exponent) feature magic es i j <-> win_valid_license ww modulus exponent feature magic es i (ww_machine ww j).
Proof.
  unfold p_valid_license, win_valid_license, p_signature_good. cbn [mn_good mn_ident win_means w_magic places]. split.
  - intros [sig [A [[m [B C]] D]]]. exists sig, m. auto 6.
  - intros [sig [m [A [B [C D]]]]]. exists sig. eauto 8.
Qed.

(** LICENSE_OK: one of the sources has a valid license *)
Theorem C78_accept_sound c out t out' t' :
  win_acquire_license ww c hint out t = Ok ((LICENSE_OK, out'), t') ->
  let feature := feature_of (places ww) (option_map ci_feature c) in
  exists s content i j, In s (sources (places ww) hint) /\ present (places ww) t t' s /\ given (places ww) t t' s content /\ t <= i < t' /\ t <= j < t' /\
    win_valid_license ww modulus exponent feature (magic_of (option_map ci_magic c)) (section_entries content feature) (ww_clock ww i) (ww_machine ww j).
Proof using READY SHORT.
  intros H f. apply C78_outcome in H as [_ [rss [log H]]]. pose proof (proj1 (p_oc_ok _ _ _ _ _ _ _ _ _ _ _ H) eq_refl) as K.
  apply in_map_iff in K as [r [E Hr]]. destruct (Forall2_in_r _ _ _ _ (p_outcome_reports _ _ _ _ _ _ _ _ _ _ _ H) Hr) as [s [Hs X]].
  apply p_reported_ok in X as [content [i [j [x [A [B [C [D [F _]]]]]]]]]; [|exact E]. exists s, content, i, j. apply valid_same in F. cbn [w_clock places] in F. auto 7.
Qed.
(** a license that is valid all the time is accepted *)
Theorem C78_valid_accepted c out t code out' t' s :
  win_acquire_license ww c hint out t = Ok ((code, out'), t') ->
  let feature := feature_of (places ww) (option_map ci_feature c) in
  In s (sources (places ww) hint) -> (forall i, t <= i <= t' -> listed (places ww) s i = true) ->
  (forall content i j, given (places ww) t t' s content -> t <= i <= t' -> t <= j <= t' ->
     win_valid_license ww modulus exponent feature (magic_of (option_map ci_magic c)) (section_entries content feature) (ww_clock ww i) (ww_machine ww j)) ->
  code = LICENSE_OK.
Proof using READY SHORT.
  intros H f Hs HL HV. apply C78_outcome in H as [Ht [rss [log H]]]. apply (p_oc_ok _ _ _ _ _ _ _ _ _ _ _ H).
  destruct (Forall2_in_l _ _ _ _ (p_outcome_reports _ _ _ _ _ _ _ _ _ _ _ H) Hs) as [r [Hr X]].
  rewrite <- (p_valid_reported (win_means ww modulus exponent) (places ww) f (magic_of (option_map ci_magic c)) t t' s r Ht HL) ; [apply in_map; exact Hr| |exact X].
  intros content i j G Hi Hj. apply valid_same. apply (HV content i j G Hi Hj).
Qed.
(** if nothing changes meanwhile: accepted exactly when some source has a valid license *)
Theorem C78_static_exact c out t code out' t' : win_static ww ->
  win_acquire_license ww c hint out t = Ok ((code, out'), t') ->
  let feature := feature_of (places ww) (option_map ci_feature c) in
  (code = LICENSE_OK <->
   exists s content, In s (sources (places ww) hint) /\ listed (places ww) s t = true /\ supplies (places ww) t s content /\
     win_valid_license ww modulus exponent feature (magic_of (option_map ci_magic c)) (section_entries content feature) (ww_clock ww t) (ww_machine ww t)).
Proof using READY SHORT.
  intros HS H f. assert (HS' : static (places ww)) by (intros i j; destruct (HS i j) as [A [B [C _]]]; cbn; auto). split.
  - intros ->. apply C78_accept_sound in H as [s [content [i [j [A [B [C [D [E F]]]]]]]]]. exists s, content. split; [exact A|]. split; [|split].
    + destruct s; cbn [present] in B; try reflexivity; destruct B as [k [_ B]]; rewrite (static_listed _ _ _ k HS'); exact B.
    + apply given_supplies in C as [k C]. eapply static_supplies; eassumption.
    + destruct (HS i t) as [_ [_ [X _]]]. destruct (HS j t) as [_ [_ [_ Y]]]. rewrite X, Y in F. exact F.
  - intros [s [content [A [B [C D]]]]]. eapply (C78_valid_accepted c out t code out' t' s H A).
    + intros i _. rewrite (static_listed _ _ _ t HS'). exact B.
    + intros content' i j G _ _. apply given_supplies in G as [k G]. apply (static_supplies _ _ _ t _ HS') in G. rewrite <- (supplies_fun _ _ _ _ _ C G).
      destruct (HS i t) as [_ [_ [X _]]]. destruct (HS j t) as [_ [_ [_ Y]]]. rewrite X, Y. exact D.
Qed.
(** a failed call: one of the seven codes, the diagnosis of one of the sources or concerning
    a place *)
Theorem C78_failure_codes c out t code out' t' :
  win_acquire_license ww c hint out t = Ok ((code, out'), t') -> code <> LICENSE_OK ->
  let feature := feature_of (places ww) (option_map ci_feature c) in
  In code [LICENSE_FILE_NOT_FOUND; ENVIRONMENT_VARIABLE_NOT_DEFINED; LICENSE_MALFORMED; PRODUCT_NOT_LICENSED; PRODUCT_EXPIRED; LICENSE_CORRUPTED; IDENTIFIERS_MISMATCH] /\
  (place_failure (places ww) hint code \/
   exists s, In s (sources (places ww) hint) /\
     ((code = LICENSE_FILE_NOT_FOUND /\ exists i, t <= i < t' /\ listed (places ww) s i = false) \/
      (exists content, present (places ww) t t' s /\ given (places ww) t t' s content /\
         p_diagnosis (places ww) (win_means ww modulus exponent) feature (magic_of (option_map ci_magic c)) t t' (section_entries content feature) code))).
Proof using READY SHORT.
  intros H Hn f. apply C78_outcome in H as [Ht [rss [log H]]]. destruct (p_outcome_code _ _ _ _ _ _ _ _ _ _ _ H) as [E|[A [B|B]]]; [contradiction| |auto].
  split; [exact A|]. right. apply in_map_iff in B as [r [<- Hr]]. destruct (Forall2_in_r _ _ _ _ (p_outcome_reports _ _ _ _ _ _ _ _ _ _ _ H) Hr) as [s [Hs X]]. exists s. split; [exact Hs|].
  apply (p_reported_diagnosis (win_means ww modulus exponent)), X.
Qed.
End Windows.
Print Assumptions C78_outcome. Print Assumptions C78_accept_sound. Print Assumptions C78_valid_accepted. Print Assumptions C78_static_exact. Print Assumptions C78_failure_codes.

(** *** a Windows machine with license files. The provider of Prop_WinSig: a signature is the
    signed text in base64. *)
Definition pc (near env_on : bool) (now : Z) (files env : list (string * bytes)) (m : win_machine) : win_world :=
  {| ww_project := bs "DEMO"; ww_magic := 7; ww_near_module := near; ww_with_env := env_on;
     ww_module := Some (bs "C:\demo\demo.exe"); ww_getenv := path_in env;
     ww_good := fun _ p => match path_in files p with Some _ => true | None => false end;
     ww_file := fun _ p => option_map (fun d => {| f_size := N.of_nat (length d); f_data := d |}) (path_in files p);
     ww_clock := fun _ => now; ww_mktime := mktime_utc; ww_provider := some_provider; ww_key := some_key; ww_machine := fun _ => m |}.
(** for the first disk of pc_one, until 2030; for anybody; forged; with the signature "==" *)
Definition disk_license : bytes :=
  LINE "[demo]" ++ LINE "lic_ver = 200" ++ LINE "valid-to = 2030-01-01" ++ LINE "client-signature=AEHv-zasA-AAA=" ++
  LINE "sig = REVNT2NsaWVudC1zaWduYXR1cmVBRUh2LXphc0EtQUFBPWxpY192ZXIyMDB2YWxpZC10bzIwMzAtMDEtMDE=".
Definition any_license : bytes := LINE "[DEMO]" ++ LINE "lic_ver = 200" ++ LINE "sig = REVNT2xpY192ZXIyMDA=".
Definition bad_license : bytes := LINE "[DEMO]" ++ LINE "lic_ver = 200" ++ LINE "sig = REVNT2xpY192ZXIyMDE=".
Definition padded_license : bytes := LINE "[DEMO]" ++ LINE "lic_ver = 200" ++ LINE "sig = ==".
Definition unsigned_license : bytes := LINE "[DEMO]" ++ LINE "lic_ver = 200" ++ LINE "sig = ".
Definition pc_files : list (string * bytes) :=
  [("C:\demo\demo.lic"%string, disk_license); ("D:\any"%string, any_license); ("D:\bad"%string, bad_license); ("D:\padded"%string, padded_license); ("D:\none"%string, unsigned_license)].
Definition pc_run (ww : win_world) (hint : option location) : res event_type := code_of (win_acquire_license ww (Some (asking "demo")) hint (Some blank_out) 0).
Lemma pc_ready near env_on now files env m drives f c : length m = 6 -> win_ready (pc near env_on now files env (a_pc m drives f c)) (odd_modulus 126) ["001"%char; "000"%char; "001"%char].
Proof. intros L. split; [apply C73_nonempty|]. intros i. apply pc_healthy, L. Qed.
(** On Windows the license beside the executable is looked for under the first 259 characters
    of the path of the executable, without extension, plus ".lic". *)
Theorem C78_module_path ww hint path : ww_near_module ww = true -> ww_module ww = Some path ->
  exists rest, sources (places ww) hint = SFile (stem (cstr (firstn 259 path)) ++ bs ".lic") :: rest /\
    forall path', firstn 259 path' = firstn 259 path -> sources (places {| ww_project := ww_project ww; ww_magic := ww_magic ww; ww_near_module := true; ww_with_env := ww_with_env ww; ww_module := Some path'; ww_getenv := ww_getenv ww;
       ww_good := ww_good ww; ww_file := ww_file ww; ww_clock := ww_clock ww; ww_mktime := ww_mktime ww; ww_provider := ww_provider ww; ww_key := ww_key ww; ww_machine := ww_machine ww |}) hint = sources (places ww) hint.
Proof.
  intros N M. unfold sources, groups. cbn [places w_near_module]. rewrite N. cbn [app flat_map g_sources]. unfold module_sources at 1. cbn [places w_module]. rewrite M. cbn [option_map]. change (WIN_MAX_PATH - 1) with 259. rewrite firstn_firstn. change (Nat.min 1023 259) with 259.
  cbn [app]. eexists. split; [reflexivity|]. intros path' E. cbn [ww_near_module]. cbn [app flat_map g_sources]. unfold module_sources. cbn [places w_module ww_module option_map]. rewrite M. cbn [option_map]. change (WIN_MAX_PATH - 1) with 259. rewrite E. reflexivity.
Qed.
Print Assumptions C78_module_path.
Theorem C78_nonempty :
  win_ready (pc true false NOW pc_files [] pc_one) (odd_modulus 126) ["001"%char; "000"%char; "001"%char] /\
  short_names (pc true false NOW pc_files [] pc_one) (Some (hint_of 0 (bs "D:\bad;D:\any"))) /\ win_static (pc true false NOW pc_files [] pc_one) /\
  pc_run (pc true false NOW pc_files [] pc_one) None = Ok LICENSE_OK /\
  pc_run (pc true false NOW pc_files [] pc_two) None = Ok IDENTIFIERS_MISMATCH /\
  pc_run (pc true false 2000000000%Z pc_files [] pc_one) None = Ok PRODUCT_EXPIRED /\
  pc_run (pc true false NOW pc_files [] pc_two) (Some (hint_of 0 (bs "D:\bad;D:\any"))) = Ok LICENSE_OK /\
  pc_run (pc false false NOW pc_files [] pc_one) (Some (hint_of 0 (bs "D:\bad"))) = Ok LICENSE_CORRUPTED.
Proof.
  split; [apply pc_ready; reflexivity|]. split; [|split; [intros i j; repeat split|repeat split; vm_compute; reflexivity]].
  intros s Hs. vm_compute in Hs. destruct Hs as [<-|[<-|[<-|[]]]]; vm_compute; lia.
Qed.
Print Assumptions C78_nonempty.
(** Findings: one license file whose signature is "==" or empty takes the call down although
    another license is good (an exception, a null pointer); so does a path of 260 characters
    or more (read beyond the license reference; on Linux the limit is 1024). *)
Theorem C78_returns_refuted :
  pc_run (pc true false NOW pc_files [] pc_one) (Some (hint_of 0 (bs "D:\padded"))) = Throw ExLength /\
  pc_run (pc true false NOW pc_files [] pc_one) (Some (hint_of 0 (bs "D:\none"))) = Undef UbNull /\
  pc_run (pc true false NOW pc_files [] pc_one) (Some (hint_of 0 (repeat "x"%char 260))) = Undef UbRead /\
  pc_run (pc true false NOW pc_files [] pc_one) (Some (hint_of 0 (repeat "x"%char 259))) = Ok LICENSE_OK.
Proof. repeat split; vm_compute; reflexivity. Qed.
Print Assumptions C78_returns_refuted.
