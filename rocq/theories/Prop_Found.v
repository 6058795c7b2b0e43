(** A license that is found is not hidden by the places where nothing is found (C99). *)
From Verif Require Import Base CTypes StringUtils Dates Base64 HwId Registry Ini Network Disks ExecEnv Strategies Locate Licensecc Shared Trace WinSignature WinMachine AcquireGen.
From Verif Require Import P_Base Spec_Listing Spec_Strings Spec_Base64 Spec_Dates Spec_Ini P_Ini P_IniSave Spec_HwId Spec_Hw Spec_Registry Spec_Acquire P_Acquire1 P_Acquire2 P_Acquire3 P_Acquire4 P_Acquire5 Spec_AcquireGen P_AcqGen1 P_AcqGen2 Spec_Faults Spec_Ext P_Ext Spec_Layout P_Layout Spec_Issue Spec_Delivery P_Delivery P_Delivery2 Spec_Found P_Found.
From Verif Require Import Spec_Der Prop_WinSig Spec_WinNet Spec_Windows P_Shared Prop_Windows Spec_WinAcquire Spec_WinFaults Prop_WinFaults.
From Verif Require P_Signature P_HwText P_DateText P_Windows.
From Coq Require Import Sorted Permutation Lia.
From Verif Require Import Ex_Acquire Prop_Acquire Prop_WinAcquire Prop_Layout Prop_Issue Prop_Delivery Spec_Refused Prop_Refused Prop_Enrol Prop_WinIssue.


(** An issued license is judged as if it were alone, however many missing files are named
    before and after it. *)
Theorem C99_issued_verdict w sign c d n es limits text hint s out t :
  (forall i, order_ok (w_machine w i)) -> static w -> found 1024 w hint text s ->
  (forall x, c = Some x -> In NUL (ci_feature x)) ->
  let feature := feature_of w (option_map ci_feature c) in
  honours w sign (signed_text feature limits) ->
  issued sign feature limits es -> distinct_names d -> In (n, es) d -> same_name n feature ->
  renders d text -> well_dated w limits -> well_locked w limits ->
  exists code out' t', acquire_license w c hint out t = Ok ((code, out'), t') /\
    (* accepted *)
    (magic_of (option_map ci_magic c) = w_magic w -> in_time w limits (w_clock w t) ->
     (forall id, locked limits id -> identifies (w_machine w t) id) -> code = LICENSE_OK) /\
    (* another machine *)
    (magic_of (option_map ci_magic c) = w_magic w -> in_time w limits (w_clock w t) ->
     (exists id, locked limits id /\ ~ identifies (w_machine w t) id) -> code = IDENTIFIERS_MISMATCH) /\
    (* too early or too late *)
    (magic_of (option_map ci_magic c) = w_magic w -> out_of_time w limits (w_clock w t) -> code = PRODUCT_EXPIRED) /\
    (* another build of the library *)
    (magic_of (option_map ci_magic c) <> w_magic w -> code = LICENSE_CORRUPTED).
Proof.
  intros HO HS HW HC f HH HI D Hin Hn R WD WL. destruct (doc_text_ok d text ltac:(intros ->; destruct Hin) R) as [HF HT].
  exact (one_issued w sign c d n es limits text hint s out t HO HS (found_sole 1024 w hint text s ltac:(lia) HF HW) HC HH HI D Hin Hn R WD WL).
Qed.
Print Assumptions C99_issued_verdict.
(** A file that was found and has no section for the feature: PRODUCT_NOT_LICENSED, not "no
    such file". *)
Theorem C99_unlicensed w c d text hint p out t :
  (forall i, order_ok (w_machine w i)) -> found 1024 w hint text (SFile p) ->
  (forall x, c = Some x -> In NUL (ci_feature x)) ->
  renders d text -> (forall n es, In (n, es) d -> ~ same_name n (feature_of w (option_map ci_feature c))) -> d <> [] ->
  exists out' t', acquire_license w c hint out t = Ok ((PRODUCT_NOT_LICENSED, out'), t').
Proof.
  intros HO HW HC R N Hd. set (f := feature_of w (option_map ci_feature c)) in *. destruct (doc_text_ok d text Hd R) as [HF HT]. pose proof (found_sole 1024 w hint text _ ltac:(lia) HF HW) as So.
  pose proof (doc_nothing d text f N R) as E.
  destruct (one_returns w c hint text _ t out So HO HC) as [code [out' [t' H]]]; fold f; rewrite ?E.
  - intros sig [X _]. discriminate X.
  - intros key dd _ X. discriminate X.
  - intros id X. discriminate X.
  - exists out', t'. pose proof (one_diagnosis w c hint text _ t out So (or_introl (or_introl (ex_intro _ p eq_refl))) HO code out' t' H) as G. fold f in G. rewrite E in G. apply absent_verdict in G. rewrite H, G. reflexivity.
Qed.
Print Assumptions C99_unlicensed.
(** Any text: what else is named but missing does not change the code, if the text has a section
    for the feature or lies in a file (C99_not_for_texts: otherwise it may). *)
Definition speaks (text feature : bytes) (s : source) : Prop := (exists p, s = SFile p) \/ section_entries text feature <> [].
Lemma speaks_out w hint text feature s : speaks text feature s -> stands_out w hint s \/ section_entries text feature <> [].
Proof. intros [H|H]; [left; left; exact H|right; exact H]. Qed.
Theorem C99_as_if_alone w w' c text hint hint' s s' out out2 t u code code' o o' t1 t2 :
  (forall i, order_ok (w_machine w i)) -> (forall i, order_ok (w_machine w' i)) -> static w -> static w' -> same_judge w t w' u -> ~ In NUL text ->
  found 1024 w hint text s -> found 1024 w' hint' text s' ->
  let feature := feature_of w (option_map ci_feature c) in speaks text feature s -> speaks text feature s' ->
  acquire_license w c hint out t = Ok ((code, o), t1) -> acquire_license w' c hint' out2 u = Ok ((code', o'), t2) -> code = code'.
Proof.
  intros HO HO' HS HS' [E1 [E2 [E3 [E4 [E5 [E6 [E7 E8]]]]]]] HF R R' f St St' H H'. apply nul_free_in in HF.
  pose proof (found_sole 1024 w hint text s ltac:(lia) HF R) as So. pose proof (found_sole 1024 w' hint' text s' ltac:(lia) HF R') as So'.
  assert (F : feature_of w' (option_map ci_feature c) = f) by (unfold f, feature_of; rewrite E1; reflexivity). rewrite <- F in St'.
  pose proof (one_diagnosis w c hint text s t out So (speaks_out _ _ _ _ _ St) HO code o t1 H) as D. pose proof (one_diagnosis w' c hint' text s' u out2 So' (speaks_out _ _ _ _ _ St') HO' code' o' t2 H') as D'.
  rewrite F in D'. fold f in D.
  refine (p_diagnosis_same w _ w' _ _ _ _ _ _ _ _ _ _ (w_clock w t) _ _ E2 E3 _ _ D D').
  - intros x y. cbn [mn_good linux_means]. rewrite E4, E5, E6. reflexivity.
  - intros i j id. cbn [mn_ident linux_means]. destruct (HS i t) as [_ [_ [_ ->]]]. destruct (HS' j u) as [_ [_ [_ ->]]]. rewrite E8. reflexivity.
  - intros i. apply (HS i t).
  - intros i. rewrite <- E7. apply (HS' i u).
Qed.
Print Assumptions C99_as_if_alone.
(** ... nor what the caller is told about the license. *)
Theorem C99_told_same w w' c text hint hint' s s' x t u code code' y y' t1 t2 :
  (forall i, order_ok (w_machine w i)) -> (forall i, order_ok (w_machine w' i)) -> static w -> static w' -> same_judge w t w' u -> ~ In NUL text ->
  found 1024 w hint text s -> found 1024 w' hint' text s' ->
  acquire_license w c hint (Some x) t = Ok ((code, Some y), t1) -> acquire_license w' c hint' (Some x) u = Ok ((code', Some y'), t2) ->
  license_fields y = license_fields y'.
Proof.
  intros HO HO' HS HS' J HF R R' H H'. apply nul_free_in in HF.
  pose proof (found_sole 1024 w hint text s ltac:(lia) HF R) as So. pose proof (found_sole 1024 w' hint' text s' ltac:(lia) HF R') as So'.
  assert (F : feature_of w' (option_map ci_feature c) = feature_of w (option_map ci_feature c)) by (unfold feature_of; rewrite (proj1 J); reflexivity).
  pose proof (one_told _ _ _ _ _ _ _ _ _ _ So HO H) as A. pose proof (one_told _ _ _ _ _ _ _ _ _ _ So' HO' H') as B. cbv zeta in A, B. rewrite F in B.
  destruct A as [[NA A]|[YA [z [DA A]]]], B as [[NB B]|[YB [z' [DB B]]]].
  - congruence.
  - destruct YB as [sig YB]. destruct (NA sig YB).
  - destruct YA as [sig YA]. destruct (NB sig YA).
  - assert (z = z') as <-; [|congruence]. exact (described_same w w' t u _ _ _ _ _ _ _ J HS HS' DA DB).
Qed.
Print Assumptions C99_told_same.

(** * On Windows *)
Theorem C99_windows_verdict ww modulus exponent sign c d n es limits text hint s out t :
  win_ready ww modulus exponent -> win_static ww -> found 260 (places ww) hint text s ->
  (forall x, c = Some x -> In NUL (ci_feature x)) ->
  let feature := feature_of (places ww) (option_map ci_feature c) in
  win_honours ww modulus exponent sign (signed_text feature limits) ->
  issued sign feature limits es -> distinct_names d -> In (n, es) d -> same_name n feature ->
  renders d text -> well_dated (places ww) limits -> win_locked limits ->
  exists code out' t', win_acquire_license ww c hint out t = Ok ((code, out'), t') /\
    (* accepted *)
    (magic_of (option_map ci_magic c) = ww_magic ww -> in_time (places ww) limits (ww_clock ww t) ->
     (forall id, locked limits id -> win_identifies (ww_machine ww t) id) -> code = LICENSE_OK) /\
    (* another machine *)
    (magic_of (option_map ci_magic c) = ww_magic ww -> in_time (places ww) limits (ww_clock ww t) ->
     (exists id, locked limits id /\ ~ win_identifies (ww_machine ww t) id) -> code = IDENTIFIERS_MISMATCH) /\
    (* too early or too late *)
    (magic_of (option_map ci_magic c) = ww_magic ww -> out_of_time (places ww) limits (ww_clock ww t) -> code = PRODUCT_EXPIRED) /\
    (* another build of the library *)
    (magic_of (option_map ci_magic c) <> ww_magic ww -> code = LICENSE_CORRUPTED).
Proof.
  intros RD HS HW HC f HH HI D Hin Hn R WD WL. destruct (doc_text_ok d text ltac:(intros ->; destruct Hin) R) as [HF HT].
  exact (win_one_issued ww modulus exponent sign c d n es limits text hint s out t RD HS (found_sole 260 _ hint text s ltac:(lia) HF HW) HC HH HI D Hin Hn R WD WL).
Qed.
Print Assumptions C99_windows_verdict.
Theorem C99_windows_unlicensed ww modulus exponent c d text hint p out t :
  win_ready ww modulus exponent -> found 260 (places ww) hint text (SFile p) ->
  (forall x, c = Some x -> In NUL (ci_feature x)) ->
  renders d text -> (forall n es, In (n, es) d -> ~ same_name n (feature_of (places ww) (option_map ci_feature c))) -> d <> [] ->
  exists out' t', win_acquire_license ww c hint out t = Ok ((PRODUCT_NOT_LICENSED, out'), t').
Proof.
  intros RD HW HC R N Hd. set (f := feature_of (places ww) (option_map ci_feature c)) in *. destruct (doc_text_ok d text Hd R) as [HF HT]. pose proof (found_sole 260 _ hint text _ ltac:(lia) HF HW) as So.
  pose proof (doc_nothing d text f N R) as E.
  destruct (win_one_returns ww modulus exponent c hint text _ t out RD So HC) as [code [out' [t' H]]]; fold f; rewrite ?E.
  - intros sig [X _]. discriminate X.
  - intros key dd _ X. discriminate X.
  - intros id X. discriminate X.
  - exists out', t'. pose proof (win_one_diagnosis ww modulus exponent c hint text _ t out RD So (or_introl (or_introl (ex_intro _ p eq_refl))) code out' t' H) as G. fold f in G. rewrite E in G. apply absent_verdict in G. rewrite H, G. reflexivity.
Qed.
Print Assumptions C99_windows_unlicensed.
Theorem C99_windows_as_if_alone ww ww' modulus exponent c text hint hint' s s' out out2 t u code code' o o' t1 t2 :
  win_ready ww modulus exponent -> win_ready ww' modulus exponent -> win_static ww -> win_static ww' -> win_same_judge ww t ww' u -> ~ In NUL text ->
  found 260 (places ww) hint text s -> found 260 (places ww') hint' text s' ->
  let feature := feature_of (places ww) (option_map ci_feature c) in speaks text feature s -> speaks text feature s' ->
  win_acquire_license ww c hint out t = Ok ((code, o), t1) -> win_acquire_license ww' c hint' out2 u = Ok ((code', o'), t2) -> code = code'.
Proof.
  intros RD RD' HS HS' [E1 [E2 [E3 [E4 [E5 [E6 E7]]]]]] HF R R' f St St' H H'. apply nul_free_in in HF.
  pose proof (found_sole 260 _ hint text s ltac:(lia) HF R) as So. pose proof (found_sole 260 _ hint' text s' ltac:(lia) HF R') as So'.
  assert (F : feature_of (places ww') (option_map ci_feature c) = f) by (unfold f, feature_of; cbn [w_project places]; rewrite E1; reflexivity). rewrite <- F in St'.
  pose proof (win_one_diagnosis ww modulus exponent c hint text s t out RD So (speaks_out _ _ _ _ _ St) code o t1 H) as D. pose proof (win_one_diagnosis ww' modulus exponent c hint' text s' u out2 RD' So' (speaks_out _ _ _ _ _ St') code' o' t2 H') as D'.
  rewrite F in D'. fold f in D.
  refine (p_diagnosis_same (places ww) _ (places ww') _ _ _ _ _ _ _ _ _ _ (ww_clock ww t) _ _ E2 E3 _ _ D D').
  - intros x y. cbn [mn_good win_means]. rewrite E4. reflexivity.
  - intros i j id. cbn [mn_ident win_means]. destruct (HS i t) as [_ [_ [_ ->]]]. destruct (HS' j u) as [_ [_ [_ ->]]]. rewrite E7. reflexivity.
  - intros i. apply (HS i t).
  - intros i. rewrite <- E6. apply (HS' i u).
Qed.
Print Assumptions C99_windows_as_if_alone.

(** * The license of C87_case in the last but one of the files of LICENSE_LOCATION, nothing beside
    the program, LICENSE_DATA set to nonsense, and two missing files named by the caller *)
Definition NOISY : world := demo true true NOW SHELF [("LICENSE_LOCATION"%string, bs "/a;/b;/l;/c"); ("LICENSE_DATA"%string, bs "?")].
Definition IN_VAIN : option location := Some {| loc_type := 0; loc_data := bs "/x;/y" ++ [NUL] |}.
(** the text passed by the caller, in the same surroundings *)
Definition QUIET : world := demo true true NOW [] [("LICENSE_LOCATION"%string, bs "/a;/b;/c")].
Lemma vain w p : (forall i, w_good w i p = false) -> forallb nonnul p = true -> (length p <? 260)%nat = true -> p <> EXTERNAL -> missing_file 1024 w (SFile p).
Proof. intros A B C D. exists p. split; [reflexivity|]. split; [apply nul_free_in, B|]. apply Nat.ltb_lt in C. split; [lia|]. split; [exact D|exact A]. Qed.
Example C99_case : found 1024 NOISY IN_VAIN HOME_TEXT (SFile (bs "/l")) /\ found 1024 QUIET PLAIN HOME_TEXT (SText EXTERNAL HOME_TEXT) /\ static NOISY /\ static QUIET /\ same_judge NOISY 0 QUIET 0.
Proof.
  split; [|split; [|split; [apply demo_static|split; [apply demo_static|repeat split]]]].
  - constructor.
    + exists [SFile (bs "/opt/demo.lic"); SFile (bs "/a"); SFile (bs "/b")], [SFile (bs "/c"); SFile (bs "/x"); SFile (bs "/y")]. split; [vm_compute; reflexivity|].
      intros s' I. cbn [In app] in I. repeat (destruct I as [<-|I]; [apply vain; [intros i|..]; vm_compute; first [reflexivity|discriminate]|]). destruct I.
    + cbn [there]. split; [apply not_in_b; reflexivity|]. split; [apply Nat.ltb_lt; reflexivity|]. split; [intros [X|[X|[]]]; discriminate X|]. split; [apply small; reflexivity|]. intros i. split; vm_compute; reflexivity.
    + intros _ _. vm_compute. discriminate.
    + intros l [= <-]. split; [vm_compute; tauto|left; reflexivity].
  - constructor.
    + exists [SFile (bs "/opt/demo.lic"); SFile (bs "/a"); SFile (bs "/b"); SFile (bs "/c")], []. split; [vm_compute; reflexivity|].
      intros s' I. cbn [In app] in I. repeat (destruct I as [<-|I]; [apply vain; [intros i|..]; vm_compute; first [reflexivity|discriminate]|]). destruct I.
    + split; reflexivity.
    + intros _ X. exfalso. apply X. vm_compute. reflexivity.
    + intros l [= <-]. split; [change (In NUL (HOME_TEXT ++ [NUL])); apply in_or_app; right; left; reflexivity|right; left; reflexivity].
Qed.
Example C99_case_codes : code_of (acquire_license NOISY (Some (asking "demo")) IN_VAIN (Some blank_out) 0) = Ok LICENSE_OK /\
  code_of (acquire_license NOISY (Some (asking "other")) IN_VAIN (Some blank_out) 0) = Ok PRODUCT_NOT_LICENSED /\
  code_of (acquire_license QUIET (Some (asking "demo")) PLAIN (Some blank_out) 0) = Ok LICENSE_OK.
Proof. repeat split; vm_compute; reflexivity. Qed.
(** A text passed by the caller that has no section for the feature is hidden by a missing file:
    the caller is told that a file is missing, although nothing would change if it were not
    named. *)
Example C99_not_for_texts : code_of (acquire_license QUIET (Some (asking "other")) PLAIN (Some blank_out) 0) = Ok LICENSE_FILE_NOT_FOUND.
Proof. vm_compute. reflexivity. Qed.
(** the same on Windows: beside the program is the license, the variable and the caller name
    files that do not exist *)
Example C99_windows_case : let ww := pc true true 0 win_shelf [("LICENSE_LOCATION"%string, bs "D:\a;D:\b")] pc_one in let hint := Some (hint_of 0 (bs "E:\x")) in
  win_ready ww (odd_modulus 126) ["001"%char; "000"%char; "001"%char] /\ win_static ww /\ found 260 (places ww) hint WIN_TEXT (SFile (bs "C:\demo\demo.lic")) /\
  code_of (win_acquire_license ww (Some (asking "demo")) hint (Some blank_out) 0) = Ok LICENSE_OK /\
  code_of (win_acquire_license ww (Some (asking "other")) hint (Some blank_out) 0) = Ok PRODUCT_NOT_LICENSED.
Proof.
  cbv zeta. split; [apply pc_ready; reflexivity|]. split; [intros i j; repeat split|]. split; [|split; vm_compute; reflexivity]. constructor.
  - exists [], [SFile (bs "D:\a"); SFile (bs "D:\b"); SFile (bs "E:\x")]. split; [vm_compute; reflexivity|].
    intros s' I. cbn [In app] in I. repeat (destruct I as [<-|I]; [eexists; split; [reflexivity|]; split; [apply not_in_b; reflexivity|]; split; [apply Nat.ltb_lt; reflexivity|]; split; [discriminate|intros i; reflexivity]|]). destruct I.
  - split; [apply not_in_b; reflexivity|]. split; [apply Nat.ltb_lt; reflexivity|]. split; [intros [X|[X|[]]]; discriminate X|]. split; [apply small; reflexivity|]. intros i. split; reflexivity.
  - intros _ X. exfalso. apply X. reflexivity.
  - intros l [= <-]. split; [vm_compute; tauto|left; reflexivity].
Qed.
