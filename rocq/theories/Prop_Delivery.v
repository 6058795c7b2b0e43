(** However a license reaches the library, the verdict is the same (C97). *)
From Verif Require Import Base CTypes StringUtils Dates Base64 HwId Registry Ini Network Disks ExecEnv Strategies Locate Licensecc.
From Verif Require Import P_Base Spec_Listing Spec_Strings Spec_Base64 Spec_Dates Spec_Ini P_Ini P_IniSave Spec_HwId Spec_Hw P_Hw2 Spec_Registry Spec_Acquire P_Acquire1 P_Acquire2 P_Acquire3 P_Acquire4 P_Acquire5 Spec_AcquireGen P_AcqGen1 P_AcqGen2 Spec_Faults Spec_Ext P_Ext Spec_Layout P_Layout Spec_Issue Spec_Delivery P_Delivery P_Delivery2.
From Verif Require P_Signature P_HwText Prop_Hw.
From Coq Require Import Sorted Permutation Lia.
From Verif Require Import Ex_Acquire Prop_Acquire Prop_Faults Prop_Layout Prop_Issue Prop_Enrol Spec_Refused Prop_Refused.

(** the section of the feature in a document *)
Lemma doc_entries d text f n es : distinct_names d -> In (n, es) d -> same_name n f -> renders d text -> section_entries text f = es.
Proof.
  intros D Hin Hn R. rewrite (rendered_entries _ _ _ R). destruct (entries_of_distinct d f D) as [[_ N]|[n' [es' [Hin' [Hn' ->]]]]].
  - specialize (N _ _ Hin). destruct (same_nameb_spec n f); [discriminate|contradiction].
  - destruct (same_nameb_spec n' f) as [S'|]; [|discriminate]. destruct (distinct_in d D _ _ _ _ Hin' Hin) as [_ X]; [unfold same_name in *; congruence|exact X].
Qed.
Lemma doc_nothing d text f : (forall n es, In (n, es) d -> ~ same_name n f) -> renders d text -> section_entries text f = [].
Proof.
  intros N R. rewrite (rendered_entries _ _ _ R). clear -N. induction d as [|[n es] d IH]; [reflexivity|]. unfold document_entries. cbn [flat_map fst snd]. destruct (same_nameb_spec n f) as [S|_]; [destruct (N n es (or_introl eq_refl) S)|].
  apply IH. intros m x Hx. apply (N m x). right. exact Hx.
Qed.
Lemma doc_text_ok d text : d <> [] -> renders d text -> nul_free text /\ text <> [].
Proof.
  intros Hd R. destruct (sets_out_lines _ _ R) as [HF [_ HM]]. split; [exact HF|]. intros ->. destruct d as [|[n es] d]; [contradiction|]. discriminate HM.
Qed.

Section SOLE.
Variables (w : world) (c : option caller) (hint : option location) (text : bytes) (s : source) (t : nat) (out : option out_info).
Let feature := feature_of w (option_map ci_feature c).
Let es := section_entries text feature.
Hypothesis HS : sole 1024 w hint text s.
Hypothesis ST : stands_out w hint s \/ es <> [].
Hypothesis HO : forall i, order_ok (w_machine w i).
Lemma one_diagnosis code out' t' : acquire_license w c hint out t = Ok ((code, out'), t') -> p_diagnosis w (linux_means w) feature (magic_of (option_map ci_magic c)) t t' es code.
Proof using HS HO ST. intros H. apply acquire_outcome in H as [_ [rss [log H]]]; [|exact HO]. apply linux_outcome in H. exact (sole_code w _ 1024 c hint text s out t code out' t' rss log (le_n _) HS H ST). Qed.
Lemma one_returns : (forall x, c = Some x -> In NUL (ci_feature x)) ->
  (forall sig, license_form es sig -> (0 <= fst (w_bio w sig) < 512)%Z) ->
  (forall key d, In key [bs "valid-to"; bs "valid-from"] -> exact_value es key = Some d -> exists y m day, date_text d y m day /\ forall i, (Z.abs (w_mktime w y m day - w_clock w i) <= 86400 * 2147483647)%Z) ->
  (forall code, locked es code -> ~ over_read (undashed code) /\ forall h j u, denotes code h -> strategy_bits h = 2%Z -> disks_of (hw_disks (w_machine w j)) <> Undef u) ->
  exists code out' t', acquire_license w c hint out t = Ok ((code, out'), t').
Proof using HS HO.
  intros H1 H2 H3 H4. apply C58_returns_when_calm; [exact HO|].
  assert (C : forall es' sig, carried w feature hint t es' sig -> es' = es /\ license_form es sig).
  { intros es' sig [s' [t' [content [Hs [Hp [Hg [-> Hf]]]]]]]. destruct (sole_in _ _ _ _ _ _ HS Hs) as [->|[[p ->] [_ [U _]]]].
    - rewrite (so_given _ _ _ _ _ HS _ _ _ Hg) in *. auto.
    - destruct Hp as [i [_ X]]. rewrite U in X. discriminate. }
  constructor; fold feature.
  - exact H1.
  - apply (so_hint _ _ _ _ _ HS).
  - intros s' I. apply (sole_short _ _ _ _ _ _ HS I).
  - intros p i j I _ G. destruct (sole_in _ _ _ _ _ _ HS I) as [E|[_ [_ [U _]]]]; [exact (so_read _ _ _ _ _ HS p (eq_sym E) j)|]. specialize (U i). cbn [listed] in U. congruence.
  - apply (so_env _ _ _ _ _ HS).
  - intros n e I. destruct (sole_in _ _ _ _ _ _ HS I) as [E|[[p E] _]]; [exact (so_enc _ _ _ _ _ HS n e (eq_sym E))|discriminate E].
  - intros es' sig H. apply C in H as [-> H]. apply H2, H.
  - intros es' sig key d H. apply C in H as [-> _]. apply H3.
  - intros es' sig code H. apply C in H as [-> _]. apply H4.
  - left. destruct (so_sources _ _ _ _ _ HS) as [a [b [E _]]]. rewrite E. destruct a; discriminate.
Qed.
End SOLE.

(** an issued license in the only place where something is *)
Lemma one_issued w sign c d n es limits text hint s out t :
  (forall i, order_ok (w_machine w i)) -> static w -> sole 1024 w hint text s ->
  (forall x, c = Some x -> In NUL (ci_feature x)) ->
  let feature := feature_of w (option_map ci_feature c) in
  honours w sign (signed_text feature limits) ->
  issued sign feature limits es -> distinct_names d -> In (n, es) d -> same_name n feature ->
  renders d text -> well_dated w limits -> well_locked w limits ->
  exists code out' t', acquire_license w c hint out t = Ok ((code, out'), t') /\
    (* accepted *)
    (magic_of (option_map ci_magic c) = w_magic w -> in_time w limits (w_clock w t) ->
     (forall id, locked limits id -> identifies (w_machine w t) id) -> code = LICENSE_OK) /\
    (* another machine *)
    (magic_of (option_map ci_magic c) = w_magic w -> in_time w limits (w_clock w t) ->
     (exists id, locked limits id /\ ~ identifies (w_machine w t) id) -> code = IDENTIFIERS_MISMATCH) /\
    (* too early or too late *)
    (magic_of (option_map ci_magic c) = w_magic w -> out_of_time w limits (w_clock w t) -> code = PRODUCT_EXPIRED) /\
    (* another build of the library *)
    (magic_of (option_map ci_magic c) <> w_magic w -> code = LICENSE_CORRUPTED).
Proof.
  intros HO HS So HC f HH HI D Hin Hn R WD WL.
  pose proof (doc_entries d text f n es D Hin Hn R) as E.
  assert (NE : section_entries text f <> []) by (rewrite E; intros ->; destruct (is_form _ _ _ _ HI) as [X _]; discriminate X).
  destruct (one_returns w c hint text s t out So HO HC) as [code [out' [t' H]]]; fold f; rewrite ?E.
  - intros sig X. destruct (is_form _ _ _ _ HI) as [Y _]. destruct X as [X _]. rewrite Y in X. injection X as <-. destruct HH as [_ [k [data [B [K _]]]]]. rewrite B. exact K.
  - intros key dd Hk Hd. apply (WD key); [exact Hk|]. rewrite (is_exact _ _ _ _ HI) in Hd by (destruct Hk as [<-|[<-|[]]]; discriminate). apply (is_lim _ _ _ _ HI), Hd.
  - intros id Hl. rewrite (is_locked _ _ _ _ HI) in Hl. apply WL, (is_lim _ _ _ _ HI), Hl.
  - exists code, out', t'. split; [exact H|]. pose proof (one_diagnosis w c hint text s t out So (or_intror NE) HO code out' t' H) as G. fold f in G. rewrite E in G.
    refine (any_verdict w (linux_means w) sign f limits es HI _ t t' code _ _ _ G).
    + intros i. destruct (HS i t) as [_ [_ [X _]]]. exact X.
    + intros i id. destruct (HS i t) as [_ [_ [_ X]]]. cbn [mn_ident linux_means]. rewrite X. reflexivity.
    + exact HH.
Qed.
(** A document with a license issued for the feature asked for, reaching the library in any of
    the ways. *)
Theorem C97_issued_verdict w sign c d n es limits text hint out t :
  (forall i, order_ok (w_machine w i)) -> static w -> reaches 1024 w text hint ->
  (forall x, c = Some x -> In NUL (ci_feature x)) ->
  let feature := feature_of w (option_map ci_feature c) in
  honours w sign (signed_text feature limits) ->
  issued sign feature limits es -> distinct_names d -> In (n, es) d -> same_name n feature ->
  renders d text -> well_dated w limits -> well_locked w limits ->
  exists code out' t', acquire_license w c hint out t = Ok ((code, out'), t') /\
    (* accepted *)
    (magic_of (option_map ci_magic c) = w_magic w -> in_time w limits (w_clock w t) ->
     (forall id, locked limits id -> identifies (w_machine w t) id) -> code = LICENSE_OK) /\
    (* another machine *)
    (magic_of (option_map ci_magic c) = w_magic w -> in_time w limits (w_clock w t) ->
     (exists id, locked limits id /\ ~ identifies (w_machine w t) id) -> code = IDENTIFIERS_MISMATCH) /\
    (* too early or too late *)
    (magic_of (option_map ci_magic c) = w_magic w -> out_of_time w limits (w_clock w t) -> code = PRODUCT_EXPIRED) /\
    (* another build of the library *)
    (magic_of (option_map ci_magic c) <> w_magic w -> code = LICENSE_CORRUPTED).
Proof.
  intros HO HS HW HC f HH HI D Hin Hn R WD WL.
  destruct (doc_text_ok d text ltac:(intros ->; destruct Hin) R) as [HF HT]. destruct (reaches_sole 1024 w text hint ltac:(lia) HT HF HW) as [s [So _]].
  exact (one_issued w sign c d n es limits text hint s out t HO HS So HC HH HI D Hin Hn R WD WL).
Qed.
Print Assumptions C97_issued_verdict.
Theorem C97_unlicensed w c d text hint out t :
  (forall i, order_ok (w_machine w i)) -> reaches 1024 w text hint ->
  (forall x, c = Some x -> In NUL (ci_feature x)) ->
  renders d text -> (forall n es, In (n, es) d -> ~ same_name n (feature_of w (option_map ci_feature c))) -> d <> [] ->
  exists out' t', acquire_license w c hint out t = Ok ((PRODUCT_NOT_LICENSED, out'), t').
Proof.
  intros HO HW HC R N Hd. set (f := feature_of w (option_map ci_feature c)) in *. destruct (doc_text_ok d text Hd R) as [HF HT]. destruct (reaches_sole 1024 w text hint ltac:(lia) HT HF HW) as [s [So St]].
  pose proof (doc_nothing d text f N R) as E.
  destruct (one_returns w c hint text s t out So HO HC) as [code [out' [t' H]]]; fold f; rewrite ?E.
  - intros sig [X _]. discriminate X.
  - intros key dd _ X. discriminate X.
  - intros id X. discriminate X.
  - exists out', t'. pose proof (one_diagnosis w c hint text s t out So (or_introl St) HO code out' t' H) as G. fold f in G. rewrite E in G. apply absent_verdict in G. rewrite H, G. reflexivity.
Qed.
Print Assumptions C97_unlicensed.
(** Any text, license or not: if two ways to deliver it both get a verdict, it is the same. *)
Theorem C97_way_irrelevant w w' c text hint hint' out out2 t u code code' o o' t1 t2 :
  (forall i, order_ok (w_machine w i)) -> (forall i, order_ok (w_machine w' i)) -> static w -> static w' -> same_judge w t w' u -> text <> [] -> ~ In NUL text ->
  reaches 1024 w text hint -> reaches 1024 w' text hint' ->
  acquire_license w c hint out t = Ok ((code, o), t1) -> acquire_license w' c hint' out2 u = Ok ((code', o'), t2) -> code = code'.
Proof.
  intros HO HO' HS HS' [E1 [E2 [E3 [E4 [E5 [E6 [E7 E8]]]]]]] HT HF R R' H H'. apply nul_free_in in HF.
  destruct (reaches_sole 1024 w text hint ltac:(lia) HT HF R) as [s [So St]]. destruct (reaches_sole 1024 w' text hint' ltac:(lia) HT HF R') as [s' [So' St']].
  pose proof (one_diagnosis w c hint text s t out So (or_introl St) HO code o t1 H) as D. pose proof (one_diagnosis w' c hint' text s' u out2 So' (or_introl St') HO' code' o' t2 H') as D'.
  assert (F : feature_of w' (option_map ci_feature c) = feature_of w (option_map ci_feature c)) by (unfold feature_of; rewrite E1; reflexivity). rewrite F in D'.
  refine (p_diagnosis_same _ _ _ _ _ _ _ _ _ _ _ _ _ (w_clock w t) _ _ E2 E3 _ _ D D').
  - intros x y. cbn [mn_good linux_means]. rewrite E4, E5, E6. reflexivity.
  - intros i j id. cbn [mn_ident linux_means]. destruct (HS i t) as [_ [_ [_ ->]]]. destruct (HS' j u) as [_ [_ [_ ->]]]. rewrite E8. reflexivity.
  - intros i. apply (HS i t).
  - intros i. rewrite <- E7. apply (HS' i u).
Qed.
Print Assumptions C97_way_irrelevant.
(** ... and a caller with the same structure is told the same about the license. *)
Lemma one_told w c hint text s t x code y t' : sole 1024 w hint text s -> (forall i, order_ok (w_machine w i)) ->
  acquire_license w c hint (Some x) t = Ok ((code, Some y), t') ->
  let es := section_entries text (feature_of w (option_map ci_feature c)) in
  ((forall sig, ~ license_form es sig) /\ license_fields y = (o_expiry_date x, Some 0%Z, o_has_expiry x, Some false, Some [])) \/
  ((exists sig, license_form es sig) /\ exists z, describes w t t' es z /\ license_fields y = (Some (td_expiry z), Some (td_days z), Some (td_has_expiry z), Some (td_linked z), td_proprietary z)).
Proof.
  intros So HO H es. apply acquire_outcome in H as [_ [rss [log H]]]; [|exact HO]. apply linux_outcome in H. exact (sole_told w _ 1024 c hint text s x t code y t' rss log (le_n _) So H).
Qed.
Theorem C97_told_same w w' c text hint hint' x t u code code' y y' t1 t2 :
  (forall i, order_ok (w_machine w i)) -> (forall i, order_ok (w_machine w' i)) -> static w -> static w' -> same_judge w t w' u -> text <> [] -> ~ In NUL text ->
  reaches 1024 w text hint -> reaches 1024 w' text hint' ->
  acquire_license w c hint (Some x) t = Ok ((code, Some y), t1) -> acquire_license w' c hint' (Some x) u = Ok ((code', Some y'), t2) ->
  license_fields y = license_fields y'.
Proof.
  intros HO HO' HS HS' J HT HF R R' H H'. apply nul_free_in in HF.
  destruct (reaches_sole 1024 w text hint ltac:(lia) HT HF R) as [s [So St]]. destruct (reaches_sole 1024 w' text hint' ltac:(lia) HT HF R') as [s' [So' St']].
  assert (F : feature_of w' (option_map ci_feature c) = feature_of w (option_map ci_feature c)) by (unfold feature_of; rewrite (proj1 J); reflexivity).
  pose proof (one_told _ _ _ _ _ _ _ _ _ _ So HO H) as A. pose proof (one_told _ _ _ _ _ _ _ _ _ _ So' HO' H') as B. cbv zeta in A, B. rewrite F in B.
  destruct A as [[NA A]|[YA [z [DA A]]]], B as [[NB B]|[YB [z' [DB B]]]].
  - congruence.
  - destruct YB as [sig YB]. destruct (NA sig YB).
  - destruct YA as [sig YA]. destruct (NB sig YA).
  - assert (z = z') as <-; [|congruence]. exact (described_same w w' t u _ _ _ _ _ _ _ J HS HS' DA DB).
Qed.
Print Assumptions C97_told_same.
(** From identify_pc on the customer's machine to acquire_license. *)
Section ENROLMENT.
Variables (env : option bytes) (m : machine) (method : Z) (buf : bytes) (size : nat) (info : bool) (buf' : bytes) (size' : nat) (x : option exec_info).
Hypothesis TOLD : order_ok m /\ size <= length buf /\ identify_pc env m method (Some buf) size info = Ok (true, Some buf', size', x).
Variables (w : world) (sign : bytes -> bytes) (c : option caller) (d : document) (n : bytes) (limits es : list (bytes * bytes)) (text : bytes) (hint : option location).
Let feature := feature_of w (option_map ci_feature c).
Hypothesis ISSUED : honours w sign (signed_text feature limits) /\ issued sign feature limits es /\ In (bs "client-signature", cstr buf') limits /\
  distinct_names d /\ In (n, es) d /\ same_name n feature /\ renders d text /\ well_dated w limits.
Hypothesis SURROUNDINGS : static w /\ reaches 1024 w text hint /\ (forall i, order_ok (w_machine w i)) /\
  magic_of (option_map ci_magic c) = w_magic w /\ (forall y, c = Some y -> In NUL (ci_feature y)) /\
  (forall i u, disks_of (hw_disks (w_machine w i)) <> Undef u).
Theorem C97_enrolled out t : exists code out' t', acquire_license w c hint out t = Ok ((code, out'), t') /\
  (* the machine still has what it had, during the validity of the license *)
  ((forall s data, own m s data -> own (w_machine w t) s data) -> in_time w limits (w_clock w t) -> code = LICENSE_OK) /\
  (* a machine with nothing of that *)
  ((forall s a b, own m s a -> own (w_machine w t) s b -> d7_53 a <> d7_53 b) -> in_time w limits (w_clock w t) -> code = IDENTIFIERS_MISMATCH) /\
  (* outside the validity of the license *)
  (out_of_time w limits (w_clock w t) -> code = PRODUCT_EXPIRED).
Proof.
  destruct TOLD as [To [Ts T]]. destruct ISSUED as [I1 [I2 [I3 [I4 [I5 [I6 [I7 I9]]]]]]]. destruct SURROUNDINGS as [W1 [W2 [W4 [W5 [W6 W7]]]]].
  pose proof (told_identifies _ _ _ _ _ _ _ _ _ To Ts T) as V.
  assert (U : forall id, locked limits id <-> id = cstr buf').
  { intros id. unfold locked. rewrite (is_lim _ _ _ _ I2). split; [|intros ->; exact I3]. intros H. destruct (distinct_in limits (is_distinct _ _ _ _ I2) _ _ _ _ H I3 eq_refl) as [_ X]. exact X. }
  assert (L : well_locked w limits).
  { intros id H. assert (id = cstr buf') as -> by (apply U, (is_lim _ _ _ _ I2), H). split; [eapply verdict_readable, V|]. intros h j u _ _. apply W7. }
  destruct (C97_issued_verdict w sign c d n es limits text hint out t W4 W1 W2 W6 I1 I2 I4 I5 I6 I7 I9 L) as [code [out' [t' [H [A [B [C _]]]]]]].
  destruct (verdict_identifies m (cstr buf') To V) as [h [a [D1 [D2 D3]]]].
  exists code, out', t'. split; [exact H|]. split; [|split].
  - intros K O. apply A; [exact W5|exact O|]. intros id X. apply U in X. subst id. exists h, a. auto.
  - intros K O. apply B; [exact W5|exact O|]. exists (cstr buf'). split; [apply U; reflexivity|]. intros [h' [b [E1 [E2 E3]]]]. pose proof (P_HwText.denotes_fun _ _ _ D1 E1) as <-. apply (K _ _ _ D2 E2). congruence.
  - intros O. apply C; [exact W5|exact O].
Qed.
End ENROLMENT.
Print Assumptions C97_enrolled.

(** the license of C87_case, by all five ways *)
Definition PLAIN : option location := Some {| loc_type := 1; loc_data := HOME_TEXT ++ [NUL] |}.
Definition ENCODED_TEXT : bytes := bs "W2RlbW9dCnNpZz1ERU1PY2xpZW50LXNpZ25hdHVyZUFDQUstQUFFQi1LaW89bGljX3ZlcjIwMApjbGllbnQtc2lnbmF0dXJlPUFDQUstQUFFQi1LaW89CmxpY192ZXI9MjAwAA==".
Definition SHELF : list (string * bytes) := [("/l"%string, HOME_TEXT)].
(** a build that looks everywhere *)
Definition ways : list (world * option location) :=
  [(demo true true NOW SHELF [], PLAIN);
   (demo true true NOW SHELF [], Some {| loc_type := 2; loc_data := ENCODED_TEXT ++ [NUL] |});
   (demo true true NOW SHELF [], Some {| loc_type := 0; loc_data := bs "/l" ++ [NUL] |});
   (demo true true NOW [("/opt/demo.lic"%string, HOME_TEXT)] [], None);
   (demo true true NOW SHELF [("LICENSE_LOCATION"%string, bs "/l")], None)].
Lemma not_in_b (x : ascii) l : existsb (Ascii.eqb x) l = false -> ~ In x l.
Proof. intros H I. assert (existsb (Ascii.eqb x) l = true); [apply existsb_exists; exists x; split; [exact I|apply Ascii.eqb_refl]|congruence]. Qed.
Lemma small a : Nat.leb a 1000 = true -> a <= HINT_SIZE.
Proof. intros H. apply Nat.leb_le in H. unfold HINT_SIZE. lia. Qed.
Example C97_ways : Forall (fun q => reaches 1024 (fst q) HOME_TEXT (snd q)) ways.
Proof.
  assert (D : forall near env_on files vars p, path_in files p = Some HOME_TEXT -> on_disk (demo near env_on NOW files vars) p HOME_TEXT).
  { intros near env_on files vars p H. split; [apply small; reflexivity|]. intros i. unfold demo. cbn [w_good w_file]. rewrite H. split; reflexivity. }
  assert (NB : forall vars, none_beside 1024 (demo true true NOW SHELF vars)).
  { intros vars _ program [= <-]. split; [apply not_in_b; reflexivity|]. split; [apply Nat.leb_le; reflexivity|]. split; [apply Nat.ltb_lt; reflexivity|]. intros i. reflexivity. }
  assert (NV : forall files, no_variables (demo true true NOW files [])) by (intros files _; split; reflexivity).
  constructor; [|constructor; [|constructor; [|constructor; [|constructor; [|constructor]]]]]; cbn [fst snd].
  - apply rc_plain; [apply NB|apply NV|apply small; reflexivity].
  - apply (rc_encoded 1024 _ HOME_TEXT ENCODED_TEXT []); [apply NB|apply NV|apply small; reflexivity|apply not_in_b; reflexivity| |vm_compute; reflexivity].
    split; [|vm_compute; discriminate]. intros [_ [_ [X|[X _]]]]; [|discriminate X]. apply Nat.ltb_lt in X. vm_compute in X. discriminate X.
  - apply rc_file; [apply NB|apply NV|discriminate|apply not_in_b; reflexivity|apply not_in_b; reflexivity|intros [X|[X|[X|[]]]]; discriminate X| |apply small; reflexivity|apply D; reflexivity]. apply Nat.ltb_lt. reflexivity.
  - apply (rc_beside 1024 _ _ (bs "/opt/demo.bin") (bs "/opt/demo.lic")); [reflexivity|apply NV|reflexivity|apply not_in_b; reflexivity| |reflexivity| |apply D; reflexivity]; [apply Nat.leb_le|apply Nat.ltb_lt]; reflexivity.
  - apply (rc_variable 1024 _ _ (bs "/l")); [apply NB|reflexivity|reflexivity|reflexivity|discriminate|apply not_in_b; reflexivity|apply not_in_b; reflexivity|discriminate| |apply D; reflexivity]. apply Nat.ltb_lt. reflexivity.
Qed.
(** any two of them judge alike *)
Example C97_alike : forall w w' h h', In (w, h) ways -> In (w', h') ways -> static w /\ same_judge w 0 w' 0 /\ (forall i, order_ok (w_machine w i)) /\ HOME_TEXT <> [] /\ ~ In NUL HOME_TEXT.
Proof.
  assert (DW : forall w h, In (w, h) ways -> exists files vars, w = demo true true NOW files vars) by (intros w h I; cbn in I; repeat (destruct I as [I|I]; [injection I as <- _; repeat eexists|]); destruct I).
  intros w w' h h' I I'. destruct (DW _ _ I) as [f [v ->]], (DW _ _ I') as [f' [v' ->]]. split; [apply demo_static|]. split; [repeat split|]. split; [apply demo_order|]. split; [discriminate|apply not_in_b; reflexivity].
Qed.
Example C97_case : map (fun q => code_of (acquire_license (fst q) (Some (asking "demo")) (snd q) (Some blank_out) 0)) ways = repeat (Ok LICENSE_OK) 5 /\
  map (fun q => code_of (acquire_license (fst q) (Some (asking "other")) (snd q) (Some blank_out) 0)) ways = repeat (Ok PRODUCT_NOT_LICENSED) 5.
Proof. split; vm_compute; reflexivity. Qed.
(** ... through the theorem *)
Example C97_case_enrolled : forall w hint, In (w, hint) ways -> exists out' t', acquire_license w (Some (asking "demo")) hint (Some blank_out) 0 = Ok ((LICENSE_OK, out'), t').
Proof.
  intros w hint I. pose proof (proj1 (Forall_forall _ _) C97_ways _ I) as R. cbn [fst snd] in R. destruct Prop_Hw.C29_case as [buf' [H1 H2]].
  assert (DW : exists files vars, w = demo true true NOW files vars) by (cbn in I; repeat (destruct I as [I|I]; [injection I as <- _; repeat eexists|]); destruct I). destruct DW as [files [vars ->]]. clear I.
  destruct (C97_enrolled None (Prop_Hw.net_machine Prop_Hw.some_interfaces) 1 (repeat NUL 20) 20 false buf' 20 None (conj Prop_Hw.some_order (conj (le_n 20) H1)) (demo true true NOW files vars) (fun text => text)
    (Some (asking "demo")) [(bs "demo", HOME_ENTRIES)] (bs "demo") HOME_LIMITS HOME_ENTRIES HOME_TEXT hint) with (out := Some blank_out) (t := 0) as [code [out' [t' [H [A _]]]]].
  - split; [split; [reflexivity|eexists _, _; split; [reflexivity|split; [vm_compute; split; [discriminate|reflexivity]|vm_compute; reflexivity]]]|]. split; [exact home_issued|]. split; [rewrite H2; left; reflexivity|].
    split; [split; [intros ? ? []|exact Logic.I]|]. split; [left; reflexivity|]. split; [vm_compute; reflexivity|]. split; [exact home_text|].
    intros key d [<-|[<-|[]]] [X|[X|[]]]; discriminate X.
  - split; [apply demo_static|]. split; [exact R|]. split; [apply demo_order|]. split; [reflexivity|]. split; [intros y [= <-]; vm_compute; tauto|]. intros i u. vm_compute. discriminate.
  - exists out', t'. rewrite H, A; [reflexivity|intros s data O; exact O|split; left; vm_compute; reflexivity].
Qed.
