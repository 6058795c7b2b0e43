(** The life of a license on Windows (C98): issued, delivered in any way, judged; and from
    identify_pc on the customer's machine to acquire_license. *)
From Verif Require Import Base CTypes StringUtils Dates Base64 HwId Registry Ini Network Disks ExecEnv Strategies Locate Licensecc Shared Trace WinSignature WinMachine AcquireGen.
From Verif Require Import P_Base Spec_Listing Spec_Strings Spec_Base64 Spec_Dates Spec_Ini P_Ini P_IniSave Spec_HwId Spec_Hw Spec_Registry Spec_Acquire P_Acquire1 P_Acquire2 P_Acquire3 P_Acquire4 P_Acquire5 Spec_AcquireGen P_AcqGen1 P_AcqGen2 Spec_Faults Spec_Ext P_Ext Spec_Layout P_Layout Spec_Issue Spec_Delivery P_Delivery P_Delivery2.
From Verif Require Import Spec_Der Prop_WinSig Spec_WinNet Spec_Windows P_Shared Prop_Windows Spec_WinAcquire Spec_WinFaults Prop_WinFaults.
From Verif Require P_Signature P_HwText P_DateText P_Windows.
From Coq Require Import Sorted Permutation Lia.
From Verif Require Import Ex_Acquire Prop_Acquire Prop_WinAcquire Prop_Layout Prop_Issue Prop_Delivery Spec_Refused Prop_Refused.

(** the provider accepts the signature of this text under the key in the library *)
Definition win_honours (ww : win_world) (modulus exponent : bytes) (sign : bytes -> bytes) (text : bytes) : Prop :=
  win_good (ww_provider ww) modulus exponent text (sign text).
(** the hardware identifier is one *)
Definition win_locked (limits : list (bytes * bytes)) : Prop := forall code, In (bs "client-signature", code) limits -> ~ over_read (undashed code).

Section SOLE.
Variables (ww : win_world) (modulus exponent : bytes) (c : option caller) (hint : option location) (text : bytes) (s : source) (t : nat) (out : option out_info).
Let w := places ww.
Let feature := feature_of w (option_map ci_feature c).
Let es := section_entries text feature.
Hypothesis READY : win_ready ww modulus exponent.
Hypothesis HS : sole 260 w hint text s.
Hypothesis ST : stands_out w hint s \/ es <> [].
Lemma win_sole_short : short_names ww hint.
Proof using HS. intros s' H. exact (sole_short _ _ _ _ _ _ HS H). Qed.
Lemma win_one_diagnosis code out' t' : win_acquire_license ww c hint out t = Ok ((code, out'), t') ->
  p_diagnosis w (win_means ww modulus exponent) feature (magic_of (option_map ci_magic c)) t t' es code.
Proof using HS READY ST.
  intros H. destruct (C78_outcome ww modulus exponent hint READY win_sole_short c out t code out' t' H) as [_ [rss [log O]]].
  exact (sole_code w _ 260 c hint text s out t code out' t' rss log ltac:(lia) HS O ST).
Qed.
Lemma win_one_returns : (forall x, c = Some x -> In NUL (ci_feature x)) ->
  (forall sig, license_form es sig -> pv_open_hash (ww_provider ww) = true /\ decodable sig /\ decoded sig <> []) ->
  (forall key d, In key [bs "valid-to"; bs "valid-from"] -> exact_value es key = Some d -> exists y m day, date_text d y m day /\ forall i, (Z.abs (ww_mktime ww y m day - ww_clock ww i) <= 86400 * 2147483647)%Z) ->
  (forall code, locked es code -> ~ over_read (undashed code)) ->
  exists code out' t', win_acquire_license ww c hint out t = Ok ((code, out'), t').
Proof using HS READY.
  intros H1 H2 H3 H4. destruct (C79_returns_or_hazard ww modulus exponent c hint READY win_sole_short out t) as [H|[f [_ H]]]; [exact H|]. exfalso.
  unfold w in *.
  assert (C : forall es' sig, carried (places ww) feature hint t es' sig -> es' = es /\ license_form es sig).
  { intros es' sig [s' [t' [content [Hs [Hp [Hg [-> Hf]]]]]]]. destruct (sole_in _ _ _ _ _ _ HS Hs) as [->|[[p ->] [_ [U _]]]].
    - rewrite (so_given _ _ _ _ _ HS _ _ _ Hg) in *. auto.
    - destruct Hp as [i [_ X]]. rewrite U in X. discriminate. }
  assert (SE : forall n e, In (SEncoded n e) (sources (places ww) hint) -> decodable e /\ In NUL (decoded e)) by (intros n e I; destruct (sole_in _ _ _ _ _ _ HS I) as [Es|[[p Es] _]]; [exact (so_enc _ _ _ _ _ HS n e (eq_sym Es))|discriminate Es]).
  destruct H as [x E N|l E N|l E _ N|p i j Hs Hi Hl N|d He Hd _ Hn|n e Hs E N|n e Hs E|n e Hs E|es' sig Hc P|es' sig txt h Hc _ _ B|es' sig txt h Hc _ _ B|es' sig txt h Hc _ _ _ B|es' sig d Hc E R|es' sig z i q Hc [d [y [m [day [E [X ->]]]]]] Hi R B|es' sig txt d Hc _ _ _ E R|es' sig txt code Hc _ _ _ Hk V|E N]; try (apply C in Hc as [-> Hc]).
  - apply N. eapply H1, E.
  - apply N. eapply (so_hint _ _ _ _ _ HS), E.
  - apply N. eapply (so_hint _ _ _ _ _ HS), E.
  - destruct (sole_in _ _ _ _ _ _ HS Hs) as [Es|[_ [_ [U _]]]]; [exact (so_read _ _ _ _ _ HS p (eq_sym Es) j N)|]. specialize (U i). cbn in U, Hl. rewrite U in Hl. discriminate Hl.
  - apply (so_env _ _ _ _ _ HS); [exact He|congruence|exact Hn].
  - apply SE in Hs. apply N, Hs.
  - destruct (SE _ _ Hs) as [[D _] _]. contradiction.
  - destruct (SE _ _ Hs) as [[_ D] _]. contradiction.
  - destruct (H2 _ Hc) as [A _]. congruence.
  - destruct (H2 _ Hc) as [_ [[A _] _]]. contradiction.
  - destruct (H2 _ Hc) as [_ [[_ A] _]]. contradiction.
  - destruct (H2 _ Hc) as [_ [_ A]]. contradiction.
  - destruct (H3 _ d (or_introl eq_refl) E) as [y [m [day [E' _]]]]. destruct (R _ _ _ E').
  - destruct (H3 _ d (or_introl eq_refl) E) as [y' [m' [day' [E' Y]]]]. destruct (P_DateText.date_fun _ _ _ _ _ _ _ X E') as [<- [<- <-]]. pose proof (Prop_Faults.rounded_bound _ _ R (Y i)). lia.
  - destruct (H3 _ d (or_intror (or_introl eq_refl)) E) as [y [m [day [E' _]]]]. destruct (R _ _ _ E').
  - destruct (H4 code Hk V).
  - destruct (so_sources _ _ _ _ _ HS) as [a [b [Es _]]]. rewrite Es in E. destruct a; discriminate.
Qed.
End SOLE.

(** an issued license in the only place where something is *)
Lemma win_one_issued ww modulus exponent sign c d n es limits text hint s out t :
  win_ready ww modulus exponent -> win_static ww -> sole 260 (places ww) hint text s ->
  (forall x, c = Some x -> In NUL (ci_feature x)) ->
  let feature := feature_of (places ww) (option_map ci_feature c) in
  win_honours ww modulus exponent sign (signed_text feature limits) ->
  issued sign feature limits es -> distinct_names d -> In (n, es) d -> same_name n feature ->
  renders d text -> well_dated (places ww) limits -> win_locked limits ->
  exists code out' t', win_acquire_license ww c hint out t = Ok ((code, out'), t') /\
    (* accepted *)
    (magic_of (option_map ci_magic c) = ww_magic ww -> in_time (places ww) limits (ww_clock ww t) ->
     (forall id, locked limits id -> win_identifies (ww_machine ww t) id) -> code = LICENSE_OK) /\
    (* another machine *)
    (magic_of (option_map ci_magic c) = ww_magic ww -> in_time (places ww) limits (ww_clock ww t) ->
     (exists id, locked limits id /\ ~ win_identifies (ww_machine ww t) id) -> code = IDENTIFIERS_MISMATCH) /\
    (* too early or too late *)
    (magic_of (option_map ci_magic c) = ww_magic ww -> out_of_time (places ww) limits (ww_clock ww t) -> code = PRODUCT_EXPIRED) /\
    (* another build of the library *)
    (magic_of (option_map ci_magic c) <> ww_magic ww -> code = LICENSE_CORRUPTED).
Proof.
  intros RD HS So HC f HH HI D Hin Hn R WD WL.
  pose proof (doc_entries d text f n es D Hin Hn R) as E.
  assert (NE : section_entries text f <> []) by (rewrite E; intros ->; destruct (is_form _ _ _ _ HI) as [X _]; discriminate X).
  destruct (win_one_returns ww modulus exponent c hint text s t out RD So HC) as [code [out' [t' H]]]; fold f; rewrite ?E.
  - intros sig X. destruct (is_form _ _ _ _ HI) as [Y _]. destruct X as [X _]. rewrite Y in X. injection X as <-. destruct HH as [h [[A _] [B [C _]]]]. auto.
  - intros key dd Hk Hd. apply (WD key); [exact Hk|]. rewrite (is_exact _ _ _ _ HI) in Hd by (destruct Hk as [<-|[<-|[]]]; discriminate). apply (is_lim _ _ _ _ HI), Hd.
  - intros id Hl. rewrite (is_locked _ _ _ _ HI) in Hl. apply WL, (is_lim _ _ _ _ HI), Hl.
  - exists code, out', t'. split; [exact H|]. pose proof (win_one_diagnosis ww modulus exponent c hint text s t out RD So (or_intror NE) code out' t' H) as G. fold f in G. rewrite E in G.
    refine (any_verdict (places ww) (win_means ww modulus exponent) sign f limits es HI _ t t' code _ _ HH G).
    + intros i. destruct (HS i t) as [_ [_ [X _]]]. exact X.
    + intros i id. destruct (HS i t) as [_ [_ [_ X]]]. cbn [mn_ident win_means]. rewrite X. reflexivity.
Qed.
Theorem C98_issued_verdict ww modulus exponent sign c d n es limits text hint out t :
  win_ready ww modulus exponent -> win_static ww -> reaches 260 (places ww) text hint ->
  (forall x, c = Some x -> In NUL (ci_feature x)) ->
  let feature := feature_of (places ww) (option_map ci_feature c) in
  win_honours ww modulus exponent sign (signed_text feature limits) ->
  issued sign feature limits es -> distinct_names d -> In (n, es) d -> same_name n feature ->
  renders d text -> well_dated (places ww) limits -> win_locked limits ->
  exists code out' t', win_acquire_license ww c hint out t = Ok ((code, out'), t') /\
    (* accepted *)
    (magic_of (option_map ci_magic c) = ww_magic ww -> in_time (places ww) limits (ww_clock ww t) ->
     (forall id, locked limits id -> win_identifies (ww_machine ww t) id) -> code = LICENSE_OK) /\
    (* another machine *)
    (magic_of (option_map ci_magic c) = ww_magic ww -> in_time (places ww) limits (ww_clock ww t) ->
     (exists id, locked limits id /\ ~ win_identifies (ww_machine ww t) id) -> code = IDENTIFIERS_MISMATCH) /\
    (* too early or too late *)
    (magic_of (option_map ci_magic c) = ww_magic ww -> out_of_time (places ww) limits (ww_clock ww t) -> code = PRODUCT_EXPIRED) /\
    (* another build of the library *)
    (magic_of (option_map ci_magic c) <> ww_magic ww -> code = LICENSE_CORRUPTED).
Proof.
  intros RD HS HW HC f HH HI D Hin Hn R WD WL.
  destruct (doc_text_ok d text ltac:(intros ->; destruct Hin) R) as [HF HT]. destruct (reaches_sole 260 (places ww) text hint ltac:(lia) HT HF HW) as [s [So _]].
  exact (win_one_issued ww modulus exponent sign c d n es limits text hint s out t RD HS So HC HH HI D Hin Hn R WD WL).
Qed.
Print Assumptions C98_issued_verdict.
Theorem C98_unlicensed ww modulus exponent c d text hint out t :
  win_ready ww modulus exponent -> reaches 260 (places ww) text hint ->
  (forall x, c = Some x -> In NUL (ci_feature x)) ->
  renders d text -> (forall n es, In (n, es) d -> ~ same_name n (feature_of (places ww) (option_map ci_feature c))) -> d <> [] ->
  exists out' t', win_acquire_license ww c hint out t = Ok ((PRODUCT_NOT_LICENSED, out'), t').
Proof.
  intros RD HW HC R N Hd. set (f := feature_of (places ww) (option_map ci_feature c)) in *. destruct (doc_text_ok d text Hd R) as [HF HT]. destruct (reaches_sole 260 (places ww) text hint ltac:(lia) HT HF HW) as [s [So St]].
  pose proof (doc_nothing d text f N R) as E.
  destruct (win_one_returns ww modulus exponent c hint text s t out RD So HC) as [code [out' [t' H]]]; fold f; rewrite ?E.
  - intros sig [X _]. discriminate X.
  - intros key dd _ X. discriminate X.
  - intros id X. discriminate X.
  - exists out', t'. pose proof (win_one_diagnosis ww modulus exponent c hint text s t out RD So (or_introl St) code out' t' H) as G. fold f in G. rewrite E in G. apply absent_verdict in G. rewrite H, G. reflexivity.
Qed.
Print Assumptions C98_unlicensed.

(** Any text, license or not: if two ways to deliver it both get a verdict, it is the same,
    and a caller with the same structure is told the same about the license. *)
Definition win_same_judge (ww : win_world) (t : nat) (ww' : win_world) (u : nat) : Prop :=
  ww_project ww' = ww_project ww /\ ww_magic ww' = ww_magic ww /\ ww_mktime ww' = ww_mktime ww /\ ww_provider ww' = ww_provider ww /\ ww_key ww' = ww_key ww /\
  ww_clock ww' u = ww_clock ww t /\ ww_machine ww' u = ww_machine ww t.
Theorem C98_way_irrelevant ww ww' modulus exponent c text hint hint' out out2 t u code code' o o' t1 t2 :
  win_ready ww modulus exponent -> win_ready ww' modulus exponent -> win_static ww -> win_static ww' -> win_same_judge ww t ww' u -> text <> [] -> ~ In NUL text ->
  reaches 260 (places ww) text hint -> reaches 260 (places ww') text hint' ->
  win_acquire_license ww c hint out t = Ok ((code, o), t1) -> win_acquire_license ww' c hint' out2 u = Ok ((code', o'), t2) -> code = code'.
Proof.
  intros RD RD' HS HS' [E1 [E2 [E3 [E4 [E5 [E6 E7]]]]]] HT HF R R' H H'. apply nul_free_in in HF.
  destruct (reaches_sole 260 (places ww) text hint ltac:(lia) HT HF R) as [s [So St]]. destruct (reaches_sole 260 (places ww') text hint' ltac:(lia) HT HF R') as [s' [So' St']].
  pose proof (win_one_diagnosis ww modulus exponent c hint text s t out RD So (or_introl St) code o t1 H) as D. pose proof (win_one_diagnosis ww' modulus exponent c hint' text s' u out2 RD' So' (or_introl St') code' o' t2 H') as D'.
  assert (F : feature_of (places ww') (option_map ci_feature c) = feature_of (places ww) (option_map ci_feature c)) by (unfold feature_of; cbn [w_project places]; rewrite E1; reflexivity). rewrite F in D'.
  refine (p_diagnosis_same (places ww) _ (places ww') _ _ _ _ _ _ _ _ _ _ (ww_clock ww t) _ _ E2 E3 _ _ D D').
  - intros x y. cbn [mn_good win_means]. rewrite E4. reflexivity.
  - intros i j id. cbn [mn_ident win_means]. destruct (HS i t) as [_ [_ [_ ->]]]. destruct (HS' j u) as [_ [_ [_ ->]]]. rewrite E7. reflexivity.
  - intros i. apply (HS i t).
  - intros i. rewrite <- E6. apply (HS' i u).
Qed.
Print Assumptions C98_way_irrelevant.
Lemma win_one_told ww modulus exponent c hint text s t x code y t' : sole 260 (places ww) hint text s -> win_ready ww modulus exponent ->
  win_acquire_license ww c hint (Some x) t = Ok ((code, Some y), t') ->
  let es := section_entries text (feature_of (places ww) (option_map ci_feature c)) in
  ((forall sig, ~ license_form es sig) /\ license_fields y = (o_expiry_date x, Some 0%Z, o_has_expiry x, Some false, Some [])) \/
  ((exists sig, license_form es sig) /\ exists z, describes (places ww) t t' es z /\ license_fields y = (Some (td_expiry z), Some (td_days z), Some (td_has_expiry z), Some (td_linked z), td_proprietary z)).
Proof.
  intros So RD H es. destruct (C78_outcome ww modulus exponent hint RD (win_sole_short ww hint text s So) c _ t code _ t' H) as [_ [rss [log O]]].
  exact (sole_told (places ww) _ 260 c hint text s x t code y t' rss log ltac:(lia) So O).
Qed.
Theorem C98_told_same ww ww' modulus exponent c text hint hint' x t u code code' y y' t1 t2 :
  win_ready ww modulus exponent -> win_ready ww' modulus exponent -> win_static ww -> win_static ww' -> win_same_judge ww t ww' u -> text <> [] -> ~ In NUL text ->
  reaches 260 (places ww) text hint -> reaches 260 (places ww') text hint' ->
  win_acquire_license ww c hint (Some x) t = Ok ((code, Some y), t1) -> win_acquire_license ww' c hint' (Some x) u = Ok ((code', Some y'), t2) ->
  license_fields y = license_fields y'.
Proof.
  intros RD RD' HS HS' [E1 [E2 [E3 [E4 [E5 [E6 E7]]]]]] HT HF R R' H H'. apply nul_free_in in HF.
  destruct (reaches_sole 260 (places ww) text hint ltac:(lia) HT HF R) as [s [So St]]. destruct (reaches_sole 260 (places ww') text hint' ltac:(lia) HT HF R') as [s' [So' St']].
  assert (F : feature_of (places ww') (option_map ci_feature c) = feature_of (places ww) (option_map ci_feature c)) by (unfold feature_of; cbn [w_project places]; rewrite E1; reflexivity).
  pose proof (win_one_told _ _ _ _ _ _ _ _ _ _ _ _ So RD H) as A. pose proof (win_one_told _ _ _ _ _ _ _ _ _ _ _ _ So' RD' H') as B. cbv zeta in A, B. rewrite F in B.
  assert (ST : static (places ww)) by (intros i j; destruct (HS i j) as [U [V [W _]]]; cbn; auto).
  assert (ST' : static (places ww')) by (intros i j; destruct (HS' i j) as [U [V [W _]]]; cbn; auto).
  destruct A as [[NA A]|[YA [z [DA A]]]], B as [[NB B]|[YB [z' [DB B]]]].
  - congruence.
  - destruct YB as [sig YB]. destruct (NA sig YB).
  - destruct YA as [sig YA]. destruct (NB sig YA).
  - assert (z = z') as <-; [|congruence]. eapply (described_same (places ww) (places ww') t u); [|exact ST|exact ST'|exact DA|exact DB].
    unfold same_judge; cbn; repeat split; congruence.
Qed.
Print Assumptions C98_told_same.

(** From identify_pc on the customer's machine [m] to acquire_license. *)
Section ENROLMENT.
Variables (env : option bytes) (m : win_machine) (method : Z) (buf : bytes) (size : nat) (info : bool) (buf' : bytes) (size' : nat) (x : option exec_info).
Hypothesis TOLD : healthy m /\ size <= length buf /\ s_identify_pc env (win_readings m) method (Some buf) size info = Ok (true, Some buf', size', x).
(** the license issued for it, in any layout, with any other limits *)
Variables (ww : win_world) (modulus exponent : bytes) (sign : bytes -> bytes) (c : option caller) (d : document) (n : bytes) (limits es : list (bytes * bytes)) (text : bytes) (hint : option location).
Let feature := feature_of (places ww) (option_map ci_feature c).
Hypothesis ISSUED : win_honours ww modulus exponent sign (signed_text feature limits) /\ issued sign feature limits es /\ In (bs "client-signature", cstr buf') limits /\
  distinct_names d /\ In (n, es) d /\ same_name n feature /\ renders d text /\ well_dated (places ww) limits.
(** where it is used *)
Hypothesis SURROUNDINGS : win_ready ww modulus exponent /\ win_static ww /\ reaches 260 (places ww) text hint /\
  magic_of (option_map ci_magic c) = ww_magic ww /\ (forall y, c = Some y -> In NUL (ci_feature y)).
Theorem C98_enrolled out t : exists code out' t', win_acquire_license ww c hint out t = Ok ((code, out'), t') /\
  (* the machine still has what it had, during the validity of the license *)
  ((forall s data, win_own m s data -> win_own (ww_machine ww t) s data) -> in_time (places ww) limits (ww_clock ww t) -> code = LICENSE_OK) /\
  (* the same machine, with its adapters in any order *)
  (same_windows m (ww_machine ww t) -> in_time (places ww) limits (ww_clock ww t) -> code = LICENSE_OK) /\
  (* a machine with nothing of that *)
  ((forall s a b, win_own m s a -> win_own (ww_machine ww t) s b -> d7_53 a <> d7_53 b) -> in_time (places ww) limits (ww_clock ww t) -> code = IDENTIFIERS_MISMATCH) /\
  (* in general: what the code is of must be there *)
  (in_time (places ww) limits (ww_clock ww t) -> (code = LICENSE_OK <-> win_identifies (ww_machine ww t) (cstr buf')) /\ (code = LICENSE_OK \/ code = IDENTIFIERS_MISMATCH)) /\
  (* outside the validity of the license *)
  (out_of_time (places ww) limits (ww_clock ww t) -> code = PRODUCT_EXPIRED).
Proof.
  destruct TOLD as [To [Ts T]]. destruct ISSUED as [I1 [I2 [I3 [I4 [I5 [I6 [I7 I9]]]]]]]. destruct SURROUNDINGS as [W1 [W2 [W4 [W5 W6]]]].
  assert (V : s_validate_pc_signature (win_readings m) (cstr buf') = Ok LICENSE_OK) by (eapply (C70_generated_is_accepted env m m); [exact To|exact To|repeat split|exact Ts|exact T]; intros l l' A B; rewrite (P_Windows.delivers_eq _ _ _ A B); apply Permutation_refl).
  assert (O : ~ over_read (undashed (cstr buf'))) by (intros X; pose proof (proj2 (C69_undefined_iff m (cstr buf') UbRead To) (conj X eq_refl)); congruence).
  assert (U : forall id, locked limits id <-> id = cstr buf').
  { intros id. unfold locked. rewrite (is_lim _ _ _ _ I2). split; [|intros ->; exact I3]. intros H. destruct (distinct_in limits (is_distinct _ _ _ _ I2) _ _ _ _ H I3 eq_refl) as [_ X]. exact X. }
  assert (L : win_locked limits) by (intros id H; assert (id = cstr buf') as -> by (apply U, (is_lim _ _ _ _ I2), H); exact O).
  destruct (C98_issued_verdict ww modulus exponent sign c d n es limits text hint out t W1 W2 W4 W6 I1 I2 I4 I5 I6 I7 I9 L) as [code [out' [t' [H [A [B [C _]]]]]]].
  destruct (C69_accepted_iff_own m (cstr buf') To O) as [e [E1 [_ E2]]]. rewrite V in E1. injection E1 as <-. destruct (proj1 E2 eq_refl) as [h [a [D1 [D2 D3]]]].
  exists code, out', t'. split; [exact H|]. split; [|split; [|split; [|split]]].
  - intros K Q. apply A; [exact W5|exact Q|]. intros id X. apply U in X. subst id. exists h, a. auto.
  - intros K Q. apply A; [exact W5|exact Q|]. intros id X. apply U in X. subst id. destruct W1 as [_ Hm].
    assert (V' : s_validate_pc_signature (win_readings (ww_machine ww t)) (cstr buf') = Ok LICENSE_OK) by (eapply (C70_generated_is_accepted env m); [exact To|apply Hm|exact K|exact Ts|exact T]).
    destruct (C69_accepted_iff_own (ww_machine ww t) (cstr buf') (Hm t) O) as [e [F1 [_ F2]]]. rewrite V' in F1. injection F1 as <-. exact (proj1 F2 eq_refl).
  - intros K Q. apply B; [exact W5|exact Q|]. exists (cstr buf'). split; [apply U; reflexivity|]. intros [h' [b [F1 [F2 F3]]]]. pose proof (P_HwText.denotes_fun _ _ _ D1 F1) as <-. apply (K _ _ _ D2 F2). congruence.
  - intros Q. assert (P : win_identifies (ww_machine ww t) (cstr buf') -> code = LICENSE_OK) by (intros P; apply A; [exact W5|exact Q|]; intros id X; apply U in X; subst id; exact P).
    assert (N : ~ win_identifies (ww_machine ww t) (cstr buf') -> code = IDENTIFIERS_MISMATCH) by (intros N; apply B; [exact W5|exact Q|]; exists (cstr buf'); split; [apply U; reflexivity|exact N]).
    destruct W1 as [_ Hm]. destruct (C69_accepted_iff_own (ww_machine ww t) (cstr buf') (Hm t) O) as [e [_ [F1 F2]]]. fold (win_identifies (ww_machine ww t) (cstr buf')) in F2. destruct F1 as [-> | ->].
    + pose proof (P (proj1 F2 eq_refl)) as X. split; [split; [intros _; exact (proj1 F2 eq_refl)|exact P]|left; exact X].
    + assert (X : ~ win_identifies (ww_machine ww t) (cstr buf')) by (intros X; apply F2 in X; discriminate X). pose proof (N X) as Y. split; [split; [intros Z; congruence|exact P]|right; exact Y].
  - intros Q. apply C; [exact W5|exact Q].
Qed.
End ENROLMENT.
Print Assumptions C98_enrolled.

(** identification by disk, a license with that code until 2030, used where it was issued for,
    on another machine and later *)
Definition WIN_CODE : bytes := bs "AEHv-zasA-AAA=".
Definition WIN_LIMITS : list (bytes * bytes) := [(bs "client-signature", WIN_CODE); (bs "lic_ver", bs "200"); (bs "valid-to", bs "2030-01-01")].
Definition WIN_SIG : bytes := bs "REVNT2NsaWVudC1zaWduYXR1cmVBRUh2LXphc0EtQUFBPWxpY192ZXIyMDB2YWxpZC10bzIwMzAtMDEtMDE=".
Definition WIN_ENTRIES : list (bytes * bytes) := (bs "sig", WIN_SIG) :: WIN_LIMITS.
Definition WIN_TEXT : bytes := bs "[demo]" ++ [LF] ++ (bs "sig=" ++ WIN_SIG) ++ [LF] ++ (bs "client-signature=" ++ WIN_CODE) ++ [LF] ++ bs "lic_ver=200" ++ [LF] ++ bs "valid-to=2030-01-01".
Lemma win_text : renders [(bs "demo", WIN_ENTRIES)] WIN_TEXT.
Proof.
  unfold renders.
  change (sets_out (kept (LHeader (bs "demo")) ++ kept (LEntry (bs "sig") WIN_SIG) ++ kept (LEntry (bs "client-signature") WIN_CODE) ++ kept (LEntry (bs "lic_ver") (bs "200")) ++ kept (LEntry (bs "valid-to") (bs "2030-01-01"))) WIN_TEXT).
  unfold WIN_TEXT. repeat (apply so_line; [|left; reflexivity|]); try apply so_last.
  - apply (wr_header [] [] (bs "demo") [] []); try reflexivity; [split; [wr_clean|vm_compute; intuition discriminate]|wr_plain].
  - apply (wr_entry [] (bs "sig") [] [] WIN_SIG []); try reflexivity; [wr_key|wr_clean].
  - apply (wr_entry [] (bs "client-signature") [] [] WIN_CODE []); try reflexivity; [wr_key|wr_clean].
  - apply (wr_entry [] (bs "lic_ver") [] [] (bs "200") []); try reflexivity; [wr_key|wr_clean].
  - apply (wr_entry [] (bs "valid-to") [] [] (bs "2030-01-01") []); try reflexivity; [wr_key|wr_clean].
Qed.
Lemma win_issued : issued (fun _ => WIN_SIG) (bs "demo") WIN_LIMITS WIN_ENTRIES.
Proof.
  constructor.
  - repeat constructor.
  - split; [|split; [|split; [intros ? ? []|exact I]]]; intros k v X S; cbn in X; repeat (destruct X as [X|X]; [injection X as <- <-; vm_compute in S; discriminate S|]); destruct X.
  - cbn. auto.
  - intros k v X S; cbn in X; repeat (destruct X as [X|X]; [injection X as <- <-; vm_compute in S; discriminate S|]); destruct X.
  - apply Permutation_refl.
Qed.
Definition win_shelf : list (string * bytes) := [("C:\demo\demo.lic"%string, WIN_TEXT)].
Example C98_case : exists buf' x, s_identify_pc None (win_readings pc_one) STRATEGY_DISK (Some (repeat NUL 20)) 20 true = Ok (true, Some buf', 20, x) /\ cstr buf' = WIN_CODE /\
  forall now m, In m [pc_one; pc_two] -> (Z.abs (mktime_utc 2030 1 1 - now) <= 86400 * 2147483647)%Z ->
  exists code out' t', win_acquire_license (pc true false now win_shelf [] m) (Some (asking "demo")) None (Some blank_out) 0 = Ok ((code, out'), t') /\
    ((now <= mktime_utc 2030 1 1)%Z -> m = pc_one -> code = LICENSE_OK) /\
    ((mktime_utc 2030 1 1 < now)%Z -> code = PRODUCT_EXPIRED).
Proof.
  assert (T : exists buf' x, s_identify_pc None (win_readings pc_one) STRATEGY_DISK (Some (repeat NUL 20)) 20 true = Ok (true, Some buf', 20, x) /\ cstr buf' = WIN_CODE) by (do 2 eexists; split; vm_compute; reflexivity).
  destruct T as [buf' [x [H1 H2]]]. exists buf', x. split; [exact H1|]. split; [exact H2|]. intros now m Hm Hnow. set (ww := pc true false now win_shelf [] m).
  assert (DT : date_text (bs "2030-01-01") 2030 1 1) by (apply P_DateText.parse_date_iff; vm_compute; reflexivity).
  destruct (C98_enrolled None pc_one STRATEGY_DISK (repeat NUL 20) 20 true buf' 20 x) with (ww := ww) (modulus := odd_modulus 126) (exponent := ["001"%char; "000"%char; "001"%char]) (sign := fun _ : bytes => WIN_SIG)
    (c := Some (asking "demo")) (d := [(bs "demo", WIN_ENTRIES)]) (n := bs "demo") (limits := WIN_LIMITS) (es := WIN_ENTRIES) (text := WIN_TEXT) (hint := @None location) (out := Some blank_out) (t := 0) as [code [out' [t' [H [_ [A [_ [_ E]]]]]]]].
  - split; [apply pc_healthy; reflexivity|]. split; [exact (le_n 20)|exact H1].
  - split.
    { eexists. split; [repeat split; reflexivity|]. split; [split; [|vm_compute; discriminate]|]. { intros [_ [_ [X|[_ X]]]]; vm_compute in X; [|discriminate X]. repeat (apply le_S_n in X). inversion X. }
      split; [vm_compute; discriminate|]. split; [reflexivity|]. split; [reflexivity|]. vm_compute. reflexivity. }
    split; [exact win_issued|]. split; [rewrite H2; left; reflexivity|]. split; [split; [intros ? ? []|exact I]|]. split; [left; reflexivity|]. split; [vm_compute; reflexivity|]. split; [exact win_text|].
    intros key d [<-|[<-|[]]] X; cbn in X; destruct X as [X|[X|[X|[]]]]; try discriminate X. injection X as <-. exists 2030%Z, 1%Z, 1%Z. split; [exact DT|]. intros i. exact Hnow.
  - split; [destruct Hm as [<-|[<-|[]]]; apply pc_ready; reflexivity|]. split; [intros i j; repeat split|]. split; [|split; [reflexivity|intros y [= <-]; vm_compute; tauto]].
    apply (rc_beside 260 _ _ (bs "C:\demo\demo.exe") (bs "C:\demo\demo.lic")); [reflexivity|intros X; try discriminate X; split; reflexivity|reflexivity|apply not_in_b; reflexivity| |reflexivity| |]; [apply Nat.leb_le; reflexivity|apply Nat.ltb_lt; reflexivity|].
    split; [apply small; reflexivity|]. intros i. split; reflexivity.
  - assert (Dd : dated (places ww) WIN_LIMITS "valid-to" (mktime_utc 2030 1 1)) by (exists (bs "2030-01-01"), 2030%Z, 1%Z, 1%Z; split; [reflexivity|split; [exact DT|reflexivity]]).
    exists code, out', t'. split; [exact H|]. split.
    + intros L ->. apply A.
      * repeat split. intros l l' X Y. cbn in X, Y. rewrite (P_Windows.delivers_eq _ _ _ X Y). apply Permutation_refl.
      * split; [right; exists (mktime_utc 2030 1 1); split; [exact Dd|exact L]|left; reflexivity].
    + intros L. apply E. left. exists (mktime_utc 2030 1 1). split; [exact Dd|exact L].
Qed.
(** the text passed in the call and the file beside the program: both reach the library, and
    the calls say the same *)
Example C98_ways : let ww := pc true true 0 win_shelf [] pc_one in let ww' := pc true true 0 [] [] pc_one in
  win_ready ww (odd_modulus 126) ["001"%char; "000"%char; "001"%char] /\ win_static ww /\ win_same_judge ww 0 ww' 0 /\ WIN_TEXT <> [] /\ ~ In NUL WIN_TEXT /\
  reaches 260 (places ww) WIN_TEXT None /\ reaches 260 (places ww') WIN_TEXT (Some (hint_of 1 WIN_TEXT)) /\
  code_of (win_acquire_license ww (Some (asking "demo")) None (Some blank_out) 0) = Ok LICENSE_OK /\
  code_of (win_acquire_license ww' (Some (asking "demo")) (Some (hint_of 1 WIN_TEXT)) (Some blank_out) 0) = Ok LICENSE_OK.
Proof.
  cbv zeta. split; [apply pc_ready; reflexivity|]. split; [intros i j; repeat split|]. split; [repeat split|]. split; [discriminate|]. split; [apply not_in_b; reflexivity|]. split; [|split; [|split; vm_compute; reflexivity]].
  - apply (rc_beside 260 _ _ (bs "C:\demo\demo.exe") (bs "C:\demo\demo.lic")); [reflexivity|intros _; split; reflexivity|reflexivity|apply not_in_b; reflexivity| |reflexivity| |]; [apply Nat.leb_le; reflexivity|apply Nat.ltb_lt; reflexivity|].
    split; [apply small; reflexivity|]. intros i. split; reflexivity.
  - apply rc_plain; [|intros _; split; reflexivity|apply small; reflexivity].
    intros _ program [= <-]. split; [apply not_in_b; reflexivity|]. split; [apply Nat.leb_le; reflexivity|]. split; [apply Nat.ltb_lt; reflexivity|]. intros i. reflexivity.
Qed.
