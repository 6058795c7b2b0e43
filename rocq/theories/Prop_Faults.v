(** Calls of acquire_license that do not return normally (C07, C08, C52, C53, C56, C58). *)
From Verif Require Import Base CTypes StringUtils Dates Base64 HwId Registry Ini Network Disks ExecEnv Strategies Locate Licensecc.
From Verif Require Import P_Base Spec_Listing P_DiskList Spec_Strings Spec_Base64 Spec_Dates P_Strings P_Text P_Decode P_DateText P_HwText Spec_Base64 P_Base64 Spec_Ini P_Ini Spec_HwId Spec_Hw P_Hw P_Hw2 P_Dates Spec_Registry P_Registry Spec_Acquire P_Acquire1 P_Acquire2 P_Acquire3 P_Acquire4 P_Acquire5 Spec_Faults P_Faults P_Faults2.
From Coq Require Import Sorted Lia.
From Verif Require Import Ex_Acquire Prop_Acquire.

(** ** C58 *)
(** Every call returns, unless there is one of the reasons of Spec_Faults. In
    particular no loop runs for ever. *)
Theorem C58_returns_or_hazard w c hint out t : (forall i, order_ok (w_machine w i)) ->
  (exists code out' t', acquire_license w c hint out t = Ok ((code, out'), t')) \/
  exists f, raises (acquire_license w c hint out t) f /\ hazard w c hint t f.
Proof.
  intros HO. pose proof (acquire_safe w c hint out t HO) as S. destruct (acquire_license w c hint out t) as [[[code out'] t']|e|u|]; cbn in S.
  - left. eauto.
  - right. exists (FThrow e). split; [constructor|exact S].
  - right. exists (FUndef u). split; [constructor|exact S].
  - destruct S.
Qed.
Print Assumptions C58_returns_or_hazard.


(** Sufficient circumstances, none of them about what the licenses say beyond dates
    and signatures that can be decoded. *)
Record calm_call (w : world) (c : option caller) (hint : option location) (t : nat) : Prop := {
  cc_feature : forall x, c = Some x -> In NUL (ci_feature x);
  cc_hint : forall l, hint = Some l -> In NUL (loc_data l) /\ In (loc_type l) [0; 1; 2]%Z;
  cc_short : forall s, In s (sources w hint) -> length (cstr (name_of s)) < 1024;
  cc_readable : forall p i j, In (SFile p) (sources w hint) -> t <= i < j -> w_good w i (cstr p) = true -> w_file w j (cstr p) <> None;
  cc_env : w_with_env w = true -> variable w DATA <> None -> w_getenv w LOCATION <> None;
  cc_encoded : forall n s, In (SEncoded n s) (sources w hint) -> decodable s /\ In NUL (decoded s);
  cc_signature : forall es sig, carried w (feature_of w (option_map ci_feature c)) hint t es sig -> (0 <= fst (w_bio w sig) < 512)%Z;
  cc_dates : forall es sig key d, carried w (feature_of w (option_map ci_feature c)) hint t es sig ->
    In key [bs "valid-to"; bs "valid-from"] -> exact_value es key = Some d ->
    exists y m day, date_text d y m day /\ forall i, (Z.abs (w_mktime w y m day - w_clock w i) <= 86400 * 2147483647)%Z;
  cc_machine : forall es sig code, carried w (feature_of w (option_map ci_feature c)) hint t es sig -> locked es code ->
    ~ over_read (undashed code) /\ forall h j u, denotes code h -> strategy_bits h = 2%Z -> disks_of (hw_disks (w_machine w j)) <> Undef u;
  cc_something : sources w hint <> [] \/ exists e, place_failure w hint e
}.
Lemma rounded_bound n q : rounded n 86400 q -> (Z.abs n <= 86400 * 2147483647)%Z -> (-2147483648 <= q <= 2147483647)%Z.
Proof. intros [r [H1 [H2 H3]]] H. lia. Qed.
Theorem C58_returns_when_calm w c hint out t : (forall i, order_ok (w_machine w i)) -> calm_call w c hint t ->
  exists code out' t', acquire_license w c hint out t = Ok ((code, out'), t').
Proof.
  intros HO [K1 K2 K3 K4 K5 K6 K7 K8 K9 K10]. destruct (C58_returns_or_hazard w c hint out t HO) as [H|[f [_ H]]]; [exact H|]. exfalso.
  destruct H as [x E N|l E N|l E _ N|s Hs L|p i j Hs Hi Hl N|d He Hd _ Hn|n s Hs E N|n s Hs E|n s Hs E|es sig Hc _ B|es sig d Hc E R|es sig s i q Hc [d [y [m [day [E [S ->]]]]]] Hi R B|es sig d Hc _ _ E R|es sig code Hc _ _ Hk V|es sig code h j u Hc _ _ Hk D S2 _ V|E N].
  - apply N. eapply K1, E.
  - apply N. eapply K2, E.
  - apply N. eapply K2, E.
  - specialize (K3 s Hs). lia.
  - eapply K4; eassumption.
  - eapply K5; [exact He| |exact Hn]. congruence.
  - apply N. apply (K6 n s Hs).
  - destruct (K6 n s Hs) as [[D _] _]. contradiction.
  - destruct (K6 n s Hs) as [[_ D] _]. contradiction.
  - specialize (K7 es sig Hc). lia.
  - destruct (K8 es sig _ d Hc (or_introl eq_refl) E) as [y [m [day [E' _]]]]. destruct (R _ _ _ E').
  - destruct (K8 es sig _ d Hc (or_introl eq_refl) E) as [y' [m' [day' [E' Y]]]]. destruct (date_fun _ _ _ _ _ _ _ S E') as [<- [<- <-]]. pose proof (rounded_bound _ _ R (Y i)). lia.
  - destruct (K8 es sig _ d Hc (or_intror (or_introl eq_refl)) E) as [y [m [day [E' _]]]]. destruct (R _ _ _ E').
  - destruct (K9 es sig code Hc Hk) as [K _]. contradiction.
  - destruct (K9 es sig code Hc Hk) as [_ K]. exact (K h j u D S2 V).
  - destruct K10 as [K10|[e K10]]; [contradiction|destruct (N e K10)].
Qed.
Print Assumptions C58_returns_when_calm.

(** a call with a valid license as text, nothing else enabled *)
Definition plain_world : world := demo false false NOW files [].
Example C58_case : calm_call plain_world (Some (asking "demo")) (Some (hint_of 1 free_license)) 0.
Proof.
  assert (S : sources plain_world (Some (hint_of 1 free_license)) = [SText EXTERNAL free_license]) by (vm_compute; reflexivity).
  assert (F : feature_of plain_world (option_map ci_feature (Some (asking "demo"))) = bs "demo") by (vm_compute; reflexivity).
  assert (C : forall es sig, carried plain_world (bs "demo") (Some (hint_of 1 free_license)) 0 es sig -> es = section_entries free_license (bs "demo") /\ last_value es (bs "sig") = Some sig).
  { intros es sig [s [t' [content [Hs [_ [Hg [-> [Hf _]]]]]]]]. rewrite S in Hs. destruct Hs as [<-|[]]. inversion Hg; subst. auto. }
  constructor; rewrite ?F; rewrite ?S.
  - intros x [= <-]. vm_compute. tauto.
  - intros l [= <-]. split; [apply in_or_app; right; left; reflexivity|cbn; auto].
  - intros s [<-|[]]. vm_compute. lia.
  - intros p i j [H|[]]. discriminate.
  - discriminate.
  - intros n s [H|[]]. discriminate.
  - intros es sig H. apply C in H as [-> H]. vm_compute in H. injection H as <-. vm_compute. split; [discriminate|reflexivity].
  - intros es sig key d H. apply C in H as [-> _]. intros [<-|[<-|[]]] E; vm_compute in E; discriminate.
  - intros es sig code H. apply C in H as [-> _]. unfold locked. intros E; vm_compute in E; discriminate.
  - left. discriminate.
Qed.

(** A valid license is accepted: the total version of C02 (a world that does not
    change, a calm call). *)
Theorem C02_accepts_total w c hint out t s content : (forall i, order_ok (w_machine w i)) -> static w -> calm_call w c hint t ->
  let feature := feature_of w (option_map ci_feature c) in
  In s (sources w hint) -> listed w s t = true -> supplies w t s content ->
  valid_license w feature (magic_of (option_map ci_magic c)) (section_entries content feature) (w_clock w t) (w_machine w t) ->
  exists out' t', acquire_license w c hint out t = Ok ((LICENSE_OK, out'), t').
Proof.
  intros HO HS HC f Hs HL HG HV. destruct (C58_returns_when_calm w c hint out t HO HC) as [code [out' [t' H]]]. exists out', t'.
  rewrite H. replace code with LICENSE_OK; [reflexivity|]. symmetry. apply (C02_static_exact w c hint out t code out' t' HO HS H). exists s, content. auto.
Qed.
Print Assumptions C02_accepts_total.

(** ** C07 *)
(** All ways in which an exception escapes from acquire_license. *)
Theorem C07_exceptions_explained w c hint out t e : (forall i, order_ok (w_machine w i)) ->
  acquire_license w c hint out t = Throw e ->
  (* a hint of a type that is none of the three *)
  (e = ExLogic /\ exists l, hint = Some l /\ ~ In (loc_type l) [0; 1; 2]%Z) \/
  (* a file that was there when looked for and is gone when read *)
  (e = ExRuntime /\ exists p i j, In (SFile p) (sources w hint) /\ t <= i < j /\ w_good w i (cstr p) = true /\ w_file w j (cstr p) = None) \/
  (* the encoded license "==" *)
  (e = ExLength /\ exists n s, In (SEncoded n s) (sources w hint) /\ strip_lf s = bs "==") \/
  (* a malformed date in a license *)
  (e = ExInvalidArg /\ exists es sig key d, carried w (feature_of w (option_map ci_feature c)) hint t es sig /\
     In key [bs "valid-to"; bs "valid-from"] /\ exact_value es key = Some d /\ forall y m day, ~ date_text d y m day).
Proof.
  intros HO H. pose proof (acquire_safe w c hint out t HO) as S. rewrite H in S. cbn in S.
  inversion S as [ | |l E1 E2 E3| |p i j Hs Hi Hl N| | | |n s Hs E| |es sig d Hc E R| |es sig d Hc _ _ E R| | | ]; subst.
  - left. eauto.
  - right; left. split; [reflexivity|]. exists p, i, j. auto 6.
  - right; right; left. eauto.
  - right; right; right. split; [reflexivity|]. exists es, sig, (bs "valid-to"), d. cbn [In]. auto 6.
  - right; right; right. split; [reflexivity|]. exists es, sig, (bs "valid-from"), d. cbn [In]. auto 6.
Qed.
Print Assumptions C07_exceptions_explained.
Theorem C07_no_exception w c hint out t e : (forall i, order_ok (w_machine w i)) ->
  (forall l, hint = Some l -> In (loc_type l) [0; 1; 2]%Z) ->
  (forall p i j, In (SFile p) (sources w hint) -> t <= i < j -> w_good w i (cstr p) = true -> w_file w j (cstr p) <> None) ->
  (forall n s, In (SEncoded n s) (sources w hint) -> strip_lf s <> bs "==") ->
  (forall es sig key d, carried w (feature_of w (option_map ci_feature c)) hint t es sig -> In key [bs "valid-to"; bs "valid-from"] ->
     exact_value es key = Some d -> exists y m day, date_text d y m day) ->
  acquire_license w c hint out t <> Throw e.
Proof.
  intros HO K1 K2 K3 K4 H. destruct (C07_exceptions_explained _ _ _ _ _ _ HO H) as [[_ [l [A B]]]|[[_ [p [i [j [A [B [C D]]]]]]]|[[_ [n [s [A B]]]]|[_ [es [sig [key [d [A [B [C D]]]]]]]]]]].
  - apply B, K1, A.
  - eapply K2; eassumption.
  - eapply K3; eassumption.
  - destruct (K4 _ _ _ _ A B C) as [y [m [day X]]]. exact (D _ _ _ X).
Qed.
Print Assumptions C07_no_exception.
(** One license with a malformed end date, authentic or not, in any of the places
    searched: no call returns, however good the other licenses are. *)
Theorem C07_bad_date_blocks w c hint out t s content sig d : (forall i, order_ok (w_machine w i)) -> static w ->
  let feature := feature_of w (option_map ci_feature c) in
  In s (sources w hint) -> listed w s t = true -> supplies w t s content ->
  license_form (section_entries content feature) sig ->
  exact_value (section_entries content feature) (bs "valid-to") = Some d -> (forall y m day, ~ date_text d y m day) ->
  forall r, acquire_license w c hint out t <> Ok r.
Proof.
  intros HO HS f Hs HL HG HF HD HN [[code out'] t'] H. apply acquire_outcome in H as [Ht [rss [log H]]]; [|exact HO].
  destruct (Forall2_in_l _ _ _ _ (outcome_reports _ _ _ _ _ _ _ _ _ _ H) Hs) as [r [_ R]].
  assert (G : forall c', given w t t' s c' -> c' = content) by (intros c' G; apply given_supplies in G as [k G]; apply (static_supplies _ _ _ t _ HS) in G; eapply supplies_fun; eassumption).
  inversion R as [i Hi Hl|c' P Gc E|c' P Gc E N|c' sig' code' x steps P Gc F D C X]; subst r.
  - rewrite (static_listed _ _ _ t HS) in Hl. congruence.
  - rewrite (G _ Gc) in E. apply form_entries in HF. contradiction.
  - rewrite (G _ Gc) in N. destruct (N _ HF).
  - rewrite (G _ Gc) in X. destruct X as [_ [_ X]]. fold f in X. rewrite HD in X. destruct X as [_ [_ [s' [_ [_ [_ [[d' [y [m [day [E1 [E2 _]]]]]] _]]]]]]]. rewrite HD in E1. injection E1 as <-. destruct (HN _ _ _ E2).
Qed.
Print Assumptions C07_bad_date_blocks.
Definition undated_license : bytes :=
  LINE "[DEMO]" ++ LINE "lic_ver = 200" ++ LINE "valid-to=tomorrow" ++ LINE "sig = anything".
Local Notation run w hint := (code_of (acquire_license w (Some (asking "demo")) hint (Some blank_out) 0)).
(** the statement "acquire_license never throws" fails *)
Theorem C07_no_exception_refuted : ~ (forall w c hint out t e, (forall i, order_ok (w_machine w i)) -> acquire_license w c hint out t <> Throw e).
Proof.
  intros H. apply (H (demo true false NOW files []) (Some (asking "demo")) (Some (hint_of 1 undated_license)) None 0 ExInvalidArg (demo_order _ _ _ _ _)).
  vm_compute. reflexivity.
Qed.
Print Assumptions C07_no_exception_refuted.
Definition fleeting : world :=
  let w := demo true false NOW files [] in
  {| w_project := w_project w; w_magic := w_magic w; w_near_module := true; w_with_env := false; w_module := w_module w; w_getenv := w_getenv w; w_good := w_good w;
     w_file := fun i p => if Nat.ltb i 1 then w_file w i p else None; w_clock := w_clock w; w_mktime := w_mktime w; w_bio := w_bio w; w_key_ok := true; w_verify := w_verify w; w_machine := w_machine w |}.
Example C07_case_vanished : run fleeting None = Throw ExRuntime. Proof. vm_compute. reflexivity. Qed.
Example C07_case_type : run (demo true false NOW files []) (Some (hint_of 3 (bs "x"))) = Throw ExLogic. Proof. vm_compute. reflexivity. Qed.
Example C07_case_encoded : run (demo true false NOW files []) (Some (hint_of 2 (bs "=="))) = Throw ExLength. Proof. vm_compute. reflexivity. Qed.
(** a good license beside the executable does not help *)
Example C07_case_blocked : run (demo true false NOW files []) None = Ok LICENSE_OK /\ run (demo true false NOW files []) (Some (hint_of 1 undated_license)) = Throw ExInvalidArg.
Proof. split; vm_compute; reflexivity. Qed.

(** ** C08 *)
(** A null pointer is used only when LICENSE_DATA is set without LICENSE_LOCATION, or
    when there was nothing to look at and nothing to complain about. *)
Theorem C08_null_explained w c hint out t : (forall i, order_ok (w_machine w i)) ->
  acquire_license w c hint out t = Undef UbNull ->
  (w_with_env w = true /\ variable w DATA <> None /\ w_getenv w LOCATION = None) \/
  (sources w hint = [] /\ forall e, ~ place_failure w hint e).
Proof.
  intros HO H. pose proof (acquire_safe w c hint out t HO) as S. rewrite H in S. cbn in S.
  inversion S as [ | | | | |d He Hd _ Hn| | | | | | | | |es sig code h j u Hc _ _ _ _ _ _ V|E N]; subst.
  - left. split; [exact He|]. split; [congruence|exact Hn].
  - rewrite <- listing_eq in *. destruct (disks_fed (hw_disks (w_machine w j))) as [_ [X _]]. contradiction.
  - right. auto.
Qed.
Print Assumptions C08_null_explained.
(** when that is *)
Theorem C08_silent_cases w hint : (sources w hint = [] /\ forall e, ~ place_failure w hint e) <->
  w_with_env w = false /\ (w_near_module w = true -> w_module w = None) /\ hint_sources hint = [] /\ (w_near_module w = true \/ hint <> None).
Proof.
  unfold sources, groups. rewrite !flat_map_app. split.
  - intros [E N]. apply app_eq_nil in E as [E1 E]. apply app_eq_nil in E as [E2 E3].
    assert (HE : w_with_env w = false).
    { destruct (w_with_env w) eqn:He; [|reflexivity]. exfalso. cbn [flat_map g_sources] in E2. apply app_eq_nil in E2 as [_ E2]. apply app_eq_nil in E2 as [E2 _].
      unfold data_sources in E2. destruct (variable w DATA) as [d|] eqn:Ed; [|eapply N; left; eauto]. destruct (looks d) eqn:Ef; try discriminate.
      eapply N. right; left. eauto. }
    split; [exact HE|]. split; [|split].
    + intros Hn. rewrite Hn in E1. cbn [flat_map g_sources] in E1. unfold module_sources in E1. destruct (w_module w); [discriminate|reflexivity].
    + destruct hint as [l|]; [|reflexivity]. cbn [flat_map g_sources] in E3. rewrite app_nil_r in E3. exact E3.
    + destruct (w_near_module w) eqn:Hn; [auto|]. right. intros ->. eapply N. right; right. auto.
  - intros [HE [HM [HH HX]]]. rewrite HE. split.
    + cbn [flat_map app]. assert (A : flat_map g_sources (if w_near_module w then [{| g_news := []; g_announce := false; g_sources := module_sources w |}] else []) = []).
      { destruct (w_near_module w); [|reflexivity]. cbn [flat_map g_sources]. unfold module_sources. rewrite HM by reflexivity. reflexivity. }
      rewrite A. destruct hint; [|reflexivity]. cbn [flat_map g_sources app]. rewrite HH. reflexivity.
    + intros e [[X _]|[[X _]|[X [_ [Y _]]]]]; [congruence|congruence|]. destruct HX; congruence.
Qed.
Print Assumptions C08_silent_cases.
(** ... and then it always happens *)
Theorem C08_silent_fails w c hint out t : (forall i, order_ok (w_machine w i)) ->
  (forall x, c = Some x -> In NUL (ci_feature x)) -> (forall l, hint = Some l -> In NUL (loc_data l) /\ In (loc_type l) [0; 1; 2]%Z) ->
  sources w hint = [] -> (forall e, ~ place_failure w hint e) ->
  acquire_license w c hint out t = Undef UbNull.
Proof.
  intros HO K1 K2 HS HP. pose proof (acquire_safe w c hint out t HO) as S.
  assert (NC : forall es sig, ~ carried w (feature_of w (option_map ci_feature c)) hint t es sig) by (intros es sig [s [_ [_ [X _]]]]; rewrite HS in X; destruct X).
  assert (G : forall f, hazard w c hint t f -> f = FUndef UbNull).
  { intros f H. destruct H as [x E N|l E N|l E _ N|s Hs L|p i j Hs Hi Hl N|d He Hd _ Hn|n s Hs E N|n s Hs E|n s Hs E|es sig Hc _ B|es sig d Hc E R|es sig s i q Hc S' Hi R B|es sig d Hc _ _ E R|es sig code Hc _ _ _ V|es sig code h j u Hc _ _ _ _ _ _ V|E N];
      try reflexivity; try (destruct (NC _ _ Hc)); try (rewrite HS in Hs; destruct Hs).
    - destruct (N (K1 _ E)).
    - destruct (N (proj1 (K2 _ E))).
    - destruct (N (proj2 (K2 _ E))). }
  destruct (acquire_license w c hint out t) as [[[code out'] t']|e|u|] eqn:H; cbn in S; [|discriminate (G _ S)|injection (G _ S) as ->; reflexivity|destruct S].
  exfalso. apply acquire_outcome in H as [_ [rss [log H]]]; [|exact HO]. pose proof (outcome_reports _ _ _ _ _ _ _ _ _ _ H) as R. rewrite HS in R.
  destruct (outcome_code _ _ _ _ _ _ _ _ _ _ H) as [E|[_ [X|X]]]; [|destruct (concat rss); [destruct X|inversion R]|destruct (HP _ X)].
  apply (proj1 (oc_ok _ _ _ _ _ _ _ _ _ _ H)) in E. destruct (concat rss); [destruct E|inversion R].
Qed.
Print Assumptions C08_silent_fails.
(** an empty hint, a hint naming no file, LICENSE_DATA alone *)
Theorem C08_no_null_refuted : ~ (forall w c hint out t, (forall i, order_ok (w_machine w i)) -> acquire_license w c hint out t <> Undef UbNull).
Proof.
  intros H. apply (H (demo false false NOW files []) (Some (asking "demo")) (Some (hint_of 1 [])) None 0 (demo_order _ _ _ _ _)). vm_compute. reflexivity.
Qed.
Print Assumptions C08_no_null_refuted.
Example C08_case : run (demo false false NOW files []) (Some (hint_of 0 [])) = Undef UbNull /\
  run (demo false true NOW files [("LICENSE_DATA"%string, free_license)]) None = Undef UbNull.
Proof. split; vm_compute; reflexivity. Qed.

(** ** C56 *)
Theorem C56_buffer_in_bounds w c hint out t : (forall i, order_ok (w_machine w i)) ->
  (forall es sig, carried w (feature_of w (option_map ci_feature c)) hint t es sig -> (0 <= fst (w_bio w sig) < 512)%Z) ->
  (forall es sig j code h, carried w (feature_of w (option_map ci_feature c)) hint t es sig -> locked es code -> denotes code h -> strategy_bits h = 2%Z ->
     disks_of (hw_disks (w_machine w j)) <> Undef UbWrite) ->
  acquire_license w c hint out t <> Undef UbWrite.
Proof.
  intros HO K1 K2 H. pose proof (acquire_safe w c hint out t HO) as S. rewrite H in S. cbn in S.
  inversion S as [ | | | | | | | | |es sig Hc _ B| | | | |es sig code h j u Hc _ _ Hk D S2 _ V| ]; subst.
  - specialize (K1 _ _ Hc). lia.
  - exact (K2 _ _ j _ _ Hc Hk D S2 V).
Qed.
Print Assumptions C56_buffer_in_bounds.
(** A decoder yields at most 3 bytes for 4 characters: signatures up to 682 characters
    are harmless if they can be decoded. *)
Theorem C56_short_signatures w c hint out t : (forall i, order_ok (w_machine w i)) ->
  (forall s, (0 <= fst (w_bio w s))%Z /\ (4 * fst (w_bio w s) <= 3 * Z.of_nat (length s))%Z) ->
  (forall es sig, carried w (feature_of w (option_map ci_feature c)) hint t es sig -> length sig <= 682) ->
  (forall es sig j code h, carried w (feature_of w (option_map ci_feature c)) hint t es sig -> locked es code -> denotes code h -> strategy_bits h = 2%Z ->
     disks_of (hw_disks (w_machine w j)) <> Undef UbWrite) ->
  acquire_license w c hint out t <> Undef UbWrite.
Proof. intros HO KB KL. apply C56_buffer_in_bounds; [exact HO|]. intros es sig Hc. destruct (KB sig) as [A B]. specialize (KL _ _ Hc). lia. Qed.
Print Assumptions C56_short_signatures.
Definition long_signature : bytes :=
  LINE "[DEMO]" ++ LINE "lic_ver = 200" ++ bs "sig = " ++ repeat "A"%char 600 ++ [LF].
Theorem C56_any_signature_refuted : ~ (forall w c hint out t, (forall i, order_ok (w_machine w i)) ->
  (forall es sig code, carried w (feature_of w (option_map ci_feature c)) hint t es sig -> ~ locked es code) ->
  acquire_license w c hint out t <> Undef UbWrite).
Proof.
  intros H. apply (H (demo false false NOW files []) (Some (asking "demo")) (Some (hint_of 1 long_signature)) None 0 (demo_order _ _ _ _ _)); [|vm_compute; reflexivity].
  intros es sig code [s [t' [content [Hs [_ [Hg [-> _]]]]]]]. vm_compute in Hs. destruct Hs as [<-|[]]. inversion Hg; subst. vm_compute. discriminate.
Qed.
Print Assumptions C56_any_signature_refuted.

