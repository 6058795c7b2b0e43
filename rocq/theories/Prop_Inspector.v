(** The inspector's report on a license file (C75). *)
From Verif Require Import Base CTypes StringUtils Dates Base64 HwId Registry Ini Network Disks ExecEnv Strategies Locate Licensecc Inspector.
From Verif Require Import P_Base Spec_Strings Spec_Base64 Spec_Dates P_Strings Spec_Ini P_Ini Spec_HwId Spec_Hw Spec_Registry Spec_Acquire Spec_Faults P_Acquire2 Ex_Acquire Prop_Acquire.
From Coq Require Import Lia Permutation.

(** every code acquire_license returns has a description, and different codes different ones *)
Theorem C75_described w c hint out t code out' t' : (forall i, order_ok (w_machine w i)) ->
  acquire_license w c hint out t = Ok ((code, out'), t') ->
  exists d, event_description code = Some d /\ forall other, event_description other = Some d -> other = code.
Proof.
  intros HO H. destruct (event_eq_dec code LICENSE_OK) as [->|N].
  - exists (bs "OK "). split; [reflexivity|]. intros [] E; try discriminate; reflexivity.
  - destruct (C03_failure_codes _ _ _ _ _ _ _ _ HO H N) as [K _]. cbn [In] in K.
    repeat (destruct K as [<-|K]; [eexists; split; [reflexivity|]; intros [] E; try discriminate; reflexivity|]). destruct K.
Qed.
Print Assumptions C75_described.

Definition verdict_of (e : event_type) : verdict := match e with LICENSE_OK => Fine | _ => Problem (match event_description e with Some d => d | None => [] end) end.
Lemma line_for_ok a e l : line_for a e = Ok l -> l = (a, verdict_of e).
Proof. unfold line_for, verdict_of. destruct e; cbn; intros [= <-]; reflexivity. Qed.

(** the location the inspector passes: the path, padded with zeros *)
Definition location_of (fname : bytes) : location := {| loc_type := 0; loc_data := fname ++ repeat NUL (MAX_LICENSE_DATA - length fname) |}.
Lemma Ok_inj {A} (x y : A) : Ok x = Ok y -> x = y.
Proof. intros H. injection H. auto. Qed.
Lemma path_location_ok fname loc : path_location fname = Ok loc -> length fname <= MAX_LICENSE_DATA /\ loc = location_of fname.
Proof. unfold path_location. destruct (Nat.leb_spec (length fname) MAX_LICENSE_DATA) as [L|L]; intros H; [|discriminate]. apply Ok_inj in H. split; [exact L|symmetry; exact H]. Qed.
Opaque location_of.
Lemma inspect_inv w g fname t code ls t' : inspect w g fname t = Ok ((code, ls), t') ->
  length fname <= MAX_LICENSE_DATA /\ exists info t1 d t2 rest,
    acquire_license w None (Some (location_of fname)) (Some unwritten_info) t = Ok ((code, info), t1) /\
    load_file (w_file w t1 (cstr fname)) = Ok d /\
    inspect_sections w g (location_of fname) (get_all_sections d) info t2 = Ok (rest, t') /\
    ls = (None, verdict_of code) :: rest.
Proof.
  unfold inspect. intros H. apply mbind_ok in H as [loc [t0 [H1 H]]]. apply mlift_ok in H1 as [H1 ->].
  apply path_location_ok in H1 as [L ->]. split; [exact L|].
  apply mbind_ok in H as [[r info] [t1 [H1 H]]]. apply mbind_ok in H as [l [t2 [H2 H]]]. apply mlift_ok in H2 as [H2 ->]. apply line_for_ok in H2. subst l.
  apply mbind_ok in H as [f [t3 [H2 H]]]. unfold m_file in H2. injection H2 as <- <-. apply mbind_ok in H as [d [t4 [H2 H]]]. apply mlift_ok in H2 as [H2 ->].
  apply mbind_ok in H as [rest [t5 [H3 H]]]. apply mret_ok in H as [E ->]. injection E as -> ->.
  exists info, t1, d, (S t1), rest. auto.
Qed.
Lemma sections_inv w g loc names : forall info t ls t', inspect_sections w g loc names info t = Ok (ls, t') ->
  forall n v, In (Some n, v) ls <-> exists p code info1 info2 t1 t2,
    In n names /\ section_prefix g n = Ok p /\ p <> w_project w /\ v = verdict_of code /\
    acquire_license w (Some {| ci_feature := p ++ [lo_last g]; ci_magic := lo_magic g |}) (Some loc) info1 t1 = Ok ((code, info2), t2) /\
    In (Some n, v) ls.
Proof.
  induction names as [|m names IH]; intros info t ls t' H n v.
  - cbn [inspect_sections] in H. apply mret_ok in H as [-> ->]. split; [intros []|]. intros [p [c [i1 [i2 [t1 [t2 [[] _]]]]]]].
  - split; [|intros [p [c [i1 [i2 [t1 [t2 [_ [_ [_ [_ [_ X]]]]]]]]]]]; exact X]. intros X.
    cbn [inspect_sections] in H. apply mbind_ok in H as [p [t0 [H1 H]]]. apply mlift_ok in H1 as [H1 ->]. destruct (beqb p (w_project w)) eqn:EP.
    + destruct (proj1 (IH _ _ _ _ H n v) X) as [p' [c [i1 [i2 [t1 [t2 [A B]]]]]]]. exists p', c, i1, i2, t1, t2. split; [right; exact A|exact B].
    + apply mbind_ok in H as [[r info2] [t1 [H2 H]]]. apply mbind_ok in H as [l [t2 [H3 H]]]. apply mlift_ok in H3 as [H3 ->]. apply line_for_ok in H3. subst l.
      apply mbind_ok in H as [rest [t3 [H4 H]]]. apply mret_ok in H as [-> ->]. destruct X as [[= -> <-]|X].
      * exists p, r, info, info2, t, t1. split; [left; reflexivity|]. split; [exact H1|]. split; [intros ->; rewrite beqb_refl in EP; discriminate|]. split; [reflexivity|]. split; [exact H2|left; reflexivity].
      * destruct (proj1 (IH _ _ _ _ H4 n v) X) as [p' [c [i1 [i2 [s1 [s2 [A [B [C [D [E G]]]]]]]]]]]. exists p', c, i1, i2, s1, s2. split; [right; exact A|]. repeat (split; [assumption|]). right. exact G.
Qed.
Lemma sections_all w g loc names : forall info t ls t', inspect_sections w g loc names info t = Ok (ls, t') ->
  forall n, In n names -> section_prefix g n <> Ok (w_project w) -> exists v, In (Some n, v) ls.
Proof.
  induction names as [|m names IH]; intros info t ls t' H n Hn HP; [destruct Hn|].
  cbn [inspect_sections] in H. apply mbind_ok in H as [p [t0 [H1 H]]]. apply mlift_ok in H1 as [H1 ->]. destruct (beqb p (w_project w)) eqn:EP.
  - destruct Hn as [->|Hn]; [apply beqb_eq in EP; congruence|]. eapply IH; eassumption.
  - apply mbind_ok in H as [[r info2] [t1 [H2 H]]]. apply mbind_ok in H as [l [t2 [H3 H]]]. apply mlift_ok in H3 as [H3 ->]. apply line_for_ok in H3. subst l.
    apply mbind_ok in H as [rest [t3 [H4 H]]]. apply mret_ok in H as [-> ->]. destruct Hn as [->|Hn]; [eexists; left; reflexivity|].
    destruct (IH _ _ _ _ H4 n Hn HP) as [v X]. exists v. right. exact X.
Qed.
Lemma verdict_fine e : verdict_of e = Fine <-> e = LICENSE_OK.
Proof. destruct e; cbn; split; congruence. Qed.

(** The first line: OK exactly if the project was built without a magic number and one
    of the places searched (the path is only the last of them) has a valid license. *)
Theorem C75_default_project w g fname t code ls t' : (forall i, order_ok (w_machine w i)) -> static w ->
  inspect w g fname t = Ok ((code, ls), t') ->
  exists v rest, ls = (None, v) :: rest /\
    (v = Fine <-> code = LICENSE_OK) /\
    (forall d, v = Problem d -> event_description code = Some d) /\
    (v = Fine <->
     w_magic w = 0%N /\
     exists s content, In s (sources w (Some (location_of fname))) /\ listed w s t = true /\ supplies w t s content /\
       valid_license w (w_project w) 0 (section_entries content (w_project w)) (w_clock w t) (w_machine w t)).
Proof.
  intros HO HS H. apply inspect_inv in H as [_ [info [t1 [d [t2 [rest [HA [_ [_ ->]]]]]]]]]. exists (verdict_of code), rest. split; [reflexivity|]. split; [apply verdict_fine|]. split.
  - destruct (C75_described _ _ _ _ _ _ _ _ HO HA) as [x [E _]]. unfold verdict_of. rewrite E. intros d' H. destruct code; congruence.
  - rewrite verdict_fine. rewrite (C02_static_exact w None _ _ _ _ _ _ HO HS HA). cbn [option_map feature_of magic_of]. split.
    + intros [s [c [A [B [C D]]]]]. split; [destruct D as [sig [_ [_ [E _]]]]; symmetry; exact E|]. exists s, c. auto.
    + intros [_ X]. exact X.
Qed.
Print Assumptions C75_default_project.

(** A section is reported OK exactly if the uninitialised magic number happens to be that of the
    project and a valid license for the section is found. Names of up to 14 characters
    are passed on in full; of a longer one 15 characters and a leftover one. *)
Definition asked_feature (w : world) (g : leftovers) (name : bytes) : bytes :=
  feature_of w (Some (firstn 15 (name ++ NUL :: lo_after g name) ++ [lo_last g])).
Theorem C75_section w g fname t code ls t' name v : (forall i, order_ok (w_machine w i)) -> static w ->
  inspect w g fname t = Ok ((code, ls), t') -> In (Some name, v) ls ->
  let feature := asked_feature w g name in
  (v = Fine <->
   lo_magic g = w_magic w /\
   exists s content, In s (sources w (Some (location_of fname))) /\ listed w s t = true /\ supplies w t s content /\
     valid_license w feature (lo_magic g) (section_entries content feature) (w_clock w t) (w_machine w t)).
Proof.
  intros HO HS H HI f. apply inspect_inv in H as [_ [info [t1 [d [t2 [rest [HA [_ [HR ->]]]]]]]]]. destruct HI as [HI|HI]; [discriminate|].
  destruct (proj1 (sections_inv _ _ _ _ _ _ _ _ HR name v) HI) as [p [c [i1 [i2 [s1 [s2 [_ [HP [_ [-> [HC _]]]]]]]]]]].
  unfold section_prefix in HP. destruct (Nat.ltb _ _); [discriminate|]. injection HP as <-.
  rewrite verdict_fine. rewrite (C02_static_exact w _ _ _ _ _ _ _ HO HS HC). cbn [option_map ci_feature ci_magic magic_of]. fold (asked_feature w g name) f.
  assert (ST : forall i j s content, (listed w s i = true /\ supplies w i s content /\ valid_license w f (lo_magic g) (section_entries content f) (w_clock w i) (w_machine w i)) ->
                                     (listed w s j = true /\ supplies w j s content /\ valid_license w f (lo_magic g) (section_entries content f) (w_clock w j) (w_machine w j))).
  { intros i j s content [A [B C]]. split; [rewrite (static_listed _ _ _ i HS); exact A|]. split; [eapply static_supplies; eassumption|]. destruct (HS i j) as [_ [_ [X Y]]]. rewrite <- X, <- Y. exact C. }
  split.
  - intros [s [content [A B]]]. split; [destruct B as [_ [_ [sig [_ [_ [E _]]]]]]; exact E|]. exists s, content. split; [exact A|]. eapply ST, B.
  - intros [_ [s [content [A B]]]]. exists s, content. split; [exact A|]. eapply ST, B.
Qed.
Print Assumptions C75_section.
(** The words of a complaint. *)
Definition complaints : list (event_type * string) :=
  [(LICENSE_FILE_NOT_FOUND, "license file not found "); (LICENSE_SERVER_NOT_FOUND, "license server can't be contacted "); (ENVIRONMENT_VARIABLE_NOT_DEFINED, "environment variable not defined ");
   (FILE_FORMAT_NOT_RECOGNIZED, "license file has invalid format (not .ini file) "); (LICENSE_MALFORMED, "some mandatory field are missing, or data can't be fully read. ");
   (PRODUCT_NOT_LICENSED, "this product was not licensed "); (PRODUCT_EXPIRED, "license expired "); (LICENSE_CORRUPTED, "license signature didn't match with current license ");
   (IDENTIFIERS_MISMATCH, "Calculated identifier and the one provided in license didn't match")]%string.
Lemma complaint about e a d : line_for about e = Ok (a, Problem d) -> exists s, In (e, s) complaints /\ d = bs s.
Proof.
  unfold line_for. destruct e; cbn [event_description]; try discriminate; intros [= _ <-]; eexists; (split; [unfold complaints; cbn [In]; repeat first [left; reflexivity|right]|reflexivity]).
Qed.
Lemma complaint_sections w g loc names info t ls t' a d : inspect_sections w g loc names info t = Ok (ls, t') -> In (a, Problem d) ls -> exists e s, In (e, s) complaints /\ d = bs s.
Proof.
  revert info t ls t'. induction names as [|n names IH]; intros info t ls t' H I; cbn [inspect_sections] in H; [apply mret_ok in H as [-> _]; destruct I|].
  apply mbind_ok in H as [x [t1 [_ H]]]. destruct (beqb _ _); [eapply IH; eassumption|]. apply mbind_ok in H as [[r i] [t2 [_ H]]]. apply mbind_ok in H as [l [t3 [H1 H]]]. apply mlift_ok in H1 as [H1 _].
  apply mbind_ok in H as [ls' [t4 [H2 H]]]. apply mret_ok in H as [-> _]. destruct I as [->|I]; [|eapply IH; eassumption]. destruct (complaint _ _ _ _ H1) as [s X]. eauto.
Qed.
(** Every complaint has one of these texts; the first one has the text of the result. *)
Theorem C75_texts w g fname t code ls t' : inspect w g fname t = Ok ((code, ls), t') ->
  (forall a d, In (a, Problem d) ls -> exists e s, In (e, s) complaints /\ d = bs s) /\
  (forall a d, hd_error ls = Some (a, Problem d) -> exists s, In (code, s) complaints /\ d = bs s).
Proof.
  intros H. unfold inspect in H. apply mbind_ok in H as [loc [t1 [_ H]]]. apply mbind_ok in H as [[r i] [t2 [_ H]]]. apply mbind_ok in H as [l [t3 [H1 H]]]. apply mlift_ok in H1 as [H1 _].
  apply mbind_ok in H as [f [t4 [_ H]]]. apply mbind_ok in H as [dd [t5 [_ H]]]. apply mbind_ok in H as [ls' [t6 [H2 H]]]. apply mret_ok in H as [H _]. injection H as -> ->. split.
  - intros a d [-> |I]; [|eapply complaint_sections; eassumption]. destruct (complaint _ _ _ _ H1) as [s X]. eauto.
  - intros a d [= ->]. eapply complaint, H1.
Qed.
Print Assumptions C75_texts.
Theorem C75_asked_in_full w g name : ~ In NUL name -> name <> [] -> length name <= 14 -> asked_feature w g name = name.
Proof.
  intros HN HE HL. unfold asked_feature, feature_of. rewrite firstn_app, firstn_all2 by lia. rewrite <- app_assoc.
  assert (E : exists r, firstn (15 - length name) (NUL :: lo_after g name) ++ [lo_last g] = NUL :: r) by (destruct (15 - length name) eqn:X; [lia|]; eexists; reflexivity).
  destruct E as [r ->]. rewrite cstr_app_nul by (apply nul_free_in, HN). destruct name; [destruct (HE eq_refl)|reflexivity].
Qed.
Print Assumptions C75_asked_in_full.
(** refuted: that a valid license is reported OK. With any other leftover magic number no section is ever reported OK *)
Theorem C75_sections_refuted w g fname t code ls t' : (forall i, order_ok (w_machine w i)) -> static w ->
  lo_magic g <> w_magic w -> inspect w g fname t = Ok ((code, ls), t') -> forall name, ~ In (Some name, Fine) ls.
Proof. intros HO HS HM H name HI. apply (C75_section _ _ _ _ _ _ _ _ _ HO HS H) in HI. destruct HI as [HI _]. apply HM, (proj1 (HI eq_refl)). Qed.
Print Assumptions C75_sections_refuted.

(** The sections reported on are those of the file, in some spelling; with a project name
    that is not 15 characters long, all of them. *)
Lemma insert_in n l x : In x (insert_name n l) <-> x = n \/ In x l.
Proof. induction l as [|m l IH]; cbn; [intuition auto|]. destruct (nocase_less n m); cbn; [intuition auto|]. rewrite IH. intuition auto. Qed.
Lemma all_sections_in d x : In x (get_all_sections d) <-> In x (map fst d).
Proof. unfold get_all_sections. induction (map fst d) as [|n l IH]; cbn [fold_right In]; [reflexivity|]. rewrite insert_in, IH. intuition auto. Qed.
Lemma names_of_text data d name : ini_load data = Ok d ->
  (exists n, In n (map fst d) /\ same_name n name) <-> has_section_named data name = true.
Proof.
  intros H. pose proof (ini_load_size data d name H) as S. unfold get_section_size in S. destruct (has_section_named data name) eqn:E.
  - split; [reflexivity|]. intros _. destruct (ini_find name d) as [kv|] eqn:F.
    + assert (N : ini_find name d <> None) by congruence. rewrite ini_find_none in N. destruct (existsb _ d) eqn:X; [|congruence]. apply existsb_exists in X as [[n kv'] [A B]]. exists n. split; [apply in_map_iff; exists (n, kv'); auto|]. cbn [fst] in B. destruct (same_nameb_spec n name); [assumption|discriminate].
    + exfalso. lia.
  - split; [|discriminate]. intros [n [A B]]. exfalso. apply in_map_iff in A as [[n' kv] [<- A]]. destruct (ini_find name d) as [kv'|] eqn:F; [lia|]. apply ini_find_none in F.
    assert (X : existsb (fun p => same_nameb (fst p) name) d = true) by (apply existsb_exists; exists (n', kv); split; [exact A|cbn [fst]; destruct (same_nameb_spec n' name); [reflexivity|contradiction]]). congruence.
Qed.
Theorem C75_sections_listed w g fname t code ls t' content : static w -> ~ In NUL fname ->
  inspect w g fname t = Ok ((code, ls), t') ->
  (* the file as it is *)
  w_file w t fname = Some {| f_size := N.of_nat (length content); f_data := content |} ->
  (forall name v, In (Some name, v) ls -> has_section_named content name = true) /\
  (length (w_project w) <> 15 -> forall name, has_section_named content name = true -> exists spelling v, same_name spelling name /\ In (Some spelling, v) ls).
Proof.
  intros HS HN H HF. apply inspect_inv in H as [_ [info [t1 [d [t2 [rest [HA [HD [HR ->]]]]]]]]].
  destruct (HS t t1) as [_ [X _]]. rewrite (cstr_id fname) in HD by (apply nul_free_in, HN). 
  assert (HL : d = [] /\ content = [] \/ ini_load content = Ok d).
  { replace (w_file w t1 fname) with (w_file w t fname) in HD by (rewrite X; reflexivity). rewrite HF in HD. cbn [load_file f_size f_data] in HD. destruct content as [|c r]; [left; split; [cbn in HD; congruence|reflexivity]|].
    right. destruct (N.eqb_spec (N.of_nat (length (c :: r))) 0) as [Z|_]; [cbn [length] in Z; lia|]. destruct (N.ltb_spec (N.of_nat (length (c :: r))) (N.of_nat (length (c :: r)))) as [Z|_]; [lia|]. rewrite Nat2N.id, firstn_all in HD. exact HD. }
  split.
  - intros name v [HI|HI]; [discriminate|]. destruct (proj1 (sections_inv _ _ _ _ _ _ _ _ HR name v) HI) as [p [c [i1 [i2 [s1 [s2 [HM _]]]]]]]. apply (proj1 (all_sections_in _ _)) in HM.
    destruct HL as [[-> _]|HL]; [destruct HM|]. apply (names_of_text _ _ _ HL). exists name. split; [exact HM|]. reflexivity.
  - intros HP name HH. destruct HL as [[-> ->]|HL]; [vm_compute in HH; discriminate|]. apply (names_of_text _ _ _ HL) in HH as [n [A B]].
    destruct (sections_all _ _ _ _ _ _ _ _ HR n) as [v Hv]; [apply all_sections_in, A| |].
    + unfold section_prefix. destruct (Nat.ltb_spec (length (n ++ NUL :: lo_after g n)) 15) as [Y|Y]; [discriminate|]. intros E. apply Ok_inj in E. apply HP. rewrite <- E. apply firstn_length_le. exact Y.
    + exists n, v. split; [exact B|]. right. exact Hv.
Qed.
Print Assumptions C75_sections_listed.

(** A path that does not fit the 4096 bytes overflows the structure. *)
Theorem C75_path_overflow w g fname t : MAX_LICENSE_DATA < length fname -> inspect w g fname t = Undef UbWrite.
Proof. intros H. unfold inspect, path_location, mbind, mlift. destruct (Nat.leb_spec (length fname) MAX_LICENSE_DATA); [lia|reflexivity]. Qed.
Print Assumptions C75_path_overflow.

(** examples: the machine of Ex_Acquire; the same with a project without magic number *)
Definition fresh (magic : N) : leftovers := {| lo_last := NUL; lo_magic := magic; lo_after := fun _ => repeat NUL 15 |}.
Definition unmagical (w : world) : world :=
  {| w_project := w_project w; w_magic := 0; w_near_module := w_near_module w; w_with_env := w_with_env w; w_module := w_module w; w_getenv := w_getenv w;
     w_good := w_good w; w_file := w_file w; w_clock := w_clock w; w_mktime := w_mktime w; w_bio := w_bio w; w_key_ok := w_key_ok w; w_verify := w_verify w; w_machine := w_machine w |}.
Definition report (r : res ((event_type * list line) * nat)) : option (list line) := match r with Ok ((_, l), _) => Some l | _ => None end.
Example C75_ex_default : report (inspect (unmagical (demo false false NOW files [])) (fresh 0) (bs "/a") 0) = Some [(None, Fine); (Some (bs "demo"), Fine)].
Proof. vm_compute. reflexivity. Qed.
Example C75_ex_leftover : report (inspect (demo false false NOW files []) (fresh 5) (bs "/a") 0) = Some [(None, Problem (bs "license signature didn't match with current license ")); (Some (bs "demo"), Problem (bs "license signature didn't match with current license "))].
Proof. vm_compute. reflexivity. Qed.
(** The license inspected has run out; one beside the program makes the report say OK. *)
Example C75_ex_elsewhere : report (inspect (unmagical (demo true false NOW files [])) (fresh 0) (bs "/b") 0) = Some [(None, Fine); (Some (bs "DEMO"), Fine)]
  /\ report (inspect (unmagical (demo false false NOW files [])) (fresh 0) (bs "/b") 0) = Some [(None, Problem (bs "license expired ")); (Some (bs "DEMO"), Problem (bs "license expired "))].
Proof. split; vm_compute; reflexivity. Qed.
Example C75_ex_hypotheses : static (demo false false NOW files []) /\ (forall i, order_ok (w_machine (demo false false NOW files []) i)).
Proof. split; [apply demo_static|apply demo_order]. Qed.
