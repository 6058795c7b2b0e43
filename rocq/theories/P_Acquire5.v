(** Consequences of the outcome theorem. *)
From Verif Require Import Base CTypes StringUtils Dates Doubles Base64 HwId Registry Ini Network Disks ExecEnv Strategies Locate Licensecc.
From Verif Require Import P_Base Spec_Strings Spec_Base64 Spec_Dates P_Strings P_Text P_Decode P_DateText P_HwText Spec_Ini P_Ini Spec_HwId Spec_Hw P_Hw P_Hw2 Spec_Registry P_Registry Spec_Acquire P_Acquire1 P_Acquire2 P_Acquire3 P_Acquire4.
From Coq Require Import Sorted Lia.

Lemma in_zip {A B C} (f : A -> B -> list C) l l' x : In x (zip_with f l l') -> exists a b, In (a, b) (combine l l') /\ In x (f a b).
Proof.
  revert l'; induction l as [|a l IH]; intros [|b l']; cbn [zip_with combine]; try (intros []). intros H. apply in_app_or in H as [H|H].
  - exists a, b. split; [left; reflexivity|exact H].
  - destruct (IH _ H) as [a' [b' [X Y]]]. exists a', b'. split; [right; exact X|exact Y].
Qed.
Lemma Forall2_combine {A B} (R : A -> B -> Prop) l l' a b : Forall2 R l l' -> In (a, b) (combine l l') -> R a b.
Proof. induction 1; cbn; [intros []|]. intros [[= <- <-]|X]; auto. Qed.
Lemma Forall2_flat (R : source -> report -> Prop) (gs : list group) rss : Forall2 (fun g rs => Forall2 R (g_sources g) rs) gs rss -> Forall2 R (flat_map g_sources gs) (concat rss).
Proof. induction 1; cbn; [constructor|]. apply Forall2_app; assumption. Qed.
Lemma Forall2_in_l {A B} (R : A -> B -> Prop) l l' a : Forall2 R l l' -> In a l -> exists b, In b l' /\ R a b.
Proof. induction 1; [intros []|]. intros [->|X]; [eexists; split; [left; reflexivity|assumption]|]. destruct (IHForall2 X) as [b [Y Z]]. exists b. split; [right; exact Y|exact Z]. Qed.
Lemma Forall2_in_r {A B} (R : A -> B -> Prop) l l' b : Forall2 R l l' -> In b l' -> exists a, In a l /\ R a b.
Proof. induction 1; [intros []|]. intros [->|X]; [eexists; split; [left; reflexivity|assumption]|]. destruct (IHForall2 X) as [a [Y Z]]. exists a. split; [right; exact Y|exact Z]. Qed.

Lemma outcome_reports w c hint out t code out' t' rss log : outcome w c hint out t code out' t' rss log ->
  Forall2 (reported w (feature_of w (option_map ci_feature c)) (magic_of (option_map ci_magic c)) t t') (sources w hint) (concat rss).
Proof. intros H. eapply Forall2_flat, (oc_reports _ _ _ _ _ _ _ _ _ _ H). Qed.

(** reports *)
Lemma reported_ok w f m t t' s r : reported w f m t t' s r -> rp_code r = LICENSE_OK ->
  exists content i j x, present w t t' s /\ given w t t' s content /\ t <= i < t' /\ t <= j < t' /\
    valid_license w f m (section_entries content f) (w_clock w i) (w_machine w j) /\
    rp_told r = Some x /\ describes w t t' (section_entries content f) x.
Proof.
  intros H. inversion H; subst; cbn [rp_code rp_told]; try discriminate. intros ->.
  match goal with D : diagnosis _ _ _ _ _ _ LICENSE_OK |- _ => inversion D as [| | | | | |i j Hi Hj Hv]; subst end. exists content, i, j, x. auto 9.
Qed.
Lemma dated_fun w es k s s' : dated w es k s -> dated w es k s' -> s = s'.
Proof. rewrite !dated_iff. intros [d [H1 H2]] [d' [H1' H2']]. congruence. Qed.
Lemma in_out_time w es now : in_time w es now -> ~ out_of_time w es now.
Proof.
  intros [H1 H2] [[s [Hs L]]|[s [Hs L]]].
  - destruct H1 as [H1|[s' [Hs' L']]]; [destruct Hs as [d [? [? [? [Hd _]]]]]; congruence|]. rewrite (dated_fun _ _ _ _ _ Hs Hs') in L. lia.
  - destruct H2 as [H2|[s' [Hs' L']]]; [destruct Hs as [d [? [? [? [Hd _]]]]]; congruence|]. rewrite (dated_fun _ _ _ _ _ Hs Hs') in L. lia.
Qed.
Lemma form_fun es sig sig' : license_form es sig -> license_form es sig' -> sig = sig'.
Proof. intros [H1 _] [H2 _]. congruence. Qed.
Lemma form_entries es sig : license_form es sig -> es <> [].
Proof. intros H. apply found_form in H. eapply found_entries, H. Qed.
(** a license that is valid throughout is diagnosed so *)
Lemma valid_diagnosis w f m t t' es code : (forall i j, t <= i <= t' -> t <= j <= t' -> valid_license w f m es (w_clock w i) (w_machine w j)) -> t <= t' ->
  diagnosis w f m t t' es code -> code = LICENSE_OK.
Proof.
  intros HV Ht D. destruct (HV t t ltac:(lia) ltac:(lia)) as [sig [F [G [M _]]]].
  inversion D as [E|_ N|sig' F' N|sig' F' G' N|sig' i F' G' M' Hi O|sig' i j code' F' G' M' Hi O Hj L I|]; subst; try reflexivity; exfalso.
  - eapply form_entries; [exact F|reflexivity].
  - eapply N, F.
  - rewrite (form_fun _ _ _ F F') in G. contradiction.
  - congruence.
  - destruct (HV i i ltac:(lia) ltac:(lia)) as [_ [_ [_ [_ [T _]]]]]. eapply in_out_time; eassumption.
  - destruct (HV i j ltac:(lia) ltac:(lia)) as [_ [_ [_ [_ [_ K]]]]]. apply I, K, L.
Qed.
Lemma valid_reported w f m t t' s r : t <= t' -> (forall i, t <= i <= t' -> listed w s i = true) ->
  (forall content i j, given w t t' s content -> t <= i <= t' -> t <= j <= t' -> valid_license w f m (section_entries content f) (w_clock w i) (w_machine w j)) ->
  reported w f m t t' s r -> rp_code r = LICENSE_OK.
Proof.
  intros Ht HL HV H. inversion H as [i Hi Hn|content _ Hg He|content _ Hg He Hn|content sig code x steps _ Hg Hf Hd _ _]; subst; cbn [rp_code].
  - rewrite HL in Hn by lia. discriminate.
  - exfalso. destruct (HV content t t Hg ltac:(lia) ltac:(lia)) as [sig [F _]]. apply form_entries in F. contradiction.
  - exfalso. destruct (HV content t t Hg ltac:(lia) ltac:(lia)) as [sig [F _]]. eapply Hn, F.
  - eapply valid_diagnosis; [|exact Ht|exact Hd]. intros i j Hi Hj. apply HV; assumption.
Qed.
(** the diagnosis of what was read *)
Lemma reported_diagnosis w f m t t' s r : reported w f m t t' s r ->
  (rp_code r = LICENSE_FILE_NOT_FOUND /\ exists i, t <= i < t' /\ listed w s i = false) \/
  (exists content, present w t t' s /\ given w t t' s content /\ diagnosis w f m t t' (section_entries content f) (rp_code r)).
Proof.
  intros H. inversion H as [i Hi Hn|content P Hg He|content P Hg He Hn|content sig code x steps P Hg Hf Hd _ _]; subst; cbn [rp_code].
  - left. eauto.
  - right. exists content. split; [exact P|]. split; [exact Hg|]. apply dg_absent, He.
  - right. exists content. split; [exact P|]. split; [exact Hg|]. apply dg_malformed; assumption.
  - right. exists content. auto.
Qed.
Definition failure_list : list event_type :=
  [LICENSE_FILE_NOT_FOUND; ENVIRONMENT_VARIABLE_NOT_DEFINED; LICENSE_MALFORMED; PRODUCT_NOT_LICENSED; PRODUCT_EXPIRED; LICENSE_CORRUPTED; IDENTIFIERS_MISMATCH].
Lemma reported_codes w f m t t' s r : reported w f m t t' s r -> rp_code r = LICENSE_OK \/ In (rp_code r) failure_list.
Proof.
  intros H. apply reported_diagnosis in H as [[-> _]|[content [_ [_ D]]]]; [right; cbn; auto|]. inversion D; cbn; auto 9.
Qed.

(** failures that are recorded *)
Lemma checking_failure w f es sig code steps e : checking w f es sig code steps -> In e steps -> failure e -> e = code.
Proof.
  intros H Hin Hf. assert (NS : ~ failure SIGNATURE_VERIFIED) by (intros X; eapply X; constructor).
  inversion H; subst; cbn [In] in Hin.
  - destruct Hin as [<-|[]]. reflexivity.
  - destruct Hin as [<-|[]]. contradiction.
  - destruct Hin as [<-|[<-|[]]]; [contradiction|reflexivity].
Qed.
Lemma about_in s es e k : In (e, k) (about s es) -> In e es.
Proof. unfold about. intros H. apply in_map_iff in H as [e' [[= <- _] H]]. exact H. Qed.
Lemma reported_failure w f m t t' s r e : reported w f m t t' s r -> failure e ->
  (exists k ann, In (e, k) (looked ann s r)) \/ In e (rp_reading r) \/ In e (rp_checking r) -> e = rp_code r.
Proof.
  intros H Hf Hin. assert (NS : forall e n, stage e n -> ~ failure e) by (intros e0 n X Y; eapply Y, X). destruct Hin as [[k [ann Hin]]|[Hin|Hin]].
  - unfold looked in Hin. destruct s; try destruct Hin.
    all: apply about_in, in_app_or in Hin as [Hin|[Hin|[]]]; [destruct ann; [destruct Hin as [<-|[]]; exfalso; eapply NS; [constructor|exact Hf]|destruct Hin]|].
    all: unfold missing in Hin; destruct (event_eqb (rp_code r) LICENSE_FILE_NOT_FOUND) eqn:E; [|subst e; exfalso; eapply NS; [constructor|exact Hf]].
    all: subst e; unfold event_eqb in E; destruct (event_eq_dec (rp_code r) LICENSE_FILE_NOT_FOUND); [symmetry; assumption|discriminate].
  - inversion H; subst; cbn [rp_reading rp_code] in *.
    + destruct Hin.
    + destruct Hin as [<-|[]]. reflexivity.
    + destruct Hin as [<-|[<-|[]]]; [exfalso; eapply NS; [constructor|exact Hf]|reflexivity].
    + destruct Hin as [<-|[]]. exfalso. eapply NS; [constructor|exact Hf].
  - inversion H; subst; cbn [rp_checking rp_code] in *; try destruct Hin. eapply checking_failure; eassumption.
Qed.
Lemma news_failure w hint g e k : In g (groups w hint) -> In (e, k) (g_news g) -> failure e -> place_failure w hint e.
Proof.
  intros Hg Hin Hf. assert (NS : forall e n, stage e n -> ~ failure e) by (intros e0 n X Y; eapply Y, X).
  unfold groups in Hg. apply in_app_or in Hg as [Hg|Hg]; [destruct (w_near_module w); [destruct Hg as [<-|[]]|destruct Hg]; destruct Hin|].
  apply in_app_or in Hg as [Hg|Hg].
  - destruct (w_with_env w) eqn:Ew; [|destruct Hg]. destruct Hg as [<-|[<-|[]]]; cbn [g_news] in Hin.
    + destruct (variable w LOCATION) eqn:E; [destruct Hin|]. destruct Hin as [[= <- _]|[]]. left. auto.
    + destruct (variable w DATA) as [d|] eqn:E.
      * destruct Hin as [[= <- _]|Hin]; [exfalso; eapply NS; [constructor|exact Hf]|]. destruct (looks d) eqn:F; [destruct Hin|destruct Hin|].
        destruct Hin as [[= <- _]|[]]. right. left. eauto.
      * destruct Hin as [[= <- _]|[]]. left. auto.
  - destruct hint as [l|]; [|destruct Hg]. destruct Hg as [<-|[]]. cbn [g_news] in Hin. destruct (cstr _); [destruct Hin|]. destruct Hin as [[= <- _]|[]]. exfalso. eapply NS; [constructor|exact Hf].
Qed.
Lemma trace_failure w f m t t' hint rss e k : Forall2 (fun g rs => Forall2 (reported w f m t t') (g_sources g) rs) (groups w hint) rss ->
  In (e, k) (call_trace (groups w hint) rss) -> failure e -> In e (map rp_code (concat rss)) \/ place_failure w hint e.
Proof.
  intros HF Hin Hf. unfold call_trace in Hin. destruct (groups w hint) as [|g0 gs0] eqn:Eg.
  - destruct Hin as [[= <- _]|[]]. right. right. right. unfold groups in Eg. destruct (w_near_module w); [discriminate|]. destruct (w_with_env w); [discriminate|]. destruct hint; [discriminate|]. auto.
  - rewrite <- Eg in *. clear g0 gs0 Eg. pose proof (Forall2_flat _ _ _ HF) as HF'. apply in_app_or in Hin as [Hin|Hin].
    + apply in_zip in Hin as [g [rs [Hc Hin]]]. pose proof (Forall2_combine _ _ _ _ _ HF Hc) as Hg. pose proof (in_combine_l _ _ _ _ Hc) as Hgl. pose proof (in_combine_r _ _ _ _ Hc) as Hgr.
      unfold group_trace in Hin. apply in_app_or in Hin as [Hin|Hin]; [right; eapply news_failure; eassumption|]. left.
      assert (K : forall s r, In (s, r) (combine (g_sources g) rs) -> e = rp_code r -> In e (map rp_code (concat rss))).
      { intros s r Hsr ->. apply in_map. apply in_concat. exists rs. split; [exact Hgr|]. eapply in_combine_r, Hsr. }
      apply in_app_or in Hin as [Hin|Hin]; apply in_zip in Hin as [s [r [Hsr Hin]]]; apply (K s r Hsr); pose proof (Forall2_combine _ _ _ _ _ Hg Hsr) as Hr.
      * eapply reported_failure; [exact Hr|exact Hf|left; eauto].
      * eapply reported_failure; [exact Hr|exact Hf|right; left; eapply about_in, Hin].
    + left. apply in_zip in Hin as [s [r [Hsr Hin]]]. pose proof (Forall2_combine _ _ _ _ _ HF' Hsr) as Hr. assert (E : e = rp_code r) by (eapply reported_failure; [exact Hr|exact Hf|right; right; eapply about_in, Hin]).
      rewrite E. apply in_map. eapply in_combine_r, Hsr.
Qed.
Lemma outcome_code w c hint out t code out' t' rss log : outcome w c hint out t code out' t' rss log ->
  code = LICENSE_OK \/ (In code failure_list /\ (In code (map rp_code (concat rss)) \/ place_failure w hint code)).
Proof.
  intros H. destruct (event_eq_dec code LICENSE_OK) as [E|E]; [left; exact E|right]. destruct (oc_fail _ _ _ _ _ _ _ _ _ _ H E) as [s [k [_ Hs]]]. apply selects_in in Hs as [Hf Hin].
  pose proof (trace_failure _ _ _ _ _ _ _ _ _ (oc_reports _ _ _ _ _ _ _ _ _ _ H) Hin Hf) as K. split; [|exact K]. destruct K as [K|[[_ [-> _]]|[[_ [-> _]]|[_ [_ [_ ->]]]]]]; try (cbn; auto 9; fail).
  apply in_map_iff in K as [r [<- Hr]]. destruct (Forall2_in_r _ _ _ _ (outcome_reports _ _ _ _ _ _ _ _ _ _ H) Hr) as [s' [_ X]]. destruct (reported_codes _ _ _ _ _ _ _ X) as [Y|Y]; [contradiction|exact Y].
Qed.
