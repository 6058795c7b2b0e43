(** When two calls give the same result: congruence of acquire_license in the texts
    it reads. *)
From Verif Require Import Base CTypes StringUtils Dates Base64 HwId Registry Ini Network Disks ExecEnv Strategies Locate Licensecc.
From Verif Require Import P_Base Spec_Strings Spec_Base64 Spec_Dates P_Strings P_Text P_Decode P_DateText P_HwText Spec_Ini P_Ini Spec_HwId Spec_Hw Spec_Registry P_Registry Spec_Acquire P_Acquire1 P_Acquire2 P_Acquire3 P_Acquire4 P_Acquire5 Spec_Ext.
From Coq Require Import Sorted Lia.

Lemma alike_refl es : alike es es.
Proof. intros k. auto. Qed.
Lemma alike_exact es es' k : alike es es' -> exact_value es k = exact_value es' k.
Proof. intros H. unfold exact_value. destruct (H k) as [-> ->]. reflexivity. Qed.
Lemma alike_nil es : alike [] es -> es = [].
Proof.
  destruct es as [|[k v] es]; [reflexivity|]. intros H. destruct (H k) as [E _]. cbn [first_spelling] in E. unfold same_nameb in E. rewrite beqb_refl in E. discriminate.
Qed.
Lemma alike_sym es es' : alike es es' -> alike es' es.
Proof. intros H k. destruct (H k). auto. Qed.
Lemma lim_alike es es' : alike es es' -> lim es = lim es'.
Proof.
  intros H. apply (limits_unique es); [apply lim_of|]. destruct (lim_of es') as [A B]. split; [exact A|]. intros k v. rewrite (alike_exact _ _ _ H). apply B.
Qed.
Lemma judge_alike product id es es' acc : alike es es' -> judge product id es acc = judge product id es' acc.
Proof.
  intros H. destruct acc as [r out]. assert (E : found es = found es') by (unfold found; destruct (H LICENSE_SIGNATURE) as [_ ->]; destruct (H LICENSE_VERSION) as [_ ->]; reflexivity).
  unfold judge. destruct es as [|e es]; [rewrite (alike_nil _ H); reflexivity|]. destruct es' as [|e' es']; [apply alike_sym, alike_nil in H; discriminate|]. rewrite E.
  destruct (found (e' :: es')) as [sig|]; [|reflexivity]. unfold lic_of. rewrite (lim_alike _ _ H). reflexivity.
Qed.
(** the same text as far as [f] is concerned, or the same fault *)
Definition agree (f : bytes) (x y : res (bytes * nat)) : Prop :=
  match x, y with
  | Ok (a, t), Ok (b, t') => t = t' /\ alike (section_entries a f) (section_entries b f)
  | Throw e, Throw e' => e = e'
  | Undef u, Undef u' => u = u'
  | OutOfFuel, OutOfFuel => True
  | _, _ => False
  end.
Lemma agree_refl f x : agree f x x.
Proof. destruct x as [[? ?]| | |]; cbn; auto using alike_refl. Qed.
Lemma agree_eq f x y : x = y -> agree f x y.
Proof. intros ->. apply agree_refl. Qed.

Definition twin (w w' : world) (f : bytes) (t0 : nat) (l l' : locator) : Prop :=
  (forall r t, t0 <= t -> license_locations w l r t = license_locations w' l' r t) /\
  (forall r t ids r' t', t0 <= t -> license_locations w l r t = Ok ((ids, r'), t') -> forall id, In id ids -> forall u, t' <= u ->
     agree f (retrieve_license_content w l (cstr id) u) (retrieve_license_content w' l' (cstr id) u)).
Lemma read_location_twin w w' f l l' id acc t :
  agree f (retrieve_license_content w l (cstr id) t) (retrieve_license_content w' l' (cstr id) t) ->
  read_location w l f id acc t = read_location w' l' f id acc t.
Proof.
  intros H. rewrite !read_location_eq. unfold mbind. destruct (retrieve_license_content w l (cstr id) t) as [[a u]| | |], (retrieve_license_content w' l' (cstr id) t) as [[b u']| | |]; cbn in H; try contradiction; try congruence; try reflexivity.
  destruct H as [-> H]. rewrite (judge_alike _ _ _ _ acc H). reflexivity.
Qed.
Lemma read_location_time w l f id acc t acc' t' : read_location w l f id acc t = Ok (acc', t') -> t <= t'.
Proof.
  rewrite read_location_eq. intros H. apply mbind_ok in H as [content [t1 [H1 H2]]]. apply mlift_ok in H2 as [_ ->].
  destruct l as [| | |h]; cbn [retrieve_license_content] in H1.
  - unfold mbind, m_file in H1. apply mlift_ok in H1 as [_ ->]. lia.
  - unfold mbind, m_file in H1. apply mlift_ok in H1 as [_ ->]. lia.
  - destruct (w_getenv w LICENSE_LOCATION_VAR); [|discriminate]. destruct (env_set w LICENSE_DATA_VAR); [destruct (identify_format _)|];
      try (apply mret_ok in H1 as [_ ->]; lia); apply mlift_ok in H1 as [_ ->]; lia.
  - destruct (beqb (cstr id) EXTERNAL_NAME).
    + apply mbind_ok in H1 as [d [t2 [H1 H3]]]. apply mlift_ok in H1 as [_ ->]. destruct (Z.eqb _ 2); [apply mlift_ok in H3 as [_ ->]|apply mret_ok in H3 as [_ ->]]; lia.
    + unfold mbind, m_file in H1. apply mlift_ok in H1 as [_ ->]. lia.
Qed.
Lemma read_all_twin w w' f l l' ids acc t : (forall id, In id ids -> forall u, t <= u -> agree f (retrieve_license_content w l (cstr id) u) (retrieve_license_content w' l' (cstr id) u)) ->
  read_all w l f ids acc t = read_all w' l' f ids acc t.
Proof.
  revert acc t; induction ids as [|id ids IH]; intros acc t H; cbn [read_all]; [reflexivity|]. unfold mbind.
  rewrite <- (read_location_twin w w' f l l' id acc t) by (apply H; [left; reflexivity|lia]).
  destruct (read_location w l f id acc t) as [[acc' t']| | |] eqn:E; try reflexivity. apply read_location_time in E. apply IH. intros i Hi u Hu. apply H; [right; exact Hi|lia].
Qed.
Lemma read_all_time w l f ids acc t acc' t' : read_all w l f ids acc t = Ok (acc', t') -> t <= t'.
Proof.
  revert acc t; induction ids as [|id ids IH]; intros acc t; cbn [read_all]; intros H; [apply mret_ok in H as [_ ->]; lia|].
  apply mbind_ok in H as [a [t1 [H1 H2]]]. apply read_location_time in H1. apply IH in H2. lia.
Qed.
Lemma read_locators_twin w w' f t0 ls ls' acc t : Forall2 (twin w w' f t0) ls ls' -> t0 <= t -> read_locators w ls f acc t = read_locators w' ls' f acc t.
Proof.
  intros HF. revert acc t; induction HF as [|l l' ls ls' [H1 H2] HF IH]; intros [r out] t Ht; cbn [read_locators]; [reflexivity|]. unfold mbind.
  rewrite <- H1 by exact Ht. destruct (license_locations w l r t) as [[[ids r1] t1]| | |] eqn:E; try reflexivity.
  rewrite <- (read_all_twin w w' f l l' ids (r1, out) t1) by (intros id Hid u Hu; eapply H2; eassumption).
  destruct (read_all w l f ids (r1, out) t1) as [[acc' t2]| | |] eqn:E2; try reflexivity. apply IH. apply locations_ok in E as [E _]. apply read_all_time in E2. lia.
Qed.
Lemma requested_same w w' c : same_checks w w' -> requested_feature w c = requested_feature w' c.
Proof. intros [H _]. unfold requested_feature. rewrite H. reflexivity. Qed.
Lemma verify_same w w' magic ls r ok bad t : same_checks w w' -> verify_all w magic ls r ok bad t = verify_all w' magic ls r ok bad t.
Proof.
  intros HC. assert (H1 : forall l r, verify_signature w l r = verify_signature w' l r) by (destruct w, w'; unfold same_checks in HC; cbn in HC; destruct HC as [-> [-> [-> [-> [-> [-> [-> ->]]]]]]]; reflexivity).
  assert (H2 : forall l t, to_license_info w l t = to_license_info w' l t) by (destruct w, w'; unfold same_checks in HC; cbn in HC; destruct HC as [-> [-> [-> [-> [-> [-> [-> ->]]]]]]]; reflexivity).
  assert (H3 : forall l r t, verify_limits w l r t = verify_limits w' l r t) by (destruct w, w'; unfold same_checks in HC; cbn in HC; destruct HC as [-> [-> [-> [-> [-> [-> [-> ->]]]]]]]; reflexivity).
  revert r ok bad t; induction ls as [|l ls IH]; intros r ok bad t; cbn [verify_all]; [reflexivity|]. cbv zeta. set (l0 := match magic with Some _ => _ | None => _ end). rewrite H1.
  unfold mbind. destruct (mlift (verify_signature w' l0 r) t) as [[[b r1] t1]| | |]; try reflexivity. rewrite H2. destruct (to_license_info w' l0 t1) as [[i t2]| | |]; try reflexivity.
  destruct b; [|apply IH]. rewrite H3. destruct (verify_limits w' l0 r1 t2) as [[[b r2] t3]| | |]; try reflexivity. destruct b; apply IH.
Qed.
Lemma mbind_ext {A B} (m m' : M A) (k k' : A -> M B) t : m t = m' t -> (forall a t', m t = Ok (a, t') -> k a t' = k' a t') -> mbind m k t = mbind m' k' t.
Proof. unfold mbind. intros <- H. destruct (m t) as [[a t']| | |]; try reflexivity. apply H. reflexivity. Qed.
Lemma read_licenses_twin w w' f hint hint' t : Forall2 (twin w w' f t) (get_active_strategies w hint) (get_active_strategies w' hint') ->
  read_licenses w hint f t = read_licenses w' hint' f t.
Proof.
  intros HF. unfold read_licenses. destruct (get_active_strategies w hint) as [|l ls] eqn:E1; inversion HF as [E2|? l' ? ls' Hl HF' E2 E3]; [reflexivity|].
  apply mbind_ext; [apply (read_locators_twin _ _ _ t); [constructor; assumption|apply le_n]|reflexivity].
Qed.
Theorem acquire_twin w w' c hint hint' out t : same_checks w w' ->
  Forall2 (twin w w' (feature_of w (option_map ci_feature c)) t) (get_active_strategies w hint) (get_active_strategies w' hint') ->
  acquire_license w c hint out t = acquire_license w' c hint' out t.
Proof.
  intros HC HF. unfold acquire_license. apply mbind_ext; [rewrite (requested_same w w' c HC); reflexivity|]. intros f t1 Ef. apply mlift_ok in Ef as [Ef ->]. apply requested_feature_ok in Ef. subst f.
  set (f := feature_of w (option_map ci_feature c)) in *. apply mbind_ext.
  - apply read_licenses_twin, HF.
  - intros [er ls] t2 _. destruct ls as [|l ls]; [reflexivity|]. apply mbind_ext; [apply verify_same, HC|reflexivity].
Qed.

(** texts that agree *)
Lemma from_file_alike w w' f p u : file_alike f (w_file w u (cstr p)) (w_file w' u (cstr p)) ->
  agree f ((x <~ m_file w (cstr p) ;; mlift (get_file_contents x MAX_LICENSE_DATA)) u) ((x <~ m_file w' (cstr p) ;; mlift (get_file_contents x MAX_LICENSE_DATA)) u).
Proof.
  intros H. unfold file_alike in H.
  assert (F : forall w t, (x <~ m_file w (cstr p) ;; mlift (get_file_contents x MAX_LICENSE_DATA)) t = Throw ExRuntime /\ w_file w t (cstr p) = None \/
     exists c a, (x <~ m_file w (cstr p) ;; mlift (get_file_contents x MAX_LICENSE_DATA)) t = Ok (c, S t) /\ w_file w t (cstr p) = Some a /\ section_entries c f = section_entries (readable a) f).
  { clear. intros w t. destruct ((x <~ m_file w (cstr p) ;; mlift (get_file_contents x MAX_LICENSE_DATA)) t) as [[c t1]|e|x|] eqn:E.
    - right. apply from_file_ok in E as [-> [a [Hf Hc]]]. exists c, a. split; [reflexivity|]. split; [exact Hf|]. apply entries_same. exact Hc.
    - left. unfold mbind, m_file, mlift in E. rewrite cstr_cstr in E. destruct (w_file w t (cstr p)); cbn [get_file_contents] in E; [discriminate|]. injection E as <-. auto.
    - unfold mbind, m_file, mlift in E. destruct (w_file w t _); cbn [get_file_contents] in E; discriminate.
    - unfold mbind, m_file, mlift in E. destruct (w_file w t _); cbn [get_file_contents] in E; discriminate. }
  destruct (F w u) as [[-> E]|[c [a [-> [E S]]]]], (F w' u) as [[-> E']|[c' [a' [-> [E' S']]]]]; rewrite E, E' in H; cbn; try contradiction; auto.
  split; [reflexivity|]. rewrite S, S'. exact H.
Qed.
Lemma file_agree_alike f a b : file_agree f a b -> file_alike f a b.
Proof. unfold file_agree, file_alike. destruct a, b; auto. intros ->. apply alike_refl. Qed.
Lemma filter_existing_ext w w' l x r t : (forall p, In p l -> forall i, w_good w i (cstr p) = w_good w' i (cstr p)) -> filter_existing_files w l x r t = filter_existing_files w' l x r t.
Proof.
  revert r t; induction l as [|p l IH]; intros r t H; cbn [filter_existing_files]; [reflexivity|]. apply mbind_ext; [reflexivity|]. intros r1 t1 _.
  apply mbind_ext; [unfold m_good; rewrite H by (left; reflexivity); reflexivity|]. intros g t2 _. apply mbind_ext; [reflexivity|]. intros r2 t3 _.
  apply mbind_ext; [apply IH; intros q Hq; apply H; right; exact Hq|reflexivity].
Qed.
(** the same places, the same texts as far as the feature is concerned *)
Lemma keep_in {A} (l : list A) bs x : In x (keep l bs) -> exists b, In (x, b) (combine l bs) /\ b = true.
Proof.
  revert bs; induction l as [|a l IH]; intros [|b bs]; cbn [keep combine]; try (intros []; fail). destruct b.
  - intros [->|H]; [exists true; split; [left; reflexivity|reflexivity]|]. destruct (IH _ H) as [b [X Y]]. exists b. split; [right; exact X|exact Y].
  - intros H. destruct (IH _ H) as [b [X Y]]. exists b. split; [right; exact X|exact Y].
Qed.
Lemma combine_rel {A B} (R : A -> B -> Prop) l l' a b : Forall2 R l l' -> In (a, b) (combine l l') -> R a b.
Proof. induction 1; cbn; [intros []|]. intros [[= <- <-]|H']; auto. Qed.

Section SAME.
Context (w w' : world) (f : bytes) (t0 : nat).
Lemma location_twin l l' : 
  (forall r t, t0 <= t -> license_locations w l r t = license_locations w' l' r t) ->
  (forall s u, In s (locator_sources w l) -> t0 <= u -> (exists i, t0 <= i < u /\ listed w s i = true) \/ (forall p, s <> SFile p) ->
     agree f (retrieve_license_content w l (cstr (sid s)) u) (retrieve_license_content w' l' (cstr (sid s)) u)) ->
  twin w w' f t0 l l'.
Proof.
  intros H1 H2. split; [exact H1|]. intros r t ids r' t' Ht E id Hid u Hu. apply locations_ok in E as [Ht' [bs [HF [-> _]]]]. apply in_map_iff in Hid as [s [<- Hs]].
  apply keep_in in Hs as [b [Hs ->]]. pose proof (combine_rel _ _ _ _ _ HF Hs) as Hc. apply in_combine_l in Hs. apply H2; [exact Hs|lia|].
  destruct s; cbn [checked] in Hc; try (right; congruence). left. destruct Hc as [i [X Y]]. exists i. split; [lia|exact Y].
Qed.
End SAME.

Lemma places_twin w w' f hint t : same_places w w' ->
  (forall s p, In s (sources w hint) -> (s = SFile p \/ exists x, s = SNamed p x) -> forall i, w_good w i (cstr p) = w_good w' i (cstr p)) ->
  (forall p i j, In (SFile p) (sources w hint) -> t <= i < j -> w_good w i (cstr p) = true -> file_alike f (w_file w j (cstr p)) (w_file w' j (cstr p))) ->
  Forall2 (twin w w' f t) (get_active_strategies w hint) (get_active_strategies w' hint).
Proof.
  intros [P1 [P2 [P3 P4]]] HG HF.
  assert (EA : get_active_strategies w' hint = get_active_strategies w hint) by (unfold get_active_strategies; rewrite P1, P2; reflexivity). rewrite EA.
  assert (HI : forall l, In l (get_active_strategies w hint) -> incl (locator_sources w l) (sources w hint)).
  { intros l Hl s Hs. unfold sources. rewrite groups_eq. apply in_flat_map. exists (group_of w l). split; [apply in_map; exact Hl|exact Hs]. }
  assert (HA : forall l, In l (get_active_strategies w hint) -> twin w w' f t l l).
  2:{ clear -HA. induction (get_active_strategies w hint) as [|l ls IH]; constructor; [apply HA; left; reflexivity|apply IH; intros x Hx; apply HA; right; exact Hx]. }
  intros l Hl. specialize (HI l Hl). unfold locator_sources in HI. apply location_twin.
  - intros r u Hu. destruct l as [| | |h]; cbn [license_locations group_of g_sources] in *.
    + assert (Hn : w_near_module w = true) by (unfold get_active_strategies in Hl; destruct (w_near_module w); [reflexivity|]; cbn [app] in Hl; destruct (w_with_env w), hint; cbn in Hl; intuition discriminate).
      unfold get_module_name. rewrite (P3 Hn). unfold module_sources in HI. destruct (w_module w) as [link|]; [|reflexivity]. rewrite (stem_eq (cstr (firstn 1023 link))) in HI.
      apply mbind_ext; [unfold m_good; erewrite HG; [reflexivity|apply HI; left; reflexivity|left; reflexivity]|reflexivity].
    + assert (He : w_with_env w = true) by (unfold get_active_strategies in Hl; destruct (w_with_env w); [reflexivity|]; destruct (w_near_module w), hint; cbn in Hl; intuition discriminate).
      unfold location_sources in HI. unfold env_set. rewrite (P4 He). fold (env_set w LICENSE_LOCATION_VAR). change (env_set w LICENSE_LOCATION_VAR) with (variable w LOCATION). destruct (variable w LOCATION) as [v|]; [|reflexivity].
      apply filter_existing_ext. intros p Hp i. rewrite <- pieces_eq in Hp. eapply HG; [apply HI, in_map, Hp|left; reflexivity].
    + assert (He : w_with_env w = true) by (unfold get_active_strategies in Hl; destruct (w_with_env w); [reflexivity|]; destruct (w_near_module w), hint; cbn in Hl; intuition discriminate).
      unfold env_set. rewrite (P4 He). reflexivity.
    + destruct (loc_data h) as [|x y] eqn:Ed; [reflexivity|]. destruct (Ascii.eqb x NUL) eqn:Ex; [reflexivity|]. apply mbind_ext; [reflexivity|]. intros r1 t1 _.
      destruct (Z.eqb (loc_type h) 0) eqn:E0; [|reflexivity]. rewrite <- Ed in *. apply mbind_ext; [reflexivity|]. intros d t2 Hd. apply mlift_ok in Hd as [Hd _]. apply string_of_array_text in Hd. rewrite max_size in Hd. subst d.
      apply filter_existing_ext. intros p Hp i. rewrite <- pieces_eq in Hp. unfold hint_sources in HI. rewrite E0 in HI.
      assert (Hne : cstr (firstn HINT_SIZE (loc_data h)) <> []) by (intros N; rewrite N in Hp; destruct Hp).
      destruct (cstr (firstn HINT_SIZE (loc_data h))) as [|a b] eqn:Et; [destruct (Hne eq_refl)|]. rewrite <- Et in *.
      assert (Hin : In (if beqb p EXTERNAL then SNamed p (cstr (firstn HINT_SIZE (loc_data h))) else SFile p) (sources w hint)).
      { apply HI. apply (in_map (fun p => if beqb p EXTERNAL then SNamed p (cstr (firstn HINT_SIZE (loc_data h))) else SFile p)) in Hp. exact Hp. }
      destruct (beqb p EXTERNAL); (eapply HG; [exact Hin|eauto]).
  - intros s u Hs Hu Hb.
    assert (FF : forall p, s = SFile p -> agree f ((x <~ m_file w (cstr p) ;; mlift (get_file_contents x MAX_LICENSE_DATA)) u) ((x <~ m_file w' (cstr p) ;; mlift (get_file_contents x MAX_LICENSE_DATA)) u)).
    { intros p ->. apply from_file_alike. destruct Hb as [[i [X Y]]|Hb]; [|destruct (Hb p eq_refl)]. apply (HF p i u); [apply HI, Hs|lia|exact Y]. }
    unfold locator_sources in Hs. destruct l as [| | |h]; cbn [group_of g_sources retrieve_license_content] in *.
    + unfold module_sources in Hs. destruct (w_module w); [|destruct Hs]. destruct Hs as [<-|[]]. apply FF. reflexivity.
    + unfold location_sources in Hs. destruct (variable w LOCATION); [|destruct Hs]. apply in_map_iff in Hs as [p [<- _]]. apply FF. reflexivity.
    + assert (He : w_with_env w = true) by (unfold get_active_strategies in Hl; destruct (w_with_env w); [reflexivity|]; destruct (w_near_module w), hint; cbn in Hl; intuition discriminate).
      unfold env_set. rewrite !(P4 He). apply agree_refl.
    + destruct (beqb (cstr (sid s)) EXTERNAL_NAME) eqn:Es; [apply agree_refl|]. unfold hint_sources in Hs. destruct (cstr (firstn HINT_SIZE (loc_data h))) as [|a b] eqn:Et; [destruct Hs|]. rewrite <- Et in *.
      destruct (Z.eqb (loc_type h) 0).
      * apply in_map_iff in Hs as [p [Ep Hp]]. destruct (beqb p EXTERNAL) eqn:Eb.
        -- exfalso. subst s. cbn [sid] in Es. apply beqb_eq in Eb. subst p. discriminate Es.
        -- subst s. cbn [sid]. apply FF. reflexivity.
      * destruct (Z.eqb (loc_type h) 1); [|destruct (Z.eqb (loc_type h) 2); [|destruct Hs]]; destruct Hs as [<-|[]]; discriminate Es.
Qed.
Theorem acquire_same w w' c hint out t : same_checks w w' -> same_places w w' ->
  (forall s p, In s (sources w hint) -> (s = SFile p \/ exists x, s = SNamed p x) -> forall i, w_good w i (cstr p) = w_good w' i (cstr p)) ->
  (forall p i j, In (SFile p) (sources w hint) -> t <= i < j -> w_good w i (cstr p) = true ->
     file_alike (feature_of w (option_map ci_feature c)) (w_file w j (cstr p)) (w_file w' j (cstr p))) ->
  acquire_license w c hint out t = acquire_license w' c hint out t.
Proof. intros HC HP HG HF. apply acquire_twin; [exact HC|]. apply places_twin; assumption. Qed.

(** two hints that carry the same text as far as the feature is concerned *)
Lemma twin_refl w f t0 l : twin w w f t0 l l.
Proof. split; [reflexivity|]. intros. apply agree_refl. Qed.
Lemma same_checks_refl w : same_checks w w.
Proof. repeat split. Qed.
Lemma hints_twin w f h h' t : twin w w f t (LocExternal h) (LocExternal h') -> Forall2 (twin w w f t) (get_active_strategies w (Some h)) (get_active_strategies w (Some h')).
Proof.
  intros H. unfold get_active_strategies. apply Forall2_app; [|apply Forall2_app].
  - destruct (w_near_module w); constructor; [apply twin_refl|constructor].
  - destruct (w_with_env w); constructor; [apply twin_refl|]. constructor; [apply twin_refl|constructor].
  - constructor; [exact H|constructor].
Qed.
Lemma acquire_hints w c h h' out t : twin w w (feature_of w (option_map ci_feature c)) t (LocExternal h) (LocExternal h') ->
  acquire_license w c (Some h) out t = acquire_license w c (Some h') out t.
Proof. intros H. apply acquire_twin; [apply same_checks_refl|]. apply hints_twin, H. Qed.
(** a hint given as text or encoded text *)
Definition hint_text (h : location) : res bytes :=
  licData <-- string_of_array (loc_data h) MAX_LICENSE_DATA ;;
  if Z.eqb (loc_type h) 2 then raw <-- unbase64 licData ;; string_of_vector raw else Ok licData.
Definition starts (h : location) : Prop := exists c r, loc_data h = c :: r /\ c <> NUL.
Lemma hint_twin w f t0 h h' : starts h -> starts h' -> In (loc_type h) [1; 2]%Z -> In (loc_type h') [1; 2]%Z ->
  agree f (rbind (hint_text h) (fun x => Ok (x, 0))) (rbind (hint_text h') (fun x => Ok (x, 0))) -> twin w w f t0 (LocExternal h) (LocExternal h').
Proof.
  intros [x [y [Ex Nx]]] [x' [y' [Ex' Nx']]] Ht Ht' HA.
  assert (L : forall h x y r t, loc_data h = x :: y -> x <> NUL -> In (loc_type h) [1; 2]%Z ->
     license_locations w (LocExternal h) r t = (r <~ mlift (add_event LICENSE_SPECIFIED (Some EXTERNAL_NAME) None r) ;; mret ([EXTERNAL_NAME], r)) t).
  { clear. intros h x y r t E N T. cbn [license_locations]. rewrite E. destruct (Ascii.eqb_spec x NUL) as [X|_]; [contradiction|]. apply mbind_ext; [reflexivity|]. intros r1 t1 _.
    destruct T as [T|[T|[]]]; rewrite <- T; reflexivity. }
  split.
  - intros r t _. rewrite (L h x y), (L h' x' y') by assumption. reflexivity.
  - intros r t ids r' t' _ E id Hid u _. rewrite (L h x y) in E by assumption. apply mbind_ok in E as [r1 [t1 [_ E]]]. apply mret_ok in E as [[= -> _] _]. destruct Hid as [<-|[]].
    assert (R : forall h u, In (loc_type h) [1; 2]%Z -> retrieve_license_content w (LocExternal h) (cstr EXTERNAL_NAME) u = rbind (hint_text h) (fun x => Ok (x, u))).
    { clear. intros h u T. cbn [retrieve_license_content]. change (beqb (cstr EXTERNAL_NAME) EXTERNAL_NAME) with true. cbv iota. unfold hint_text, mbind, mlift.
      destruct (string_of_array (loc_data h) MAX_LICENSE_DATA) as [d| | |]; try reflexivity. cbn [rbind]. destruct (Z.eqb (loc_type h) 2); [|reflexivity]. destruct (rbind (unbase64 d) string_of_vector); reflexivity. }
    rewrite !R by assumption. destruct (hint_text h), (hint_text h'); cbn in HA |- *; try contradiction; auto. destruct HA as [_ HA]. auto.
Qed.
Lemma array_text_eq s junk : nul_free s -> length s <= HINT_SIZE -> string_of_array (s ++ NUL :: junk) MAX_LICENSE_DATA = Ok s.
Proof.
  intros H L. unfold string_of_array. rewrite mstrnlen_nul; [|exact H|rewrite max_size; exact L]. cbn [rbind]. rewrite firstn_app, firstn_all, Nat.sub_diag. cbn [firstn]. rewrite app_nil_r. reflexivity.
Qed.
Lemma starts_app s junk : s <> [] -> nul_free s -> forall z, starts {| loc_type := z; loc_data := s ++ NUL :: junk |}.
Proof.
  intros N H z. destruct s as [|c s]; [contradiction|]. exists c, (s ++ NUL :: junk). split; [reflexivity|]. intros ->. discriminate H.
Qed.
Lemma vector_text s : nul_free s -> string_of_vector (s ++ [NUL]) = Ok s.
Proof.
  intros H. unfold string_of_vector. replace (existsb _ _) with true; [|symmetry; apply existsb_exists; exists NUL; split; [apply in_or_app; right; left; reflexivity|reflexivity]].
  rewrite cstr_app_nul by exact H. reflexivity.
Qed.

(** ** texts as lists of lines *)
Lemma lines_app l s : plain_line l -> lines (l ++ LF :: s) = l :: lines s.
Proof.
  induction l as [|c l IH]; intros H; [reflexivity|]. cbn [app lines]. destruct (H c (or_introl eq_refl)) as [-> _]. rewrite IH; [reflexivity|]. intros x Hx. apply H. right. exact Hx.
Qed.
Lemma lines_unlines ls : Forall plain_line ls -> lines (unlines ls) = ls ++ [[]].
Proof. induction 1 as [|l ls Hl H IH]; [reflexivity|]. unfold unlines in *. cbn [map concat]. rewrite <- app_assoc. cbn [app]. rewrite lines_app, IH by exact Hl. reflexivity. Qed.
Lemma unlines_nul ls : Forall plain_line ls -> nul_free (unlines ls).
Proof.
  intros H. unfold nul_free. apply forallb_forall. intros c Hc. unfold unlines in Hc. apply in_concat in Hc as [x [Hx Hc]]. apply in_map_iff in Hx as [l [<- Hl]]. apply in_app_or in Hc as [Hc|[<-|[]]]; [|reflexivity].
  rewrite Forall_forall in H. destruct (H l Hl c Hc) as [_ N]. unfold nonnul. destruct (Ascii.eqb_spec c NUL); [contradiction|reflexivity].
Qed.
Fixpoint section_after (sec : section) (ls : list bytes) : section :=
  match ls with
  | [] => sec
  | l :: r => section_after (match meaning l with LHeader n => SecNamed n | LBroken => SecBroken | _ => sec end) r
  end.
Lemma read_lines_app sec a b : Forall not_open a -> read_lines sec false (a ++ b) = read_lines sec false a ++ read_lines (section_after sec a) false b.
Proof.
  intros H. revert sec. induction H as [|l a Hl H IH]; intros sec; [reflexivity|]. cbn [app read_lines section_after]. cbv zeta. rewrite Hl.
  destruct (meaning l); rewrite IH; reflexivity.
Qed.
Lemma header_reset sec sec' c : (c = [] \/ exists l r, c = l :: r /\ header_line l /\ not_open l) -> read_lines sec false (c ++ [[]]) = read_lines sec' false (c ++ [[]]).
Proof. intros [->|[l [r [-> [[n Hn] Ho]]]]]; [reflexivity|]. cbn [app read_lines]. cbv zeta. rewrite Ho, Hn. reflexivity. Qed.
Lemma foreign_entries f sec b : Forall not_open b -> (forall l n, In l b -> meaning l = LHeader n -> same_nameb n f = false) ->
  match sec with SecNamed n => same_nameb n f = false | SecBroken => True end -> flat_map (item_entries f) (read_lines sec false b) = [].
Proof.
  intros H. revert sec. induction H as [|l b Hl H IH]; intros sec HN HS; [reflexivity|]. cbn [read_lines]. cbv zeta. rewrite Hl.
  assert (HN' : forall l n, In l b -> meaning l = LHeader n -> same_nameb n f = false) by (intros x n Hx; apply HN; right; exact Hx).
  destruct (meaning l) as [|n| |k v] eqn:E; cbn [flat_map item_entries app].
  - apply IH; assumption.
  - apply IH; [exact HN'|]. eapply HN; [left; reflexivity|exact E].
  - apply IH; [exact HN'|exact I].
  - rewrite IH by assumption. rewrite app_nil_r. destruct sec as [n|]; [rewrite HS|]; reflexivity.
Qed.
Theorem foreign_block f a b c : Forall plain_line (a ++ b ++ c) -> Forall not_open (a ++ b ++ c) ->
  (b = [] \/ exists l r n, b = l :: r /\ meaning l = LHeader n) -> (forall l n, In l b -> meaning l = LHeader n -> same_nameb n f = false) ->
  (c = [] \/ exists l r, c = l :: r /\ header_line l) ->
  section_entries (unlines (a ++ b ++ c)) f = section_entries (unlines (a ++ c)) f.
Proof.
  intros HP HO Hb HN Hc. assert (HP2 : Forall plain_line (a ++ c)) by (apply Forall_app in HP as [X Y]; apply Forall_app in Y as [_ Y]; apply Forall_app; auto).
  apply Forall_app in HO as [Oa HO]. apply Forall_app in HO as [Ob Oc].
  unfold section_entries, text_items. rewrite !cstr_id by (apply unlines_nul; assumption). rewrite !lines_unlines by assumption. rewrite <- !app_assoc.
  rewrite (read_lines_app _ a (b ++ c ++ [[]]) Oa), (read_lines_app _ b _ Ob), (read_lines_app _ a (c ++ [[]]) Oa). rewrite !flat_map_app.
  set (s1 := section_after (SecNamed []) a).
  assert (Hc' : c = [] \/ exists l r, c = l :: r /\ header_line l /\ not_open l) by (destruct Hc as [Hc|[l [r [-> Hl]]]]; [auto|right; exists l, r; inversion Oc; subst; auto]).
  rewrite (header_reset (section_after s1 b) s1 c Hc').
  assert (E : flat_map (item_entries f) (read_lines s1 false b) = []).
  { destruct Hb as [->|[l [r [n [-> Hl]]]]]; [reflexivity|]. inversion Ob as [|? ? O1 O2]; subst. cbn [read_lines]. cbv zeta. rewrite O1, Hl. cbn [flat_map item_entries app].
    apply foreign_entries; [exact O2|intros x m Hx; apply HN; right; exact Hx|eapply HN; [left; reflexivity|exact Hl]]. }
  rewrite E. reflexivity.
Qed.
