(** The reading phase: which sources are read, and what is recorded. *)
From Verif Require Import Base CTypes StringUtils Dates Base64 HwId Registry Ini Network Disks ExecEnv Strategies Locate Licensecc.
From Verif Require Import P_Base Spec_Strings Spec_Base64 Spec_Dates P_Strings P_Text P_Decode P_DateText P_HwText Spec_Ini P_Ini Spec_HwId Spec_Hw Spec_Registry P_Registry Spec_Acquire P_Acquire1.
From Coq Require Import Sorted.

(** ** histories *)
Lemma reg_run_app a b r : reg_run (a ++ b) r = (r' <-- reg_run a r ;; reg_run b r').
Proof. revert r; induction a as [|op a IH]; intros r; cbn [app reg_run rbind]; [reflexivity|]. destruct (reg_step r op); cbn [rbind]; auto. Qed.
(** [r'] comes from [r] by recording [T] *)
Definition grown (r : registry) (T : trace) (r' : registry) : Prop :=
  (exists ops, Forall op_add ops /\ reg_run ops r = Ok r') /\ log_trace r' = log_trace r ++ T.
Lemma grown_refl r : grown r [] r.
Proof. split; [exists []; split; [constructor|reflexivity]|symmetry; apply app_nil_r]. Qed.
Lemma grown_trans r T r1 T' r2 : grown r T r1 -> grown r1 T' r2 -> grown r (T ++ T') r2.
Proof.
  intros [[o1 [A1 B1]] C1] [[o2 [A2 B2]] C2]. split.
  - exists (o1 ++ o2). split; [apply Forall_app; auto|]. rewrite reg_run_app, B1. exact B2.
  - rewrite C2, C1. symmetry. apply app_assoc.
Qed.
Definition ref_name (id : option bytes) : bytes := match id with None => bs "UNDEF" | Some s => firstn 1024 (cstr s) end.
Lemma add_logs e id info r r' : add_event e id info r = Ok r' -> logs r' = logs r ++ [recorded e id info].
Proof.
  intros H. apply add_event_ok in H as [[_ ->]|[st [_ [_ ->]]]]; [|reflexivity].
  unfold add_plain. destruct (progress e) as [st|]; [destruct (Z.ltb (step r) st)|]; reflexivity.
Qed.
Lemma grown_add e id info r r' : add_event e id info r = Ok r' -> grown r [(e, ref_name id)] r'.
Proof.
  intros H. split.
  - exists [OpAdd e id info]. split; [repeat constructor|]. cbn [reg_run reg_step]. rewrite H. reflexivity.
  - unfold log_trace. rewrite (add_logs _ _ _ _ _ H), map_app. reflexivity.
Qed.
Lemma grown_inv r T r' : reg_inv r -> grown r T r' -> reg_inv r'.
Proof. intros Hi [[ops [_ H]] _]. eapply reg_run_inv; eassumption. Qed.
Lemma grown_raise r r' b : reg_inv r -> turn_warnings_into_errors r = Ok (r', b) -> grown r [] r'.
Proof.
  intros Hi E. split.
  - exists [OpRaise]. split; [repeat constructor|]. cbn [reg_run reg_step]. rewrite E. reflexivity.
  - rewrite app_nil_r. destruct (turn_warnings_spec r Hi) as [r2 [b2 [E2 [_ [_ [Hn _]]]]]]. rewrite E in E2. injection E2 as <- <-.
    eapply map_same; [|exact Hn]. intros i x. rewrite raised_type, raised_ref. reflexivity.
Qed.
Lemma failure_codes e : failure e <-> progress e = None.
Proof. split; [intros H; destruct e; try reflexivity; exfalso; eapply H; constructor|intros H n S; inversion S; subst; discriminate]. Qed.
Lemma empty_inv : reg_inv reg_empty.
Proof. apply (fresh_inv []). reflexivity. Qed.

(** the code that is reported is the one selected *)
Lemma grown_code r T r' b code : grown reg_empty T r -> turn_warnings_into_errors r = Ok (r', b) -> failure_code r' = Ok code ->
  exists s k, furthest T s /\ selects T s (Some (code, k)).
Proof.
  intros [[ops [H1 H2]] H3] E Hc. destruct (selection_summary ops r H1 H2) as [r2 [b2 [o [s [E2 [Ef [Hs Hsel]]]]]]].
  rewrite E in E2. injection E2 as <- <-. unfold failure_code in Hc. rewrite Ef in Hc. cbn [rbind] in Hc. destruct o as [ev|]; [|discriminate]. injection Hc as <-.
  cbn [option_map] in Hsel. cbn in H3. rewrite H3 in *. eauto.
Qed.
Lemma selects_in T s e k : selects T s (Some (e, k)) -> failure e /\ In (e, k) T.
Proof.
  intros H. inversion H as [e' k' [i [_ [Hn Hf]]] _ Ek|e' k' p q _ Hl Hf _ Ek|]; subst.
  - split; [exact Hf|]. eapply nth_error_In, Hn.
  - split; [exact Hf|]. apply in_elt.
Qed.

(** ** what read_location does with a text: depends only on the entries of the feature *)
Definition lim (es : list (bytes * bytes)) : smap bytes :=
  fold_left (fun m k => match exact_value es k with Some v => sm_set k v m | None => m end) (map fst es) [].
Lemma lim_sorted es : sm_sorted (lim es).
Proof. apply fold_sorted. exact I. Qed.
Lemma first_spelling_in es k : first_spelling es k = Some k -> In k (map fst es).
Proof.
  induction es as [|[k' v] es IH]; cbn [first_spelling map fst]; [discriminate|]. destruct (same_nameb k' k); [intros [= ->]; left; reflexivity|right; auto].
Qed.
Lemma lim_get es k : sm_get k (lim es) = exact_value es k.
Proof.
  unfold lim. rewrite fold_limits. cbn [sm_get]. destruct (existsb (beqb k) (map fst es)) eqn:E; [destruct (exact_value es k); reflexivity|].
  unfold exact_value. destruct (first_spelling es k) as [k'|] eqn:F; [|reflexivity]. destruct (beqb_spec k' k) as [->|]; [|reflexivity].
  apply first_spelling_in in F. exfalso. rewrite <- not_true_iff_false in E. apply E, existsb_exists. exists k. split; [exact F|apply beqb_refl].
Qed.
Lemma lim_of es : limits_of es (lim es).
Proof.
  split; [apply sorted_strong, lim_sorted|]. intros k v. rewrite <- lim_get. split; [apply sm_in_get, lim_sorted|apply sm_get_in].
Qed.
Lemma read_limits_lim text d sec : ini_load text = Ok d -> read_limits d sec = lim (section_entries text sec).
Proof. intros H. apply sm_ext; [apply limits_sorted|apply lim_sorted|]. intros k. rewrite (limits_get _ _ _ _ H), lim_get. reflexivity. Qed.

Definition lic_of (product id : bytes) (es : list (bytes * bytes)) (sig : bytes) : full_license :=
  {| fl_source := id; fl_project := product; fl_signature := sig; fl_magic := 0%N; fl_limits := lim es |}.
(** the license found among entries, if any *)
Definition found (es : list (bytes * bytes)) : option bytes :=
  match last_value es LICENSE_SIGNATURE with
  | Some sig => if Z.eqb (long_of (last_value es LICENSE_VERSION) (-1)) 200 then Some sig else None
  | None => None
  end.
Lemma found_form es sig : found es = Some sig <-> license_form es sig.
Proof.
  unfold found, license_form. rewrite <- version_of. change LICENSE_SIGNATURE with (bs "sig"). destruct (last_value es (bs "sig")) as [s|]; [|split; [discriminate|intros [[=] _]]].
  destruct (Z.eqb _ 200); split; try discriminate; [intros [= <-]; auto|intros [[= <-] _]; reflexivity|intros [_ [=]]].
Qed.
Lemma found_none es : found es = None <-> forall sig, ~ license_form es sig.
Proof.
  split; [intros H sig F; apply found_form in F; congruence|]. intros H. destruct (found es) as [sig|] eqn:E; [|reflexivity].
  apply found_form in E. destruct (H _ E).
Qed.
Lemma found_entries es sig : found es = Some sig -> es <> [].
Proof. intros H ->. discriminate. Qed.

Definition judge (product id : bytes) (es : list (bytes * bytes)) (acc : registry * list full_license) : res (registry * list full_license) :=
  let '(r, out) := acc in
  match es with
  | [] => r <-- add_event PRODUCT_NOT_LICENSED (Some id) None r ;; Ok (r, out)
  | _ => r <-- add_event PRODUCT_FOUND (Some id) None r ;;
      match found es with
      | Some sig => Ok (r, out ++ [lic_of product id es sig])
      | None => r <-- add_event LICENSE_MALFORMED (Some id) None r ;; Ok (r, out)
      end
  end.
Lemma read_location_eq w loc product id acc t :
  read_location w loc product id acc t =
  (content <~ retrieve_license_content w loc (cstr id) ;; mlift (judge product id (section_entries content product) acc)) t.
Proof.
  destruct acc as [r out]. unfold read_location, mbind. cbv zeta. destruct (retrieve_license_content w loc (cstr id) t) as [[content t1]| | |]; try reflexivity.
  destruct (ini_load_total content) as [d Hd]. rewrite Hd. unfold mlift at 1. cbn [rbind]. rewrite (section_empty _ _ _ Hd), entries_upper.
  unfold judge. unfold mlift, get_long_value. rewrite !(ini_load_value _ _ _ _ Hd), !entries_upper, (read_limits_lim _ _ _ Hd), entries_upper.
  destruct (section_entries content product) as [|e0 es] eqn:Ees.
  - destruct (add_event _ _ _ _); reflexivity.
  - rewrite <- Ees. clear Ees e0 es. set (es := section_entries content product). destruct (add_event PRODUCT_FOUND (Some id) None r) as [r1| | |]; cbn [rbind]; try reflexivity.
    unfold found. destruct (last_value es LICENSE_SIGNATURE) as [sig|]; [destruct (Z.eqb _ 200)|]; try reflexivity; destruct (add_event LICENSE_MALFORMED _ _ _); reflexivity.
Qed.

(** ** the sources of a locator *)
Definition group_of (w : world) (l : locator) : group :=
  match l with
  | LocApplicationFolder => {| g_news := []; g_announce := false; g_sources := module_sources w |}
  | LocEnvVarLocation =>
      {| g_news := match variable w LOCATION with None => [(ENVIRONMENT_VARIABLE_NOT_DEFINED, bs "UNDEF")] | Some _ => [] end;
         g_announce := true; g_sources := location_sources w |}
  | LocEnvVarData =>
      {| g_news := match variable w DATA with
                   | None => [(ENVIRONMENT_VARIABLE_NOT_DEFINED, LOCATION)]
                   | Some d => (LICENSE_SPECIFIED, LOCATION) ::
                       match looks d with FmtUnknown => [(LICENSE_MALFORMED, LOCATION)] | _ => [] end
                   end;
         g_announce := false; g_sources := data_sources w |}
  | LocExternal h =>
      {| g_news := match cstr (firstn HINT_SIZE (loc_data h)) with [] => [] | _ => [(LICENSE_SPECIFIED, EXTERNAL)] end;
         g_announce := true; g_sources := hint_sources (Some h) |}
  end.
Definition locator_sources (w : world) (l : locator) : list source := g_sources (group_of w l).
Lemma groups_eq w hint : groups w hint = map (group_of w) (get_active_strategies w hint).
Proof.
  unfold groups, get_active_strategies. rewrite !map_app. f_equal; [destruct (w_near_module w); reflexivity|].
  f_equal; [destruct (w_with_env w); reflexivity|]. destruct hint; reflexivity.
Qed.
Notation sid := name_of.

Definition checked (w : world) (t t' : nat) (s : source) (b : bool) : Prop :=
  match s with
  | SFile _ | SNamed _ _ => exists i, t <= i < t' /\ listed w s i = b
  | _ => b = true
  end.
Definition seen (w : world) (t t' : nat) (s : source) (o : option bytes) : Prop :=
  match o with
  | None => exists i, t <= i < t' /\ listed w s i = false
  | Some content => given w t t' s content /\ checked w t t' s true
  end.
Lemma checked_wide w t t' u u' s b : u <= t -> t' <= u' -> checked w t t' s b -> checked w u u' s b.
Proof. intros H1 H2. destruct s; cbn [checked]; auto; intros [i [H3 H4]]; exists i; (split; [lia|exact H4]). Qed.
Lemma given_wide w t t' u u' s c : u <= t -> t' <= u' -> given w t t' s c -> given w u u' s c.
Proof.
  intros H1 H2. destruct s; cbn [given].
  - intros [i [H3 H4]]. exists i. split; [lia|exact H4].
  - intros H. inversion H; subst. constructor.
  - intros H. inversion H; subst. econstructor; eassumption.
  - intros H. inversion H; subst. constructor.
Qed.
Lemma seen_wide w t t' u u' s o : u <= t -> t' <= u' -> seen w t t' s o -> seen w u u' s o.
Proof.
  intros H1 H2. destruct o as [c|]; cbn [seen].
  - intros [H3 H4]. split; [eapply given_wide; eassumption|eapply checked_wide; eassumption].
  - intros [i [H3 H4]]. exists i. split; [lia|exact H4].
Qed.

Lemma Forall2_impl {A B} (R S : A -> B -> Prop) l l' : (forall a b, R a b -> S a b) -> Forall2 R l l' -> Forall2 S l l'.
Proof. induction 2; constructor; auto. Qed.
Fixpoint keep {A} (l : list A) (bs : list bool) : list A :=
  match l, bs with
  | x :: l, b :: bs => if b then x :: keep l bs else keep l bs
  | _, _ => []
  end.
Lemma keep_map {A B} (f : A -> B) l bs : keep (map f l) bs = map f (keep l bs).
Proof. revert bs; induction l as [|x l IH]; intros [|b bs]; cbn; try reflexivity. destruct b; cbn; rewrite IH; reflexivity. Qed.

Definition look_path (p : bytes) (b : bool) : trace :=
  [(LICENSE_SPECIFIED, firstn 1024 (cstr p)); (if b then LICENSE_FOUND else LICENSE_FILE_NOT_FOUND, firstn 1024 (cstr p))].
Lemma filter_files w l x r t fs r' t' : filter_existing_files w l x r t = Ok ((fs, r'), t') ->
  t <= t' /\ exists bs, Forall2 (fun p b => exists i, t <= i < t' /\ w_good w i (cstr p) = b) l bs /\ fs = keep l bs /\
    grown r (zip_with look_path l bs) r'.
Proof.
  revert r t fs r'; induction l as [|p l IH]; intros r t fs r'; cbn [filter_existing_files].
  - intros H. apply mret_ok in H as [[= -> ->] ->]. split; [lia|]. exists []. split; [constructor|]. split; [reflexivity|apply grown_refl].
  - intros H. apply mbind_ok in H as [r1 [t1 [H1 H]]]. apply mlift_ok in H1 as [H1 ->].
    apply mbind_ok in H as [g [t2 [H2 H]]]. unfold m_good in H2. injection H2 as <- <-.
    apply mbind_ok in H as [r2 [t3 [H3 H]]]. apply mlift_ok in H3 as [H3 ->].
    apply mbind_ok in H as [[fs' r3] [t4 [H4 H]]]. apply mret_ok in H as [[= -> ->] ->].
    destruct (IH _ _ _ _ H4) as [Ht [bs [Hf [-> Hh]]]]. split; [lia|]. exists (w_good w t (cstr p) :: bs). split; [|split].
    + constructor; [exists t; split; [lia|reflexivity]|]. eapply Forall2_impl; [|exact Hf]. intros q b [i [Hi Hb]]. exists i. split; [lia|exact Hb].
    + cbn [keep]. destruct (w_good w t (cstr p)); reflexivity.
    + cbn [zip_with]. eapply grown_trans; [|exact Hh]. change (look_path p ?b) with ([(LICENSE_SPECIFIED, ref_name (Some p))] ++ [(if b then LICENSE_FOUND else LICENSE_FILE_NOT_FOUND, ref_name (Some p))]).
      eapply grown_trans; eapply grown_add; eassumption.
Qed.

(** ** locations *)
Lemma string_of_array_text a n s : string_of_array a n = Ok s -> s = cstr (firstn n a).
Proof.
  unfold string_of_array. intros H. apply rbind_ok in H as [k [H [= <-]]]. revert n k H.
  induction a as [|c a IH]; intros n k; cbn [mstrnlen_s]; [discriminate|]. destruct (Ascii.eqb c NUL) eqn:E.
  - intros [= <-]. cbn [firstn]. destruct n; [reflexivity|]. cbn [firstn]. unfold cstr. cbn [span]. rewrite E. reflexivity.
  - destruct n; [intros [= <-]; reflexivity|]. intros H. apply rbind_ok in H as [k' [H [= <-]]]. cbn [firstn]. unfold cstr. cbn [span]. rewrite E. cbn [negb].
    rewrite (IH _ _ H). unfold cstr. destruct (span _ (firstn n a)). reflexivity.
Qed.
Lemma join_in sep c p ps : In p ps -> In c p -> In c (join sep ps).
Proof.
  induction ps as [|q ps IH]; intros Hin Hc; [destruct Hin|]. destruct ps as [|q' ps]; cbn [join].
  - destruct Hin as [->|[]]. exact Hc.
  - apply in_or_app. destruct Hin as [->|Hin]; [left; exact Hc|]. right. right. apply IH; assumption.
Qed.
Lemma split_chars s sep p c : In p (split_string s sep) -> In c p -> In c s.
Proof.
  intros Hp Hc. destruct (split_string_sound s sep) as [_ [[Hs _]|[_ Hs]]]; rewrite Hs; [|apply in_or_app; left]; eapply join_in; eassumption.
Qed.
Lemma nul_free_in s : nul_free s <-> ~ In NUL s.
Proof.
  unfold nul_free. rewrite forallb_forall. split.
  - intros H Hin. apply H in Hin. discriminate.
  - intros H c Hc. unfold nonnul. apply negb_true_iff, Ascii.eqb_neq. intros ->. exact (H Hc).
Qed.
Lemma split_nul_free s sep p : nul_free s -> In p (split_string s sep) -> cstr p = p.
Proof. intros H Hp. apply cstr_id, nul_free_in. intros Hc. eapply nul_free_in in H. apply H. eapply split_chars; eassumption. Qed.
Lemma pieces_nul_free s sep p : nul_free s -> In p (pieces sep s) -> cstr p = p.
Proof. rewrite pieces_eq. apply split_nul_free. Qed.

Lemma Forall2_map_l {A B C} (f : A -> B) (R : B -> C -> Prop) l l' : Forall2 (fun a c => R (f a) c) l l' -> Forall2 R (map f l) l'.
Proof. induction 1; constructor; assumption. Qed.
Lemma map_sid_file l : map sid (map SFile l) = l.
Proof. rewrite map_map. apply map_id. Qed.

Lemma hint_size : exists n, HINT_SIZE = S n.
Proof. exists (N.to_nat 4095). unfold HINT_SIZE. rewrite <- N2Nat.inj_succ. reflexivity. Qed.
Lemma max_size : MAX_LICENSE_DATA = HINT_SIZE.
Proof. vm_compute. reflexivity. Qed.
Lemma hint_text c data : Ascii.eqb c NUL = false -> exists x y, cstr (firstn HINT_SIZE (c :: data)) = x :: y.
Proof. intros Ec. destruct hint_size as [n ->]. cbn [firstn]. unfold cstr. cbn [span]. rewrite Ec. cbn [negb]. destruct (span _ _). cbn. eauto. Qed.
Lemma hint_none c data : Ascii.eqb c NUL = true -> cstr (firstn HINT_SIZE (c :: data)) = [].
Proof. intros Ec. destruct hint_size as [n ->]. cbn [firstn]. unfold cstr. cbn [span]. rewrite Ec. reflexivity. Qed.
Local Opaque HINT_SIZE MAX_LICENSE_DATA.
Definition look (announce : bool) (s : source) (b : bool) : trace :=
  match s with
  | SFile _ | SNamed _ _ => about s ((if announce then [LICENSE_SPECIFIED] else []) ++ [if b then LICENSE_FOUND else LICENSE_FILE_NOT_FOUND])
  | SText _ _ | SEncoded _ _ => []
  end.
Lemma zip_map {A B C D} (f : A -> B) (g : B -> C -> list D) l l' : zip_with g (map f l) l' = zip_with (fun a => g (f a)) l l'.
Proof. revert l'; induction l as [|a l IH]; intros [|c l']; cbn; try reflexivity. rewrite IH. reflexivity. Qed.
Lemma zip_ext {A B C} (f g : A -> B -> list C) l l' : (forall a b, f a b = g a b) -> zip_with f l l' = zip_with g l l'.
Proof. intros H. revert l'; induction l as [|a l IH]; intros [|c l']; cbn; try reflexivity. rewrite H, IH. reflexivity. Qed.
Lemma locations_ok w l r t ids r' t' : license_locations w l r t = Ok ((ids, r'), t') ->
  t <= t' /\ exists bs, Forall2 (checked w t t') (locator_sources w l) bs /\ ids = map sid (keep (locator_sources w l) bs) /\
    grown r (g_news (group_of w l) ++ zip_with (look (g_announce (group_of w l))) (locator_sources w l) bs) r'.
Proof.
  unfold locator_sources. destruct l as [| | |h]; cbn [license_locations group_of g_sources g_announce g_news].
  - unfold module_sources, get_module_name. destruct (w_module w) as [link|].
    + change (MAX_PATH - 1) with 1023. unfold module_license. rewrite (stem_eq (cstr (firstn 1023 link))). set (p := remove_extension (cstr (firstn 1023 link)) ++ LICENSE_EXT).
      change (remove_extension (cstr (firstn 1023 link)) ++ bs ".lic") with p. intros H.
      apply mbind_ok in H as [g [t1 [H1 H]]]. unfold m_good in H1. injection H1 as Hg <-. destruct g.
      * apply mbind_ok in H as [r1 [t2 [H2 H]]]. apply mlift_ok in H2 as [H2 ->]. apply mret_ok in H as [[= -> ->] ->]. split; [lia|].
        exists [true]. split; [repeat constructor; exists t; split; [lia|exact Hg]|]. split; [reflexivity|]. eapply (grown_add _ (Some p)), H2.
      * apply mbind_ok in H as [r1 [t2 [H2 H]]]. apply mlift_ok in H2 as [H2 ->]. apply mret_ok in H as [[= -> ->] ->]. split; [lia|].
        exists [false]. split; [repeat constructor; exists t; split; [lia|exact Hg]|]. split; [reflexivity|]. eapply (grown_add _ (Some p)), H2.
    + intros H. apply mret_ok in H as [[= -> ->] ->]. split; [lia|]. exists []. split; [constructor|]. split; [reflexivity|apply grown_refl].
  - unfold location_sources. change (env_set w LICENSE_LOCATION_VAR) with (variable w LOCATION). destruct (variable w LOCATION) as [v|] eqn:Ev.
    + intros H. apply filter_files in H as [Ht [bs [Hf [-> Hh]]]]. rewrite <- (pieces_eq ";"%char v) in *. split; [exact Ht|]. exists bs. split; [apply Forall2_map_l; exact Hf|].
      split; [rewrite keep_map, map_sid_file; reflexivity|]. rewrite zip_map. exact Hh.
    + intros H. apply mbind_ok in H as [r1 [t1 [H1 H]]]. apply mlift_ok in H1 as [H1 ->]. apply mret_ok in H as [[= -> ->] ->]. split; [lia|]. exists [].
      split; [constructor|]. split; [reflexivity|]. eapply (grown_add _ None), H1.
  - unfold data_sources. change (env_set w LICENSE_DATA_VAR) with (variable w DATA). destruct (variable w DATA) as [v|] eqn:Ev.
    + intros H. apply mbind_ok in H as [r1 [t1 [H1 H]]]. apply mlift_ok in H1 as [H1 ->]. apply grown_add in H1.
      rewrite (looks_eq v). assert (X : identify_format v = FmtUnknown \/ identify_format v <> FmtUnknown) by (destruct (identify_format v); auto; right; discriminate).
      destruct X as [X|X].
      * rewrite X in *. apply mbind_ok in H as [r2 [t2 [H2 H]]]. apply mlift_ok in H2 as [H2 ->]. apply mret_ok in H as [[= -> ->] ->]. split; [lia|]. exists [].
        split; [constructor|]. split; [reflexivity|]. cbn [zip_with]. rewrite app_nil_r. eapply (grown_trans _ [_] _ [_]); [exact H1|]. eapply (grown_add _ (Some LOCATION)), H2.
      * destruct (identify_format v) eqn:F; try congruence; apply mret_ok in H as [[= -> ->] ->]; (split; [lia|]); exists [true];
          (split; [repeat constructor|]); (split; [reflexivity|]); exact H1.
    + intros H. apply mbind_ok in H as [r1 [t1 [H1 H]]]. apply mlift_ok in H1 as [H1 ->]. apply mret_ok in H as [[= -> ->] ->]. split; [lia|]. exists [].
      split; [constructor|]. split; [reflexivity|]. eapply (grown_add _ (Some LOCATION)), H1.
  - unfold hint_sources. destruct (loc_data h) as [|c data] eqn:Ed; [cbn; discriminate|]. destruct (Ascii.eqb c NUL) eqn:Ec.
    + intros H. apply mret_ok in H as [[= -> ->] ->]. split; [lia|]. exists []. rewrite (hint_none _ _ Ec).
      split; [constructor|]. split; [reflexivity|apply grown_refl].
    + intros H. apply mbind_ok in H as [r1 [t1 [H1 H]]]. apply mlift_ok in H1 as [H1 ->]. apply grown_add in H1.
      assert (Ht : exists x y, cstr (firstn HINT_SIZE (c :: data)) = x :: y) by (apply hint_text, Ec).
      set (text := cstr (firstn HINT_SIZE (c :: data))) in *. assert (Hnf : nul_free text) by apply cstr_nul_free. destruct Ht as [x [y Ht]].
      assert (Em : forall A (a b : A), match text with [] => a | _ => b end = b) by (intros; rewrite Ht; reflexivity). rewrite !Em.
      destruct (Z.eqb (loc_type h) 0) eqn:E0; [|destruct (Z.eqb (loc_type h) 1) eqn:E1; [|destruct (Z.eqb (loc_type h) 2) eqn:E2]]; cbn [orb] in H.
      * apply mbind_ok in H as [s [t2 [H2 H]]]. apply mlift_ok in H2 as [H2 ->]. apply string_of_array_text in H2. rewrite max_size in H2. fold text in H2. subst s.
        apply filter_files in H as [Ht' [bs [Hf [-> Hh]]]]. rewrite <- (pieces_eq ";"%char text) in *. split; [exact Ht'|]. exists bs.
        set (mk := fun p => if beqb p EXTERNAL then SNamed p text else SFile p).
        split; [apply Forall2_map_l; eapply Forall2_impl; [|exact Hf]; intros p b Hb; unfold mk; destruct (beqb p EXTERNAL); exact Hb|].
        split; [rewrite keep_map, map_map; rewrite <- map_id at 1; apply map_ext; intros p; unfold mk; destruct (beqb p EXTERNAL); reflexivity|].
        rewrite zip_map. erewrite zip_ext; [eapply (grown_trans _ [_]); [exact H1|exact Hh]|]. intros p b. unfold mk. destruct (beqb p EXTERNAL); reflexivity.
      * apply mret_ok in H as [[= -> ->] ->]. split; [lia|]. exists [true]. split; [repeat constructor|]. split; [reflexivity|exact H1].
      * apply mret_ok in H as [[= -> ->] ->]. split; [lia|]. exists [true]. split; [repeat constructor|]. split; [reflexivity|exact H1].
      * cbn in H. discriminate.
Qed.

(** ** contents *)
Lemma entries_same x y f : cstr x = cstr y -> section_entries x f = section_entries y f.
Proof. intros H. unfold section_entries, text_items. rewrite H. reflexivity. Qed.
Lemma cstr_pad s n : cstr (s ++ repeat NUL n) = cstr s.
Proof.
  induction s as [|c s IH]; cbn [app].
  - destruct n; reflexivity.
  - unfold cstr in *. cbn [span]. destruct (negb (Ascii.eqb c NUL)); [|reflexivity].
    destruct (span _ (s ++ repeat NUL n)), (span _ s). cbn in *. congruence.
Qed.
Lemma from_file_ok w p t content t' :
  (f <~ m_file w (cstr p) ;; mlift (get_file_contents f MAX_LICENSE_DATA)) t = Ok (content, t') ->
  t' = S t /\ exists f, w_file w t (cstr p) = Some f /\ cstr content = cstr (firstn (N.to_nat (N.min (f_size f) 4096)) (f_data f)).
Proof.
  intros H. apply mbind_ok in H as [o [t1 [H1 H]]]. unfold m_file in H1. rewrite cstr_cstr in H1. injection H1 as Ho <-. apply mlift_ok in H as [H ->]. split; [reflexivity|].
  rewrite Ho. destruct o as [f|]; cbn [get_file_contents] in H; [|discriminate]. exists f. split; [reflexivity|]. injection H as <-. rewrite cstr_pad. reflexivity.
Qed.
Lemma string_of_vector_ok v s : string_of_vector v = Ok s <-> In NUL v /\ s = cstr v.
Proof.
  unfold string_of_vector. destruct (existsb _ v) eqn:E.
  - apply existsb_exists in E as [c [Hc Ec]]. apply Ascii.eqb_eq in Ec. subst c. split; [intros [= <-]; auto|intros [_ ->]; reflexivity].
  - split; [discriminate|]. intros [H _]. exfalso. rewrite <- not_true_iff_false in E. apply E, existsb_exists. exists NUL. split; [exact H|reflexivity].
Qed.
Lemma retrieve_ok w l s t content t' : In s (locator_sources w l) -> retrieve_license_content w l (cstr (sid s)) t = Ok (content, t') ->
  t <= t' /\ exists c, given w t t' s c /\ forall f, section_entries content f = section_entries c f.
Proof.
  assert (FF : forall p, (f <~ m_file w (cstr p) ;; mlift (get_file_contents f MAX_LICENSE_DATA)) t = Ok (content, t') ->
    t <= t' /\ exists c, given w t t' (SFile p) c /\ forall f, section_entries content f = section_entries c f).
  { intros p H. apply from_file_ok in H as [-> [f [Hf Hc]]]. split; [lia|]. eexists. split; [|intros g; apply entries_same; exact Hc].
    exists t. split; [lia|]. constructor. exact Hf. }
  unfold locator_sources. destruct l as [| | |h]; cbn [group_of g_sources retrieve_license_content].
  - unfold module_sources. destruct (w_module w); [|intros []]. intros [<-|[]]. apply FF.
  - unfold location_sources. destruct (variable w LOCATION); [|intros []]. intros H. apply in_map_iff in H as [p [<- _]]. apply FF.
  - unfold data_sources. change (env_set w LICENSE_DATA_VAR) with (variable w DATA). change LICENSE_LOCATION_VAR with LOCATION. destruct (variable w DATA) as [d|]; [|intros []].
    destruct (w_getenv w LOCATION) as [v|]; [|intros _ H; cbn in H; discriminate]. rewrite (looks_eq d). destruct (identify_format d).
    + intros [<-|[]] H. apply mret_ok in H as [-> ->]. split; [lia|]. exists v. split; [constructor|reflexivity].
    + intros [<-|[]] H. apply mlift_ok in H as [H ->]. split; [lia|]. apply rbind_ok in H as [raw [H1 H2]]. apply string_of_vector_ok in H2 as [H2 ->].
      exists (cstr raw). split; [apply supplies_encoded; assumption|reflexivity].
    + intros [].
  - unfold hint_sources. destruct (cstr (firstn HINT_SIZE (loc_data h))) as [|x y] eqn:Et; [intros []|]. rewrite <- Et. clear x y Et.
    assert (Hnf : nul_free (cstr (firstn HINT_SIZE (loc_data h)))) by apply cstr_nul_free.
    destruct (Z.eqb_spec (loc_type h) 0) as [E0|E0].
    + intros H. apply in_map_iff in H as [p [<- Hp]]. rewrite E0. change (0 =? 2)%Z with false.
      destruct (beqb p EXTERNAL) eqn:Ep; cbn [sid]; rewrite (pieces_nul_free _ _ _ Hnf Hp); change EXTERNAL_NAME with EXTERNAL; rewrite Ep.
      * intros H. apply mbind_ok in H as [s [t1 [H1 H]]]. apply mlift_ok in H1 as [H1 ->]. apply mret_ok in H as [-> ->]. split; [lia|].
        apply string_of_array_text in H1. rewrite max_size in H1. exists (cstr (firstn HINT_SIZE (loc_data h))). split; [constructor|]. rewrite H1. reflexivity.
      * rewrite <- (pieces_nul_free _ _ _ Hnf Hp) at 1. apply FF.
    + destruct (Z.eqb_spec (loc_type h) 1) as [E1|E1]; [|destruct (Z.eqb_spec (loc_type h) 2) as [E2|E2]; [|intros []]].
      * intros [<-|[]] H. cbn [sid] in H. change (beqb (cstr EXTERNAL) EXTERNAL_NAME) with true in H. cbv iota in H. rewrite E1 in H. change (1 =? 2)%Z with false in H.
        apply mbind_ok in H as [s [t1 [H1 H]]]. apply mlift_ok in H1 as [H1 ->]. apply mret_ok in H as [-> ->]. split; [lia|].
        apply string_of_array_text in H1. rewrite max_size in H1. exists (cstr (firstn HINT_SIZE (loc_data h))). split; [constructor|]. rewrite H1. reflexivity.
      * intros [<-|[]] H. cbn [sid] in H. change (beqb (cstr EXTERNAL) EXTERNAL_NAME) with true in H. cbv iota in H.
        apply mbind_ok in H as [s [t1 [H1 H]]]. apply mlift_ok in H1 as [H1 ->]. apply string_of_array_text in H1. rewrite max_size in H1. subst s.
        apply mlift_ok in H as [H ->]. split; [lia|]. apply rbind_ok in H as [raw [H1 H2]]. apply string_of_vector_ok in H2 as [H2 ->].
        exists (cstr raw). split; [apply supplies_encoded; assumption|reflexivity].
Qed.

(** ** reading all sources of a locator *)
Definition licenses (product : bytes) (s : source) (o : option bytes) : list full_license :=
  match o with
  | None => []
  | Some c => let es := section_entries c product in match found es with Some sig => [lic_of product (sid s) es sig] | None => [] end
  end.
Definition is_some {A} (o : option A) : bool := match o with Some _ => true | None => false end.
(** what is recorded while reading *)
Definition read_events (product : bytes) (o : option bytes) : list event_type :=
  match o with
  | None => []
  | Some c => match section_entries c product with
              | [] => [PRODUCT_NOT_LICENSED]
              | es => match found es with Some _ => [PRODUCT_FOUND] | None => [PRODUCT_FOUND; LICENSE_MALFORMED] end
              end
  end.
Definition read_news (product : bytes) (s : source) (o : option bytes) : trace := about s (read_events product o).

Lemma judge_ok product s c r out r' out' : judge product (sid s) (section_entries c product) (r, out) = Ok (r', out') ->
  out' = out ++ licenses product s (Some c) /\ grown r (read_news product s (Some c)) r'.
Proof.
  unfold judge, read_news, read_events, licenses. destruct (section_entries c product) as [|e0 es0] eqn:Ee; intros Hj.
  - apply rbind_ok in Hj as [r2 [Ha [= <- <-]]]. split; [cbn; rewrite app_nil_r; reflexivity|]. apply grown_add in Ha. exact Ha.
  - apply rbind_ok in Hj as [r2 [Ha Hj]]. apply grown_add in Ha. destruct (found (e0 :: es0)) as [sig|].
    + injection Hj as <- <-. split; [reflexivity|exact Ha].
    + apply rbind_ok in Hj as [r3 [Hb [= <- <-]]]. apply grown_add in Hb. split; [rewrite app_nil_r; reflexivity|]. eapply (grown_trans _ [_] _ [_]); eassumption.
Qed.

Lemma read_all_ok w l product ss bs r out t r' out' t' u : incl ss (locator_sources w l) -> u <= t -> Forall2 (checked w u t) ss bs ->
  read_all w l product (map sid (keep ss bs)) (r, out) t = Ok ((r', out'), t') ->
  t <= t' /\ exists os, Forall2 (seen w u t') ss os /\ out' = out ++ zip_with (licenses product) ss os /\ bs = map is_some os /\
    grown r (zip_with (read_news product) ss os) r'.
Proof.
  intros Hi Hu HF. revert r out. assert (Hw : Forall2 (checked w u t) ss bs) by exact HF. clear HF. revert t Hu Hw. revert bs. induction ss as [|s ss IH]; intros bs t Hu HF r out.
  - inversion HF; subst. cbn [keep map read_all]. intros H. apply mret_ok in H as [[= -> ->] ->]. split; [lia|]. exists []. split; [constructor|]. cbn [zip_with]. rewrite app_nil_r.
    split; [reflexivity|]. split; [reflexivity|apply grown_refl].
  - assert (Hi' : incl ss (locator_sources w l)) by (intros x Hx; apply Hi; right; exact Hx).
    inversion HF as [|? b ? bs' Hb HF']; subst. cbn [keep]. destruct b.
    + cbn [map read_all]. intros H. apply mbind_ok in H as [[r1 out1] [t1 [H1 H]]]. rewrite read_location_eq in H1.
      apply mbind_ok in H1 as [content [t2 [Hc Hj]]]. apply mlift_ok in Hj as [Hj ->].
      destruct (retrieve_ok w l s t content t2 (Hi s (or_introl eq_refl)) Hc) as [Ht [c [Hg Hes]]].
      rewrite Hes in Hj. apply judge_ok in Hj as [-> Hj].
      assert (HF2 : Forall2 (checked w u t2) ss bs') by (eapply Forall2_impl; [|exact HF']; intros a b0 X; eapply checked_wide; [| |exact X]; lia).
      destruct (IH Hi' bs' t2 ltac:(lia) HF2 _ _ H) as [Ht' [os [Ho [-> [-> Hh]]]]]. split; [lia|]. exists (Some c :: os). split; [|split; [|split]].
      * constructor; [|exact Ho]. split; [eapply given_wide; [| |exact Hg]; lia|eapply checked_wide; [| |exact Hb]; lia].
      * cbn [zip_with]. rewrite app_assoc. reflexivity.
      * reflexivity.
      * cbn [zip_with]. eapply grown_trans; eassumption.
    + intros H. destruct (IH Hi' bs' t Hu HF' _ _ H) as [Ht' [os [Ho [-> [-> Hh]]]]]. split; [exact Ht'|]. exists (None :: os). split; [|split; [|split]].
      * constructor; [|exact Ho]. destruct s; cbn [checked] in Hb; try discriminate; destruct Hb as [i [X Y]]; exists i; (split; [lia|exact Y]).
      * reflexivity.
      * reflexivity.
      * exact Hh.
Qed.

Lemma zip_app {A B C} (f : A -> B -> list C) l1 l1' l2 l2' : length l1 = length l1' -> zip_with f (l1 ++ l2) (l1' ++ l2') = zip_with f l1 l1' ++ zip_with f l2 l2'.
Proof. revert l1'; induction l1 as [|a l1 IH]; intros [|b l1'] H; try discriminate; [reflexivity|]. cbn. rewrite IH by (injection H as H; exact H). apply app_assoc. Qed.
Lemma Forall2_len {A B} (R : A -> B -> Prop) l l' : Forall2 R l l' -> length l = length l'.
Proof. induction 1; cbn; congruence. Qed.
Lemma zip_map_r {A B C D} (f : C -> B) (g : A -> B -> list D) l l' : zip_with g l (map f l') = zip_with (fun a c => g a (f c)) l l'.
Proof. revert l'; induction l as [|a l IH]; intros [|c l']; cbn; try reflexivity. rewrite IH. reflexivity. Qed.

Definition reading_trace (product : bytes) (g : group) (os : list (option bytes)) : trace :=
  g_news g ++ zip_with (fun s o => look (g_announce g) s (is_some o)) (g_sources g) os ++ zip_with (read_news product) (g_sources g) os.
Lemma read_locators_ok w product ls r out t r' out' t' : read_locators w ls product (r, out) t = Ok ((r', out'), t') ->
  t <= t' /\ exists oss, Forall2 (fun g os => Forall2 (seen w t t') (g_sources g) os) (map (group_of w) ls) oss /\
    out' = out ++ zip_with (licenses product) (flat_map g_sources (map (group_of w) ls)) (concat oss) /\
    grown r (zip_with (reading_trace product) (map (group_of w) ls) oss) r'.
Proof.
  revert r out t; induction ls as [|l ls IH]; intros r out t; cbn [read_locators flat_map map].
  - intros H. apply mret_ok in H as [[= -> ->] ->]. split; [lia|]. exists []. split; [constructor|]. cbn [zip_with]. rewrite app_nil_r. split; [reflexivity|apply grown_refl].
  - intros H. apply mbind_ok in H as [[ids r1] [t1 [H1 H]]]. apply mbind_ok in H as [[r2 out2] [t2 [H2 H]]].
    apply locations_ok in H1 as [Ht1 [bs [Hb [-> Hh1]]]].
    destruct (read_all_ok w l product (locator_sources w l) bs r1 out t1 r2 out2 t2 t (incl_refl _) Ht1 Hb H2) as [Ht2 [os [Ho [-> [-> Hh2]]]]].
    apply IH in H as [Ht3 [oss [Ho' [-> Hh3]]]]. split; [lia|]. exists (os :: oss). split; [|split].
    + constructor; [eapply Forall2_impl; [|exact Ho]; intros a b; apply seen_wide; lia|].
      eapply Forall2_impl; [|exact Ho']. intros g os' X. eapply Forall2_impl; [|exact X]. intros a b. apply seen_wide; lia.
    + cbn [concat]. rewrite zip_app by (eapply Forall2_len, Ho). rewrite app_assoc. reflexivity.
    + cbn [zip_with]. unfold reading_trace at 1. rewrite zip_map_r in Hh1. eapply grown_trans; [|exact Hh3]. rewrite app_assoc. eapply grown_trans; [exact Hh1|exact Hh2].
Qed.

Definition reading_all (product : bytes) (gs : list group) (oss : list (list (option bytes))) : trace :=
  match gs with [] => [(LICENSE_FILE_NOT_FOUND, bs "UNDEF")] | _ => zip_with (reading_trace product) gs oss end.
Lemma read_licenses_ok w hint product t r out t' : read_licenses w hint product t = Ok ((r, out), t') ->
  t <= t' /\ exists oss, Forall2 (fun g os => Forall2 (seen w t t') (g_sources g) os) (groups w hint) oss /\
    out = zip_with (licenses product) (sources w hint) (concat oss) /\
    grown reg_empty (reading_all product (groups w hint) oss) r.
Proof.
  unfold read_licenses, sources. rewrite groups_eq. destruct (get_active_strategies w hint) as [|l ls] eqn:Eg.
  - intros H. apply mbind_ok in H as [r1 [t1 [H1 H]]]. apply mlift_ok in H1 as [H1 ->]. apply mbind_ok in H as [[r2 b] [t1 [H2 H]]]. apply mlift_ok in H2 as [H2 ->].
    apply mret_ok in H as [[= -> ->] ->]. split; [lia|]. exists []. split; [constructor|]. split; [reflexivity|]. apply grown_add in H1.
    apply (grown_trans _ [_] r1 []); [exact H1|]. eapply grown_raise; [|exact H2]. eapply grown_inv; [apply empty_inv|exact H1].
  - rewrite <- Eg. intros H. apply mbind_ok in H as [[r1 out1] [t1 [H1 H]]]. apply read_locators_ok in H1 as [Ht [oss [Ho [Hout Hh]]]]. cbn [app] in Hout.
    assert (Er : reading_all product (map (group_of w) (get_active_strategies w hint)) oss = zip_with (reading_trace product) (map (group_of w) (get_active_strategies w hint)) oss) by (rewrite Eg; reflexivity).
    rewrite <- Er in Hh. clear Er.
    destruct out1 as [|l1 out1].
    + apply mbind_ok in H as [[r2 b] [t2 [H2 H]]]. apply mlift_ok in H2 as [H2 ->]. apply mret_ok in H as [[= -> ->] ->]. split; [exact Ht|]. exists oss.
      split; [exact Ho|]. split; [exact Hout|]. rewrite <- (app_nil_r (reading_all _ _ _)). eapply grown_trans; [exact Hh|]. eapply grown_raise; [|exact H2]. eapply grown_inv; [apply empty_inv|exact Hh].
    + apply mret_ok in H as [[= -> ->] ->]. split; [exact Ht|]. exists oss. auto.
Qed.
