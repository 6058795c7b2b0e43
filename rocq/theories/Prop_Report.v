(** What the inspector program prints, character by character (C95). *)
From Verif Require Import Base CTypes StringUtils Dates Base64 HwId Registry Ini Network Disks CpuInfo ExecEnv Strategies Locate Licensecc Inspector InspectorMain InspectorOut.
From Verif Require Import P_Base Spec_Strings Spec_Base64 Spec_Dates P_Strings Spec_Ini P_Ini Spec_HwId Spec_Hw Spec_Exec Spec_Cpu Spec_Registry Spec_Acquire Spec_Faults Ex_Acquire P_HwId P_Hw P_Hw2 P_Exec2 P_Text P_Acquire2 Prop_Hw Prop_Acquire Prop_Exec Prop_Inspector Prop_InspectorMain Spec_Report.
From Coq Require Import Lia Permutation.

(** ** Numbers *)
Definition figure (d : N) : ascii := nth (N.to_nat d) (bs "0123456789abcdef") NUL.
Lemma digit_figure d : (d < 16)%N -> digit_char d = figure d.
Proof. intros H. destruct d as [|[[[[|[]|]|[[]|[]|]|]|[[[]|[]|]|[[]|[]|]|]|]|[[[[]|[]|]|[[]|[]|]|]|[[[]|[]|]|[[]|[]|]|]|]|]]; try reflexivity; lia. Qed.
Lemma figure_inj d e : (d < 16)%N -> (e < 16)%N -> figure d = figure e -> d = e.
Proof.
  intros H K. assert (A : forall d, (d < 16)%N -> In (N.to_nat d) (seq 0 16)) by (intros x Hx; apply in_seq; lia). apply A in H. apply A in K. unfold figure. revert H K.
  intros H K E. enough (N.to_nat d = N.to_nat e) by lia. revert H K E. generalize (N.to_nat d) (N.to_nat e). clear. intros i j H K E.
  cbn in H, K. repeat (destruct H as [<-|H]; [repeat (destruct K as [<-|K]; [first [reflexivity|discriminate E]|]); destruct K|]). destruct H.
Qed.
Lemma fold_snoc b ds d : fold_left (fun a d => a * b + d)%N (ds ++ [d]) 0%N = (fold_left (fun a d => a * b + d)%N ds 0 * b + d)%N.
Proof. rewrite fold_left_app. reflexivity. Qed.
Lemma print_loop_spec b f : (2 <= b <= 16)%N -> forall n acc, (n < 2 ^ N.of_nat (S f))%N ->
  exists ds, ds <> [] /\ Forall (fun d => d < b)%N ds /\ (hd 0%N ds = 0%N -> ds = [0%N]) /\ fold_left (fun a d => a * b + d)%N ds 0%N = n /\
    print_loop b (S f) n acc = map figure ds ++ acc.
Proof.
  intros B. induction f as [|f IH]; intros n acc H.
  - assert (n = 0 \/ n = 1)%N as [->| ->] by (change (2 ^ N.of_nat 1)%N with 2%N in H; lia).
    + exists [0%N]. split; [discriminate|]. split; [constructor; [lia|constructor]|]. split; [reflexivity|]. split; [reflexivity|]. cbn [print_loop]. rewrite N.div_0_l, N.mod_0_l by lia. reflexivity.
    + exists [1%N]. split; [discriminate|]. split; [constructor; [lia|constructor]|]. split; [discriminate|]. split; [cbn; lia|]. cbn [print_loop]. rewrite N.div_small, N.mod_small by lia. reflexivity.
  - remember (S f) as f1 eqn:F1. cbn [print_loop]. assert (M : (n mod b < b)%N) by (apply N.mod_lt; lia). assert (D : n = (n / b * b + n mod b)%N) by (rewrite N.mul_comm; apply N.div_mod; lia). destruct (N.eqb_spec (n / b) 0) as [Z|Z].
    + exists [n mod b]%N. split; [discriminate|]. split; [constructor; [exact M|constructor]|]. split; [cbn [hd]; intros ->; reflexivity|]. split; [cbn [fold_left]; rewrite Z in D; lia|]. cbn [map app]. rewrite digit_figure by lia. reflexivity.
    + destruct (IH (n / b)%N (digit_char (n mod b) :: acc)) as [ds [A [Bd [C [E G]]]]].
      { replace (N.of_nat (S f1)) with (N.succ (N.of_nat f1)) in H by lia. rewrite N.pow_succ_r' in H. apply N.div_lt_upper_bound; [lia|]. nia. }
      exists (ds ++ [n mod b]%N). split; [destruct ds; discriminate|]. split; [apply Forall_app; split; [exact Bd|constructor; [exact M|constructor]]|].
      split; [intros X; exfalso; destruct ds as [|d0 ds]; [congruence|]; cbn [app hd] in X; assert (Y : d0 :: ds = [0%N]) by (apply C; exact X); rewrite Y in E; cbn in E; congruence|].
      split; [rewrite fold_snoc, E; symmetry; exact D|]. rewrite G, map_app, <- app_assoc. cbn [map app]. rewrite digit_figure by lia. reflexivity.
Qed.
Lemma print_numeral b n : (2 <= b <= 16)%N -> numeral b n (print_num b n).
Proof.
  intros B. unfold print_num. destruct (print_loop_spec b (N.to_nat (N.log2 n)) B n []) as [ds [A [C [D [E F]]]]].
  - replace (N.of_nat (S (N.to_nat (N.log2 n)))) with (N.succ (N.log2 n)) by lia. destruct (N.eq_dec n 0) as [->|Z]; [reflexivity|]. apply N.log2_spec. lia.
  - exists ds. rewrite F, app_nil_r. unfold figure. auto.
Qed.
Lemma numeral_inj b n n' s : (2 <= b <= 16)%N -> numeral b n s -> numeral b n' s -> n = n'.
Proof.
  intros B [ds [_ [F [_ [E ->]]]]] [ds' [_ [F' [_ [E' X]]]]]. enough (ds = ds') by congruence. clear E E'. revert ds' F' X. induction F as [|d ds H _ IH]; intros ds' F' X.
  - destruct ds'; [reflexivity|discriminate].
  - destruct F' as [|d' ds' H' F']; [discriminate|]. cbn [map] in X. injection X as X Y. f_equal; [apply figure_inj; [lia|lia|exact X]|apply IH; assumption].
Qed.
Lemma numeral_chars b n s : (b <= 16)%N -> numeral b n s -> Forall (fun c => In c (bs "0123456789abcdef")) s.
Proof.
  intros B [ds [_ [F [_ [_ ->]]]]]. induction F as [|d ds H _ IH]; [constructor|]. cbn [map]. constructor; [|exact IH]. apply nth_In. cbn [length bs list_ascii_of_string]. change (length (bs "0123456789abcdef")) with 16. lia.
Qed.

(** ** Streams *)
Lemma on_stream_app s a b : on_stream s (a ++ b) = on_stream s a ++ on_stream s b.
Proof. unfold on_stream. apply flat_map_app. Qed.
Lemma on_items s p a b : on_stream s (flat_map (render p) (a ++ b)) = on_stream s (flat_map (render p) a) ++ on_stream s (flat_map (render p) b).
Proof. rewrite flat_map_app. apply on_stream_app. Qed.
Lemma on_item s p i l : on_stream s (flat_map (render p) (i :: l)) = on_stream s (render p i) ++ on_stream s (flat_map (render p) l).
Proof. cbn [flat_map]. apply on_stream_app. Qed.
Lemma lines_rows p ls : on_stream Cout (map (render_line p) ls) = flat_map (fun l => fst (verdict_rows p l)) ls /\
                        on_stream Cerr (map (render_line p) ls) = flat_map (fun l => snd (verdict_rows p l)) ls.
Proof.
  induction ls as [|[[s|] [|d]] ls [IH1 IH2]]; [split; reflexivity|..]; (split; cbn [map on_stream flat_map render_line verdict_rows fst snd app]; unfold on_stream in IH1, IH2; [rewrite IH1|rewrite IH2]; reflexivity).
Qed.

(** ** The parts *)
Lemma adapter_rows l n i : of_interface l n i -> forall p, interface_rows l n (on_stream Cout (render p i)) /\ on_stream Cerr (render p i) = [].
Proof.
  intros [a [b [c [d [p [q [r [s [u [v [E1 [E2 ->]]]]]]]]]]]] pr. split; [|reflexivity]. exists a, b, c, d, p, q, r, s, u, v. split; [exact E1|]. split; [exact E2|].
  exists (print_num 10 (code a)), (print_num 10 (code b)), (print_num 10 (code c)), (print_num 10 (code d)), (print_num 16 (code p)), (print_num 16 (code q)), (print_num 16 (code r)), (print_num 16 (code s)), (print_num 16 (code u)), (print_num 16 (code v)).
  do 10 (split; [apply print_numeral; lia|]).
  cbn [render on_stream flat_map fst snd joined]. rewrite app_nil_r. unfold row, endl. change (print_num 10 0) with (bs "0"). change (bs "Network adapter [0]: ") with (bs "Network adapter [" ++ bs "0" ++ bs "]: "). change (bs "-") with ["-"%char]. change (bs ":") with [":"%char]. rewrite <- !app_assoc. reflexivity.
Qed.
Lemma net_rows m p : order_ok m -> network_rows m (on_stream Cout (flat_map (render p) (adapters_report m))) /\ on_stream Cerr (flat_map (render p) (adapters_report m)) = [].
Proof.
  intros HO. unfold network_rows. destruct (hw_ifaddrs m) as [l|] eqn:HL.
  - destruct (C76_adapters m l HO HL) as [[N ->]|[names [ND [IN [NE [is [F P]]]]]]].
    + split; [left; split; [exact N|reflexivity]|reflexivity].
    + assert (X : exists names', Permutation names' names /\ Forall2 (of_interface l) names' (adapters_report m)).
      { apply Permutation_sym in P. revert P F. generalize (adapters_report m). clear. intros js P. revert names. induction P as [|i is js P IH|i j is|is js ks P1 IH1 P2 IH2]; intros names F.
        - exists names. auto.
        - inversion F as [|n ? ns ? A B]; subst. destruct (IH _ B) as [ns' [Q G]]. exists (n :: ns'). split; [constructor; exact Q|constructor; assumption].
        - inversion F as [|n ? ns ? A B]; subst. inversion B as [|n' ? ns' ? A' B']; subst. exists (n' :: n :: ns'). split; [constructor|constructor; [assumption|constructor; assumption]].
        - destruct (IH1 _ F) as [n1 [Q1 F1]]. destruct (IH2 _ F1) as [n2 [Q2 F2]]. exists n2. split; [etransitivity; eassumption|exact F2]. }
      destruct X as [names' [Q G]]. split.
      * right. exists names', (map (fun i => on_stream Cout (render p i)) (adapters_report m)). split; [intros ->; apply NE, Permutation_nil, Q|]. split; [eapply Permutation_NoDup; [apply Permutation_sym, Q|exact ND]|].
        split; [intros n; rewrite <- IN; split; apply Permutation_in; [exact Q|apply Permutation_sym, Q]|].
        clear - G. induction G as [|n i ns is A _ [IH1 IH2]]; [split; [constructor|reflexivity]|]. cbn [map]. split; [constructor; [apply (adapter_rows _ _ _ A)|exact IH1]|]. rewrite on_item, IH2. reflexivity.
      * clear - G. induction G as [|n i ns is A _ IH]; [reflexivity|]. rewrite on_item, IH. rewrite (proj2 (adapter_rows _ _ _ A p)). reflexivity.
  - unfold adapters_report. rewrite HL. cbn. split; reflexivity.
Qed.
Lemma processor_rows c p : cpu_rows c (on_stream Cout (render p (cpu_report c))).
Proof.
  exists (get_cpu_vendor c), (get_cpu_brand c), (print_num 10 (if is_hypervisor_set c then 1 else 0)%N), (print_num 16 (cpu_model c)).
  split; [apply C60_vendor|]. split; [apply C60_brand|]. split; [destruct (is_hypervisor_set c); [right|left]; reflexivity|].
  split; [intros A; rewrite <- (C60_hypervisor c A); destruct (is_hypervisor_set c); cbn; split; congruence|].
  split; [exists (cpu_model c); split; [apply print_numeral; lia|intros A i; apply C60_model, A]|].
  cbn [render cpu_report on_stream flat_map fst snd]. rewrite app_nil_r. unfold row, endl. rewrite <- !app_assoc. reflexivity.
Qed.
Lemma dmi_report_rows x i p : dmi_report x = Ok i -> ~ bad_dmi x /\ on_stream Cout (render p i) = dmi_rows x /\ on_stream Cerr (render p i) = [].
Proof.
  unfold dmi_report. intros H. apply rbind_ok in H as [d [H E]]. injection E as <-. destruct (read_dmi_eq x) as [A B]. assert (N : ~ bad_dmi x) by (intros Q; rewrite (A Q) in H; discriminate).
  split; [exact N|]. rewrite (B N) in H. injection H as <-. split; [|reflexivity]. cbn [render on_stream flat_map fst snd dmi_bios_vendor dmi_bios_description dmi_sys_vendor]. rewrite app_nil_r. unfold dmi_rows, row, endl. change (print_num 10 0) with (bs "0"). rewrite <- !app_assoc. reflexivity.
Qed.
Lemma one_file_rows w q i : reported w q i -> about_file i = true -> file_rows w q (on_stream Cout (render (w_project w) i)) (on_stream Cerr (render (w_project w) i)).
Proof.
  intros [t [[A ->]|[A [lo [t1 [c [ls [t2 [H ->]]]]]]]]] _.
  - cbn [render on_stream flat_map fst snd]. rewrite (app_nil_r (_ ++ _)). eapply fr_missing, A.
  - cbn [render]. destruct (lines_rows (w_project w) ls) as [-> ->]. eapply fr_verified; eassumption.
Qed.
Lemma all_files_rows w l is : Forall2 (reported w) l is -> forallb about_file is = true ->
  files_rows w l (on_stream Cout (flat_map (render (w_project w)) is)) (on_stream Cerr (flat_map (render (w_project w)) is)).
Proof.
  induction 1 as [|q i l is A _ IH]; [intros _; constructor|]. cbn [forallb]. intros H. apply andb_true_iff in H as [H1 H2]. rewrite !on_item. constructor; [apply one_file_rows; assumption|apply IH, H2].
Qed.

(** the files named by the argument; the variable, and the files it names *)
Definition argument (args : list bytes) : list bytes := match args with [f] => [f] | _ => [] end.
Definition variable (w : world) : option bytes := match w_getenv w (bs "LICENSE_LOCATION") with Some (c :: r) => Some (c :: r) | _ => None end.
Definition variable_row (w : world) : bytes :=
  if w_with_env w then
    match variable w with
    | Some v => row "environment variable [LICENSE_LOCATION] value [" (v ++ bs "]")
    | None => row "environment variable [LICENSE_LOCATION] configured but not defined." []
    end
  else [].
Definition variable_files (w : world) : list bytes :=
  if w_with_env w then match variable w with Some v => pieces ";"%char v | None => [] end else [].

(** On a machine that stays the same, all of standard output and of standard error. *)
Theorem C95_output w g buf args t out err t' m : (forall i, w_machine w i = m) -> order_ok m -> hash_orders (hw_exec m) -> length buf = 20 ->
  inspector_program w g buf args t = Ok ((out, err), t') ->
  exists x a b c d tv td tc net cpu out1 err1 out2 err2,
    (answer w m (-1) a x /\ answer w m 0 b x /\ answer w m 1 c x /\ answer w m 2 d x) /\
    (exists v, summary_found (hw_exec m) v /\ virt_word v tv) /\ (exists v, detail_found (hw_exec m) v /\ detail_word v td) /\ (exists v, cloud_found (hw_exec m) v /\ cloud_word v tc) /\
    network_rows m net /\ cpu_rows (xf_cpu (hw_exec m)) cpu /\ ~ bad_dmi (hw_exec m) /\
    files_rows w (argument args) out1 err1 /\ files_rows w (variable_files w) out2 err2 /\
    out = id_row "DEFAULT" a ++ id_row "MAC" b ++ id_row "IP" c ++ id_row "Disk" d ++
          row "Virtualiz. class :" tv ++ row "Virtualiz. detail:" td ++ row "Cloud provider   :" tc ++
          net ++ cpu ++ dmi_rows (hw_exec m) ++ row "==================" [] ++ out1 ++ variable_row w ++ out2 /\
    err = err1 ++ err2.
Proof.
  intros HM HO HH L H. unfold inspector_program in H. apply mbind_ok in H as [items [t1 [H E]]]. apply mret_ok in E as [E ->]. injection E as -> ->. pose proof H as H0.
  destruct (C76_environment _ _ _ _ _ _ _ _ HM HH L H) as [v [vd [cl [s [S1 [S2 [S3 [S4 [tv [td [tc [-> [W1 [W2 [W3 _]]]]]]]]]]]]]]].
  destruct (C76_identifiers _ _ _ _ _ _ _ _ HM HO L H) as [x [a [b [c [d [tail [EI [AN _]]]]]]]].
  apply main_inv in H as [ids [info [t2 [env [dmi [rest [H1 [HE [HD [[fa [fb [t3 [HA [HB ->]]]]] EQ]]]]]]]]]]. rewrite HM in EQ, HD. rewrite HM in EQ.
  assert (LI : length ids = 4) by (destruct (id_lines_spec w m _ HM None buf None t ids info t2 L (fun e Q => ltac:(discriminate)) H1) as [? [F _]]; clear - F; unfold id_strategies in F; repeat (match goal with X : Forall2 _ _ _ |- _ => inversion X; subst; clear X end); reflexivity).
  rewrite EI in EQ. destruct ids as [|i0 [|i1 [|i2 [|i3 [|]]]]]; try discriminate LI. cbn [app] in EQ. injection EQ as <- <- <- <- EQ. subst tail. rewrite EI in S4. cbn in S4. injection S4 as ->.
  destruct (dmi_report_rows _ _ (w_project w) HD) as [ND [DR DE]].
  set (P := w_project w) in *.
  assert (FA : files_rows w (argument args) (on_stream Cout (flat_map (render P) fa)) (on_stream Cerr (flat_map (render P) fa))).
  { unfold argument. destruct args as [|f [|f2 ar]]; [apply mret_ok in HA as [-> ->]; constructor| |apply mret_ok in HA as [-> ->]; constructor].
    apply mbind_ok in HA as [i [t4 [X Y]]]. apply mret_ok in Y as [-> ->]. apply file_report_spec in X as [X Y]. apply (all_files_rows w [f] [i]); [constructor; [exact X|constructor]|cbn [forallb]; rewrite Y; reflexivity]. }
  assert (FB : exists o2 e2, files_rows w (variable_files w) o2 e2 /\ on_stream Cout (flat_map (render P) fb) = variable_row w ++ o2 /\ on_stream Cerr (flat_map (render P) fb) = e2).
  { unfold variable_files, variable_row, variable. unfold env_set in HB. change LICENSE_LOCATION_VAR with (bs "LICENSE_LOCATION") in HB. destruct (w_with_env w).
    - destruct (w_getenv w (bs "LICENSE_LOCATION")) as [[|c0 r0]|].
      + apply mret_ok in HB as [-> ->]. exists [], []. split; [constructor|]. split; reflexivity.
      + apply mbind_ok in HB as [is [t4 [X Y]]]. apply mret_ok in Y as [-> ->]. apply files_report_spec in X as [X Y]. exists (on_stream Cout (flat_map (render P) is)), (on_stream Cerr (flat_map (render P) is)).
        rewrite pieces_eq. split; [apply all_files_rows; assumption|]. rewrite !on_item. split; [|reflexivity]. f_equal. cbn [render on_stream flat_map fst snd]. rewrite app_nil_r. unfold row, endl. rewrite <- !app_assoc. reflexivity.
      + apply mret_ok in HB as [-> ->]. exists [], []. split; [constructor|]. split; reflexivity.
    - apply mret_ok in HB as [-> ->]. exists [], []. split; [constructor|]. split; reflexivity. }
  destruct FB as [o2 [e2 [FB [FB1 FB2]]]]. destruct (net_rows m P HO) as [NR NE].
  exists x, a, b, c, d, tv, td, tc, (on_stream Cout (flat_map (render P) (adapters_report m))), (on_stream Cout (render P (cpu_report (xf_cpu (hw_exec m))))), (on_stream Cout (flat_map (render P) fa)), (on_stream Cerr (flat_map (render P) fa)), o2, e2.
  split; [exact AN|]. split; [exists v; auto|]. split; [exists vd; auto|]. split; [exists cl; auto|]. split; [exact NR|]. split; [apply processor_rows|]. split; [exact ND|]. split; [exact FA|]. split; [exact FB|]. split.
  - rewrite EI. rewrite !on_item, on_items, !on_item, on_items, FB1, DR.
    assert (ID : forall n o, on_stream Cout (render P (IdLine (bs n) o)) = id_row n o) by (intros n [id|]; cbn [render on_stream flat_map fst snd id_row]; rewrite app_nil_r; unfold row, endl; cbn [app]; rewrite <- ?app_assoc; reflexivity).
    assert (EV : on_stream Cout (render P (EnvLines tv td tc)) = row "Virtualiz. class :" tv ++ row "Virtualiz. detail:" td ++ row "Cloud provider   :" tc) by (cbn [render on_stream flat_map fst snd]; rewrite app_nil_r; unfold row, endl; rewrite <- !app_assoc; reflexivity).
    assert (SP : on_stream Cout (render P Separator) = row "==================" []) by reflexivity.
    rewrite EV, SP. rewrite <- (ID "DEFAULT"%string a), <- (ID "MAC"%string b), <- (ID "IP"%string c), <- (ID "Disk"%string d). rewrite <- !app_assoc. reflexivity.
  - rewrite EI. rewrite !on_item, on_items, !on_item, on_items, FB2, DE, NE.
    assert (ID : forall n o, on_stream Cerr (render P (IdLine n o)) = []) by (intros n [id|]; reflexivity). rewrite !ID. reflexivity.
Qed.
Print Assumptions C95_output.

(** ** The identifiers can be cut out of the text *)
Lemma fields_row a b : ~ In LF a -> fields (Ascii.eqb LF) (a ++ LF :: b) = a :: fields (Ascii.eqb LF) b.
Proof.
  induction a as [|c a IH]; intros H; [reflexivity|]. cbn [app fields]. destruct (Ascii.eqb_spec LF c) as [Q|]; [exfalso; apply H; left; symmetry; exact Q|]. rewrite IH by (intros Q; apply H; right; exact Q). reflexivity.
Qed.
Lemma answer_text w m z id x : answer w m z (Some id) x -> length id = 14 /\ ~ In LF id.
Proof.
  intros A. destruct (A (repeat NUL 20) eq_refl) as [f [b' [R E]]]. destruct f; [|discriminate]. injection E as ->. rewrite identify_pc_eq in R. apply rbind_ok in R as [[[f b] s] [R Q]]. apply rbind_ok in Q as [e [_ Q]]. injection Q as -> -> -> _.
  rewrite buffer_cases in R by reflexivity. destruct (generate_user_pc_signature _ m z) as [id| | |] eqn:G; try discriminate. injection R as <-. destruct (generate_text _ _ _ _ G) as [N L]. rewrite cstr_app_nul by exact N. split; [exact L|].
  apply generate_user_in in G as [s' [s'' [ids [h [_ [_ [_ [_ [_ P]]]]]]]]]. destruct (hw_print_format _ _ P) as [a [b [c [-> [_ [_ [_ F]]]]]]]. apply Forall_app in F as [Fa F]. apply Forall_app in F as [Fb Fc]. rewrite Forall_forall in Fa, Fb, Fc.
  intros Q. apply in_app_or in Q as [Q|[Q|Q]]; [apply Fa in Q; vm_compute in Q; intuition discriminate|discriminate|]. apply in_app_or in Q as [Q|[Q|Q]]; [apply Fb in Q; vm_compute in Q; intuition discriminate|discriminate|]. apply in_app_or in Q as [Q|[Q|[]]]; [apply Fc in Q; vm_compute in Q; intuition discriminate|discriminate].
Qed.
(** The first four lines of standard output name the strategies; what follows the colon is
    accepted as an identifier of this machine, unless it is "NA". *)
Theorem C95_identifiers w g buf args t out err t' m : (forall i, w_machine w i = m) -> order_ok m -> hash_orders (hw_exec m) -> length buf = 20 ->
  inspector_program w g buf args t = Ok ((out, err), t') ->
  forall k label, In (k, label) [(0, "DEFAULT:"); (1, "MAC:"); (2, "IP:"); (3, "Disk:")]%string ->
  exists text, nth_error (fields (Ascii.eqb LF) out) k = Some (bs label ++ text) /\
    (text = bs " NA" \/ length text = 14 /\ validate_pc_signature m text = Ok LICENSE_OK).
Proof.
  intros HM HO HH L H. destruct (C95_output _ _ _ _ _ _ _ _ _ HM HO HH L H) as [x [a [b [c [d [tv [td [tc [net [cp [o1 [e1 [o2 [e2 [[A [B [C D]]] [_ [_ [_ [_ [_ [_ [_ [_ [-> _]]]]]]]]]]]]]]]]]]]]]]]].
  pose (ans := fun o : option bytes => match o with Some id => bs ":" ++ id | None => bs ": NA" end).
  assert (IR : forall n o, id_row n o = (bs n ++ ans o) ++ LF :: []) by (intros n [id|]; unfold id_row, row, ans; rewrite <- !app_assoc; reflexivity).
  assert (NL : forall z o, answer w m z o x -> ~ In LF (ans o)).
  { intros z [id|] Q X; unfold ans in X; [|cbn in X; intuition discriminate]. apply answer_text in Q as [_ Q]. destruct X as [X|X]; [discriminate|apply Q, X]. }
  assert (OK : forall z o, answer w m z o x -> exists text, ans o = ":"%char :: text /\ (text = bs " NA" \/ length text = 14 /\ validate_pc_signature m text = Ok LICENSE_OK)).
  { intros z [id|] Q; unfold ans; [|exists (bs " NA"); split; [reflexivity|left; reflexivity]]. exists id. split; [reflexivity|]. right. split; [apply (answer_text _ _ _ _ _ Q)|].
    destruct (Q (repeat NUL 20) eq_refl) as [f [b' [R E]]]. destruct f; [|discriminate]. injection E as ->. eapply (C29_generated_id_validates _ m m); [exact HO|exact HO|repeat split|..|exact R]. reflexivity. }
  assert (G : forall n z o q, answer w m z o x -> ~ In LF (bs n) -> fields (Ascii.eqb LF) (id_row n o ++ q) = (bs n ++ ans o) :: fields (Ascii.eqb LF) q).
  { intros n z o q Q X. rewrite IR, <- app_assoc. cbn [app]. apply fields_row. intros Y. apply in_app_or in Y as [Y|Y]; [apply X, Y|apply (NL _ _ Q Y)]. }
  rewrite (G "DEFAULT"%string _ _ _ A), (G "MAC"%string _ _ _ B), (G "IP"%string _ _ _ C), (G "Disk"%string _ _ _ D) by (cbn; intuition discriminate).
  intros k label I. cbn [In] in I. destruct I as [I|[I|[I|[I|[]]]]]; injection I as <- <-; cbn [nth_error].
  - destruct (OK _ _ A) as [text [E K]]. exists text. rewrite E. split; [reflexivity|exact K].
  - destruct (OK _ _ B) as [text [E K]]. exists text. rewrite E. split; [reflexivity|exact K].
  - destruct (OK _ _ C) as [text [E K]]. exists text. rewrite E. split; [reflexivity|exact K].
  - destruct (OK _ _ D) as [text [E K]]. exists text. rewrite E. split; [reflexivity|exact K].
Qed.
Print Assumptions C95_identifiers.

(** ** The addresses can be read back *)
Lemma cut_at (P : ascii -> Prop) x a b a' b' : Forall P a -> Forall P a' -> ~ P x -> a ++ x :: b = a' ++ x :: b' -> a = a' /\ b = b'.
Proof.
  intros F. revert a'. induction F as [|c a H F IH]; intros a' F' N E.
  - destruct F' as [|c' a' H' F']; cbn [app] in E; [injection E as E; auto|]. injection E as -> _. destruct (N H').
  - destruct F' as [|c' a' H' F']; cbn [app] in E; [injection E as <- _; destruct (N H)|]. injection E as <- E. destruct (IH _ F' N E) as [-> ->]. auto.
Qed.
Lemma code_inj a b : code a = code b -> a = b.
Proof. unfold code. intros H. rewrite <- (ascii_N_embedding a), <- (ascii_N_embedding b), H. reflexivity. Qed.
Theorem C95_addresses_readable l n l' n' text : interface_rows l n text -> interface_rows l' n' text -> ~ In LF n -> ~ In LF n' ->
  firstn 1024 n = firstn 1024 n' /\ iface_ip l n = iface_ip l' n' /\ iface_mac l n = iface_mac l' n'.
Proof.
  intros [a [b [c [d [p [q [r [s [u [v [I1 [M1 [ta [tb [tc [td [tp [tq [tr [ts [tu [tv [A1 [A2 [A3 [A4 [A5 [A6 [A7 [A8 [A9 [A10 ->]]]]]]]]]]]]]]]]]]]]]]]]]]]]]]]].
  intros [a' [b' [c' [d' [p' [q' [r' [s' [u' [v' [I2 [M2 [ta' [tb' [tc' [td' [tp' [tq' [tr' [ts' [tu' [tv' [B1 [B2 [B3 [B4 [B5 [B6 [B7 [B8 [B9 [B10 E]]]]]]]]]]]]]]]]]]]]]]]]]]]]]]]] N N'.
  unfold row in E. rewrite <- !app_assoc in E. apply app_inv_head in E.
  assert (Q : forall x, ~ In LF x -> Forall (fun c => c <> LF) (firstn 1024 x)).
  { intros x X. apply Forall_forall. intros y Y ->. apply X. rewrite <- (firstn_skipn 1024 x). apply in_or_app. auto. }
  apply (cut_at _ LF _ _ _ _ (Q _ N) (Q _ N')) in E as [E0 E]; [|congruence]. split; [exact E0|]. clear E0 Q.
  apply (app_inv_head (bs "   ip address [")) in E.
  pose proof (fun n s H => numeral_chars 10 n s ltac:(lia) H) as K10. pose proof (fun n s H => numeral_chars 16 n s ltac:(lia) H) as K16.
  apply (cut_at _ "-"%char _ _ _ _ (K10 _ _ A4) (K10 _ _ B4)) in E as [-> E]; [|cbn; intuition discriminate].
  apply (cut_at _ "-"%char _ _ _ _ (K10 _ _ A3) (K10 _ _ B3)) in E as [-> E]; [|cbn; intuition discriminate].
  apply (cut_at _ "-"%char _ _ _ _ (K10 _ _ A2) (K10 _ _ B2)) in E as [-> E]; [|cbn; intuition discriminate].
  apply (cut_at _ "]"%char _ _ _ _ (K10 _ _ A1) (K10 _ _ B1)) in E as [-> E]; [|cbn; intuition discriminate].
  injection E as E.
  apply (cut_at _ ":"%char _ _ _ _ (K16 _ _ A5) (K16 _ _ B5)) in E as [-> E]; [|cbn; intuition discriminate].
  apply (cut_at _ ":"%char _ _ _ _ (K16 _ _ A6) (K16 _ _ B6)) in E as [-> E]; [|cbn; intuition discriminate].
  apply (cut_at _ ":"%char _ _ _ _ (K16 _ _ A7) (K16 _ _ B7)) in E as [-> E]; [|cbn; intuition discriminate].
  apply (cut_at _ ":"%char _ _ _ _ (K16 _ _ A8) (K16 _ _ B8)) in E as [-> E]; [|cbn; intuition discriminate].
  apply (cut_at _ ":"%char _ _ _ _ (K16 _ _ A9) (K16 _ _ B9)) in E as [-> E]; [|cbn; intuition discriminate].
  apply (cut_at _ "]"%char _ _ _ _ (K16 _ _ A10) (K16 _ _ B10)) in E as [-> E]; [|cbn; intuition discriminate].
  rewrite I1, M1, I2, M2.
  pose proof (fun n n' s => numeral_inj 10 n n' s ltac:(lia)) as J10. pose proof (fun n n' s => numeral_inj 16 n n' s ltac:(lia)) as J16.
  rewrite (code_inj _ _ (J10 _ _ _ A1 B1)), (code_inj _ _ (J10 _ _ _ A2 B2)), (code_inj _ _ (J10 _ _ _ A3 B3)), (code_inj _ _ (J10 _ _ _ A4 B4)), (code_inj _ _ (J16 _ _ _ A5 B5)), (code_inj _ _ (J16 _ _ _ A6 B6)), (code_inj _ _ (J16 _ _ _ A7 B7)), (code_inj _ _ (J16 _ _ _ A8 B8)), (code_inj _ _ (J16 _ _ _ A9 B9)), (code_inj _ _ (J16 _ _ _ A10 B10)).
  split; reflexivity.
Qed.
Print Assumptions C95_addresses_readable.

(** ** Standard error *)
Lemma rows_quiet p ls : flat_map (fun l => snd (verdict_rows p l)) ls = [] <-> forall l, In l ls -> snd l = Fine.
Proof.
  induction ls as [|[o [|d]] ls IH]; [split; [intros _ l []|reflexivity]|..].
  - assert (X : snd (verdict_rows p (o, Fine)) = []) by (destruct o; reflexivity). cbn [flat_map]. rewrite X. cbn [app]. rewrite IH. split; [intros H l [<-|Q]; [reflexivity|apply H, Q]|intros H l Q; apply H; right; exact Q].
  - split; [|intros H; specialize (H _ (or_introl eq_refl)); discriminate]. destruct o; discriminate.
Qed.
(** nothing is written there about a file only if it could be opened and every verdict is
    good *)
Theorem C95_quiet w path out err : file_rows w path out err -> err = [] ->
  exists t leftover t1 code ls t2, w_good w t (cstr path) = true /\ inspect w leftover path t1 = Ok ((code, ls), t2) /\ (forall l, In l ls -> snd l = Fine) /\ code = LICENSE_OK /\
    exists rest, out = bs "default project [" ++ w_project w ++ bs "]: license OK" ++ LF :: rest.
Proof.
  intros F E. destruct F as [t A|t lo t1 code ls t2 A B]; [discriminate|]. pose proof (proj1 (rows_quiet _ _) E) as E2. clear E. rename E2 into E. exists t, lo, t1, code, ls, t2. split; [exact A|]. split; [exact B|]. split; [exact E|].
  unfold inspect in B. apply mbind_ok in B as [loc [t3 [_ B]]]. apply mbind_ok in B as [[result info] [t4 [_ B]]]. apply mbind_ok in B as [l [t5 [X B]]]. apply mlift_ok in X as [X _].
  apply mbind_ok in B as [f [t6 [_ B]]]. apply mbind_ok in B as [dd [t7 [_ B]]]. apply mbind_ok in B as [ls' [t8 [_ B]]]. apply mret_ok in B as [Y _]. injection Y as -> ->.
  pose proof (E l (or_introl eq_refl)) as Q. unfold line_for in X. destruct result; try (destruct (event_description _) in X; [injection X as <-; discriminate Q|discriminate X]).
  injection X as <-. split; [reflexivity|]. cbn [flat_map verdict_rows fst]. eexists. rewrite <- !app_assoc. reflexivity.
Qed.
Print Assumptions C95_quiet.

(** ** Everything, for one machine *)
Example C95_case :
  match inspector_program (demo false true NOW files [("LICENSE_LOCATION"%string, bs "/a;/zz")]) (fun _ => fresh 7) (repeat "x"%char 20) [bs "/b"] 0 with
  | Ok ((out, err), _) =>
      out = row "DEFAULT: NA" [] ++ row "MAC:AABh-YmNk-ZWY=" [] ++ row "IP:ACAK-AAEB-Kio=" [] ++ row "Disk: NA" [] ++
            row "Virtualiz. class :No virtualization" [] ++ row "Virtualiz. detail:No virtualization" [] ++ row "Cloud provider   :Provider unknown" [] ++
            row "Network adapter [0]: wlan0" [] ++ row "   ip address [1-1-0-10]" [] ++ row "   mac address [0:0:0:0:0:0]" [] ++
            row "Network adapter [0]: eth0" [] ++ row "   ip address [2-1-0-32]" [] ++ row "   mac address [61:62:63:64:65:66]" [] ++
            row "Cpu Vendor       :GenuineIntel" [] ++ row "Cpu Brand        :NA" [] ++ row "Cpu hypervisor   :0" [] ++ row "Cpu model        :0x246e9" [] ++
            row "Bios vendor      :" [] ++ row "Bios description :" [] ++ row "System vendor    :" [] ++ row "Cpu Vendor (dmi) :" [] ++ row "Cpu Cores  (dmi) :0" [] ++
            row "==================" [] ++ row "project [DEMO]: license OK" [] ++
            row "environment variable [LICENSE_LOCATION] value [/a;/zz]" [] ++ row "project [demo]: license OK" [] /\
      err = row "default project [DEMO]:license signature didn't match with current license " [] ++
            row "default project [DEMO]:license signature didn't match with current license " [] ++ row "license file :/zz not found." []
  | _ => False end.
Proof. vm_compute. split; reflexivity. Qed.
