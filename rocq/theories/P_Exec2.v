(** The execution environment is the one Spec_Exec describes. *)
From Verif Require Import Base CTypes StringUtils HwId Registry Network Disks ExecEnv Strategies Licensecc.
From Verif Require Import P_Base Spec_Strings P_Strings P_Text Spec_Disks P_Disks P_Blkid Spec_Exec P_Hw P_Hw2 P_Hw3 P_Exec.
From Coq Require Import Permutation.

Lemma first256_eq f : get_file_contents f 256 = match first256 f with Some s => Ok s | None => Throw ExRuntime end.
Proof.
  destruct f as [f|]; [|reflexivity]. unfold get_file_contents, first256. cbv zeta. change (N.of_nat 256) with 256%N.
  generalize (N.to_nat (N.min (f_size f) 256)). intros n. f_equal. rewrite firstn_app. f_equal. rewrite firstn_length.
  assert (G : forall k, firstn k (repeat NUL n) = repeat NUL (Nat.min k n)).
  { clear. intros k. revert n; induction k as [|k IH]; intros [|n]; cbn; try reflexivity. rewrite IH. reflexivity. }
  rewrite G. f_equal. lia.
Qed.

Lemma upper_crlf s c r : upper (trimmed s) = r ++ [c] -> is_crlf c = false.
Proof.
  intros H. unfold upper in H.
  assert (E : exists r0 c0, trimmed s = r0 ++ [c0] /\ c = (fun c => let n := N_of_ascii c in if (97 <=? n)%N && (n <=? 122)%N then ascii_of_N (n - 32) else c) c0).
  { destruct (rev (trimmed s)) as [|c0 r0] eqn:E.
    - assert (X : trimmed s = []) by (rewrite <- (rev_involutive (trimmed s)), E; reflexivity). rewrite X in H. destruct r; discriminate H.
    - assert (E' : trimmed s = rev r0 ++ [c0]) by (rewrite <- (rev_involutive (trimmed s)), E; reflexivity). rewrite E' in H. rewrite map_app in H.
      apply app_inj_tail in H as [_ H]. exists (rev r0), c0. split; [exact E'|symmetry; exact H]. }
  destruct E as [r0 [c0 [E ->]]].
  assert (B : blankb c0 = false).
  { unfold trimmed in E. set (u := unlead blankb s) in E. set (p := fun c => blankb c || Ascii.eqb c "000"%char) in E.
    assert (G : forall l, match unlead p l with [] => True | x :: _ => p x = false end).
    { induction l as [|x l IH]; cbn [unlead]; [exact I|]. destruct (p x) eqn:Ep; [exact IH|exact Ep]. }
    specialize (G (rev u)). rewrite <- (rev_involutive (unlead p (rev u))), E, rev_app_distr in G. cbn in G. apply orb_false_iff in G. tauto. }
  revert B. clear. revert c0.
  assert (G : forall c0, implb (negb (blankb c0)) (negb (is_crlf (let n := N_of_ascii c0 in if (97 <=? n)%N && (n <=? 122)%N then ascii_of_N (n - 32) else c0))) = true)
    by (apply byte_sweep; vm_compute; reflexivity).
  intros c0 H. specialize (G c0). rewrite H in G. cbn [negb implb] in G. apply negb_true_iff in G. exact G.
Qed.

Lemma at_back_1 r (c : ascii) : at_back (r ++ [c]) 1 = Ok c.
Proof.
  unfold at_back. rewrite app_length. cbn [length]. destruct (Nat.ltb_spec (length r + 1) 1); [lia|].
  replace (length r + 1 - 1) with (length r) by lia. rewrite nth_error_app2, Nat.sub_diag by lia. reflexivity.
Qed.
Lemma at_back_2 r (a b : ascii) : at_back (r ++ [b; a]) 2 = Ok b.
Proof.
  unfold at_back. rewrite app_length. cbn [length]. destruct (Nat.ltb_spec (length r + 2) 2); [lia|].
  replace (length r + 2 - 2) with (length r) by lia. rewrite nth_error_app2, Nat.sub_diag by lia. reflexivity.
Qed.
Lemma upper_nil s : upper s = [] <-> s = [].
Proof. unfold upper. split; [|intros ->; reflexivity]. destruct s; [reflexivity|discriminate]. Qed.

Lemma read_dmi_eq x : (bad_dmi x -> read_dmi x = Undef UbRead) /\
  (~ bad_dmi x -> read_dmi x = Ok {| dmi_bios_vendor := dmi_text x Vendor; dmi_bios_description := dmi_text x Description; dmi_sys_vendor := dmi_text x RawVendor |}).
Proof.
  unfold read_dmi, bad_dmi. rewrite !first256_eq. cbn [dmi_text].
  assert (D : forall s, trimmed s <> [] -> (lc <-- at_back (upper (trimmed s)) 1 ;; Ok (if is_crlf lc then removelast (upper (trimmed s)) else upper (trimmed s))) = Ok (upper (trimmed s))).
  { intros s Hs. destruct (rev (upper (trimmed s))) as [|c r] eqn:E.
    - exfalso. apply Hs, upper_nil. rewrite <- (rev_involutive (upper (trimmed s))), E. reflexivity.
    - assert (E' : upper (trimmed s) = rev r ++ [c]) by (rewrite <- (rev_involutive (upper (trimmed s))), E; reflexivity).
      rewrite E', at_back_1. cbn [rbind]. rewrite (upper_crlf _ _ _ E'). reflexivity. }
  assert (D0 : forall s, trimmed s = [] -> (lc <-- at_back (upper (trimmed s)) 1 ;; Ok (if is_crlf lc then removelast (upper (trimmed s)) else upper (trimmed s))) = Undef UbRead).
  { intros s ->. reflexivity. }
  assert (V : forall s, 2 <= length s -> (lc <-- at_back s 2 ;; Ok (if is_crlf lc then removelast s else s)) = Ok (untidy (Some s))).
  { intros s Hs. unfold untidy. destruct (rev s) as [|a [|b r]] eqn:E.
    - assert (s = []) by (rewrite <- (rev_involutive s), E; reflexivity). subst; cbn in Hs; lia.
    - assert (s = [a]) by (rewrite <- (rev_involutive s), E; reflexivity). subst; cbn in Hs; lia.
    - assert (E' : s = rev r ++ [b; a]) by (rewrite <- (rev_involutive s), E; cbn; rewrite <- app_assoc; reflexivity).
      rewrite E', at_back_2. cbn [rbind]. unfold is_crlf. destruct (Ascii.eqb b CR || Ascii.eqb b LF); [|reflexivity].
      replace (rev r ++ [b; a]) with ((rev r ++ [b]) ++ [a]) by (rewrite <- app_assoc; reflexivity). rewrite removelast_last. reflexivity. }
  assert (V0 : forall s, length s < 2 -> (lc <-- at_back s 2 ;; Ok (if is_crlf lc then removelast s else s)) = Undef UbRead).
  { intros s Hs. unfold at_back. destruct (Nat.ltb_spec (length s) 2); [reflexivity|lia]. }
  destruct (first256 (xf_sys_vendor x)) as [s1|], (first256 (xf_modalias x)) as [s2|]; cbn [rbind or_empty tidy].
  - rewrite <- !upper_eq, <- !trimmed_eq. split.
    + intros [[s [[= <-] H]]|[s [[= <-] H]]].
      * rewrite D0 by exact H. reflexivity.
      * destruct (list_eq_dec Ascii.ascii_dec (trimmed s2) []) as [H2|H2]; [rewrite D0 by exact H2; reflexivity|].
        rewrite D by exact H2. cbn [or_empty rbind]. rewrite V0 by exact H. reflexivity.
    + intros H. rewrite D by (intros H2; apply H; left; eauto). cbn [or_empty rbind].
      rewrite V by (destruct (Nat.le_gt_cases 2 (length s1)); [assumption|exfalso; apply H; right; eauto]). reflexivity.
  - rewrite <- !upper_eq, <- !trimmed_eq. split.
    + intros [[s [[=] H]]|[s [[= <-] H]]]. rewrite V0 by exact H. reflexivity.
    + intros H. rewrite V by (destruct (Nat.le_gt_cases 2 (length s1)); [assumption|exfalso; apply H; right; eauto]). reflexivity.
  - rewrite <- !upper_eq, <- !trimmed_eq. split.
    + intros [[s [[= <-] H]]|[s [[=] H]]]. rewrite D0 by exact H. reflexivity.
    + intros H. rewrite D by (intros H2; apply H; left; eauto). reflexivity.
  - split; [intros [[s [[=] H]]|[s [[=] H]]]|reflexivity].
Qed.

Lemma make_exec_eq x : (bad_dmi x -> make_exec_env x = Undef UbRead) /\
  (~ bad_dmi x -> make_exec_env x = Ok {| xe_container := get_container_type x;
     xe_dmi := {| dmi_bios_vendor := dmi_text x Vendor; dmi_bios_description := dmi_text x Description; dmi_sys_vendor := dmi_text x RawVendor |}; xe_files := x |}).
Proof.
  unfold make_exec_env. destruct (read_dmi_eq x) as [A B]. split; intros H; [rewrite (A H)|rewrite (B H)]; reflexivity.
Qed.
Lemma make_exec_ok x e : make_exec_env x = Ok e -> e = {| xe_container := get_container_type x;
     xe_dmi := {| dmi_bios_vendor := dmi_text x Vendor; dmi_bios_description := dmi_text x Description; dmi_sys_vendor := dmi_text x RawVendor |}; xe_files := x |}.
Proof.
  intros H. destruct (exec_defined x) as [A B]. unfold readable in A, B. rewrite !first256_eq in A, B.
  assert (K : ~ bad_dmi x).
  { intros [[s [E T]]|[s [E T]]]; rewrite A in H; try discriminate; [left|right]; exists s; rewrite E; split; auto. rewrite <- trimmed_eq. exact T. }
  rewrite (proj2 (make_exec_eq x) K) in H. congruence.
Qed.

(** ** clouds *)
Lemma row_bool x l : existsb (fun p => contains (bs (snd p)) (dmi_text x (fst p))) l = true <-> exists t w, In (t, w) l /\ has (bs w) (dmi_text x t).
Proof.
  rewrite existsb_exists. split.
  - intros [[t w] [A B]]. exists t, w. split; [exact A|apply contains_spec, B].
  - intros [t [w [A B]]]. exists (t, w). split; [exact A|apply contains_spec, B].
Qed.
Fixpoint first_row (x : exec_files) (l : list (cloud * list (text_id * string))) : cloud :=
  match l with
  | [] => PROV_UNKNOWN
  | (c, ws) :: r => if existsb (fun p => contains (bs (snd p)) (dmi_text x (fst p))) ws then c else first_row x r
  end.
Lemma first_row_spec x l : (exists before row after, l = before ++ row :: after /\ row_matches x row /\ fst row = first_row x l /\ forall r, In r before -> ~ row_matches x r) \/
  (first_row x l = PROV_UNKNOWN /\ forall r, In r l -> ~ row_matches x r).
Proof.
  induction l as [|[c ws] l IH]; [right; split; [reflexivity|intros r []]|]. cbn [first_row].
  destruct (existsb _ ws) eqn:E.
  - left. exists [], (c, ws), l. split; [reflexivity|]. split; [apply row_bool in E; exact E|]. split; [reflexivity|intros r []].
  - assert (N : ~ row_matches x (c, ws)) by (intros M; apply row_bool in M; cbn [snd] in M; congruence).
    destruct IH as [[bf [row [af [-> [A [B C]]]]]]|[A B]].
    + left. exists ((c, ws) :: bf), row, af. split; [reflexivity|]. split; [exact A|]. split; [exact B|]. intros r [<-|Hr]; [exact N|apply C, Hr].
    + right. split; [exact A|]. intros r [<-|Hr]; [exact N|apply B, Hr].
Qed.
Lemma first_split_unique {A} (P : A -> Prop) l1 a l2 l1' a' l2' : l1 ++ a :: l2 = l1' ++ a' :: l2' ->
  P a -> P a' -> (forall r, In r l1 -> ~ P r) -> (forall r, In r l1' -> ~ P r) -> a = a' /\ l1 = l1'.
Proof.
  revert l1'; induction l1 as [|b l1 IH]; intros l1' E Ha Ha' H H'; destruct l1' as [|b' l1']; cbn in E; injection E as -> E.
  - split; reflexivity.
  - exfalso. exact (H' b' (or_introl eq_refl) Ha).
  - exfalso. exact (H a' (or_introl eq_refl) Ha').
  - destruct (IH l1' E Ha Ha') as [-> ->]; [intros r Hr; apply H; right; exact Hr|intros r Hr; apply H'; right; exact Hr|]. split; reflexivity.
Qed.
Lemma cloud_found_unique x c c' : cloud_found x c -> cloud_found x c' -> c = c'.
Proof.
  intros [[b [r [a [E [M [<- N]]]]]]|[-> N]] [[b' [r' [a' [E' [M' [<- N']]]]]]|[-> N']].
  - rewrite E in E'. destruct (first_split_unique (row_matches x) _ _ _ _ _ _ E' M M' N N') as [-> _]. reflexivity.
  - exfalso. apply (N' r); [rewrite E; apply in_elt|exact M].
  - exfalso. apply (N r'); [rewrite E'; apply in_elt|exact M'].
  - reflexivity.
Qed.
Lemma contains_nil w : contains (bs w) [] = true -> w = EmptyString.
Proof. destruct w; [reflexivity|]. intros H. discriminate. Qed.
Lemma cloud_spec x e c : make_exec_env x = Ok e -> cloud_provider e = c <-> cloud_found x c.
Proof.
  intros H. apply make_exec_ok in H. subst e.
  assert (E : cloud_provider {| xe_container := get_container_type x; xe_dmi := {| dmi_bios_vendor := dmi_text x Vendor; dmi_bios_description := dmi_text x Description; dmi_sys_vendor := dmi_text x RawVendor |}; xe_files := x |} = first_row x cloud_words).
  { unfold cloud_provider. cbv zeta. cbn [xe_dmi dmi_bios_vendor dmi_bios_description dmi_sys_vendor]. unfold cloud_words. cbn [first_row existsb fst snd].
    rewrite !orb_false_r, !orb_assoc.
    destruct (Nat.ltb 0 (length (dmi_text x Description)) || Nat.ltb 0 (length (dmi_text x Vendor)) || Nat.ltb 0 (length (dmi_text x RawVendor))) eqn:G; [reflexivity|].
    apply orb_false_iff in G as [G G3]. apply orb_false_iff in G as [G1 G2].
    assert (L : forall s : bytes, Nat.ltb 0 (length s) = false -> s = []) by (intros [|? ?]; [reflexivity|discriminate]).
    rewrite (L _ G1), (L _ G2), (L _ G3). reflexivity. }
  rewrite E. assert (F : cloud_found x (first_row x cloud_words)) by apply first_row_spec.
  split; [intros <-; exact F|]. intros F'. eapply cloud_found_unique; eassumption.
Qed.
Lemma in_cloud_spec x e : make_exec_env x = Ok e -> is_cloud e = true <-> in_cloud x.
Proof.
  intros H. unfold is_cloud, in_cloud. pose proof (proj1 (cloud_spec x e _ H) eq_refl) as F. split.
  - intros C. exists (cloud_provider e). split; [exact F|]. destruct (cloud_provider e); try discriminate; split; discriminate.
  - intros [c [Fc [A B]]]. assert (cloud_provider e = c) by (eapply cloud_found_unique; eassumption). subst c. destruct (cloud_provider e); congruence || reflexivity.
Qed.

(** ** details *)
Definition coded (t : list (string * virt_detail)) : list (bytes * virt_detail) := map (fun p => (bs (fst p), snd p)) t.
Lemma vendor_table : vm_vendors = coded vendor_words. Proof. reflexivity. Qed.
Lemma cpu_table : virtual_cpu_names = coded cpu_words. Proof. reflexivity. Qed.
Lemma shows_matches t s v : shows t s v <-> matches (coded t) s v.
Proof.
  unfold shows, matches, coded. split.
  - intros [w [A B]]. exists (bs w). split; [apply in_map_iff; exists (w, v); auto|exact B].
  - intros [k [A B]]. apply in_map_iff in A as [[w v'] [[= <- <-] A]]. exists w. auto.
Qed.
Lemma find_shows (o : list (bytes * virt_detail) -> list (bytes * virt_detail)) t s : (forall l, Permutation (o l) l) -> real_values (coded t) ->
  (find_in_map (o (coded t)) s = BARE_TO_METAL /\ forall v, ~ shows t s v) \/
  (find_in_map (o (coded t)) s <> BARE_TO_METAL /\ shows t s (find_in_map (o (coded t)) s)).
Proof.
  intros P R. destruct (find_matches (o (coded t)) s) as [A B]. destruct (bare (find_in_map (o (coded t)) s)) eqn:E.
  - apply bare_iff in E. left. split; [exact E|]. intros v Hv. apply shows_matches in Hv. apply B in E; [exact E|eapply real_perm; [symmetry; apply P|exact R]|].
    exists v. eapply matches_perm; [symmetry; apply P|exact Hv].
  - assert (N : find_in_map (o (coded t)) s <> BARE_TO_METAL) by (intros X; apply bare_iff in X; congruence). right. split; [exact N|].
    apply shows_matches. eapply matches_perm; [apply P|apply A, N].
Qed.

Fixpoint first_shown (o : list (bytes * virt_detail) -> list (bytes * virt_detail)) (l : list (list (string * virt_detail) * bytes)) (k : virt_detail) : virt_detail :=
  match l with
  | [] => k
  | (t, s) :: r => match find_in_map (o (coded t)) s with BARE_TO_METAL => first_shown o r k | v => v end
  end.
Lemma detail_unfold x e : make_exec_env x = Ok e ->
  virtualization_detail e =
  match first_shown (xf_vendor_order x) [(vendor_words, dmi_text x Description); (vendor_words, dmi_text x Vendor); (vendor_words, dmi_text x RawVendor)]
    (first_shown (xf_cpu_order x) [(cpu_words, xf_cpu_vendor x); (cpu_words, xf_cpu_brand x)] BARE_TO_METAL) with
  | BARE_TO_METAL => if xf_hypervisor x || is_cloud e then V_OTHER else BARE_TO_METAL
  | r => r
  end.
Proof.
  intros H. apply make_exec_ok in H. unfold virtualization_detail. subst e. cbn [xe_files xe_dmi dmi_bios_description dmi_bios_vendor dmi_sys_vendor].
  cbv zeta. cbn [first_shown]. rewrite vendor_table, cpu_table.
  replace (match find_in_map (xf_cpu_order x (coded cpu_words)) (xf_cpu_brand x) with BARE_TO_METAL => BARE_TO_METAL | v => v end)
    with (find_in_map (xf_cpu_order x (coded cpu_words)) (xf_cpu_brand x)) by (destruct (find_in_map _ (xf_cpu_brand x)); reflexivity).
  match goal with |- match ?r with _ => _ end = _ => destruct r end; reflexivity.
Qed.
Lemma first_shown_spec o l k : (forall l, Permutation (o l) l) -> (forall q, In q l -> real_values (coded (fst q))) ->
  (exists before q after, l = before ++ q :: after /\ shows (fst q) (snd q) (first_shown o l k) /\ first_shown o l k <> BARE_TO_METAL /\ forall r v, In r before -> ~ shows (fst r) (snd r) v) \/
  (first_shown o l k = k /\ forall r v, In r l -> ~ shows (fst r) (snd r) v).
Proof.
  intros P. induction l as [|[t s] l IH]; intros R; [right; split; [reflexivity|intros r v []]|].
  cbn [first_shown]. destruct (find_shows o t s P (R (t, s) (or_introl eq_refl))) as [[E N]|[E S]].
  - rewrite E. destruct IH as [[b [q [a [-> [A [A' B]]]]]]|[A B]]; [intros q Hq; apply R; right; exact Hq| |].
    + left. exists ((t, s) :: b), q, a. split; [reflexivity|]. split; [exact A|]. split; [exact A'|]. intros r v [<-|Hr]; [apply N|apply B, Hr].
    + right. split; [exact A|]. intros r v [<-|Hr]; [apply N|apply B, Hr].
  - left. exists [], (t, s), l. split; [reflexivity|]. replace (match find_in_map (o (coded t)) s with BARE_TO_METAL => first_shown o l k | v => v end)
      with (find_in_map (o (coded t)) s) by (destruct (find_in_map (o (coded t)) s); congruence || reflexivity).
    split; [exact S|]. split; [exact E|intros r v []].
Qed.
Lemma vendor_real : real_values (coded vendor_words). Proof. exact vendors_real. Qed.
Lemma cpu_real : real_values (coded cpu_words). Proof. exact cpus_real. Qed.

Lemma detail_sound x e : hash_orders x -> make_exec_env x = Ok e -> detail_found x (virtualization_detail e).
Proof.
  intros [PV PC] H. rewrite (detail_unfold _ _ H).
  set (lv := [(vendor_words, dmi_text x Description); (vendor_words, dmi_text x Vendor); (vendor_words, dmi_text x RawVendor)]).
  set (lc := [(cpu_words, xf_cpu_vendor x); (cpu_words, xf_cpu_brand x)]).
  assert (Hsr : searched x = lv ++ lc) by reflexivity. unfold detail_found. rewrite Hsr.
  assert (RV : forall q, In q lv -> real_values (coded (fst q))) by (intros q [<-|[<-|[<-|[]]]]; apply vendor_real).
  assert (RC : forall q, In q lc -> real_values (coded (fst q))) by (intros q [<-|[<-|[]]]; apply cpu_real).
  destruct (first_shown_spec (xf_vendor_order x) lv (first_shown (xf_cpu_order x) lc BARE_TO_METAL) PV RV) as [[b [q [a [E [A [A' B]]]]]]|[E N]].
  - left. exists b, q, (a ++ lc). rewrite E at 1. rewrite <- app_assoc. split; [reflexivity|]. split; [|exact B].
    destruct (first_shown (xf_vendor_order x) lv _); congruence || exact A.
  - rewrite E. destruct (first_shown_spec (xf_cpu_order x) lc BARE_TO_METAL PC RC) as [[b [q [a [E2 [A [A' B]]]]]]|[E2 N2]].
    + left. exists (lv ++ b), q, a. rewrite E2 at 1. rewrite <- app_assoc. split; [reflexivity|]. split.
      * destruct (first_shown (xf_cpu_order x) lc _); congruence || exact A.
      * intros r v Hr. apply in_app_or in Hr as [Hr|Hr]; [apply N, Hr|apply B, Hr].
    + rewrite E2. right. split; [intros r v Hr; apply in_app_or in Hr as [Hr|Hr]; [apply N, Hr|apply N2, Hr]|].
      destruct (xf_hypervisor x); cbn [orb]; [left; auto|]. pose proof (in_cloud_spec x e H) as C. destruct (is_cloud e).
      * left. split; [reflexivity|]. right. apply C. reflexivity.
      * right. split; [reflexivity|]. split; [reflexivity|]. intros X. apply C in X. discriminate.
Qed.

(** every detail that may be reported is, for some hash order *)
Definition to_front (k : bytes) (v : virt_detail) (l : list (bytes * virt_detail)) : list (bytes * virt_detail) :=
  filter (fun p => beqb (fst p) k && detail_eqb (snd p) v) l ++ filter (fun p => negb (beqb (fst p) k && detail_eqb (snd p) v)) l.
Lemma filter_split_perm {A} (f : A -> bool) l : Permutation (filter f l ++ filter (fun x => negb (f x)) l) l.
Proof.
  induction l as [|a l IH]; [constructor|]. cbn [filter]. destruct (f a); cbn [negb].
  - cbn. constructor. exact IH.
  - symmetry. etransitivity; [|apply Permutation_middle]. constructor. symmetry. exact IH.
Qed.
Lemma to_front_perm k v l : Permutation (to_front k v l) l.
Proof. apply filter_split_perm. Qed.
Lemma detail_eqb_eq a b : detail_eqb a b = true <-> a = b.
Proof. destruct a, b; cbn; split; congruence. Qed.
Lemma to_front_find k v l s : In (k, v) l -> has k s -> find_in_map (to_front k v l) s = v.
Proof.
  intros Hin Hs. unfold to_front. assert (G : exists r, filter (fun p => beqb (fst p) k && detail_eqb (snd p) v) l = (k, v) :: r).
  { destruct (filter (fun p => beqb (fst p) k && detail_eqb (snd p) v) l) as [|[k' v'] r] eqn:E.
    - exfalso. assert (In (k, v) (filter (fun p => beqb (fst p) k && detail_eqb (snd p) v) l)) as X; [|rewrite E in X; destruct X].
      apply filter_In. split; [exact Hin|]. cbn. apply andb_true_iff. split; [apply beqb_eq|apply detail_eqb_eq]; reflexivity.
    - assert (In (k', v') (filter (fun p => beqb (fst p) k && detail_eqb (snd p) v) l)) as X by (rewrite E; left; reflexivity).
      apply filter_In in X as [_ X]. cbn in X. apply andb_true_iff in X as [X1 X2]. apply beqb_eq in X1. apply detail_eqb_eq in X2. subst. eauto. }
  destruct G as [r ->]. cbn. apply contains_spec in Hs. rewrite Hs. reflexivity.
Qed.

Definition reorder (x : exec_files) (ov oc : list (bytes * virt_detail) -> list (bytes * virt_detail)) : exec_files :=
  {| xf_cgroup := xf_cgroup x; xf_systemd := xf_systemd x; xf_sys_vendor := xf_sys_vendor x; xf_modalias := xf_modalias x;
     xf_cpu := xf_cpu x; xf_vendor_order := ov; xf_cpu_order := oc |}.
Lemma first_shown_none o l k : (forall l, Permutation (o l) l) -> (forall q, In q l -> real_values (coded (fst q))) ->
  (forall r v, In r l -> ~ shows (fst r) (snd r) v) -> forall r, first_shown o (l ++ r) k = first_shown o r k.
Proof.
  intros P R N r. induction l as [|[t s] l IH]; [reflexivity|]. cbn [app first_shown].
  destruct (find_shows o t s P (R (t, s) (or_introl eq_refl))) as [[-> _]|[_ S]].
  - apply IH; [intros q Hq; apply R; right; exact Hq|intros q v Hq; apply N; right; exact Hq].
  - exfalso. exact (N (t, s) _ (or_introl eq_refl) S).
Qed.
Lemma same_reorder x ov oc : same_readings x (reorder x ov oc).
Proof. repeat split. Qed.

Lemma detail_complete x v : ~ bad_dmi x -> detail_found x v -> exists x' e', same_readings x x' /\ hash_orders x' /\ make_exec_env x' = Ok e' /\ virtualization_detail e' = v.
Proof.
  intros NB F.
  set (lv := [(vendor_words, dmi_text x Description); (vendor_words, dmi_text x Vendor); (vendor_words, dmi_text x RawVendor)]).
  set (lc := [(cpu_words, xf_cpu_vendor x); (cpu_words, xf_cpu_brand x)]).
  assert (Hsr : searched x = lv ++ lc) by reflexivity.
  assert (RV : forall q, In q lv -> real_values (coded (fst q)) /\ fst q = vendor_words) by (intros q [<-|[<-|[<-|[]]]]; split; try apply vendor_real; reflexivity).
  assert (RC : forall q, In q lc -> real_values (coded (fst q)) /\ fst q = cpu_words) by (intros q [<-|[<-|[]]]; split; try apply cpu_real; reflexivity).
  assert (ID : forall l : list (bytes * virt_detail), Permutation ((fun l => l) l) l) by reflexivity.
  assert (MK : forall ov oc, exists e', make_exec_env (reorder x ov oc) = Ok e') by (intros ov oc; rewrite (proj2 (make_exec_eq (reorder x ov oc)) NB); eauto).
  assert (FIN : forall ov oc, (forall l, Permutation (ov l) l) -> (forall l, Permutation (oc l) l) ->
     (first_shown ov lv (first_shown oc lc BARE_TO_METAL) = v /\ v <> BARE_TO_METAL \/ first_shown ov lv (first_shown oc lc BARE_TO_METAL) = BARE_TO_METAL /\
        ((v = V_OTHER /\ (xf_hypervisor x = true \/ in_cloud x)) \/ (v = BARE_TO_METAL /\ xf_hypervisor x = false /\ ~ in_cloud x))) ->
     exists x' e', same_readings x x' /\ hash_orders x' /\ make_exec_env x' = Ok e' /\ virtualization_detail e' = v).
  { intros ov oc P1 P2 H. destruct (MK ov oc) as [e' E']. exists (reorder x ov oc), e'. split; [apply same_reorder|]. split; [split; assumption|]. split; [exact E'|].
    rewrite (detail_unfold _ _ E'). change (first_shown (xf_vendor_order (reorder x ov oc)) _ _) with (first_shown ov lv (first_shown oc lc BARE_TO_METAL)).
    change (xf_hypervisor (reorder x ov oc)) with (xf_hypervisor x).
    destruct H as [[-> Hv]|[-> H]]; [destruct v; congruence || reflexivity|].
    pose proof (in_cloud_spec _ _ E') as C. change (in_cloud (reorder x ov oc)) with (in_cloud x) in C.
    destruct H as [[-> [->|H]]|[-> [-> H]]]; [reflexivity| |].
    - rewrite (proj2 C H), orb_true_r. reflexivity.
    - destruct (is_cloud e'); [exfalso; apply H, C; reflexivity|reflexivity]. }
  destruct F as [[b [q [a [E [Hs N]]]]]|[N H]]; rewrite Hsr in *.
  - destruct Hs as [w [Hw Hhas]]. assert (Hv : v <> BARE_TO_METAL).
    { assert (In q (lv ++ lc)) as Hq by (rewrite E; apply in_elt). assert (R : real_values (coded (fst q))) by (apply in_app_or in Hq as [Hq|Hq]; [apply RV, Hq|apply RC, Hq]).
      apply (R (bs w)). unfold coded. apply in_map_iff. exists (w, v). auto. }
    assert (K : forall o b q a k, (forall l, Permutation (o l) l) -> (forall q, In q b -> real_values (coded (fst q))) -> (forall r v, In r b -> ~ shows (fst r) (snd r) v) ->
        find_in_map (o (coded (fst q))) (snd q) = v -> first_shown o (b ++ q :: a) k = v).
    { intros o b' [t s] a' k P R N' Hf. rewrite first_shown_none by assumption. cbn [first_shown]. cbn [fst snd] in Hf. rewrite Hf. destruct v; congruence || reflexivity. }
    destruct (Nat.lt_ge_cases (length b) (length lv)) as [L|L].
    + (* among the vendor texts *)
      assert (exists a0, lv = b ++ q :: a0) as [a0 Elv].
      { exists (firstn (length lv - S (length b)) a). rewrite <- (firstn_len lv lc) at 1. rewrite E. rewrite firstn_app, firstn_all2 by lia. f_equal.
        replace (length lv - length b) with (S (length lv - S (length b))) by lia. reflexivity. }
      assert (Hq : In q lv) by (rewrite Elv; apply in_elt). destruct (RV q Hq) as [_ Eq].
      apply (FIN (to_front (bs w) v) (fun l => l)); [apply to_front_perm|exact ID|]. left. split; [|exact Hv]. rewrite Elv. apply K.
      * apply to_front_perm.
      * intros q' Hq'. apply RV. rewrite Elv. apply in_or_app. auto.
      * exact N.
      * apply to_front_find; [|exact Hhas]. unfold coded. apply in_map_iff. exists (w, v). auto.
    + assert (exists b0, b = lv ++ b0 /\ lc = b0 ++ q :: a) as [b0 [Eb Elc]].
      { exists (skipn (length lv) b). assert (lv = firstn (length lv) b) as F1.
        { rewrite <- (firstn_len lv lc) at 1. rewrite E, firstn_app. replace (length lv - length b) with 0 by lia. cbn [firstn]. rewrite app_nil_r. reflexivity. }
        split; [rewrite F1 at 1; symmetry; apply firstn_skipn|]. rewrite <- (skipn_len lv lc) at 1. rewrite E, skipn_app. replace (length lv - length b) with 0 by lia. reflexivity. }
      assert (Hq : In q lc) by (rewrite Elc; apply in_elt). destruct (RC q Hq) as [_ Eq].
      apply (FIN (fun l => l) (to_front (bs w) v)); [exact ID|apply to_front_perm|]. left. split; [|exact Hv].
      rewrite <- (app_nil_r lv). rewrite first_shown_none; [|exact ID|intros q' Hq'; apply RV, Hq'|intros r v' Hr; apply N; rewrite Eb; apply in_or_app; auto]. cbn [first_shown].
      rewrite Elc. apply K.
      * apply to_front_perm.
      * intros q' Hq'. apply RC. rewrite Elc. apply in_or_app. auto.
      * intros r v' Hr. apply N. rewrite Eb. apply in_or_app. auto.
      * apply to_front_find; [|exact Hhas]. unfold coded. apply in_map_iff. exists (w, v). auto.
  - apply (FIN (fun l => l) (fun l => l) ID ID). right. split; [|exact H].
    rewrite <- (app_nil_r lv), first_shown_none; [|exact ID|intros q' Hq'; apply RV, Hq'|intros r v' Hr; apply N; apply in_or_app; auto]. cbn [first_shown].
    rewrite <- (app_nil_r lc), first_shown_none; [|exact ID|intros q' Hq'; apply RC, Hq'|intros r v' Hr; apply N; apply in_or_app; auto]. reflexivity.
Qed.

(** ** containers *)
Lemma telling_unique f ls l l' : telling f ls l -> telling f ls l' -> l = l'.
Proof.
  intros [b [a [E [M N]]]] [b' [a' [E' [M' N']]]]. rewrite E in E'.
  refine (proj1 (first_split_unique (fun l => has (bs "docker") (f l) \/ has (bs "lxc") (f l)) _ _ _ _ _ _ E' M M' _ _)); intros r Hr; [specialize (N r Hr)|specialize (N' r Hr)]; tauto.
Qed.
Lemma telling_cons f l ls x : telling f (l :: ls) x <->
  ((has (bs "docker") (f l) \/ has (bs "lxc") (f l)) /\ x = l) \/ (~ has (bs "docker") (f l) /\ ~ has (bs "lxc") (f l) /\ telling f ls x).
Proof.
  split.
  - intros [b [a [E [M N]]]]. destruct b as [|l0 b]; cbn in E; injection E as -> E.
    + left. auto.
    + right. destruct (N l0 (or_introl eq_refl)). split; [assumption|]. split; [assumption|]. exists b, a. split; [exact E|]. split; [exact M|]. intros l' Hl'. apply N. right. exact Hl'.
  - intros [[M ->]|[M1 [M2 [b [a [-> [M N]]]]]]].
    + exists [], ls. split; [reflexivity|]. split; [exact M|intros l' []].
    + exists (l :: b), a. split; [reflexivity|]. split; [exact M|]. intros l' [<-|Hl']; [auto|apply N, Hl'].
Qed.
Lemma has_dec n s : has n s \/ ~ has n s.
Proof. destruct (contains n s) eqn:E; [left; apply contains_spec, E|right; intros H; apply contains_spec in H; congruence]. Qed.
Lemma contains_no n s : ~ has n s -> contains n s = false.
Proof. intros H. apply not_true_iff_false. intros E. apply H, contains_spec, E. Qed.
Lemma cgroup_telling ls : (exists l, telling cstr ls l /\ ((has (bs "lxc") (cstr l) /\ cgroup_loop ls = CT_LXC) \/ (~ has (bs "lxc") (cstr l) /\ cgroup_loop ls = CT_DOCKER))) \/
  ((forall l, ~ telling cstr ls l) /\ cgroup_loop ls = CT_NONE).
Proof.
  induction ls as [|l ls IH].
  - right. split; [|reflexivity]. intros l [b [a [E _]]]. destruct b; discriminate.
  - cbn [cgroup_loop]. destruct (has_dec (bs "lxc") (cstr l)) as [L|L].
    + rewrite (proj2 (contains_spec _ _) L). left. exists l. split; [apply telling_cons; auto|]. left. auto.
    + rewrite (contains_no _ _ L). destruct (has_dec (bs "docker") (cstr l)) as [D|D].
      * rewrite (proj2 (contains_spec _ _) D). left. exists l. split; [apply telling_cons; auto|]. right. auto.
      * rewrite (contains_no _ _ D). destruct IH as [[l0 [T H]]|[T H]]; [left; exists l0; split; [apply telling_cons; auto|exact H]|right; split; [|exact H]].
        intros l0 X. apply telling_cons in X as [[[X|X] _]|[_ [_ X]]]; [tauto|tauto|exact (T _ X)].
Qed.
Lemma systemd_telling ls : (exists l, telling (fun l => l) ls l /\ ((has (bs "docker") l /\ systemd_loop ls = CT_DOCKER) \/ (~ has (bs "docker") l /\ systemd_loop ls = CT_LXC))) \/
  ((forall l, ~ telling (fun l => l) ls l) /\ systemd_loop ls = CT_DOCKER).
Proof.
  induction ls as [|l ls IH].
  - right. split; [|reflexivity]. intros l [b [a [E _]]]. destruct b; discriminate.
  - cbn [systemd_loop]. destruct (has_dec (bs "docker") l) as [D|D].
    + rewrite (proj2 (contains_spec _ _) D). left. exists l. split; [apply telling_cons; auto|]. left. auto.
    + rewrite (contains_no _ _ D). destruct (has_dec (bs "lxc") l) as [L|L].
      * rewrite (proj2 (contains_spec _ _) L). left. exists l. split; [apply telling_cons; auto|]. right. auto.
      * rewrite (contains_no _ _ L). destruct IH as [[l0 [T H]]|[T H]]; [left; exists l0; split; [apply telling_cons; auto|exact H]|right; split; [|exact H]].
        intros l0 X. apply telling_cons in X as [[[X|X] _]|[_ [_ X]]]; [tauto|tauto|exact (T _ X)].
Qed.
Lemma container_is x : container_found x (get_container_type x).
Proof.
  unfold container_found, get_container_type. destruct (xf_cgroup x) as [ls|].
  - destruct (cgroup_telling ls) as [[l [T H]]|[T H]].
    + left. exists ls, l. split; [reflexivity|]. split; [exact T|]. destruct H as [[A ->]|[A ->]]; auto.
    + rewrite H. right. split; [intros ls' l [= <-]; apply T|]. destruct (xf_systemd x) as [sl|]; [|reflexivity].
      destruct (systemd_telling sl) as [[l [T' H']]|[T' H']]; [left; exists l; auto|right; auto].
  - right. split; [intros ls l [=]|]. destruct (xf_systemd x) as [sl|]; [|reflexivity].
    destruct (systemd_telling sl) as [[l [T' H']]|[T' H']]; [left; exists l; auto|right; auto].
Qed.
Lemma container_unique x c c' : container_found x c -> container_found x c' -> c = c'.
Proof.
  intros [[ls [l [E [T H]]]]|[N H]] [[ls' [l' [E' [T' H']]]]|[N' H']].
  - rewrite E in E'. injection E' as <-. rewrite (telling_unique _ _ _ _ T' T) in *. destruct H as [[A ->]|[A ->]], H' as [[B ->]|[B ->]]; tauto || reflexivity.
  - exfalso. exact (N' ls l E T).
  - exfalso. exact (N ls' l' E' T').
  - destruct (xf_systemd x) as [sl|]; [|congruence]. destruct H as [[l [T H]]|[T H]], H' as [[l' [T' H']]|[T' H']].
    + rewrite (telling_unique _ _ _ _ T' T) in *. destruct H as [[A ->]|[A ->]], H' as [[B ->]|[B ->]]; tauto || reflexivity.
    + exfalso. exact (T' _ T).
    + exfalso. exact (T _ T').
    + congruence.
Qed.
Lemma container_env x e c : make_exec_env x = Ok e -> xe_container e = c <-> container_found x c.
Proof.
  intros H. apply make_exec_ok in H. subst e. cbn [xe_container]. split; [intros <-; apply container_is|]. intros F. eapply container_unique; [apply container_is|exact F].
Qed.
Lemma summary_is x e : hash_orders x -> make_exec_env x = Ok e -> summary_found x (virtualization e).
Proof.
  intros HO H. exists (xe_container e). split; [apply (container_env x e _ H); reflexivity|]. destruct (virtualization_spec e) as [V1 [V2 V3]].
  destruct (xe_container e).
  - exists (virtualization_detail e). split; [apply detail_sound; assumption|]. destruct (bare (virtualization_detail e)) eqn:B.
    + apply bare_iff in B. rewrite (proj2 V3 (conj eq_refl B)), B. reflexivity.
    + assert (N : virtualization_detail e <> BARE_TO_METAL) by (intros X; apply bare_iff in X; congruence).
      rewrite (proj2 V2 (conj eq_refl N)). destruct (virtualization_detail e); congruence || reflexivity.
  - apply V1. discriminate.
  - apply V1. discriminate.
Qed.

(** bare metal is reported for every order or for none *)
Lemma bare_detail x e : hash_orders x -> make_exec_env x = Ok e -> virtualization_detail e = BARE_TO_METAL <-> detail_found x BARE_TO_METAL.
Proof.
  intros Ho E. split; [intros <-; apply detail_sound; assumption|]. intros F.
  assert (NS : forall r, In r (searched x) -> ~ shows (fst r) (snd r) BARE_TO_METAL).
  { intros r Hr [w [Hw _]]. assert (R : real_values (coded (fst r))) by (destruct Hr as [<-|[<-|[<-|[<-|[<-|[]]]]]]; (apply vendor_real || apply cpu_real)).
    apply (R (bs w) BARE_TO_METAL); [|reflexivity]. unfold coded. apply in_map_iff. exists (w, BARE_TO_METAL). auto. }
  destruct F as [[b [q [a [Eq [Hs _]]]]]|[N [[[=] _]|[_ [Hh Hc]]]]].
  - exfalso. apply (NS q); [rewrite Eq; apply in_elt|exact Hs].
  - destruct (detail_sound x e Ho E) as [[b [q [a [Eq [Hs _]]]]]|[_ [[_ [X|X]]|[X _]]]]; [|congruence|contradiction|exact X].
    exfalso. apply (N q (virtualization_detail e)); [rewrite Eq; apply in_elt|exact Hs].
Qed.
