From Verif Require Import Base CTypes StringUtils Network Disks P_Base P_Strings Spec_Disks P_Disks.

(** ** find *)
Lemma is_prefix_spec p s : is_prefix p s = true <-> exists b, s = p ++ b.
Proof.
  revert s; induction p as [|a p IH]; intros s; cbn [is_prefix].
  - split; [intros _; exists s; reflexivity|reflexivity].
  - destruct s as [|x s]; [split; [discriminate|intros [b [=]]]|]. rewrite andb_true_iff, IH, Ascii.eqb_eq. split.
    + intros [-> [b ->]]. exists b. reflexivity.
    + intros [b [=-> ->]]. split; [reflexivity|]. exists b. reflexivity.
Qed.
Lemma starts_prefix p s : starts_with p s = is_prefix p s.
Proof. reflexivity. Qed.

Lemma find_here_some n s i : find_here n s = Some i -> exists a b, first_at n s a b /\ length a = i.
Proof.
  revert i; induction s as [|c s IH]; intros i; cbn [find_here].
  - destruct (is_prefix n []) eqn:E; [|discriminate]. intros [= <-]. apply is_prefix_spec in E as [b E]. exists [], b.
    split; [split; [exact E|intros; cbn; lia]|reflexivity].
  - destruct (is_prefix n (c :: s)) eqn:E.
    + intros [= <-]. apply is_prefix_spec in E as [b E]. exists [], b. split; [split; [exact E|intros; cbn; lia]|reflexivity].
    + destruct (find_here n s) as [j|]; [|discriminate]. intros [= <-]. destruct (IH j eq_refl) as [a [b [[E1 E2] El]]].
      exists (c :: a), b. split; [|cbn; lia]. split; [cbn; congruence|]. intros a' b' H. destruct a' as [|x a'].
      * cbn [app] in H. assert (is_prefix n (c :: s) = true) by (apply is_prefix_spec; eauto). congruence.
      * cbn [app] in H. injection H as <- H. apply E2 in H. cbn. lia.
Qed.
Lemma find_here_none n s : find_here n s = None <-> forall a b, s <> a ++ n ++ b.
Proof.
  induction s as [|c s IH]; cbn [find_here].
  - destruct (is_prefix n []) eqn:E.
    + split; [discriminate|]. intros H. apply is_prefix_spec in E as [b E]. exfalso. apply (H [] b), E.
    + split; [|reflexivity]. intros _ a b H. symmetry in H. apply app_eq_nil in H as [-> H]. apply app_eq_nil in H as [-> ->]. discriminate.
  - destruct (is_prefix n (c :: s)) eqn:E.
    + split; [discriminate|]. intros H. apply is_prefix_spec in E as [b E]. exfalso. apply (H [] b), E.
    + destruct (find_here n s) as [j|].
      * split; [discriminate|]. intros H. exfalso. assert (Some j = None); [|discriminate]. apply IH. intros a b ->. apply (H (c :: a) b). reflexivity.
      * split; [|reflexivity]. intros _ [|x a] b H; cbn [app] in H.
        -- assert (is_prefix n (c :: s) = true) by (apply is_prefix_spec; eauto). congruence.
        -- injection H as _ H. apply (proj1 IH eq_refl a b), H.
Qed.
Lemma first_at_unique n s a b a' b' : first_at n s a b -> first_at n s a' b' -> a = a' /\ b = b'.
Proof.
  intros [E1 H1] [E2 H2]. assert (length a = length a') as L by (apply Nat.le_antisymm; [eapply H1, E2|eapply H2, E1]).
  rewrite E1 in E2. apply app_inj_tail_iff in E2 || idtac.
  assert (a = a') as <-.
  { apply (f_equal (firstn (length a))) in E2. rewrite L in E2 at 2. rewrite !firstn_app, !firstn_all, !Nat.sub_diag in E2. cbn in E2. rewrite !app_nil_r in E2. exact E2. }
  apply app_inv_head in E2. apply app_inv_head in E2. auto.
Qed.
Lemma find_here_first n s a b : first_at n s a b -> find_here n s = Some (length a).
Proof.
  intros H. destruct (find_here n s) as [i|] eqn:E.
  - destruct (find_here_some _ _ _ E) as [a' [b' [H' <-]]]. destruct (first_at_unique _ _ _ _ _ _ H H') as [-> _]. reflexivity.
  - exfalso. apply (proj1 (find_here_none n s) E a b). apply H.
Qed.
Lemma str_find_at n s p : p <= length s -> str_find n s p = option_map (fun i => p + i) (find_here n (skipn p s)).
Proof. intros H. unfold str_find. destruct (Nat.ltb_spec (length s) p); [lia|reflexivity]. Qed.
Lemma skipn_len {A} (a b : list A) : skipn (length a) (a ++ b) = b.
Proof. induction a; cbn; [reflexivity|assumption]. Qed.
Lemma firstn_len {A} (a b : list A) : firstn (length a) (a ++ b) = a.
Proof. induction a; cbn; [reflexivity|congruence]. Qed.

(** ** getAttribute *)
Lemma get_attribute_spec s attr v : attribute s attr v -> get_attribute s attr = Ok v.
Proof.
  intros [a [b [H Hq]]]. unfold get_attribute. set (full := attr ++ bs "=""") in *.
  cbv zeta; rewrite (str_find_at full s 0) by lia; cbn [skipn]. rewrite (find_here_first _ _ _ _ H). cbn [option_map Nat.add].
  destruct H as [-> _].
  assert (Es : skipn (length a + length full) (a ++ full ++ v ++ bs """" ++ b) = v ++ bs """" ++ b).
  { rewrite app_assoc, <- app_length. apply skipn_len. }
  assert (Hlen : length a + length full <= length (a ++ full ++ v ++ bs """" ++ b)) by (rewrite !app_length; lia).
  rewrite str_find_at, Es by exact Hlen.
  assert (F : first_at (bs """") (v ++ bs """" ++ b) v b).
  { split; [reflexivity|]. intros a' b' E. destruct (Nat.le_gt_cases (length v) (length a')) as [L|L]; [exact L|]. exfalso.
    apply Hq. apply (f_equal (fun l => nth (length a') l NUL)) in E. rewrite app_nth1 in E by lia. rewrite app_nth2, Nat.sub_diag in E by lia. cbn in E.
    rewrite <- E. apply nth_In. lia. }
  rewrite (find_here_first _ _ _ _ F). cbn [option_map]. unfold substr.
  destruct (Nat.ltb_spec (length (a ++ full ++ v ++ bs """" ++ b)) (length a + length full)); [lia|].
  rewrite Es. replace (length a + length full + length v - (length a + length full)) with (length v) by lia. rewrite firstn_len. reflexivity.
Qed.

(** an attribute found in a text is found in every extension of it *)
Lemma attribute_ext s attr v t : attribute s attr v -> attribute (s ++ t) attr v.
Proof.
  intros [a [b [[E H] Hq]]]. exists a, (b ++ t). split; [|exact Hq]. split.
  - rewrite E, !app_assoc. reflexivity.
  - intros a' b' E'. destruct (Nat.le_gt_cases (length a) (length a')) as [L|L]; [exact L|]. exfalso.
    set (n := attr ++ bs "=""") in *.
    assert (Hl : length (a' ++ n) <= length s) by (rewrite E, !app_length in *; lia).
    assert (E2 : s = a' ++ n ++ skipn (length (a' ++ n)) s).
    { rewrite app_assoc. rewrite <- (firstn_skipn (length (a' ++ n)) s) at 1. f_equal.
      apply (f_equal (firstn (length (a' ++ n)))) in E'. rewrite firstn_app in E'.
      replace (length (a' ++ n) - length s) with 0 in E' by lia. cbn in E'. rewrite app_nil_r in E'. rewrite E'. rewrite app_assoc. apply firstn_len. }
    apply H in E2. lia.
Qed.

(** ** occurrences *)
Lemma find_occ_none n s : find_here n s = None -> occurrences n s = 0.
Proof.
  induction s as [|c s IH]; cbn [find_here occurrences]; change starts_with with is_prefix; destruct (is_prefix n _); try discriminate; [reflexivity|].
  destruct (find_here n s); [discriminate|]. intros _. rewrite IH by reflexivity. reflexivity.
Qed.
Lemma find_occ_some n s i : n <> [] -> find_here n s = Some i -> occurrences n s = S (occurrences n (skipn (S i) s)).
Proof.
  intros Hn. revert i; induction s as [|c s IH]; intros i; cbn [find_here occurrences]; change starts_with with is_prefix.
  - destruct n; [congruence|]. discriminate.
  - destruct (is_prefix n (c :: s)); [intros [= <-]; reflexivity|]. destruct (find_here n s) as [j|]; [|discriminate].
    intros [= <-]. rewrite (IH j eq_refl). reflexivity.
Qed.

Definition closing : bytes := bs "</device>".

Definition count_inv (content : bytes) (oldpos : nat) (out out' : list disk) : Prop :=
  length out' = length out + occurrences closing (skipn oldpos content) /\ exists new, out' = out ++ new.

Lemma skipn_skipn' {A} a b (l : list A) : skipn a (skipn b l) = skipn (b + a) l.
Proof. revert l; induction b; intros l; cbn; [reflexivity|]. destruct l; [rewrite !skipn_nil; reflexivity|]. apply IHb. Qed.

Lemma blkid_loop fuel content oldpos num out m r : oldpos <= length content -> length content - oldpos < fuel ->
  parse_blkid_loop fuel content oldpos num out m = r ->
  r <> OutOfFuel /\
  (forall out' m', r = Ok (out', m') -> exists new, out' = out ++ new /\ length new = occurrences closing (skipn oldpos content) /\
     map dk_id new = map (fun k => (num + Z.of_nat k)%Z) (seq 0 (length new))).
Proof.
  revert oldpos num out m r; induction fuel as [|fuel IH]; intros oldpos num out m r Ho Hf; [lia|].
  cbn [parse_blkid_loop]. rewrite str_find_at by exact Ho. fold closing.
  destruct (find_here closing (skipn oldpos content)) as [i|] eqn:Ei; cbn [option_map].
  2: { intros <-. split; [discriminate|]. intros out' m' [= <- <-]. exists []. rewrite app_nil_r, (find_occ_none _ _ Ei). auto. }
  assert (Hi : oldpos + i + 1 <= length content).
  { destruct (find_here_some _ _ _ Ei) as [a [b [[E _] <-]]]. apply (f_equal (@length _)) in E. rewrite skipn_length, !app_length in E. cbn [closing bs list_ascii_of_string length] in E. lia. }
  destruct (substr content oldpos (oldpos + i)) as [cur| | |] eqn:E1; cbn [rbind]; try (intros <-; split; [discriminate|intros ? ? [=]]); [|exfalso; revert E1; unfold substr; destruct (Nat.ltb _ _); discriminate].
  destruct (substr cur _ _) as [dev| | |] eqn:E2; cbn [rbind]; try (intros <-; split; [discriminate|intros ? ? [=]]); [|exfalso; revert E2; unfold substr; destruct (Nat.ltb _ _); discriminate].
  assert (Ga : forall at_, get_attribute cur at_ <> OutOfFuel).
  { intros at_. unfold get_attribute, substr. destruct (str_find (bs """") cur _); destruct (Nat.ltb _ _); discriminate. }
  destruct (get_attribute cur (bs "PARTLABEL")) as [lab| | |] eqn:E3; cbn [rbind]; try (intros <-; split; [discriminate|intros ? ? [=]]); [|exfalso; eapply Ga; eassumption].
  destruct (get_attribute cur (bs "UUID")) as [u| | |] eqn:E4; cbn [rbind]; try (intros <-; split; [discriminate|intros ? ? [=]]); [|exfalso; eapply Ga; eassumption].
  destruct (parse_uuid u) as [sn| | |] eqn:E5; cbn [rbind]; try (intros <-; split; [discriminate|intros ? ? [=]]); [|exfalso; rewrite parse_uuid_spec in E5; destruct (Nat.ltb _ _); discriminate].
  destruct (get_attribute cur (bs "TYPE")) as [ty| | |] eqn:E6; cbn [rbind]; try (intros <-; split; [discriminate|intros ? ? [=]]); [|exfalso; eapply Ga; eassumption].
  intros Hr. destruct (IH (oldpos + i + 1) (num + 1)%Z _ _ r ltac:(lia) ltac:(lia) Hr) as [H1 H2]. split; [exact H1|].
  intros out' m' E. destruct (H2 _ _ E) as [new [-> [Hl Hid]]]. rewrite <- app_assoc. eexists. split; [reflexivity|].
  rewrite (find_occ_some closing _ _ ltac:(discriminate) Ei), skipn_skipn'. replace (oldpos + S i) with (oldpos + i + 1) by lia.
  cbn [app length map]. split; [congruence|]. cbn [dk_id seq map]. f_equal; [lia|]. rewrite <- seq_shift, map_map, Hid. apply map_ext. intros k. lia.
Qed.

Lemma parse_blkid_count content ds m : parse_blkid content = Ok (ds, m) ->
  length ds = occurrences closing content /\ map dk_id ds = map Z.of_nat (seq 0 (length ds)).
Proof.
  intros H. unfold parse_blkid in H. eapply blkid_loop in H as [_ H2]; [|lia|lia]. destruct (H2 _ _ eq_refl) as [new [E [Hl Hid]]].
  cbn [app] in E. subst new. cbn [skipn] in Hl. split; [exact Hl|]. rewrite Hid. reflexivity.
Qed.
Lemma parse_blkid_fuel content : parse_blkid content <> OutOfFuel.
Proof. unfold parse_blkid. eapply (blkid_loop (S (length content)) content 0 0%Z [] []); [lia|lia|reflexivity]. Qed.
