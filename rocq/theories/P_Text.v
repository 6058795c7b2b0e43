(** The functions of Spec_Strings compute what StringUtils.v does. *)
From Verif Require Import Base CTypes StringUtils P_Base Spec_Strings P_Strings.

Lemma blankb_isspace c : blankb c = isspace c.
Proof. apply Bool.eqb_prop. revert c. apply byte_sweep. vm_compute. reflexivity. Qed.
Lemma unlead_drop p s : unlead p s = drop_while p s.
Proof. induction s as [|c r IH]; [reflexivity|]. cbn. rewrite IH. reflexivity. Qed.
Lemma trimmed_eq s : trimmed s = trim_copy s.
Proof.
  unfold trimmed, trim_copy, rdrop_while. rewrite !unlead_drop. f_equal.
  rewrite (drop_while_ext blankb isspace) by apply blankb_isspace.
  apply drop_while_ext. intros c. rewrite blankb_isspace. reflexivity.
Qed.
Lemma upper_eq s : upper s = toupper_copy s.
Proof. reflexivity. Qed.

Lemma fields_nonempty p s : fields p s <> [].
Proof. destruct s as [|c r]; [discriminate|]. cbn. destruct (p c); [discriminate|]. destruct (fields p r); discriminate. Qed.
Lemma split_fields sep s : forall cur, split_go sep s cur =
  match fields (Ascii.eqb sep) s with
  | f :: fs => match rev ((rev cur ++ f) :: fs) with [] :: r => rev r | l => rev l end
  | [] => []
  end.
Proof.
  induction s as [|c r IH]; intros cur.
  - cbn. rewrite app_nil_r. destruct cur as [|x cur]; [reflexivity|]. destruct (rev (x :: cur)) as [|y l] eqn:E; [|reflexivity].
    apply (f_equal (@length _)) in E. rewrite rev_length in E. discriminate.
  - cbn [split_go fields]. rewrite (Ascii.eqb_sym c sep). destruct (Ascii.eqb sep c) eqn:E.
    + rewrite IH. pose proof (fields_nonempty (Ascii.eqb sep) r) as N. destruct (fields (Ascii.eqb sep) r) as [|f fs]; [congruence|].
      cbn [rev app]. rewrite app_nil_r. assert (X : exists y l, rev fs ++ [f] = y :: l) by (destruct (rev fs); cbn; eauto).
      destruct X as [y [l X]]. unfold bytes in *. rewrite X. cbn [app]. destruct y; cbn [rev]; rewrite ?rev_app_distr; cbn [rev app]; reflexivity.
    + rewrite IH. pose proof (fields_nonempty (Ascii.eqb sep) r) as N. destruct (fields (Ascii.eqb sep) r) as [|f fs]; [congruence|].
      cbn [rev]. rewrite <- app_assoc. reflexivity.
Qed.
Lemma pieces_eq sep s : pieces sep s = split_string s sep.
Proof.
  unfold split_string. rewrite split_fields. unfold pieces. pose proof (fields_nonempty (Ascii.eqb sep) s) as N.
  destruct (fields (Ascii.eqb sep) s) as [|f fs]; [congruence|]. reflexivity.
Qed.

Lemma cut_last_some x s a b : cut_last x s = Some (a, b) -> s = a ++ x :: b /\ ~ In x b.
Proof.
  revert a. induction s as [|c r IH]; intros a; [discriminate|]. cbn. destruct (cut_last x r) as [[a' b']|] eqn:E.
  - intros [= <- <-]. destruct (IH a' eq_refl) as [-> H]. split; [reflexivity|exact H].
  - destruct (Ascii.eqb_spec c x) as [->|]; [|discriminate]. intros [= <- <-]. split; [reflexivity|]. clear -E. revert E.
    induction r as [|c r IH]; [intros _ []|]. cbn. destruct (cut_last x r) as [[? ?]|]; [discriminate|]. destruct (Ascii.eqb_spec c x) as [|Hne]; [discriminate|].
    intros _ [H|H]; [congruence|]. apply IH in H; [exact H|reflexivity].
Qed.
Lemma cut_last_none x s : cut_last x s = None -> ~ In x s.
Proof.
  induction s as [|c r IH]; [intros _ []|]. cbn. destruct (cut_last x r) as [[? ?]|]; [discriminate|]. destruct (Ascii.eqb_spec c x) as [|Hne]; [discriminate|].
  intros _ [H|H]; [congruence|]. apply IH in H; [exact H|reflexivity].
Qed.
Lemma stem_eq p : stem p = remove_extension p.
Proof.
  unfold stem. destruct (beqb_spec p (bs "..")) as [->|H]; [reflexivity|]. destruct (cut_last "."%char p) as [[[|x a] ext]|] eqn:E.
  - symmetry. apply remove_extension_keep. right. apply cut_last_some in E as [-> H2]. intros q e He _. destruct q as [|y q]; [reflexivity|].
    cbn in He. injection He as _ He. exfalso. apply H2. rewrite He. apply in_or_app. right. left. reflexivity.
  - apply cut_last_some in E as [-> H2]. destruct (existsb _ ext) eqn:X.
    + symmetry. apply remove_extension_keep. right. intros q e He Hf. exfalso.
      assert (L : e = ext).
      { apply (f_equal (@rev _)) in He. rewrite !rev_app_distr in He. cbn in He. rewrite <- !app_assoc in He. cbn in He.
        assert (NE : ~ In "."%char e) by (intros HI; apply (Hf _ HI); left; reflexivity).
        rewrite <- (rev_involutive e), <- (rev_involutive ext). f_equal.
        assert (A : forall (u v s t : bytes), ~ In "."%char u -> ~ In "."%char v -> u ++ "."%char :: s = v ++ "."%char :: t -> u = v).
        { induction u as [|c u IHu]; intros [|d v] s t Hu Hv Hq; cbn in Hq; try reflexivity.
          - injection Hq as <- _. exfalso. apply Hv. left. reflexivity.
          - injection Hq as -> _. exfalso. apply Hu. left. reflexivity.
          - injection Hq as -> Hq. f_equal. eapply IHu; [intros HI; apply Hu; right; exact HI|intros HI; apply Hv; right; exact HI|exact Hq]. }
        symmetry. eapply A; [| |exact He]; rewrite <- in_rev; assumption. }
      subst e. apply existsb_exists in X as [c [Hc X]]. apply (Hf c Hc). unfold dot_or_sep. apply orb_true_iff in X as [X|X]; apply Ascii.eqb_eq in X; auto.
    + symmetry. apply remove_extension_drop; [discriminate| |exact H]. intros c Hc D. destruct D as [->|D]; [exact (H2 Hc)|].
      assert (Y : existsb (fun c => Ascii.eqb c "/"%char || Ascii.eqb c "\"%char) ext = true).
      { apply existsb_exists. exists c. split; [exact Hc|]. destruct D as [-> | ->]; reflexivity. }
      congruence.
  - apply cut_last_none in E. symmetry. apply remove_extension_keep. right. intros q e -> _. exfalso. apply E, in_or_app. right. left. reflexivity.
Qed.

Lemma alphab_eq c : existsb (Ascii.eqb c) (bs "ABCDEFGHIJKLMNOPQRSTUVWXYZabcdefghijklmnopqrstuvwxyz0123456789+/") = is_b64_char c.
Proof. apply Bool.eqb_prop. revert c. apply byte_sweep. vm_compute. reflexivity. Qed.
Lemma unpad_app p r : 2 <= length r -> unpad (p ++ r) = p ++ unpad r.
Proof.
  intros H. unfold unpad. rewrite rev_app_distr. rewrite <- (rev_length r) in H.
  assert (R : r = rev (rev r)) by (symmetry; apply rev_involutive). revert R H. generalize (rev r). intros q -> H.
  destruct q as [|x [|y q]]; [cbn in H; lia|cbn in H; lia|]. cbn [app].
  destruct x as [[|] [|] [|] [|] [|] [|] [|] [|]]; try reflexivity.
  destruct y as [[|] [|] [|] [|] [|] [|] [|] [|]]; try (rewrite ?rev_app_distr; cbn [rev]; rewrite ?rev_app_distr, ?rev_involutive, <- ?app_assoc; reflexivity).
Qed.
Lemma unpad4 a b c d : unpad [a; b; c; d] =
  if Ascii.eqb d "="%char then (if Ascii.eqb c "="%char then [a; b] else [a; b; c]) else [a; b; c; d].
Proof.
  destruct d as [[|] [|] [|] [|] [|] [|] [|] [|]]; try reflexivity. destruct c as [[|] [|] [|] [|] [|] [|] [|] [|]]; reflexivity.
Qed.
Lemma b64_end a b c d : forallb is_b64_char (unpad [a; b; c; d]) =
  is_b64_char a && is_b64_char b && ((is_b64_char c && is_b64_char d) || (Ascii.eqb d "="%char && (Ascii.eqb c "="%char || is_b64_char c))).
Proof.
  rewrite unpad4. destruct (Ascii.eqb_spec d "="%char) as [->|Hd].
  - change (is_b64_char "="%char) with false. destruct (Ascii.eqb_spec c "="%char) as [->|Hc]; cbn [forallb].
    + change (is_b64_char "="%char) with false. destruct (is_b64_char a), (is_b64_char b); reflexivity.
    + destruct (is_b64_char a), (is_b64_char b), (is_b64_char c); reflexivity.
  - cbn [forallb]. destruct (is_b64_char a), (is_b64_char b), (is_b64_char c), (is_b64_char d); reflexivity.
Qed.
Lemma forallb_ext {A} (f g : A -> bool) l : (forall x, f x = g x) -> forallb f l = forallb g l.
Proof. intros H. induction l as [|x l IH]; [reflexivity|]. cbn. rewrite H, IH. reflexivity. Qed.
Lemma looks_base64_eq s : looks_base64 s = b64_match s.
Proof.
  unfold looks_base64. rewrite (forallb_ext _ is_b64_char) by apply alphab_eq.
  remember (length s) as n eqn:En. revert s En. induction n as [n IH] using (well_founded_induction Wf_nat.lt_wf). intros s En.
  destruct s as [|a [|b [|c [|d r]]]]; try (subst n; reflexivity). rewrite b64_match_unfold.
  destruct r as [|e r].
  - subst n. cbn [length Nat.eqb Nat.modulo]. change (4 mod 4 =? 0) with true. cbn [andb]. rewrite b64_end. cbn [b64_match]. rewrite andb_true_r. reflexivity.
  - assert (Em : n mod 4 = length (e :: r) mod 4).
    { subst n. cbn [length]. replace (S (S (S (S (S (length r)))))) with (S (length r) + 1 * 4) by lia. apply Nat.mod_add. lia. }
    rewrite Em. rewrite orb_false_r. rewrite <- (IH (length (e :: r))) by (subst n; cbn; lia || reflexivity).
    destruct (length (e :: r) mod 4 =? 0) eqn:M4; cbn [andb]; [|rewrite !andb_false_r; reflexivity].
    apply Nat.eqb_eq in M4.
    assert (L2 : 2 <= length (e :: r)). { destruct r; [cbn in M4; discriminate|cbn; lia]. }
    change (a :: b :: c :: d :: e :: r) with ([a; b; c; d] ++ e :: r). rewrite (unpad_app [a; b; c; d] (e :: r) L2). cbn [app forallb]. rewrite !andb_assoc. reflexivity.
Qed.

Definition nl (c : ascii) : bool := Ascii.eqb c "010"%char || Ascii.eqb c "013"%char.
Definition bracketed (line : bytes) : bool := match after "["%char line with Some r => existsb (Ascii.eqb "]"%char) r | None => false end.
Lemma close_fields s : close_on_line s = existsb (Ascii.eqb "]"%char) (hd [] (fields nl s)).
Proof.
  induction s as [|c r IH]; [reflexivity|]. cbn [close_on_line fields]. change (is_nl c) with (nl c). destruct (Ascii.eqb_spec c "]"%char) as [->|Hc].
  - change (nl "]"%char) with false. cbn [hd]. destruct (fields nl r); reflexivity.
  - destruct (nl c); [reflexivity|]. rewrite IH. pose proof (fields_nonempty nl r) as N. destruct (fields nl r) as [|f fs]; [congruence|]. cbn [hd existsb].
    destruct (Ascii.eqb_spec "]"%char c) as [E|_]; [congruence|reflexivity].
Qed.
Lemma bracketed_close f : bracketed f = true -> existsb (Ascii.eqb "]"%char) f = true.
Proof.
  unfold bracketed. intros H. destruct (after "["%char f) as [r|] eqn:E; [|discriminate]. revert E. induction f as [|c f IH]; [discriminate|]. cbn.
  destruct (Ascii.eqb c "["%char); [intros [= ->]; rewrite H; apply orb_true_r|]. intros E. rewrite (IH E). apply orb_true_r.
Qed.
Lemma looks_ini_eq s : looks_ini s = has_section s.
Proof.
  change (looks_ini s) with (existsb bracketed (fields nl s)).
  induction s as [|c r IH]; [reflexivity|]. cbn [fields has_section]. rewrite <- IH, close_fields. destruct (nl c) eqn:N.
  - cbn [existsb bracketed after orb]. destruct (Ascii.eqb_spec c "["%char) as [->|]; [discriminate N|]. reflexivity.
  - pose proof (fields_nonempty nl r) as NE. destruct (fields nl r) as [|f fs]; [congruence|]. cbn [existsb hd].
    unfold bracketed at 1. cbn [after]. destruct (Ascii.eqb c "["%char); [|reflexivity]. cbn [andb].
    destruct (existsb (Ascii.eqb "]"%char) f) eqn:X; [reflexivity|]. cbn [orb]. destruct (bracketed f) eqn:B; [|reflexivity]. apply bracketed_close in B. congruence.
Qed.
