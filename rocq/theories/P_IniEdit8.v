(** Lemmas about IniEdit.v: names in order, and the first line of every key. *)
From Coq Require Import Permutation Sorting.Sorted Lia.
From Verif Require Import Base P_Base CTypes StringUtils Ini P_Ini IniEdit Spec_Ini Spec_IniEdit P_IniEdit P_IniEdit2 P_IniEdit3 P_IniEdit4 P_IniEdit5 P_IniEdit6 P_IniEdit7.

Lemma strict_unique {A} (R : A -> A -> Prop) (AS : forall a b, R a b -> R b a -> False) l : forall m,
  StronglySorted R l -> StronglySorted R m -> Permutation l m -> l = m.
Proof.
  induction l as [|a l IH]; intros m SL SM P.
  - apply Permutation_nil in P. congruence.
  - destruct m as [|b m]; [apply Permutation_sym, Permutation_nil in P; discriminate|].
    inversion SL as [|? ? SL1 FL]; inversion SM as [|? ? SM1 FM]; subst.
    assert (a = b).
    { assert (Ha : In a (b :: m)) by (eapply Permutation_in; [exact P|left; reflexivity]).
      assert (Hb : In b (a :: l)) by (eapply Permutation_in; [apply Permutation_sym; exact P|left; reflexivity]).
      destruct Ha as [Ha|Ha]; [congruence|]. destruct Hb as [Hb|Hb]; [congruence|].
      rewrite Forall_forall in FL, FM. specialize (FL b Hb). specialize (FM a Ha). destruct (AS _ _ FL FM). }
    subst b. f_equal. apply IH; auto. apply (Permutation_cons_inv P).
Qed.

(** * The order of names *)
Lemma rank_schar x : rank x = schar (locase x).
Proof. reflexivity. Qed.
Lemma name_before_less a b : name_before a b = nocase_less a b.
Proof.
  unfold name_before. revert b. induction a as [|x a IH]; intros [|y b]; cbn [map ranks_before nocase_less]; try reflexivity.
  rewrite IH, !rank_schar. cbv zeta. set (p := schar (locase x)). set (q := schar (locase y)).
  destruct (Z.eqb_spec (p - q) 0), (Z.ltb_spec p q), (Z.eqb_spec p q), (Z.ltb_spec (p - q) 0); cbn; try lia; reflexivity.
Qed.
Lemma less_asym a b : nocase_less a b = true -> nocase_less b a = true -> False.
Proof. intros H1 H2. pose proof (nocase_trans _ _ _ H1 H2) as H. rewrite nocase_irrefl in H. discriminate. Qed.
Lemma less_not_same a b : nocase_less a b = true -> ~ same_name a b.
Proof. intros H S. rewrite (nocase_less_irrefl a b S) in H. discriminate. Qed.
Definition told_before (a b : told) : Prop := nocase_less (fst a) (fst b) = true.
Lemma in_order_perm x l : Permutation (x :: l) (in_order x l).
Proof.
  induction l as [|y r IH]; cbn [in_order]; [apply Permutation_refl|]. destruct (name_before (fst y) (fst x)); [|apply Permutation_refl].
  eapply perm_trans; [apply perm_swap|]. apply Permutation.perm_skip. exact IH.
Qed.
Lemma by_name_perm l : Permutation l (by_name l).
Proof. induction l as [|x r IH]; cbn; [constructor|]. eapply perm_trans; [apply Permutation.perm_skip; exact IH|]. apply in_order_perm. Qed.
Definition all_differ (l : list told) : Prop := NoDup (map (fun t : told => map lower (fst t)) l).
Lemma in_order_sorted (x : told) l : StronglySorted told_before l -> ~ In (map lower (fst x)) (map (fun t : told => map lower (fst t)) l) -> StronglySorted told_before (in_order x l).
Proof.
  intros H. induction H as [|y r S IH F]; cbn [in_order map In]; intros N; [repeat constructor|]. rewrite name_before_less.
  match goal with |- context [if ?b then _ else _] => destruct b eqn:E end.
  - constructor; [apply IH; tauto|]. apply Forall_forall. intros a Ha. apply (Permutation_in _ (Permutation_sym (in_order_perm x r))) in Ha. destruct Ha as [<-|Ha]; [exact E|].
    rewrite Forall_forall in F. apply F. exact Ha.
  - assert (L : nocase_less (fst x) (fst y) = true).
    { destruct (nocase_total (fst x) (fst y)) as [T|[T|T]]; [exact T|congruence|]. exfalso. apply N. left. symmetry. exact T. }
    constructor; [constructor; assumption|]. constructor; [exact L|]. eapply Forall_impl; [|exact F]. intros a Ha. apply (nocase_trans _ _ _ L Ha).
Qed.
Lemma by_name_sorted l : all_differ l -> StronglySorted told_before (by_name l).
Proof.
  unfold all_differ. induction l as [|x r IH]; cbn; intros N; [constructor|]. inversion N as [|? ? N1 N2]; subst. apply in_order_sorted; [apply IH; exact N2|].
  intros H. apply N1. eapply Permutation_in; [|exact H]. apply Permutation_map. apply Permutation_sym. apply by_name_perm.
Qed.
Lemma told_differ l : StronglySorted told_before l -> all_differ l.
Proof.
  induction 1 as [|a l S IH F]; unfold all_differ; cbn; constructor; [|exact IH]. intros H. apply in_map_iff in H. destruct H as (b & E & Hb).
  rewrite Forall_forall in F. specialize (F b Hb). apply (less_not_same _ _ F). symmetry. exact E.
Qed.
Lemma by_name_is l m : Permutation l m -> StronglySorted told_before m -> by_name l = m.
Proof.
  intros P S. apply (strict_unique told_before); [intros a b; apply less_asym| |exact S|].
  - apply by_name_sorted. unfold all_differ. eapply Permutation_NoDup; [apply Permutation_map; apply Permutation_sym; exact P|]. apply told_differ. exact S.
  - eapply perm_trans; [apply Permutation_sym; apply by_name_perm|exact P].
Qed.

(** * The first element of every name *)
Section heads.
  Context {X : Type} (nm : X -> bytes).
  Fixpoint vheads (last : option bytes) (l : list X) : list X :=
    match l with
    | [] => []
    | x :: r => if (match last with None => true | Some q => nocase_less q (nm x) end) then x :: vheads (Some (nm x)) r else vheads last r
    end.
  Fixpoint firsts (seen : list bytes) (l : list X) : list X :=
    match l with [] => [] | x :: r => if existsb (same_nameb (nm x)) seen then firsts seen r else x :: firsts (nm x :: seen) r end.

  Lemma eq_is (s : bytes) (a : X) : is_eq nm s a = true <-> same_name (nm a) s.
  Proof. unfold is_eq, same_nameb, same_name. apply beqb_eq. Qed.
  Lemma neq_is (s : bytes) (a : X) : is_eq nm s a = false <-> ~ same_name (nm a) s.
  Proof. rewrite <- eq_is. destruct (is_eq nm s a); split; congruence. Qed.

  Lemma vheads_in q l e : StronglySorted (weak nm) l -> Forall (fun y => nocase_less (nm y) q = false) l ->
    (In e (vheads (Some q) l) <-> (exists r, Eqs nm (nm e) l = e :: r) /\ nocase_less q (nm e) = true).
  Proof.
    intros S. revert q. induction S as [|x l S IH F]; intros q LQ; cbn [vheads Eqs filter In].
    - split; [intros []|intros [(r & H) _]; discriminate].
    - inversion LQ as [|? ? LX LQ1]; subst. destruct (nocase_less q (nm x)) eqn:QX.
      + cbn [In]. rewrite (IH (nm x)) by exact F. fold (Eqs nm (nm e) l). destruct (is_eq nm (nm e) x) eqn:EX.
        * split.
          -- intros [->|[_ H]]; [split; [eexists; reflexivity|exact QX]|]. exfalso. apply eq_is in EX. apply (less_not_same _ _ H EX).
          -- intros [(r & H) _]. injection H as -> _. left. reflexivity.
        * split.
          -- intros [->|[H1 H2]]; [apply neq_is in EX; exfalso; apply EX; reflexivity|]. split; [exact H1|]. apply (nocase_trans _ _ _ QX H2).
          -- intros [(r & H) H2]. right. split; [exists r; exact H|]. destruct (nocase_total (nm x) (nm e)) as [T|[T|T]]; [exact T| |apply neq_is in EX; contradiction].
             exfalso. assert (In e l) by (assert (In e (Eqs nm (nm e) l)) by (rewrite H; left; reflexivity); apply filter_In in H0; apply H0).
             rewrite Forall_forall in F. specialize (F e H0). unfold weak in F. congruence.
      + rewrite (IH q) by exact LQ1. assert (SQ : same_name (nm x) q) by (apply nocase_incomparable; auto).
        fold (Eqs nm (nm e) l). destruct (is_eq nm (nm e) x) eqn:EX; [|reflexivity].
        apply eq_is in EX. split; intros [_ H]; exfalso; apply (less_not_same _ _ H); unfold same_name in *; congruence.
  Qed.
  Lemma vheads_in0 l e : StronglySorted (weak nm) l -> (In e (vheads None l) <-> exists r, Eqs nm (nm e) l = e :: r).
  Proof.
    intros S. inversion S as [|x r S1 F]; subst; cbn [vheads Eqs filter In].
    - split; [intros []|intros (r & H); discriminate].
    - rewrite (vheads_in (nm x) r e S1 F). fold (Eqs nm (nm e) r). destruct (is_eq nm (nm e) x) eqn:EX.
      + split; [intros [->|[_ H]]; [eexists; reflexivity|]|intros (t & H); injection H as -> _; left; reflexivity].
        exfalso. apply eq_is in EX. apply (less_not_same _ _ H EX).
      + split.
        * intros [->|[H1 H2]]; [apply neq_is in EX; exfalso; apply EX; reflexivity|exact H1].
        * intros (t & H). right. split; [exists t; exact H|]. destruct (nocase_total (nm x) (nm e)) as [T|[T|T]]; [exact T| |apply neq_is in EX; contradiction].
          exfalso. assert (In e r) by (assert (In e (Eqs nm (nm e) r)) by (rewrite H; left; reflexivity); apply filter_In in H0; apply H0).
          rewrite Forall_forall in F. specialize (F e H0). unfold weak in F. congruence.
  Qed.
  Lemma vheads_sorted_q q l : StronglySorted (weak nm) l -> Forall (fun y => nocase_less (nm y) q = false) l ->
    StronglySorted (fun a b => nocase_less (nm a) (nm b) = true) (vheads (Some q) l).
  Proof.
    intros S. revert q. induction S as [|x l S IH F]; intros q LQ; cbn [vheads]; [constructor|]. inversion LQ; subst. destruct (nocase_less q (nm x)); [|apply IH; assumption].
    constructor; [apply IH; exact F|]. apply Forall_forall. intros e He. apply (vheads_in _ _ _ S F) in He. apply He.
  Qed.
  Lemma vheads_sorted l : StronglySorted (weak nm) l -> StronglySorted (fun a b => nocase_less (nm a) (nm b) = true) (vheads None l).
  Proof.
    intros S. inversion S as [|x r S1 F]; subst; cbn [vheads]; [constructor|].
    constructor; [apply vheads_sorted_q; assumption|]. apply Forall_forall. intros e He. apply (vheads_in _ _ _ S1 F) in He. apply He.
  Qed.
  Lemma seen_same a b seen : same_name a b -> existsb (same_nameb a) seen = existsb (same_nameb b) seen.
  Proof. intros S. unfold same_nameb. rewrite S. reflexivity. Qed.
  Lemma firsts_in seen l e : In e (firsts seen l) <-> (exists r, filter (is_eq nm (nm e)) l = e :: r) /\ existsb (same_nameb (nm e)) seen = false.
  Proof.
    revert seen. induction l as [|x l IH]; intros seen; cbn [firsts filter In].
    - split; [intros []|intros [(r & H) _]; discriminate].
    - destruct (existsb (same_nameb (nm x)) seen) eqn:SX.
      + rewrite IH. destruct (is_eq nm (nm e) x) eqn:EX; [|reflexivity]. apply eq_is in EX. rewrite (seen_same _ _ seen EX) in SX. split; intros [_ H]; congruence.
      + cbn [In]. rewrite IH. cbn [existsb]. destruct (is_eq nm (nm e) x) eqn:EX.
        * pose proof (proj1 (eq_is _ _) EX) as SM. split.
          -- intros [->|[_ H]]; [split; [eexists; reflexivity|exact SX]|]. exfalso. apply orb_false_iff in H. destruct H as [H _].
             unfold is_eq in EX. unfold same_nameb in *. rewrite (proj1 (beqb_eq _ _) EX) in H. rewrite beqb_refl in H. discriminate.
          -- intros [(r & H) _]. injection H as -> _. left. reflexivity.
        * assert (NS : same_nameb (nm e) (nm x) = false).
          { destruct (same_nameb (nm e) (nm x)) eqn:Z; [|reflexivity]. apply neq_is in EX. exfalso. apply EX. apply beqb_eq in Z. symmetry. exact Z. }
          rewrite NS. cbn [orb]. split; [intros [->|H]; [apply neq_is in EX; exfalso; apply EX; reflexivity|exact H]|auto].
  Qed.
  Lemma firsts_nodup seen l : NoDup (firsts seen l).
  Proof.
    revert seen. induction l as [|x l IH]; intros seen; cbn [firsts]; [constructor|]. destruct (existsb _ seen); [apply IH|]. constructor; [|apply IH].
    intros H. apply firsts_in in H. destruct H as [_ H]. cbn [existsb] in H. apply orb_false_iff in H. destruct H as [H _]. unfold same_nameb in H. rewrite beqb_refl in H. discriminate.
  Qed.
  Lemma strict_nodup l : StronglySorted (fun a b => nocase_less (nm a) (nm b) = true) l -> NoDup l.
  Proof.
    induction 1 as [|a l S IH F]; constructor; [|exact IH]. intros H. rewrite Forall_forall in F. specialize (F a H). rewrite nocase_irrefl in F. discriminate.
  Qed.
  Lemma heads_firsts l m : StronglySorted (weak nm) l -> (forall s, filter (is_eq nm s) m = Eqs nm s l) -> Permutation (vheads None l) (firsts [] m).
  Proof.
    intros S H. apply NoDup_Permutation; [apply strict_nodup; apply vheads_sorted; exact S|apply firsts_nodup|]. intros e. rewrite (vheads_in0 l e S), firsts_in, H.
    split; [intros E; split; [exact E|reflexivity]|intros [E _]; exact E].
  Qed.
End heads.

Lemma vheads_map {X Y} (f : X -> Y) (nm : Y -> bytes) last l : vheads nm last (map f l) = map f (vheads (fun x => nm (f x)) last l).
Proof. revert last. induction l as [|x l IH]; intros last; cbn; [reflexivity|]. destruct (match last with None => true | Some q => nocase_less q (nm (f x)) end); cbn; rewrite IH; reflexivity. Qed.
Lemma first_lines_map seen (l : vkeyed) : first_lines seen (map line l) = map line (firsts vn seen l).
Proof. revert seen. induction l as [|x l IH]; intros seen; cbn; [reflexivity|]. unfold vn at 1. destruct (existsb (same_nameb (r_name (fst x))) seen); cbn; rewrite IH; reflexivity. Qed.

(** the first lines of a section *)
Lemma keys_heads o l : kinv o l -> Permutation (vheads vn None l) (firsts vn [] (byord l)).
Proof. intros [K T B]. apply heads_firsts; [apply keys_weak; exact K|]. intros s. apply (filter_byord l s K T). Qed.
Lemma keys_told o l : kinv o l -> by_name (map key_told (first_lines [] (lines l))) = map (fun e => key_told (line e)) (vheads vn None l).
Proof.
  intros K. unfold lines. rewrite first_lines_map, map_map. apply by_name_is.
  - apply Permutation_map. apply Permutation_sym. apply (keys_heads o l K).
  - apply (sorted_map (fun e => key_told (line e)) told_before). apply (vheads_sorted vn). apply keys_weak. apply (ki_sorted _ _ K).
Qed.
Lemma secs_told o v : vinv o v -> by_name (map (fun p => (p_name p, p_comment p)) (parts v)) = map (fun e => (r_name (fst e), r_comment (fst e))) v.
Proof.
  intros I. unfold parts. rewrite map_map. apply by_name_is.
  - apply Permutation_map. apply Permutation_sym. apply byord_perm.
  - apply (sorted_map (fun e : rnamed * vkeyed => (r_name (fst e), r_comment (fst e))) told_before). apply (proj1 (sorted_map fst sec_before v)). apply (vi_sorted _ _ I).
Qed.
