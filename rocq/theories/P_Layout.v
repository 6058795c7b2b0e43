(** Layout of license texts. *)
From Verif Require Import Base CTypes StringUtils Dates Base64 HwId Registry Ini Network Disks ExecEnv Strategies Locate Licensecc.
From Verif Require Import P_Base Spec_Strings Spec_Ini P_Ini P_IniSave P_Acquire2 Spec_Acquire Spec_Ext P_Ext Spec_Layout.
From Coq Require Import Permutation Lia.

Lemma gap_plain g : gap g -> plain_line g.
Proof.
  intros H c Hc. unfold gap in H. rewrite forallb_forall in H. specialize (H c Hc). split; [apply gap_not_eol, H|].
  intros ->. discriminate H.
Qed.
Lemma plain_app a b : plain_line a -> plain_line b -> plain_line (a ++ b).
Proof. intros Ha Hb c Hc. apply in_app_or in Hc as [Hc|Hc]; auto. Qed.
Lemma plain_cons c b : is_eol c = false -> c <> NUL -> plain_line b -> plain_line (c :: b).
Proof. intros H1 H2 Hb x [<-|Hx]; auto. Qed.
Lemma clean_plain s : clean s -> plain_line s.
Proof. intros [H _]. exact H. Qed.
Lemma written_plain m l : written m l -> plain_line l.
Proof.
  intros H. destruct H as [g Hg|g c s Hg Hc Hs|g g1 n g2 s Hg H1 H2 [Hn _] Hs|g k g1 g2 v g3 Hg H1 H2 H3 [Hk _] Hv].
  - apply gap_plain, Hg.
  - apply plain_app; [apply gap_plain, Hg|]. destruct Hc as [-> | ->]; (apply plain_cons; [reflexivity|discriminate|exact Hs]).
  - apply plain_app; [apply gap_plain, Hg|]. apply plain_cons; [reflexivity|discriminate|]. repeat apply plain_app; auto using gap_plain, clean_plain. apply plain_cons; [reflexivity|discriminate|exact Hs].
  - repeat apply plain_app; auto using gap_plain, clean_plain. apply plain_cons; [reflexivity|discriminate|]. repeat apply plain_app; auto using gap_plain, clean_plain.
Qed.
Lemma strip_gaps_l g s : gap g -> strip (g ++ s) = strip s.
Proof. unfold gap. induction g as [|c g IH]; intros H; [reflexivity|]. cbn in H. apply andb_prop in H as [Hc Hg]. cbn [app]. rewrite strip_gap by exact Hc. apply IH, Hg. Qed.
Lemma strip_between g1 s g2 : gap g1 -> gap g2 -> clean s -> strip (g1 ++ s ++ g2) = s.
Proof. intros H1 H2 [_ H]. rewrite strip_gaps_l by exact H1. rewrite strip_app_gaps by exact H2. exact H. Qed.
Lemma rdrop_app f a b : (exists c, In c b /\ f c = false) -> rdrop_while f (a ++ b) = a ++ rdrop_while f b.
Proof.
  intros [c [Hc Hf]]. unfold rdrop_while. rewrite rev_app_distr. apply in_rev in Hc. revert Hc. generalize (rev b) as r. intros r Hc.
  assert (X : drop_while f (r ++ rev a) = drop_while f r ++ rev a).
  { induction r as [|x r IH]; [destruct Hc|]. cbn. destruct (f x) eqn:E; [|reflexivity]. destruct Hc as [->|Hc]; [congruence|]. apply IH, Hc. }
  rewrite X, rev_app_distr, rev_involutive. reflexivity.
Qed.
(** a line whose first character is no gap *)
Lemma strip_solid c s : is_gap c = false -> strip (c :: s) = c :: rdrop_while is_gap s.
Proof.
  intros H. rewrite strip_spec. cbn [drop_while]. rewrite H. destruct (rdrop_while_split is_gap s) as [t [E Ht]].
  unfold rdrop_while. cbn [rev]. fold (rdrop_while is_gap s).
  assert (X : forall r, rev (drop_while is_gap (r ++ [c])) = c :: rev (drop_while is_gap r)).
  { intros r. induction r as [|x r IH]; cbn; [rewrite H; reflexivity|]. destruct (is_gap x); [exact IH|]. cbn. rewrite rev_app_distr. reflexivity. }
  apply X.
Qed.
Lemma cut_at_here x a b : ~ In x a -> cut_at x (a ++ x :: b) = Some (a, b).
Proof.
  induction a as [|c a IH]; intros H; cbn; [rewrite Ascii.eqb_refl; reflexivity|].
  destruct (Ascii.eqb_spec c x) as [->|]; [destruct H; left; reflexivity|]. rewrite IH; [reflexivity|]. intros X. apply H. right. exact X.
Qed.
Lemma gap_not_in x g : is_gap x = false -> gap g -> ~ In x g.
Proof. intros H G X. unfold gap in G. rewrite forallb_forall in G. rewrite (G x X) in H. discriminate. Qed.
Lemma strip_rdrop s : strip (rdrop_while is_gap s) = strip s.
Proof. destruct (rdrop_while_split is_gap s) as [t [E Ht]]. rewrite E at 2. rewrite strip_app_gaps by exact Ht. reflexivity. Qed.

Theorem written_means m l : written m l -> meaning l = m /\ not_open l.
Proof.
  intros H. unfold not_open, meaning. destruct H as [g Hg|g c s Hg Hc Hs|g g1 n g2 s Hg H1 H2 [Hn Hb] Hs|g k g1 g2 v g3 Hg H1 H2 H3 [Hk [He [c [r [-> Hc]]]]] Hv].
  - replace (strip g) with (@nil ascii) by (rewrite <- (app_nil_r g), strip_gaps_l by exact Hg; reflexivity). auto.
  - rewrite strip_gaps_l by exact Hg. assert (is_gap c = false) by (destruct Hc as [-> | ->]; reflexivity). rewrite strip_solid by assumption.
    destruct Hc as [-> | ->]; cbn; auto.
  - rewrite strip_gaps_l by exact Hg. rewrite strip_solid by reflexivity.
    replace (g1 ++ n ++ g2 ++ "]"%char :: s) with ((g1 ++ n ++ g2) ++ "]"%char :: s) by (rewrite <- !app_assoc; reflexivity).
    rewrite rdrop_app by (exists "]"%char; split; [left; reflexivity|reflexivity]).
    assert (E : exists s', rdrop_while is_gap ("]"%char :: s) = "]"%char :: s').
    { exists (rdrop_while is_gap s). pose proof (strip_solid "]" s eq_refl) as X. rewrite strip_spec in X. exact X. }
    destruct E as [s' ->]. rewrite cut_at_here.
    2:{ intros X. rewrite !in_app_iff in X. destruct X as [X|[X|X]]; [eapply gap_not_in; [|exact H1|exact X]; reflexivity|contradiction|eapply gap_not_in; [|exact H2|exact X]; reflexivity]. }
    rewrite strip_between by assumption. cbn. split; [reflexivity|]. destruct (g1 ++ n ++ g2); reflexivity.
  - rewrite strip_gaps_l by exact Hg. assert (Gc : is_gap c = false) by (eapply strip_id_head; exact (proj2 Hk)).
    cbn [app]. rewrite strip_solid by exact Gc.
    assert (C1 : Ascii.eqb c ";" = false) by (apply Ascii.eqb_neq; intros ->; apply Hc; cbn; auto).
    assert (C2 : Ascii.eqb c "#" = false) by (apply Ascii.eqb_neq; intros ->; apply Hc; cbn; auto).
    assert (C3 : Ascii.eqb c "[" = false) by (apply Ascii.eqb_neq; intros ->; apply Hc; cbn; auto).
    rewrite C1, C2, C3. cbn [orb]. cbn [cut_at]. assert (C4 : Ascii.eqb c "=" = false) by (apply Ascii.eqb_neq; intros ->; apply He; left; reflexivity). rewrite C4.
    replace (r ++ g1 ++ "="%char :: g2 ++ v ++ g3) with ((r ++ g1) ++ "="%char :: g2 ++ v ++ g3) by (rewrite <- !app_assoc; reflexivity).
    rewrite rdrop_app by (exists "="%char; split; [left; reflexivity|reflexivity]).
    pose proof (strip_solid "=" (g2 ++ v ++ g3) eq_refl) as X. rewrite strip_spec in X. cbn [drop_while] in X. change (is_gap "=") with false in X. cbv iota in X. rewrite X. clear X.
    rewrite cut_at_here.
    2:{ intros X. apply in_app_or in X as [X|X]; [apply He; right; exact X|eapply gap_not_in; [|exact H1|exact X]; reflexivity]. }
    rewrite strip_rdrop, strip_between by assumption. split.
    + f_equal. change (c :: r ++ g1) with ((c :: r) ++ g1). rewrite strip_app_gaps by exact H1. exact (proj2 Hk).
    + cbn [beqb]. rewrite C3. reflexivity.
Qed.

(** what the lines of a text say, from a section on *)
Fixpoint told_by (sec : section) (ms : list line_meaning) : list item :=
  match ms with
  | [] => []
  | LNothing :: r => told_by sec r
  | LHeader n :: r => ISection n :: told_by (SecNamed n) r
  | LBroken :: r => told_by SecBroken r
  | LEntry k v :: r => IEntry sec k v :: told_by sec r
  end.
Lemma read_lines_told sec ls : Forall not_open ls -> read_lines sec false ls = told_by sec (flat_map (fun l => kept (meaning l)) ls).
Proof.
  intros H. revert sec. induction H as [|l ls Hl H IH]; intros sec; [reflexivity|]. cbn [read_lines flat_map]. cbv zeta. rewrite Hl.
  destruct (meaning l); cbn [kept app told_by]; rewrite IH; reflexivity.
Qed.
Lemma plain_eol_free l : plain_line l -> eol_free l.
Proof. intros H. unfold eol_free. apply forallb_forall. intros c Hc. rewrite not_nl_eol. destruct (H c Hc) as [-> _]. reflexivity. Qed.
Lemma plain_nul l : plain_line l -> nul_free l.
Proof. intros H. apply nul_free_in. intros X. destruct (H _ X) as [_ N]. apply N. reflexivity. Qed.
Theorem sets_out_lines ms text : sets_out ms text ->
  nul_free text /\ Forall not_open (lines text) /\ flat_map (fun l => kept (meaning l)) (lines text) = ms.
Proof.
  induction 1 as [m l Hw|m l e ms text Hw He H [IN [IO IM]]]; pose proof (written_plain _ _ Hw) as Hp; destruct (written_means _ _ Hw) as [Hm Ho].
  - split; [apply plain_nul, Hp|]. rewrite <- (app_nil_r l), lines_split; [|apply plain_eol_free, Hp|exact I]. cbn [after tl flat_map]. rewrite app_nil_r, Hm. auto.
  - split; [|].
    + apply nul_free_app. split; [apply plain_nul, Hp|]. apply nul_free_app. split; [|exact IN]. destruct He as [->|[->| ->]]; reflexivity.
    + rewrite lines_split; [|apply plain_eol_free, Hp|destruct He as [->|[->| ->]]; reflexivity].
      destruct He as [->|[->| ->]]; cbn [app after tl flat_map]; rewrite ?Hm.
      * rewrite IM. auto.
      * rewrite IM. auto.
      * cbn [lines]. change (is_eol LF) with true. cbv iota. cbn [flat_map]. change (kept (meaning [])) with (@nil line_meaning). cbn [app]. rewrite IM. split; [|reflexivity]. constructor; [exact Ho|]. constructor; [reflexivity|exact IO].
Qed.
Lemma told_document sec d : told_by sec (statements d) = flat_map (fun s => ISection (fst s) :: map (fun e => IEntry (SecNamed (fst s)) (fst e) (snd e)) (snd s)) d.
Proof.
  revert sec. induction d as [|[n es] d IH]; intros sec; [reflexivity|]. cbn [statements flat_map fst snd app told_by]. f_equal. fold (statements d).
  induction es as [|[k v] es IHe]; cbn [map app told_by]; [apply IH|]. rewrite IHe. reflexivity.
Qed.
Theorem rendered_entries d text f : renders d text -> section_entries text f = document_entries d f.
Proof.
  intros H. apply sets_out_lines in H as [HN [HO HM]]. unfold section_entries, text_items. rewrite cstr_id by exact HN. rewrite read_lines_told, HM, told_document by exact HO.
  clear HN HO HM. unfold document_entries. induction d as [|[n es] d IH]; [reflexivity|]. cbn [flat_map fst snd app item_entries]. rewrite flat_map_app. f_equal; [|apply IH].
  clear. destruct (same_nameb n f) eqn:E; induction es as [|[k v] es IH]; cbn [map flat_map item_entries fst snd app]; rewrite ?E, ?IH; reflexivity.
Qed.

(** reordering *)
Lemma distinct_in {V} (l : list (bytes * V)) : distinct_names l -> forall a b k k', In (k, a) l -> In (k', b) l -> same_name k k' -> k = k' /\ a = b.
Proof.
  induction l as [|[n v] l IH]; intros D a b k k' Ha Hb S; [destruct Ha|]. destruct D as [D1 D2]. destruct Ha as [Ha|Ha], Hb as [Hb|Hb].
  - injection Ha as <- <-. injection Hb as <- <-. auto.
  - injection Ha as <- <-. destruct (D1 _ _ Hb S).
  - injection Hb as <- <-. symmetry in S. destruct (D1 _ _ Ha S).
  - eapply IH; eassumption.
Qed.
Lemma distinct_first es k k1 v : distinct_names es -> In (k1, v) es -> same_nameb k1 k = true -> first_spelling es k = Some k1 /\ last_value es k = Some v.
Proof.
  induction es as [|[n x] es IH]; intros D Hi Hk; [destruct Hi|]. destruct D as [D1 D2]. cbn [first_spelling last_value]. destruct Hi as [Hi|Hi].
  - injection Hi as <- <-. rewrite Hk. split; [reflexivity|]. destruct (last_value es k) as [v'|] eqn:E; [|reflexivity]. exfalso.
    destruct (same_nameb_spec n k) as [S|]; [|discriminate]. assert (N : last_value es k = None); [|congruence].
    apply last_value_none. intros k' w Hin Sk. eapply D1; [exact Hin|]. unfold same_name in *. congruence.
  - destruct (IH D2 Hi Hk) as [I1 I2]. rewrite I1, I2. destruct (same_nameb n k) eqn:E; [|auto]. exfalso.
    destruct (same_nameb_spec k1 k) as [S1|]; [|discriminate]. destruct (same_nameb_spec n k) as [S2|]; [|discriminate]. eapply D1; [exact Hi|]. unfold same_name in *. congruence.
Qed.
Lemma distinct_perm {V} (a b : list (bytes * V)) : distinct_names a -> Permutation a b -> distinct_names b.
Proof.
  intros D P. revert D. induction P as [|[n v] a b P IH|[n v] [m x] a|a b c P1 IH1 P2 IH2]; intros D; [exact I| | |auto].
  - destruct D as [D1 D2]. split; [|auto]. intros n' v' Hin. apply Permutation_sym in P. apply (D1 n' v'), (Permutation_in _ P Hin).
  - destruct D as [D1 [D2 D3]]. split; [|split; [|exact D3]].
    + intros n' v' [E|Hin] S; [injection E as <- <-; eapply D1; [left; reflexivity|symmetry; exact S]|]. eapply D2; eassumption.
    + intros n' v' Hin. apply D1 with v'. right. exact Hin.
Qed.
Lemma alike_permuted es es' : distinct_names es -> Permutation es es' -> distinct_names es' /\ alike es es'.
Proof.
  intros D P. pose proof (distinct_perm _ _ D P) as D'.
  split; [exact D'|]. intros k. destruct (first_spelling es k) as [k1|] eqn:E.
  - assert (X : exists v, In (k1, v) es).
    { clear -E. induction es as [|[n v] es IH]; [discriminate|]. cbn [first_spelling] in E. destruct (same_nameb n k); [injection E as <-; exists v; left; reflexivity|]. destruct (IH E) as [x Hx]. exists x. right. exact Hx. }
    destruct X as [v Hv]. apply first_spelling_same in E. destruct (distinct_first _ _ _ _ D Hv E) as [_ ->]. destruct (distinct_first _ _ _ _ D' (Permutation_in _ P Hv) E) as [-> ->]. auto.
  - assert (N : forall l, Permutation es l -> first_spelling l k = None /\ last_value l k = None).
    { intros l Pl. assert (X : forall k' v', In (k', v') l -> ~ same_name k' k).
      { intros k' v' Hin S. apply Permutation_sym in Pl. apply (Permutation_in _ Pl) in Hin. apply existsb_first in E. assert (Y : existsb (fun e : bytes * bytes => same_nameb (fst e) k) es = true); [|congruence].
        apply existsb_exists. exists (k', v'). split; [exact Hin|]. cbn [fst]. destruct (same_nameb_spec k' k); [reflexivity|contradiction]. }
      split; [|apply last_value_none; exact X]. apply existsb_first. destruct (existsb _ l) eqn:Y; [|reflexivity]. apply existsb_exists in Y as [[k' v'] [Hin Y]]. cbn [fst] in Y. destruct (same_nameb_spec k' k) as [S|]; [|discriminate]. destruct (X _ _ Hin S). }
    destruct (N es (Permutation_refl es)) as [_ ->]. destruct (N es' P) as [-> ->]. auto.
Qed.
Lemma entries_of_distinct d f : distinct_names d ->
  (document_entries d f = [] /\ forall n es, In (n, es) d -> same_nameb n f = false) \/ exists n es, In (n, es) d /\ same_nameb n f = true /\ document_entries d f = es.
Proof.
  induction d as [|[n es] d IH]; intros D; [left; split; [reflexivity|intros n es []]|]. destruct D as [D1 D2]. unfold document_entries. cbn [flat_map fst snd]. fold (document_entries d f).
  destruct (same_nameb n f) eqn:E.
  - right. exists n, es. split; [left; reflexivity|]. split; [exact E|]. destruct (IH D2) as [[-> _]|[n' [es' [Hin [S _]]]]]; [apply app_nil_r|]. exfalso.
    destruct (same_nameb_spec n f) as [S1|]; [|discriminate]. destruct (same_nameb_spec n' f) as [S2|]; [|discriminate]. eapply D1; [exact Hin|]. unfold same_name in *. congruence.
  - cbn [app]. destruct (IH D2) as [[-> N]|[n' [es' [Hin [S X]]]]]; [left|right; exists n', es'; auto using in_cons]. split; [reflexivity|]. intros n' es' [H|H]; [injection H as <- <-; exact E|eapply N, H].
Qed.
Lemma same_name_left a b f : same_name a b -> same_nameb a f = same_nameb b f.
Proof. intros E. unfold same_nameb. rewrite E. reflexivity. Qed.
Theorem reordered_alike d d' f : reordered d d' -> alike (document_entries d f) (document_entries d' f).
Proof.
  intros [D [De [d1 [P F]]]].
  assert (D1 : distinct_names d1) by (apply distinct_perm with d; assumption).
  destruct (entries_of_distinct d f D) as [[-> N]|[n [es [Hin [Hn ->]]]]].
  - replace (document_entries d' f) with (@nil (bytes * bytes)); [apply alike_refl|]. symmetry. apply Permutation_sym in P.
    assert (N1 : forall n es, In (n, es) d1 -> same_nameb n f = false) by (intros n es H; eapply N, Permutation_in; eassumption).
    clear -F N1. induction F as [|[n es] [n' es'] d1 d' [E _] F IH]; [reflexivity|]. cbn [fst] in E. unfold document_entries. cbn [flat_map fst snd]. rewrite <- (same_name_left _ _ f E), (N1 n es) by (left; reflexivity). apply IH. intros m x Hx. eapply N1. right. exact Hx.
  - assert (E1 : document_entries d1 f = es).
    { destruct (entries_of_distinct d1 f D1) as [[_ N]|[n' [es' [Hin' [Hn' ->]]]]].
      - rewrite (N n es) in Hn by (eapply Permutation_in; eassumption). discriminate.
      - apply Permutation_sym in P. apply (Permutation_in _ P) in Hin'. destruct (same_nameb_spec n f) as [S1|]; [|discriminate]. destruct (same_nameb_spec n' f) as [S2|]; [|discriminate].
        destruct (distinct_in d D _ _ _ _ Hin' Hin) as [_ X]; [unfold same_name in *; congruence|exact X]. }
    rewrite <- E1. assert (X : Permutation (document_entries d1 f) (document_entries d' f)).
    { clear -F. induction F as [|[m x] [m' x'] d1 d' [E Px] F IH]; [constructor|]. cbn [fst snd] in E, Px. unfold document_entries. cbn [flat_map fst snd]. rewrite <- (same_name_left _ _ f E). apply Permutation_app; [destruct (same_nameb m f); [exact Px|constructor]|exact IH]. }
    rewrite E1 in *. apply (alike_permuted _ _ (De _ _ Hin) X).
Qed.
Lemma same_alike d d' f : same_document d d' -> alike (document_entries d f) (document_entries d' f).
Proof. intros [->|H]; [apply alike_refl|apply reordered_alike, H]. Qed.
