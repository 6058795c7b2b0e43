(** Proofs about the INI reader. *)
From Verif Require Import Base CTypes StringUtils Ini P_Base P_Strings Spec_Ini.

(** ** Characters *)
Lemma is_eol_nl c : is_eol c = is_nl c.
Proof. reflexivity. Qed.
Lemma ini_space_cases c : ini_space c = is_gap c || is_eol c.
Proof. unfold ini_space, is_gap, is_eol, SP, TAB, CR, LF. destruct (Ascii.eqb c " "), (Ascii.eqb c "009"), (Ascii.eqb c "013"), (Ascii.eqb c "010"); reflexivity. Qed.
Lemma gap_not_eol c : is_gap c = true -> is_eol c = false.
Proof.
  unfold is_gap, is_eol. intros H. apply orb_prop in H as [H|H]; apply Ascii.eqb_eq in H; subst; reflexivity.
Qed.
Lemma not_nl_eol c : not_nl c = negb (is_eol c).
Proof. reflexivity. Qed.

(** ** strip *)
Lemma lstrip_drop s : lstrip s = drop_while is_gap s.
Proof. induction s as [|c r IH]; cbn; [reflexivity|]. rewrite IH. reflexivity. Qed.
Lemma strip_spec s : strip s = rdrop_while is_gap (drop_while is_gap s).
Proof. unfold strip, rdrop_while. rewrite !lstrip_drop. reflexivity. Qed.

Definition eol_free (s : bytes) : Prop := forallb not_nl s = true.
Lemma eol_free_cons c s : eol_free (c :: s) <-> is_eol c = false /\ eol_free s.
Proof. unfold eol_free. cbn. rewrite andb_true_iff, not_nl_eol, negb_true_iff. tauto. Qed.
Lemma eol_free_app a b : eol_free (a ++ b) <-> eol_free a /\ eol_free b.
Proof. unfold eol_free. rewrite forallb_app, andb_true_iff. tauto. Qed.

Lemma drop_while_free s : eol_free s -> drop_while ini_space s = drop_while is_gap s.
Proof.
  induction s as [|c r IH]; intros H; [reflexivity|]. apply eol_free_cons in H as [Hc Hr]. cbn.
  rewrite ini_space_cases, Hc, orb_false_r. destruct (is_gap c); [apply IH, Hr|reflexivity].
Qed.
Lemma eol_free_rev s : eol_free s -> eol_free (rev s).
Proof. unfold eol_free. rewrite forallb_rev. auto. Qed.
Lemma eol_free_drop f s : eol_free s -> eol_free (drop_while f s).
Proof.
  induction s as [|c r IH]; intros H; [exact H|]. cbn. destruct (f c); [|exact H].
  apply eol_free_cons in H as [_ H]. apply IH, H.
Qed.
Lemma rdrop_while_free s : eol_free s -> rdrop_while ini_space s = rdrop_while is_gap s.
Proof. intros H. unfold rdrop_while. rewrite drop_while_free; [reflexivity|apply eol_free_rev, H]. Qed.

(** ** lines *)
Definition at_eol (t : bytes) : Prop := match t with [] => True | c :: _ => is_eol c = true end.
Definition after (t : bytes) : list bytes := match t with [] => [] | _ :: b => lines b end.

Lemma lines_nonnil s : lines s <> [].
Proof. destruct s as [|c r]; cbn; [discriminate|]. destruct (is_eol c); [discriminate|]. destruct (lines r); discriminate. Qed.

Lemma lines_at_eol t : at_eol t -> lines t = [] :: after t.
Proof. destruct t as [|c b]; cbn; [reflexivity|]. intros ->. reflexivity. Qed.

Lemma lines_split a t : eol_free a -> at_eol t -> lines (a ++ t) = a :: after t.
Proof.
  intros Ha Ht. induction a as [|c a IH]; cbn [app]; [apply lines_at_eol, Ht|].
  apply eol_free_cons in Ha as [Hc Ha]. cbn [lines]. rewrite Hc, IH by exact Ha. reflexivity.
Qed.

Lemma line_end s : exists a t, s = a ++ t /\ eol_free a /\ at_eol t.
Proof.
  exists (fst (span not_nl s)), (snd (span not_nl s)).
  pose proof (span_app not_nl s) as H. pose proof (span_fst_all not_nl s) as H1. pose proof (span_snd_head not_nl s) as H2.
  destruct (span not_nl s) as [a t]. cbn [fst snd] in *. split; [exact H|]. split; [exact H1|].
  destruct t as [|c b]; cbn in *; [exact I|]. rewrite not_nl_eol, negb_false_iff in H2. exact H2.
Qed.

Lemma to_eol_split a t : eol_free a -> at_eol t -> to_eol (a ++ t) = t.
Proof.
  intros Ha Ht. unfold to_eol. rewrite drop_while_app by exact Ha. apply drop_while_id.
  destruct t as [|c b]; cbn in *; [exact I|]. rewrite not_nl_eol, Ht. reflexivity.
Qed.

(** ** Blank lines and leading blanks do not matter *)
Lemma strip_gap c s : is_gap c = true -> strip (c :: s) = strip s.
Proof. intros H. rewrite !strip_spec. cbn. rewrite H. reflexivity. Qed.

Lemma read_blank sec l ls : strip l = [] -> read_lines sec false (l :: ls) = read_lines sec false ls.
Proof. intros H. cbn [read_lines]. unfold meaning. rewrite H. reflexivity. Qed.

Lemma read_gap sec c l ls : is_gap c = true -> read_lines sec false ((c :: l) :: ls) = read_lines sec false (l :: ls).
Proof. intros H. cbn [read_lines]. unfold meaning. rewrite strip_gap by exact H. reflexivity. Qed.

(** a "[" followed by blanks *)
Lemma strip_open s : strip ("["%char :: s) = "["%char :: rdrop_while is_gap s.
Proof.
  rewrite strip_spec. cbn [drop_while]. change (is_gap "[") with false. cbn iota.
  destruct (rdrop_while_split is_gap s) as [t [E Ht]].
  rewrite E at 1. change ("["%char :: rdrop_while is_gap s ++ t) with (("["%char :: rdrop_while is_gap s) ++ t).
  rewrite rdrop_while_app by exact Ht. apply rdrop_while_id.
  pose proof (rdrop_while_last is_gap s) as H. destruct (rdrop_while is_gap s) as [|x y] eqn:Ex using rev_ind; [reflexivity|].
  change ("["%char :: y ++ [x]) with (("["%char :: y) ++ [x]). apply last_not_app. apply last_not_app in H. exact H.
Qed.

Lemma rdrop_nil_iff f s : rdrop_while f s = [] <-> forallb f s = true.
Proof.
  split; [|apply rdrop_while_all]. intros H. destruct (rdrop_while_split f s) as [t [E Ht]]. rewrite H in E. cbn in E. subst. exact Ht.
Qed.

Lemma cut_at_app_none x s t : cut_at x s = None -> (forall a, cut_at x t <> Some a) -> cut_at x (s ++ t) = None.
Proof.
  intros Hs Ht. induction s as [|c s IH]; cbn in *.
  - destruct (cut_at x t) eqn:E; [exfalso; eapply Ht; exact eq_refl|reflexivity].
  - destruct (Ascii.eqb c x); [discriminate|]. destruct (cut_at x s) as [[? ?]|]; [discriminate|]. rewrite IH; reflexivity.
Qed.
Lemma cut_at_app_some x s t a b : cut_at x s = Some (a, b) -> cut_at x (s ++ t) = Some (a, b ++ t).
Proof.
  revert a; induction s as [|c s IH]; intros a; cbn; [discriminate|].
  destruct (Ascii.eqb c x); [intros [= <- <-]; reflexivity|].
  destruct (cut_at x s) as [[a' b']|]; [|discriminate]. intros [= <- <-]. rewrite (IH a') by reflexivity. reflexivity.
Qed.
Lemma cut_at_gaps x t : is_gap x = false -> forallb is_gap t = true -> cut_at x t = None.
Proof.
  intros Hx. induction t as [|c t IH]; cbn; [reflexivity|]. intros H. apply andb_prop in H as [Hc Ht].
  destruct (Ascii.eqb_spec c x) as [->|]; [congruence|]. rewrite IH by exact Ht. reflexivity.
Qed.

Lemma cut_at_rdrop x s : is_gap x = false ->
  match cut_at x s with
  | Some (a, b) => exists b', cut_at x (rdrop_while is_gap s) = Some (a, b') /\ exists t, b = b' ++ t /\ forallb is_gap t = true
  | None => cut_at x (rdrop_while is_gap s) = None
  end.
Proof.
  intros Hx. destruct (rdrop_while_split is_gap s) as [t [E Ht]]. set (r := rdrop_while is_gap s) in *. clearbody r. subst s.
  destruct (cut_at x r) as [[a b]|] eqn:Er.
  - rewrite (cut_at_app_some _ _ _ _ _ Er). exists b. split; [reflexivity|]. exists t. auto.
  - rewrite cut_at_app_none; [reflexivity|exact Er|]. intros a. rewrite cut_at_gaps by assumption. discriminate.
Qed.

Lemma strip_app_gaps s t : forallb is_gap t = true -> strip (s ++ t) = strip s.
Proof.
  intros Ht. rewrite !strip_spec. destruct (drop_while_split is_gap s) as [p [E Hp]].
  destruct (drop_while is_gap s) as [|c r] eqn:Ed.
  - rewrite app_nil_r in E. subst s. rewrite drop_while_app by exact Hp. rewrite drop_while_all by exact Ht. reflexivity.
  - assert (drop_while is_gap (s ++ t) = (c :: r) ++ t) as ->.
    { rewrite E, <- app_assoc, drop_while_app by exact Hp. apply drop_while_id.
      pose proof (drop_while_head is_gap s) as H. rewrite Ed in H. exact H. }
    apply rdrop_while_app, Ht.
Qed.

(** reading in "open bracket" mode *)
Definition open_meaning (sec : section) (l : bytes) (ls : list bytes) : list item :=
  if forallb is_gap l then read_lines sec true ls
  else match cut_at "]"%char l with
       | Some (n, _) => ISection (strip n) :: read_lines (SecNamed (strip n)) false ls
       | None => read_lines SecBroken false ls
       end.

Lemma read_bracket sec l ls :
  (if beqb (strip ("["%char :: l)) ["["%char] then read_lines sec true ls
   else match meaning ("["%char :: l) with
        | LNothing => read_lines sec false ls
        | LHeader n => ISection n :: read_lines (SecNamed n) false ls
        | LBroken => read_lines SecBroken false ls
        | LEntry k v => IEntry sec k v :: read_lines sec false ls
        end) = open_meaning sec l ls.
Proof.
  unfold open_meaning, meaning. rewrite strip_open. cbn [beqb]. rewrite Ascii.eqb_refl. cbn [andb].
  destruct (forallb is_gap l) eqn:Eg.
  - rewrite (proj2 (rdrop_nil_iff is_gap l) Eg). reflexivity.
  - assert (beqb (rdrop_while is_gap l) [] = false) as ->.
    { apply beqb_false. intros H. apply rdrop_nil_iff in H. congruence. }
    change (Ascii.eqb "[" ";" || Ascii.eqb "[" "#") with false. change (Ascii.eqb "[" "[") with true. cbn iota.
    pose proof (cut_at_rdrop "]"%char l eq_refl) as H. destruct (cut_at "]" l) as [[a b]|].
    + destruct H as [b' [-> _]]. reflexivity.
    + rewrite H. reflexivity.
Qed.

Lemma read_open sec l ls : read_lines sec true (l :: ls) = open_meaning sec l ls.
Proof. cbn [read_lines]. apply read_bracket. Qed.
Lemma read_closed_bracket sec l ls : read_lines sec false (("["%char :: l) :: ls) = open_meaning sec l ls.
Proof. cbn [read_lines]. apply read_bracket. Qed.

Lemma read_open_gap sec c l ls : is_gap c = true -> read_lines sec true ((c :: l) :: ls) = read_lines sec true (l :: ls).
Proof.
  intros Hc. rewrite !read_open. unfold open_meaning. cbn [forallb]. rewrite Hc. cbn [andb].
  destruct (forallb is_gap l); [reflexivity|]. cbn [cut_at].
  destruct (Ascii.eqb_spec c "]"%char) as [->|_]; [discriminate|].
  destruct (cut_at "]" l) as [[a b]|]; [|reflexivity]. rewrite strip_gap by exact Hc. reflexivity.
Qed.

Definition sem (sec : section) (open : bool) (s : bytes) : list item := read_lines sec open (lines s).

Lemma sem_space sec open c s : ini_space c = true -> sem sec open (c :: s) = sem sec open s.
Proof.
  intros H. rewrite ini_space_cases in H. unfold sem. cbn [lines].
  destruct (is_eol c) eqn:Ee.
  - destruct open; [rewrite read_open; reflexivity|apply read_blank; reflexivity].
  - rewrite orb_false_r in H. destruct (lines s) as [|l ls] eqn:El; [exfalso; eapply lines_nonnil; exact El|].
    destruct open; [apply read_open_gap, H|apply read_gap, H].
Qed.
Lemma sem_spaces sec open s : sem sec open (drop_while ini_space s) = sem sec open s.
Proof.
  induction s as [|c s IH]; [reflexivity|]. cbn [drop_while]. destruct (ini_space c) eqn:E; [|reflexivity]. rewrite IH, sem_space by exact E. reflexivity.
Qed.
Lemma sem_open sec s : sem sec false ("["%char :: s) = sem sec true s.
Proof.
  unfold sem. cbn [lines]. change (is_eol "[") with false. cbn iota.
  destruct (lines s) as [|l ls] eqn:El; [exfalso; eapply lines_nonnil; exact El|]. rewrite read_closed_bracket, read_open. reflexivity.
Qed.
Lemma sem_after sec t : at_eol t -> sem sec false t = read_lines sec false (after t).
Proof. intros H. unfold sem. rewrite lines_at_eol by exact H. apply read_blank. reflexivity. Qed.
Lemma sem_skip_newline sec t : at_eol t -> t <> [] -> sem sec false (skip_newline t) = read_lines sec false (after t).
Proof.
  intros H Hn. destruct t as [|c b]; [congruence|]. cbn [skip_newline after tl]. destruct b as [|d b]; [reflexivity|].
  destruct (Ascii.eqb c CR && Ascii.eqb d LF) eqn:E; [|reflexivity].
  apply andb_prop in E as [_ E]. apply Ascii.eqb_eq in E. subst d. symmetry. apply (sem_space sec false LF b). reflexivity.
Qed.

Lemma sem_comment sec c a t : ini_comment c = true -> eol_free (c :: a) -> at_eol t ->
  sem sec false ((c :: a) ++ t) = read_lines sec false (after t).
Proof.
  intros Hc Ha Ht. unfold sem. rewrite lines_split by assumption. cbn [read_lines].
  assert (Hm : strip (c :: a) = c :: tl (strip (c :: a))).
  { rewrite strip_spec. unfold ini_comment in Hc. assert (is_gap c = false) as Hg.
    { apply orb_prop in Hc as [E|E]; apply Ascii.eqb_eq in E; subst; reflexivity. }
    cbn [drop_while]. rewrite Hg. destruct (rdrop_while_split is_gap (c :: a)) as [q [E Hq]].
    destruct (rdrop_while is_gap (c :: a)) as [|x y]; [|cbn in *; congruence].
    cbn in E. rewrite <- E in Hq. cbn in Hq. rewrite Hg in Hq. discriminate. }
  assert (Hb : beqb (strip (c :: a)) ["["%char] = false).
  { apply beqb_false. intros E. rewrite E in Hm. injection Hm as <-. discriminate. }
  rewrite Hb. unfold meaning. rewrite Hm. unfold ini_comment in Hc. rewrite Hc. reflexivity.
Qed.

(** ** Comment skipping *)
Lemma skip_comment_ok f blank s sec : length s <= f ->
  exists s', skip_comment f blank s = Some s' /\ sem sec false s' = sem sec false s /\ length s' <= length s /\
    (forall c r, s = c :: r -> ini_comment c = true -> length s' < length s).
Proof.
  revert s; induction f as [|f IH]; intros s Hf.
  - destruct s as [|c r]; [|cbn in Hf; lia]. exists []. cbn. repeat split; auto. intros; discriminate.
  - destruct s as [|c r]; [exists []; cbn; repeat split; auto; intros; discriminate|].
    cbn [skip_comment]. destruct (ini_comment c) eqn:Ec.
    + destruct (line_end (c :: r)) as [a [t [E [Ha Ht]]]]. assert (to_eol (c :: r) = t) as -> by (rewrite E; apply to_eol_split; assumption).
      destruct a as [|c' a].
      { cbn in E. subst t. cbn in Ht. unfold ini_comment in Ec. exfalso. apply orb_prop in Ec as [E|E]; apply Ascii.eqb_eq in E; subst; discriminate. }
      injection E as <- ->.
      assert (Hsem : sem sec false (c :: a ++ t) = read_lines sec false (after t)) by (apply (sem_comment sec c a t); assumption).
      destruct t as [|d b].
      * exists []. rewrite Hsem. cbn. repeat split; auto; intros; lia.
      * assert (Hlen : length (skip_newline (d :: b)) <= length b).
        { cbn [skip_newline tl]. destruct b as [|e b]; [cbn; lia|]. destruct (_ && _); cbn; lia. }
        cbn [length] in Hf. rewrite app_length in Hf. cbn [length] in Hf.
        destruct (IH (skip_newline (d :: b))) as [s' [E' [Hs [Hl _]]]]; [lia|].
        exists s'. split; [exact E'|]. rewrite Hs, Hsem. split; [apply sem_skip_newline; [exact Ht|discriminate]|].
        cbn [length]. rewrite app_length. cbn [length]. split; [lia|]. intros; lia.
    + assert (Hno : forall c0 r0, c :: r = c0 :: r0 -> ini_comment c0 = true -> forall P : Prop, P) by (intros ? ? [= <- <-]; congruence).
      assert (Hsame : exists s', Some (c :: r) = Some s' /\ sem sec false s' = sem sec false (c :: r) /\ length s' <= length (c :: r) /\
         (forall c0 r0, c :: r = c0 :: r0 -> ini_comment c0 = true -> length s' < length (c :: r))).
      { exists (c :: r). repeat split; auto. intros c0 r0 H1 H2. apply (Hno _ _ H1 H2). }
      destruct blank; [|exact Hsame].
      destruct (drop_while ini_space (c :: r)) as [|d q] eqn:Ed; [exact Hsame|].
      destruct (ini_comment d) eqn:Edc; [|exact Hsame].
      assert (Hlt : length (d :: q) < length (c :: r)).
      { cbn [drop_while] in Ed. destruct (ini_space c) eqn:Es.
        - pose proof (drop_while_length ini_space r) as H. rewrite Ed in H. cbn in *. lia.
        - injection Ed as <- <-. congruence. }
      destruct (IH (d :: q)) as [s' [E' [Hs [Hl _]]]]; [cbn in *; lia|].
      exists s'. split; [exact E'|]. split; [rewrite Hs, <- Ed; apply sem_spaces|]. split; [lia|]. intros c0 r0 H1 H2. apply (Hno _ _ H1 H2).
Qed.

(** ** The scanner computes the line by line reading *)
Lemma cut_at_span x s a b : forallb (fun c => negb (Ascii.eqb c x)) a = true -> s = a ++ x :: b -> cut_at x s = Some (a, b).
Proof.
  intros Ha ->. induction a as [|c a IH]; cbn in *; [rewrite Ascii.eqb_refl; reflexivity|].
  apply andb_prop in Ha as [Hc Ha]. apply negb_true_iff in Hc. rewrite Hc, (IH Ha). reflexivity.
Qed.
Lemma cut_at_absent x a : forallb (fun c => negb (Ascii.eqb c x)) a = true -> cut_at x a = None.
Proof.
  induction a as [|c a IH]; cbn; [reflexivity|]. intros H. apply andb_prop in H as [Hc Ha]. apply negb_true_iff in Hc.
  rewrite Hc, (IH Ha). reflexivity.
Qed.

Lemma span_key x s key rest : span (fun c => negb (Ascii.eqb c x) && not_nl c) s = (key, rest) ->
  s = key ++ rest /\ eol_free key /\ forallb (fun c => negb (Ascii.eqb c x)) key = true /\
  match rest with [] => True | d :: _ => d = x \/ (d <> x /\ is_eol d = true) end.
Proof.
  intros E. pose proof (span_app (fun c => negb (Ascii.eqb c x) && not_nl c) s) as H.
  pose proof (span_fst_all (fun c => negb (Ascii.eqb c x) && not_nl c) s) as H1.
  pose proof (span_snd_head (fun c => negb (Ascii.eqb c x) && not_nl c) s) as H2.
  rewrite E in *. cbn [fst snd] in *. split; [exact H|].
  assert (forall f g (l : bytes), forallb (fun c => f c && g c) l = true -> forallb f l = true /\ forallb g l = true) as Hfg.
  { intros f g l. induction l as [|y l IH]; cbn; [auto|]. intros Hl. apply andb_prop in Hl as [Hy Hl]. apply andb_prop in Hy as [-> ->].
    cbn. auto. }
  apply Hfg in H1 as [H3 H4]. split; [exact H4|]. split; [exact H3|]. destruct rest as [|d r]; [exact I|].
  cbn in H2. destruct (Ascii.eqb_spec d x) as [->|Hd]; [auto|]. right. split; [exact Hd|]. cbn in H2.
  rewrite not_nl_eol, negb_false_iff in H2. exact H2.
Qed.

Lemma strip_head c s : is_gap c = false -> strip (c :: s) = rdrop_while is_gap (c :: s).
Proof. intros H. rewrite strip_spec. cbn [drop_while]. rewrite H. reflexivity. Qed.
Lemma rdrop_head c s : is_gap c = false -> exists s', rdrop_while is_gap (c :: s) = c :: s'.
Proof.
  intros H. destruct (rdrop_while_split is_gap (c :: s)) as [t [E Ht]]. destruct (rdrop_while is_gap (c :: s)) as [|x y].
  - cbn in E. rewrite <- E in Ht. cbn in Ht. rewrite H in Ht. discriminate.
  - injection E as <- _. eauto.
Qed.

Lemma ini_space_false c : ini_space c = false -> is_gap c = false /\ is_eol c = false.
Proof. rewrite ini_space_cases. apply orb_false_elim. Qed.

(** a line starting with an ordinary character *)
Lemma read_plain sec c l ls : is_gap c = false -> ini_comment c = false -> c <> "["%char ->
  read_lines sec false ((c :: l) :: ls) =
  match cut_at "="%char (c :: l) with
  | Some ((_ :: _) as k, v) => IEntry sec (strip k) (strip v) :: read_lines sec false ls
  | _ => read_lines sec false ls
  end.
Proof.
  intros Hg Hc Hb. cbn [read_lines]. unfold meaning. rewrite strip_head by exact Hg.
  destruct (rdrop_head c l Hg) as [s' Es].
  assert (beqb (rdrop_while is_gap (c :: l)) ["["%char] = false) as ->.
  { apply beqb_false. rewrite Es. congruence. }
  pose proof (cut_at_rdrop "="%char (c :: l) eq_refl) as H. rewrite Es in *. unfold ini_comment in Hc. rewrite Hc.
  destruct (Ascii.eqb_spec c "["%char) as [|_]; [contradiction|].
  destruct (cut_at "=" (c :: l)) as [[a b]|].
  - destruct H as [b' [-> [t [-> Ht]]]]. destruct a; [reflexivity|]. rewrite (strip_app_gaps b' t) by exact Ht. reflexivity.
  - rewrite H. reflexivity.
Qed.

Lemma ini_scan_ok f sec s : length s < f -> ini_scan f sec s = Some (sem sec false s).
Proof.
  revert sec s; induction f as [|f IH]; intros sec s Hf; [lia|].
  cbn [ini_scan]. rewrite <- (sem_spaces sec false s).
  pose proof (drop_while_length ini_space s) as Hl. pose proof (drop_while_head ini_space s) as Hh.
  destruct (drop_while ini_space s) as [|c r]; [reflexivity|]. cbn in Hh. cbn [length] in Hl.
  destruct (ini_space_false c Hh) as [Hgap Heol].
  destruct (ini_comment c) eqn:Ec.
  { destruct (skip_comment_ok f true (c :: r) sec) as [s' [E [Hs [_ Hlt]]]]; [cbn; lia|].
    rewrite E, IH; [rewrite Hs; reflexivity|]. specialize (Hlt c r eq_refl Ec). cbn in Hlt. lia. }
  destruct (Ascii.eqb_spec c "["%char) as [->|Hbr].
  { rewrite sem_open, <- (sem_spaces sec true r).
    pose proof (drop_while_length ini_space r) as Hl2. pose proof (drop_while_head ini_space r) as Hh2.
    set (r' := drop_while ini_space r) in *. clearbody r'.
    destruct (span _ r') as [name rest] eqn:Esp. apply span_key in Esp as [Er [Hn [Hnb Hrest]]].
    assert (Hname : strip name = rdrop_while ini_space name).
    { rewrite rdrop_while_free by exact Hn. destruct name as [|x y]; [reflexivity|]. apply strip_head. subst r'. cbn in Hh2.
      apply ini_space_false, Hh2. }
    assert (Hlenr : length r' = length name + length rest) by (rewrite Er; apply app_length).
    unfold sem at 1. destruct rest as [|d rest'].
    - rewrite app_nil_r in Er. subst r'. rewrite <- (app_nil_r name) at 1.
      rewrite lines_split by (cbn; auto). cbn [after]. rewrite read_open, IH by (cbn in *; lia). f_equal.
      unfold open_meaning. destruct (forallb is_gap name); [reflexivity|]. rewrite cut_at_absent by exact Hnb. reflexivity.
    - cbn [length] in Hlenr. destruct Hrest as [->|[Hd He]].
      + change (Ascii.eqb "]" "]") with true. cbn iota.
        destruct (line_end rest') as [a [t [-> [Ha Ht]]]]. rewrite to_eol_split by assumption.
        rewrite app_length in Hlenr.
        rewrite IH by (cbn in *; lia). cbn [option_map]. f_equal.
        subst r'. replace (name ++ "]"%char :: a ++ t) with ((name ++ "]"%char :: a) ++ t) by (rewrite <- app_assoc; reflexivity).
        rewrite lines_split; [|apply eol_free_app; split; [exact Hn|apply eol_free_cons; auto]|exact Ht].
        rewrite read_open. unfold open_meaning.
        assert (forallb is_gap (name ++ "]"%char :: a) = false) as ->.
        { rewrite forallb_app. cbn. apply andb_false_r. }
        rewrite (cut_at_span "]"%char _ name a Hnb eq_refl). rewrite Hname, sem_after by exact Ht. reflexivity.
      + destruct (Ascii.eqb_spec d "]"%char) as [|_]; [contradiction|].
        rewrite IH by (cbn in *; lia). f_equal. subst r'. rewrite lines_split by assumption. rewrite read_open.
        unfold open_meaning. rewrite cut_at_absent by exact Hnb.
        destruct name as [|x y].
        { cbn in Hh2. apply ini_space_false in Hh2 as [_ Hh2]. congruence. }
        cbn in Hh2. apply ini_space_false in Hh2 as [Hx _]. cbn [forallb]. rewrite Hx. cbn [andb].
        rewrite sem_after by exact He. reflexivity. }
  destruct (span _ (c :: r)) as [key rest] eqn:Esp. apply span_key in Esp as [Er [Hk [Hke Hrest]]].
  assert (Hlenr : S (length r) = length key + length rest).
  { change (S (length r)) with (length (c :: r)). rewrite Er. apply app_length. }
  unfold sem at 1. destruct rest as [|d rest'].
  - rewrite app_nil_r in Er. rewrite IH by (cbn; lia). f_equal. rewrite <- Er in Hk, Hke.
    rewrite <- (app_nil_r (c :: r)). rewrite lines_split by (cbn; auto). rewrite read_plain by assumption.
    rewrite cut_at_absent by exact Hke. reflexivity.
  - cbn [length] in Hlenr. destruct Hrest as [->|[Hd He]].
    + change (Ascii.eqb "=" "=") with true. cbn iota.
      destruct (line_end rest') as [a [t [-> [Ha Ht]]]]. rewrite app_length in Hlenr.
      assert (Hline : lines (c :: r) = (key ++ "="%char :: a) :: after t).
      { rewrite Er. replace (key ++ "="%char :: a ++ t) with ((key ++ "="%char :: a) ++ t) by (rewrite <- app_assoc; reflexivity).
        apply lines_split; [apply eol_free_app; split; [exact Hk|apply eol_free_cons; auto]|exact Ht]. }
      rewrite Hline.
      destruct key as [|k0 key'].
      * change ("="%char :: a ++ t) with (("="%char :: a) ++ t). rewrite to_eol_split by (auto; apply eol_free_cons; auto).
        injection Er as -> _. rewrite IH by lia. rewrite sem_after by exact Ht. cbn [app].
        rewrite read_plain by (try reflexivity; discriminate). reflexivity.
      * injection Er as <- Er.
        rewrite (drop_while_ext (fun x => not_nl x && ini_space x) is_gap).
        2: { intros x. rewrite not_nl_eol, ini_space_cases. destruct (is_gap x) eqn:Eg; [rewrite (gap_not_eol x Eg); reflexivity|]. destruct (is_eol x); reflexivity. }
        assert (Hdrop : drop_while is_gap (a ++ t) = drop_while is_gap a ++ t).
        { destruct (drop_while_split is_gap a) as [p [Ep Hp]]. rewrite Ep at 1. rewrite <- app_assoc, drop_while_app by exact Hp.
          apply drop_while_id. pose proof (drop_while_head is_gap a) as Hx. destruct (drop_while is_gap a) as [|y z]; cbn in *; [|exact Hx].
          destruct t as [|y z]; cbn in *; [exact I|]. destruct (is_gap y) eqn:Ey; [|reflexivity]. apply gap_not_eol in Ey. congruence. }
        rewrite Hdrop. rewrite (span_unique not_nl).
        2: { apply eol_free_drop, Ha. }
        2: { destruct t as [|y z]; cbn in *; [exact I|]. rewrite not_nl_eol, Ht. reflexivity. }
        assert (Hrest3 : length (match t with [] => [] | _ => skip_newline t end) <= length t).
        { destruct t as [|y z]; [cbn; lia|]. cbn [skip_newline tl]. destruct z as [|u z]; [cbn; lia|]. destruct (_ && _); cbn; lia. }
        rewrite IH by (cbn in *; lia). cbn [option_map]. f_equal. cbn [app].
        rewrite read_plain by assumption. change (c :: key' ++ "="%char :: a) with ((c :: key') ++ "="%char :: a).
        rewrite (cut_at_span "="%char _ (c :: key') a Hke eq_refl).
        f_equal.
        -- rewrite (rdrop_while_free (c :: key')) by exact Hk. rewrite <- (strip_head c key' Hgap).
           rewrite (rdrop_while_free (drop_while is_gap a)) by (apply eol_free_drop, Ha). rewrite <- strip_spec. reflexivity.
        -- destruct t as [|y z]; [reflexivity|]. apply sem_skip_newline; [exact Ht|discriminate].
    + destruct (Ascii.eqb_spec d "="%char) as [|_]; [contradiction|].
      destruct key as [|k0 key'].
      { injection Er as -> _. congruence. }
      cbn [length] in Hlenr. rewrite IH by (cbn [length]; lia). f_equal. rewrite Er. rewrite lines_split by assumption.
      injection Er as <- Er. rewrite read_plain by assumption. rewrite cut_at_absent by exact Hke.
      rewrite sem_after by exact He. reflexivity.
Qed.

Lemma ini_items_ok data : ini_items data = Some (text_items data).
Proof.
  unfold ini_items, text_items. set (s := cstr data).
  destruct (skip_comment_ok (S (length s)) false s (SecNamed [])) as [s' [E [Hs [Hl _]]]]; [lia|].
  rewrite E. rewrite ini_scan_ok by lia. rewrite Hs. reflexivity.
Qed.

(** ** Name comparison *)
Lemma locase_lower c : locase c = lower c.
Proof. unfold locase, lower, isupper, code. reflexivity. Qed.
Lemma schar_inj x y : schar x = schar y -> x = y.
Proof.
  unfold schar. intros H. pose proof (code_lt x). pose proof (code_lt y). apply code_inj.
  destruct (Z.ltb_spec (Z.of_N (code x)) 128), (Z.ltb_spec (Z.of_N (code y)) 128); lia.
Qed.

(** nocase_less is the lexicographic order on the lowered signed characters *)
Lemma nocase_less_irrefl a b : same_name a b -> nocase_less a b = false.
Proof.
  revert b; induction a as [|x a IH]; intros [|y b] H; try discriminate; [reflexivity|].
  unfold same_name in H. cbn in H. injection H as Hx H. cbn. rewrite !locase_lower, Hx, Z.sub_diag. cbn. apply IH, H.
Qed.
Lemma nocase_eqb_same a b : nocase_eqb a b = same_nameb a b.
Proof.
  unfold nocase_eqb, same_nameb. revert b; induction a as [|x a IH]; intros [|y b]; try reflexivity.
  cbn [nocase_less map beqb]. change (locase x) with (lower x). change (locase y) with (lower y).
  destruct (Ascii.eqb_spec (lower x) (lower y)) as [->|Hn].
  - rewrite Z.sub_diag. cbn [Z.eqb andb]. apply IH.
  - cbn [andb]. assert (schar (lower x) <> schar (lower y)) by (intros E; apply Hn, schar_inj, E).
    destruct (Z.eqb_spec (schar (lower x) - schar (lower y)) 0); [lia|].
    destruct (Z.eqb_spec (schar (lower y) - schar (lower x)) 0); [lia|].
    destruct (Z.ltb_spec (schar (lower x) - schar (lower y)) 0), (Z.ltb_spec (schar (lower y) - schar (lower x)) 0); try reflexivity; lia.
Qed.
Lemma same_nameb_spec a b : reflect (same_name a b) (same_nameb a b).
Proof. unfold same_nameb, same_name. apply beqb_spec. Qed.
Lemma same_nameb_refl a : same_nameb a a = true.
Proof. apply beqb_refl. Qed.
Lemma same_nameb_sym a b : same_nameb a b = same_nameb b a.
Proof. apply beqb_sym. Qed.
Lemma same_nameb_trans a b c : same_nameb a b = true -> same_nameb a c = same_nameb b c.
Proof. unfold same_nameb. intros H. apply beqb_eq in H. rewrite H. reflexivity. Qed.

Lemma nocase_trans a b c : nocase_less a b = true -> nocase_less b c = true -> nocase_less a c = true.
Proof.
  revert b c; induction a as [|x a IH]; intros [|y b] [|z c]; cbn [nocase_less]; try discriminate; try reflexivity.
  intros H1 H2.
  destruct (Z.eqb_spec (schar (locase x) - schar (locase y)) 0);
  destruct (Z.eqb_spec (schar (locase y) - schar (locase z)) 0);
  destruct (Z.eqb_spec (schar (locase x) - schar (locase z)) 0);
  rewrite ?Z.ltb_lt in *; try lia. eapply IH; eassumption.
Qed.
Lemma nocase_total a b : nocase_less a b = true \/ nocase_less b a = true \/ same_name a b.
Proof.
  destruct (nocase_less a b) eqn:E1; [auto|]. destruct (nocase_less b a) eqn:E2; [auto|]. right. right.
  pose proof (nocase_eqb_same a b) as H. unfold nocase_eqb in H. rewrite E1, E2 in H. cbn in H.
  destruct (same_nameb_spec a b); [assumption|discriminate].
Qed.
Lemma nocase_irrefl a : nocase_less a a = false.
Proof. apply nocase_less_irrefl. reflexivity. Qed.
Lemma nocase_incomparable a b : (nocase_less a b = false /\ nocase_less b a = false) <-> same_name a b.
Proof.
  split.
  - intros [H1 H2]. destruct (nocase_total a b) as [H|[H|H]]; [congruence|congruence|exact H].
  - intros H. split; apply nocase_less_irrefl; [exact H|symmetry; exact H].
Qed.

(** ** Storing and finding *)
Lemma ini_find_ext {V} a b (l : list (bytes * V)) : same_nameb a b = true -> ini_find a l = ini_find b l.
Proof.
  intros H. induction l as [|[n v] l IH]; cbn; [reflexivity|]. rewrite !nocase_eqb_same.
  rewrite (same_nameb_sym n a), (same_nameb_sym n b), (same_nameb_trans a b n H), IH. reflexivity.
Qed.

Lemma kv_set_find k v kv key : ini_find key (kv_set k v kv) = if same_nameb k key then Some v else ini_find key kv.
Proof.
  induction kv as [|[k' v'] kv IH]; cbn [kv_set ini_find].
  - rewrite nocase_eqb_same. destruct (same_nameb k key); reflexivity.
  - rewrite nocase_eqb_same. destruct (same_nameb k' k) eqn:E; cbn [ini_find]; rewrite nocase_eqb_same.
    + rewrite (same_nameb_trans k' k key E). destruct (same_nameb k key); reflexivity.
    + rewrite IH. destruct (same_nameb k' key) eqn:E2; [|reflexivity].
      destruct (same_nameb k key) eqn:E3; [|reflexivity].
      rewrite (same_nameb_trans k' key k E2), (same_nameb_sym key k), E3 in E. discriminate.
Qed.

Lemma ini_update_find n f d name : ini_find name (ini_update n f d) =
  if same_nameb n name then Some (f (match ini_find name d with Some kv => kv | None => [] end)) else ini_find name d.
Proof.
  induction d as [|[n' kv] d IH]; cbn [ini_update ini_find].
  - rewrite nocase_eqb_same. destruct (same_nameb n name); reflexivity.
  - rewrite nocase_eqb_same. destruct (same_nameb n' n) eqn:E; cbn [ini_find]; rewrite nocase_eqb_same.
    + rewrite (same_nameb_trans n' n name E). destruct (same_nameb n name); reflexivity.
    + rewrite IH. destruct (same_nameb n' name) eqn:E2; [|reflexivity].
      destruct (same_nameb n name) eqn:E3; [|reflexivity].
      rewrite (same_nameb_trans n' name n E2), (same_nameb_sym name n), E3 in E. discriminate.
Qed.

Definition kv_of (es : list (bytes * bytes)) : keyvals := fold_left (fun kv e => kv_set (fst e) (snd e) kv) es [].

Lemma kv_of_snoc es k v : kv_of (es ++ [(k, v)]) = kv_set k v (kv_of es).
Proof. unfold kv_of. rewrite fold_left_app. reflexivity. Qed.

Lemma load_find items name : ini_find name (fold_left add_item items []) =
  if existsb (item_opens name) items then Some (kv_of (flat_map (item_entries name) items)) else None.
Proof.
  induction items as [|i items IH] using rev_ind; [reflexivity|].
  rewrite fold_left_app, existsb_app, flat_map_app. cbn [fold_left existsb flat_map]. rewrite app_nil_r, orb_false_r.
  assert (Hnone : existsb (item_opens name) items = false -> flat_map (item_entries name) items = []).
  { clear. induction items as [|j items IH]; cbn; [reflexivity|]. intros H. apply orb_false_elim in H as [H1 H2]. rewrite IH by exact H2.
    destruct j as [n|[n|] k v]; cbn in *; try reflexivity. rewrite H1. reflexivity. }
  destruct i as [n|[n|] k v]; cbn [add_item item_opens item_entries].
  - rewrite ini_update_find, IH, app_nil_r. destruct (same_nameb n name); [|rewrite orb_false_r; reflexivity]. rewrite orb_true_r.
    destruct (existsb (item_opens name) items) eqn:E; [reflexivity|]. rewrite (Hnone eq_refl). reflexivity.
  - rewrite ini_update_find, IH. destruct (same_nameb n name); [|rewrite orb_false_r, app_nil_r; reflexivity]. rewrite orb_true_r.
    rewrite kv_of_snoc. destruct (existsb (item_opens name) items) eqn:E; [reflexivity|]. rewrite (Hnone eq_refl). reflexivity.
  - rewrite IH, app_nil_r, orb_false_r. reflexivity.
Qed.

Lemma last_value_snoc es k v key : last_value (es ++ [(k, v)]) key = if same_nameb k key then Some v else last_value es key.
Proof.
  induction es as [|[k' v'] es IH]; cbn [app last_value]; [reflexivity|]. rewrite IH.
  destruct (same_nameb k key); reflexivity.
Qed.
Lemma first_spelling_snoc es k v key : first_spelling (es ++ [(k, v)]) key =
  match first_spelling es key with Some s => Some s | None => if same_nameb k key then Some k else None end.
Proof. induction es as [|[k' v'] es IH]; cbn; [reflexivity|]. rewrite IH. destruct (same_nameb k' key); reflexivity. Qed.

Lemma kv_of_find es key : ini_find key (kv_of es) = last_value es key.
Proof.
  induction es as [|[k v] es IH] using rev_ind; [reflexivity|]. rewrite kv_of_snoc, kv_set_find, last_value_snoc, IH. reflexivity.
Qed.

Lemma kv_set_keys k v kv : map fst (kv_set k v kv) =
  if existsb (fun p => same_nameb (fst p) k) kv then map fst kv else map fst kv ++ [k].
Proof.
  induction kv as [|[k' v'] kv IH]; cbn [kv_set existsb map fst]; [reflexivity|]. rewrite nocase_eqb_same.
  destruct (same_nameb k' k); cbn [orb map fst]; [reflexivity|]. rewrite IH. destruct (existsb _ kv); reflexivity.
Qed.
Lemma ini_find_none {V} key (kv : list (bytes * V)) : ini_find key kv = None <-> existsb (fun p => same_nameb (fst p) key) kv = false.
Proof.
  induction kv as [|[k v] kv IH]; cbn [ini_find existsb fst]; [tauto|]. rewrite nocase_eqb_same.
  destruct (same_nameb k key); cbn [orb]; [split; discriminate|exact IH].
Qed.
Lemma first_last es key : first_spelling es key = None <-> last_value es key = None.
Proof.
  induction es as [|[k v] es IH]; cbn; [tauto|]. destruct (same_nameb k key) eqn:E.
  - split; [discriminate|]. destruct (last_value es key); discriminate.
  - rewrite IH. destruct (last_value es key); split; congruence.
Qed.
Lemma first_spelling_same es key k : first_spelling es key = Some k -> same_nameb k key = true.
Proof. induction es as [|[k' v] es IH]; cbn; [discriminate|]. destruct (same_nameb k' key) eqn:E; [intros [= <-]; exact E|exact IH]. Qed.

Lemma kv_of_keys es key : In key (map fst (kv_of es)) <-> first_spelling es key = Some key.
Proof.
  induction es as [|[k v] es IH] using rev_ind; [cbn; split; [tauto|discriminate]|].
  rewrite kv_of_snoc, kv_set_keys, first_spelling_snoc.
  assert (Hx : existsb (fun p => same_nameb (fst p) k) (kv_of es) = false <-> first_spelling es k = None).
  { rewrite <- ini_find_none, kv_of_find, first_last. reflexivity. }
  destruct (existsb _ (kv_of es)) eqn:Ex.
  - rewrite IH. destruct (first_spelling es key) as [s|] eqn:Ef; [tauto|]. split; [discriminate|].
    destruct (same_nameb k key) eqn:Es; [|discriminate]. intros [= ->]. apply first_last in Ef.
    assert (true = false) by (apply Hx, first_last, Ef). discriminate.
  - rewrite in_app_iff, IH. cbn. split.
    + intros [H|[<-|[]]]; [rewrite H; reflexivity|]. rewrite (proj1 Hx eq_refl), same_nameb_refl. reflexivity.
    + destruct (first_spelling es key) as [s|]; [intros [= ->]; auto|]. destruct (same_nameb k key); [intros [= ->]; auto|discriminate].
Qed.

Lemma kv_of_nil es : kv_of es = [] <-> es = [].
Proof.
  split; [|intros ->; reflexivity]. destruct es as [|[k v] es _] using rev_ind; [reflexivity|]. rewrite kv_of_snoc.
  intros H. exfalso. destruct (kv_of es) as [|[k' v'] kv]; cbn in H; [discriminate|]. destruct (nocase_eqb k' k); discriminate.
Qed.

Lemma distinct_snoc es k v : distinct_keys (es ++ [(k, v)]) =
  (if existsb (fun e => same_nameb (fst e) k) es then 0 else 1) + distinct_keys es.
Proof.
  induction es as [|[k' v'] es IH]; cbn [app distinct_keys existsb fst]; [reflexivity|].
  rewrite IH, existsb_app. cbn [existsb fst]. rewrite orb_false_r. rewrite (same_nameb_sym k k').
  destruct (same_nameb k' k) eqn:E; cbn [orb]; [|destruct (existsb (fun e => same_nameb (fst e) k') es); cbn [orb]; lia].
  rewrite orb_true_r.
  assert (existsb (fun e => same_nameb (fst e) k') es = existsb (fun e => same_nameb (fst e) k) es) as ->.
  { clear IH. induction es as [|[k2 v2] es IH2]; cbn [existsb fst]; [reflexivity|]. rewrite IH2.
    rewrite (same_nameb_sym k2 k'), (same_nameb_sym k2 k), (same_nameb_trans k' k k2 E). reflexivity. }
  destruct (existsb _ es); lia.
Qed.

Lemma existsb_first es k : existsb (fun e : bytes * bytes => same_nameb (fst e) k) es = false <-> first_spelling es k = None.
Proof. induction es as [|[k' v'] es IH]; cbn [existsb fst first_spelling]; [tauto|]. destruct (same_nameb k' k); cbn [orb]; [split; discriminate|exact IH]. Qed.

Lemma kv_of_length es : length (kv_of es) = distinct_keys es.
Proof.
  induction es as [|[k v] es IH] using rev_ind; [reflexivity|]. rewrite kv_of_snoc, distinct_snoc, <- IH.
  rewrite <- (map_length fst (kv_set k v (kv_of es))), kv_set_keys.
  assert (existsb (fun p => same_nameb (fst p) k) (kv_of es) = existsb (fun e => same_nameb (fst e) k) es) as ->.
  { destruct (existsb (fun e => same_nameb (fst e) k) es) eqn:E.
    - apply not_false_is_true. intros H. apply ini_find_none in H. rewrite kv_of_find in H. apply first_last, existsb_first in H. congruence.
    - apply ini_find_none. rewrite kv_of_find. apply first_last, existsb_first, E. }
  destruct (existsb _ es); rewrite ?app_length, map_length; cbn; lia.
Qed.

(** ** What the reader of licenses sees *)
Lemma ini_load_total data : exists d, ini_load data = Ok d.
Proof. unfold ini_load. rewrite ini_items_ok. eauto. Qed.

Lemma ini_load_value data d sec key : ini_load data = Ok d -> get_value d sec key = last_value (section_entries data sec) key.
Proof.
  unfold ini_load. rewrite ini_items_ok. intros [= <-]. unfold get_value. rewrite load_find. unfold section_entries.
  destruct (existsb (item_opens sec) (text_items data)) eqn:E; [apply kv_of_find|].
  assert (flat_map (item_entries sec) (text_items data) = []) as ->; [|reflexivity].
  revert E. induction (text_items data) as [|j items IH]; cbn; [reflexivity|]. intros H. apply orb_false_elim in H as [H1 H2]. rewrite IH by exact H2.
  destruct j as [n|[n|] k v]; cbn in *; try reflexivity. rewrite H1. reflexivity.
Qed.

Lemma ini_load_size data d sec : ini_load data = Ok d ->
  get_section_size d sec = if has_section_named data sec then Z.of_nat (distinct_keys (section_entries data sec)) else (-1)%Z.
Proof.
  unfold ini_load. rewrite ini_items_ok. intros [= <-]. unfold get_section_size. rewrite load_find. unfold section_entries, has_section_named.
  destruct (existsb (item_opens sec) (text_items data)); [rewrite kv_of_length|]; reflexivity.
Qed.

Lemma entries_section data sec : section_entries data sec <> [] -> has_section_named data sec = true.
Proof.
  unfold section_entries, has_section_named. induction (text_items data) as [|j items IH]; cbn; [congruence|].
  destruct j as [n|[n|] k v]; cbn in *.
  - intros H. rewrite IH by exact H. apply orb_true_r.
  - destruct (same_nameb n sec); [reflexivity|]. cbn. exact IH.
  - exact IH.
Qed.

Lemma section_empty data d sec : ini_load data = Ok d ->
  (get_section_size d sec <=? 0)%Z = match section_entries data sec with [] => true | _ => false end.
Proof.
  intros H. rewrite (ini_load_size _ _ _ H). pose proof (entries_section data sec) as He.
  destruct (section_entries data sec) as [|p l] eqn:E.
  - destruct (has_section_named data sec); reflexivity.
  - rewrite He by discriminate. apply Z.leb_gt. rewrite <- kv_of_length.
    assert (kv_of (p :: l) <> []) by (rewrite kv_of_nil; discriminate). destruct (kv_of (p :: l)); [congruence|cbn; lia].
Qed.

Lemma ini_load_keys data d sec : ini_load data = Ok d ->
  (forall key, In key (get_all_keys d sec) <-> first_spelling (section_entries data sec) key = Some key).
Proof.
  unfold ini_load. rewrite ini_items_ok. intros [= <-] key. unfold get_all_keys. rewrite load_find. unfold section_entries.
  destruct (existsb (item_opens sec) (text_items data)) eqn:E; [apply kv_of_keys|].
  assert (flat_map (item_entries sec) (text_items data) = []) as ->; [|cbn; split; [tauto|discriminate]].
  revert E. induction (text_items data) as [|j items IH]; cbn; [reflexivity|]. intros H. apply orb_false_elim in H as [H1 H2]. rewrite IH by exact H2.
  destruct j as [n|[n|] k v]; cbn in *; try reflexivity. rewrite H1. reflexivity.
Qed.
