(** Saving and loading again. *)
From Verif Require Import Base CTypes StringUtils Ini P_Base P_Strings Spec_Ini P_Ini.

Lemma clean_eol_free s : clean s -> eol_free s.
Proof.
  intros [H _]. unfold eol_free. apply forallb_forall. intros c Hc. rewrite not_nl_eol. destruct (H c Hc) as [-> _]. reflexivity.
Qed.
Lemma clean_nul_free s : clean s -> nul_free s.
Proof.
  intros [H _]. unfold nul_free. apply forallb_forall. intros c Hc. unfold nonnul. destruct (H c Hc) as [_ Hn].
  apply negb_true_iff, Ascii.eqb_neq, Hn.
Qed.
Lemma not_in_forallb x s : ~ In x s <-> forallb (fun c => negb (Ascii.eqb c x)) s = true.
Proof.
  rewrite forallb_forall. split.
  - intros H c Hc. apply negb_true_iff, Ascii.eqb_neq. intros ->. contradiction.
  - intros H Hx. specialize (H x Hx). rewrite Ascii.eqb_refl in H. discriminate.
Qed.
Lemma strip_id_head c s : strip (c :: s) = c :: s -> is_gap c = false.
Proof.
  intros H. destruct (is_gap c) eqn:E; [|reflexivity]. exfalso.
  rewrite strip_gap in H by exact E. apply (f_equal (@length _)) in H.
  rewrite strip_spec in H. pose proof (rdrop_while_length is_gap (drop_while is_gap s)).
  pose proof (drop_while_length is_gap s). cbn in H. lia.
Qed.

Lemma sem_line sec l rest : eol_free l -> sem sec false (l ++ LF :: rest) = read_lines sec false (l :: lines rest).
Proof. intros H. unfold sem. rewrite lines_split; [reflexivity|exact H|reflexivity]. Qed.

Lemma sem_header sec n rest : clean_section n ->
  sem sec false ("["%char :: n ++ "]"%char :: LF :: rest) = ISection n :: sem (SecNamed n) false rest.
Proof.
  intros [Hc Hn]. replace ("["%char :: n ++ "]"%char :: LF :: rest) with (("["%char :: n ++ ["]"%char]) ++ LF :: rest)
    by (cbn; rewrite <- app_assoc; reflexivity).
  rewrite sem_line.
  - rewrite read_closed_bracket. unfold open_meaning. rewrite forallb_app. cbn [forallb]. rewrite andb_false_r.
    rewrite (cut_at_span "]"%char _ n [] (proj1 (not_in_forallb _ _) Hn) eq_refl).
    rewrite (proj2 Hc). reflexivity.
  - apply eol_free_cons. split; [reflexivity|]. apply eol_free_app. split; [apply clean_eol_free, Hc|reflexivity].
Qed.

Lemma sem_entry sec k v rest : clean_key k -> clean v ->
  sem sec false (save_entry (k, v) ++ rest) = IEntry sec k v :: sem sec false rest.
Proof.
  intros [Hk [He [c [r [-> Hc]]]]] Hv. unfold save_entry. cbn [fst snd].
  replace (((c :: r) ++ bs " = " ++ v ++ [LF]) ++ rest) with (((c :: r) ++ bs " = " ++ v) ++ LF :: rest)
    by (rewrite <- !app_assoc; reflexivity).
  rewrite sem_line.
  2: { apply eol_free_app. split; [apply clean_eol_free, Hk|]. apply eol_free_app. split; [reflexivity|apply clean_eol_free, Hv]. }
  pose proof (strip_id_head c r (proj2 Hk)) as Hg.
  cbn [app]. rewrite read_plain.
  - set (k1 := c :: r ++ [" "%char]).
    assert (E : c :: r ++ bs " = " ++ v = k1 ++ "="%char :: " "%char :: v) by (unfold k1; cbn; rewrite <- app_assoc; reflexivity).
    rewrite E. rewrite (cut_at_span "="%char _ k1 (" "%char :: v)); [|unfold k1|reflexivity].
    + unfold k1 at 1. change (c :: r ++ [" "%char]) with ((c :: r) ++ [" "%char]) in (value of k1). unfold k1.
      rewrite (strip_app_gaps (c :: r) [" "%char] eq_refl), (proj2 Hk), strip_gap, (proj2 Hv) by reflexivity. reflexivity.
    + change (c :: r ++ [" "%char]) with ((c :: r) ++ [" "%char]). rewrite forallb_app.
      rewrite (proj1 (not_in_forallb _ _) He). reflexivity.
  - exact Hg.
  - unfold ini_comment. apply orb_false_iff. split; apply Ascii.eqb_neq; intros ->; apply Hc; cbn; auto.
  - intros ->. apply Hc. cbn. auto.
Qed.

Definition entry_items (sec : section) (kv : keyvals) : list item := map (fun e => IEntry sec (fst e) (snd e)) kv.

Lemma sem_entries sec kv rest : (forall k v, In (k, v) kv -> clean_key k /\ clean v) ->
  sem sec false (concat (map save_entry kv) ++ rest) = entry_items sec kv ++ sem sec false rest.
Proof.
  induction kv as [|[k v] kv IH]; intros H; [reflexivity|]. cbn [map concat]. rewrite <- app_assoc.
  destruct (H k v (or_introl eq_refl)) as [Hk Hv]. rewrite sem_entry by assumption. cbn. rewrite IH; [reflexivity|].
  intros k' v' Hin. apply H. right. exact Hin.
Qed.

Definition section_items (s : bytes * keyvals) : list item :=
  match fst s with [] => [] | n => [ISection n] end ++ entry_items (SecNamed (fst s)) (snd s).

(** named sections do not care where they start *)
Lemma sem_section sec s rest : clean_section (fst s) -> clean_keyvals (snd s) -> fst s <> [] ->
  sem sec false (save_section s ++ rest) = section_items s ++ sem (SecNamed (fst s)) false rest.
Proof.
  destruct s as [[|c n] kv]; cbn [fst snd]; intros Hn [Hd Hk] Hne; [congruence|].
  unfold save_section, section_items. cbn [fst snd]. rewrite <- !app_assoc.
  replace (("["%char :: (c :: n) ++ "]"%char :: [LF]) ++ concat (map save_entry kv) ++ rest)
    with ("["%char :: (c :: n) ++ "]"%char :: LF :: concat (map save_entry kv) ++ rest) by (cbn; rewrite <- !app_assoc; reflexivity).
  rewrite sem_header by exact Hn. rewrite sem_entries by exact Hk. reflexivity.
Qed.

Lemma sem_sections sec d rest : (forall n kv, In (n, kv) d -> clean_section n /\ clean_keyvals kv /\ n <> []) ->
  exists sec', sem sec false (save_sections false d ++ rest) = flat_map section_items d ++ sem sec' false rest.
Proof.
  revert sec; induction d as [|[n kv] d IH]; intros sec H; [exists sec; reflexivity|].
  cbn [save_sections flat_map]. destruct (H n kv (or_introl eq_refl)) as [Hn [Hk Hne]].
  rewrite <- !app_assoc. cbn [app]. rewrite (sem_space sec false LF), (sem_space sec false LF) by reflexivity.
  rewrite sem_section by assumption. destruct (IH (SecNamed n)) as [sec' E]; [intros n' kv' Hin; apply H; right; exact Hin|].
  cbn [fst]. rewrite E. exists sec'. rewrite app_assoc. reflexivity.
Qed.

Lemma nul_free_app a b : nul_free (a ++ b) <-> nul_free a /\ nul_free b.
Proof. unfold nul_free. rewrite forallb_app, andb_true_iff. tauto. Qed.

Lemma save_nul_free first d : (forall n kv, In (n, kv) d -> clean_section n /\ clean_keyvals kv) -> nul_free (save_sections first d).
Proof.
  revert first; induction d as [|[n kv] d IH]; intros first H; [reflexivity|]. cbn [save_sections].
  destruct (H n kv (or_introl eq_refl)) as [Hn [_ Hk]].
  apply nul_free_app. split; [destruct first; reflexivity|]. apply nul_free_app. split; [|apply IH; intros; apply H; right; assumption].
  unfold save_section. cbn [fst snd]. apply nul_free_app. split.
  - destruct n as [|c n]; [reflexivity|]. change ("["%char :: (c :: n) ++ ["]"%char; LF]) with (["["%char] ++ (c :: n) ++ ["]"%char; LF]).
    repeat (apply nul_free_app; split); try reflexivity. apply clean_nul_free, Hn.
  - clear H IH. induction kv as [|[k v] kv IH]; [reflexivity|]. cbn [map concat]. apply nul_free_app.
    destruct (Hk k v (or_introl eq_refl)) as [[Hk1 _] Hv]. split; [|apply IH; intros; apply Hk; right; assumption].
    unfold save_entry. cbn [fst snd]. repeat (apply nul_free_app; split); try reflexivity; apply clean_nul_free; assumption.
Qed.

Lemma saved_items d : (forall n kv, In (n, kv) d -> clean_section n /\ clean_keyvals kv) -> unnamed_first d ->
  text_items (ini_save d) = flat_map section_items d.
Proof.
  intros H Hu. unfold text_items. rewrite cstr_id.
  2: { unfold ini_save. apply nul_free_app. split; [apply save_nul_free, H|reflexivity]. }
  fold (sem (SecNamed []) false (ini_save d)). unfold ini_save.
  assert (Hend : forall sec, sem sec false [LF] = []) by reflexivity.
  destruct d as [|[n kv] d]; [reflexivity|]. cbn [save_sections flat_map]. destruct Hu as [Hne Hr].
  destruct (H n kv (or_introl eq_refl)) as [Hn Hk].
  assert (H' : forall n kv, In (n, kv) d -> clean_section n /\ clean_keyvals kv /\ n <> []).
  { intros n' kv' Hin. destruct (H n' kv' (or_intror Hin)) as [A B]. split; [exact A|split; [exact B|eapply Hr, Hin]]. }
  cbn [app]. rewrite <- app_assoc.
  destruct n as [|c n].
  - unfold save_section, section_items. cbn [fst snd app]. rewrite sem_entries by apply Hk.
    destruct (sem_sections (SecNamed []) d [LF] H') as [sec' ->]. rewrite Hend, app_nil_r. reflexivity.
  - rewrite sem_section; [|exact Hn|exact Hk|discriminate].
    cbn [fst]. destruct (sem_sections (SecNamed (c :: n)) d [LF] H') as [sec' ->]. rewrite Hend, app_nil_r. reflexivity.
Qed.

(** ** Loading rebuilds the sections *)
Lemma ini_update_fresh n f d : (forall n' kv', In (n', kv') d -> ~ same_name n' n) -> ini_update n f d = d ++ [(n, f [])].
Proof.
  induction d as [|[n' kv'] d IH]; intros H; [reflexivity|]. cbn [ini_update]. rewrite nocase_eqb_same.
  destruct (same_nameb_spec n' n) as [E|_]; [exfalso; apply (H n' kv' (or_introl eq_refl) E)|].
  rewrite IH; [reflexivity|]. intros n2 kv2 Hin. apply (H n2 kv2). right. exact Hin.
Qed.
Lemma ini_update_last n f d kv : (forall n' kv', In (n', kv') d -> ~ same_name n' n) ->
  ini_update n f (d ++ [(n, kv)]) = d ++ [(n, f kv)].
Proof.
  induction d as [|[n' kv'] d IH]; intros H; cbn [app ini_update]; rewrite nocase_eqb_same.
  - rewrite same_nameb_refl. reflexivity.
  - destruct (same_nameb_spec n' n) as [E|_]; [exfalso; apply (H n' kv' (or_introl eq_refl) E)|].
    rewrite IH; [reflexivity|]. intros n2 kv2 Hin. apply (H n2 kv2). right. exact Hin.
Qed.
Lemma kv_set_fresh k v kv : (forall k' v', In (k', v') kv -> ~ same_name k' k) -> kv_set k v kv = kv ++ [(k, v)].
Proof.
  induction kv as [|[k' v'] kv IH]; intros H; [reflexivity|]. cbn [kv_set]. rewrite nocase_eqb_same.
  destruct (same_nameb_spec k' k) as [E|_]; [exfalso; apply (H k' v' (or_introl eq_refl) E)|].
  rewrite IH; [reflexivity|]. intros k2 v2 Hin. apply (H k2 v2). right. exact Hin.
Qed.

Lemma add_entries n kv : forall d kv0, (forall n' kv', In (n', kv') d -> ~ same_name n' n) ->
  distinct_names (kv0 ++ kv) ->
  fold_left add_item (entry_items (SecNamed n) kv) (d ++ [(n, kv0)]) = d ++ [(n, kv0 ++ kv)].
Proof.
  induction kv as [|[k v] kv IH]; intros d kv0 Hd Hk; [rewrite app_nil_r; reflexivity|].
  cbn [entry_items map fold_left add_item fst snd]. rewrite ini_update_last by exact Hd. rewrite kv_set_fresh.
  - change (map (fun e => IEntry (SecNamed n) (fst e) (snd e)) kv) with (entry_items (SecNamed n) kv).
    rewrite IH; [rewrite <- app_assoc; reflexivity|exact Hd|rewrite <- app_assoc; exact Hk].
  - clear -Hk. intros k' v' Hin. induction kv0 as [|[k0 v0] kv0 IH]; [destruct Hin|]. cbn in Hk. destruct Hk as [H1 H2].
    destruct Hin as [[= -> ->]|Hin]; [|apply IH; assumption]. apply (H1 k v). apply in_app_iff. right. left. reflexivity.
Qed.

Lemma add_section d n kv : (forall n' kv', In (n', kv') d -> ~ same_name n' n) -> distinct_names kv ->
  (n = [] -> kv <> []) -> fold_left add_item (section_items (n, kv)) d = d ++ [(n, kv)].
Proof.
  intros Hd Hk Hne. unfold section_items. cbn [fst snd]. destruct n as [|c n].
  - cbn [app]. destruct kv as [|[k v] kv]; [exfalso; apply Hne; reflexivity|].
    cbn [entry_items map fold_left add_item fst snd]. rewrite ini_update_fresh by exact Hd. cbn [kv_set].
    apply (add_entries [] kv d [(k, v)]); assumption.
  - cbn [app fold_left add_item]. rewrite ini_update_fresh by exact Hd. apply (add_entries (c :: n) kv d []); assumption.
Qed.

Lemma distinct_app_l {V} (a b : list (bytes * V)) n v : distinct_names (a ++ (n, v) :: b) ->
  forall n' v', In (n', v') a -> ~ same_name n' n.
Proof.
  induction a as [|[n0 v0] a IH]; intros H n' v' Hin; [destruct Hin|]. cbn in H. destruct H as [H1 H2].
  destruct Hin as [[= -> ->]|Hin]; [|eapply IH; eassumption]. apply (H1 n v). apply in_app_iff. right. left. reflexivity.
Qed.

Lemma add_sections d : forall d0, distinct_names (d0 ++ d) -> (forall n kv, In (n, kv) d -> distinct_names kv) ->
  (forall n kv, In (n, kv) d -> n = [] -> kv <> []) ->
  fold_left add_item (flat_map section_items d) d0 = d0 ++ d.
Proof.
  induction d as [|[n kv] d IH]; intros d0 Hd Hk Hne; [rewrite app_nil_r; reflexivity|].
  cbn [flat_map]. rewrite fold_left_app. rewrite add_section.
  - rewrite IH; [rewrite <- app_assoc; reflexivity|rewrite <- app_assoc; exact Hd| |];
      intros n' kv' Hin; [eapply Hk|eapply Hne]; right; exact Hin.
  - eapply distinct_app_l, Hd.
  - eapply Hk. left. reflexivity.
  - eapply Hne. left. reflexivity.
Qed.

Lemma save_load d : clean_sections d -> unnamed_first d -> ini_load (ini_save d) = Ok d.
Proof.
  intros [Hd Hc] Hu. unfold ini_load. rewrite ini_items_ok, saved_items by assumption.
  f_equal. apply (add_sections d []).
  - exact Hd.
  - intros n kv Hin. apply (Hc n kv Hin).
  - intros n kv Hin En. destruct d as [|[n0 kv0] d]; [destruct Hin|]. destruct Hu as [H1 H2].
    destruct Hin as [[= -> ->]|Hin]; [apply H1, En|]. exfalso. eapply H2; eassumption.
Qed.

(** ** Whatever was loaded is clean *)
Lemma strip_incl s c : In c (strip s) -> In c s.
Proof.
  rewrite strip_spec. intros H. destruct (rdrop_while_split is_gap (drop_while is_gap s)) as [t [E _]].
  destruct (drop_while_split is_gap s) as [p [Ep _]]. rewrite Ep, E, !in_app_iff. auto.
Qed.
Lemma strip_strip s : strip (strip s) = strip s.
Proof.
  rewrite (strip_spec s). set (m := drop_while is_gap s).
  pose proof (drop_while_head is_gap s) as Hh. fold m in Hh. rewrite strip_spec.
  assert (drop_while is_gap (rdrop_while is_gap m) = rdrop_while is_gap m) as ->.
  { apply drop_while_id. destruct (rdrop_while_split is_gap m) as [t [E _]].
    destruct (rdrop_while is_gap m) as [|x y]; [exact I|]. rewrite E in Hh. exact Hh. }
  apply rdrop_while_id, rdrop_while_last.
Qed.
Lemma strip_clean s : (forall c, In c s -> is_eol c = false /\ c <> "000"%char) -> clean (strip s).
Proof. intros H. split; [|apply strip_strip]. intros c Hc. apply H, strip_incl, Hc. Qed.

Lemma cut_at_parts x s a b : cut_at x s = Some (a, b) -> s = a ++ x :: b /\ ~ In x a.
Proof.
  revert a; induction s as [|c s IH]; intros a; cbn; [discriminate|].
  destruct (Ascii.eqb_spec c x) as [->|Hn]; [intros [= <- <-]; auto|].
  destruct (cut_at x s) as [[a' b']|]; [|discriminate]. intros [= <- <-]. destruct (IH a' eq_refl) as [-> H].
  split; [reflexivity|]. intros [E|E]; [congruence|contradiction].
Qed.

Definition item_clean (i : item) : Prop :=
  match i with
  | ISection n => clean_section n
  | IEntry (SecNamed n) k v => clean_section n /\ clean_key k /\ clean v
  | IEntry SecBroken k v => clean_key k /\ clean v
  end.
Definition good_line (l : bytes) : Prop := forall c, In c l -> is_eol c = false /\ c <> "000"%char.
Definition sec_clean (s : section) : Prop := match s with SecNamed n => clean_section n | SecBroken => True end.

Lemma meaning_clean l : good_line l ->
  match meaning l with
  | LHeader n => clean_section n
  | LEntry k v => clean_key k /\ clean v
  | _ => True
  end.
Proof.
  intros Hl. unfold meaning. assert (Hs : good_line (strip l)) by (intros c Hc; apply Hl, strip_incl, Hc).
  pose proof (strip_strip l) as Hss. destruct (strip l) as [|c r]; [exact I|].
  destruct (Ascii.eqb c ";" || Ascii.eqb c "#") eqn:Ecm; [exact I|].
  destruct (Ascii.eqb_spec c "["%char) as [->|Hb].
  - destruct (cut_at "]" r) as [[n q]|] eqn:E; [|exact I]. apply cut_at_parts in E as [-> Hn]. split.
    + apply strip_clean. intros x Hx. apply Hs. right. apply in_app_iff. auto.
    + intros Hx. apply Hn, strip_incl, Hx.
  - destruct (cut_at "=" (c :: r)) as [[[|k0 k] v]|] eqn:E; try exact I. apply cut_at_parts in E as [E Hk].
    injection E as <- ->. pose proof (strip_id_head _ _ Hss) as Hg. split; [|apply strip_clean; intros x Hx; apply Hs; right; apply in_app_iff; right; right; exact Hx].
    split; [apply strip_clean; intros x Hx; apply Hs; change (c :: k ++ "="%char :: v) with ((c :: k) ++ "="%char :: v); apply in_app_iff; auto|].
    split; [intros Hx; apply Hk, strip_incl, Hx|]. rewrite strip_head by exact Hg. destruct (rdrop_head c k Hg) as [s' Es].
    exists c, s'. split; [exact Es|]. apply orb_false_elim in Ecm as [E1 E2]. apply Ascii.eqb_neq in E1, E2. cbn. intuition congruence.
Qed.

Lemma read_lines_clean sec open ls : sec_clean sec -> (forall l, In l ls -> good_line l) ->
  Forall item_clean (read_lines sec open ls).
Proof.
  revert sec open; induction ls as [|l ls IH]; intros sec open Hsec H; [constructor|]. cbn [read_lines].
  set (l' := if open then "["%char :: l else l).
  assert (Hl : good_line l').
  { unfold l'. pose proof (H l (or_introl eq_refl)) as Hl. destruct open; [|exact Hl]. intros c [<-|Hc]; [split; [reflexivity|discriminate]|apply Hl, Hc]. }
  assert (Hr : forall l, In l ls -> good_line l) by (intros; apply H; right; assumption).
  destruct (beqb (strip l') ["["%char]); [apply IH; assumption|]. pose proof (meaning_clean l' Hl) as Hm.
  destruct (meaning l') as [|n| |k v]; [apply IH; assumption| |apply IH; [exact I|assumption]|].
  - constructor; [exact Hm|]. apply IH; assumption.
  - constructor; [|apply IH; assumption]. destruct sec; cbn; [|exact Hm]. split; [exact Hsec|exact Hm].
Qed.

Lemma lines_good s : nul_free s -> forall l, In l (lines s) -> good_line l.
Proof.
  induction s as [|c s IH]; intros Hn l Hl; cbn [lines] in Hl.
  - destruct Hl as [<-|[]]. intros c [].
  - unfold nul_free in Hn. cbn in Hn. apply andb_prop in Hn as [Hc Hs]. destruct (is_eol c) eqn:Ee.
    + destruct Hl as [<-|Hl]; [intros x []|apply IH; assumption].
    + destruct (lines s) as [|l0 ls] eqn:El; [exfalso; eapply lines_nonnil; exact El|].
      destruct Hl as [<-|Hl]; [|apply IH; [exact Hs|right; exact Hl]].
      intros x [<-|Hx]; [|apply (IH Hs l0 (or_introl eq_refl)), Hx]. split; [exact Ee|].
      apply negb_true_iff, Ascii.eqb_neq in Hc. exact Hc.
Qed.

Lemma text_items_clean data : Forall item_clean (text_items data).
Proof.
  apply read_lines_clean.
  - split; [split; [intros c []|reflexivity]|intros []].
  - apply lines_good, cstr_nul_free.
Qed.

Lemma ini_update_in n f d n' kv' : In (n', kv') (ini_update n f d) ->
  In (n', kv') d \/ (n' = n /\ kv' = f []) \/ exists kv, In (n', kv) d /\ kv' = f kv.
Proof.
  induction d as [|[n0 kv0] d IH]; cbn [ini_update].
  - intros [[= <- <-]|[]]. auto.
  - destruct (nocase_eqb n0 n); cbn [In].
    + intros [[= <- <-]|H]; [|auto]. right. right. exists kv0. auto.
    + intros [H|H]; [auto|]. apply IH in H as [H|[H|[kv [H E]]]]; [auto|auto|]. right. right. exists kv. auto.
Qed.
Lemma ini_update_names n f d : map fst (ini_update n f d) = if existsb (fun p => same_nameb (fst p) n) d then map fst d else map fst d ++ [n].
Proof.
  induction d as [|[n0 kv0] d IH]; cbn [ini_update map fst existsb]; [reflexivity|]. rewrite nocase_eqb_same.
  destruct (same_nameb n0 n); cbn [map fst orb]; [reflexivity|]. rewrite IH. destruct (existsb _ d); reflexivity.
Qed.

(** distinctness depends on the names only *)
Fixpoint distinct_list (l : list bytes) : Prop :=
  match l with [] => True | n :: r => (forall n', In n' r -> ~ same_name n n') /\ distinct_list r end.
Lemma distinct_names_list {V} (l : list (bytes * V)) : distinct_names l <-> distinct_list (map fst l).
Proof.
  induction l as [|[n v] l IH]; cbn; [tauto|]. rewrite IH. split; intros [H1 H2]; split; auto.
  - intros n' Hin. apply in_map_iff in Hin as [[n2 v2] [<- Hin]]. eapply H1, Hin.
  - intros n' v' Hin. apply H1, in_map_iff. exists (n', v'). auto.
Qed.
Lemma distinct_list_snoc l n : distinct_list l -> (forall n', In n' l -> ~ same_name n' n) -> distinct_list (l ++ [n]).
Proof.
  induction l as [|n0 l IH]; cbn; intros H Hn; [split; [intros ? []|exact I]|]. destruct H as [H1 H2]. split; [|apply IH; auto].
  intros n' Hin. apply in_app_iff in Hin as [Hin|[<-|[]]]; auto.
Qed.
Lemma distinct_step {V} (d d' : list (bytes * V)) n : distinct_names d ->
  map fst d' = (if existsb (fun p => same_nameb (fst p) n) d then map fst d else map fst d ++ [n]) -> distinct_names d'.
Proof.
  rewrite !distinct_names_list. intros H ->. destruct (existsb _ d) eqn:E; [exact H|]. apply distinct_list_snoc; [exact H|].
  intros n' Hin Hs. apply in_map_iff in Hin as [[n2 v2] [<- Hin]]. cbn in Hs.
  apply not_true_iff_false in E. apply E, existsb_exists. exists (n2, v2). split; [exact Hin|]. cbn [fst].
  destruct (same_nameb_spec n2 n); [reflexivity|contradiction].
Qed.

Lemma kv_set_in k v kv k' v' : In (k', v') (kv_set k v kv) ->
  In (k', v') kv \/ (k' = k /\ v' = v) \/ (v' = v /\ exists v0, In (k', v0) kv).
Proof.
  induction kv as [|[k0 v0] kv IH]; cbn [kv_set].
  - intros [[= <- <-]|[]]. auto.
  - destruct (nocase_eqb k0 k); cbn [In].
    + intros [[= <- <-]|H]; [|auto]. right. right. eauto.
    + intros [H|H]; [auto|]. apply IH in H as [H|[H|[E [v1 H]]]]; eauto 6.
Qed.

Lemma clean_add d i : clean_sections d -> item_clean i -> clean_sections (add_item d i).
Proof.
  intros [Hd Hc] Hi.
  assert (Hkv : forall k v kv, clean_keyvals kv -> clean_key k -> clean v -> clean_keyvals (kv_set k v kv)).
  { intros k v kv [K1 K2] Hk Hv. split.
    - eapply (distinct_step kv); [exact K1|apply kv_set_keys].
    - intros k' v' Hin. apply kv_set_in in Hin as [Hin|[[-> ->]|[-> [v0 Hin]]]]; [apply K2, Hin|auto|]. split; [|exact Hv]. eapply K2, Hin. }
  assert (Hnil : clean_keyvals []) by (split; [exact I|intros ? ? []]).
  destruct i as [n|[n|] k v]; cbn [add_item]; [| |split; assumption].
  - cbn in Hi. split; [eapply (distinct_step d); [exact Hd|apply ini_update_names]|].
    intros n' kv' Hin. apply ini_update_in in Hin as [Hin|[[-> ->]|[kv [Hin ->]]]]; [apply Hc, Hin|auto|apply Hc, Hin].
  - cbn in Hi. destruct Hi as [Hn [Hk Hv]]. split; [eapply (distinct_step d); [exact Hd|apply ini_update_names]|].
    intros n' kv' Hin. apply ini_update_in in Hin as [Hin|[[-> ->]|[kv [Hin ->]]]]; [apply Hc, Hin| |].
    + split; [exact Hn|]. apply Hkv; assumption.
    + destruct (Hc n' kv Hin) as [A B]. split; [exact A|]. apply Hkv; assumption.
Qed.

Lemma clean_load data d : ini_load data = Ok d -> clean_sections d.
Proof.
  unfold ini_load. rewrite ini_items_ok. intros [= <-]. pose proof (text_items_clean data) as H.
  assert (G : forall items d0, clean_sections d0 -> Forall item_clean items -> clean_sections (fold_left add_item items d0)).
  { induction items as [|i items IH]; intros d0 Hd Hf; [exact Hd|]. inversion Hf; subst. cbn. apply IH; [apply clean_add; assumption|assumption]. }
  apply G; [|exact H]. split; [exact I|intros ? ? []].
Qed.


(** ** Texts without a nameless header load with the nameless section first *)
Definition named_item (i : item) : Prop := item_opens [] i = false.
Definition named_sec (s : section) : Prop := match s with SecNamed n => n <> [] | SecBroken => True end.
Lemma named_items ls : forall sec open, named_sec sec ->
  (forall n, In (ISection n) (read_lines sec open ls) -> n <> []) -> Forall named_item (read_lines sec open ls).
Proof.
  induction ls as [|l ls IH]; intros sec open Hs Hn; [constructor|]. cbn [read_lines] in *.
  set (l' := if open then "["%char :: l else l) in *.
  destruct (beqb (strip l') ["["%char]); [apply IH; assumption|].
  destruct (meaning l') as [|n| |k v]; [apply IH; assumption| |apply IH; [exact I|assumption]|].
  - assert (n <> []) as Hne by (apply Hn; left; reflexivity).
    constructor; [destruct n; [congruence|reflexivity]|]. apply IH; [exact Hne|]. intros n' H'. apply Hn. right. exact H'.
  - constructor; [destruct sec as [[|c n]|]; [contradiction Hs; reflexivity|reflexivity|reflexivity]|].
    apply IH; [exact Hs|]. intros n' H'. apply Hn. right. exact H'.
Qed.
Lemma items_shape ls : forall sec open, (forall n, In (ISection n) (read_lines sec open ls) -> n <> []) ->
  exists kv rest, read_lines sec open ls = entry_items (SecNamed []) kv ++ rest /\ Forall named_item rest.
Proof.
  induction ls as [|l ls IH]; intros sec open Hn; [exists [], []; split; [reflexivity|constructor]|].
  destruct sec as [[|c n]|].
  2: { exists [], (read_lines (SecNamed (c :: n)) open (l :: ls)). split; [reflexivity|]. apply named_items; [discriminate|exact Hn]. }
  2: { exists [], (read_lines SecBroken open (l :: ls)). split; [reflexivity|]. apply named_items; [exact I|exact Hn]. }
  cbn [read_lines] in *. set (l' := if open then "["%char :: l else l) in *.
  destruct (beqb (strip l') ["["%char]); [apply IH; exact Hn|].
  destruct (meaning l') as [|n| |k v]; [apply IH; exact Hn| |apply IH; exact Hn|].
  - exists []. eexists. split; [reflexivity|]. assert (n <> []) as Hne by (apply Hn; left; reflexivity).
    constructor; [destruct n; [congruence|reflexivity]|]. apply named_items; [exact Hne|]. intros n' H'. apply Hn. right. exact H'.
  - destruct (IH (SecNamed []) false) as [kv [rest [E F]]]; [intros n' H'; apply Hn; right; exact H'|].
    exists ((k, v) :: kv), rest. rewrite E. split; [reflexivity|exact F].
Qed.

Lemma fold_nameless kv : kv <> [] -> exists kv', kv' <> [] /\ fold_left add_item (entry_items (SecNamed []) kv) [] = [([], kv')].
Proof.
  induction kv as [|[k v] kv IH] using rev_ind; [congruence|]. intros _.
  unfold entry_items. rewrite map_app, fold_left_app. fold (entry_items (SecNamed []) kv).
  destruct kv as [|e kv]; [exists [(k, v)]; split; [discriminate|reflexivity]|].
  destruct IH as [kv' [Hne ->]]; [discriminate|]. cbn [map fold_left add_item fst snd ini_update].
  change (nocase_eqb [] []) with true. cbn iota. eexists. split; [|reflexivity].
  destruct kv' as [|[k1 v1] kv']; [congruence|]. cbn [kv_set]. destruct (nocase_eqb k1 k); discriminate.
Qed.
Lemma ini_update_unnamed n f d : n <> [] -> unnamed_first d -> unnamed_first (ini_update n f d).
Proof.
  intros Hn. assert (G : forall d : ini, (forall n' kv', In (n', kv') d -> n' <> []) -> forall n' kv', In (n', kv') (ini_update n f d) -> n' <> []).
  { intros d0 H n' kv' Hin. apply ini_update_in in Hin as [Hin|[[-> _]|[kv [Hin _]]]]; eauto. }
  destruct d as [|[n0 kv0] d]; cbn [ini_update]; intros Hu.
  - cbn. split; [congruence|intros ? ? []].
  - destruct Hu as [H1 H2]. rewrite nocase_eqb_same. destruct (same_nameb_spec n0 n) as [E|E]; cbn [unnamed_first fst snd] in *.
    + split; [|exact H2]. intros ->. unfold same_name in E. destruct n; [congruence|discriminate].
    + split; [exact H1|]. apply G, H2.
Qed.
Lemma unnamed_load data d : (forall n, In (ISection n) (text_items data) -> n <> []) -> ini_load data = Ok d -> unnamed_first d.
Proof.
  unfold ini_load. rewrite ini_items_ok. intros Hn [= <-]. unfold text_items in *.
  destruct (items_shape _ _ _ Hn) as [kv [rest [-> F]]]. rewrite fold_left_app.
  assert (G : forall d0 : ini, unnamed_first d0 -> unnamed_first (fold_left add_item rest d0)).
  { clear Hn. induction rest as [|i rest IH]; intros d0 H0; [exact H0|]. inversion F; subst. cbn [fold_left]. apply IH; [assumption|].
    destruct i as [n|[n|] k v]; cbn [add_item]; [| |exact H0]; apply ini_update_unnamed; try exact H0;
      intros ->; discriminate. }
  apply G. destruct kv as [|e kv]; [exact I|]. destruct (fold_nameless (e :: kv)) as [kv' [Hk ->]]; [discriminate|].
  cbn. split; [intros _; exact Hk|intros ? ? []].
Qed.

Lemma last_value_none es key : last_value es key = None <-> forall k' v', In (k', v') es -> ~ same_name k' key.
Proof.
  induction es as [|[k v] es IH]; cbn [last_value]; [split; [intros _ ? ? []|reflexivity]|].
  destruct (last_value es key) as [w|] eqn:E.
  - split; [discriminate|]. intros H. exfalso. assert (Some w = None) as X; [|discriminate X]. apply IH. intros k' v' Hin. apply (H k' v'). right. exact Hin.
  - destruct (same_nameb_spec k key) as [S|S].
    + split; [discriminate|]. intros H. exfalso. apply (H k v); [left; reflexivity|exact S].
    + split; [|reflexivity]. intros _ k' v' [[= <- <-]|Hin]; [exact S|]. revert k' v' Hin. apply IH. reflexivity.
Qed.
Lemma last_value_some es key v : last_value es key = Some v <->
  exists before k after, es = before ++ (k, v) :: after /\ same_name k key /\ forall k' v', In (k', v') after -> ~ same_name k' key.
Proof.
  induction es as [|[k0 v0] es IH]; cbn [last_value].
  - split; [discriminate|]. intros [b [k [a [E _]]]]. destruct b; discriminate.
  - destruct (last_value es key) as [w|] eqn:E.
    + split.
      * intros [= ->]. destruct (proj1 IH eq_refl) as [b [k [a [-> [S H]]]]]. exists ((k0, v0) :: b), k, a. auto.
      * intros [b [k [a [Eq [S H]]]]]. apply IH. destruct b as [|p b].
        -- injection Eq as <- <- ->. apply last_value_none in H. congruence.
        -- injection Eq as <- ->. exists b, k, a. auto.
    + destruct (same_nameb_spec k0 key) as [S0|S0].
      * split.
        -- intros [= ->]. exists [], k0, es. split; [reflexivity|]. split; [exact S0|]. apply last_value_none, E.
        -- intros [b [k [a [Eq [S H]]]]]. destruct b as [|p b]; [injection Eq as <- <- ->; reflexivity|].
           injection Eq as <- ->. exfalso. destruct (proj1 (last_value_none _ _) E k v); [apply in_app_iff; right; left; reflexivity|exact S].
      * split; [discriminate|]. intros [b [k [a [Eq [S H]]]]]. destruct b as [|p b]; [injection Eq as <- <- ->; contradiction|].
        injection Eq as <- ->. exfalso. destruct (proj1 (last_value_none _ _) E k v); [apply in_app_iff; right; left; reflexivity|exact S].
Qed.
