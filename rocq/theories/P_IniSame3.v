(** Loading the entries of a document into an empty one. *)
From Coq Require Import Lia.
From Verif Require Import Base P_Base Ini IniBuf P_IniBuf P_IniBuf2 Spec_Ini P_Ini P_IniSave Spec_IniEdit Spec_IniBuf Prop_IniBuf Spec_IniSame P_IniDoc P_IniText P_IniMultiText P_IniCom2 P_IniCom3 P_IniCom4 P_IniSame P_IniSame2.

Definition given := (bytes * option (bytes * bytes) * option bytes)%type.
Definition line_given (n : bytes) (l : eline) : given := (n, Some (l_key l, l_value l), l_comment l).
Definition item_given (i : item * option bytes) : given :=
  match i with
  | (ISection n, c) => (n, None, c)
  | (IEntry (SecNamed n) k v, c) => (n, Some (k, v), c)
  | (IEntry SecBroken k v, c) => ([], Some (k, v), c)
  end.
Definition no_broken (i : item * option bytes) : Prop := match fst i with IEntry SecBroken _ _ => False | _ => True end.
Lemma given_is b l its : Forall2 (item_rel b) l (map fst its) -> Forall2 (com_rel b) l its -> Forall no_broken its -> forall es, Forall2 (entry_at b) l es -> es = map item_given its.
Proof.
  revert its. induction l as [|[e s] l IH]; intros [|[i c] its] A B N es E; try (inversion A; fail); inversion E; subst; [reflexivity|]. cbn [map fst] in A. inversion A; subst. inversion B; subst. destruct y as [s' c']. destruct H1 as [E1 E2]. cbn [fst snd] in *.
  cbn [map]. f_equal; [|apply IH; [assumption|assumption|exact (Forall_inv_tail N)|assumption]].
  assert (CC : c' = c). { unfold com_rel in *. cbn [fst snd] in *. destruct (e_comment e) as [q|], c as [t|], c' as [t'|]; cbn [com_is comment_at] in *; try contradiction; [|reflexivity]. f_equal. eapply string_at_unique; [exact E2|]. apply at_string. tauto. }
  subst c' s'. pose proof (Forall_inv N) as NB. unfold no_broken in NB. cbn [fst] in NB. destruct i as [n|[n|] k v]; cbn [item_rel fst snd] in *; [| |contradiction].
  - destruct H4 as (_ & _ & ->). reflexivity.
  - destruct H4 as (pk & pv & m & _ & _ & _ & _ & X & ->). cbn in X. subst m. reflexivity.
Qed.
Definition with_lines (p : epart) (ls : list eline) : epart := {| p_name := p_name p; p_comment := p_comment p; p_lines := ls |}.
Lemma change_last {A} (P : A -> bool) f l a : Forall (fun x => P x = false) l -> P a = true -> change_first P f (l ++ [a]) = l ++ [f a].
Proof. induction 1 as [|x l H F IH]; intros E; cbn; [rewrite E; reflexivity|]. rewrite H, IH by exact E. reflexivity. Qed.
Lemma exists_last {A} (P : A -> bool) l a : P a = true -> existsb P (l ++ [a]) = true.
Proof. intros H. rewrite existsb_app. cbn. rewrite H. apply orb_true_r. Qed.
Lemma exists_none {A} (P : A -> bool) l : Forall (fun x => P x = false) l -> existsb P l = false.
Proof. induction 1 as [|x l H F IH]; [reflexivity|]. cbn. rewrite H. exact IH. Qed.
Lemma load_lines n d ps ls : Forall (fun q => of_name n q = false) ps -> forall p, of_name n p = true -> (d_multi d = true \/ one_each (p_lines p ++ ls)) ->
  load_doc (map (line_given n) ls) (with_parts (ps ++ [p]) d) = with_parts (ps ++ [with_lines p (p_lines p ++ ls)]) d.
Proof.
  intros A. induction ls as [|l ls IH]; intros p N O.
  - rewrite app_nil_r. unfold with_lines. destruct p; reflexivity.
  - cbn [map load_doc line_given]. unfold set_doc at 1. cbn [d_parts d_multi with_parts]. unfold with_part. rewrite exists_last by exact N. rewrite change_last by assumption.
    assert (G : give (d_multi d) false (l_key l) (l_value l) (l_comment l) (p_lines p) = p_lines p ++ [l]).
    { unfold give. assert (NEW : {| l_key := l_key l; l_comment := l_comment l; l_value := l_value l |} = l) by (destruct l; reflexivity). rewrite NEW. destruct (existsb (of_key (l_key l)) (p_lines p)) eqn:E; [|reflexivity]. destruct (d_multi d); [reflexivity|]. exfalso. destruct O as [O|O]; [discriminate|]. specialize (O (l_key l)).
      rewrite filter_app, app_length in O. cbn [filter] in O. rewrite key_refl in O. cbn [length] in O. apply existsb_exists in E as (x & I & X). assert (Y : In x (filter (of_key (l_key l)) (p_lines p))) by (apply filter_In; auto). destruct (filter (of_key (l_key l)) (p_lines p)); [destruct Y|cbn in O; lia]. }
    rewrite G. change (with_parts (ps ++ [{| p_name := p_name p; p_comment := p_comment p; p_lines := p_lines p ++ [l] |}]) (with_parts (ps ++ [p]) d)) with (with_parts (ps ++ [with_lines p (p_lines p ++ [l])]) d).
    rewrite IH; [|exact N|cbn [p_lines with_lines]; rewrite <- app_assoc; exact O]. cbn [p_lines with_lines]. unfold with_lines. cbn [p_name p_comment]. rewrite <- app_assoc. reflexivity.
Qed.
Lemma same_self n : same_nameb n n = true.
Proof. apply same_is. reflexivity. Qed.
Lemma name_self p : of_name (p_name p) p = true.
Proof. apply same_self. Qed.
Definition part_given (p : epart) (ls : list eline) : list given := match p_name p with [] => [] | n => [(n, None, p_comment p)] end ++ map (line_given (p_name p)) ls.
Lemma load_app es1 : forall es2 d, load_doc (es1 ++ es2) d = load_doc es2 (load_doc es1 d).
Proof. induction es1 as [|[[s kv] c] es1 IH]; intros es2 d; [reflexivity|]. cbn [app load_doc]. apply IH. Qed.
Lemma load_part d ps p ls : Forall (fun q => of_name (p_name p) q = false) ps -> (d_multi d = true \/ one_each ls) -> (p_name p = [] -> p_comment p = None /\ ls <> []) ->
  load_doc (part_given p ls) (with_parts ps d) = with_parts (ps ++ [with_lines p ls]) d.
Proof.
  intros A O U. unfold part_given. rewrite load_app.
  assert (LL : forall c, load_doc (map (line_given (p_name p)) ls) (with_parts (ps ++ [{| p_name := p_name p; p_comment := c; p_lines := [] |}]) d) = with_parts (ps ++ [{| p_name := p_name p; p_comment := c; p_lines := ls |}]) d).
  { intros c. rewrite (load_lines (p_name p) d ps ls A {| p_name := p_name p; p_comment := c; p_lines := [] |}); [reflexivity|apply same_self|exact O]. }
  destruct (p_name p) as [|x n] eqn:E.
  - destruct (U eq_refl) as [C NL]. unfold with_lines. rewrite E, C. cbn [load_doc]. rewrite <- (LL None). destruct ls as [|l ls]; [congruence|]. cbn [map load_doc line_given]. f_equal. unfold set_doc, with_part. cbn [d_parts with_parts]. rewrite (exists_none _ _ A). rewrite exists_last by reflexivity. reflexivity.
  - cbn [load_doc]. unfold set_doc at 1, with_part. cbn [d_parts with_parts]. rewrite (exists_none _ _ A). change (with_parts (ps ++ [{| p_name := x :: n; p_comment := p_comment p; p_lines := [] |}]) (with_parts ps d)) with (with_parts (ps ++ [{| p_name := x :: n; p_comment := p_comment p; p_lines := [] |}]) d). rewrite LL. unfold with_lines. rewrite E. reflexivity.
Qed.
Lemma items_given n d p : map item_given (part_citems n d p) = match sec_after n p with SecNamed m => match p_name p with [] => [] | n => [(n, None, p_comment p)] end ++ map (line_given m) (regroup d p) | SecBroken => map item_given (part_citems n d p) end.
Proof.
  destruct (sec_after n p) as [m|] eqn:E; [|reflexivity]. unfold part_citems. rewrite map_app. f_equal; [destruct (p_name p); reflexivity|]. rewrite E. unfold regroup. induction (first_lines [] (p_lines p)) as [|l fl IH]; [reflexivity|]. cbn [flat_map]. rewrite !map_app, IH. f_equal. unfold key_citems. rewrite !map_map. reflexivity.
Qed.
Lemma part_no_broken n d p : Forall no_broken (part_citems (SecNamed n) d p).
Proof.
  unfold part_citems. apply Forall_app. split; [destruct (p_name p); constructor; [exact I|constructor]|]. assert (X : exists m, sec_after (SecNamed n) p = SecNamed m) by (unfold sec_after; destruct (p_name p); eauto). destruct X as [m ->]. apply Forall_forall. intros i I1. apply in_flat_map in I1 as (l & _ & I1). unfold key_citems in I1. apply in_map_iff in I1 as (y & <- & _). exact I.
Qed.
Lemma parts_no_broken d ps : forall n, Forall no_broken (parts_citems (SecNamed n) d ps).
Proof. induction ps as [|p ps IH]; intros n; [constructor|]. cbn [parts_citems]. apply Forall_app. split; [apply part_no_broken|]. unfold sec_after. destruct (p_name p); apply IH. Qed.
Lemma load_parts d0 d : d_multi d0 = d_multi d -> forall ps done n, apart (done ++ ps) -> (d_multi d = true \/ Forall (fun p => one_each (p_lines p)) ps) ->
  (forall before p after, done ++ ps = before ++ p :: after -> p_name p = [] -> before = [] /\ p_comment p = None /\ p_lines p <> []) -> (done = [] -> n = []) ->
  load_doc (map item_given (parts_citems (SecNamed n) d ps)) (with_parts (map (regrouped d) done) d0) = with_parts (map (regrouped d) (done ++ ps)) d0.
Proof.
  intros M. induction ps as [|p ps IH]; intros done n A O U DN; [rewrite app_nil_r; reflexivity|]. cbn [parts_citems]. rewrite map_app, load_app, items_given.
  assert (UN : p_name p = [] -> done = [] /\ p_comment p = None /\ p_lines p <> []) by (apply (U done p ps eq_refl)).
  assert (SA : sec_after (SecNamed n) p = SecNamed (p_name p)). { unfold sec_after. destruct (p_name p) eqn:E; [|reflexivity]. destruct (UN eq_refl) as [D _]. rewrite (DN D). reflexivity. }
  rewrite SA. change (match p_name p with [] => [] | a :: l => [(a :: l, None, p_comment p)] end ++ map (line_given (p_name p)) (regroup d p)) with (part_given p (regroup d p)).
  assert (RS : same_lines (p_lines p) (regroup d p)) by (apply regroup_same; destruct O as [O|O]; [left; exact O|right; exact (Forall_inv O)]).
  assert (AP : Forall (fun q => of_name (p_name p) q = false) (map (regrouped d) done)).
  { clear - A. induction done as [|q done IH]; [constructor|]. cbn [app apart map] in *. destruct A as [A1 A2]. constructor; [|apply IH, A2]. apply Forall_app in A1 as [_ A1]. pose proof (Forall_inv A1) as X. cbv beta in X. unfold of_name. cbn [p_name regrouped]. rewrite same_sym. exact X. }
  rewrite load_part; [|exact AP| |].
  - change (map (regrouped d) done ++ [with_lines p (regroup d p)]) with (map (regrouped d) done ++ map (regrouped d) [p]). rewrite <- map_app. rewrite IH; [rewrite <- app_assoc; reflexivity|rewrite <- app_assoc; exact A|destruct O as [O|O]; [left; exact O|right; exact (Forall_inv_tail O)]|rewrite <- app_assoc; exact U|intros X; destruct done; discriminate].
  - rewrite M. destruct O as [O|O]; [left; exact O|]. destruct (d_multi d) eqn:DM; [left; reflexivity|right]. rewrite (one_regroup d p DM (Forall_inv O)). exact (Forall_inv O).
  - intros E. destruct (UN E) as (_ & C & L). split; [exact C|]. destruct RS as [LN _]. intros X. rewrite X in LN. destruct (p_lines p); [congruence|discriminate].
Qed.
Lemma load_same d0 d : d_multi d0 = d_multi d -> d_multiline d0 = d_multiline d -> d_spaces d0 = d_spaces d -> d_comment d0 = d_comment d -> d_parts d0 = [] -> apart (d_parts d) -> can_show (d_multi d) d ->
  same_doc d (load_doc (map item_given (parts_citems (SecNamed []) d (d_parts d))) d0).
Proof.
  intros M ML SP C P A (O & U & _). assert (O' : d_multi d = true \/ Forall (fun p => one_each (p_lines p)) (d_parts d)) by (destruct O as [O|O]; [left; exact O|right; apply Forall_forall; intros p I k; apply (O p k I)]).
  pose proof (load_parts d0 d M (d_parts d) [] [] A O' U (fun _ => eq_refl)) as X. cbn [app map] in X. replace (with_parts [] d0) with d0 in X by (destruct d0; cbn in *; subst; reflexivity). rewrite X.
  split; [symmetry; exact M|]. split; [symmetry; exact ML|]. split; [symmetry; exact SP|]. split; [symmetry; exact C|]. cbn [d_parts with_parts]. clear - O'. induction (d_parts d) as [|p ps IH]; [constructor|]. cbn [map]. constructor; [|apply IH; destruct O' as [O|O]; [left; exact O|right; exact (Forall_inv_tail O)]].
  split; [reflexivity|]. split; [reflexivity|]. apply regroup_same. destruct O' as [O|O]; [left; exact O|right; exact (Forall_inv O)].
Qed.

(** ** calls that give kept comments *)
Definition kept_doc (d : edoc) : Prop := file_opt (d_comment d) /\ Forall kept_part (d_parts d).
Lemma kept_with n c ps : kept_opt c -> Forall kept_part ps -> Forall kept_part (with_part n c ps).
Proof. intros C P. unfold with_part. destruct (existsb _ ps); [exact P|]. apply Forall_app. split; [exact P|]. constructor; [|constructor]. split; [exact C|constructor]. Qed.
Lemma kept_give multi force k v c ls : kept_opt c -> kept_lines ls -> kept_lines (give multi force k v c ls).
Proof.
  intros C L. unfold kept_lines in *. assert (N : Forall (fun l => kept_opt (l_comment l)) (ls ++ [{| l_key := k; l_comment := c; l_value := v |}])) by (apply Forall_app; split; [exact L|constructor; [exact C|constructor]]).
  unfold give. destruct (existsb _ ls); [|exact N]. destruct multi; [destruct force|]; [|exact N|].
  - apply forall_only; [exact L|]. intros a A. cbn. destruct (l_comment a); [exact A|exact C].
  - apply forall_change; [exact L|]. intros a A. exact A.
Qed.
Lemma kept_set n kv c force d : kept_opt c -> kept_doc d -> kept_doc (set_doc n kv c force d).
Proof.
  intros C [F P]. unfold set_doc. destruct kv as [[k v]|]; (split; [exact F|]); cbn [d_parts with_parts]; [|apply kept_with; assumption]. apply forall_change; [apply kept_with; [exact I|exact P]|]. intros p [A B]. split; [exact A|]. apply kept_give; assumption.
Qed.
Lemma kept_expect c d : comments_kept c -> kept_doc d -> kept_doc (snd (expect c d)).
Proof.
  intros K D. pose proof D as [F P]. destruct c; cbn [expect snd comments_kept] in *; try exact D.
  - apply kept_set; assumption.
  - destruct sec as [s|]; [|exact D]. unfold delete_doc, part_of. destruct (List.find (of_name s) (d_parts d)) as [p|] eqn:E; [|exact D].
    assert (X : kept_doc (with_parts (filter (fun q => negb (of_name s q)) (d_parts d)) d)) by (split; [exact F|apply forall_filter, P]).
    destruct key as [k|]; [|exact X]. destruct (existsb (of_key k) (p_lines p)); [|exact D]. destruct (prune && _); [exact X|]. split; [exact F|]. cbn. apply forall_change; [exact P|]. intros q [A _]. split; [exact A|]. apply forall_filter. apply (find_forall _ _ _ _ P E).
  - split; [exact I|constructor].
  - destruct K as [KC KE]. set (d1 := {| d_multi := d_multi d; d_multiline := _; d_spaces := _; d_comment := _; d_parts := _ |}). assert (D1 : kept_doc d1) by (split; [cbn; destruct (d_comment d); assumption|exact P]). clearbody d1. revert d1 D1. induction entries as [|[[s kv] c] es IH]; intros d1 D1; [exact D1|]. cbn [load_doc]. apply IH; [exact (Forall_inv_tail KE)|]. apply kept_set; [exact (Forall_inv KE)|exact D1].
Qed.
Lemma kept_all h : forall d, Forall comments_kept h -> kept_doc d -> kept_doc (snd (expect_all h d)).
Proof.
  induction h as [|c h IH]; intros d T D; [exact D|]. cbn [expect_all]. pose proof (kept_expect c d (Forall_inv T) D) as X. destruct (expect c d) as [a d1]. cbn [snd] in X. specialize (IH d1 (Forall_inv_tail T) X). destruct (expect_all h d1). exact IH.
Qed.
