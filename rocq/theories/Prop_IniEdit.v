(** C102: the editing interface of an INI object behaves like a plain document, whatever
    the history of calls. The reference document is in Spec_IniEdit.v. *)
From Coq Require Import Lia.
From Verif Require Import Base P_Base CTypes StringUtils Ini Spec_Ini IniEdit Spec_IniEdit IniCalls P_IniEdit11 P_IniDoc.

(** a new object, after the calls [h], has given the answers [l] *)
Definition answers (multi multiline : bool) (h : list call) (l : list answer) : Prop :=
  exists st, perform_all h (new_store multi multiline) = Ok (l, st).

(** Whatever is called in whatever order, with strings of the caller: no undefined behaviour, and
    every answer, the written text included, is that of the reference document. *)
Theorem C102_document : forall multi multiline h,
  answers multi multiline h (fst (expect_all h (blank multi multiline))).
Proof.
  intros m ml h. destruct (perform_all_ok h _ _ (new_doc m ml)) as (st & E & _). exists st. exact E.
Qed.

Lemma answers_after multi multiline h h' :
  exists l d, answers multi multiline (h ++ h') (l ++ fst (expect_all h' d)) /\ length l = length h.
Proof.
  exists (fst (expect_all h (blank multi multiline))), (snd (expect_all h (blank multi multiline))). split.
  - pose proof (C102_document multi multiline (h ++ h')) as A. rewrite expect_app in A. exact A.
  - generalize (blank multi multiline). induction h as [|c h IH]; intros d; cbn; [reflexivity|]. destruct (expect c d) as [a d1]. specialize (IH d1).
    destruct (expect_all h d1). cbn in *. lia.
Qed.

(** *** one value per key: the value given is the value read, under any spelling of the names *)
Lemma values_set_one s k v c force d : d_multi d = false -> exists l, values_of s k (set_doc s (Some (k, v)) c force d) = [l] /\ l_value l = v.
Proof.
  intros M. rewrite values_at, set_multi_same, M, lines_set_same, M, give_same. destruct (filter _ _) as [|a r]; eexists; split; reflexivity.
Qed.
Theorem C102_set_get : forall multi multiline h sec key value comment force sec' key',
  same_name sec sec' -> same_name key key' ->
  exists l a, answers multi multiline (h ++ [CMultiKey false; CSet sec (Some key) (Some value) comment force; CGet (Some sec') (Some key')])
                                      (l ++ [Done; a; Value (Some value) false]).
Proof.
  intros m ml h s k v c f s' k' HS HK. destruct (answers_after m ml h [CMultiKey false; CSet s (Some k) (Some v) c f; CGet (Some s') (Some k')]) as (l & d & A & _).
  cbn [expect_all expect both fst] in A. rewrite <- (values_congr s s' k k' _ HS HK) in A.
  match type of A with context [values_of s k (set_doc s (Some (k, v)) c f ?d)] => destruct (values_set_one s k v c f d eq_refl) as (x & E & V) end.
  rewrite E, V in A. eexists l, _. exact A.
Qed.

(** *** several values per key, replaced: then there is one, with the comment the first had or the new one *)
Theorem C102_replace : forall multi multiline h sec key value comment sec' key',
  same_name sec sec' -> same_name key key' ->
  exists l old, answers multi multiline
    (h ++ [CMultiKey true; CAll (Some sec') (Some key'); CSet sec (Some key) (Some value) comment true; CGet (Some sec') (Some key'); CAll (Some sec') (Some key')])
    (l ++ [Done; Told old; Added; Value (Some value) false;
           Told (Some [(value, match old with Some ((_, Some c) :: _) => Some c | _ => comment end)])]).
Proof.
  intros m ml h s k v c s' k' HS HK. destruct (answers_after m ml h [CMultiKey true; CAll (Some s') (Some k'); CSet s (Some k) (Some v) c true; CGet (Some s') (Some k'); CAll (Some s') (Some k')]) as (l & d & A & _).
  cbn [expect_all expect both fst] in A. rewrite <- !(values_congr s s' k k' _ HS HK) in A.
  match type of A with context [set_doc s (Some (k, v)) c true ?x] => set (d1 := x) in * end.
  assert (M : d_multi d1 = true) by reflexivity. clearbody d1.
  rewrite !values_at, set_multi_same, M, lines_set_same, M, give_same in A.
  assert (AD : added s (Some (k, v)) d1 = true) by (unfold added; rewrite M; destruct (part_of s d1); reflexivity). rewrite AD in A.
  exists l. destruct (filter (of_key k) (lines_at s d1)) as [|a r]; cbn in A; [exists None; exact A|]. destruct a as [ak ac av]. cbn in A. destruct ac; eexists; exact A.
Qed.

(** *** several values per key, not replaced: the new value comes after the old ones *)
Theorem C102_append : forall multi multiline h sec key value comment sec' key',
  same_name sec sec' -> same_name key key' ->
  exists l old, answers multi multiline
    (h ++ [CMultiKey true; CAll (Some sec') (Some key'); CSet sec (Some key) (Some value) comment false; CAll (Some sec') (Some key')])
    (l ++ [Done; Told old; Added; Told (Some (match old with None => [] | Some o => o end ++ [(value, comment)]))]).
Proof.
  intros m ml h s k v c s' k' HS HK. destruct (answers_after m ml h [CMultiKey true; CAll (Some s') (Some k'); CSet s (Some k) (Some v) c false; CAll (Some s') (Some k')]) as (l & d & A & _).
  cbn [expect_all expect both fst] in A. rewrite <- !(values_congr s s' k k' _ HS HK) in A.
  match type of A with context [set_doc s (Some (k, v)) c false ?x] => set (d1 := x) in * end.
  assert (M : d_multi d1 = true) by reflexivity. clearbody d1.
  rewrite !values_at, set_multi_same, M, lines_set_same, M, give_same in A.
  assert (AD : added s (Some (k, v)) d1 = true) by (unfold added; rewrite M; destruct (part_of s d1); reflexivity). rewrite AD in A.
  exists l. destruct (filter (of_key k) (lines_at s d1)) as [|a r]; cbn in A; [exists None; exact A|].
  destruct (r ++ [{| l_key := k; l_comment := c; l_value := v |}]) eqn:E; [destruct r; discriminate|]. rewrite <- E in A.
  change (value_told a :: map value_told (r ++ [{| l_key := k; l_comment := c; l_value := v |}])) with (map value_told ((a :: r) ++ [{| l_key := k; l_comment := c; l_value := v |}])) in A.
  rewrite map_app in A. eexists. exact A.
Qed.

(** *** a call that gives or deletes another key, or another section, leaves the values of a key *)
Definition elsewhere (sec key : bytes) (c : call) : Prop :=
  match c with
  | CSet s (Some k) (Some _) _ _ => ~ same_name s sec \/ ~ same_name k key
  | CSet _ _ _ _ _ => True
  | CDelete None _ _ => True
  | CDelete (Some s) (Some k) _ => ~ same_name s sec \/ ~ same_name k key
  | CDelete (Some s) None _ => ~ same_name s sec
  | CReset | CMultiKey _ | CLoad _ _ => False
  | _ => True
  end.
Lemma lines_elsewhere s k c d : elsewhere s k c -> d_multi (snd (expect c d)) = d_multi d /\ filter (of_key k) (lines_at s (snd (expect c d))) = filter (of_key k) (lines_at s d).
Proof.
  intros EL. destruct c as [s1 k1 v1 c1 f1|s1 k1 p1|s1 k1|s1 k1|s1| |s1| | |b|b|b|c1 es]; cbn in EL |- *; try contradiction; try (split; reflexivity).
  - split; [apply set_multi_same|]. destruct k1 as [k1|]; [destruct v1 as [v1|]|]; cbn [both]; try (rewrite lines_set_section; reflexivity).
    destruct (same_nameb s1 s) eqn:ES; [apply same_is in ES|].
    + destruct EL as [N|N]; [contradiction|].
      assert (L : forall d', lines_at s d' = lines_at s1 d') by (intros d'; unfold lines_at; rewrite (part_congr s1 s d' ES); reflexivity).
      rewrite !L, lines_set_same. apply give_other. exact N.
    + rewrite lines_set_other; [reflexivity|]. intros H. apply same_is in H. congruence.
  - destruct s1 as [s1|]; [|split; reflexivity].
    assert (SN : snd (let '(b, d') := delete_doc s1 k1 p1 d in (if b then Yes else No, d')) = snd (delete_doc s1 k1 p1 d)) by (destruct (delete_doc s1 k1 p1 d); reflexivity).
    rewrite !SN. clear SN. split; [apply delete_multi|]. destruct (same_nameb s1 s) eqn:ES; [apply same_is in ES|].
    + destruct k1 as [k1|]; [|contradiction]. destruct EL as [N|N]; [contradiction|].
      assert (L : forall d', lines_at s d' = lines_at s1 d') by (intros d'; unfold lines_at; rewrite (part_congr s1 s d' ES); reflexivity).
      rewrite !L, lines_delete_key. apply filter_filter_other. intros a H. apply (key_apart k1 k a N H).
    + rewrite lines_delete_other; [reflexivity|]. intros H. apply same_is in H. congruence.
Qed.
Lemma elsewhere_all s k h d : Forall (elsewhere s k) h -> d_multi (snd (expect_all h d)) = d_multi d /\ filter (of_key k) (lines_at s (snd (expect_all h d))) = filter (of_key k) (lines_at s d).
Proof.
  revert d. induction h as [|c h IH]; intros d H; cbn; [split; reflexivity|]. destruct (lines_elsewhere s k c d (Forall_inv H)) as [M L].
  destruct (expect c d) as [a d1]. cbn [snd] in M, L. destruct (IH d1 (Forall_inv_tail H)) as [M' L']. destruct (expect_all h d1) as [l d2]. cbn [snd] in *. split; congruence.
Qed.
(** ... however many such calls there are *)
Theorem C102_frame : forall multi multiline h sec key between,
  Forall (elsewhere sec key) between ->
  exists l a b l', length l = length h /\ length l' = length between /\
  answers multi multiline (h ++ CAll (Some sec) (Some key) :: CGet (Some sec) (Some key) :: between ++ [CAll (Some sec) (Some key); CGet (Some sec) (Some key)])
                          (l ++ a :: b :: l' ++ [a; b]).
Proof.
  intros m ml h s k bt EL. destruct (answers_after m ml h (CAll (Some s) (Some k) :: CGet (Some s) (Some k) :: bt ++ [CAll (Some s) (Some k); CGet (Some s) (Some k)])) as (l & d & A & LN).
  cbn [expect_all expect both] in A. rewrite expect_app in A. destruct (elsewhere_all s k bt d EL) as [M L].
  assert (V : values_of s k (snd (expect_all bt d)) = values_of s k d) by (rewrite !values_at, M, L; reflexivity).
  cbn [expect_all expect both fst] in A. rewrite V in A. eexists l, _, _, _. split; [exact LN|]. split; [|exact A].
  clear. revert d. induction bt as [|c bt IH]; intros d; cbn; [reflexivity|]. destruct (expect c d) as [a d1]. specialize (IH d1). destruct (expect_all bt d1). cbn in *. lia.
Qed.

(** *** what was deleted is gone, and can be deleted once *)
Lemma exists_none {A} (P : A -> bool) l : filter P l = [] -> existsb P l = false.
Proof. intros E. rewrite exists_filter, E. reflexivity. Qed.
Theorem C102_delete : forall multi multiline h sec key prune prune' sec' key',
  same_name sec sec' -> same_name key key' ->
  exists l a, answers multi multiline
    (h ++ [CDelete (Some sec) (Some key) prune; CGet (Some sec') (Some key'); CAll (Some sec') (Some key'); CDelete (Some sec') (Some key') prune'])
    (l ++ [a; Value None false; Told None; No]).
Proof.
  intros m ml h s k p p' s' k' HS HK. destruct (answers_after m ml h [CDelete (Some s) (Some k) p; CGet (Some s') (Some k'); CAll (Some s') (Some k'); CDelete (Some s') (Some k') p']) as (l & d & A & _).
  cbn [expect_all expect both] in A.
  pose proof (lines_delete_key s k p d) as L. destruct (delete_doc s (Some k) p d) as [b d1]. cbn [snd fst] in L, A.
  rewrite <- !(values_congr s s' k k' _ HS HK) in A. rewrite values_at, L, filter_filter_none in A.
  assert (V : (if d_multi d1 then @nil eline else firstn 1 []) = []) by (destruct (d_multi d1); reflexivity). rewrite V in A.
  assert (X : delete_doc s' (Some k') p' d1 = (false, d1)).
  { unfold delete_doc. rewrite <- (part_congr s s' d1 HS). destruct (part_of s d1) as [q|] eqn:EP; [|reflexivity].
    unfold lines_at in L. rewrite EP in L. rewrite (exists_none (of_key k')); [reflexivity|].
    rewrite L. rewrite (filter_ext_all _ _ _ (fun x => eq_sym (key_congr k k' x HK))). apply filter_filter_none. }
  rewrite X in A. eexists l, _. exact A.
Qed.
Theorem C102_delete_section : forall multi multiline h sec prune prune' sec' key key',
  same_name sec sec' ->
  exists l a, answers multi multiline
    (h ++ [CDelete (Some sec) None prune; CAll (Some sec') (Some key); CKeys (Some sec'); CSize (Some sec'); CDelete (Some sec') key' prune'])
    (l ++ [a; Told None; Told None; Size (-1); No]).
Proof.
  intros m ml h s p p' s' k k' HS. destruct (answers_after m ml h [CDelete (Some s) None p; CAll (Some s') (Some k); CKeys (Some s'); CSize (Some s'); CDelete (Some s') k' p']) as (l & d & A & _).
  cbn [expect_all expect both] in A.
  assert (L : part_of s (snd (delete_doc s None p d)) = None).
  { unfold delete_doc. destruct (part_of s d) eqn:EP; [|exact EP]. cbn [snd]. unfold part_of. cbn [d_parts with_parts]. apply find_drop_same. }
  destruct (delete_doc s None p d) as [b d1]. cbn [snd fst] in L, A. rewrite (part_congr s s' d1 HS) in L.
  assert (X : delete_doc s' k' p' d1 = (false, d1)) by (unfold delete_doc; rewrite L; reflexivity).
  assert (HX : has_section s' d1 = false) by (unfold has_section; rewrite exists_find; fold (part_of s' d1); rewrite L; reflexivity).
  unfold values_of, size_of in A. rewrite HX, X, L in A. eexists l, _. exact A.
Qed.

(** *** after Reset and with the same options an object answers like a new one *)
Theorem C102_reset : forall multi multiline h multi' multiline' h' l',
  answers multi' multiline' h' l' ->
  exists l, length l = length h /\
  answers multi multiline (h ++ CReset :: CMultiKey multi' :: CMultiLine multiline' :: CSpaces true :: h') (l ++ Done :: Done :: Done :: Done :: l').
Proof.
  intros m ml h m' ml' h' l' [st A']. destruct (C102_document m' ml' h') as [st2 E]. rewrite A' in E. injection E as E _.
  destruct (answers_after m ml h (CReset :: CMultiKey m' :: CMultiLine ml' :: CSpaces true :: h')) as (l & d & A & LN). exists l. split; [exact LN|].
  cbn [expect_all expect d_multi d_multiline d_spaces d_comment d_parts] in A. change {| d_multi := m'; d_multiline := ml'; d_spaces := true; d_comment := None; d_parts := [] |} with (blank m' ml') in A.
  rewrite E. destruct (expect_all h' (blank m' ml')). exact A.
Qed.

(** the calls of the example: both ways of giving values, loading twice, deleting, writing *)
Definition demo_calls : list call :=
 [CMultiKey true; CSet (bs "B") (Some (bs "k")) (Some (bs "1")) (Some (bs "; c")) false;
  CSet (bs "a") (Some (bs "z")) (Some (bs "9")) None false;
  CSet (bs "b") (Some (bs "K")) (Some (bs "2")) None false; CSet (bs "b") (Some (bs "a")) (Some (bs "3")) None false;
  CAll (Some (bs "b")) (Some (bs "k")); CKeys (Some (bs "b")); CSize (Some (bs "b")); CSections;
  CSet (bs "b") (Some (bs "K")) (Some (bs "7")) (Some (bs "# ;")) true; CGet (Some (bs "b")) (Some (bs "k"));
  CMultiLine true; CLoad (Some (bs "; file")) [(bs "n", None, Some (bs "# x")); (bs "n", Some (bs "t", bs " a"), None)];
  CDelete (Some (bs "b")) (Some (bs "k")) true; CDelete (Some (bs "b")) (Some (bs "a")) true; CSave].
Definition NL : bytes := [LF].
Example C102_example : exists st, perform_all demo_calls (new_store false false) =
  Ok ([Done; Added; Added; Added; Added;
       Told (Some [(bs "1", Some (bs "; c")); (bs "2", None)]); Told (Some [(bs "a", None); (bs "k", Some (bs "; c"))]); Size 2;
       Told (Some [(bs "a", None); (bs "B", None)]);
       Added; Value (Some (bs "7")) false; Done; Done; Yes; Yes;
       Written (bs "; file" ++ NL ++ NL ++ NL ++ bs "[a]" ++ NL ++ bs "z = 9" ++ NL ++ NL ++ NL ++ bs "# x" ++ NL ++ bs "[n]" ++ NL
                ++ bs "t = <<<END_OF_TEXT" ++ NL ++ bs " a" ++ NL ++ bs "END_OF_TEXT" ++ NL ++ NL)], st).
Proof. eexists. vm_compute. reflexivity. Qed.
