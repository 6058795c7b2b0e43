(** C115: texts loaded one over the other into the same INI object. *)
From Coq Require Import Lia.
From Verif Require Import Base P_Base CTypes StringUtils P_Strings Ini Spec_Ini P_Ini IniBuf Spec_IniBuf IniEdit Spec_IniEdit IniCalls Spec_IniText P_IniEdit11 P_IniDoc P_IniText Prop_IniEdit Prop_IniText
  IniMulti Spec_IniMulti P_IniMulti4 Prop_IniMulti P_IniReload Spec_IniLayers P_IniLayers.

(** *** Every text can be loaded. *)
Theorem C115_loads : forall ml text, exists es, loads ml text es.
Proof.
  intros ml text. destruct (C106_inside ml text) as (com & l & b & E & _). exists (map (fun x => (snd x, None)) l). exists com, l, b. split; [exact E|]. rewrite map_map. reflexivity.
Qed.

Lemma answers_split m ml h l h' : length l = length h -> forall l', answers m ml (h ++ h') (l ++ l') -> answers m ml h l.
Proof.
  intros L l' A. pose proof (answers_are _ _ _ _ A) as X. rewrite expect_app in X. cbn [fst] in X. pose proof (expect_length h (blank m ml)) as N. pose proof (C102_document m ml h) as D.
  destruct (expect_all h (blank m ml)) as [x d]. cbn [fst snd] in *. assert (Y : l = x). { apply (f_equal (firstn (length h))) in X. rewrite <- L in X at 1. rewrite <- N in X. rewrite !firstn_app, !firstn_all, !Nat.sub_diag, !firstn_O, !app_nil_r in X. exact X. } subst x. exact D.
Qed.
Lemma answers_of m ml h l h' : answers m ml h l -> forall l', l' = fst (expect_all h' (snd (expect_all h (blank m ml)))) -> answers m ml (h ++ h') (l ++ l').
Proof. intros A l' ->. apply answers_are in A. subst l. pose proof (C102_document m ml (h ++ h')) as D. rewrite expect_app in D. exact D. Qed.

(** *** A key with one value: if the text gives it a value, that (the last) is the value; if not, it
    keeps the one it had. Whatever the object held. *)
Theorem C115_get : forall multi multiline h l sec key v more ml text items c es,
  length l = length h -> answers multi multiline (h ++ [CMultiKey false; CGet (Some sec) (Some key)]) (l ++ [Done; Value v more]) ->
  loads ml text es -> says ml text items -> ~ line_end_in sec ->
  answers multi multiline (h ++ [CMultiKey false; CLoad c es; CGet (Some sec) (Some key)])
                          (l ++ [Done; Done; Value (match value_in items sec key with Some v' => Some v' | None => v end) false]).
Proof.
  intros m mu h l sec key v more ml text items c es L A LD S N. pose proof (answers_split _ _ _ _ _ L _ A) as H. pose proof (answers_end _ _ _ _ _ _ A L) as E. apply (answers_of _ _ _ _ _ H).
  destruct (loads_rel _ _ _ _ LD S) as (b & l' & F & M). pose proof (layer_values b l' items sec key N F) as LV. rewrite <- M in LV. clear A H.
  remember (snd (expect_all h (blank m mu))) as d eqn:D. clear D. change (expect_all [CMultiKey false; CGet (Some sec) (Some key)] d) with (let '(a, d1) := expect (CMultiKey false) d in let '(l, d2) := expect_all [CGet (Some sec) (Some key)] d1 in (a :: l, d2)) in E.
  change (expect_all [CMultiKey false; CLoad c es; CGet (Some sec) (Some key)] d) with (let '(a, d1) := expect (CMultiKey false) d in let '(l, d2) := (let '(a, d2) := expect (CLoad c es) d1 in let '(l, d3) := expect_all [CGet (Some sec) (Some key)] d2 in (a :: l, d3)) in (a :: l, d2)).
  cbn [expect] in *. cbn [d_multi d_multiline d_spaces d_comment d_parts].
  set (d1 := {| d_multi := false; d_multiline := d_multiline d; d_spaces := d_spaces d; d_comment := d_comment d; d_parts := d_parts d |}) in *.
  set (d2 := {| d_multi := false; d_multiline := d_multiline d; d_spaces := d_spaces d; d_comment := match d_comment d with Some x => Some x | None => c end; d_parts := d_parts d |}).
  assert (G : forall x, fst (expect_all [CGet (Some sec) (Some key)] x) = [fst (expect (CGet (Some sec) (Some key)) x)]) by (intros x; cbn [expect_all]; destruct (expect _ x); reflexivity).
  pose proof (G d1) as G1. pose proof (G (load_doc es d2)) as G2. destruct (expect_all [CGet (Some sec) (Some key)] d1) as [x1 y1], (expect_all [CGet (Some sec) (Some key)] (load_doc es d2)) as [x2 y2]. cbn [fst] in *. subst x1 x2. rewrite get_vals in E |- *. injection E as Ev _.
  assert (V2 : vals sec key d2 = vals sec key d1) by reflexivity. rewrite load_single by reflexivity. rewrite LV, V2. unfold value_in. rewrite last_rev. change (key_values key (flat_map (item_entries sec) items)) with (values_in items sec key).
  pose proof (single_len sec key d1 eq_refl) as SL. destruct (rev (values_in items sec key)) as [|w r]; cbn [hd_error]; [|reflexivity]. rewrite Ev. destruct (vals sec key d1) as [|a [|b' r]]; [reflexivity|reflexivity|cbn in SL; lia].
Qed.
(** *** A key with several values: those of the text come after those it had. *)
Theorem C115_all : forall multi multiline h l sec key vs ml text items c es,
  length l = length h -> answers multi multiline (h ++ [CMultiKey true; CAll (Some sec) (Some key)]) (l ++ [Done; Told vs]) ->
  loads ml text es -> says ml text items -> ~ line_end_in sec ->
  exists vs', answers multi multiline (h ++ [CMultiKey true; CLoad c es; CAll (Some sec) (Some key)]) (l ++ [Done; Done; Told vs']) /\
  (match vs' with Some x => map fst x | None => [] end) = (match vs with Some x => map fst x | None => [] end) ++ values_in items sec key.
Proof.
  intros m mu h l sec key vs ml text items c es L A LD S N. pose proof (answers_split _ _ _ _ _ L _ A) as H. pose proof (answers_end _ _ _ _ _ _ A L) as E.
  destruct (loads_rel _ _ _ _ LD S) as (b & l' & F & M). pose proof (layer_values b l' items sec key N F) as LV. rewrite <- M in LV. clear A.
  set (d := snd (expect_all h (blank m mu))) in *.
  set (d1 := {| d_multi := true; d_multiline := d_multiline d; d_spaces := d_spaces d; d_comment := d_comment d; d_parts := d_parts d |}).
  set (d2 := {| d_multi := true; d_multiline := d_multiline d; d_spaces := d_spaces d; d_comment := match d_comment d with Some x => Some x | None => c end; d_parts := d_parts d |}).
  assert (E' : Told vs = fst (expect (CAll (Some sec) (Some key)) d1)). { change (fst (expect_all [CMultiKey true; CAll (Some sec) (Some key)] d)) with [Done; fst (expect (CAll (Some sec) (Some key)) d1)] in E. congruence. }
  destruct (all_vals sec key d1) as (vs1 & X1 & X2 & _). assert (vs1 = vs) as -> by congruence.
  destruct (all_vals sec key (load_doc es d2)) as (vs2 & Y1 & Y2 & _). exists vs2. split.
  - apply (answers_of _ _ _ _ _ H). fold d. change (fst (expect_all [CMultiKey true; CLoad c es; CAll (Some sec) (Some key)] d)) with [Done; Done; fst (expect (CAll (Some sec) (Some key)) (load_doc es d2))]. rewrite Y1. reflexivity.
  - rewrite Y2, X2, load_multi, LV by reflexivity. reflexivity.
Qed.
(** *** A section is there afterwards if it was there or the text has it. *)
Theorem C115_section : forall multi multiline h l sec n ml text items c es,
  length l = length h -> answers multi multiline (h ++ [CSize (Some sec)]) (l ++ [Size n]) ->
  loads ml text es -> says ml text items -> ~ line_end_in sec ->
  exists n', answers multi multiline (h ++ [CLoad c es; CSize (Some sec)]) (l ++ [Done; Size n']) /\
  (n' = -1 <-> n = -1 /\ section_in items sec = false)%Z.
Proof.
  intros m mu h l sec n ml text items c es L A LD S N. pose proof (answers_split _ _ _ _ _ L _ A) as H. pose proof (answers_end _ _ _ _ _ _ A L) as E.
  destruct (loads_rel _ _ _ _ LD S) as (b & l' & F & M). pose proof (layer_sections b l' items sec N F) as LV. rewrite <- M in LV. clear A.
  set (d := snd (expect_all h (blank m mu))) in *. assert (E' : [Size n] = [Size (size_of sec d)]) by exact E. injection E' as ->.
  set (d2 := {| d_multi := d_multi d; d_multiline := d_multiline d; d_spaces := d_spaces d; d_comment := match d_comment d with Some x => Some x | None => c end; d_parts := d_parts d |}).
  exists (size_of sec (load_doc es d2)). split; [apply (answers_of _ _ _ _ _ H); reflexivity|].
  assert (SZ : forall x, size_of sec x = (-1)%Z <-> has_section sec x = false).
  { intros x. unfold size_of, part_of, has_section. split.
    - destruct (List.find (of_name sec) (d_parts x)) as [p|] eqn:FD; [|intros _; destruct (existsb (of_name sec) (d_parts x)) eqn:EX; [|reflexivity]; apply existsb_exists in EX as (p & I & P); pose proof (find_none _ _ FD p I) as Z; cbv beta in Z; congruence]. intros Z. lia.
    - intros Z. destruct (List.find (of_name sec) (d_parts x)) as [p|] eqn:FD; [|reflexivity]. apply find_some in FD as [I P]. assert (existsb (of_name sec) (d_parts x) = true) by (apply existsb_exists; eauto). congruence. }
  rewrite !SZ, has_load, LV, Bool.orb_false_iff. reflexivity.
Qed.

(** *** Several texts, one after the other, into a new object: the last that gives the key a value
    decides; with several values for a key all are there, in the order of the texts. *)
Definition loaded_as (c : call) (items : list item) : Prop := exists ml text com es, c = CLoad com es /\ loads ml text es /\ says ml text items.
Lemma layers sec key : ~ line_end_in sec -> forall calls texts, Forall2 loaded_as calls texts -> forall d,
  fst (expect_all calls d) = repeat Done (length calls) /\ d_multi (snd (expect_all calls d)) = d_multi d /\
  (d_multi d = false -> hd_error (vals sec key (snd (expect_all calls d))) = match last_text texts sec key with Some v => Some v | None => hd_error (vals sec key d) end) /\
  (d_multi d = true -> vals sec key (snd (expect_all calls d)) = vals sec key d ++ flat_map (fun t => values_in t sec key) texts).
Proof.
  intros N. induction 1 as [|call items calls texts (ml & text & com & es & -> & LD & S) _ IH]; intros d; [cbn; rewrite app_nil_r; auto|].
  destruct (loads_rel _ _ _ _ LD S) as (b & l' & F & M). pose proof (layer_values b l' items sec key N F) as LV. rewrite <- M in LV.
  set (d2 := {| d_multi := d_multi d; d_multiline := d_multiline d; d_spaces := d_spaces d; d_comment := match d_comment d with Some x => Some x | None => com end; d_parts := d_parts d |}).
  assert (X : expect_all (CLoad com es :: calls) d = (Done :: fst (expect_all calls (load_doc es d2)), snd (expect_all calls (load_doc es d2)))) by (cbn [expect_all expect]; fold d2; destruct (expect_all calls (load_doc es d2)); reflexivity).
  rewrite X. cbn [fst snd length repeat]. destruct (IH (load_doc es d2)) as (I1 & I2 & I3 & I4).
  assert (DM : d_multi (load_doc es d2) = d_multi d). { change (d_multi d) with (d_multi d2). clear. generalize d2. induction es as [|[[s kv] c] es IH]; intros x; [reflexivity|]. cbn [load_doc]. rewrite IH. apply set_multi_same. }
  rewrite DM in *. split; [rewrite I1; reflexivity|]. split; [exact I2|]. split; intros MM.
  - rewrite (I3 MM). cbn [last_text]. destruct (last_text texts sec key); [reflexivity|]. rewrite load_single by exact MM. rewrite LV. unfold value_in. rewrite last_rev. change (key_values key (flat_map (item_entries sec) items)) with (values_in items sec key). destruct (rev (values_in items sec key)); reflexivity.
  - rewrite (I4 MM), load_multi, LV by exact MM. cbn [flat_map]. rewrite app_assoc. reflexivity.
Qed.
Theorem C115_texts : forall multiline calls texts sec key, Forall2 loaded_as calls texts -> ~ line_end_in sec ->
  answers false multiline (calls ++ [CGet (Some sec) (Some key)]) (repeat Done (length calls) ++ [Value (last_text texts sec key) false]).
Proof.
  intros mu calls texts sec key F N. destruct (layers sec key N calls texts F (blank false mu)) as (I1 & I2 & I3 & _). pose proof (C102_document false mu calls) as A. rewrite I1 in A. apply (answers_of _ _ _ _ _ A).
  specialize (I3 eq_refl). set (d := snd (expect_all calls (blank false mu))) in *. change (fst (expect_all [CGet (Some sec) (Some key)] d)) with [fst (expect (CGet (Some sec) (Some key)) d)]. rewrite get_vals, I3.
  pose proof (single_len sec key d I2) as SL. cbn. f_equal. f_equal; [destruct (last_text texts sec key); reflexivity|]. destruct (vals sec key d) as [|a [|b r]]; [reflexivity|reflexivity|cbn in SL; lia].
Qed.
Theorem C115_texts_all : forall multiline calls texts sec key, Forall2 loaded_as calls texts -> ~ line_end_in sec ->
  exists vs, answers true multiline (calls ++ [CAll (Some sec) (Some key)]) (repeat Done (length calls) ++ [Told vs]) /\
  (match vs with Some x => map fst x | None => [] end) = flat_map (fun t => values_in t sec key) texts.
Proof.
  intros mu calls texts sec key F N. destruct (layers sec key N calls texts F (blank true mu)) as (I1 & _ & _ & I4). pose proof (C102_document true mu calls) as A. rewrite I1 in A. specialize (I4 eq_refl).
  set (d := snd (expect_all calls (blank true mu))) in *. destruct (all_vals sec key d) as (vs & X1 & X2 & _). exists vs. split; [|rewrite X2; exact I4].
  apply (answers_of _ _ _ _ _ A). fold d. change (fst (expect_all [CAll (Some sec) (Some key)] d)) with [fst (expect (CAll (Some sec) (Some key)) d)]. rewrite X1. reflexivity.
Qed.
Lemma fst_cons c h d : fst (expect_all (c :: h) d) = fst (expect c d) :: fst (expect_all h (snd (expect c d))).
Proof. cbn [expect_all]. destruct (expect c d) as [a d1]. cbn [fst snd]. destruct (expect_all h d1). reflexivity. Qed.
(** *** Two loads cannot be told from one load of all entries: by no later sequence of calls. Of two
    comments of the file the first stays. *)
Theorem C115_one_load : forall multi multiline h l c1 es1 c2 es2 later told, length l = length h ->
  (answers multi multiline (h ++ [CLoad c1 es1; CLoad c2 es2] ++ later) (l ++ [Done; Done] ++ told) <->
   answers multi multiline (h ++ [CLoad (match c1 with Some c => Some c | None => c2 end) (es1 ++ es2)] ++ later) (l ++ [Done] ++ told)).
Proof.
  intros m mu h l c1 es1 c2 es2 later told L.
  assert (AP : forall x y d, load_doc (x ++ y) d = load_doc y (load_doc x d)) by (induction x as [|[[s kv] c] x IH]; intros y d; [reflexivity|]; cbn [app load_doc]; apply IH).
  set (cm := fun c d => {| d_multi := d_multi d; d_multiline := d_multiline d; d_spaces := d_spaces d; d_comment := match d_comment d with Some x => Some x | None => c end; d_parts := d_parts d |}).
  assert (CM : forall es c d, cm c (load_doc es d) = load_doc es (cm c d)).
  { induction es as [|[[s kv] k] es IH]; intros c d; [reflexivity|]. cbn [load_doc]. rewrite IH. f_equal. unfold set_doc. destruct kv as [[? ?]|]; reflexivity. }
  assert (EQ : forall d, load_doc es2 (cm c2 (load_doc es1 (cm c1 d))) = load_doc (es1 ++ es2) (cm (match c1 with Some c => Some c | None => c2 end) d)).
  { intros d. rewrite AP, CM. f_equal. f_equal. unfold cm. cbn [d_comment d_multi d_multiline d_spaces d_parts]. destruct (d_comment d), c1; reflexivity. }
  set (d := snd (expect_all h (blank m mu))).
  assert (X1 : fst (expect_all ([CLoad c1 es1; CLoad c2 es2] ++ later) d) = [Done; Done] ++ fst (expect_all later (load_doc es2 (cm c2 (load_doc es1 (cm c1 d)))))).
  { change ([CLoad c1 es1; CLoad c2 es2] ++ later) with (CLoad c1 es1 :: CLoad c2 es2 :: later). rewrite !fst_cons. reflexivity. }
  assert (X2 : fst (expect_all ([CLoad (match c1 with Some c => Some c | None => c2 end) (es1 ++ es2)] ++ later) d) = [Done] ++ fst (expect_all later (load_doc (es1 ++ es2) (cm (match c1 with Some c => Some c | None => c2 end) d)))).
  { cbn [app]. rewrite fst_cons. reflexivity. }
  rewrite <- EQ in X2. split; intros A.
  - pose proof (answers_split _ _ _ _ _ L _ A) as H. apply (answers_of _ _ _ _ _ H). apply answers_end in A; [|exact L]. fold d in A |- *. rewrite X1 in A. apply app_inv_head in A. subst told. symmetry. exact X2.
  - pose proof (answers_split _ _ _ _ _ L _ A) as H. apply (answers_of _ _ _ _ _ H). apply answers_end in A; [|exact L]. fold d in A |- *. rewrite X2 in A. apply app_inv_head in A. subst told. symmetry. exact X1.
Qed.
(** *** Loading the same text again changes no value that GetValue returns when keys have one ... *)
Theorem C115_again : forall multi multiline h l sec key v ml text items c c' es es',
  length l = length h -> loads ml text es -> loads ml text es' -> says ml text items -> ~ line_end_in sec ->
  answers multi multiline (h ++ [CMultiKey false; CLoad c es; CGet (Some sec) (Some key)]) (l ++ [Done; Done; Value v false]) ->
  answers multi multiline (h ++ [CMultiKey false; CLoad c es; CLoad c' es'; CGet (Some sec) (Some key)]) (l ++ [Done; Done; Done; Value v false]).
Proof.
  intros m mu h l sec key v ml text items c c' es es' L LD LD' S N A. destruct (loads_rel _ _ _ _ LD S) as (b & x & F & M). destruct (loads_rel _ _ _ _ LD' S) as (b' & x' & F' & M').
  pose proof (layer_values b x items sec key N F) as LV. rewrite <- M in LV. pose proof (layer_values b' x' items sec key N F') as LV'. rewrite <- M' in LV'.
  pose proof (answers_split _ _ _ _ _ L _ A) as H. apply (answers_of _ _ _ _ _ H). apply answers_end in A; [|exact L]. set (d := snd (expect_all h (blank m mu))) in *.
  set (cm := fun c d => {| d_multi := d_multi d; d_multiline := d_multiline d; d_spaces := d_spaces d; d_comment := match d_comment d with Some x => Some x | None => c end; d_parts := d_parts d |}).
  set (d1 := {| d_multi := false; d_multiline := d_multiline d; d_spaces := d_spaces d; d_comment := d_comment d; d_parts := d_parts d |}).
  assert (A' : [Done; Done; Value v false] = [Done; Done; fst (expect (CGet (Some sec) (Some key)) (load_doc es (cm c d1)))]) by exact A.
  change (fst (expect_all [CMultiKey false; CLoad c es; CLoad c' es'; CGet (Some sec) (Some key)] d)) with [Done; Done; Done; fst (expect (CGet (Some sec) (Some key)) (load_doc es' (cm c' (load_doc es (cm c d1)))))].
  rewrite get_vals in A' |- *. injection A' as Av Am.
  assert (DM : forall es d, d_multi (load_doc es d) = d_multi d) by (clear; induction es as [|[[s kv] c] es IH]; intros x; [reflexivity|]; cbn [load_doc]; rewrite IH; apply set_multi_same).
  rewrite (load_single sec key es') by (cbn; rewrite DM; reflexivity). change (vals sec key (cm c' (load_doc es (cm c d1)))) with (vals sec key (load_doc es (cm c d1))). rewrite LV'. rewrite load_single in Av, Am |- * by reflexivity. rewrite LV in Av, Am |- *.
  destruct (rev (values_in items sec key)) as [|w r]; [rewrite <- Av, <- Am; reflexivity|]. cbn [hd_error] in *. rewrite Av. reflexivity.
Qed.
(** ... but doubles the values of keys that have several. *)
Theorem C115_again_refuted : ~ (forall text items es sec key vs, loads false text es -> says false text items ->
  answers true false [CLoad None es; CAll (Some sec) (Some key)] [Done; Told vs] -> answers true false [CLoad None es; CLoad None es; CAll (Some sec) (Some key)] [Done; Done; Told vs]).
Proof.
  intros H. set (text := bs "[a]" ++ LF :: bs "k=1").
  assert (LD : loads false text [(bs "a", None, None); (bs "a", Some (bs "k", bs "1"), None)]) by (do 3 eexists; split; [vm_compute; reflexivity|reflexivity]).
  specialize (H text _ _ (bs "a") (bs "K") (Some [(bs "1", None)]) LD eq_refl). assert (A : answers true false [CLoad None [(bs "a", None, None); (bs "a", Some (bs "k", bs "1"), None)]; CAll (Some (bs "a")) (Some (bs "K"))] [Done; Told (Some [(bs "1", None)])]) by (eexists; vm_compute; reflexivity).
  destruct (H A) as (st & E). vm_compute in E. discriminate E.
Qed.
Print Assumptions C115_get.
Print Assumptions C115_all.
Print Assumptions C115_section.
Print Assumptions C115_texts.
Print Assumptions C115_one_load.
Print Assumptions C115_again.

(** concrete: settings of a site over defaults, with other spellings, a new section and a value of two lines *)
Definition defaults : bytes := bs "; defaults" ++ LF :: bs "[net]" ++ LF :: bs "host = here" ++ LF :: bs "port=80" ++ LF :: LF :: bs "[log]" ++ LF :: bs "level=1".
Definition site : bytes := bs "[NET]" ++ LF :: bs "Host = there" ++ CR :: LF :: bs "[new]" ++ LF :: bs "k=<<<E" ++ LF :: bs "a" ++ LF :: bs "b" ++ LF :: bs "E" ++ LF :: bs "j=2".
Example C115_case : exists t1 t2 e1 e2, says true defaults t1 /\ says true site t2 /\ loads true defaults e1 /\ loads true site e2 /\
  map (fun q => last_text [t1; t2] (bs (fst q)) (bs (snd q))) [("net", "host"); ("net", "port"); ("log", "level"); ("new", "k"); ("new", "x")]%string
  = [Some (bs "there"); Some (bs "80"); Some (bs "1"); Some (bs "a" ++ LF :: bs "b"); None] /\
  values_in t1 (bs "Net") (bs "HOST") = [bs "here"] /\ section_in t1 (bs "new") = false /\ section_in t2 (bs "new") = true.
Proof.
  do 4 eexists. refine (conj _ (conj _ (conj _ (conj _ _)))); [vm_compute; reflexivity|vm_compute; reflexivity| | |].
  - exists (Some 0). do 2 eexists. split; [vm_compute; reflexivity|]. instantiate (1 := map (fun s => (s, None)) _). rewrite map_map. apply map_id.
  - do 3 eexists. split; [vm_compute; reflexivity|]. instantiate (1 := map (fun s => (s, None)) _). rewrite map_map. apply map_id.
  - vm_compute. refine (conj _ (conj _ (conj _ _))); reflexivity.
Qed.
