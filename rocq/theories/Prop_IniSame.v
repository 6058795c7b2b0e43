(** C108: an INI object that is saved and loaded again cannot be told from the saved one. *)
From Coq Require Import Lia.
From Verif Require Import Base P_Base CTypes StringUtils P_Strings Ini Spec_Ini P_Ini P_IniSave Prop_Ini IniEdit Spec_IniEdit IniCalls Spec_IniText P_IniEdit11 P_IniDoc P_IniText Prop_IniEdit Prop_IniText IniBuf P_IniBuf P_IniBuf2 Spec_IniBuf Prop_IniBuf Spec_IniMulti IniMulti Spec_IniMultiText P_IniMultiText Prop_IniMultiText P_IniCom2 P_IniCom3 P_IniCom4 Spec_IniSame P_IniSame P_IniSame2 P_IniSame3.

(** the document a history of calls makes *)
Definition document (multi multiline : bool) (h : list call) : edoc := snd (expect_all h (blank multi multiline)).
Lemma answers_functional multi multiline h l : answers multi multiline h l -> l = fst (expect_all h (blank multi multiline)).
Proof. apply answers_are. Qed.

Lemma com_same b com o c : com_is b (length b) com o -> comment_at b com c -> c = o.
Proof.
  destruct com as [q|], o as [s|], c as [s'|]; cbn [com_is comment_at]; try contradiction; try reflexivity. intros A B. f_equal. eapply string_at_unique; [exact B|]. apply at_string. tauto.
Qed.
(** *** Any history whose strings and comments can be written, any settings [mk] and [sp]: the text
    Save writes is loaded without error, and an object that is given the entries found in it
    answers every later sequence of calls - questions, changes, Save, other loads - as the saved
    object does. *)
Theorem C108_same : forall multi multiline h l t mk sp,
  Forall (tidy_with writable) h -> Forall comments_kept h -> can_show mk (document multi multiline h) -> length l = length h ->
  answers multi multiline (h ++ [CMultiKey mk; CMultiLine true; CSpaces sp; CSave]) (l ++ [Done; Done; Done; Written t]) ->
  exists com l' b, load_copy_ml true t = Ok (com, l', b) /\
  forall c es, comment_at b com c -> Forall2 (entry_at b) l' es ->
  forall multi2 multiline2 later told,
    answers multi multiline (h ++ [CMultiKey mk; CMultiLine true; CSpaces sp; CSave] ++ later) (l ++ [Done; Done; Done; Written t] ++ told) <->
    answers multi2 multiline2 ([CMultiKey mk; CMultiLine true; CSpaces sp; CLoad c es] ++ later) ([Done; Done; Done; Done] ++ told).
Proof.
  intros m ml h l t mk sp T K SH L A. pose proof (answers_are _ _ _ _ A) as A0. rewrite expect_app in A0. pose proof (expect_length h (blank m ml)) as NL. apply answers_end in A; [|exact L]. pose proof (expect_all_tidy writable h _ T (blank_tidy writable m ml)) as D.
  pose proof (kept_all h (blank m ml) K ltac:(split; [exact I|constructor])) as KD. unfold document in SH.
  destruct (expect_all h (blank m ml)) as [x d] eqn:EH. cbn [fst snd] in *.
  cbn [expect_all expect fst] in A. set (d1 := {| d_multi := mk; d_multiline := true; d_spaces := sp; d_comment := d_comment d; d_parts := d_parts d |}).
  injection A as ->. fold d1 in A0 |- *.
  assert (LX : x = l). { cbn [expect_all expect] in A0. cbn [fst] in A0. apply app_same_length in A0; [symmetry; apply A0|congruence]. } subst x.
  assert (U : forall before p after, d_parts d1 = before ++ p :: after -> p_name p = [] -> before = [] /\ p_comment p = None /\ p_lines p <> []) by apply SH.
  destruct (written_copy d1 eq_refl D (proj2 KD) (proj1 KD)) as (com & l' & b & E & F1 & F2 & F3).
  { apply Forall_forall. intros p I N. apply in_split in I as (a & c & I). apply (U a p c I N). }
  { unfold leads_clear. destruct (d_parts d1) as [|p ps] eqn:DP; [exact I|]. intros DC. destruct SH as (_ & _ & SH). apply (SH p ps DP DC). }
  exists com, l', b. split; [exact E|]. intros c es CA EA m2 ml2 later told.
  pose proof (given_is b l' _ F1 F2 (parts_no_broken d1 (d_parts d1) []) es EA) as ->. set (es := map item_given (parts_citems (SecNamed []) d1 (d_parts d1))) in *.
  assert (CC : c = d_comment d1) by exact (com_same b com (d_comment d1) c F3 CA). subst c.
  set (d0 := {| d_multi := mk; d_multiline := true; d_spaces := sp; d_comment := d_comment d1; d_parts := [] |}).
  pose proof (load_same d0 d1 eq_refl eq_refl eq_refl eq_refl eq_refl (proj2 (proj2 D)) SH) as SD. fold es in SD. pose proof (same_expect_all later d1 (load_doc es d0) SD) as SE.
  assert (X1 : fst (expect_all (h ++ [CMultiKey mk; CMultiLine true; CSpaces sp; CSave] ++ later) (blank m ml)) = l ++ [Done; Done; Done; Written (write_doc d1)] ++ fst (expect_all later d1)).
  { rewrite expect_app, EH. cbn [app expect_all expect fst snd]. cbn [d_multi d_multiline d_spaces d_comment d_parts]. fold d1. destruct (expect_all later d1) as [u v]. reflexivity. }
  assert (X2 : fst (expect_all ([CMultiKey mk; CMultiLine true; CSpaces sp; CLoad (d_comment d1) es] ++ later) (blank m2 ml2)) = [Done; Done; Done; Done] ++ fst (expect_all later (load_doc es d0))).
  { cbn [app expect_all expect]. cbn [d_multi d_multiline d_spaces d_comment d_parts blank]. fold d0. destruct (expect_all later (load_doc es d0)) as [u v]. reflexivity. }
  split; intros H.
  - apply answers_are in H. rewrite X1 in H. apply app_inv_head in H. apply app_inv_head in H. subst told. rewrite SE, <- X2. apply C102_document.
  - apply answers_are in H. rewrite X2 in H. apply app_inv_head in H. subst told. rewrite <- SE, <- X1. apply C102_document.
Qed.
Print Assumptions C108_same.

(** In particular the object writes the same text again. *)
Theorem C108_text_again : forall multi multiline h l t mk sp,
  Forall (tidy_with writable) h -> Forall comments_kept h -> can_show mk (document multi multiline h) -> length l = length h ->
  answers multi multiline (h ++ [CMultiKey mk; CMultiLine true; CSpaces sp; CSave]) (l ++ [Done; Done; Done; Written t]) ->
  exists com l' b, load_copy_ml true t = Ok (com, l', b) /\
  forall c es multi2 multiline2, comment_at b com c -> Forall2 (entry_at b) l' es ->
    answers multi2 multiline2 [CMultiKey mk; CMultiLine true; CSpaces sp; CLoad c es; CSave] [Done; Done; Done; Done; Written t].
Proof.
  intros m ml h l t mk sp T K SH L A. destruct (C108_same m ml h l t mk sp T K SH L A) as (com & l' & b & E & H). exists com, l', b. split; [exact E|]. intros c es m2 ml2 CA EA.
  apply (H c es CA EA m2 ml2 [CSave] [Written t]). pose proof (answers_are _ _ _ _ A) as A0. pose proof (C102_document m ml (h ++ [CMultiKey mk; CMultiLine true; CSpaces sp; CSave] ++ [CSave])) as Z.
  match type of Z with answers _ _ _ ?x => replace x with (l ++ [Done; Done; Done; Written t] ++ [Written t]) in Z; [exact Z|] end. rewrite expect_app in A0 |- *. pose proof (expect_length h (blank m ml)) as NL. destruct (expect_all h (blank m ml)) as [x d]. cbn [fst] in NL. cbn [app expect_all expect fst] in A0 |- *. apply app_same_length in A0 as [-> A0]; [|congruence]. injection A0 as ->. reflexivity.
Qed.
Print Assumptions C108_text_again.

(** An object that never allows several values for a key has none. *)
Definition never_several (c : call) : Prop := match c with CMultiKey true => False | _ => True end.
Lemma one_give k v c ls : one_each ls -> one_each (give false false k v c ls) /\ one_each (give false true k v c ls).
Proof.
  intros O. assert (X : one_each (give false false k v c ls)); [|split; exact X]. unfold give. destruct (existsb (of_key k) ls) eqn:E.
  - intros j. rewrite filter_change by (intros l H; exact H). destruct (same_nameb k j); [rewrite change_length|]; apply O.
  - intros j. rewrite filter_app, app_length. cbn [filter]. unfold of_key at 2. cbn [l_key]. destruct (same_nameb k j) eqn:KJ; cbn [length]; [|specialize (O j); lia].
    assert (N : filter (of_key j) ls = []); [|rewrite N; cbn; lia]. change (filter (of_key j) (p_lines {| p_name := []; p_comment := None; p_lines := ls |}) = []). fold (lines_of j {| p_name := []; p_comment := None; p_lines := ls |}). rewrite <- (lines_congr k j _ (proj1 (same_is _ _) KJ)). unfold lines_of. cbn [p_lines]. clear -E.
    induction ls as [|a ls IH]; [reflexivity|]. cbn [existsb filter] in *. apply orb_false_iff in E as [E1 E2]. rewrite E1. apply IH, E2.
Qed.
Definition single_doc (d : edoc) : Prop := d_multi d = false /\ Forall (fun p => one_each (p_lines p)) (d_parts d).
Lemma single_set n kv c force d : single_doc d -> single_doc (set_doc n kv c force d).
Proof.
  intros [M P]. assert (W : forall x, Forall (fun p => one_each (p_lines p)) (with_part n x (d_parts d))) by (intros x; unfold with_part; destruct (existsb _ _); [exact P|]; apply Forall_app; split; [exact P|]; constructor; [intros k; cbn; lia|constructor]).
  unfold set_doc. destruct kv as [[k v]|]; (split; [exact M|]); cbn [d_parts with_parts]; [|apply W]. apply forall_change; [apply W|]. intros p O. cbn [p_lines]. rewrite M. destruct (one_give k v c (p_lines p) O) as [A B]. destruct force; assumption.
Qed.
Lemma single_expect c d : never_several c -> single_doc d -> single_doc (snd (expect c d)).
Proof.
  intros N D. pose proof D as [M P]. destruct c; cbn [expect snd never_several] in *; try exact D.
  - apply single_set, D.
  - destruct sec as [s|]; [|exact D]. unfold delete_doc, part_of. destruct (List.find (of_name s) (d_parts d)) as [p|] eqn:E; [|exact D].
    assert (X : single_doc (with_parts (filter (fun q => negb (of_name s q)) (d_parts d)) d)) by (split; [exact M|apply forall_filter, P]).
    destruct key as [k|]; [|exact X]. destruct (existsb (of_key k) (p_lines p)); [|exact D]. destruct (prune && _); [exact X|]. split; [exact M|]. cbn. apply forall_change; [exact P|]. intros q _. cbn [p_lines]. intros j. rewrite filter_not. pose proof (find_forall _ _ _ _ P E j) as O. destruct (same_nameb k j); [cbn; lia|exact O].
  - split; [exact M|constructor].
  - destruct b; [contradiction|]. split; [reflexivity|exact P].
  - set (d1 := {| d_multi := d_multi d; d_multiline := _; d_spaces := _; d_comment := _; d_parts := _ |}). assert (D1 : single_doc d1) by (split; assumption). clearbody d1. clear - D1. revert d1 D1. induction entries as [|[[s kv] c] es IH]; intros d1 D1; [exact D1|]. cbn [load_doc]. apply IH. apply single_set, D1.
Qed.
Theorem C108_single_values : forall multiline h, Forall never_several h ->
  forall p k, In p (d_parts (document false multiline h)) -> length (lines_of k p) <= 1.
Proof.
  intros ml h H. assert (X : forall d, single_doc d -> single_doc (snd (expect_all h d))).
  { induction H as [|c h N _ IH]; intros d D; [exact D|]. cbn [expect_all]. pose proof (single_expect c d N D) as X. destruct (expect c d) as [a d1]. cbn [snd] in X. specialize (IH d1 X). destruct (expect_all h d1). exact IH. }
  destruct (X (blank false ml) ltac:(split; [reflexivity|constructor])) as [_ P]. intros p k I. unfold document in I. rewrite Forall_forall in P. apply (P p I).
Qed.
Print Assumptions C108_single_values.

(** concrete: an unnamed section, a section with a comment of three lines (one empty), a key with two values, a value of two lines *)
Definition sample_same : list call :=
  [CLoad (Some (bs "; file" ++ [LF] ++ bs "# 2")) [];
   CSet [] (Some (bs "k")) (Some (bs "v")) (Some (bs "; one" ++ [LF; LF] ++ bs "# two")) false;
   CSet (bs "S") None None (Some (bs "; sec")) false;
   CSet (bs "s") (Some (bs "A")) (Some (bs "1")) None false;
   CSet (bs "s") (Some (bs "b")) (Some (bs "x" ++ [LF] ++ bs " y")) None false;
   CSet (bs "s") (Some (bs "a")) (Some (bs "2")) (Some (bs "; second")) false].
Definition sample_same_text : bytes :=
  bs "; file" ++ [LF] ++ bs "# 2" ++ [LF; LF; LF; LF] ++ bs "; one" ++ [LF; LF] ++ bs "# two" ++ [LF] ++ bs "k=v" ++ [LF; LF; LF] ++ bs "; sec" ++ [LF] ++ bs "[S]" ++ [LF] ++ bs "A=1" ++ [LF; LF] ++ bs "; second" ++ [LF] ++ bs "A=2" ++ [LF]
  ++ bs "b=<<<END_OF_TEXT" ++ [LF] ++ bs "x" ++ [LF] ++ bs " y" ++ [LF] ++ bs "END_OF_TEXT" ++ [LF; LF].
Lemma kept_by c : forallb (fun x => negb (Ascii.eqb x CR) && nonnul x) c = true ->
  (Forall (fun l => l = [] \/ comment_start l) (text_lines c) /\ comment_start (hd [] (text_lines c)) /\ comment_start (last (text_lines c) [])) -> kept_comment c.
Proof.
  intros H X. rewrite forallb_forall in H. split; [intros I; specialize (H _ I); discriminate|]. split; [intros I; specialize (H _ I); discriminate|exact X].
Qed.
Example C108_example : Forall (tidy_with writable) sample_same /\ Forall comments_kept sample_same /\ can_show true (document true false sample_same) /\
  answers true false (sample_same ++ [CMultiKey true; CMultiLine true; CSpaces false; CSave]) ([Done; Added; Added; Added; Added; Added] ++ [Done; Done; Done; Written sample_same_text]).
Proof.
  assert (CL : forall s, forallb (fun c => negb (is_eol c) && nonnul c) s = true -> beqb (strip s) s = true -> clean s).
  { intros s A B. split; [|apply beqb_eq, B]. intros c I. rewrite forallb_forall in A. specialize (A c I). apply andb_true_iff in A as [A1 A2]. apply negb_true_iff in A1. split; [exact A1|]. intros ->. discriminate. }
  assert (CK : forall c r, forallb (fun c => negb (is_eol c) && nonnul c) (c :: r) = true -> beqb (strip (c :: r)) (c :: r) = true -> forallb (fun c => negb (Ascii.eqb c "="%char)) (c :: r) = true -> existsb (Ascii.eqb c) [";"%char; "#"%char; "["%char] = false -> clean_key (c :: r)).
  { intros c r A B C D. split; [apply CL; assumption|]. split; [apply has_not, C|]. exists c, r. split; [reflexivity|]. intros I. apply not_true_iff_false in D. apply D. apply existsb_exists. exists c. split; [exact I|apply Ascii.eqb_refl]. }
  assert (CS : forall s, forallb (fun c => negb (is_eol c) && nonnul c) s = true -> beqb (strip s) s = true -> forallb (fun c => negb (Ascii.eqb c "]"%char)) s = true -> clean_section s) by (intros s A B C; split; [apply CL; assumption|apply has_not, C]).
  assert (WR : forall v, forallb (fun c => negb (Ascii.eqb c NUL)) v = true -> forallb (fun c => negb (Ascii.eqb c CR)) v = true -> forallb (fun l => negb (same_nameb l (bs "END_OF_TEXT"))) (text_lines v) = true -> opens v = None -> writable v).
  { intros v A B C D. split; [apply has_not, A|]. split; [apply has_not, B|]. split; [apply not_tag, C|left; exact D]. }
  split; [|split; [|split]].
  - constructor; [split; [split; [apply has_not; reflexivity|constructor; [left; reflexivity|constructor; [right; reflexivity|constructor]]]|constructor]|].
    constructor; [split; [apply CS; reflexivity|split; [split; [apply CK; reflexivity|apply WR; reflexivity]|split; [apply has_not; reflexivity|constructor; [left; reflexivity|constructor; [exact I|constructor; [right; reflexivity|constructor]]]]]]|].
    constructor; [split; [apply CS; reflexivity|split; [exact I|split; [apply has_not; reflexivity|constructor; [left; reflexivity|constructor]]]]|].
    constructor; [split; [apply CS; reflexivity|split; [split; [apply CK; reflexivity|apply WR; reflexivity]|exact I]]|].
    constructor; [split; [apply CS; reflexivity|split; [split; [apply CK; reflexivity|apply WR; reflexivity]|exact I]]|].
    constructor; [split; [apply CS; reflexivity|split; [split; [apply CK; reflexivity|apply WR; reflexivity]|split; [apply has_not; reflexivity|constructor; [left; reflexivity|constructor]]]]|constructor].
  - constructor; [split; [split; [apply has_not; reflexivity|split; [apply has_not; reflexivity|constructor; [left; reflexivity|constructor; [right; reflexivity|constructor]]]]|constructor]|].
    constructor; [apply kept_by; [reflexivity|split; [constructor; [right; left; reflexivity|constructor; [left; reflexivity|constructor; [right; right; reflexivity|constructor]]]|split; [left; reflexivity|right; reflexivity]]]|].
    constructor; [apply kept_by; [reflexivity|split; [constructor; [right; left; reflexivity|constructor]|split; left; reflexivity]]|].
    constructor; [exact I|]. constructor; [exact I|]. constructor; [apply kept_by; [reflexivity|split; [constructor; [right; left; reflexivity|constructor]|split; left; reflexivity]]|constructor].
  - split; [left; reflexivity|]. split.
    + intros a p b E N. vm_compute in E. destruct a as [|p0 [|p1 a]]; cbn in E; [injection E as <- _; split; [reflexivity|split; [reflexivity|discriminate]]|injection E as _ <- _; discriminate|]. destruct a; discriminate.
    + intros p a E DC. vm_compute in DC. discriminate.
  - eexists. vm_compute. reflexivity.
Qed.
(** concrete: without a comment of the file the comment of the first section becomes it *)
Example C108_first_comment : exists t l b,
  answers false false [CSet (bs "S") None None (Some (bs "; c")) false; CSave] [Added; Written t] /\ load_copy_ml true t = Ok (Some 0, l, b) /\ string_at b 0 (bs "; c") /\ map (fun e => e_comment (fst e)) l = [None].
Proof.
  eexists _, _, _. split; [eexists; vm_compute; reflexivity|]. split; [vm_compute; reflexivity|]. split; [|reflexivity]. split; [apply has_not; reflexivity|]. eexists. reflexivity.
Qed.
