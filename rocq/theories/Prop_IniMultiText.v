(** C105, C107: what an edited INI object writes, loaded into another one. *)
From Coq Require Import Lia.
From Verif Require Import Base P_Base CTypes StringUtils P_Strings Ini Spec_Ini P_Ini P_IniSave IniBuf P_IniBuf P_IniBuf2 Spec_IniBuf Prop_IniBuf IniEdit Spec_IniEdit IniCalls Spec_IniText P_IniEdit11 P_IniDoc P_IniText Prop_IniEdit Prop_IniText
  IniMulti Spec_IniMulti P_IniMulti4 Prop_IniMulti Spec_IniMultiText P_IniMultiText P_IniReload.

Lemma told_values l vs : Told vs = Told (match l with [] => None | v :: r => Some (value_told v :: map value_told r) end) -> map l_value l = match vs with Some vs => map fst vs | None => [] end.
Proof. intros [= ->]. destruct l as [|v r]; [reflexivity|]. change (map l_value (v :: r) = map fst (map value_told (v :: r))). rewrite map_map. reflexivity. Qed.

(** *** GetAllValues of any key and the text Save writes agree, when values may be written on
    several lines and the text is read with values of several lines. *)
Lemma mwritten_values d sec key : d_multiline d = true -> tidy_doc_of writable d -> unnamed_leads (d_parts d) -> text_values_ml (write_doc d) sec key = Some (map l_value (values_of sec key d)).
Proof.
  intros ML T U. unfold text_values_ml. rewrite (mwritten_items d ML T). cbn [option_map]. fold (key_values key (flat_map (item_entries sec) (parts_items (SecNamed []) d (d_parts d)))).
  rewrite parts_entries; [|exact U|reflexivity|apply T]. unfold values_of, part_of. destruct (List.find (of_name sec) (d_parts d)) as [p|]; [rewrite entries_values; reflexivity|reflexivity].
Qed.
Theorem C107_written : forall multi multiline h l t sec key vs,
  Forall (tidy_with writable) h -> unnamed_is_first multi multiline h -> length l = length h ->
  answers multi multiline (h ++ [CMultiLine true; CSave; CAll (Some sec) (Some key)]) (l ++ [Done; Written t; Told vs]) ->
  text_values_ml t sec key = Some (match vs with Some vs => map fst vs | None => [] end).
Proof.
  intros m ml h l t sec key vs T U L A. apply answers_end in A; [|exact L]. pose proof (expect_all_tidy writable h _ T (blank_tidy writable m ml)) as D. unfold unnamed_is_first in U. set (d := snd (expect_all h (blank m ml))) in *. clear L.
  cbn [expect_all expect fst both] in A. injection A as -> A. rewrite mwritten_values; [|reflexivity|exact D|apply unnamed_leads_is, U]. f_equal. apply told_values. rewrite A. reflexivity.
Qed.
Print Assumptions C107_written.

(** *** Loaded into an empty object with the same multi-key mode (whatever comments the entries
    get), the keys have the values they had. *)
Lemma reload mk ml c es sec key d vs :
  loaded_values sec key (map fst es) = map l_value (values_of sec key d) -> d_multi d = mk ->
  Told vs = Told (match values_of sec key d with [] => None | v :: r => Some (value_told v :: map value_told r) end) ->
  exists vs', answers mk ml [CLoad c es; CAll (Some sec) (Some key)] [Done; Told vs'] /\ option_map (map fst) vs' = option_map (map fst) vs.
Proof.
  intros LV M V. pose proof (C102_document mk ml [CLoad c es; CAll (Some sec) (Some key)]) as A. cbn [expect_all expect both fst] in A. set (d2 := load_doc es _) in A. eexists. split; [exact A|].
  assert (X : map l_value (values_of sec key d2) = map l_value (values_of sec key d)).
  { rewrite <- LV. apply load_empty; [reflexivity|]. cbn [d_multi blank]. destruct mk; [left; reflexivity|right]. rewrite LV, map_length. unfold values_of. rewrite M. destruct (part_of sec d) as [p|]; [|cbn; lia]. rewrite firstn_length. lia. }
  injection V as ->. assert (MF : forall x, map fst (map value_told x) = map l_value x) by (intros x; rewrite map_map; reflexivity).
  destruct (values_of sec key d2), (values_of sec key d); try discriminate; [reflexivity|]. cbn [option_map]. f_equal. change (map fst (map value_told (e :: l)) = map fst (map value_told (e0 :: l0))). rewrite !MF. exact X.
Qed.
Theorem C107_reloaded : forall multi multiline h l t sec key vs mk,
  Forall (tidy_with writable) h -> unnamed_is_first multi multiline h -> length l = length h ->
  answers multi multiline (h ++ [CMultiKey mk; CMultiLine true; CSave; CAll (Some sec) (Some key)]) (l ++ [Done; Done; Written t; Told vs]) ->
  exists com l' b, load_copy_ml true t = Ok (com, l', b) /\
  forall c es ml, map fst es = map snd l' ->
  exists vs', answers mk ml [CLoad c es; CAll (Some sec) (Some key)] [Done; Told vs'] /\ option_map (map fst) vs' = option_map (map fst) vs.
Proof.
  intros m ml h l t sec key vs mk T U L A. apply answers_end in A; [|exact L]. pose proof (expect_all_tidy writable h _ T (blank_tidy writable m ml)) as D. unfold unnamed_is_first in U. set (d := snd (expect_all h (blank m ml))) in *. clear L.
  cbn [expect_all expect fst both] in A. set (d1 := {| d_multi := mk; d_multiline := true; d_spaces := d_spaces d; d_comment := d_comment d; d_parts := d_parts d |}).
  injection A as -> A. fold d1 in A |- *.
  assert (D1 : tidy_doc_of writable d1) by exact D. pose proof (mwritten_values d1 sec key eq_refl D1 (unnamed_leads_is _ U)) as W. unfold text_values_ml in W.
  pose proof (mwritten_items d1 eq_refl D1) as I1. rewrite I1 in W. injection W as W. destruct (load_ml_copy _ _ I1) as (com & l' & b & E & F). exists com, l', b. split; [exact E|]. intros c es ml' SE.
  apply (reload mk ml' c es sec key d1 vs); [|reflexivity|rewrite A; reflexivity]. etransitivity; [apply (f_equal (loaded_values sec key) SE)|]. rewrite (kept_values b l' _ sec key F); [exact W|]. apply (parts_named d1 _ _ [] eq_refl).
Qed.
Print Assumptions C107_reloaded.
Theorem C105_reloaded : forall multi multiline h l t sec key vs mk,
  Forall tidy h -> unnamed_is_first multi multiline h -> length l = length h ->
  answers multi multiline (h ++ [CMultiKey mk; CSave; CAll (Some sec) (Some key)]) (l ++ [Done; Written t; Told vs]) ->
  exists l' b, load_copy t = Ok (l', b) /\
  forall c es ml, map fst es = map snd l' ->
  exists vs', answers mk ml [CLoad c es; CAll (Some sec) (Some key)] [Done; Told vs'] /\ option_map (map fst) vs' = option_map (map fst) vs.
Proof.
  intros m ml h l t sec key vs mk T U L A. apply answers_end in A; [|exact L]. pose proof (expect_all_tidy clean h _ T (blank_tidy clean m ml)) as D. unfold unnamed_is_first in U. set (d := snd (expect_all h (blank m ml))) in *. clear L.
  cbn [expect_all expect fst both] in A. set (d1 := {| d_multi := mk; d_multiline := d_multiline d; d_spaces := d_spaces d; d_comment := d_comment d; d_parts := d_parts d |}).
  injection A as -> A. fold d1 in A |- *.
  assert (D1 : tidy_doc d1) by exact D. pose proof (written_values d1 sec key D1 (unnamed_leads_is _ U)) as W. unfold text_values, section_entries in W.
  pose proof (written_items d1 D1) as I1. rewrite I1 in W. destruct (load_copy_ok (write_doc d1)) as (l' & b & E & _ & F & _). rewrite I1 in F. exists l', b. split; [exact E|]. intros c es ml' SE.
  apply (reload mk ml' c es sec key d1 vs); [|reflexivity|rewrite A; reflexivity]. etransitivity; [apply (f_equal (loaded_values sec key) SE)|]. rewrite (kept_values b l' _ sec key F); [exact W|]. apply (parts_named d1 _ _ [] eq_refl).
Qed.
Print Assumptions C105_reloaded.

(** *** A value with a line END_OF_TEXT (in any case) is cut there, and what follows in the value
    is read as lines of the section: here, as another key. *)
Lemma semm_inside_at sec k e v r : eol_free e -> same_name e (bs "END_OF_TEXT") -> ~ In CR v -> (forall l, In l (text_lines v) -> ~ same_name l (bs "END_OF_TEXT")) ->
  semm sec (Inside k (bs "END_OF_TEXT") []) (v ++ [LF] ++ e ++ LF :: r) = option_map (cons (IEntry sec k v)) (semm sec Plain r).
Proof.
  intros EE SN C E. unfold semm. cbn [app]. rewrite plines_text by exact C. rewrite read_inside by exact E. cbn [app].
  rewrite (plines_split e (LF :: r) EE eq_refl). cbn [pafter tl]. rewrite skip_lf. cbn [read_ml].
  replace (same_nameb e (bs "END_OF_TEXT")) with true by (symmetry; apply same_is, SN). destruct (text_lines v) as [|l ls] eqn:TL; [destruct (text_lines_nonnil v TL)|]. rewrite <- TL, value_text. reflexivity.
Qed.
Theorem C107_cut : forall multi sec key a e k2 v2 t ans,
  clean_section sec -> clean_key key -> ~ In NUL a -> ~ In CR a -> (forall l, In l (text_lines a) -> ~ same_name l (bs "END_OF_TEXT")) ->
  same_name e (bs "END_OF_TEXT") -> clean_key k2 -> clean v2 -> opens v2 = None -> ~ same_name key k2 ->
  answers multi true [CSet sec (Some key) (Some (a ++ [LF] ++ e ++ [LF] ++ k2 ++ bs "=" ++ v2)) None false; CSave] [ans; Written t] ->
  text_values_ml t sec key = Some [a] /\ text_values_ml t sec k2 = Some [v2].
Proof.
  intros m sec key a e k2 v2 t ans CS CK N C E SN CK2 CV2 O DK A. apply answers_are in A. cbn [expect_all expect fst both] in A. set (v := a ++ _) in A. assert (TT : t = write_doc (set_doc sec (Some (key, v)) None false (blank m true))) by (injection A as _ X; exact X). rewrite TT. clear A TT t.
  assert (HE : forall c, In c e -> In (lower c) (map lower (bs "END_OF_TEXT"))) by (intros c I; rewrite <- SN; apply in_map, I).
  assert (NO : forall c, In (lower c) (map lower (bs "END_OF_TEXT")) -> is_eol c = false /\ c <> NUL).
  { intros c I. split; [apply not_true_iff_false; intros X; unfold is_eol in X; apply orb_true_iff in X as [X|X]; apply Ascii.eqb_eq in X|intros X]; subst c; cbn in I; decompose [or] I; try discriminate; contradiction. }
  assert (EE : eol_free e) by (apply forallb_forall; intros c I; destruct (NO c (HE c I)) as [X _]; rewrite not_nl_eol, X; reflexivity).
  assert (NE : ~ In NUL e) by (intros I; destruct (NO _ (HE _ I)) as [_ X]; exact (X eq_refl)).
  assert (NL : needs_lines v = true). { unfold needs_lines. apply orb_true_iff. left. apply existsb_exists. exists LF. split; [unfold v; apply in_or_app; right; left; reflexivity|reflexivity]. }
  assert (W : text_items_ml (write_doc (set_doc sec (Some (key, v)) None false (blank m true))) = Some ((match sec with [] => [] | n => [ISection n] end) ++ [IEntry (SecNamed sec) key a; IEntry (SecNamed sec) k2 v2])).
  { assert (T : write_doc (set_doc sec (Some (key, v)) None false (blank m true)) = (match sec with [] => [] | n => bs "[" ++ n ++ bs "]" ++ [LF] end) ++ (key ++ bs " = " ++ end_tag ++ [LF]) ++ a ++ [LF] ++ e ++ LF :: (k2 ++ bs "=" ++ v2 ++ [LF]) ++ bs "END_OF_TEXT" ++ [LF; LF]).
    { set (ln := {| l_key := key; l_comment := None; l_value := v |}). assert (P : set_doc sec (Some (key, v)) None false (blank m true) = with_parts [{| p_name := sec; p_comment := None; p_lines := [ln] |}] (blank m true)).
      { unfold set_doc, with_part. cbn [d_parts blank existsb app change_first]. unfold of_name at 1. cbn [p_name]. rewrite same_refl. reflexivity. }
      rewrite P. unfold write_doc. cbn [d_comment d_parts with_parts blank write_parts app]. unfold write_part. cbn [p_comment p_name p_lines app first_lines existsb map concat]. unfold write_key. cbn [l_key ln d_multi with_parts blank].
      assert (LO : (if m then lines_of key {| p_name := sec; p_comment := None; p_lines := [ln] |} else [ln]) = [ln]) by (destruct m; [unfold lines_of, of_key; cbn [p_lines filter l_key ln]; rewrite same_refl|]; reflexivity).
      rewrite LO. cbn [map concat app]. unfold write_value. cbn [l_comment d_multiline d_spaces with_parts blank l_value ln app]. rewrite NL. cbn [andb]. rewrite !app_nil_r. unfold write_text. assert (VN : exists x y, v = x :: y) by (unfold v; destruct a; eexists _, _; reflexivity). destruct VN as (x & y & VN). rewrite VN, <- VN. rewrite write_text_lines. unfold v, end_tag. cbn [app]. rewrite <- !app_assoc. cbn [app]. rewrite <- !app_assoc. cbn [app]. rewrite <- !app_assoc. cbn [app]. repeat (rewrite <- ?app_assoc; cbn [app]). destruct sec; repeat (rewrite <- ?app_assoc; cbn [app]); reflexivity. }
    rewrite T. unfold text_items_ml. rewrite cstr_id.
    - fold (semm (SecNamed []) Plain ((match sec with [] => [] | n => bs "[" ++ n ++ bs "]" ++ [LF] end) ++ (key ++ bs " = " ++ end_tag ++ [LF]) ++ a ++ [LF] ++ e ++ LF :: (k2 ++ bs "=" ++ v2 ++ [LF]) ++ bs "END_OF_TEXT" ++ [LF; LF])).
      assert (H : mays (match sec with [] => [] | n => bs "[" ++ n ++ bs "]" ++ [LF] end) (SecNamed []) (match sec with [] => [] | n => [ISection n] end) (SecNamed sec)) by (destruct sec as [|x y]; [apply mays_nil|apply mays_header, CS]).
      rewrite H. rewrite (semm_entry true key end_tag _ _ CK end_tag_clean). change (opens end_tag) with (Some (bs "END_OF_TEXT")). cbv iota. rewrite semm_inside_at by assumption. rewrite (semm_entry false k2 v2 _ _ CK2 CV2), O.
      change (semm (SecNamed sec) Plain (bs "END_OF_TEXT" ++ [LF; LF])) with (Some (@nil item)). reflexivity.
    - apply nul_free_app. split; [destruct sec as [|x y]; [reflexivity|]; apply nul_free_app; split; [reflexivity|]; apply nul_free_app; split; [apply clean_nul_free, CS|reflexivity]|].
      apply nul_free_app. split; [apply nul_free_app; split; [apply clean_nul_free, CK|reflexivity]|]. apply nul_free_app. split; [apply nul_free_not, N|]. apply (nul_free_app [LF]). split; [reflexivity|]. apply nul_free_app. split; [apply nul_free_not, NE|].
      apply (nul_free_app [LF]). split; [reflexivity|]. apply nul_free_app. split; [|reflexivity]. apply nul_free_app. split; [apply clean_nul_free, CK2|]. apply (nul_free_app (bs "=")). split; [reflexivity|]. apply nul_free_app. split; [apply clean_nul_free, CV2|reflexivity]. }
  assert (NB : forall x y, ~ same_name x y -> same_nameb x y = false) by (intros x y X; destruct (same_nameb x y) eqn:Y; [apply same_is in Y; contradiction|reflexivity]).
  unfold text_values_ml. rewrite W.
  assert (F : flat_map (item_entries sec) ((match sec with [] => [] | n => [ISection n] end) ++ [IEntry (SecNamed sec) key a; IEntry (SecNamed sec) k2 v2]) = [(key, a); (k2, v2)]) by (clear; destruct sec as [|x y]; cbn [app flat_map item_entries]; rewrite !same_refl; reflexivity).
  cbn [option_map]. rewrite F. cbn [filter fst]. rewrite !same_refl, (NB key k2 DK), (NB k2 key) by (intros X; apply DK; symmetry; exact X). split; reflexivity.
Qed.
Print Assumptions C107_cut.

(** concrete: values with spaces around them, line ends, and an empty line *)
Definition sample_ml : list call :=
  [CSet (bs "s") (Some (bs "a")) (Some (bs " first" ++ [LF; LF] ++ bs "[x]")) None false;
   CSet (bs "s") (Some (bs "b")) (Some (bs "plain = 1")) (Some (bs "# note")) false].
Definition sample_ml_text : bytes :=
  bs "[s]" ++ [LF] ++ bs "a = <<<END_OF_TEXT" ++ [LF] ++ bs " first" ++ [LF; LF] ++ bs "[x]" ++ [LF] ++ bs "END_OF_TEXT" ++ [LF; LF] ++ bs "# note" ++ [LF] ++ bs "b = plain = 1" ++ [LF; LF].
Lemma has_not x s : forallb (fun c => negb (Ascii.eqb c x)) s = true -> ~ In x s.
Proof. apply not_in_forallb. Qed.
Lemma not_tag ls : forallb (fun l => negb (same_nameb l (bs "END_OF_TEXT"))) ls = true -> forall l, In l ls -> ~ same_name l (bs "END_OF_TEXT").
Proof. intros H l I X. rewrite forallb_forall in H. specialize (H l I). apply same_is in X. rewrite X in H. discriminate. Qed.
Example C107_example : Forall (tidy_with writable) sample_ml /\ unnamed_is_first false false sample_ml /\
  answers false false (sample_ml ++ [CMultiKey false; CMultiLine true; CSave; CAll (Some (bs "S")) (Some (bs "A"))])
    ([Added; Added] ++ [Done; Done; Written sample_ml_text; Told (Some [(bs " first" ++ [LF; LF] ++ bs "[x]", None)])]) /\
  text_values_ml sample_ml_text (bs "S") (bs "A") = Some [bs " first" ++ [LF; LF] ++ bs "[x]"].
Proof.
  assert (CL : forall s, forallb (fun c => negb (is_eol c) && nonnul c) s = true -> beqb (strip s) s = true -> clean s).
  { intros s A B. split; [|apply beqb_eq, B]. intros c I. rewrite forallb_forall in A. specialize (A c I). apply andb_true_iff in A as [A1 A2]. apply negb_true_iff in A1. split; [exact A1|]. intros ->. discriminate. }
  assert (CK : forall c r, forallb (fun c => negb (is_eol c) && nonnul c) (c :: r) = true -> beqb (strip (c :: r)) (c :: r) = true -> forallb (fun c => negb (Ascii.eqb c "="%char)) (c :: r) = true -> existsb (Ascii.eqb c) (bs ";#[") = false -> clean_key (c :: r)).
  { intros c r A B C D. split; [apply CL; assumption|]. split; [apply has_not, C|]. exists c, r. split; [reflexivity|]. intros I. apply not_true_iff_false in D. apply D. apply existsb_exists. exists c. split; [exact I|apply Ascii.eqb_refl]. }
  split; [|split; [|split]].
  - assert (CS : clean_section (bs "s")) by (split; [apply CL; reflexivity|apply has_not; reflexivity]).
    constructor; [|constructor; [|constructor]]; (split; [exact CS|]).
    + split; [|exact I]. split; [apply CK; reflexivity|]. split; [apply has_not; reflexivity|]. split; [apply has_not; reflexivity|]. split; [apply not_tag; reflexivity|]. left. reflexivity.
    + split; [|split; [apply has_not; reflexivity|constructor; [right; reflexivity|constructor]]]. split; [apply CK; reflexivity|]. split; [apply has_not; reflexivity|]. split; [apply has_not; reflexivity|]. split; [apply not_tag; reflexivity|]. left. reflexivity.
  - intros a p b E. vm_compute in E. destruct a as [|p0 [|p1 a]]; cbn in E; try discriminate. reflexivity.
  - eexists. vm_compute. reflexivity.
  - vm_compute. reflexivity.
Qed.
Example C107_example_cut : exists t, answers false true [CSet (bs "s") (Some (bs "k")) (Some (bs "a" ++ [LF] ++ bs "end_of_text" ++ [LF] ++ bs "j=1")) None false; CSave] [Added; Written t] /\
  text_values_ml t (bs "s") (bs "k") = Some [bs "a"] /\ text_values_ml t (bs "s") (bs "j") = Some [bs "1"].
Proof. eexists. split; [eexists; vm_compute; reflexivity|]. split; vm_compute; reflexivity. Qed.
(** CR in a value is read as LF; a value that starts with <<< and fits on a line is not read back *)
Example C107_example_cr : exists t, answers false true [CSet (bs "s") (Some (bs "k")) (Some (bs "a" ++ [CR] ++ bs "b")) None false; CSave] [Added; Written t] /\ text_values_ml t (bs "s") (bs "k") = Some [bs "a" ++ [LF] ++ bs "b"].
Proof. eexists. split; [eexists; vm_compute; reflexivity|]. vm_compute; reflexivity. Qed.
Example C107_example_open : exists t, answers false true [CSet (bs "s") (Some (bs "k")) (Some (bs "<<<x")) None false; CSet (bs "s") (Some (bs "j")) (Some (bs "1")) None false; CSave] [Added; Added; Written t] /\
  text_values_ml t (bs "s") (bs "k") = Some [bs "j = 1" ++ [LF; LF]] /\ text_values_ml t (bs "s") (bs "j") = Some [].
Proof. eexists. split; [eexists; vm_compute; reflexivity|]. split; vm_compute; reflexivity. Qed.
