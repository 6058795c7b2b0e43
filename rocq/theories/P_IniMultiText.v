(** What an edited document writes with values of several lines, read line by line. *)
From Coq Require Import Lia.
From Verif Require Import Base P_Base CTypes StringUtils P_Strings Ini Spec_Ini P_Ini P_IniSave Spec_IniEdit Spec_IniText P_IniDoc P_IniText Spec_IniMulti IniMulti P_IniMulti3 P_IniMulti4 Spec_IniMultiText.

Definition mays (x : bytes) (sec : section) (its : list item) (sec' : section) : Prop :=
  forall r, semm sec Plain (x ++ r) = option_map (app its) (semm sec' Plain r).
Lemma omap_nil {A} (o : option (list A)) : option_map (app []) o = o.
Proof. destruct o; reflexivity. Qed.
Lemma omap_app {A} (i j : list A) o : option_map (app i) (option_map (app j) o) = option_map (app (i ++ j)) o.
Proof. destruct o; [cbn; rewrite app_assoc; reflexivity|reflexivity]. Qed.
Lemma mays_nil sec : mays [] sec [] sec.
Proof. intros r. rewrite omap_nil. reflexivity. Qed.
Lemma mays_app x y s1 s2 s3 i j : mays x s1 i s2 -> mays y s2 j s3 -> mays (x ++ y) s1 (i ++ j) s3.
Proof. intros A B r. rewrite <- app_assoc, A, B, omap_app. reflexivity. Qed.
Lemma mays_blank sec : mays [LF] sec [] sec.
Proof. intros r. rewrite omap_nil. apply (semm_space sec false LF r). reflexivity. Qed.
Lemma mays_concat {A} (f : A -> bytes) (g : A -> list item) sec l : (forall a, In a l -> mays (f a) sec (g a) sec) -> mays (concat (map f l)) sec (flat_map g l) sec.
Proof.
  induction l as [|a l IH]; intros H; [apply mays_nil|]. cbn [map concat flat_map]. eapply mays_app; [apply H; left; reflexivity|apply IH; intros b B; apply H; right; exact B].
Qed.
(** comments *)
Lemma mread_comment sec l rest : comment_line l -> read_ml sec Plain (l :: rest) = read_ml sec Plain rest.
Proof. intros H. cbn [read_ml]. unfold comment_line in H. unfold meaning. destruct (strip l) as [|c r]; [reflexivity|]. destruct H as [-> | ->]; reflexivity. Qed.
Lemma semm_comments sec r n : forall c, length c < n -> Forall comment_line (lines c) -> semm sec Plain (c ++ LF :: r) = semm sec Plain r.
Proof.
  induction n as [|n IH]; intros c L H; [lia|]. destruct (line_end c) as (a & t & -> & A & T). rewrite (lines_split a t A T) in H. rewrite app_length in L. rewrite <- app_assoc. unfold semm at 1. rewrite plines_split; [|exact A|destruct t; [reflexivity|exact T]]. rewrite mread_comment by exact (Forall_inv H). pose proof (Forall_inv_tail H) as H2. clear H.
  destruct t as [|e b]; [cbn [app pafter]; destruct r; reflexivity|]. cbn [after app pafter] in *. cbn [length] in L. fold (semm sec Plain (skip_newline (e :: b ++ LF :: r))).
  destruct b as [|d b].
  - cbn [app skip_newline tl]. destruct (Ascii.eqb e CR && Ascii.eqb LF LF); [reflexivity|]. apply (semm_space sec false LF r). reflexivity.
  - cbn [app skip_newline tl]. destruct (Ascii.eqb e CR && Ascii.eqb d LF) eqn:E.
    + apply andb_prop in E as [_ E]. apply Ascii.eqb_eq in E. subst d. cbn [lines] in H2. apply IH; [cbn [length] in L; lia|exact (Forall_inv_tail H2)].
    + change (d :: b ++ LF :: r) with ((d :: b) ++ LF :: r). apply IH; [cbn [length] in *; lia|exact H2].
Qed.
Lemma mays_comment c sec : comment_text c -> mays (write_text c) sec [] sec.
Proof.
  intros [_ H] r. rewrite omap_nil. unfold write_text. destruct c as [|a c]; [reflexivity|]. rewrite write_text_lines, <- app_assoc. apply (semm_comments sec r (S (length (a :: c)))); [lia|exact H].
Qed.
Lemma mays_comment_opt c sec : comment_opt c -> mays (match c with Some s => write_text s | None => [] end) sec [] sec.
Proof. destruct c; [apply mays_comment|intros _; apply mays_nil]. Qed.
Lemma semm_line sec m l rest : eol_free l -> semm sec m (l ++ LF :: rest) = read_ml sec m (l :: plines rest).
Proof. intros H. unfold semm. rewrite plines_split; [|exact H|reflexivity]. cbn [pafter skip_newline tl]. destruct rest; reflexivity. Qed.
Lemma mays_header n sec : clean_section n -> mays (bs "[" ++ n ++ bs "]" ++ [LF]) sec [ISection n] (SecNamed n).
Proof.
  intros [Hc Hn] r. replace ((bs "[" ++ n ++ bs "]" ++ [LF]) ++ r) with (("["%char :: n ++ ["]"%char]) ++ LF :: r) by (cbn; rewrite <- !app_assoc; reflexivity).
  rewrite semm_line.
  - rewrite mread_closed. unfold mopen. rewrite forallb_app. cbn [forallb]. rewrite andb_false_r.
    rewrite (cut_at_span "]"%char _ n [] (proj1 (not_in_forallb _ _) Hn) eq_refl). rewrite (proj2 Hc). reflexivity.
  - apply eol_free_cons. split; [reflexivity|]. apply eol_free_app. split; [apply clean_eol_free, Hc|reflexivity].
Qed.
(** the line of an entry *)
Lemma semm_entry (spaces : bool) k v sec r : clean_key k -> clean v -> semm sec Plain ((k ++ (if spaces then bs " = " else bs "=") ++ v ++ [LF]) ++ r)
  = match opens v with Some tag => semm sec (Inside k tag []) r | None => option_map (cons (IEntry sec k v)) (semm sec Plain r) end.
Proof.
  intros [Hk [He [c [t [-> Hc]]]]] V.
  replace (((c :: t) ++ (if spaces then bs " = " else bs "=") ++ v ++ [LF]) ++ r) with (((c :: t) ++ (if spaces then bs " = " else bs "=") ++ v) ++ LF :: r) by (rewrite <- !app_assoc; reflexivity).
  rewrite semm_line.
  2: { apply eol_free_app. split; [apply clean_eol_free, Hk|]. apply eol_free_app. split; [destruct spaces; reflexivity|apply clean_eol_free, V]. }
  pose proof (strip_id_head c t (proj2 Hk)) as Hg. cbn [app]. rewrite mread_plain.
  - destruct spaces.
    + set (k1 := c :: t ++ [" "%char]). assert (E : c :: t ++ bs " = " ++ v = k1 ++ "="%char :: " "%char :: v) by (unfold k1; cbn; rewrite <- app_assoc; reflexivity). rewrite E.
      rewrite (cut_at_span "="%char _ k1 (" "%char :: v)); [|unfold k1; change (c :: t ++ [" "%char]) with ((c :: t) ++ [" "%char]); rewrite forallb_app; apply andb_true_iff; split; [apply (not_in_forallb "="%char), He|reflexivity]|reflexivity].
      unfold k1. change (c :: t ++ [" "%char]) with ((c :: t) ++ [" "%char]). rewrite (strip_app_gaps (c :: t) [" "%char] eq_refl), (strip_gap " "%char v eq_refl), (proj2 Hk), (proj2 V). reflexivity.
    + change (c :: t ++ bs "=" ++ v) with ((c :: t) ++ "="%char :: v). rewrite (cut_at_span "="%char _ (c :: t) v (proj1 (not_in_forallb _ _) He) eq_refl). rewrite (proj2 Hk), (proj2 V). reflexivity.
  - exact Hg.
  - unfold ini_comment. apply orb_false_iff. split; apply Ascii.eqb_neq; intros ->; apply Hc; cbn; auto.
  - intros ->. apply Hc. cbn. auto.
Qed.
(** the lines of a value *)
Lemma text_lines_nonnil s : text_lines s <> [].
Proof. destruct s as [|c r]; cbn; [discriminate|]. destruct (Ascii.eqb c LF); [discriminate|]. destruct (text_lines r); discriminate. Qed.
Lemma skip_lf x : skip_newline (LF :: x) = x.
Proof. destruct x; reflexivity. Qed.
Lemma plines_text v r : ~ In CR v -> plines (v ++ LF :: r) = text_lines v ++ plines r.
Proof.
  induction v as [|c v IH]; intros N.
  - cbn [app text_lines]. rewrite (plines_at_eol (LF :: r) eq_refl). cbn [pafter skip_newline tl]. destruct r; reflexivity.
  - assert (NC : c <> CR) by (intros ->; apply N; left; reflexivity). assert (NV : ~ In CR v) by (intros X; apply N; right; exact X). specialize (IH NV). cbn [app text_lines]. destruct (Ascii.eqb_spec c LF) as [->|X].
    + rewrite (plines_at_eol (LF :: v ++ LF :: r) eq_refl). cbn [pafter tl]. rewrite skip_lf, IH. reflexivity.
    + cbn [plines]. assert (E : is_eol c = false) by (unfold is_eol; apply orb_false_iff; split; apply Ascii.eqb_neq; assumption). rewrite E, IH. destruct (text_lines v) as [|l ls] eqn:TL; [destruct (text_lines_nonnil v TL)|]. reflexivity.
Qed.
Lemma value_text v : lines_value (text_lines v) = v.
Proof.
  induction v as [|c v IH]; [reflexivity|]. cbn [text_lines]. destruct (text_lines v) as [|l ls] eqn:TL; [destruct (text_lines_nonnil v TL)|]. destruct (Ascii.eqb_spec c LF) as [->|X].
  - change (lines_value ([] :: l :: ls)) with (LF :: lines_value (l :: ls)). rewrite IH. reflexivity.
  - destruct ls as [|l2 ls]; [cbn in *; rewrite IH; reflexivity|]. change (lines_value ((c :: l) :: l2 :: ls)) with (c :: lines_value (l :: l2 :: ls)). rewrite IH. reflexivity.
Qed.
Lemma read_inside sec k tag ls rest : forall got, (forall l, In l ls -> ~ same_name l tag) -> read_ml sec (Inside k tag got) (ls ++ rest) = read_ml sec (Inside k tag (got ++ ls)) rest.
Proof.
  induction ls as [|l ls IH]; intros got H; [rewrite app_nil_r; reflexivity|]. cbn [app read_ml]. destruct (same_nameb_spec l tag) as [X|_]; [destruct (H l (or_introl eq_refl) X)|]. rewrite IH by (intros; apply H; right; assumption). rewrite <- app_assoc. reflexivity.
Qed.
Lemma semm_inside sec k v r : ~ In CR v -> (forall l, In l (text_lines v) -> ~ same_name l (bs "END_OF_TEXT")) ->
  semm sec (Inside k (bs "END_OF_TEXT") []) (v ++ [LF] ++ bs "END_OF_TEXT" ++ LF :: r) = option_map (cons (IEntry sec k v)) (semm sec Plain r).
Proof.
  intros C E. unfold semm. cbn [app]. rewrite plines_text by exact C. rewrite read_inside by exact E. cbn [app].
  change (plines (bs "END_OF_TEXT" ++ LF :: r)) with (plines (bs "END_OF_TEXT" ++ LF :: r)). rewrite (plines_split (bs "END_OF_TEXT") (LF :: r) eq_refl eq_refl). cbn [pafter tl]. rewrite skip_lf. cbn [read_ml].
  replace (same_nameb (bs "END_OF_TEXT") (bs "END_OF_TEXT")) with true by reflexivity. destruct (text_lines v) as [|l ls] eqn:TL; [destruct (text_lines_nonnil v TL)|]. rewrite <- TL, value_text. reflexivity.
Qed.
Lemma one_line_clean v : writable v -> needs_lines v = false -> clean v /\ opens v = None.
Proof.
  intros (N & C & _ & O) L. unfold needs_lines in L. apply orb_false_iff in L as [L1 L2]. apply negb_false_iff, beqb_eq in L2.
  assert (NE : forall c, In c v -> is_eol c = false). { intros c I. apply not_true_iff_false. intros X. apply not_true_iff_false in L1. apply L1. apply existsb_exists. exists c. auto. }
  split; [split; [intros c I; split; [apply NE, I|intros ->; exact (N I)]|exact L2]|]. destruct O as [O|[O|O]]; [exact O|specialize (NE _ O); discriminate|contradiction].
Qed.
Definition end_tag : bytes := bs "<<<END_OF_TEXT".
Lemma end_tag_clean : clean end_tag.
Proof. split; [|reflexivity]. intros c I. cbn in I. decompose [or] I; subst; try contradiction; split; try reflexivity; discriminate. Qed.
Lemma mays_value d key l sec : d_multiline d = true -> clean_key key -> tidy_line_of writable l -> mays (write_value d key l) sec [IEntry sec key (l_value l)] sec.
Proof.
  intros ML K (_ & V & C). unfold write_value. rewrite ML. cbn [andb]. change [IEntry sec key (l_value l)] with ([] ++ [IEntry sec key (l_value l)]).
  apply (mays_app _ _ _ sec).
  { destruct (l_comment l) as [c|]; [|apply mays_nil]. change (LF :: write_text c) with ([LF] ++ write_text c). change (@nil item) with (@nil item ++ []). eapply mays_app; [apply mays_blank|apply mays_comment, C]. }
  intros r. destruct (needs_lines (l_value l)) eqn:NL.
  - destruct V as (N & CR & E & _). destruct (l_value l) as [|a v] eqn:EV; [discriminate|]. rewrite <- EV in *. unfold write_text. rewrite EV. rewrite <- EV. rewrite write_text_lines.
    replace ((key ++ (if d_spaces d then bs " = " else bs "=") ++ (bs "<<<END_OF_TEXT" ++ [LF] ++ (l_value l ++ [LF]) ++ bs "END_OF_TEXT") ++ [LF]) ++ r)
      with ((key ++ (if d_spaces d then bs " = " else bs "=") ++ end_tag ++ [LF]) ++ (l_value l ++ [LF] ++ bs "END_OF_TEXT" ++ LF :: r)) by (unfold end_tag; rewrite <- !app_assoc; reflexivity).
    rewrite (semm_entry (d_spaces d) key end_tag sec _ K end_tag_clean). change (opens end_tag) with (Some (bs "END_OF_TEXT")). cbv iota. rewrite semm_inside by assumption. destruct (semm sec Plain r); reflexivity.
  - destruct (one_line_clean _ V NL) as [CL O]. rewrite (semm_entry (d_spaces d) key (l_value l) sec r K CL), O. destruct (semm sec Plain r); reflexivity.
Qed.
Lemma mays_key d p l sec : d_multiline d = true -> Forall (tidy_line_of writable) (p_lines p) -> tidy_line_of writable l -> mays (write_key d p l) sec (value_items sec d p l) sec.
Proof.
  intros ML P L. unfold write_key, value_items. rewrite <- (flat_single (fun m => IEntry sec (l_key l) (l_value m))). apply mays_concat. intros m M. apply mays_value; [exact ML|apply L|].
  destruct (d_multi d); [|destruct M as [<-|[]]; exact L]. unfold lines_of in M. apply filter_In in M. rewrite Forall_forall in P. apply P, M.
Qed.
Lemma mays_part d p sec : d_multiline d = true -> tidy_part_of writable p -> mays (write_part d p) sec (part_items sec d p) (sec_after sec p).
Proof.
  intros ML (N & C & L). unfold write_part, part_items, sec_after. change (match p_name p with [] => [] | n => [ISection n] end) with ([] ++ match p_name p with [] => [] | n => [ISection n] end). rewrite <- app_assoc.
  eapply mays_app; [apply mays_comment_opt, C|]. apply (mays_app _ _ _ (match p_name p with [] => sec | n => SecNamed n end)).
  - destruct (p_name p) as [|c n]; [apply mays_nil|apply mays_header, N].
  - apply mays_concat. intros l I. apply mays_key; [exact ML|exact L|]. rewrite Forall_forall in L. eapply L, first_lines_in, I.
Qed.
Lemma mays_gap (gap : bool) sec : mays (if gap then [LF; LF] else []) sec [] sec.
Proof. destruct gap; [|apply mays_nil]. change (@nil item) with (@nil item ++ []). change [LF; LF] with ([LF] ++ [LF]). eapply mays_app; apply mays_blank. Qed.
Lemma mays_parts d ps : d_multiline d = true -> forall gap sec, Forall (tidy_part_of writable) ps -> exists sec', mays (write_parts d gap ps) sec (parts_items sec d ps) sec'.
Proof.
  intros ML. induction ps as [|p r IH]; intros gap sec H; [exists sec; apply mays_nil|]. cbn [write_parts parts_items]. destruct (IH true (sec_after sec p) (Forall_inv_tail H)) as [sec' E]. exists sec'.
  change (part_items sec d p ++ parts_items (sec_after sec p) d r) with ([] ++ (part_items sec d p ++ parts_items (sec_after sec p) d r)). eapply mays_app; [apply mays_gap|]. eapply mays_app; [apply mays_part; [exact ML|exact (Forall_inv H)]|exact E].
Qed.
Lemma mnul_value d key l : clean_key key -> tidy_line_of writable l -> nul_free (write_value d key l).
Proof.
  intros [K _] (_ & V & C). destruct V as (N & _). unfold write_value. apply nul_free_app. split; [destruct (l_comment l) as [c|]; [|reflexivity]; change (LF :: write_text c) with ([LF] ++ write_text c); apply nul_free_app; split; [reflexivity|apply nul_write_text, C]|].
  apply nul_free_app. split; [apply clean_nul_free, K|]. apply nul_free_app. split; [destruct (d_spaces d); reflexivity|]. apply nul_free_app. split; [|reflexivity].
  destruct (d_multiline d && needs_lines (l_value l)); [|apply nul_free_not, N]. apply nul_free_app. split; [reflexivity|]. apply nul_free_app. split; [reflexivity|]. apply nul_free_app. split; [apply nul_write_text, N|reflexivity].
Qed.
Lemma mnul_part d p : tidy_part_of writable p -> nul_free (write_part d p).
Proof.
  intros (N & C & L). unfold write_part. apply nul_free_app. split; [destruct (p_comment p) as [c|]; [apply nul_write_text, C|reflexivity]|]. apply nul_free_app. split.
  - destruct (p_name p) as [|c n]; [reflexivity|]. apply nul_free_app. split; [reflexivity|]. apply nul_free_app. split; [apply clean_nul_free, N|reflexivity].
  - rewrite Forall_forall in L. apply nul_concat. intros l I. apply first_lines_in in I. unfold write_key. apply nul_concat. intros m M. apply mnul_value; [apply (L _ I)|].
    destruct (d_multi d); [|destruct M as [<-|[]]; apply L, I]. unfold lines_of in M. apply filter_In in M. apply L, M.
Qed.
Lemma mnul_parts d ps : forall gap, Forall (tidy_part_of writable) ps -> nul_free (write_parts d gap ps).
Proof.
  induction ps as [|p r IH]; intros gap H; [reflexivity|]. cbn [write_parts]. apply nul_free_app. split; [destruct gap; reflexivity|]. apply nul_free_app. split; [apply mnul_part, (Forall_inv H)|apply IH, (Forall_inv_tail H)].
Qed.
Lemma mwritten_items d : d_multiline d = true -> tidy_doc_of writable d -> text_items_ml (write_doc d) = Some (parts_items (SecNamed []) d (d_parts d)).
Proof.
  intros ML (C & P & _). unfold text_items_ml. rewrite cstr_id.
  - fold (semm (SecNamed []) Plain (write_doc d)). unfold write_doc. rewrite (mays_comment_opt (d_comment d) _ C). rewrite omap_nil.
    destruct (mays_parts d (d_parts d) ML (match d_comment d with Some _ => true | None => false end) (SecNamed []) P) as [sec' E]. rewrite E. change (semm sec' Plain [LF]) with (Some (@nil item)). cbn [option_map]. rewrite app_nil_r. reflexivity.
  - unfold write_doc. apply nul_free_app. split; [destruct (d_comment d) as [c|]; [apply nul_write_text, C|reflexivity]|]. apply nul_free_app. split; [apply mnul_parts, P|reflexivity].
Qed.
Lemma parts_named d ps : forall sec n, sec = SecNamed n -> Forall (fun i => match i with IEntry SecBroken _ _ => False | _ => True end) (parts_items sec d ps).
Proof.
  induction ps as [|p r IH]; intros sec n ->; [constructor|]. cbn [parts_items]. assert (X : exists m, sec_after (SecNamed n) p = SecNamed m) by (unfold sec_after; destruct (p_name p); eexists; reflexivity). destruct X as [m X].
  apply Forall_app. split; [|eapply IH, X]. unfold part_items. rewrite X. apply Forall_app. split; [destruct (p_name p); repeat constructor|]. apply Forall_forall. intros i I. unfold lines_items in I. apply in_flat_map in I. destruct I as (l & _ & I). unfold value_items in I. apply in_map_iff in I. destruct I as (x & <- & _). exact Logic.I.
Qed.
