(** What an edited document writes, read line by line. *)
From Coq Require Import Lia.
From Verif Require Import Base P_Base CTypes StringUtils P_Strings Ini Spec_Ini P_Ini P_IniSave Spec_IniEdit Spec_IniText P_IniDoc.

(** the text [x], met in section [sec], says [its] and leaves section [sec'] *)
Definition says (x : bytes) (sec : section) (its : list item) (sec' : section) : Prop :=
  forall r, sem sec false (x ++ r) = its ++ sem sec' false r.
Lemma says_nil sec : says [] sec [] sec.
Proof. intros r. reflexivity. Qed.
Lemma says_app x y s1 s2 s3 i j : says x s1 i s2 -> says y s2 j s3 -> says (x ++ y) s1 (i ++ j) s3.
Proof. intros A B r. rewrite <- app_assoc, A, B, app_assoc. reflexivity. Qed.
Lemma says_blank sec : says [LF] sec [] sec.
Proof. intros r. cbn [app]. apply sem_space. reflexivity. Qed.
Lemma says_concat {A} (f : A -> bytes) (g : A -> list item) sec l : (forall a, In a l -> says (f a) sec (g a) sec) -> says (concat (map f l)) sec (flat_map g l) sec.
Proof.
  induction l as [|a l IH]; intros H; [apply says_nil|]. cbn [map concat flat_map]. eapply says_app; [apply H; left; reflexivity|apply IH; intros b B; apply H; right; exact B].
Qed.

Lemma lines_text a r : lines (a ++ LF :: r) = lines a ++ lines r.
Proof.
  induction a as [|c a IH]; [reflexivity|]. cbn [app lines]. destruct (is_eol c); [rewrite IH; reflexivity|]. rewrite IH. destruct (lines a) as [|l ls] eqn:E; [exfalso; eapply lines_nonnil, E|reflexivity].
Qed.
Lemma write_text_lines s : concat (map (fun l => l ++ [LF]) (text_lines s)) = s ++ [LF].
Proof.
  induction s as [|c r IH]; [reflexivity|]. cbn [text_lines]. destruct (Ascii.eqb_spec c LF) as [->|N]; [cbn [map concat app]; rewrite IH; reflexivity|].
  destruct (text_lines r) as [|l ls] eqn:E; [destruct r; cbn in E; [discriminate|destruct (Ascii.eqb a LF); [discriminate|destruct (text_lines r); discriminate]]|].
  cbn [map concat app] in *. rewrite IH. reflexivity.
Qed.
Lemma read_comments sec ls rest : Forall comment_line ls -> read_lines sec false (ls ++ rest) = read_lines sec false rest.
Proof.
  induction 1 as [|l ls H F IH]; [reflexivity|]. cbn [app read_lines]. unfold comment_line in H. unfold meaning. destruct (strip l) as [|c r]; [exact IH|].
  destruct H as [-> | ->]; exact IH.
Qed.
Lemma says_comment c sec : comment_text c -> says (write_text c) sec [] sec.
Proof.
  intros [_ H] r. unfold write_text. destruct c as [|a c]; [reflexivity|]. rewrite write_text_lines, <- app_assoc. unfold sem. cbn [app]. change (a :: c ++ LF :: r) with ((a :: c) ++ LF :: r).
  rewrite lines_text. apply read_comments, H.
Qed.
Lemma says_comment_opt c sec : comment_opt c -> says (match c with Some s => write_text s | None => [] end) sec [] sec.
Proof. destruct c; [apply says_comment|intros _; apply says_nil]. Qed.
Lemma says_header n sec : clean_section n -> says (bs "[" ++ n ++ bs "]" ++ [LF]) sec [ISection n] (SecNamed n).
Proof. intros H r. etransitivity; [|apply (sem_header sec n r H)]. f_equal. cbn. rewrite <- app_assoc. reflexivity. Qed.
Lemma says_entry (spaces : bool) k v sec : clean_key k -> clean v -> says (k ++ (if spaces then bs " = " else bs "=") ++ v ++ [LF]) sec [IEntry sec k v] sec.
Proof.
  intros K V r. destruct spaces; [apply (sem_entry sec k v r K V)|].
  destruct K as [Hk [He [c [t [-> Hc]]]]].
  replace (((c :: t) ++ bs "=" ++ v ++ [LF]) ++ r) with (((c :: t) ++ bs "=" ++ v) ++ LF :: r) by (rewrite <- !app_assoc; reflexivity).
  rewrite sem_line.
  2: { apply eol_free_app. split; [apply clean_eol_free, Hk|]. apply eol_free_app. split; [reflexivity|apply clean_eol_free, V]. }
  pose proof (strip_id_head c t (proj2 Hk)) as Hg. cbn [app]. rewrite read_plain.
  - change (c :: t ++ bs "=" ++ v) with ((c :: t) ++ "="%char :: v). rewrite (cut_at_span "="%char _ (c :: t) v (proj1 (not_in_forallb _ _) He) eq_refl).
    rewrite (proj2 Hk), (proj2 V). reflexivity.
  - exact Hg.
  - unfold ini_comment. apply orb_false_iff. split; apply Ascii.eqb_neq; intros ->; apply Hc; cbn; auto.
  - intros ->. apply Hc. cbn. auto.
Qed.

(** documents made of such strings *)
Definition tidy_line_of (V : bytes -> Prop) (l : eline) : Prop := clean_key (l_key l) /\ V (l_value l) /\ comment_opt (l_comment l).
Definition tidy_part_of (V : bytes -> Prop) (p : epart) : Prop := clean_section (p_name p) /\ comment_opt (p_comment p) /\ Forall (tidy_line_of V) (p_lines p).
Fixpoint apart (ps : list epart) : Prop :=
  match ps with [] => True | p :: r => Forall (fun q => same_nameb (p_name q) (p_name p) = false) r /\ apart r end.
Definition tidy_doc_of (V : bytes -> Prop) (d : edoc) : Prop := comment_opt (d_comment d) /\ Forall (tidy_part_of V) (d_parts d) /\ apart (d_parts d).
Notation tidy_line := (tidy_line_of clean).
Notation tidy_part := (tidy_part_of clean).
Notation tidy_doc := (tidy_doc_of clean).

Lemma clean_no_lines v : clean v -> needs_lines v = false.
Proof.
  intros [A B]. unfold needs_lines. rewrite B, beqb_refl, orb_false_r. apply not_true_iff_false. rewrite existsb_exists. intros (c & I & E). destruct (A c I) as [X _]. congruence.
Qed.
Lemma says_value d key l sec : clean_key key -> tidy_line l -> says (write_value d key l) sec [IEntry sec key (l_value l)] sec.
Proof.
  intros K (_ & V & C). unfold write_value. rewrite (clean_no_lines _ V), andb_false_r. change [IEntry sec key (l_value l)] with ([] ++ [IEntry sec key (l_value l)]).
  apply (says_app _ _ _ sec); [|apply says_entry; assumption]. destruct (l_comment l) as [c|]; [|apply says_nil]. change (LF :: write_text c) with ([LF] ++ write_text c). change (@nil item) with (@nil item ++ []).
  eapply says_app; [apply says_blank|apply says_comment, C].
Qed.
Definition value_items (sec : section) (d : edoc) (p : epart) (l : eline) : list item :=
  map (fun m => IEntry sec (l_key l) (l_value m)) (if d_multi d then lines_of (l_key l) p else [l]).
Lemma flat_single {A B} (f : A -> B) l : flat_map (fun a => [f a]) l = map f l.
Proof. induction l as [|a l IH]; [reflexivity|]. cbn. rewrite IH. reflexivity. Qed.
Lemma says_key d p l sec : Forall tidy_line (p_lines p) -> tidy_line l -> says (write_key d p l) sec (value_items sec d p l) sec.
Proof.
  intros P L. unfold write_key, value_items. rewrite <- (flat_single (fun m => IEntry sec (l_key l) (l_value m))). apply says_concat. intros m M. apply says_value; [apply L|].
  destruct (d_multi d); [|destruct M as [<-|[]]; exact L]. unfold lines_of in M. apply filter_In in M. rewrite Forall_forall in P. apply P, M.
Qed.
Lemma first_lines_in seen ls l : In l (first_lines seen ls) -> In l ls.
Proof. revert seen. induction ls as [|a ls IH]; intros seen; [intros []|]. cbn. destruct (existsb _ seen); [intros H; right; eapply IH, H|]. intros [<-|H]; [left; reflexivity|right; eapply IH, H]. Qed.
Definition lines_items (sec : section) (d : edoc) (p : epart) : list item := flat_map (value_items sec d p) (first_lines [] (p_lines p)).
Definition sec_after (sec : section) (p : epart) : section := match p_name p with [] => sec | n => SecNamed n end.
Definition part_items (sec : section) (d : edoc) (p : epart) : list item :=
  match p_name p with [] => [] | n => [ISection n] end ++ lines_items (sec_after sec p) d p.
Lemma says_part d p sec : tidy_part p -> says (write_part d p) sec (part_items sec d p) (sec_after sec p).
Proof.
  intros (N & C & L). unfold write_part, part_items, sec_after. change (match p_name p with [] => [] | n => [ISection n] end) with ([] ++ match p_name p with [] => [] | n => [ISection n] end). rewrite <- app_assoc.
  eapply says_app; [apply says_comment_opt, C|]. apply (says_app _ _ _ (match p_name p with [] => sec | n => SecNamed n end)).
  - destruct (p_name p) as [|c n]; [apply says_nil|apply says_header, N].
  - apply says_concat. intros l I. apply says_key; [exact L|]. rewrite Forall_forall in L. eapply L, first_lines_in, I.
Qed.
Fixpoint parts_items (sec : section) (d : edoc) (ps : list epart) : list item :=
  match ps with [] => [] | p :: r => part_items sec d p ++ parts_items (sec_after sec p) d r end.
Lemma says_gap (gap : bool) sec : says (if gap then [LF; LF] else []) sec [] sec.
Proof. destruct gap; [|apply says_nil]. change (@nil item) with (@nil item ++ []). change [LF; LF] with ([LF] ++ [LF]). eapply says_app; apply says_blank. Qed.
Lemma says_parts d ps : forall gap sec, Forall tidy_part ps -> exists sec', says (write_parts d gap ps) sec (parts_items sec d ps) sec'.
Proof.
  induction ps as [|p r IH]; intros gap sec H; [exists sec; apply says_nil|]. cbn [write_parts parts_items]. destruct (IH true (sec_after sec p) (Forall_inv_tail H)) as [sec' E]. exists sec'.
  change (part_items sec d p ++ parts_items (sec_after sec p) d r) with ([] ++ (part_items sec d p ++ parts_items (sec_after sec p) d r)). eapply says_app; [apply says_gap|]. eapply says_app; [apply says_part, (Forall_inv H)|exact E].
Qed.

Lemma nul_free_not s : nul_free s <-> ~ In NUL s.
Proof. unfold nul_free. rewrite forallb_forall. split; [intros H I; specialize (H _ I); discriminate|]. intros H c I. unfold nonnul. apply negb_true_iff, Ascii.eqb_neq. intros ->. contradiction. Qed.
Lemma nul_write_text s : ~ In NUL s -> nul_free (write_text s).
Proof. intros H. unfold write_text. destruct s as [|a s]; [reflexivity|]. rewrite write_text_lines. apply nul_free_app. split; [apply nul_free_not, H|reflexivity]. Qed.
Lemma nul_concat {A} (f : A -> bytes) l : (forall a, In a l -> nul_free (f a)) -> nul_free (concat (map f l)).
Proof. induction l as [|a l IH]; intros H; [reflexivity|]. cbn [map concat]. apply nul_free_app. split; [apply H; left; reflexivity|apply IH; intros; apply H; right; assumption]. Qed.
Lemma nul_value d key l : clean_key key -> tidy_line l -> nul_free (write_value d key l).
Proof.
  intros [K _] (_ & V & C). unfold write_value. rewrite (clean_no_lines _ V), andb_false_r. repeat (apply nul_free_app; split); try reflexivity; try (apply clean_nul_free; assumption).
  - destruct (l_comment l) as [c|]; [|reflexivity]. change (LF :: write_text c) with ([LF] ++ write_text c). apply nul_free_app. split; [reflexivity|apply nul_write_text, C].
  - destruct (d_spaces d); reflexivity.
Qed.
Lemma nul_part d p : tidy_part p -> nul_free (write_part d p).
Proof.
  intros (N & C & L). unfold write_part. repeat (apply nul_free_app; split).
  - destruct (p_comment p) as [c|]; [apply nul_write_text, C|reflexivity].
  - destruct (p_name p) as [|c n]; [reflexivity|]. repeat (apply nul_free_app; split); try reflexivity. apply clean_nul_free, N.
  - rewrite Forall_forall in L. apply nul_concat. intros l I. apply first_lines_in in I. unfold write_key. apply nul_concat. intros m M. apply nul_value; [apply (L _ I)|].
    destruct (d_multi d); [|destruct M as [<-|[]]; apply L, I]. unfold lines_of in M. apply filter_In in M. apply L, M.
Qed.
Lemma nul_parts d ps : forall gap, Forall tidy_part ps -> nul_free (write_parts d gap ps).
Proof.
  induction ps as [|p r IH]; intros gap H; [reflexivity|]. cbn [write_parts]. apply nul_free_app. split; [destruct gap; reflexivity|]. apply nul_free_app. split; [apply nul_part, (Forall_inv H)|apply IH, (Forall_inv_tail H)].
Qed.
Lemma written_items d : tidy_doc d -> text_items (write_doc d) = parts_items (SecNamed []) d (d_parts d).
Proof.
  intros (C & P & _). unfold text_items. rewrite cstr_id.
  - fold (sem (SecNamed []) false (write_doc d)). unfold write_doc. rewrite (says_comment_opt (d_comment d) _ C). cbn [app].
    destruct (says_parts d (d_parts d) (match d_comment d with Some _ => true | None => false end) (SecNamed []) P) as [sec' E]. rewrite E. change (sem sec' false [LF]) with (@nil item). apply app_nil_r.
  - unfold write_doc. apply nul_free_app. split; [destruct (d_comment d) as [c|]; [apply nul_write_text, C|reflexivity]|]. apply nul_free_app. split; [apply nul_parts, P|reflexivity].
Qed.

(** ** tidy calls keep a document tidy *)
Lemma forall_filter {A} (P : A -> Prop) f l : Forall P l -> Forall P (filter f l).
Proof. rewrite !Forall_forall. intros H a I. apply filter_In in I. apply H, I. Qed.
Lemma forall_change {A} (P : A -> Prop) f g l : Forall P l -> (forall a, P a -> P (g a)) -> Forall P (change_first f g l).
Proof. intros H G. induction H as [|a l H F IH]; [constructor|]. cbn. destruct (f a); constructor; auto. Qed.
Lemma forall_only {A} (P : A -> Prop) f g l : Forall P l -> (forall a, P a -> P (g a)) -> Forall P (only_first f g l).
Proof. intros H G. induction H as [|a l H F IH]; [constructor|]. cbn. destruct (f a); constructor; auto. apply forall_filter, F. Qed.
Lemma give_tidy (V : bytes -> Prop) multi force k v c ls : clean_key k -> V v -> comment_opt c -> Forall (tidy_line_of V) ls -> Forall (tidy_line_of V) (give multi force k v c ls).
Proof.
  intros K VV C L. assert (N : (tidy_line_of V) {| l_key := k; l_comment := c; l_value := v |}) by (split; [exact K|split; [exact VV|exact C]]).
  unfold give. destruct (existsb _ ls); [|apply Forall_app; split; [exact L|constructor; [exact N|constructor]]].
  destruct multi; [destruct force|].
  - apply forall_only; [exact L|]. intros a (_ & _ & A). split; [exact K|]. split; [exact VV|]. cbn. destruct (l_comment a); [exact A|exact C].
  - apply Forall_app. split; [exact L|constructor; [exact N|constructor]].
  - apply forall_change; [exact L|]. intros a (A & _ & B). split; [exact A|]. split; [exact VV|exact B].
Qed.
Lemma same_sym a b : same_nameb a b = same_nameb b a.
Proof. unfold same_nameb. destruct (beqb (map lower b) (map lower a)) eqn:E; [apply beqb_eq in E; rewrite E; apply beqb_refl|]. destruct (beqb (map lower a) (map lower b)) eqn:F; [apply beqb_eq in F; rewrite F, beqb_refl in E; discriminate|reflexivity]. Qed.
Lemma apart_add sec c ps : apart ps -> apart (with_part sec c ps).
Proof.
  intros A. unfold with_part. destruct (existsb (of_name sec) ps) eqn:E; [exact A|]. induction ps as [|p r IH]; cbn [app apart]; [split; constructor|].
  cbn [existsb] in E. apply orb_false_iff in E as [E1 E2]. destruct A as [A1 A2]. split; [|apply IH; assumption]. apply Forall_app. split; [exact A1|]. constructor; [|constructor]. cbn [p_name]. rewrite same_sym. exact E1.
Qed.
Lemma apart_change f g ps : (forall p, p_name (g p) = p_name p) -> apart ps -> apart (change_first f g ps).
Proof.
  intros G. induction ps as [|p r IH]; intros A; [exact I|]. destruct A as [A1 A2]. cbn. destruct (f p); cbn [apart]; [rewrite G; split; assumption|]. split; [|apply IH, A2].
  clear IH A2. induction A1 as [|q r Q F IH]; [constructor|]. cbn. destruct (f q); constructor; try exact F; try exact IH; try exact Q. rewrite G. exact Q.
Qed.
Lemma apart_filter f ps : apart ps -> apart (filter f ps).
Proof. induction ps as [|p r IH]; intros A; [exact I|]. destruct A as [A1 A2]. cbn. destruct (f p); [split; [apply forall_filter, A1|apply IH, A2]|apply IH, A2]. Qed.
Lemma with_tidy (V : bytes -> Prop) sec c ps : clean_section sec -> comment_opt c -> Forall (tidy_part_of V) ps -> Forall (tidy_part_of V) (with_part sec c ps).
Proof. intros S0 C P. unfold with_part. destruct (existsb _ ps); [exact P|]. apply Forall_app. split; [exact P|]. constructor; [|constructor]. split; [exact S0|]. split; [exact C|constructor]. Qed.
Lemma set_tidy (V : bytes -> Prop) sec kv c force d : tidy_entry V sec kv c -> (tidy_doc_of V) d -> (tidy_doc_of V) (set_doc sec kv c force d).
Proof.
  intros (S0 & KV & C) (DC & P & A). unfold set_doc. destruct kv as [[k v]|].
  - destruct KV as [K VV]. split; [exact DC|]. split.
    + cbn. apply forall_change; [apply with_tidy; [exact S0|exact I|exact P]|]. intros p (X & Y & Z). split; [exact X|]. split; [exact Y|]. apply give_tidy; assumption.
    + cbn. apply apart_change; [reflexivity|]. apply apart_add, A.
  - split; [exact DC|]. split; [apply with_tidy; assumption|apply apart_add, A].
Qed.
Lemma load_tidy (V : bytes -> Prop) es : forall d, Forall (fun e => tidy_entry V (fst (fst e)) (snd (fst e)) (snd e)) es -> (tidy_doc_of V) d -> (tidy_doc_of V) (load_doc es d).
Proof.
  induction es as [|[[s kv] c] es IH]; intros d H D; [exact D|]. cbn [load_doc]. apply IH; [exact (Forall_inv_tail H)|]. apply set_tidy; [exact (Forall_inv H)|exact D].
Qed.
Lemma find_forall {A} (P : A -> Prop) f l a : Forall P l -> List.find f l = Some a -> P a.
Proof. intros H F. apply find_some in F. rewrite Forall_forall in H. apply H, F. Qed.
Lemma delete_tidy (V : bytes -> Prop) sec k prune d : (tidy_doc_of V) d -> (tidy_doc_of V) (snd (delete_doc sec k prune d)).
Proof.
  intros D. pose proof D as (DC & P & A). unfold delete_doc, part_of. destruct (List.find (of_name sec) (d_parts d)) as [p|] eqn:F; [|exact D].
  assert (X : (tidy_doc_of V) (with_parts (filter (fun q => negb (of_name sec q)) (d_parts d)) d)) by (split; [exact DC|split; [apply forall_filter, P|apply apart_filter, A]]).
  destruct k as [k|]; [|exact X]. destruct (existsb (of_key k) (p_lines p)); [|exact D]. destruct (prune && _); [exact X|]. split; [exact DC|]. split.
  - cbn. apply forall_change; [exact P|]. intros q (Q1 & Q2 & _). split; [exact Q1|]. split; [exact Q2|]. apply forall_filter. apply (find_forall _ _ _ _ P F).
  - cbn. apply apart_change; [reflexivity|exact A].
Qed.
Lemma expect_tidy (V : bytes -> Prop) c d : tidy_with V c -> (tidy_doc_of V) d -> (tidy_doc_of V) (snd (expect c d)).
Proof.
  intros T D. destruct c; cbn [expect snd tidy_with] in *; try exact D.
  - apply set_tidy; assumption.
  - destruct sec as [s|]; [|exact D]. pose proof (delete_tidy V s key prune d D) as X. destruct (delete_doc s key prune d). exact X.
  - split; [exact I|]. split; constructor.
  - destruct T as [TC TE]. apply load_tidy; [exact TE|]. destruct D as (DC & P). split; [|exact P]. cbn. destruct (d_comment d); assumption.
Qed.
Lemma expect_all_tidy (V : bytes -> Prop) h : forall d, Forall (tidy_with V) h -> (tidy_doc_of V) d -> (tidy_doc_of V) (snd (expect_all h d)).
Proof.
  induction h as [|c h IH]; intros d T D; [exact D|]. cbn [expect_all]. pose proof (expect_tidy V c d (Forall_inv T) D) as X. destruct (expect c d) as [a d1]. cbn [snd] in X.
  specialize (IH d1 (Forall_inv_tail T) X). destruct (expect_all h d1). exact IH.
Qed.
Lemma blank_tidy (V : bytes -> Prop) multi multiline : (tidy_doc_of V) (blank multi multiline).
Proof. split; [exact I|]. split; constructor. Qed.

(** ** the values of a key *)
Definition no_unnamed (ps : list epart) : Prop := Forall (fun p => p_name p <> []) ps.
Definition unnamed_leads (ps : list epart) : Prop := match ps with [] => True | _ :: r => no_unnamed r end.
Definition key_values (key : bytes) (es : list (bytes * bytes)) : list bytes := map snd (filter (fun e => same_nameb (fst e) key) es).
Lemma key_values_app key a b : key_values key (a ++ b) = key_values key a ++ key_values key b.
Proof. unfold key_values. rewrite filter_app, map_app. reflexivity. Qed.
Lemma entries_app sec a b : flat_map (item_entries sec) (a ++ b) = flat_map (item_entries sec) a ++ flat_map (item_entries sec) b.
Proof. apply flat_map_app. Qed.
Definition entries_in (d : edoc) (p : epart) : list (bytes * bytes) :=
  flat_map (fun l => map (fun m => (l_key l, l_value m)) (if d_multi d then lines_of (l_key l) p else [l])) (first_lines [] (p_lines p)).
Lemma lines_entries name n d p : flat_map (item_entries name) (lines_items (SecNamed n) d p) = if same_nameb n name then entries_in d p else [].
Proof.
  unfold lines_items, entries_in. induction (first_lines [] (p_lines p)) as [|l ls IH]; [cbn; destruct (same_nameb n name); reflexivity|]. cbn [flat_map]. rewrite entries_app, IH. unfold value_items.
  induction (if d_multi d then lines_of (l_key l) p else [l]) as [|m ms IHm]; [destruct (same_nameb n name); reflexivity|]. cbn [map flat_map item_entries].
  destruct (same_nameb n name); cbn [app]; [rewrite <- IHm; reflexivity|exact IHm].
Qed.
Lemma part_entries name n d p : (p_name p = [] -> n = []) ->
  flat_map (item_entries name) (part_items (SecNamed n) d p) = if of_name name p then entries_in d p else [].
Proof.
  intros H. unfold part_items, sec_after, of_name. rewrite entries_app. destruct (p_name p) as [|c m] eqn:E.
  - rewrite (H eq_refl). apply lines_entries.
  - cbn [flat_map item_entries app]. apply lines_entries.
Qed.
Lemma none_named name ps : Forall (fun q => of_name name q = false) ps -> List.find (of_name name) ps = None.
Proof. induction 1 as [|p r E F IH]; [reflexivity|]. cbn. rewrite E. exact IH. Qed.
Lemma name_trans a b c : same_nameb a b = true -> same_nameb b c = same_nameb a c.
Proof. unfold same_nameb. intros H. apply beqb_eq in H. rewrite H. reflexivity. Qed.
Lemma no_other name d ps : forall n, no_unnamed ps -> Forall (fun q => of_name name q = false) ps -> flat_map (item_entries name) (parts_items (SecNamed n) d ps) = [].
Proof.
  induction ps as [|p r IH]; intros n U F; [reflexivity|]. cbn [parts_items]. rewrite entries_app, part_entries; [|intros E; destruct (Forall_inv U E)]. rewrite (Forall_inv F : of_name name p = false).
  pose proof (Forall_inv U) as U1. cbv beta in U1. unfold sec_after. destruct (p_name p) as [|c m]; [congruence|]. apply IH; [exact (Forall_inv_tail U)|exact (Forall_inv_tail F)].
Qed.
Lemma rest_apart name p r : of_name name p = true -> Forall (fun q => same_nameb (p_name q) (p_name p) = false) r -> Forall (fun q => of_name name q = false) r.
Proof. intros N A. eapply Forall_impl; [|exact A]. intros q Q. cbv beta in Q. unfold of_name in *. rewrite same_sym, (name_trans (p_name p) name (p_name q) N), same_sym. exact Q. Qed.
Lemma parts_entries name d ps n : unnamed_leads ps -> n = [] -> apart ps ->
  flat_map (item_entries name) (parts_items (SecNamed n) d ps) = match List.find (of_name name) ps with Some p => entries_in d p | None => [] end.
Proof.
  intros U -> A. assert (X : forall qs m, no_unnamed qs -> apart qs -> flat_map (item_entries name) (parts_items (SecNamed m) d qs) = match List.find (of_name name) qs with Some p => entries_in d p | None => [] end).
  { induction qs as [|p r IH]; intros m V B; [reflexivity|]. cbn [parts_items]. rewrite entries_app, part_entries; [|intros E; destruct (Forall_inv V E)]. destruct B as [B1 B2].
    pose proof (Forall_inv V) as U1. cbv beta in U1. unfold sec_after. destruct (p_name p) as [|c t] eqn:E; [congruence|]. rewrite <- E in *. cbn [List.find]. destruct (of_name name p) eqn:N.
    - rewrite no_other; [apply app_nil_r|exact (Forall_inv_tail V)|exact (rest_apart _ _ _ N B1)].
    - apply IH; [exact (Forall_inv_tail V)|exact B2]. }
  destruct ps as [|p r]; [reflexivity|]. cbn [unnamed_leads] in U. cbn [parts_items]. rewrite entries_app, part_entries by reflexivity. destruct A as [B1 B2].
  assert (Y : exists m, sec_after (SecNamed []) p = SecNamed m) by (unfold sec_after; destruct (p_name p); eexists; reflexivity). destruct Y as [m ->]. cbn [List.find]. destruct (of_name name p) eqn:N.
  - rewrite no_other; [apply app_nil_r|exact U|exact (rest_apart _ _ _ N B1)].
  - apply X; assumption.
Qed.
Lemma first_lines_none key seen ls : existsb (fun s => same_nameb key s) seen = true -> filter (of_key key) (first_lines seen ls) = [].
Proof.
  revert seen. induction ls as [|l ls IH]; intros seen H; [reflexivity|]. cbn [first_lines]. destruct (existsb (same_nameb (l_key l)) seen) eqn:E; [apply IH, H|]. cbn [filter]. unfold of_key at 1.
  destruct (same_nameb (l_key l) key) eqn:K.
  - exfalso. apply existsb_exists in H. destruct H as (s & I & H). apply not_true_iff_false in E. apply E. apply existsb_exists. exists s. split; [exact I|]. rewrite <- (name_trans _ _ s K). exact H.
  - apply IH. cbn [existsb]. rewrite H, orb_true_r. reflexivity.
Qed.
Lemma first_lines_one key seen ls : existsb (fun s => same_nameb key s) seen = false -> filter (of_key key) (first_lines seen ls) = firstn 1 (filter (of_key key) ls).
Proof.
  revert seen. induction ls as [|l ls IH]; intros seen H; [reflexivity|]. cbn [first_lines filter]. unfold of_key at 2. destruct (same_nameb (l_key l) key) eqn:K.
  - assert (E : existsb (same_nameb (l_key l)) seen = false).
    { apply not_true_iff_false. intros E. apply existsb_exists in E. destruct E as (s & I & E). apply not_true_iff_false in H. apply H. apply existsb_exists. exists s. split; [exact I|]. rewrite (name_trans _ _ s K). exact E. }
    rewrite E. cbn [filter]. unfold of_key at 1. rewrite K. cbn [firstn]. rewrite first_lines_none; [reflexivity|]. cbn [existsb]. rewrite same_sym, K. reflexivity.
  - destruct (existsb (same_nameb (l_key l)) seen); [apply IH, H|]. cbn [filter]. unfold of_key at 1. rewrite K. apply IH. cbn [existsb]. rewrite same_sym, K. exact H.
Qed.
Lemma key_values_const key k vs : key_values key (map (fun m : eline => (k, l_value m)) vs) = if same_nameb k key then map l_value vs else [].
Proof. unfold key_values. induction vs as [|v vs IH]; [destruct (same_nameb k key); reflexivity|]. cbn [map filter fst]. destruct (same_nameb k key); cbn [map snd]; [rewrite IH; reflexivity|exact IH]. Qed.
Lemma entries_values d p key : key_values key (entries_in d p) = map l_value (if d_multi d then lines_of key p else firstn 1 (lines_of key p)).
Proof.
  unfold entries_in. assert (X : forall ls, key_values key (flat_map (fun l => map (fun m => (l_key l, l_value m)) (if d_multi d then lines_of (l_key l) p else [l])) ls)
    = flat_map (fun l => map l_value (if d_multi d then lines_of (l_key l) p else [l])) (filter (of_key key) ls)).
  { induction ls as [|l ls IH]; [reflexivity|]. cbn [flat_map filter]. rewrite key_values_app, key_values_const, IH. unfold of_key at 2. destruct (same_nameb (l_key l) key); reflexivity. }
  rewrite X, first_lines_one by reflexivity. fold (lines_of key p). destruct (lines_of key p) as [|l r] eqn:E; [destruct (d_multi d); reflexivity|]. cbn [firstn flat_map]. rewrite app_nil_r.
  destruct (d_multi d); [|reflexivity]. assert (K : of_key key l = true). { apply (filter_In (of_key key) l (p_lines p)). fold (lines_of key p). rewrite E. left. reflexivity. }
  rewrite (lines_congr (l_key l) key p (proj1 (same_is _ _) K)), E. reflexivity.
Qed.
Lemma written_values d sec key : tidy_doc d -> unnamed_leads (d_parts d) -> text_values (write_doc d) sec key = map l_value (values_of sec key d).
Proof.
  intros T U. unfold text_values, section_entries. rewrite (written_items d T). fold (key_values key (flat_map (item_entries sec) (parts_items (SecNamed []) d (d_parts d)))).
  rewrite parts_entries; [|exact U|reflexivity|apply T]. unfold values_of, part_of. destruct (List.find (of_name sec) (d_parts d)) as [p|]; [apply entries_values|reflexivity].
Qed.
