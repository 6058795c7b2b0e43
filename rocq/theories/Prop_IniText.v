(** C105: what an edited INI object writes is read back with the same values. *)
From Coq Require Import Lia.
From Verif Require Import Base P_Base CTypes StringUtils P_Strings Ini Spec_Ini P_Ini P_IniSave Prop_Ini IniEdit Spec_IniEdit IniCalls Spec_IniText P_IniEdit11 P_IniDoc P_IniText Prop_IniEdit.

Lemma app_same_length {A} (a b c d : list A) : a ++ b = c ++ d -> length a = length c -> a = c /\ b = d.
Proof. revert c. induction a as [|x a IH]; intros [|y c] E L; try discriminate; [auto|]. cbn in *. injection E as -> E. destruct (IH c E ltac:(lia)) as [-> ->]. auto. Qed.
Lemma expect_length h : forall d, length (fst (expect_all h d)) = length h.
Proof. induction h as [|c h IH]; intros d; [reflexivity|]. cbn [expect_all]. destruct (expect c d) as [a d1]. specialize (IH d1). destruct (expect_all h d1). cbn in *. lia. Qed.
Lemma answers_are multi multiline h l : answers multi multiline h l -> l = fst (expect_all h (blank multi multiline)).
Proof. intros [st E]. destruct (C102_document multi multiline h) as [st' E']. rewrite E in E'. congruence. Qed.
Lemma answers_end multi multiline h h' l l' : answers multi multiline (h ++ h') (l ++ l') -> length l = length h ->
  l' = fst (expect_all h' (snd (expect_all h (blank multi multiline)))).
Proof.
  intros A L. apply answers_are in A. rewrite expect_app in A. pose proof (expect_length h (blank multi multiline)) as N. destruct (expect_all h (blank multi multiline)) as [x d]. cbn [fst snd] in *.
  destruct (expect_all h' d) as [y d']. cbn [fst] in *. apply app_same_length in A; [apply A|congruence].
Qed.

(** the sections of the object in the order of their addition: the unnamed one, if there is one, is the first *)
Definition unnamed_is_first (multi multiline : bool) (h : list call) : Prop :=
  forall before p after, d_parts (snd (expect_all h (blank multi multiline))) = before ++ p :: after -> p_name p = [] -> before = [].
Lemma unnamed_leads_is ps : (forall before p after, ps = before ++ p :: after -> p_name p = [] -> before = []) -> unnamed_leads ps.
Proof.
  intros H. destruct ps as [|q r]; [exact I|]. cbn. apply Forall_forall. intros p P E. apply in_split in P. destruct P as (a & b & ->). specialize (H (q :: a) p b eq_refl E). discriminate.
Qed.

(** *** Whatever the history, if its strings can be written on lines: GetAllValues of any key and
    the text Save writes (spaces or not, multi-line values or not, comments or not) agree. *)
Theorem C105_written : forall multi multiline h l t sec key vs,
  Forall tidy h -> unnamed_is_first multi multiline h -> length l = length h ->
  answers multi multiline (h ++ [CSave; CAll (Some sec) (Some key)]) (l ++ [Written t; Told vs]) ->
  text_values t sec key = match vs with Some vs => map fst vs | None => [] end.
Proof.
  intros m ml h l t sec key vs T U L A. apply answers_end in A; [|exact L]. pose proof (expect_all_tidy clean h _ T (blank_tidy clean m ml)) as D. set (d := snd (expect_all h (blank m ml))) in *. clear L.
  cbn [expect_all expect fst both] in A. injection A as -> ->. rewrite (written_values d sec key D (unnamed_leads_is _ U)).
  destruct (values_of sec key d) as [|v r]; [reflexivity|]. change (map l_value (v :: r) = map fst (map value_told (v :: r))). rewrite map_map. reflexivity.
Qed.

(** The library's own reader finds the value GetValue gave, if keys have one value. *)
Lemma last_of_values es key : last_value es key = match rev (key_values key es) with [] => None | v :: _ => Some v end.
Proof.
  induction es as [|[k v] es IH]; [reflexivity|]. cbn [last_value]. rewrite IH. unfold key_values. cbn [filter fst]. destruct (same_nameb k key); cbn [map snd].
  - cbn [rev]. destruct (rev (map snd (filter (fun e => same_nameb (fst e) key) es))); reflexivity.
  - destruct (rev (map snd (filter (fun e => same_nameb (fst e) key) es))); reflexivity.
Qed.
Theorem C105_library_reads : forall multi multiline h l t sec key v more d,
  Forall tidy h -> unnamed_is_first multi multiline h -> length l = length h ->
  answers multi multiline (h ++ [CSave; CGet (Some sec) (Some key)]) (l ++ [Written t; Value v more]) ->
  ini_load t = Ok d -> more = false -> get_value d sec key = v.
Proof.
  intros m ml h l t sec key v more d0 T U L A LD M. apply answers_end in A; [|exact L]. pose proof (expect_all_tidy clean h _ T (blank_tidy clean m ml)) as D. set (d := snd (expect_all h (blank m ml))) in *. clear L.
  cbn [expect_all expect fst both] in A. injection A as -> A. destruct (C48_lookup _ _ sec key LD) as [-> _]. rewrite last_of_values.
  pose proof (written_values d sec key D (unnamed_leads_is _ U)) as W. unfold text_values in W. fold (key_values key (section_entries (write_doc d) sec)) in W. rewrite W.
  destruct (values_of sec key d) as [|x r]; [injection A as -> _; reflexivity|]. injection A as -> ->. destruct r; [reflexivity|discriminate].
Qed.

(** *** An unnamed section that is not the first one is lost: its lines are read as lines of the
    section before it. *)
Lemma never_unnamed d ps n : n <> [] -> flat_map (item_entries []) (parts_items (SecNamed n) d ps) = [].
Proof.
  assert (NE : forall m : bytes, m <> [] -> same_nameb m [] = false) by (intros [|c m] H; [congruence|reflexivity]).
  revert n. induction ps as [|p r IH]; intros n N; [reflexivity|]. cbn [parts_items]. rewrite entries_app. unfold part_items, sec_after. rewrite entries_app. destruct (p_name p) as [|c m].
  - rewrite lines_entries, NE by exact N. cbn [flat_map app]. apply IH, N.
  - cbn [flat_map item_entries app]. rewrite lines_entries, NE by discriminate. apply IH. discriminate.
Qed.
Theorem C105_unnamed_lost : forall multi multiline h l t key p rest,
  Forall tidy h -> length l = length h -> d_parts (snd (expect_all h (blank multi multiline))) = p :: rest -> p_name p <> [] ->
  answers multi multiline (h ++ [CSave]) (l ++ [Written t]) -> text_values t [] key = [].
Proof.
  intros m ml h l t key p rest T L P N A. apply answers_end in A; [|exact L]. pose proof (expect_all_tidy clean h _ T (blank_tidy clean m ml)) as D. set (d := snd (expect_all h (blank m ml))) in *. clear L.
  cbn [expect_all expect fst] in A. injection A as ->. unfold text_values, section_entries. rewrite (written_items d D), P. cbn [parts_items]. rewrite entries_app. unfold part_items at 1. unfold sec_after.
  destruct (p_name p) as [|c n]; [congruence|]. rewrite never_unnamed by discriminate. cbn [flat_map item_entries app]. rewrite lines_entries. reflexivity.
Qed.

(** concrete: a section with a comment, two keys (one given twice), saved and read *)
Definition sample : list call :=
  [CSet (bs "Product") (Some (bs "Key")) (Some (bs "1")) (Some (bs "; first")) false;
   CSet (bs "other") (Some (bs "x")) (Some (bs "a b = c")) None false;
   CSet (bs "PRODUCT") (Some (bs "key")) (Some (bs "2 = two")) None true].
Definition sample_text : bytes :=
  bs "[Product]" ++ [LF; LF] ++ bs "; first" ++ [LF] ++ bs "Key = 2 = two" ++ [LF; LF; LF] ++ bs "[other]" ++ [LF] ++ bs "x = a b = c" ++ [LF; LF].
Example C105_example : Forall tidy sample /\ unnamed_is_first false false sample /\
  answers false false (sample ++ [CSave; CAll (Some (bs "product")) (Some (bs "KEY"))]) ([Added; Added; Changed] ++ [Written sample_text; Told (Some [(bs "2 = two", Some (bs "; first"))])]) /\
  text_values sample_text (bs "product") (bs "KEY") = [bs "2 = two"].
Proof.
  assert (CL : forall s, forallb (fun c => negb (is_eol c) && nonnul c) s = true -> beqb (strip s) s = true -> clean s).
  { intros s A B. split; [|apply beqb_eq, B]. intros c I. rewrite forallb_forall in A. specialize (A c I). apply andb_true_iff in A as [A1 A2]. apply negb_true_iff in A1. split; [exact A1|]. intros ->. discriminate. }
  assert (NI : forall x s, forallb (fun c => negb (Ascii.eqb c x)) s = true -> ~ In x s) by (intros x s; apply not_in_forallb).
  assert (CK : forall c r, forallb (fun c => negb (is_eol c) && nonnul c) (c :: r) = true -> beqb (strip (c :: r)) (c :: r) = true -> forallb (fun c => negb (Ascii.eqb c "="%char)) (c :: r) = true -> existsb (Ascii.eqb c) (bs ";#[") = false -> clean_key (c :: r)).
  { intros c r A B C D. split; [apply CL; assumption|]. split; [apply NI, C|]. exists c, r. split; [reflexivity|]. intros I. apply not_true_iff_false in D. apply D. apply existsb_exists. exists c. split; [exact I|apply Ascii.eqb_refl]. }
  split; [|split; [|split]].
  - assert (CS : forall n, forallb (fun c => negb (is_eol c) && nonnul c) n = true -> beqb (strip n) n = true -> forallb (fun c => negb (Ascii.eqb c "]"%char)) n = true -> clean_section n) by (intros; split; [apply CL; assumption|apply NI; assumption]).
    constructor; [|constructor; [|constructor; [|constructor]]]; (split; [apply CS; reflexivity|]); (split; [split; [apply CK; reflexivity|apply CL; reflexivity]|]); try exact I.
    split; [apply NI; reflexivity|]. constructor; [|constructor]. left. reflexivity.
  - intros a p b E. vm_compute in E. destruct a as [|p0 [|p1 [|p2 a]]]; cbn in E; try discriminate; [reflexivity|].
    injection E as _ <- _. discriminate.
  - eexists. vm_compute. reflexivity.
  - vm_compute. reflexivity.
Qed.
(** ... and the unnamed section added after another: the object has the key, the text has it in the other section *)
Example C105_example_unnamed : let h := [CSet (bs "a") (Some (bs "x")) (Some (bs "1")) None false; CSet [] (Some (bs "k")) (Some (bs "2")) None false] in exists t,
  answers false false (h ++ [CGet (Some []) (Some (bs "k")); CGet (Some (bs "a")) (Some (bs "k")); CSave]) [Added; Added; Value (Some (bs "2")) false; Value None false; Written t] /\
  text_values t [] (bs "k") = [] /\ text_values t (bs "a") (bs "k") = [bs "2"].
Proof. eexists. split; [eexists; vm_compute; reflexivity|]. split; vm_compute; reflexivity. Qed.
