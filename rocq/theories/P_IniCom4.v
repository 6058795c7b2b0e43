(** Loading what an edited document writes, with the comments. *)
From Coq Require Import Lia.
From Verif Require Import Base P_Base CTypes StringUtils P_Strings Ini Spec_Ini P_Ini P_IniSave Spec_IniEdit Spec_IniText P_IniDoc P_IniText IniBuf P_IniBuf P_IniBuf2 Prop_IniBuf Spec_IniMulti IniMulti P_IniMulti3 P_IniMulti4 P_IniMulti6 P_IniMulti7 Spec_IniMultiText P_IniMultiText P_IniCom P_IniCom2 P_IniCom3 Spec_IniSame.

Definition kept_lines (ls : list eline) : Prop := Forall (fun l => kept_opt (l_comment l)) ls.
Definition kept_part (p : epart) : Prop := kept_opt (p_comment p) /\ kept_lines (p_lines p).

Definition says_c (x : bytes) (sec : section) (its : list (item * option bytes)) (sec' : section) : Prop :=
  forall r its', reads None sec' r its' -> reads None sec (x ++ r) (its ++ its').
Lemma says_c_nil sec : says_c [] sec [] sec.
Proof. intros r its H. exact H. Qed.
Lemma says_c_app x y s1 s2 s3 i j : says_c x s1 i s2 -> says_c y s2 j s3 -> says_c (x ++ y) s1 (i ++ j) s3.
Proof. intros A B r its H. rewrite <- !app_assoc. apply A, B, H. Qed.
Lemma says_c_concat {A} (f : A -> bytes) (g : A -> list (item * option bytes)) sec l : (forall a, In a l -> says_c (f a) sec (g a) sec) -> says_c (concat (map f l)) sec (flat_map g l) sec.
Proof. induction l as [|a l IH]; intros H; [apply says_c_nil|]. cbn [map concat flat_map]. eapply says_c_app; [apply H; left; reflexivity|apply IH; intros b B; apply H; right; exact B]. Qed.
Lemma says_c_value d key l sec : d_multiline d = true -> clean_key key -> writable (l_value l) -> kept_opt (l_comment l) -> says_c (write_value d key l) sec [(IEntry sec key (l_value l), l_comment l)] sec.
Proof.
  intros ML K V C r its H. unfold write_value. cbn [app]. pose proof (fun cm => reads_value d key l sec cm r its ML K V H) as RV. rewrite <- app_assoc. destruct (l_comment l) as [c|]; [|apply RV]. cbn [app]. apply reads_blank. apply reads_comment; [exact C| |apply RV].
  destruct K as (KC & _ & a & t & -> & NA). cbn [app stops]. split; [exact (clean_no_space _ _ _ KC eq_refl)|]. unfold ini_comment. apply orb_false_iff. split; apply Ascii.eqb_neq; intros ->; apply NA; cbn; auto.
Qed.
Definition citem (sec : section) (k : bytes) (m : eline) : item * option bytes := (IEntry sec k (l_value m), l_comment m).
Definition key_citems (sec : section) (d : edoc) (p : epart) (l : eline) : list (item * option bytes) := map (citem sec (l_key l)) (if d_multi d then lines_of (l_key l) p else [l]).
Definition part_citems (sec : section) (d : edoc) (p : epart) : list (item * option bytes) :=
  match p_name p with [] => [] | n => [(ISection n, p_comment p)] end ++ flat_map (key_citems (sec_after sec p) d p) (first_lines [] (p_lines p)).
Fixpoint parts_citems (sec : section) (d : edoc) (ps : list epart) : list (item * option bytes) :=
  match ps with [] => [] | p :: r => part_citems sec d p ++ parts_citems (sec_after sec p) d r end.
Lemma says_c_key d p l sec : d_multiline d = true -> Forall (tidy_line_of writable) (p_lines p) -> kept_lines (p_lines p) -> In l (p_lines p) -> says_c (write_key d p l) sec (key_citems sec d p l) sec.
Proof.
  intros ML P C L. unfold write_key, key_citems. rewrite <- (flat_single (citem sec (l_key l))). apply says_c_concat. unfold kept_lines in C. rewrite Forall_forall in P, C. intros m M.
  assert (IM : In m (p_lines p)) by (destruct (d_multi d); [unfold lines_of in M; apply filter_In in M; apply M|destruct M as [<-|[]]; exact L]). apply says_c_value; [exact ML|apply (P _ L)|apply (P _ IM)|apply (C _ IM)].
Qed.
Lemma says_c_part d p sec : d_multiline d = true -> tidy_part_of writable p -> kept_part p -> (p_name p = [] -> p_comment p = None) -> says_c (write_part d p) sec (part_citems sec d p) (sec_after sec p).
Proof.
  intros ML (N & _ & L) (C & CL) U. unfold write_part, part_citems. rewrite app_assoc. apply (says_c_app _ _ _ (sec_after sec p)).
  - unfold sec_after. destruct (p_name p) as [|x n]; [rewrite (U eq_refl); apply says_c_nil|]. intros r its H. cbn [app]. pose proof (fun cm => reads_header cm sec (x :: n) r its N H) as RH. destruct (p_comment p) as [c|]; [|apply RH]. rewrite <- app_assoc. apply reads_comment; [exact C|split; reflexivity|apply RH].
  - apply says_c_concat. intros l I. apply says_c_key; [exact ML|exact L|exact CL|eapply first_lines_in, I].
Qed.
Lemma says_c_gap (gap : bool) sec : says_c (if gap then [LF; LF] else []) sec [] sec.
Proof. destruct gap; [|apply says_c_nil]. intros r its H. cbn [app]. apply reads_blank, reads_blank, H. Qed.
Lemma says_c_parts d ps : d_multiline d = true -> Forall (tidy_part_of writable) ps -> Forall kept_part ps -> Forall (fun p => p_name p = [] -> p_comment p = None) ps -> forall gap sec, exists sec', says_c (write_parts d gap ps) sec (parts_citems sec d ps) sec'.
Proof.
  intros ML. induction ps as [|p r IH]; intros H K U gap sec; [exists sec; apply says_c_nil|]. cbn [write_parts parts_citems]. destruct (IH (Forall_inv_tail H) (Forall_inv_tail K) (Forall_inv_tail U) true (sec_after sec p)) as [sec' E]. exists sec'.
  change (part_citems sec d p ++ parts_citems (sec_after sec p) d r) with ([] ++ (part_citems sec d p ++ parts_citems (sec_after sec p) d r)). eapply says_c_app; [apply says_c_gap|]. eapply says_c_app; [apply says_c_part; [exact ML|exact (Forall_inv H)|exact (Forall_inv K)|exact (Forall_inv U)]|exact E].
Qed.

(** ** the copy *)
Lemma copy_is data ls s' its : nul_free data -> data <> [] -> take_comment (length data) false data = Some (ls, s') -> reads None (SecNamed []) s' its ->
  exists com l b, load_copy_ml true data = Ok (com, l, b) /\ Forall2 (item_rel b) l (map fst its) /\ Forall2 (com_rel b) l its /\ com_is b (length b) com (coms ls).
Proof.
  intros NF NE TC RD. destruct data as [|c0 data0]; [congruence|]. unfold load_copy_ml. remember (c0 :: data0) as d eqn:Ed. cbv zeta.
  assert (LB : length (d ++ [NUL]) = S (length d)) by (rewrite app_length; cbn; lia).
  pose proof (at_copy d) as AC. rewrite (cstr_id d NF) in AC. pose proof (take_comment_le _ _ _ _ _ TC) as TL.
  destruct (comment_is false (S (S (length d))) _ _ _ _ TC (S (S (length d))) (d ++ [NUL]) 0 0 [] AC I eq_refl (le_n 0) ltac:(intros _; split; [reflexivity|discriminate]) ltac:(lia) ltac:(lia)) as (p & v & b & E1 & A & L & _ & SB & CT).
  cbn [flat flat_map length app Nat.add] in E1, CT. rewrite (bbind_run _ _ _ _ _ E1). cbv beta iota. rewrite lem_S. assert (LB1 : length b = S (length d)) by (destruct SB; lia).
  pose proof (RD (S (length s')) ltac:(lia)) as SC.
  destruct (load_mlc_ok _ _ _ _ _ SC ltac:(lia) (S (S (length d))) (S (length d)) (S (S (length d))) p SEmpty None b A) as (l & b' & X1 & X2 & X3 & X4 & X5); [lia|lia|lia|right; reflexivity|right; exact I|].
  exists v, l, b'. rewrite (bbind_run _ _ _ _ _ X1). split; [reflexivity|]. split; [exact X4|]. split; [exact X5|]. destruct ls as [|l0 ls]; cbn [com_text coms] in *; [subst v; exact I|]. destruct CT as (-> & T1 & T2 & T3). cbn [com_is]. cbn [Nat.add] in *. assert (LB2 : length b' = length b) by apply X2. pose proof (at_bound _ _ _ A) as BD.
  destruct T3 as [T3|T3]; [rewrite (X3 T3); split; [exact T1|lia]|]. split; [eapply at_same_below; [exact X2|exact T3|exact T1]|lia].
Qed.
Definition leads_clear (d : edoc) : Prop := match d_parts d with p :: _ => d_comment d = None -> p_comment p = None | [] => True end.
Lemma written_copy d : d_multiline d = true -> tidy_doc_of writable d -> Forall kept_part (d_parts d) -> file_opt (d_comment d) -> Forall (fun p => p_name p = [] -> p_comment p = None) (d_parts d) -> leads_clear d ->
  exists com l b, load_copy_ml true (write_doc d) = Ok (com, l, b) /\ Forall2 (item_rel b) l (map fst (parts_citems (SecNamed []) d (d_parts d))) /\ Forall2 (com_rel b) l (parts_citems (SecNamed []) d (d_parts d)) /\ com_is b (length b) com (d_comment d).
Proof.
  intros ML T KP FC UN LC. pose proof T as (TC & TP & TA).
  assert (NF : nul_free (write_doc d)) by (unfold write_doc; apply nul_free_app; split; [destruct (d_comment d) as [c|]; [apply nul_write_text, TC|reflexivity]|]; apply nul_free_app; split; [apply mnul_parts, TP|reflexivity]).
  assert (NE : write_doc d <> []) by (unfold write_doc; intros X; apply (f_equal (@length _)) in X; rewrite !app_length in X; cbn in X; lia).
  destruct (says_c_parts d (d_parts d) ML TP KP UN (match d_comment d with Some _ => true | None => false end) (SecNamed [])) as [sec' SC].
  assert (RD : reads None (SecNamed []) (write_parts d (match d_comment d with Some _ => true | None => false end) (d_parts d) ++ [LF]) (parts_citems (SecNamed []) d (d_parts d))).
  { rewrite <- (app_nil_r (parts_citems _ _ _)). apply SC. intros f L. destruct f; [lia|]. reflexivity. }
  destruct (d_comment d) as [c|] eqn:DC.
  - destruct FC as (NCR & NNU & FC). assert (CN : c <> []) by (intros ->; exact (Forall_inv FC)). replace (Some c) with (coms (text_lines c)) by apply coms_text.
    assert (W : write_doc d = flat (text_lines c) ++ write_parts d true (d_parts d) ++ [LF]) by (unfold write_doc; rewrite DC, (write_flat c CN); reflexivity).
    apply (copy_is (write_doc d) (text_lines c) _ _ NF NE) with (2 := RD). rewrite W. apply take_plain; [exact FC|apply text_lines_free, NCR|destruct (d_parts d); reflexivity|rewrite app_length; pose proof (lines_short c); eapply Nat.le_trans; [exact H|lia]].
  - change (@None bytes) with (coms []). assert (W : write_doc d = write_parts d false (d_parts d) ++ [LF]) by (unfold write_doc; rewrite DC; reflexivity). apply (copy_is (write_doc d) [] _ _ NF NE) with (2 := RD). rewrite W.
    change (write_parts d false (d_parts d) ++ [LF]) with (flat [] ++ write_parts d false (d_parts d) ++ [LF]) at 2. apply take_plain; [constructor|constructor| |cbn; lia].
    unfold leads_clear in LC. destruct (d_parts d) as [|p ps] eqn:DP; [reflexivity|]. specialize (LC DC). cbn [write_parts app]. unfold write_part. rewrite LC. cbn [app]. destruct (p_name p) as [|x n]; [|reflexivity]. cbn [app].
    pose proof (Forall_inv TP) as (_ & _ & TL). pose proof (Forall_inv KP) as (_ & KL). destruct (p_lines p) as [|l ls] eqn:PL; [cbn; destruct ps; reflexivity|]. cbn [first_lines existsb map concat]. unfold write_key.
    assert (HD : exists m ms, (if d_multi d then lines_of (l_key l) p else [l]) = m :: ms).
    { destruct (d_multi d); [|eauto]. unfold lines_of. rewrite PL. cbn [filter]. unfold of_key. replace (same_nameb (l_key l) (l_key l)) with true by (symmetry; apply same_is; reflexivity). eauto. }
    destruct HD as (m & ms & ->). cbn [map concat]. unfold write_value at 1. destruct (l_comment m) as [cm|]; [reflexivity|]. pose proof (Forall_inv TL) as (K & _). destruct K as (_ & _ & a & t & -> & NA). cbn [app]. unfold ini_comment. apply orb_false_iff. split; apply Ascii.eqb_neq; intros ->; apply NA; cbn; auto.
Qed.
