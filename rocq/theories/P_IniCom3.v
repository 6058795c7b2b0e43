(** What an edited document writes, read with its comments. *)
From Coq Require Import Lia.
From Verif Require Import Base P_Base CTypes StringUtils P_Strings Ini Spec_Ini P_Ini P_IniSave Spec_IniEdit Spec_IniText P_IniDoc P_IniText IniBuf P_IniBuf P_IniBuf2 Spec_IniMulti IniMulti P_IniMulti3 P_IniMulti4 P_IniMulti7 Spec_IniMultiText P_IniMultiText P_IniCom P_IniCom2 Spec_IniSame.

Lemma line_comment l : comment_start l -> exists c r, l = c :: r /\ ini_comment c = true.
Proof. destruct l as [|c r]; [intros []|]. cbn. intros [-> | ->]; eexists _, _; split; reflexivity. Qed.
Definition stops (r : bytes) : Prop := match r with [] => True | c :: _ => ini_space c = false /\ ini_comment c = false end.
Lemma take_stops f blank r : stops r -> take_comment f blank r = Some ([], r).
Proof. destruct r as [|c r]; [destruct f; reflexivity|]. intros [A B]. destruct f; cbn [take_comment drop_while]; rewrite A, B; destruct blank; try reflexivity; rewrite B; reflexivity. Qed.
Lemma nls_lf n r : (match r with [] => True | c :: _ => ini_space c = false end) -> nls (repeat LF n ++ r) = n.
Proof.
  intros H. induction n as [|n IH]; cbn [repeat app].
  - destruct r as [|c r]; [reflexivity|]. cbn [nls]. rewrite H. reflexivity.
  - cbn [nls]. change (ini_space LF) with true. change (is_nl LF) with true. cbv iota. f_equal. destruct (repeat LF n ++ r); [cbn in IH; exact IH|]. change (Ascii.eqb LF CR) with false. cbn [andb]. exact IH.
Qed.
Lemma drop_lf n r : (match r with [] => True | c :: _ => ini_space c = false end) -> drop_while ini_space (repeat LF n ++ r) = r.
Proof. intros H. induction n as [|n IH]; cbn [repeat app]; [destruct r as [|c r]; [reflexivity|]; cbn [drop_while]; rewrite H; reflexivity|exact IH]. Qed.
Lemma blank_run ls : Forall (fun l => l = [] \/ comment_start l) ls -> (ls = [] \/ comment_start (last ls [])) -> exists n ls', ls = repeat [] n ++ ls' /\ (match ls' with [] => n = 0 | l :: _ => comment_start l end).
Proof.
  induction 1 as [|l ls H F IH]; intros L; [exists 0, []; split; reflexivity|]. destruct H as [->|H]; [|exists 0, (l :: ls); split; [reflexivity|exact H]].
  destruct ls as [|l2 ls]; [destruct L as [L|L]; [discriminate|destruct L]|]. destruct IH as (n & ls' & E & X); [right; destruct L as [L|L]; [discriminate|exact L]|]. exists (S n), ls'. split; [cbn; rewrite E; reflexivity|]. destruct ls'; [|exact X]. subst n. cbn in E. discriminate.
Qed.
Lemma last_cons_ne {A} (a : A) l d : l <> [] -> last (a :: l) d = last l d.
Proof. destruct l; [congruence|reflexivity]. Qed.
Lemma last_app_ne {A} (a l : list A) d : l <> [] -> last (a ++ l) d = last l d.
Proof. intros H. induction a as [|x a IH]; [reflexivity|]. cbn [app]. rewrite last_cons_ne; [exact IH|]. destruct a; [exact H|discriminate]. Qed.
Lemma take_lines n : forall ls r f, length ls < n -> Forall (fun l => l = [] \/ comment_start l) ls -> Forall eol_free ls -> (ls = [] \/ comment_start (last ls [])) -> stops r -> length ls <= f ->
  take_comment f true (flat ls ++ r) = Some (ls, r).
Proof.
  induction n as [|n IH]; intros ls r f L C E LA ST LF0; [lia|]. destruct (blank_run ls C LA) as (k & ls' & -> & X). destruct ls' as [|l ls'].
  - subst k. cbn [repeat app flat flat_map]. apply take_stops, ST.
  - apply Forall_app in C as [_ C]. apply Forall_app in E as [_ E]. destruct (line_comment l X) as (c & t & El & EC).
    assert (ONE : forall f', length (l :: ls') <= f' -> length (l :: ls') <= n -> take_comment f' true (flat (l :: ls') ++ r) = Some (l :: ls', r)).
    { intros f' Lf Ln. destruct f' as [|f']; [cbn in Lf; lia|]. change (flat (l :: ls')) with ((l ++ [Base.LF]) ++ flat ls'). rewrite <- !app_assoc. cbn [app]. subst l. cbn [app take_comment]. rewrite EC.
      rewrite (app_comm_cons t (Base.LF :: flat ls' ++ r) c). change not_nl with (fun x => negb (is_nl x)). rewrite (span_free (c :: t) (Base.LF :: flat ls' ++ r) (Forall_inv E) eq_refl). cbv beta iota. rewrite skip_lf. rewrite IH; [reflexivity|cbn [length] in *; lia|exact (Forall_inv_tail C)|exact (Forall_inv_tail E)| |exact ST|cbn [length] in *; lia].
      destruct ls' as [|l2 ls']; [left; reflexivity|right]. destruct LA as [LA|LA]; [destruct k; discriminate|]. rewrite last_app_ne in LA by discriminate. rewrite last_cons_ne in LA by discriminate. exact LA. }
    destruct k as [|k]; [cbn [repeat app] in *; apply ONE; [exact LF0|lia]|].
    rewrite app_length, repeat_length in L, LF0. cbn [length] in L, LF0. destruct f as [|f]; [lia|]. rewrite flat_app, flat_blank, <- app_assoc. set (rest := flat (l :: ls') ++ r) in *.
    assert (HR : exists t', rest = c :: t') by (unfold rest; subst l; eexists; reflexivity). destruct HR as [t' HR]. assert (SPC : ini_space c = false) by (unfold ini_comment in EC; apply orb_prop in EC as [EC|EC]; apply Ascii.eqb_eq in EC; subst c; reflexivity).
    assert (DW : drop_while ini_space (repeat Base.LF (S k) ++ rest) = c :: t') by (rewrite drop_lf; [exact HR|rewrite HR; exact SPC]). assert (NL : nls (repeat Base.LF (S k) ++ rest) = S k) by (apply nls_lf; rewrite HR; exact SPC).
    assert (ON : take_comment f true (c :: t') = Some (l :: ls', r)) by (rewrite <- HR; apply ONE; cbn [length]; lia).
    cbn [repeat app] in *. cbn [take_comment]. change (ini_comment Base.LF) with false. cbv iota. rewrite DW, EC, ON, NL. reflexivity.
Qed.
Lemma take_plain ls : forall r f, Forall comment_start ls -> Forall eol_free ls -> (match r with [] => True | c :: _ => ini_comment c = false end) -> length ls <= f -> take_comment f false (flat ls ++ r) = Some (ls, r).
Proof.
  induction ls as [|l ls IH]; intros r f C E R L.
  - cbn [flat flat_map app]. destruct r as [|c r]; [destruct f; reflexivity|]. destruct f; cbn [take_comment]; rewrite R; reflexivity.
  - destruct f as [|f]; [cbn in L; lia|]. destruct (line_comment l (Forall_inv C)) as (c & t & El & EC). change (flat (l :: ls)) with ((l ++ [Base.LF]) ++ flat ls). rewrite <- !app_assoc. cbn [app]. subst l. cbn [app take_comment]. rewrite EC.
    rewrite (app_comm_cons t (Base.LF :: flat ls ++ r) c). change not_nl with (fun x => negb (is_nl x)). rewrite (span_free (c :: t) (Base.LF :: flat ls ++ r) (Forall_inv E) eq_refl). cbv beta iota. rewrite skip_lf. rewrite IH; [reflexivity|exact (Forall_inv_tail C)|exact (Forall_inv_tail E)|exact R|cbn in L; lia].
Qed.
Lemma text_lines_free c : ~ In CR c -> Forall eol_free (text_lines c).
Proof.
  induction c as [|a c IH]; intros N; [constructor; [reflexivity|constructor]|]. cbn [text_lines]. assert (X : Forall eol_free (text_lines c)) by (apply IH; intros I; apply N; right; exact I).
  destruct (Ascii.eqb_spec a LF) as [->|NL]; [constructor; [reflexivity|exact X]|]. destruct (text_lines c) as [|l ls]; [constructor; [|constructor]|constructor; [|exact (Forall_inv_tail X)]]; apply eol_free_cons; (split; [unfold is_eol; apply orb_false_iff; split; apply Ascii.eqb_neq; [exact NL|intros ->; apply N; left; reflexivity]|]); [reflexivity|exact (Forall_inv X)].
Qed.
Lemma write_flat c : c <> [] -> write_text c = flat (text_lines c).
Proof. intros N. unfold write_text. destruct c; [congruence|]. unfold flat. rewrite flat_map_concat_map. reflexivity. Qed.
Lemma lines_short c : length (text_lines c) <= length (flat (text_lines c)).
Proof. induction (text_lines c) as [|l ls IH]; [reflexivity|]. change (flat (l :: ls)) with ((l ++ [LF]) ++ flat ls). rewrite !app_length. cbn. lia. Qed.
Lemma kept_nonnil c : kept_comment c -> c <> [].
Proof. intros (_ & _ & _ & H & _) ->. exact H. Qed.
Lemma coms_text c : coms (text_lines c) = Some c.
Proof. unfold coms. destruct (text_lines c) eqn:E; [destruct (text_lines_nonnil c E)|]. rewrite <- E, value_text. reflexivity. Qed.

(** [s], met in [sec] after the comment [cm], is read as [its] *)
Definition reads (cm : option bytes) (sec : section) (s : bytes) (its : list (item * option bytes)) : Prop :=
  forall f, length s < f -> ini_scan_mlc f sec cm s = Some its.
Lemma reads_blank cm sec s its : reads cm sec s its -> reads cm sec (LF :: s) its.
Proof. intros H f L. cbn [length] in L. specialize (H f ltac:(lia)). destruct f as [|f]; [lia|]. exact H. Qed.
Lemma reads_comment cm sec c s its : kept_comment c -> stops s -> reads (Some c) sec s its -> reads cm sec (write_text c ++ s) its.
Proof.
  intros K ST H f L. rewrite (write_flat c (kept_nonnil c K)) in *. destruct K as (NC & NN & LL & HD & LA). destruct f as [|f]; [lia|]. pose proof (take_lines (S (length (text_lines c))) (text_lines c) s f (Nat.lt_succ_diag_r _) LL (text_lines_free c NC) (or_intror LA) ST) as T. pose proof (lines_short c) as SH.
  rewrite app_length in L. assert (XF : length (flat (text_lines c)) <= f) by lia; specialize (T (Nat.le_trans _ _ _ SH XF)); clear XF. destruct (text_lines c) as [|l ls] eqn:E; [destruct (text_lines_nonnil c E)|]. destruct (line_comment l HD) as (a & t & El & EC).
  assert (HX : exists t', flat (l :: ls) ++ s = a :: t') by (subst l; eexists; reflexivity). destruct HX as [t' HX]. cbn [ini_scan_mlc]. rewrite HX in *. assert (SPC : ini_space a = false) by (unfold ini_comment in EC; apply orb_prop in EC as [EC|EC]; apply Ascii.eqb_eq in EC; subst a; reflexivity).
  cbn [drop_while]. rewrite SPC, EC, T. rewrite <- E, coms_text. apply H. pose proof (flat_pos (l :: ls) ltac:(discriminate)). lia.
Qed.
Lemma reads_header cm sec n s its : clean_section n -> reads None (SecNamed n) s its -> reads cm sec ((bs "[" ++ n ++ bs "]" ++ [LF]) ++ s) ((ISection n, cm) :: its).
Proof.
  intros [C NB] H f L. replace ((bs "[" ++ n ++ bs "]" ++ [LF]) ++ s) with ("["%char :: n ++ "]"%char :: LF :: s) in * by (cbn; rewrite <- !app_assoc; reflexivity). destruct f as [|f]; [lia|]. cbn [ini_scan_mlc drop_while]. change (ini_space "["%char) with false. cbv iota. change (ini_comment "["%char) with false. cbv iota. rewrite Ascii.eqb_refl.
  assert (D : drop_while ini_space (n ++ "]"%char :: LF :: s) = n ++ "]"%char :: LF :: s) by (destruct n as [|x n]; [reflexivity|]; cbn [app drop_while]; rewrite (clean_no_space _ _ _ C eq_refl); reflexivity). rewrite D.
  rewrite (span_unique (fun x => negb (Ascii.eqb x "]"%char) && not_nl x) n ("]"%char :: LF :: s)); [|rewrite forallb_forall; intros x I; apply andb_true_intro; split; [apply negb_true_iff, Ascii.eqb_neq; intros ->; contradiction|rewrite not_nl_eol; apply negb_true_iff, C, I]|reflexivity].
  rewrite Ascii.eqb_refl, (rdrop_clean n C). cbn [app length] in L. rewrite app_length in L. cbn [length] in L. change (to_eol (LF :: s)) with (LF :: s). rewrite (reads_blank None (SecNamed n) s its H); [reflexivity|]. cbn [length]. lia.
Qed.
(** the line of an entry, until the value *)
Lemma scan_entry (spaces : bool) k v sec cm r f : clean_key k -> clean v -> ini_scan_mlc (S f) sec cm ((k ++ (if spaces then bs " = " else bs "=") ++ v ++ [LF]) ++ r) =
  match opens v with
  | None => option_map (cons (IEntry sec k v, cm)) (ini_scan_mlc f sec None r)
  | Some tag => match scan_multi f tag r with
                | Some ((_ :: _) as ls, rest4) => option_map (cons (IEntry sec k (lines_value ls), cm)) (ini_scan_mlc f sec None rest4)
                | _ => None
                end
  end.
Proof.
  intros (C & NE & c & t & Ek & NC) V. set (gapk := if spaces then bs " " else []). set (gapv := if spaces then bs " " else []).
  assert (EQ : (k ++ (if spaces then bs " = " else bs "=") ++ v ++ [LF]) ++ r = (k ++ gapk) ++ "="%char :: gapv ++ v ++ LF :: r) by (unfold gapk, gapv; destruct spaces; cbn [app]; rewrite <- !app_assoc; reflexivity). rewrite EQ. clear EQ.
  assert (HD : exists x, (k ++ gapk) ++ "="%char :: gapv ++ v ++ LF :: r = c :: x) by (rewrite Ek; eexists; reflexivity). destruct HD as [x HD].
  cbn [ini_scan_mlc]. rewrite HD. cbn [drop_while]. rewrite (clean_no_space k c t C Ek). assert (IC : ini_comment c = false) by (unfold ini_comment; apply orb_false_iff; split; apply Ascii.eqb_neq; intros ->; apply NC; cbn; auto). rewrite IC. destruct (Ascii.eqb_spec c "["%char) as [->|_]; [exfalso; apply NC; cbn; auto|]. rewrite <- HD. clear HD x.
  rewrite (span_unique (fun x => negb (Ascii.eqb x "="%char) && not_nl x) (k ++ gapk)); [| |reflexivity].
  2:{ rewrite forallb_app. apply andb_true_intro. split; [|unfold gapk; destruct spaces; reflexivity]. rewrite forallb_forall. intros x I. apply andb_true_intro. split; [apply negb_true_iff, Ascii.eqb_neq; intros ->; contradiction|rewrite not_nl_eol; apply negb_true_iff, C, I]. }
  rewrite Ascii.eqb_refl. destruct (k ++ gapk) as [|y0 y] eqn:EK; [rewrite Ek in EK; discriminate|]. rewrite <- EK. clear EK y0 y.
  assert (RK : rdrop_while ini_space (k ++ gapk) = k) by (rewrite rdrop_while_app by (unfold gapk; destruct spaces; reflexivity); apply rdrop_clean, C). rewrite RK.
  assert (DV : drop_while (fun x => not_nl x && ini_space x) (gapv ++ v ++ LF :: r) = v ++ LF :: r).
  { assert (X : drop_while (fun x => not_nl x && ini_space x) (v ++ LF :: r) = v ++ LF :: r) by (destruct v as [|a v]; [reflexivity|]; cbn [app drop_while]; rewrite (clean_no_space _ _ _ V eq_refl), andb_false_r; reflexivity). unfold gapv. destruct spaces; exact X. }
  rewrite DV. change (span not_nl (v ++ LF :: r)) with (span (fun x => negb (is_nl x)) (v ++ LF :: r)). rewrite (span_free v (LF :: r) (clean_eol_free v V) eq_refl). rewrite (rdrop_clean v V), skip_lf. reflexivity.
Qed.
Lemma scan_multi_lines tag ls : forall f r, Forall eol_free ls -> eol_free tag -> (forall l, In l ls -> ~ same_name l tag) -> length ls < f -> scan_multi f tag (flat ls ++ tag ++ LF :: r) = Some (ls, r).
Proof.
  induction ls as [|l ls IH]; intros f r E T N L; (destruct f as [|f]; [cbn in L; lia|]); cbn [scan_multi].
  - cbn [flat flat_map app]. change (span not_nl (tag ++ LF :: r)) with (span (fun x => negb (is_nl x)) (tag ++ LF :: r)). rewrite (span_free tag (LF :: r) T eq_refl). destruct (same_nameb_spec tag tag) as [_|X]; [|destruct X; reflexivity]. rewrite skip_lf. reflexivity.
  - change (flat (l :: ls)) with ((l ++ [LF]) ++ flat ls). rewrite <- !app_assoc. cbn [app]. change (span not_nl (l ++ LF :: flat ls ++ tag ++ LF :: r)) with (span (fun x => negb (is_nl x)) (l ++ LF :: flat ls ++ tag ++ LF :: r)). rewrite (span_free l (LF :: flat ls ++ tag ++ LF :: r) (Forall_inv E) eq_refl). destruct (same_nameb_spec l tag) as [X|_]; [destruct (N l (or_introl eq_refl) X)|].
    rewrite skip_lf, IH; [reflexivity|exact (Forall_inv_tail E)|exact T|intros; apply N; right; assumption|cbn in L; lia].
Qed.
Lemma reads_value d key l sec cm r its : d_multiline d = true -> clean_key key -> writable (l_value l) -> reads None sec r its ->
  reads cm sec ((key ++ (if d_spaces d then bs " = " else bs "=") ++ (if d_multiline d && needs_lines (l_value l) then bs "<<<END_OF_TEXT" ++ [LF] ++ write_text (l_value l) ++ bs "END_OF_TEXT" else l_value l) ++ [LF]) ++ r) ((IEntry sec key (l_value l), cm) :: its).
Proof.
  intros ML K V H f L. rewrite ML in *. cbn [andb] in *. destruct f as [|f]; [lia|]. destruct (needs_lines (l_value l)) eqn:NL.
  - destruct V as (N & CN & E & _). assert (NV : l_value l <> []) by (intros X; rewrite X in NL; discriminate). rewrite (write_flat _ NV) in *. set (ls := text_lines (l_value l)) in *.
    replace ((key ++ (if d_spaces d then bs " = " else bs "=") ++ (bs "<<<END_OF_TEXT" ++ [LF] ++ flat ls ++ bs "END_OF_TEXT") ++ [LF]) ++ r)
      with ((key ++ (if d_spaces d then bs " = " else bs "=") ++ end_tag ++ [LF]) ++ (flat ls ++ bs "END_OF_TEXT" ++ LF :: r)) in * by (unfold end_tag; rewrite <- !app_assoc; reflexivity).
    rewrite (scan_entry (d_spaces d) key end_tag sec cm _ f K end_tag_clean). change (opens end_tag) with (Some (bs "END_OF_TEXT")). cbv iota. pose proof (lines_short (l_value l)) as SH. fold ls in SH. rewrite !app_length in L. cbn [length] in L.
    rewrite scan_multi_lines; [|apply text_lines_free, CN|reflexivity|exact E|eapply Nat.le_lt_trans; [exact SH|lia]]. pose proof (text_lines_nonnil (l_value l)) as TN. fold ls in TN. destruct ls as [|l0 ls0] eqn:EL; [congruence|]. rewrite H by lia. assert (VT : lines_value (l0 :: ls0) = l_value l) by (rewrite <- EL; apply value_text). rewrite VT. reflexivity.
  - destruct (one_line_clean _ V NL) as [CL O]. rewrite (scan_entry (d_spaces d) key (l_value l) sec cm _ f K CL), O. rewrite !app_length in L. cbn [length] in L. rewrite H by lia. reflexivity.
Qed.
