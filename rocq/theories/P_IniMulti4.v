(** The scanner with multi-line values reads a text line by line. *)
From Coq Require Import Lia.
From Verif Require Import Base P_Base CTypes StringUtils P_Strings Ini Spec_Ini P_Ini IniMulti Spec_IniMulti P_IniMulti3.

(** LoadMultiLineText with a tag on a text that is not changed: the lines and what follows *)
Fixpoint scan_multi (f : nat) (tag s : bytes) : option (list bytes * bytes) :=
  match f with
  | 0 => None
  | S f =>
      let '(l, t) := span not_nl s in
      if same_nameb l tag then Some ([], match t with [] => [] | _ => skip_newline t end)
      else match t with
           | [] => Some ([l], [])
           | _ => match scan_multi f tag (skip_newline t) with Some (ls, r) => Some (l :: ls, r) | None => None end
           end
  end.
Fixpoint ini_scan_ml (fuel : nat) (sec : section) (s : bytes) : option (list item) :=
  match fuel with
  | 0 => None
  | S f =>
      match drop_while ini_space s with
      | [] => Some []
      | c :: r =>
          if ini_comment c then
            match skip_comment f true (c :: r) with
            | Some s' => ini_scan_ml f sec s'
            | None => None
            end
          else if Ascii.eqb c "["%char then
            let '(name, rest) :=
              span (fun x => negb (Ascii.eqb x "]"%char) && not_nl x) (drop_while ini_space r) in
            match rest with
            | d :: rest' =>
                if Ascii.eqb d "]"%char then
                  let n := rdrop_while ini_space name in
                  option_map (cons (ISection n)) (ini_scan_ml f (SecNamed n) (to_eol rest'))
                else ini_scan_ml f SecBroken rest
            | [] => ini_scan_ml f SecBroken rest
            end
          else
            let '(key, rest) :=
              span (fun x => negb (Ascii.eqb x "="%char) && not_nl x) (c :: r) in
            match rest with
            | d :: rest' =>
                if Ascii.eqb d "="%char then
                  match key with
                  | [] => ini_scan_ml f sec (to_eol rest)
                  | _ =>
                      let k := rdrop_while ini_space key in
                      let '(val, rest2) :=
                        span not_nl (drop_while (fun x => not_nl x && ini_space x) rest') in
                      let v := rdrop_while ini_space val in
                      let rest3 := match rest2 with [] => [] | _ => skip_newline rest2 end in
                      match opens v with
                      | None => option_map (cons (IEntry sec k v)) (ini_scan_ml f sec rest3)
                      | Some tag =>
                          match scan_multi f tag rest3 with
                          | Some ((_ :: _) as ls, rest4) => option_map (cons (IEntry sec k (lines_value ls))) (ini_scan_ml f sec rest4)
                          | _ => None
                          end
                      end
                  end
                else ini_scan_ml f sec rest
            | [] => ini_scan_ml f sec rest
            end
      end
  end.

Lemma skip_newline_length c t : length (skip_newline (c :: t)) <= length t.
Proof. cbn [skip_newline tl]. destruct t as [|d t]; [cbn; lia|]. destruct (_ && _); cbn; lia. Qed.

(** ** the lines *)
Definition pafter (t : bytes) : list bytes := match t with [] => [] | _ => plines (skip_newline t) end.
Lemma plines_nonnil s : plines s <> [].
Proof. destruct s as [|c r]; cbn; [discriminate|]. destruct (is_eol c); [discriminate|]. destruct (plines r); discriminate. Qed.
Lemma plines_at_eol t : at_eol t -> plines t = [] :: pafter t.
Proof.
  destruct t as [|c b]; [reflexivity|]. cbn [at_eol]. intros H. cbn [plines pafter]. rewrite H. f_equal. destruct b as [|d b]; [reflexivity|]. cbn [skip_newline tl]. destruct (_ && _); reflexivity.
Qed.
Lemma plines_split a t : eol_free a -> at_eol t -> plines (a ++ t) = a :: pafter t.
Proof.
  intros Ha Ht. induction a as [|c a IH]; cbn [app]; [apply plines_at_eol, Ht|].
  apply eol_free_cons in Ha as [Hc Ha]. cbn [plines]. rewrite Hc, IH by exact Ha. reflexivity.
Qed.

Definition semm (sec : section) (m : reading) (s : bytes) : option (list item) := read_ml sec m (plines s).
Lemma mread_blank sec l ls : strip l = [] -> read_ml sec Plain (l :: ls) = read_ml sec Plain ls.
Proof. intros H. cbn [read_ml]. unfold meaning. rewrite H. reflexivity. Qed.
Lemma mread_gap sec c l ls : is_gap c = true -> read_ml sec Plain ((c :: l) :: ls) = read_ml sec Plain (l :: ls).
Proof. intros H. cbn [read_ml]. unfold meaning. rewrite strip_gap by exact H. reflexivity. Qed.
Definition mopen (sec : section) (l : bytes) (ls : list bytes) : option (list item) :=
  if forallb is_gap l then read_ml sec Open ls
  else match cut_at "]"%char l with
       | Some (n, _) => option_map (cons (ISection (strip n))) (read_ml (SecNamed (strip n)) Plain ls)
       | None => read_ml SecBroken Plain ls
       end.
Lemma mread_bracket {X} l (a b c : X) (h : bytes -> X) (e : bytes -> bytes -> X) :
  (if beqb (strip ("["%char :: l)) ["["%char] then a
   else match meaning ("["%char :: l) with
        | LNothing => b
        | LHeader n => h n
        | LBroken => c
        | LEntry k v => e k v
        end) = (if forallb is_gap l then a else match cut_at "]"%char l with Some (n, _) => h (strip n) | None => c end).
Proof.
  unfold meaning. rewrite strip_open. cbn [beqb]. rewrite Ascii.eqb_refl. cbn [andb].
  destruct (forallb is_gap l) eqn:Eg.
  - rewrite (proj2 (rdrop_nil_iff is_gap l) Eg). reflexivity.
  - assert (beqb (rdrop_while is_gap l) [] = false) as ->.
    { apply beqb_false. intros H. apply rdrop_nil_iff in H. congruence. }
    change (Ascii.eqb "[" ";" || Ascii.eqb "[" "#") with false. change (Ascii.eqb "[" "[") with true. cbn iota.
    pose proof (cut_at_rdrop "]"%char l eq_refl) as H. destruct (cut_at "]" l) as [[x y]|].
    + destruct H as [b' [-> _]]. reflexivity.
    + rewrite H. reflexivity.
Qed.
Lemma mread_open sec l ls : read_ml sec Open (l :: ls) = mopen sec l ls.
Proof. cbn [read_ml]. apply mread_bracket. Qed.
Lemma mread_closed sec l ls : read_ml sec Plain (("["%char :: l) :: ls) = mopen sec l ls.
Proof. cbn [read_ml]. apply mread_bracket. Qed.
Lemma mread_open_gap sec c l ls : is_gap c = true -> read_ml sec Open ((c :: l) :: ls) = read_ml sec Open (l :: ls).
Proof.
  intros Hc. rewrite !mread_open. unfold mopen. cbn [forallb]. rewrite Hc. cbn [andb].
  destruct (forallb is_gap l); [reflexivity|]. cbn [cut_at].
  destruct (Ascii.eqb_spec c "]"%char) as [->|_]; [discriminate|].
  destruct (cut_at "]" l) as [[a b]|]; [|reflexivity]. rewrite strip_gap by exact Hc. reflexivity.
Qed.
Definition mode (open : bool) : reading := if open then Open else Plain.
Lemma mread_empty sec open ls : read_ml sec (mode open) ([] :: ls) = read_ml sec (mode open) ls.
Proof. destruct open; [rewrite mread_open; reflexivity|apply mread_blank; reflexivity]. Qed.
Lemma semm_space sec open c s : ini_space c = true -> semm sec (mode open) (c :: s) = semm sec (mode open) s.
Proof.
  intros H. rewrite ini_space_cases in H. unfold semm.
  destruct (is_eol c) eqn:Ee.
  - rewrite (plines_at_eol (c :: s) Ee), mread_empty. cbn [pafter skip_newline tl]. destruct s as [|d s]; [reflexivity|].
    destruct (Ascii.eqb c CR && Ascii.eqb d LF) eqn:E; [|reflexivity]. apply andb_prop in E as [_ E]. apply Ascii.eqb_eq in E. subst d.
    rewrite (plines_at_eol (LF :: s) eq_refl), mread_empty. cbn [pafter skip_newline tl]. destruct s; reflexivity.
  - cbn [plines]. rewrite Ee. rewrite orb_false_r in H. destruct (plines s) as [|l ls] eqn:El; [exfalso; eapply plines_nonnil; exact El|].
    destruct open; [apply mread_open_gap, H|apply mread_gap, H].
Qed.
Lemma semm_spaces sec open s : semm sec (mode open) (drop_while ini_space s) = semm sec (mode open) s.
Proof.
  induction s as [|c s IH]; [reflexivity|]. cbn [drop_while]. destruct (ini_space c) eqn:E; [|reflexivity]. rewrite IH, semm_space by exact E. reflexivity.
Qed.
Lemma semm_open sec s : semm sec Plain ("["%char :: s) = semm sec Open s.
Proof.
  unfold semm. cbn [plines]. change (is_eol "[") with false. cbn iota.
  destruct (plines s) as [|l ls] eqn:El; [exfalso; eapply plines_nonnil; exact El|]. rewrite mread_closed, mread_open. reflexivity.
Qed.
Lemma semm_after sec t : at_eol t -> semm sec Plain t = read_ml sec Plain (pafter t).
Proof. intros H. unfold semm. rewrite plines_at_eol by exact H. apply mread_blank. reflexivity. Qed.
Lemma semm_comment sec c a t : ini_comment c = true -> eol_free (c :: a) -> at_eol t ->
  semm sec Plain ((c :: a) ++ t) = read_ml sec Plain (pafter t).
Proof.
  intros Hc Ha Ht. unfold semm. rewrite plines_split by assumption. cbn [read_ml].
  assert (Hm : strip (c :: a) = c :: tl (strip (c :: a))).
  { rewrite strip_spec. unfold ini_comment in Hc. assert (is_gap c = false) as Hg.
    { apply orb_prop in Hc as [E|E]; apply Ascii.eqb_eq in E; subst; reflexivity. }
    cbn [drop_while]. rewrite Hg. destruct (rdrop_while_split is_gap (c :: a)) as [q [E Hq]].
    destruct (rdrop_while is_gap (c :: a)) as [|x y]; [|cbn in *; congruence].
    cbn in E. rewrite <- E in Hq. cbn in Hq. rewrite Hg in Hq. discriminate. }
  assert (Hb : beqb (strip (c :: a)) ["["%char] = false).
  { apply beqb_false. intros E. rewrite E in Hm. injection Hm as <-. discriminate. }
  rewrite Hb. unfold meaning. rewrite Hm. unfold ini_comment in Hc. rewrite Hc. reflexivity.
Qed.
Lemma mskip_comment_ok f blank s sec : length s <= f ->
  exists s', skip_comment f blank s = Some s' /\ semm sec Plain s' = semm sec Plain s /\ length s' <= length s /\
    (forall c r, s = c :: r -> ini_comment c = true -> length s' < length s).
Proof.
  revert s; induction f as [|f IH]; intros s Hf.
  - destruct s as [|c r]; [|cbn in Hf; lia]. exists []. cbn. split; [reflexivity|]. split; [reflexivity|]. split; [lia|]. intros; discriminate.
  - destruct s as [|c r]; [exists []; cbn; split; [reflexivity|]; split; [reflexivity|]; split; [lia|]; intros; discriminate|].
    cbn [skip_comment]. destruct (ini_comment c) eqn:Ec.
    + destruct (line_end (c :: r)) as [a [t [E [Ha Ht]]]]. assert (to_eol (c :: r) = t) as -> by (rewrite E; apply to_eol_split; assumption).
      destruct a as [|c' a].
      { cbn in E. subst t. cbn in Ht. unfold ini_comment in Ec. exfalso. apply orb_prop in Ec as [E|E]; apply Ascii.eqb_eq in E; subst; discriminate. }
      injection E as <- ->.
      assert (Hsem : semm sec Plain (c :: a ++ t) = read_ml sec Plain (pafter t)) by (apply (semm_comment sec c a t); assumption).
      destruct t as [|d b].
      * exists []. rewrite Hsem. cbn [pafter]. split; [reflexivity|]. split; [reflexivity|]. cbn. split; intros; lia.
      * pose proof (skip_newline_length d b) as Hlen.
        cbn [length] in Hf. rewrite app_length in Hf. cbn [length] in Hf.
        destruct (IH (skip_newline (d :: b))) as [s' [E' [Hs [Hl _]]]]; [lia|].
        exists s'. split; [exact E'|]. rewrite Hs, Hsem. split; [reflexivity|].
        cbn [length]. rewrite app_length. cbn [length]. split; [lia|]. intros; lia.
    + assert (Hno : forall c0 r0, c :: r = c0 :: r0 -> ini_comment c0 = true -> forall P : Prop, P) by (intros ? ? [= <- <-]; congruence).
      assert (Hsame : exists s', Some (c :: r) = Some s' /\ semm sec Plain s' = semm sec Plain (c :: r) /\ length s' <= length (c :: r) /\
         (forall c0 r0, c :: r = c0 :: r0 -> ini_comment c0 = true -> length s' < length (c :: r))).
      { exists (c :: r). split; [reflexivity|]. split; [reflexivity|]. split; [lia|]. intros c0 r0 H1 H2. apply (Hno _ _ H1 H2). }
      destruct blank; [|exact Hsame].
      destruct (drop_while ini_space (c :: r)) as [|d q] eqn:Ed; [exact Hsame|].
      destruct (ini_comment d) eqn:Edc; [|exact Hsame].
      assert (Hlt : length (d :: q) < length (c :: r)).
      { cbn [drop_while] in Ed. destruct (ini_space c) eqn:Es.
        - pose proof (drop_while_length ini_space r) as H. rewrite Ed in H. cbn in *. lia.
        - injection Ed as <- <-. congruence. }
      destruct (IH (d :: q)) as [s' [E' [Hs [Hl _]]]]; [cbn in *; lia|].
      exists s'. split; [exact E'|]. split; [rewrite Hs, <- Ed; apply (semm_spaces sec false)|]. split; [lia|]. intros c0 r0 H1 H2. apply (Hno _ _ H1 H2).
Qed.
Lemma mread_plain sec c l ls : is_gap c = false -> ini_comment c = false -> c <> "["%char ->
  read_ml sec Plain ((c :: l) :: ls) =
  match cut_at "="%char (c :: l) with
  | Some ((_ :: _) as k, v) => match opens (strip v) with Some tag => read_ml sec (Inside (strip k) tag []) ls | None => option_map (cons (IEntry sec (strip k) (strip v))) (read_ml sec Plain ls) end
  | _ => read_ml sec Plain ls
  end.
Proof.
  intros Hg Hc Hb. cbn [read_ml]. unfold meaning. rewrite strip_head by exact Hg.
  destruct (rdrop_head c l Hg) as [s' Es].
  assert (beqb (rdrop_while is_gap (c :: l)) ["["%char] = false) as ->.
  { apply beqb_false. rewrite Es. congruence. }
  pose proof (cut_at_rdrop "="%char (c :: l) eq_refl) as H. rewrite Es in *. unfold ini_comment in Hc. rewrite Hc.
  destruct (Ascii.eqb_spec c "["%char) as [|_]; [contradiction|].
  destruct (cut_at "=" (c :: l)) as [[a b]|].
  - destruct H as [b' [-> [t [-> Ht]]]]. destruct a; [reflexivity|]. rewrite (strip_app_gaps b' t) by exact Ht. reflexivity.
  - rewrite H. reflexivity.
Qed.
(** the lines of a value *)
Lemma span_line s : exists l t, span not_nl s = (l, t) /\ s = l ++ t /\ eol_free l /\ at_eol t.
Proof.
  destruct (line_end s) as (l & t & E & L & T). exists l, t. split; [|auto]. subst s. apply span_unique; [exact L|]. destruct t as [|y z]; cbn in *; [exact I|]. rewrite not_nl_eol, T. reflexivity.
Qed.
Lemma scan_multi_ok sec k tag f : forall s got, length s < f -> exists ls r, scan_multi f tag s = Some (ls, r) /\ multi tag s ls r /\ length r <= length s /\
  semm sec (Inside k tag got) s = match got ++ ls with [] => None | _ => option_map (cons (IEntry sec k (lines_value (got ++ ls)))) (semm sec Plain r) end.
Proof.
  induction f as [|f IH]; intros s got F; [lia|]. cbn [scan_multi]. destruct (span_line s) as (l & t & E & -> & L & T). rewrite E. unfold semm at 1. rewrite (plines_split l t L T). cbn [read_ml].
  assert (O : one_line l). { intros c I. unfold eol_free in L. rewrite forallb_forall in L. specialize (L c I). rewrite not_nl_eol in L. apply negb_true_iff in L. exact L. }
  assert (NLE : forall d b, t = d :: b -> exists n, line_end_before n (skip_newline t) /\ t = n ++ skip_newline t).
  { intros d b ->. cbn [at_eol] in T. unfold is_eol in T. change "010"%char with LF in T. change "013"%char with CR in T. cbn [skip_newline tl]. destruct b as [|e b].
    - apply orb_prop in T as [T|T]; apply Ascii.eqb_eq in T; subst d; [exists [LF]; split; [left; reflexivity|reflexivity]|]. exists [CR]. split; [|reflexivity]. right. right. split; [reflexivity|]. discriminate.
    - destruct (Ascii.eqb_spec d CR) as [->|X]; destruct (Ascii.eqb_spec e LF) as [->|Y]; cbn [andb].
      + exists [CR; LF]. split; [right; left; reflexivity|reflexivity].
      + exists [CR]. split; [|reflexivity]. right. right. split; [reflexivity|]. intros r' [= H _]. congruence.
      + exists [d]. split; [|reflexivity]. left. rewrite orb_false_r in T. apply Ascii.eqb_eq in T. congruence.
      + exists [d]. split; [|reflexivity]. left. rewrite orb_false_r in T. apply Ascii.eqb_eq in T. congruence. }
  destruct (same_nameb_spec l tag) as [SN|SN].
  - exists [], (match t with [] => [] | _ => skip_newline t end). split; [reflexivity|]. rewrite app_nil_r. destruct t as [|d b].
    + rewrite app_nil_r. split; [apply multi_last; assumption|]. split; [cbn; lia|]. destruct got; reflexivity.
    + destruct (NLE d b eq_refl) as (n & N1 & N2). split; [rewrite N2 at 1; apply multi_tag; assumption|]. split; [rewrite app_length; pose proof (skip_newline_length d b); cbn [length] in *; lia|]. destruct got; reflexivity.
  - destruct t as [|d b].
    + exists [l], []. split; [reflexivity|]. split; [rewrite app_nil_r; apply multi_open; assumption|]. split; [cbn; lia|]. cbn [pafter read_ml]. destruct got; [reflexivity|]. cbn [app]. reflexivity.
    + destruct (NLE d b eq_refl) as (n & N1 & N2). pose proof (skip_newline_length d b) as SL. rewrite app_length in F. cbn [length] in F. destruct (IH (skip_newline (d :: b)) (got ++ [l]) ltac:(lia)) as (ls & r & X1 & X2 & X3 & X4). rewrite X1.
      exists (l :: ls), r. split; [reflexivity|]. split; [rewrite N2 at 1; apply multi_more; assumption|]. split; [rewrite app_length; cbn [length]; lia|].
      rewrite <- app_assoc in X4. exact X4.
Qed.
