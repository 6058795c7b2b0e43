(** Proofs about StringUtils.v. *)
From Verif Require Import Base CTypes StringUtils P_Base Spec_Strings.

Lemma isspace_blank c : isspace c = true <-> blank c.
Proof.
  assert (H : forall c, Bool.eqb (isspace c)
     (existsb (Ascii.eqb c) [" "%char; "009"%char; "010"%char; "011"%char; "012"%char; "013"%char]) = true)
    by (apply byte_sweep; vm_compute; reflexivity).
  specialize (H c). apply eqb_prop in H. rewrite H, existsb_exists. unfold blank. split.
  - intros [x [Hx E]]. apply Ascii.eqb_eq in E. subst. exact Hx.
  - intros Hx. exists c. split; [exact Hx|apply Ascii.eqb_refl].
Qed.

Definition trim_back (c : ascii) : bool := isspace c || Ascii.eqb c NUL.
Lemma trim_back_spec c : trim_back c = true <-> blank c \/ c = NUL.
Proof. unfold trim_back. rewrite orb_true_iff, isspace_blank, Ascii.eqb_eq. reflexivity. Qed.

Lemma head_not_spec f (P : ascii -> Prop) (m : bytes) : (forall c, f c = true <-> P c) ->
  head_not f m <-> (forall c r, m = c :: r -> ~ P c).
Proof.
  intros HP. destruct m as [|c m]; cbn; split.
  - intros _ ? ? [=].
  - intros _. exact I.
  - intros H c' r [= <- <-] Hc. apply HP in Hc. congruence.
  - intros H. specialize (H c m eq_refl). destruct (f c) eqn:E; [|reflexivity]. exfalso. apply H, HP, E.
Qed.

Lemma last_not_spec f (P : ascii -> Prop) (m : bytes) : (forall c, f c = true <-> P c) ->
  last_not f m <-> (forall c r, m = r ++ [c] -> ~ P c).
Proof.
  intros HP. unfold last_not. rewrite (head_not_spec f P) by exact HP. split.
  - intros H c r ->. apply (H c (rev r)). rewrite rev_app_distr. reflexivity.
  - intros H c r E. apply (H c (rev r)). rewrite <- (rev_involutive m), E. reflexivity.
Qed.

Lemma forallb_Forall {A} f (P : A -> Prop) (l : list A) : (forall c, f c = true <-> P c) ->
  forallb f l = true <-> Forall P l.
Proof. intros HP. rewrite forallb_forall, Forall_forall. split; intros H c Hc; apply HP, H, Hc. Qed.

Lemma trim_copy_spec s :
  (exists p q, s = p ++ trim_copy s ++ q /\ Forall blank p /\ Forall (fun c => blank c \/ c = NUL) q)
  /\ no_leading_blank (trim_copy s) /\ no_trailing_blank_or_nul (trim_copy s).
Proof.
  unfold trim_copy. fold trim_back. change (fun c : ascii => isspace c || (c =? NUL)%char) with trim_back.
  destruct (drop_while_split isspace s) as [p [E Hp]].
  destruct (rdrop_while_split trim_back (drop_while isspace s)) as [q [E2 Hq]].
  split; [exists p, q; split|split].
  - rewrite <- E2. exact E.
  - split; [apply (forallb_Forall isspace); [apply isspace_blank|exact Hp]|].
    apply (forallb_Forall trim_back); [apply trim_back_spec|exact Hq].
  - refine (proj1 (head_not_spec isspace blank _ isspace_blank) _).
    pose proof (drop_while_head isspace s) as H.
    destruct (rdrop_while trim_back (drop_while isspace s)) as [|c m] eqn:Em; [exact I|].
    rewrite E2 in H. exact H.
  - refine (proj1 (last_not_spec trim_back (fun c => blank c \/ c = NUL) _ trim_back_spec) _). apply rdrop_while_last.
Qed.

Lemma trim_copy_unique s p m q :
  s = p ++ m ++ q -> Forall blank p -> Forall (fun c => blank c \/ c = NUL) q ->
  no_leading_blank m -> no_trailing_blank_or_nul m -> trim_copy s = m.
Proof.
  intros -> Hp Hq Hl Ht. unfold trim_copy. change (fun c : ascii => isspace c || (c =? NUL)%char) with trim_back.
  apply (forallb_Forall isspace) in Hp; [|apply isspace_blank].
  apply (forallb_Forall trim_back) in Hq; [|apply trim_back_spec].
  apply (head_not_spec isspace blank) in Hl; [|apply isspace_blank].
  apply (last_not_spec trim_back (fun c => blank c \/ c = NUL)) in Ht; [|apply trim_back_spec].
  rewrite drop_while_app by exact Hp. destruct m as [|c m].
  - cbn [app]. apply rdrop_while_all. destruct (drop_while_split isspace q) as [z [E _]].
    rewrite E, forallb_app in Hq. apply andb_true_iff in Hq. tauto.
  - rewrite drop_while_id by exact Hl. rewrite rdrop_while_app by exact Hq. apply rdrop_while_id, Ht.
Qed.

Lemma trim_copy_idem s : trim_copy (trim_copy s) = trim_copy s.
Proof.
  destruct (trim_copy_spec s) as [_ [H1 H2]].
  apply (trim_copy_unique _ [] (trim_copy s) []); auto. rewrite app_nil_r. reflexivity.
Qed.

(** ** split_string *)
Lemma split_go_spec sep s cur :
  (forall c, In c cur -> c <> sep) ->
  let ps := split_go sep s cur in
  (forall p, In p ps -> ~ In sep p) /\
  ((rev cur ++ s = join sep ps /\ (ps = [] \/ last ps [] <> [])) \/ (ps <> [] /\ rev cur ++ s = join sep ps ++ [sep])).
Proof.
  revert cur. induction s as [|c s IH]; intros cur Hc; cbn [split_go].
  - destruct cur as [|x cur].
    + cbn. split; [tauto|left; auto].
    + split.
      * intros p [<-|[]] Hin. apply in_rev in Hin. rewrite ?rev_involutive in Hin. exact (Hc _ Hin eq_refl).
      * left. split; [rewrite app_nil_r; reflexivity|]. right. cbn. intros E. apply app_eq_nil in E as [_ E]. discriminate.
  - destruct (Ascii.eqb_spec c sep) as [->|Hn].
    + destruct (IH [] ltac:(cbn; tauto)) as [H1 H2]. cbn [rev app] in H2. split.
      * intros p [<-|Hp]; [|apply H1, Hp]. intros Hin. apply in_rev in Hin. rewrite ?rev_involutive in Hin. exact (Hc _ Hin eq_refl).
      * destruct (split_go sep s []) as [|p ps] eqn:E; cbn [join].
        -- right. split; [discriminate|]. destruct H2 as [[-> _]|[H2 _]]; [reflexivity|contradiction].
        -- destruct H2 as [[H2 H3]|[_ H2]].
           ++ left. rewrite H2. split; [reflexivity|]. right. destruct H3 as [H3|H3]; [discriminate|exact H3].
           ++ right. split; [discriminate|]. rewrite H2, <- app_assoc. reflexivity.
    + destruct (IH (c :: cur)) as [H1 H2].
      * intros x [<-|Hx]; auto.
      * cbn [rev] in H2. rewrite <- app_assoc in H2. cbn in H2. auto.
Qed.

Lemma split_string_sound s sep :
  let ps := split_string s sep in
  (forall p, In p ps -> ~ In sep p) /\
  ((s = join sep ps /\ (ps = [] \/ last ps [] <> [])) \/ (ps <> [] /\ s = join sep ps ++ [sep])).
Proof. exact (split_go_spec sep s [] ltac:(cbn; tauto)). Qed.

Lemma split_go_sepfree sep p cur :
  ~ In sep p -> split_go sep p cur = match rev p ++ cur with [] => [] | l => [rev l] end.
Proof.
  revert cur. induction p as [|c p IH]; intros cur Hp; cbn [split_go rev app].
  - destruct cur; reflexivity.
  - destruct (Ascii.eqb_spec c sep) as [->|Hn]; [exfalso; apply Hp; left; reflexivity|].
    rewrite IH by (intros H; apply Hp; right; exact H). rewrite <- app_assoc. reflexivity.
Qed.

Lemma split_go_sep sep p rest cur :
  ~ In sep p -> split_go sep (p ++ sep :: rest) cur = (rev cur ++ p) :: split_go sep rest [].
Proof.
  revert cur. induction p as [|c p IH]; intros cur Hp; cbn [split_go app].
  - rewrite Ascii.eqb_refl, app_nil_r. reflexivity.
  - destruct (Ascii.eqb_spec c sep) as [->|Hn]; [exfalso; apply Hp; left; reflexivity|].
    rewrite IH by (intros H; apply Hp; right; exact H). cbn. rewrite <- app_assoc. reflexivity.
Qed.

Lemma split_string_complete sep ps s :
  (forall p, In p ps -> ~ In sep p) ->
  ((s = join sep ps /\ (ps = [] \/ last ps [] <> [])) \/ (ps <> [] /\ s = join sep ps ++ [sep])) ->
  split_string s sep = ps.
Proof.
  intros Hf H. unfold split_string. revert s H. induction ps as [|p ps IH]; intros s H.
  - destruct H as [[-> _]|[H _]]; [reflexivity|congruence].
  - destruct ps as [|p2 ps].
    + destruct H as [[-> [H|H]]|[_ ->]]; [discriminate| |]; cbn [join last] in *.
      * rewrite split_go_sepfree by (apply Hf; left; reflexivity). rewrite app_nil_r.
        destruct (rev p) eqn:E; [|rewrite <- E, rev_involutive; reflexivity].
        exfalso. apply H. rewrite <- (rev_involutive p), E. reflexivity.
      * rewrite split_go_sep by (apply Hf; left; reflexivity). reflexivity.
    + assert (Hp : ~ In sep p) by (apply Hf; left; reflexivity).
      assert (E : exists s', s = p ++ sep :: s' /\
        ((s' = join sep (p2 :: ps) /\ ((p2 :: ps) = [] \/ last (p2 :: ps) [] <> [])) \/
         ((p2 :: ps) <> [] /\ s' = join sep (p2 :: ps) ++ [sep]))).
      { destruct H as [[-> [H|H]]|[_ ->]]; [discriminate| |].
        - exists (join sep (p2 :: ps)). split; [reflexivity|]. left. auto.
        - exists (join sep (p2 :: ps) ++ [sep]). split.
          + change (join sep (p :: p2 :: ps)) with (p ++ sep :: join sep (p2 :: ps)).
            rewrite <- app_assoc. reflexivity.
          + right. split; [discriminate|reflexivity]. }
      destruct E as [s' [-> H']]. rewrite split_go_sep by exact Hp. cbn [rev app]. f_equal.
      apply IH; [intros q Hq; apply Hf; right; exact Hq|exact H'].
Qed.

(** ** mstrnlen_s / mstrlcpy *)
Lemma mstrnlen_nul s rest n : nul_free s -> length s <= n -> mstrnlen_s (s ++ NUL :: rest) n = Ok (length s).
Proof.
  revert n; induction s as [|c s IH]; intros n; cbn [app mstrnlen_s length]; [reflexivity|].
  intros H Hn. unfold nul_free in H. cbn [forallb] in H. apply andb_true_iff in H as [Hc H].
  unfold nonnul in Hc at 1. apply negb_true_iff in Hc. rewrite Hc.
  destruct n as [|n]; [lia|]. rewrite IH by (assumption || lia). reflexivity.
Qed.

Lemma mstrnlen_full s n : nul_free s -> n < length s -> mstrnlen_s s n = Ok n.
Proof.
  revert n; induction s as [|c s IH]; intros n H Hn; cbn in Hn; [lia|].
  unfold nul_free in H. cbn [forallb] in H. apply andb_true_iff in H as [Hc H].
  unfold nonnul in Hc at 1. apply negb_true_iff in Hc. cbn [mstrnlen_s]. rewrite Hc.
  destruct n as [|n]; [reflexivity|]. rewrite IH by (assumption || lia). reflexivity.
Qed.

Lemma mstrnlen_app_le s rest n : nul_free s -> n < length s -> mstrnlen_s (s ++ rest) n = Ok n.
Proof.
  revert n; induction s as [|c s IH]; intros n H Hn; cbn in Hn; [lia|].
  unfold nul_free in H. cbn [forallb] in H. apply andb_true_iff in H as [Hc H].
  unfold nonnul in Hc at 1. apply negb_true_iff in Hc. cbn [app mstrnlen_s]. rewrite Hc.
  destruct n as [|n]; [reflexivity|]. rewrite IH by (assumption || lia). reflexivity.
Qed.

Lemma mstrnlen_ub s n : nul_free s -> length s <= n -> mstrnlen_s s n = Undef UbRead.
Proof.
  revert n; induction s as [|c s IH]; intros n H Hn; [reflexivity|].
  unfold nul_free in H. cbn [forallb] in H. apply andb_true_iff in H as [Hc H].
  unfold nonnul in Hc at 1. apply negb_true_iff in Hc. cbn [mstrnlen_s]. rewrite Hc.
  destruct n as [|n]; cbn in Hn; [lia|]. rewrite IH by (assumption || lia). reflexivity.
Qed.

Lemma mstrnlen_min s rest n : nul_free s -> mstrnlen_s (s ++ NUL :: rest) n = Ok (Nat.min (length s) n).
Proof.
  intros H. destruct (Nat.le_gt_cases (length s) n).
  - rewrite mstrnlen_nul by assumption. f_equal. lia.
  - rewrite mstrnlen_app_le by assumption. f_equal. lia.
Qed.

Lemma nul_free_or_nul a : nul_free a \/ exists s rest, a = s ++ NUL :: rest /\ nul_free s.
Proof.
  destruct (cstr_split a) as [E|[t E]].
  - left. rewrite <- E. apply cstr_nul_free.
  - right. exists (cstr a), t. split; [exact E|apply cstr_nul_free].
Qed.

(** every outcome *)
Lemma mstrnlen_cases a n :
  mstrnlen_s a n = Undef UbRead <-> (nul_free a /\ length a <= n).
Proof.
  split.
  - intros H. destruct (nul_free_or_nul a) as [Hf|[s [r [-> Hs]]]].
    + split; [exact Hf|]. destruct (Nat.le_gt_cases (length a) n) as [|Hlt]; [assumption|].
      rewrite mstrnlen_full in H by assumption. discriminate.
    + rewrite mstrnlen_min in H by exact Hs. discriminate.
  - intros [H1 H2]. apply mstrnlen_ub; assumption.
Qed.

Lemma mstrlcpy_go_spec n dst s rest :
  nul_free s -> n < length dst ->
  mstrlcpy_go n dst (s ++ NUL :: rest) =
  Ok (firstn n s ++ NUL :: skipn (S (Nat.min n (length s))) dst, n - Nat.min n (length s)).
Proof.
  revert dst s. induction n as [|n IH]; intros dst s Hs Hd.
  - destruct dst as [|x dst]; cbn in Hd; [lia|]. reflexivity.
  - destruct dst as [|x dst]; cbn in Hd; [lia|].
    destruct s as [|c s]; cbn [app mstrlcpy_go].
    + rewrite Ascii.eqb_refl. cbn. repeat f_equal.
    + unfold nul_free in Hs. cbn [forallb] in Hs. apply andb_true_iff in Hs as [Hc Hs].
      unfold nonnul in Hc at 1. apply negb_true_iff in Hc. rewrite Hc, IH by (assumption || lia). reflexivity.
Qed.

(** complete description of mstrlcpy on a C string source and a large enough
    destination *)
Lemma mstrlcpy_spec dst s rest n :
  nul_free s -> n <= length dst -> 0 < n ->
  mstrlcpy dst (s ++ NUL :: rest) n =
  Ok (firstn (n - 1) s ++ NUL :: skipn (S (Nat.min (n - 1) (length s))) dst, S (Nat.min (n - 1) (length s))).
Proof.
  intros Hs Hd Hn. destruct n as [|n]; [lia|]. cbn [mstrlcpy].
  rewrite mstrlcpy_go_spec by (assumption || lia). cbn [rbind]. rewrite Nat.sub_succ, Nat.sub_0_r.
  f_equal. f_equal. lia.
Qed.

Lemma mstrlcpy_bounded dst src n d k : mstrlcpy dst src n = Ok (d, k) ->
  length d = length dst /\ skipn n d = skipn n dst /\ k <= n.
Proof.
  assert (G : forall n dst src d k, mstrlcpy_go n dst src = Ok (d, k) ->
    length d = length dst /\ skipn (S n) d = skipn (S n) dst /\ k <= n).
  { clear. induction n as [|n IH]; intros dst src d k; cbn [mstrlcpy_go].
    - destruct dst as [|x dst]; [discriminate|]. intros [= <- <-]. auto.
    - destruct src as [|c src]; [discriminate|]. destruct (Ascii.eqb c NUL).
      + destruct dst as [|x dst]; [discriminate|]. intros [= <- <-]. cbn. auto.
      + destruct dst as [|x dst]; [discriminate|]. rewrite rbind_ok. intros [[d' k'] [E [= <- <-]]].
        apply IH in E as [E1 [E2 E3]]. cbn [length skipn]. repeat split; [congruence|exact E2|lia]. }
  destruct n as [|n]; cbn [mstrlcpy].
  - intros [= <- <-]. auto.
  - rewrite rbind_ok. intros [[d' k'] [E [= <- <-]]]. apply G in E as [E1 [E2 E3]]. repeat split; [exact E1|exact E2|destruct k'; lia].
Qed.

(** ** format detection *)
Lemma is_b64_char_spec c : is_b64_char c = true <-> b64_alpha c.
Proof.
  assert (H : forall c, Bool.eqb (is_b64_char c)
     (existsb (Ascii.eqb c) (bs "ABCDEFGHIJKLMNOPQRSTUVWXYZabcdefghijklmnopqrstuvwxyz0123456789+/")) = true)
    by (apply byte_sweep; vm_compute; reflexivity).
  specialize (H c). apply eqb_prop in H. rewrite H, existsb_exists. unfold b64_alpha. split.
  - intros [x [Hx E]]. apply Ascii.eqb_eq in E. subst. exact Hx.
  - intros Hx. exists c. split; [exact Hx|apply Ascii.eqb_refl].
Qed.

Lemma b64_match_unfold a b c d r : b64_match (a :: b :: c :: d :: r) =
      is_b64_char a && is_b64_char b &&
      ((is_b64_char c && is_b64_char d && b64_match r) ||
       match r with
       | [] => Ascii.eqb d "="%char && (Ascii.eqb c "="%char || is_b64_char c)
       | _ => false
       end).
Proof. reflexivity. Qed.

Lemma b64_match_spec s : b64_match s = true <-> b64_text s.
Proof.
  split.
  - assert (G : forall n s, length s <= n -> b64_match s = true -> b64_text s).
    { induction n as [|n IH]; intros [|a [|b [|c [|d r]]]] Hn; cbn [length] in Hn; try lia;
        try (intros; discriminate); try (intros _; exact b64_nil).
      rewrite b64_match_unfold, !andb_true_iff, orb_true_iff, !andb_true_iff.
      intros [[Ha Hb] [[[Hc Hd] Hr]|H]].
      - apply is_b64_char_spec in Ha, Hb, Hc, Hd. constructor; try assumption. apply IH; [lia|exact Hr].
      - destruct r as [|e r]; [|discriminate]. apply andb_true_iff in H as [Hd Hc].
        apply Ascii.eqb_eq in Hd. subst d. apply orb_true_iff in Hc as [Hc|Hc].
        + apply Ascii.eqb_eq in Hc. subst c. apply is_b64_char_spec in Ha, Hb. constructor; assumption.
        + apply is_b64_char_spec in Ha, Hb, Hc. constructor; assumption. }
    apply (G (length s)). lia.
  - induction 1 as [|a b Ha Hb|a b c Ha Hb Hc|a b c d r Ha Hb Hc Hd Hr IH]; [reflexivity|..];
      repeat match goal with H : b64_alpha _ |- _ => apply is_b64_char_spec in H end;
      rewrite b64_match_unfold, ?Ha, ?Hb, ?Hc, ?Hd, ?IH; cbn; rewrite ?orb_true_r; reflexivity.
Qed.

Lemma is_nl_spec c : is_nl c = true <-> line_break c.
Proof. unfold is_nl, line_break. rewrite orb_true_iff, !Ascii.eqb_eq. reflexivity. Qed.

Lemma close_on_line_spec s : close_on_line s = true <->
  exists name q, s = name ++ "]"%char :: q /\ forall c, In c name -> ~ line_break c.
Proof.
  induction s as [|c s IH]; cbn [close_on_line].
  - split; [discriminate|]. intros [n [q [E _]]]. destruct n; discriminate.
  - destruct (Ascii.eqb_spec c "]"%char) as [->|Hn].
    + split; [|reflexivity]. intros _. exists [], s. split; [reflexivity|]. intros c [].
    + destruct (is_nl c) eqn:E.
      * split; [discriminate|]. intros [n [q [E2 H]]]. destruct n as [|x n]; cbn in E2; injection E2 as -> ->; [congruence|].
        exfalso. apply (H x); [left; reflexivity|]. apply is_nl_spec, E.
      * rewrite IH. split.
        -- intros [n [q [-> H]]]. exists (c :: n), q. split; [reflexivity|]. intros x [<-|Hx]; [|apply H, Hx].
           rewrite <- is_nl_spec. congruence.
        -- intros [n [q [E2 H]]]. destruct n as [|x n]; cbn in E2; injection E2 as -> ->; [congruence|].
           exists n, q. split; [reflexivity|]. intros y Hy. apply H. right. exact Hy.
Qed.

Lemma has_section_spec s : has_section s = true <-> bracketed_section s.
Proof.
  unfold bracketed_section. induction s as [|c s IH]; cbn [has_section].
  - split; [discriminate|]. intros [p [n [q [E _]]]]. destruct p; discriminate.
  - rewrite orb_true_iff, andb_true_iff, Ascii.eqb_eq, close_on_line_spec, IH. split.
    + intros [[-> [n [q [-> H]]]]|[p [n [q [-> H]]]]].
      * exists [], n, q. auto.
      * exists (c :: p), n, q. auto.
    + intros [p [n [q [E H]]]]. destruct p as [|x p]; cbn in E; injection E as -> ->.
      * left. split; [reflexivity|]. exists n, q. auto.
      * right. exists p, n, q. auto.
Qed.

Lemma identify_format_spec s :
  (identify_format s = FmtBase64 <-> b64_text s) /\
  (identify_format s = FmtIni <-> ~ b64_text s /\ bracketed_section s) /\
  (identify_format s = FmtUnknown <-> ~ b64_text s /\ ~ bracketed_section s).
Proof.
  unfold identify_format. rewrite <- b64_match_spec, <- has_section_spec.
  destruct (b64_match s), (has_section s); repeat split; intros; try discriminate; try tauto; try (exfalso; tauto);
    intuition congruence.
Qed.

(** ** remove_extension *)
Lemma find_last_none p s : find_last p s = None <-> forallb (fun c => negb (p c)) s = true.
Proof.
  induction s as [|c s IH]; cbn [find_last forallb]; [tauto|].
  destruct (find_last p s) as [i|]; [|destruct IH as [IH _]; rewrite (IH eq_refl)].
  - split; [discriminate|]. intros H. apply andb_true_iff in H as [_ H]. apply IH in H. discriminate.
  - destruct (p c); cbn; split; congruence.
Qed.

Lemma find_last_some p s i : find_last p s = Some i <->
  exists a x b, s = a ++ x :: b /\ length a = i /\ p x = true /\ forallb (fun c => negb (p c)) b = true.
Proof.
  revert i; induction s as [|c s IH]; intros i; cbn [find_last].
  - split; [discriminate|]. intros [a [x [b [E _]]]]. destruct a; discriminate.
  - destruct (find_last p s) as [j|] eqn:Ej.
    + destruct (proj1 (IH j) eq_refl) as [a [x [b [Es [Hl [Hx Hb]]]]]]. split.
      * intros [= <-]. exists (c :: a), x, b. cbn. rewrite Es. auto.
      * intros [a' [x' [b' [E [Hl' [Hx' Hb']]]]]]. destruct a' as [|y a']; cbn in E, Hl'; injection E as -> E.
        -- exfalso. subst b'. rewrite Es, forallb_app in Hb'. cbn in Hb'. rewrite Hx in Hb'. cbn in Hb'.
           rewrite andb_false_r in Hb'. discriminate.
        -- subst i. assert (G : Some j = Some (length a')) by (apply IH; exists a', x', b'; auto). congruence.
    + apply find_last_none in Ej. split.
      * destruct (p c) eqn:Ec; [|discriminate]. intros [= <-]. exists [], c, s. auto.
      * intros [a' [x' [b' [E [Hl' [Hx' Hb']]]]]]. destruct a' as [|y a']; cbn in E, Hl'; injection E as -> E.
        -- rewrite Hx'. congruence.
        -- exfalso. rewrite E, forallb_app in Ej. cbn in Ej. rewrite Hx' in Ej. cbn in Ej. rewrite andb_false_r in Ej. discriminate.
Qed.


Lemma firstn_app_exact {A} (a b : list A) : firstn (length a) (a ++ b) = a.
Proof. rewrite firstn_app, Nat.sub_diag, firstn_all, app_nil_r. reflexivity. Qed.

Lemma is_pathsep_spec c : is_pathsep c = true <-> (c = "/"%char \/ c = "\"%char).
Proof. unfold is_pathsep. rewrite orb_true_iff, !Ascii.eqb_eq. tauto. Qed.

Lemma remove_extension_drop q ext :
  q <> [] -> (forall c, In c ext -> ~ dot_or_sep c) -> q ++ "."%char :: ext <> bs ".." ->
  remove_extension (q ++ "."%char :: ext) = q.
Proof.
  intros Hq He Hd. unfold remove_extension.
  destruct (beqb_spec (q ++ "."%char :: ext) (bs ".")) as [E|_].
  { destruct q as [|c q]; [congruence|]. destruct q; discriminate. }
  destruct (beqb_spec (q ++ "."%char :: ext) (bs "..")) as [E|_]; [contradiction|]. cbn [orb].
  assert (Hf : find_last is_dot (q ++ "."%char :: ext) = Some (length q)).
  { apply find_last_some. exists q, "."%char, ext. repeat split.
    apply forallb_forall. intros c Hc. apply negb_true_iff. unfold is_dot. destruct (Ascii.eqb_spec c "."%char) as [->|]; [|reflexivity].
    exfalso. apply (He _ Hc). left. reflexivity. }
  rewrite Hf. destruct (find_last is_pathsep (q ++ "."%char :: ext)) as [j|] eqn:Ej.
  - apply find_last_some in Ej as [a [x [b [E [Hl [Hx Hb]]]]]].
    assert (length a < length q).
    { destruct (Nat.lt_ge_cases (length a) (length q)) as [|Hge]; [assumption|]. exfalso.
      assert (Hin : nth_error (q ++ "."%char :: ext) (length a) = Some x).
      { rewrite E, nth_error_app2 by lia. rewrite Nat.sub_diag. reflexivity. }
      rewrite nth_error_app2 in Hin by lia. destruct (length a - length q) as [|k]; cbn in Hin.
      - injection Hin as <-. discriminate.
      - apply nth_error_In in Hin. apply (He _ Hin). apply is_pathsep_spec in Hx. unfold dot_or_sep. tauto. }
    subst j. destruct (Nat.leb_spec (length q + 1) (length a)); [lia|]. apply firstn_app_exact.
  - destruct q as [|c q]; [congruence|]. exact (firstn_app_exact (c :: q) _).
Qed.

Lemma remove_extension_keep p :
  (p = bs ".." \/ (forall q ext, p = q ++ "."%char :: ext -> (forall c, In c ext -> ~ dot_or_sep c) -> q = [])) ->
  remove_extension p = p.
Proof.
  intros H. unfold remove_extension. destruct (beqb p (bs ".") || beqb p (bs "..")) eqn:E; [reflexivity|].
  destruct H as [->|H]; [discriminate|].
  destruct (find_last is_dot p) as [i|] eqn:Ei; [|reflexivity].
  apply find_last_some in Ei as [a [x [b [Ep [Hl [Hx Hb]]]]]]. unfold is_dot in Hx. apply Ascii.eqb_eq in Hx. subst x.
  assert (Hnd : forall c, In c b -> c <> "."%char).
  { intros c Hc ->. rewrite forallb_forall in Hb. specialize (Hb _ Hc). discriminate. }
  destruct (find_last is_pathsep p) as [j|] eqn:Ej.
  - apply find_last_some in Ej as [a' [x' [b' [Ep' [Hl' [Hx' Hb']]]]]].
    destruct (Nat.leb_spec (i + 1) j) as [|Hji]; [reflexivity|]. exfalso.
    assert (length a' <> length a).
    { intros El. assert (E1 : nth_error p (length a) = Some "."%char) by (rewrite Ep, nth_error_app2, Nat.sub_diag by lia; reflexivity).
      rewrite Ep', <- El, nth_error_app2, Nat.sub_diag in E1 by lia. cbn in E1. injection E1 as ->. discriminate. }
    assert (Hsep : forall c, In c b -> ~ dot_or_sep c).
    { intros c Hc [->|Hs]; [exact (Hnd _ Hc eq_refl)|].
      assert (Hlt : length a' < length a) by lia.
      assert (Es : skipn (length a') p = x' :: b') by (rewrite Ep', skipn_app, skipn_all, Nat.sub_diag; reflexivity).
      rewrite Ep, skipn_app in Es. replace (length a' - length a) with 0 in Es by lia. cbn [skipn] in Es.
      assert (Hin : In c b').
      { destruct (skipn (length a') a) as [|y z] eqn:Ez; cbn in Es; injection Es as Ex Eb.
        - apply (f_equal (@length _)) in Ez. rewrite skipn_length in Ez. cbn in Ez. lia.
        - rewrite <- Eb. apply in_or_app. right. right. exact Hc. }
      rewrite forallb_forall in Hb'. specialize (Hb' _ Hin). apply negb_true_iff in Hb'.
      assert (is_pathsep c = true) by (apply is_pathsep_spec; exact Hs). congruence. }
    assert (a = []) by (eapply H; eauto). subst a. cbn in *. lia.
  - assert (Hsep : forall c, In c b -> ~ dot_or_sep c).
    { intros c Hc [->|Hs]; [exact (Hnd _ Hc eq_refl)|]. apply find_last_none in Ej. rewrite forallb_forall in Ej.
      assert (is_pathsep c = true) by (apply is_pathsep_spec; exact Hs).
      specialize (Ej c). rewrite H0 in Ej. rewrite Ep in Ej. cbn in Ej.
      enough (false = true) by discriminate. apply Ej, in_or_app. right. right. exact Hc. }
    assert (a = []) by (eapply H; eauto). subst a. cbn in Hl. subst i. reflexivity.
Qed.

Lemma dot_or_sep_dec c : {dot_or_sep c} + {~ dot_or_sep c}.
Proof.
  unfold dot_or_sep. destruct (ascii_dec c "."%char) as [H|H], (ascii_dec c "/"%char) as [G|G], (ascii_dec c "\"%char) as [F|F]; tauto.
Qed.
