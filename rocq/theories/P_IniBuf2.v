(** The in-place loader, continued. *)
From Verif Require Import Base CTypes StringUtils Ini IniBuf P_Base P_Text Spec_Ini P_Ini P_IniBuf.
From Coq Require Import Lia.

Lemma rd_str_ok b s : forall fuel p, at_ b p s -> length s < fuel -> rd_str fuel p b = Ok (s, b).
Proof.
  induction s as [|c s IH]; intros fuel p H L; destruct fuel as [|f]; cbn [length] in L; try lia; cbn [rd_str at_] in *.
  - rewrite (bbind_run _ _ _ _ _ (rd_ok _ _ _ H)). rewrite Ascii.eqb_refl. reflexivity.
  - destruct H as [A [N H]]. rewrite (bbind_run _ _ _ _ _ (rd_ok _ _ _ A)). destruct (Ascii.eqb_spec c NUL); [congruence|]. rewrite (bbind_run _ _ _ _ _ (IH f (S p) H ltac:(lia))). reflexivity.
Qed.
Lemma string_before b z : nth_error b z = Some NUL -> forall k q, q + k = z -> exists str, at_ b q str /\ q + length str <= z.
Proof.
  intros HZ. assert (LZ : z < length b) by (apply nth_error_Some; congruence). induction k as [|k IH]; intros q E.
  - exists []. cbn [at_ length]. replace q with z by lia. split; [exact HZ|lia].
  - destruct (nth_error b q) as [c|] eqn:Q; [|apply nth_error_None in Q; lia]. destruct (Ascii.eqb_spec c NUL) as [->|N].
    + exists []. cbn [at_ length]. split; [exact Q|lia].
    + destruct (IH (S q) ltac:(lia)) as [str [A L]]. exists (c :: str). cbn [at_ length]. split; [auto|lia].
Qed.
Lemma string_prefix b y : forall q str, seg b q y -> nul_free y -> at_ b q str -> exists r, str = y ++ r.
Proof.
  unfold nul_free. induction y as [|c y IH]; intros q str HS HN HA; [exists str; reflexivity|]. cbn [seg forallb] in HS, HN. destruct HS as [H1 H2]. apply andb_true_iff in HN as [N1 N2].
  destruct str as [|d str]; cbn [at_] in HA.
  - rewrite H1 in HA. injection HA as ->. discriminate.
  - destruct HA as [A1 [_ A2]]. rewrite H1 in A1. injection A1 as <-. destruct (IH _ _ H2 N2 A2) as [r ->]. exists r. reflexivity.
Qed.
Lemma at_unique b p s s' : at_ b p s -> at_ b p s' -> s = s'.
Proof.
  revert p s'. induction s as [|c s IH]; intros p [|c' s'] H H'; cbn [at_] in *; [reflexivity|destruct H' as [A [N _]]; congruence|destruct H as [A [N _]]; congruence|].
  destruct H as [A [N H]], H' as [A' [N' H']]. f_equal; [congruence|eapply IH; eassumption].
Qed.

(** ** What is known of the section pointer: everything before [m] is final *)
Definition sec_rel (b : bytes) (m : nat) (sp : sptr) (sec : section) : Prop :=
  match sec with
  | SecNamed n => match sp with SEmpty => n = [] | SAt q => at_ b q n /\ q + length n < m end
  | SecBroken => exists q x c, sp = SAt q /\ seg b q (x ++ [c]) /\ nul_free x /\ is_nl c = true /\ q + length x < m
  end.
Lemma sec_rel_mono b m m' sp sec : m <= m' -> sec_rel b m sp sec -> sec_rel b m' sp sec.
Proof.
  intros L. destruct sec; cbn [sec_rel].
  - destruct sp; [auto|]. intros [A B]. split; [exact A|lia].
  - intros [q [x [c [A [B [C [D E]]]]]]]. exists q, x, c. repeat (split; [assumption|]). lia.
Qed.
Lemma sec_rel_below b b' m sp sec : same_below m b b' -> sec_rel b m sp sec -> sec_rel b' m sp sec.
Proof.
  intros S. destruct sec; cbn [sec_rel].
  - destruct sp; [auto|]. intros [A B]. split; [eapply at_same_below; eassumption|exact B].
  - intros [q [x [c [A [B [C [D E]]]]]]]. exists q, x, c. split; [exact A|]. split; [eapply seg_same_below; [exact S|rewrite app_length; cbn [length]; lia|exact B]|]. auto.
Qed.
(** the C string the section pointer stands for *)
Definition sec_str (b : bytes) (sp : sptr) (m : bytes) : Prop := match sp with SEmpty => m = [] | SAt q => at_ b q m end.
Definition has_line_end (m : bytes) : Prop := exists c, In c m /\ is_nl c = true.
Definition sec_name (sec : section) (m : bytes) : Prop := match sec with SecNamed n => m = n | SecBroken => has_line_end m end.
Lemma is_nl_nonnul c : is_nl c = true -> nonnul c = true.
Proof. unfold is_nl. intros H. apply orb_true_iff in H as [H|H]; apply Ascii.eqb_eq in H; subst c; reflexivity. Qed.
Lemma sec_rel_str b m sp sec z : sec_rel b m sp sec -> m <= z -> nth_error b z = Some NUL ->
  exists str, sec_str b sp str /\ sec_name sec str /\ (forall q, sp = SAt q -> q + length str <= z).
Proof.
  intros R L Z. destruct sec as [n|]; cbn [sec_rel sec_name] in *.
  - destruct sp as [|q]; [exists []; subst n; repeat split; intros q [=]|]. destruct R as [A B]. exists n. split; [exact A|]. split; [reflexivity|]. intros q' [= <-]. lia.
  - destruct R as [q [x [c [-> [B [C [D E]]]]]]]. destruct (string_before b z Z (z - q) q ltac:(lia)) as [str [S1 S2]]. exists str. split; [exact S1|]. split; [|intros q' [= <-]; exact S2].
    assert (NX : nul_free (x ++ [c])) by (unfold nul_free in *; rewrite forallb_app, C; cbn; rewrite is_nl_nonnul by exact D; reflexivity).
    destruct (string_prefix b (x ++ [c]) q str B NX S1) as [r ->].
    exists c. split; [|exact D]. apply in_or_app. left. apply in_or_app. right. left. reflexivity.
Qed.

(** an entry, the strings seen when it was added, and the text it comes from *)
Definition item_rel (b : bytes) (es : entry * seen) (i : item) : Prop :=
  match i with
  | ISection n => e_kv (fst es) = None /\ sec_str b (e_sec (fst es)) n /\ snd es = (n, None)
  | IEntry sec k v => exists pk pv m, e_kv (fst es) = Some (pk, pv) /\ at_ b pk k /\ at_ b pv v /\
      sec_str b (e_sec (fst es)) m /\ sec_name sec m /\ snd es = (m, Some (k, v))
  end.

Definition load_from (F G N p : nat) (sp : sptr) (com : option nat) : B (list (entry * seen)) :=
  '(e, p, sec) <# find_entry F N p sp com ;;
  match e with
  | None => bret []
  | Some e => s <# see N e ;; r <# load_entries G N p sec None ;; bret ((e, s) :: r)
  end.
Lemma load_entries_S G N p sp com : load_entries (S G) N p sp com = load_from N G N p sp com.
Proof. reflexivity. Qed.
Lemma bbind_assoc {A C D} (m : B A) (k : A -> B C) (h : C -> B D) b : bbind (bbind m k) h b = bbind m (fun a => bbind (k a) h) b.
Proof. unfold bbind. destruct (m b) as [[a b1]| | |]; reflexivity. Qed.
Lemma bbind_ext {A C} (m : B A) (k k' : A -> B C) b : (forall a b1, m b = Ok (a, b1) -> k a b1 = k' a b1) -> bbind m k b = bbind m k' b.
Proof. unfold bbind. destruct (m b) as [[a b1]| | |]; auto. Qed.

(** the rest of [load_from] once an entry is found *)
Definition cont (G N : nat) (x : option entry * nat * sptr) : B (list (entry * seen)) :=
  let '(e, p, sec) := x in
  match e with
  | None => bret []
  | Some e => s <# see N e ;; r <# load_entries G N p sec None ;; bret ((e, s) :: r)
  end.
Lemma load_from_cont F G N p sp com b : load_from F G N p sp com b = bbind (find_entry F N p sp com) (cont G N) b.
Proof. reflexivity. Qed.
(** one step of a computation followed by the rest *)
Lemma step {A C D} (m : B A) (k : A -> B C) (h : C -> B D) b a b1 : m b = Ok (a, b1) -> bbind (bbind m k) h b = bbind (k a) h b1.
Proof. intros H. rewrite bbind_assoc. rewrite (bbind_run m (fun a => bbind (k a) h) b a b1 H). reflexivity. Qed.

Lemma span_len P s : length (fst (span P s)) + length (snd (span P s)) = length s.
Proof. pose proof (span_app P s) as H. destruct (span P s) as [a b]. cbn [fst snd]. rewrite H, app_length. reflexivity. Qed.
Lemma span_sub_free P s : nul_free s -> nul_free (fst (span P s)).
Proof. unfold nul_free. pose proof (span_app P s) as H. destruct (span P s) as [a b]. cbn [fst snd]. rewrite H, forallb_app. intros X. apply andb_true_iff in X. apply X. Qed.
Lemma at_lt_N b p s N : at_ b p s -> length b <= N -> length s < N.
Proof. intros H L. apply at_bound in H. lia. Qed.

Lemma see_sec N e b m : e_kv e = None -> sec_str b (e_sec e) m -> length b <= N -> see N e b = Ok ((m, None), b).
Proof.
  intros K S L. unfold see. rewrite K. assert (R : rd_sec N (e_sec e) b = Ok (m, b)).
  { destruct (e_sec e) as [|q]; cbn [sec_str rd_sec] in *; [subst m; reflexivity|]. apply rd_str_ok; [exact S|]. eapply at_lt_N; eassumption. }
  rewrite (bbind_run _ _ _ _ _ R). reflexivity.
Qed.
Lemma see_kv N e b m k v ks vs : e_kv e = Some (k, v) -> sec_str b (e_sec e) m -> at_ b k ks -> at_ b v vs -> length b <= N -> see N e b = Ok ((m, Some (ks, vs)), b).
Proof.
  intros K S AK AV L. unfold see. rewrite K. assert (R : rd_sec N (e_sec e) b = Ok (m, b)).
  { destruct (e_sec e) as [|q]; cbn [sec_str rd_sec] in *; [subst m; reflexivity|]. apply rd_str_ok; [exact S|]. eapply at_lt_N; eassumption. }
  rewrite (bbind_run _ _ _ _ _ R). rewrite (bbind_run _ _ _ _ _ (rd_str_ok b ks N k AK (at_lt_N _ _ _ _ AK L))). rewrite (bbind_run _ _ _ _ _ (rd_str_ok b vs N v AV (at_lt_N _ _ _ _ AV L))). reflexivity.
Qed.

(** a comment pointer points to a comment character *)
Definition com_ok (b : bytes) (m : nat) (com : option nat) : Prop :=
  match com with None => True | Some q => q < m /\ exists x, nth_error b q = Some x /\ ini_comment x = true end.
Lemma com_ok_mono b m m' com : m <= m' -> com_ok b m com -> com_ok b m' com.
Proof. intros L. destruct com; cbn [com_ok]; [|auto]. intros [A B]. split; [lia|exact B]. Qed.
Lemma com_ok_below b b' m com : same_below m b b' -> com_ok b m com -> com_ok b' m com.
Proof. intros [_ H]. destruct com; cbn [com_ok]; [|auto]. intros [A [x [B C]]]. split; [exact A|]. exists x. rewrite H by exact A. auto. Qed.
Definition com_any (b : bytes) (es : entry * seen) : Prop := com_ok b (length b) (e_comment (fst es)).
Lemma com_ok_any b m com : m <= length b -> com_ok b m com -> com_ok b (length b) com.
Proof. apply com_ok_mono. Qed.
Definition first_at (p : nat) (s : bytes) : nat := p + (length s - length (drop_while ini_space s)).
Definition goal (F G N p : nat) (sp : sptr) (com : option nat) (b s : bytes) (items : list item) : Prop :=
  exists l b', load_from F G N p sp com b = Ok (l, b') /\ same_below p b b' /\ (s = [] -> b' = b) /\ Forall2 (item_rel b') l items /\ Forall (com_any b') l.

Lemma load_ok f : forall sec s items, ini_scan f sec s = Some items -> length s < f ->
  forall F G N p sp com b, at_ b p s -> length s < F -> length s < G -> length b <= N ->
    (drop_while ini_space s = [] \/ sec_rel b (first_at p s) sp sec) -> com_ok b p com -> goal F G N p sp com b s items.
Proof.
  induction f as [|f IH]; intros sec s items HS HL F G N p sp com b HA HF HG HN HR HCM; [lia|].
  destruct F as [|F]; [lia|]. unfold goal. rewrite load_from_cont. cbn [find_entry].
  destruct s as [|c0 s0].
  { cbn in HS. injection HS as <-. cbn [at_] in HA. rewrite (step _ _ _ _ _ _ (rd_ok _ _ _ HA)). rewrite Ascii.eqb_refl. exists [], b. split; [reflexivity|]. split; [apply same_below_refl|]. split; [reflexivity|]. split; constructor. }
  remember (c0 :: s0) as s eqn:Es. assert (H0 : nth_error b p = Some c0 /\ c0 <> NUL) by (subst s; cbn [at_] in HA; tauto). destruct H0 as [H0 NZ].
  rewrite (step _ _ _ _ _ _ (rd_ok _ _ _ H0)). destruct (Ascii.eqb_spec c0 NUL) as [|_]; [congruence|].
  destruct (fwd_ok ini_space b s N p HA (at_lt_N _ _ _ _ HA HN)) as [p1 [E1 [P1 [A1 S1]]]]. rewrite (step _ _ _ _ _ _ E1). clear E1.
  rewrite <- drop_while_span in A1. assert (SL1 := span_len ini_space s). rewrite <- drop_while_span in SL1.
  assert (FA : first_at p s = p1) by (unfold first_at; lia). rewrite FA in HR.
  cbn [ini_scan] in HS. pose proof (drop_while_head ini_space s) as HH. destruct (drop_while ini_space s) as [|c r] eqn:ED.
  { injection HS as <-. cbn [at_] in A1. rewrite (step _ _ _ _ _ _ (rd_ok _ _ _ A1)). rewrite Ascii.eqb_refl. exists [], b. split; [reflexivity|]. split; [apply same_below_refl|]. split; [reflexivity|]. split; constructor. }
  cbn [head_not] in HH. destruct HR as [HR|HR]; [discriminate|].
  assert (NE : s <> []) by (subst s; discriminate). clear Es H0 NZ FA.
  pose proof A1 as A1'. cbn [at_] in A1'. destruct A1' as [C1 [NZ A2]]. rewrite (step _ _ _ _ _ _ (rd_ok _ _ _ C1)). destruct (Ascii.eqb_spec c NUL) as [|_]; [congruence|].
  assert (PP : p <= p1) by lia. cbn [length] in SL1.
  (* conclusion from a smaller text with the copy unchanged below p1 *)
  assert (K : forall F' G' p' sp' com' b1 s' its, goal F' G' N p' sp' com' b1 s' its -> same_below p b b1 -> p <= p' ->
     forall m, m = load_from F' G' N p' sp' com' b1 -> exists l b', m = Ok (l, b') /\ same_below p b b' /\ (s = [] -> b' = b) /\ Forall2 (item_rel b') l its /\ Forall (com_any b') l).
  { intros F' G' p' sp' com' b1 s' its [l [b' [X1 [X2 [X3 X4]]]]] SB LP m ->. exists l, b'. split; [exact X1|]. split; [eapply same_below_trans; [exact SB|eapply same_below_le; [exact LP|exact X2]]|]. split; [intros; congruence|exact X4]. }
  destruct (ini_comment c) eqn:EC.
  { (* a comment *)
    destruct (skip_comment f true (c :: r)) as [s'|] eqn:EK; [|discriminate].
    destruct (skip_comment_ok f true (c :: r) (SecNamed [])) as [s'' [EK' [_ [_ LT]]]]; [cbn [length]; lia|]. rewrite EK in EK'. injection EK' as <-. specialize (LT c r eq_refl EC). cbn [length] in LT.
    destruct (comment_ok true N f (c :: r) s' EK N b p1 p1 p1 A1 (at_lt_N _ _ _ _ A1 HN) HN (le_n _) (le_n _) ltac:(lia)) as [p' [v [b1 [E1 [X1 [X2 [X3 [XV X4]]]]]]]]; [intros _; right; eauto|].
    rewrite (step _ _ _ _ _ _ E1). cbn [length] in X2. refine (K F G p' sp v b1 s' items _ _ _ _ eq_refl); [|eapply same_below_le; [|exact X4]; lia|lia].
    eapply (IH sec s' items HS); [lia|exact X1|lia|lia|destruct X4; lia| |].
    - right. eapply sec_rel_mono; [|eapply sec_rel_below; [eapply same_below_le; [|exact X4]|exact HR]]; [unfold first_at; lia|lia].
    - destruct XV as [->| ->]; cbn [com_ok]; [exact I|]. split; [lia|]. exists c. split; [|exact EC]. destruct X4 as [_ X4]. rewrite X4 by lia. exact C1. }
  destruct (Ascii.eqb_spec c "["%char) as [->|NB].
  { (* a section header *)
    destruct (fwd_ok ini_space b r N (S p1) A2 (at_lt_N _ _ _ _ A2 HN)) as [q [E1 [P2 [A3 S3]]]]. rewrite (step _ _ _ _ _ _ E1). clear E1. rewrite <- drop_while_span in A3. assert (SL2 := span_len ini_space r). rewrite <- drop_while_span in SL2.
    destruct (fwd_ok (fun x => negb (Ascii.eqb x "]"%char) && negb (is_nl x)) b _ N q A3 (at_lt_N _ _ _ _ A3 HN)) as [p2 [E1 [P3 [A4 S4]]]]. rewrite (step _ _ _ _ _ _ E1). clear E1.
    assert (SL3 := span_len (fun x => negb (Ascii.eqb x "]"%char) && negb (is_nl x)) (drop_while ini_space r)). unfold not_nl in HS.
    pose proof (span_snd_head (fun x => negb (Ascii.eqb x "]"%char) && negb (is_nl x)) (drop_while ini_space r)) as HD.
    pose proof (span_sub_free (fun x => negb (Ascii.eqb x "]"%char) && negb (is_nl x)) _ (at_nul_free _ _ _ A3)) as NF.
    destruct (span _ (drop_while ini_space r)) as [name rest]. cbn [fst snd] in *.
    destruct rest as [|d rest].
    - pose proof A4 as A4'. cbn [at_] in A4'. rewrite (step _ _ _ _ _ _ (rd_ok _ _ _ A4')). change (negb (Ascii.eqb NUL "]"%char)) with true. cbv iota.
      refine (K F G p2 (SAt q) com b [] items _ (same_below_refl _ _) _ _ eq_refl); [|lia]. eapply (IH SecBroken [] items HS); [cbn; lia|exact A4|cbn; lia|cbn; lia|exact HN|left; reflexivity|eapply com_ok_mono; [|exact HCM]; lia].
    - pose proof A4 as A4'. cbn [at_] in A4'. destruct A4' as [CD [ND A5]]. rewrite (step _ _ _ _ _ _ (rd_ok _ _ _ CD)). cbn [head_not] in HD. cbn [length] in SL3.
      destruct (Ascii.eqb d "]"%char) eqn:EB; cbn [negb andb] in *.
      + (* closed *)
        destruct (ini_scan f (SecNamed (rdrop_while ini_space name)) (to_eol rest)) as [items'|] eqn:EI; [|discriminate]. injection HS as <-. set (n := rdrop_while ini_space name) in *.
        assert (LN : length n <= length name) by apply rdrop_while_length. pose proof (at_bound _ _ _ A4) as B4. cbn [length] in B4.
        destruct (trim_end_ok b q name p2 N S4 NF ltac:(left; lia) P3 ltac:(lia) ltac:(lia) ltac:(lia)) as [T1 T2]. fold n in T1, T2. rewrite (step _ _ _ _ _ _ T1). clear T1.
        set (b1 := put (q + length n) NUL b) in *. assert (L1 : length b1 = length b) by (apply put_length; lia).
        assert (F1 : same_from (S p2) b b1) by (apply put_from; lia). assert (G1 : same_below p b b1) by (apply put_below; lia).
        pose proof (at_same_from _ _ _ _ _ F1 (le_n _) A5) as A6.
        destruct (fwd_ok (fun x => negb (is_nl x)) b1 rest N (S p2) A6 (at_lt_N _ _ _ N A6 ltac:(lia))) as [p3 [E1 [P4 [A7 _]]]]. rewrite (step _ _ _ _ _ _ E1). clear E1. rewrite <- to_eol_span in A7.
        assert (SL4 := span_len (fun x => negb (is_nl x)) rest). rewrite <- to_eol_span in SL4.
        assert (SS : sec_str b1 (SAt q) n) by exact T2.
        unfold bbind at 1. unfold bret at 1. cbn [cont]. set (e := {| e_sec := SAt q; e_kv := None; e_comment := com |}).
        rewrite (bbind_run _ _ _ _ _ (see_sec N e b1 n eq_refl SS ltac:(lia))).
        destruct G as [|G]; [lia|]. rewrite load_entries_S.
        destruct (IH (SecNamed n) (to_eol rest) items' EI ltac:(lia) N G N p3 (SAt q) None b1 A7) as [l [b' [X1 [X2 [X3 [X4 X5]]]]]]; [apply (at_lt_N _ _ _ N A7); lia|lia|lia| |exact I|].
        { right. cbn [sec_rel]. split; [exact T2|]. unfold first_at. lia. }
        rewrite (bbind_run _ _ _ _ _ X1). exists ((e, (n, None)) :: l), b'. split; [reflexivity|]. split; [eapply same_below_trans; [exact G1|eapply same_below_le; [|exact X2]; lia]|]. split; [intros; congruence|].
        split; [|constructor; [|exact X5]; unfold com_any; cbn [fst e e_comment]; eapply com_ok_any; [|eapply com_ok_below; [eapply same_below_le; [|exact X2]|eapply com_ok_below; [exact G1|exact HCM]]]; [destruct X2; pose proof (at_bound _ _ _ HA); lia|lia]].
        constructor; [|exact X4]. cbn [item_rel fst snd e e_kv e_sec sec_str]. split; [reflexivity|]. split; [|reflexivity]. eapply at_same_below; [exact X2| |exact T2]. lia.
      + (* broken *)
        assert (ENL : is_nl d = true) by (destruct (is_nl d); [reflexivity|discriminate HD]).
        refine (K F G p2 (SAt q) com b (d :: rest) items _ (same_below_refl _ _) _ _ eq_refl); [|lia]. eapply (IH SecBroken (d :: rest) items HS); [cbn [length]; lia|exact A4|cbn [length]; lia|cbn [length]; lia|exact HN| |eapply com_ok_mono; [|exact HCM]; lia].
        right. exists q, name, d. split; [reflexivity|]. split; [apply seg_app; split; [exact S4|]; cbn [seg]; rewrite <- P3; auto|]. split; [exact NF|]. split; [exact ENL|].
        unfold first_at. pose proof (drop_while_length ini_space rest). cbn [drop_while]. rewrite (is_nl_space _ ENL). cbn [length]. lia. }
  (* a key *)
  destruct (fwd_ok (fun x => negb (Ascii.eqb x "="%char) && negb (is_nl x)) b _ N p1 A1 (at_lt_N _ _ _ _ A1 HN)) as [p2 [E1 [P3 [A4 S4]]]]. rewrite (step _ _ _ _ _ _ E1). clear E1.
  assert (SL3 := span_len (fun x => negb (Ascii.eqb x "="%char) && negb (is_nl x)) (c :: r)). unfold not_nl in HS.
  pose proof (span_snd_head (fun x => negb (Ascii.eqb x "="%char) && negb (is_nl x)) (c :: r)) as HD.
  pose proof (span_sub_free (fun x => negb (Ascii.eqb x "="%char) && negb (is_nl x)) _ (at_nul_free _ _ _ A1)) as NF.
  assert (HK : fst (span (fun x => negb (Ascii.eqb x "="%char) && negb (is_nl x)) (c :: r)) = [] \/ exists r', fst (span (fun x => negb (Ascii.eqb x "="%char) && negb (is_nl x)) (c :: r)) = c :: r').
  { cbn [span]. destruct (_ && _); [right; destruct (span _ r); eexists; reflexivity|left; reflexivity]. }
  assert (HC : Ascii.eqb c "="%char = false -> fst (span (fun x => negb (Ascii.eqb x "="%char) && negb (is_nl x)) (c :: r)) <> []).
  { intros X. cbn [span]. rewrite X. cbn [negb andb]. destruct (is_nl c) eqn:ENL; [rewrite (is_nl_space _ ENL) in HH; discriminate|]. cbn [negb]. destruct (span _ r). discriminate. }
  assert (HC2 : Ascii.eqb c "="%char = true -> snd (span (fun x => negb (Ascii.eqb x "="%char) && negb (is_nl x)) (c :: r)) = c :: r).
  { intros X. cbn [span]. rewrite X. reflexivity. }
  destruct (span _ (c :: r)) as [key rest]. cbn [fst snd length] in *.
  assert (LESS : forall d rest', rest = d :: rest' -> Ascii.eqb d "="%char = false -> length rest < S (length r)).
  { intros d rest' -> HE. destruct (Ascii.eqb c "="%char) eqn:EE; [specialize (HC2 eq_refl); injection HC2 as X1 X2; rewrite X1 in HE; congruence|]. specialize (HC eq_refl). destruct key; [congruence|]. cbn [length] in *. lia. }
  destruct rest as [|d rest].
  { pose proof A4 as A4'. cbn [at_] in A4'. rewrite (step _ _ _ _ _ _ (rd_ok _ _ _ A4')). change (negb (Ascii.eqb NUL "="%char)) with true. cbv iota.
    refine (K F G p2 sp com b [] items _ (same_below_refl _ _) _ _ eq_refl); [|lia]. eapply (IH sec [] items HS); [cbn; lia|exact A4|cbn; lia|cbn; lia|exact HN|left; reflexivity|eapply com_ok_mono; [|exact HCM]; lia]. }
  pose proof A4 as A4'. cbn [at_] in A4'. destruct A4' as [CD [ND A5]]. rewrite (step _ _ _ _ _ _ (rd_ok _ _ _ CD)). cbn [head_not] in HD. cbn [length] in SL3.
  destruct (Ascii.eqb d "="%char) eqn:EB; cbn [negb andb] in *.
  2:{ specialize (LESS d rest eq_refl EB). cbn [length] in LESS.
      refine (K F G p2 sp com b (d :: rest) items _ (same_below_refl _ _) _ _ eq_refl); [|lia]. eapply (IH sec (d :: rest) items HS); [cbn [length]; lia|exact A4|cbn [length]; lia|cbn [length]; lia|exact HN| |eapply com_ok_mono; [|exact HCM]; lia].
      right. eapply sec_rel_mono; [|exact HR]. unfold first_at. lia. }
  clear LESS HC HC2. destruct HK as [->|[key' ->]].
  { (* no key before the '=' *)
    cbn [length] in P3. rewrite Nat.add_0_r in P3. subst p2. rewrite Nat.eqb_refl.
    destruct (fwd_ok (fun x => negb (is_nl x)) b _ N p1 A4 (at_lt_N _ _ _ _ A4 HN)) as [p3 [E1 [P4 [A6 _]]]]. rewrite (step _ _ _ _ _ _ E1). clear E1. rewrite <- to_eol_span in A6.
    assert (SL4 := span_len (fun x => negb (is_nl x)) (d :: rest)). rewrite <- to_eol_span in SL4.
    assert (LT : length (to_eol (d :: rest)) <= length rest). { apply Ascii.eqb_eq in EB. subst d. unfold to_eol. cbn [drop_while]. change (not_nl "="%char) with true. cbv iota. apply drop_while_length. }
    cbn [length] in *. refine (K F G p3 sp com b (to_eol (d :: rest)) items _ (same_below_refl _ _) _ _ eq_refl); [|lia]. eapply (IH sec _ items HS); [lia|exact A6|lia|lia|exact HN| |eapply com_ok_mono; [|exact HCM]; lia].
    right. eapply sec_rel_mono; [|exact HR]. unfold first_at. lia. }
  (* an entry *)
  cbn [length] in P3, SL3. destruct (Nat.eqb_spec p1 p2) as [|_]; [lia|].
  set (key := c :: key') in *. set (k := rdrop_while ini_space key) in *. assert (LK : length k <= length key) by apply rdrop_while_length. change (length key) with (S (length key')) in LK.
  pose proof (at_bound _ _ _ A4) as B4. cbn [length] in B4.
  destruct (trim_end_ok b p1 key p2 N S4 NF) as [T1 T2]; [right; exists c, key'; split; [reflexivity|exact HH]|exact P3|lia|lia|change (length key) with (S (length key')); lia|]. fold k in T1, T2.
  rewrite (step _ _ _ _ _ _ T1). clear T1. set (b1 := put (p1 + length k) NUL b) in *. assert (L1 : length b1 = length b) by (apply put_length; lia).
  assert (F1 : same_from (S p2) b b1) by (apply put_from; lia). assert (G1 : same_below p1 b b1) by (apply put_below; lia).
  pose proof (at_same_from _ _ _ _ _ F1 (le_n _) A5) as A6.
  destruct (fwd_ok (fun x => negb (is_nl x) && ini_space x) b1 rest N (S p2) A6 (at_lt_N _ _ _ N A6 ltac:(lia))) as [v [E1 [P4 [A7 _]]]]. rewrite (step _ _ _ _ _ _ E1). clear E1. rewrite <- drop_while_span in A7.
  assert (SL4 := span_len (fun x => negb (is_nl x) && ini_space x) rest). rewrite <- drop_while_span in SL4.
  set (w := drop_while (fun x => negb (is_nl x) && ini_space x) rest) in *.
  destruct (fwd_ok (fun x => negb (is_nl x)) b1 w N v A7 (at_lt_N _ _ _ N A7 ltac:(lia))) as [p3 [E1 [P5 [A8 S8]]]]. rewrite (step _ _ _ _ _ _ E1). clear E1.
  assert (SL5 := span_len (fun x => negb (is_nl x)) w). pose proof (span_sub_free (fun x => negb (is_nl x)) _ (at_nul_free _ _ _ A7)) as NF8.
  change (span (fun c : ascii => negb (is_nl c)) w) with (span (fun x => negb (is_nl x)) w) in HS. change (span not_nl w) with (span (fun x => negb (is_nl x)) w) in HS.
  destruct (span (fun x => negb (is_nl x)) w) as [val rest2]. cbn [fst snd] in *. set (vv := rdrop_while ini_space val) in *. assert (LV : length vv <= length val) by apply rdrop_while_length.
  set (rest3 := match rest2 with [] => [] | _ => skip_newline rest2 end) in *.
  destruct (ini_scan f sec rest3) as [items'|] eqn:EI; [|discriminate]. injection HS as <-.
  destruct p3 as [|q3]; [lia|]. cbn [back]. rewrite (step (bret q3) _ _ b1 q3 b1 eq_refl).
  assert (NX : exists nx, (c <# rd (S q3) ;; bbind (if Ascii.eqb c NUL then bret (S q3) else skip_nl (S q3)) (fun next => bret next)) b1 = Ok (nx, b1) /\ at_ b1 nx rest3 /\ nx + length rest3 = S q3 + length rest2 /\ (rest3 = [] /\ S q3 = nx \/ S q3 < nx)).
  { destruct rest2 as [|e2 rest2].
    - pose proof A8 as A8'. cbn [at_] in A8'. rewrite (bbind_run _ _ _ _ _ (rd_ok _ _ _ A8')). rewrite Ascii.eqb_refl. exists (S q3). split; [reflexivity|]. split; [exact A8|]. split; [reflexivity|]. left. split; reflexivity.
    - pose proof A8 as A8'. cbn [at_] in A8'. destruct A8' as [CE [NE2 _]]. rewrite (bbind_run _ _ _ _ _ (rd_ok _ _ _ CE)). destruct (Ascii.eqb_spec e2 NUL) as [|_]; [congruence|].
      destruct (skip_nl_ok b1 (S q3) (e2 :: rest2) A8 ltac:(discriminate)) as [nx [X1 [X2 [X3 X4]]]]. exists nx. rewrite (bbind_run _ _ _ _ _ X1). split; [reflexivity|]. split; [exact X2|]. split; [exact X3|]. right. exact X4. }
  destruct NX as [nx [E1 [A9 [LX CX]]]].
  pose proof (at_bound _ _ _ A8) as B8.
  destruct (trail_ok b1 v val N q3 S8 ltac:(left; lia) P5 ltac:(lia)) as [q4 [E4 P6]]. fold vv in P6.
  assert (STEP : forall h : _ -> B (list (entry * seen)), bbind (c <# rd (S q3) ;; next <# (if Ascii.eqb c NUL then bret (S q3) else skip_nl (S q3)) ;; q <# trail N v q3 ;; _ <# wr (S q) NUL ;; bret (Some {| e_sec := sp; e_kv := Some (p1, v); e_comment := com |}, next, sp)) h b1
    = h (Some {| e_sec := sp; e_kv := Some (p1, v); e_comment := com |}, nx, sp) (put (v + length vv) NUL b1)).
  { intros h. unfold bbind in E1 |- *. destruct (rd (S q3) b1) as [[x y]| | |]; try discriminate. destruct ((if Ascii.eqb x NUL then bret (S q3) else skip_nl (S q3)) y) as [[x' y']| | |]; try discriminate. unfold bret in E1. injection E1 as -> ->. rewrite E4. rewrite P6. rewrite wr_ok by lia. reflexivity. }
  rewrite STEP. clear STEP E1. set (b2 := put (v + length vv) NUL b1) in *. assert (L2 : length b2 = length b1) by (apply put_length; lia).
  pose proof (cut_ok b1 v val (S q3) S8 NF8 P5 ltac:(lia)) as AV. cbv zeta in AV. fold vv in AV. fold b2 in AV.
  assert (G2 : same_below (S p2) b1 b2) by (apply put_below; lia).
  assert (AK : at_ b2 p1 k) by (eapply at_same_below; [exact G2|lia|exact T2]).
  assert (ZK : nth_error b2 (p1 + length k) = Some NUL). { rewrite <- (app_nil_r k) in AK. apply at_app in AK. destruct AK as [_ [_ AK]]. exact AK. }
  assert (G12 : same_below p1 b b2) by (eapply same_below_trans; [exact G1|eapply same_below_le; [|exact G2]; lia]).
  destruct (sec_rel_str b2 p1 sp sec (p1 + length k) (sec_rel_below _ _ _ _ _ G12 HR) ltac:(lia) ZK) as [m [M1 [M2 M3]]].
  assert (A10 : at_ b2 nx rest3).
  { destruct CX as [[-> <-]|CX]; [|eapply at_same_from; [apply (put_from b1 (v + length vv) NUL nx); lia|lia|exact A9]]. cbn [at_] in *. unfold b2. rewrite put_nth by lia. destruct (Nat.eqb _ _); [reflexivity|exact A9]. }
  set (e := {| e_sec := sp; e_kv := Some (p1, v); e_comment := com |}). cbn [cont].
  rewrite (bbind_run _ _ _ _ _ (see_kv N e b2 m p1 v k vv eq_refl M1 AK AV ltac:(lia))).
  destruct G as [|G]; [lia|]. rewrite load_entries_S.
  destruct (IH sec rest3 items' EI ltac:(lia) N G N nx sp None b2 A10) as [l [b' [X1 [X2 [X3 [X4 X5]]]]]]; [apply (at_lt_N _ _ _ N A10); lia|lia|lia| |exact I|].
  { right. eapply sec_rel_mono; [|eapply sec_rel_below; [exact G12|exact HR]]. unfold first_at. lia. }
  rewrite (bbind_run _ _ _ _ _ X1). exists ((e, (m, Some (k, vv))) :: l), b'. split; [reflexivity|]. split; [eapply same_below_trans; [eapply same_below_le; [exact PP|exact G12]|eapply same_below_le; [|exact X2]; lia]|]. split; [intros; congruence|].
  split; [|constructor; [|exact X5]; unfold com_any; cbn [fst e e_comment]; eapply com_ok_any; [|eapply com_ok_below; [eapply same_below_le; [|exact X2]|eapply com_ok_below; [eapply same_below_le; [exact PP|exact G12]|exact HCM]]]; [destruct X2; pose proof (at_bound _ _ _ HA); lia|lia]].
  constructor; [|exact X4]. cbn [item_rel fst snd e e_kv e_sec]. exists p1, v, m. split; [reflexivity|].
  split; [eapply at_same_below; [exact X2| |exact AK]; lia|].
  split; [destruct CX as [[R3 _]|CX]; [rewrite (X3 R3); exact AV|eapply at_same_below; [exact X2| |exact AV]; lia]|].
  split; [|split; [exact M2|reflexivity]].
  destruct sp as [|qs]; cbn [sec_str] in *; [exact M1|]. specialize (M3 qs eq_refl). eapply at_same_below; [exact X2| |exact M1]. lia.
Qed.
