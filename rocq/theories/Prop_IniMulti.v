(** C106: loading a text with values of several lines. *)
From Coq Require Import Lia.
From Verif Require Import Base P_Base CTypes StringUtils P_Strings P_Text Ini Spec_Ini P_Ini P_IniSave IniBuf P_IniBuf P_IniBuf2 Spec_IniBuf Prop_IniBuf IniMulti Spec_IniMulti P_IniMulti P_IniMulti2 P_IniMulti3 P_IniMulti4 P_IniMulti5 P_IniMulti6 P_IniMulti7.

(** *** Whatever the text and the option, the loader ends, reads and writes only inside its copy
    of the text, and the pointers it keeps are into it. *)
Theorem C106_inside : forall ml data, exists com l b, load_copy_ml ml data = Ok (com, l, b) /\ length b = (if data then 0 else S (length data)) /\
  Forall (fun es => (match e_sec (fst es) with SEmpty => True | SAt p => p < length b end) /\ (match e_kv (fst es) with Some (k, v) => k < length b /\ v < length b | None => True end)) l.
Proof.
  intros ml data. destruct data as [|c data]; [exists None, [], []; split; [reflexivity|]; split; [reflexivity|constructor]|]. unfold load_copy_ml. remember (c :: data) as d eqn:Ed. cbv zeta.
  assert (E : ends (d ++ [NUL]) (length d)) by (split; [rewrite app_length; cbn; lia|rewrite nth_error_app2 by lia; rewrite Nat.sub_diag; reflexivity]).
  destruct (ends_comment (length d) (S (S (length d))) false ltac:(lia) (S (S (length d))) _ 0 0 0 E ltac:(lia) ltac:(lia) ltac:(left; reflexivity)) as (q & v & b & X1 & X2 & X3 & _). rewrite (bbind_run _ _ _ _ _ X1). cbv beta iota.
  destruct (ends_load ml (length d) (S (S (length d))) ltac:(lia) (S (S (length d))) b q SEmpty None X2 ltac:(lia) I ltac:(lia)) as (l & b' & Y1 & [Y2 Y2'] & Y3). rewrite (bbind_run _ _ _ _ _ Y1). exists v, l, b'. split; [reflexivity|].
  split; [subst d; exact Y2|]. eapply Forall_impl; [|exact Y3]. intros [e s] [S0 K]. cbn [fst] in *. split; [destruct (e_sec e); [exact I|cbn in S0; lia]|]. destruct (e_kv e) as [[k w]|]; [lia|exact I].
Qed.
Print Assumptions C106_inside.

(** *** With the option off it is the loader of C77. *)
Theorem C106_off : forall data l b, load_copy data = Ok (l, b) <-> exists com, load_copy_ml false data = Ok (com, l, b).
Proof.
  intros data l b. destruct data as [|c data]; [cbn; split; [intros [= <- <-]; exists None; reflexivity|intros [com [= <- <- <-]]; reflexivity]|].
  unfold load_copy, load_copy_ml. remember (c :: data) as d eqn:Ed. cbv zeta. unfold bbind, rbind. destruct (comment (S (S (length d))) (S (S (length d))) false 0 0 0 (d ++ [NUL])) as [[[p v] b1]|?|?|]; try (split; [discriminate|intros [com X]; discriminate]).
  rewrite off_load. destruct (load_entries (S (S (length d))) (S (S (length d))) p SEmpty None b1) as [[l1 b2]|?|?|]; try (split; [discriminate|intros [com X]; discriminate]).
  cbn. split; [intros [= <- <-]; exists v; reflexivity|intros [com [= _ <- <-]]; reflexivity].
Qed.
Print Assumptions C106_off.

(** *** With the option on the text is read line by line as [text_items_ml] says, unless it has
    a value of several lines that has none: one entry is kept per item, its pointers read the
    section, the key and the value, and the strings are those that were seen when it was added. *)
Lemma load_ml_copy data items : text_items_ml data = Some items -> exists com l b, load_copy_ml true data = Ok (com, l, b) /\ Forall2 (item_rel b) l items.
Proof.
  intros H. destruct data as [|c data]; [cbn in H; injection H as <-; exists None, [], []; split; [reflexivity|constructor]|]. unfold load_copy_ml. remember (c :: data) as d eqn:Ed. cbv zeta. unfold text_items_ml in H. fold (semm (SecNamed []) Plain (cstr d)) in H.
  destruct (mskip_comment_ok (S (length (cstr d))) false (cstr d) (SecNamed []) ltac:(lia)) as (s' & EK & HS & LS & _). rewrite <- HS in H. rewrite <- (ini_scan_ml_ok (S (S (length s'))) (SecNamed []) s' ltac:(lia)) in H.
  assert (LC : length (cstr d) <= length d) by (destruct (cstr_prefix d) as [t Et]; rewrite Et at 2; rewrite app_length; lia).
  assert (LB : length (d ++ [NUL]) = S (length d)) by (rewrite app_length; cbn; lia).
  destruct (comment_ok false (S (S (length d))) _ _ _ EK (S (S (length d))) (d ++ [NUL]) 0 0 0 (at_copy d)) as [p [v [b [E1 [A [L [_ [_ SB]]]]]]]]; [lia|lia|lia|lia|lia|discriminate|].
  rewrite (bbind_run _ _ _ _ _ E1). cbv beta iota. rewrite lem_S.
  assert (LB1 : length b = S (length d)) by (destruct SB; lia).
  destruct (load_ml_ok _ _ _ _ H ltac:(lia) (S (S (length d))) (S (length d)) (S (S (length d))) p SEmpty None b A) as [l [b' [X1 [X2 [X3 [X4 X5]]]]]]; [lia|lia|lia|right; reflexivity|exact I|].
  exists v, l, b'. rewrite (bbind_run _ _ _ _ _ X1). split; [reflexivity|exact X4].
Qed.
Theorem C106_loads : forall data items, text_items_ml data = Some items ->
  exists com l b, load_copy_ml true data = Ok (com, l, b) /\ Forall2 (kept b) (map fst l) items /\ Forall (fun es => reads b (fst es) (snd es)) l.
Proof.
  intros data items H. destruct (load_ml_copy data items H) as (com & l & b & E & R). exists com, l, b. split; [exact E|]. clear E H. split.
  - induction R as [|[e s] i l items H _ IH]; cbn [map]; constructor; [|exact IH]. cbn [fst]. destruct i as [n|sec k v]; cbn [item_rel kept fst snd] in *.
    + destruct H as [A [B _]]. split; [exact A|]. apply section_string, B.
    + destruct H as [pk [pv [m [A [B [C [D [F _]]]]]]]]. exists pk, pv, m. split; [exact A|]. split; [apply at_string, B|]. split; [apply at_string, C|]. split; [apply section_string, D|apply sec_name_names, F].
  - induction R as [|[e s] i l items H _ IH]; constructor; [|exact IH]. cbn [fst snd]. destruct i as [n|sec k v]; cbn [item_rel fst snd] in H; unfold reads.
    + destruct H as [A [B ->]]. cbn [fst snd]. rewrite A. split; [apply section_string, B|exact I].
    + destruct H as [pk [pv [m [A [B [C [D [_ ->]]]]]]]]. cbn [fst snd]. rewrite A. split; [apply section_string, D|]. split; apply at_string; assumption.
Qed.
Print Assumptions C106_loads.

(** *** The option changes nothing for texts without a value that starts with <<< *)
Definition opens_none (i : item) : Prop := match i with IEntry _ _ v => opens v = None | ISection _ => True end.
Lemma sem_skip sec open c b : is_eol c = true -> read_lines sec open (lines (skip_newline (c :: b))) = read_lines sec open (lines b).
Proof.
  intros C. cbn [skip_newline tl]. destruct b as [|d b]; [reflexivity|]. destruct (Ascii.eqb c CR && Ascii.eqb d LF) eqn:E; [|reflexivity]. apply andb_prop in E as [_ E]. apply Ascii.eqb_eq in E. subst d.
  symmetry. apply (sem_space sec open LF b). reflexivity.
Qed.
Lemma plain_same n : forall s sec open, length s < n -> Forall opens_none (read_lines sec open (lines s)) -> read_ml sec (mode open) (plines s) = Some (read_lines sec open (lines s)).
Proof.
  induction n as [|n IH]; intros s sec open L; [lia|]. destruct (line_end s) as (a & t & -> & A & T). rewrite (lines_split a t A T), (plines_split a t A T). rewrite app_length in L.
  assert (NEXT : forall sec' open', Forall opens_none (read_lines sec' open' (after t)) -> read_ml sec' (mode open') (pafter t) = Some (read_lines sec' open' (after t))).
  { intros sec' open'. destruct t as [|c b]; [destruct open'; reflexivity|]. cbn [after pafter]. rewrite <- (sem_skip sec' open' c b T). apply IH. pose proof (skip_newline_length c b). cbn [length] in L. lia. }
  assert (EQ : forall l, (if open then "["%char :: a else a) = l -> Forall opens_none (read_lines sec open (a :: after t)) -> read_ml sec (mode open) (a :: pafter t) = Some (read_lines sec open (a :: after t))); [|apply (EQ _ eq_refl)].
  intros l EL. assert (M : read_ml sec (mode open) (a :: pafter t) = (if beqb (strip l) ["["%char] then read_ml sec Open (pafter t) else match meaning l with LNothing => read_ml sec Plain (pafter t) | LHeader n => option_map (cons (ISection n)) (read_ml (SecNamed n) Plain (pafter t)) | LBroken => read_ml SecBroken Plain (pafter t)
      | LEntry k v => match opens v with Some tag => read_ml sec (Inside k tag []) (pafter t) | None => option_map (cons (IEntry sec k v)) (read_ml sec Plain (pafter t)) end end)).
  { destruct open; cbn [mode read_ml]; rewrite EL; reflexivity. }
  rewrite M. cbn [read_lines]. rewrite EL. clear M. destruct (beqb (strip l) ["["%char]); [apply (NEXT sec true)|]. destruct (meaning l) as [|nm| |k v]; intros H.
  - apply (NEXT sec false H).
  - inversion H. subst. change Plain with (mode false); rewrite (NEXT (SecNamed nm) false) by assumption; reflexivity.
  - apply (NEXT SecBroken false H).
  - inversion H as [|x y O H1]; subst. cbn in O. rewrite O. change Plain with (mode false); rewrite (NEXT sec false) by assumption; reflexivity.
Qed.
Theorem C106_plain : forall data, Forall opens_none (text_items data) -> text_items_ml data = Some (text_items data).
Proof. intros data H. apply (plain_same (S (length (cstr data))) (cstr data) (SecNamed []) false ltac:(lia) H). Qed.
Print Assumptions C106_plain.

(** *** A value of several lines that has none *)
Lemma multi_empty f N tg t p l r b : at_ b (S p) (l ++ LF :: r) -> at_ b tg t -> same_name l t -> l <> [] -> one_line l -> tg + length t < S p -> length b <= N ->
  exists q b', multi_text (S f) N tg (S p) (S p) (S p) b = Ok ((q, Some (S p)), b') /\ at_ b' (S p) (l ++ LF :: r) /\ same_below p b b' /\ at_ b' q r /\ q + length r = S p + length (l ++ LF :: r).
Proof.
  intros A T SN NE O TG LB. cbn [multi_text]. cbv zeta. pose proof (at_bound _ _ _ A) as PB. rewrite app_length in PB. cbn [length] in PB.
  destruct (line_ok b N (S p) (S p) l (LF :: r) A (one_line_free l O) eq_refl (le_n _) ltac:(rewrite app_length; cbn [length]; lia)) as (b1 & X & A1 & SB & Z & SF & PL). rewrite X. clear X. assert (L1 : length b1 = length b) by apply SB.
  rewrite (bbind_run _ _ _ _ _ (rd_str_ok b1 l N (S p) A1 ltac:(lia))). rewrite (bbind_run _ _ _ _ _ (rd_str_ok b1 t N tg (at_same_below _ _ _ _ _ SB TG T) ltac:(lia))).
  rewrite nocase_says. replace (same_nameb l t) with true by (symmetry; unfold same_nameb; rewrite SN; apply beqb_refl). assert (LL : 0 < length l) by (destruct l; [congruence|cbn; lia]).
  destruct (Nat.eqb_spec (S p) (S p + length l)); [lia|]. cbn [back]. rewrite bret_bind. rewrite (bbind_run _ _ _ _ _ (wr_ok b1 p NUL ltac:(lia))). change (Ascii.eqb LF NUL) with false. cbv iota.
  set (b2 := put p NUL b1). assert (L2 : length b2 = length b1) by (apply put_length; lia). rewrite (bbind_run _ _ _ _ _ (wr_ok b2 (S p + length l) LF ltac:(lia))). set (b3 := put (S p + length l) LF b2).
  assert (S3 : same_from (S (S p + length l)) b b3) by (eapply same_from_trans; [exact SF|]; apply (same_from_trans _ _ b2); apply put_from; lia).
  apply at_app in A as (SG & NF & A). assert (A3 : at_ b3 (S p + length l) (LF :: r)) by (apply (restore b); [exact A|exact S3|unfold b3; rewrite put_nth by lia; rewrite Nat.eqb_refl; reflexivity]).
  destruct (skip_nl_ok b3 _ _ A3 ltac:(discriminate)) as (q & Q1 & Q2 & Q3 & Q4). rewrite (bbind_run _ _ _ _ _ Q1). assert (SK : skip_newline (LF :: r) = r) by (destruct r; reflexivity). rewrite SK in Q2, Q3. cbn [length] in Q3.
  exists q, b3. split; [reflexivity|]. split; [|split; [|split; [exact Q2|rewrite app_length; cbn [length]; lia]]].
  - apply at_app. split; [|split; [exact NF|exact A3]]. apply (seg_same_below b2 _ (S p + length l)); [apply put_below; lia|lia|]. pose proof (at_seg _ _ _ A1) as S1. clear -S1 LL L1 PB. assert (G : forall x i, p < i -> seg b1 i x -> seg b2 i x); [|apply G; [lia|exact S1]].
    induction x as [|c x IH]; intros i I H; [exact H|]. cbn [seg] in *. destruct H as [H1 H2]. split; [unfold b2; rewrite put_nth by lia; destruct (Nat.eqb_spec i p); [lia|exact H1]|apply IH; [lia|exact H2]].
  - eapply same_below_trans; [eapply same_below_le; [|exact SB]; lia|]. apply (same_below_trans _ _ b2); apply put_below; lia.
Qed.
Lemma start_comment k x N : clean_key k -> comment (S N) (S N) false 0 0 0 ((k ++ x) ++ [NUL]) = Ok ((0, None), (k ++ x) ++ [NUL]).
Proof.
  intros [K1 [_ (c & r & -> & K3)]]. cbn [comment]. cbv zeta. rewrite (bbind_run (rd 0) _ (((c :: r) ++ x) ++ [NUL]) c (((c :: r) ++ x) ++ [NUL]) eq_refl). assert (IC : ini_comment c = false) by (unfold ini_comment; apply orb_false_iff; split; apply Ascii.eqb_neq; intros ->; apply K3; cbn; auto). rewrite IC. reflexivity.
Qed.
(** The entry gets the tag and all the text behind it for its value. *)
Theorem C106_empty_value : forall k tag tag' more, clean_key k -> clean tag -> tag' <> [] -> one_line tag' -> same_name tag' tag -> ~ In NUL tag' -> ~ In NUL more ->
  exists e l b, load_copy_ml true (k ++ bs " = <<<" ++ tag ++ LF :: tag' ++ LF :: more) = Ok (None, (e, ([], Some (k, tag' ++ LF :: more))) :: l, b).
Proof.
  intros k t t' more K T NE O SN N1 N2. set (d := k ++ bs " = <<<" ++ t ++ LF :: t' ++ LF :: more). assert (DN : exists c r, d = c :: r) by (destruct K as (_ & _ & c & r & -> & _); eexists _, _; reflexivity).
  unfold load_copy_ml. destruct DN as (c0 & r0 & DN). rewrite DN. rewrite <- DN. cbv zeta. pose proof (start_comment k (bs " = <<<" ++ t ++ LF :: t' ++ LF :: more) (S (length d)) K) as SC. fold d in SC. rewrite (bbind_run _ _ _ _ _ SC). clear SC. cbv beta iota.
  assert (NF : ~ In NUL d). { unfold d. intros X. apply in_app_or in X as [X|X]; [destruct K as [[K _] _]; destruct (K _ X) as [_ Y]; exact (Y eq_refl)|]. apply in_app_or in X as [X|X]; [cbn in X; decompose [or] X; try discriminate; contradiction|]. apply in_app_or in X as [X|X]; [destruct T as [T _]; destruct (T _ X) as [_ Y]; exact (Y eq_refl)|].
    destruct X as [X|X]; [discriminate|]. apply in_app_or in X as [X|X]; [exact (N1 X)|]. destruct X as [X|X]; [discriminate|exact (N2 X)]. }
  assert (A : at_ (d ++ [NUL]) 0 d). { pose proof (at_copy d) as A. rewrite cstr_id in A; [exact A|]. unfold nul_free. apply forallb_forall. intros c I. unfold nonnul. apply negb_true_iff, Ascii.eqb_neq. intros ->. contradiction. }
  assert (LB : length (d ++ [NUL]) = S (length d)) by (rewrite app_length; cbn; lia). rewrite lem_S. unfold load_from_ml. set (N := S (S (length d))) in *.
  destruct (find_multi (S (length d)) N 0 SEmpty None (d ++ [NUL]) k t (t' ++ LF :: more) K T ltac:(unfold N; lia) ltac:(unfold N; lia) A) as (b2 & B1 & B2 & B3 & B4 & B5 & FD). change (S (S (length d))) with N in FD.
  set (v := 0 + length k + 6) in *. set (nx := S (v + length t)) in *. assert (L2 : length b2 = S (length d)) by (destruct B4; lia).
  destruct (multi_empty (S (length d)) N v t (v + length t) t' more b2 B3 B2 SN NE O ltac:(lia) ltac:(unfold N; lia)) as (q & b3 & M1 & M2 & M3 & M4 & M5). fold nx in M1, M2, M5. change (S (S (length d))) with N in M1.
  rewrite (step (find_entry_ml true N N 0 SEmpty None) _ _ _ (Some {| e_sec := SEmpty; e_kv := Some (0, nx); e_comment := None |}, q, SEmpty) b3); [|rewrite FD; rewrite (bbind_run _ _ _ _ _ M1); reflexivity]. cbv beta iota.
  assert (L3 : length b3 = length b2) by apply M3. assert (B13 : at_ b3 0 k) by (eapply at_same_below; [exact M3|lia|exact B1]).
  rewrite (step _ _ _ _ _ _ (see_kv N {| e_sec := SEmpty; e_kv := Some (0, nx); e_comment := None |} b3 [] 0 nx k (t' ++ LF :: more) eq_refl eq_refl B13 M2 ltac:(unfold N; lia))).
  pose proof (at_bound _ _ _ M4) as QB. assert (E3 : ends b3 (length d)).
  { split; [lia|]. assert (Q : q + length more = length d). { rewrite M5. unfold nx, v, d. rewrite !app_length. cbn [length]. rewrite !app_length. cbn [length]. change (length (bs " = <<<")) with 6. lia. } rewrite <- Q. rewrite <- (app_nil_r more) in M4. apply at_app in M4 as (_ & _ & M4). exact M4. }
  destruct (ends_load true (length d) N ltac:(unfold N; lia) (S (length d)) b3 q SEmpty None E3 ltac:(lia) I ltac:(lia)) as (l & b' & Y1 & _). rewrite (step _ _ _ _ _ _ Y1). eexists _, l, b'. reflexivity.
Qed.
Print Assumptions C106_empty_value.
(** With an empty tag the loader stops there, and nothing of the rest is loaded; it reports success. *)
Theorem C106_empty_tag : forall k more, clean_key k -> ~ In NUL more -> exists b, load_copy_ml true (k ++ bs " = <<<" ++ LF :: LF :: more) = Ok (None, [], b).
Proof.
  intros k more K N2. set (d := k ++ bs " = <<<" ++ LF :: LF :: more). assert (DN : exists c r, d = c :: r) by (destruct K as (_ & _ & c & r & -> & _); eexists _, _; reflexivity).
  unfold load_copy_ml. destruct DN as (c0 & r0 & DN). rewrite DN. rewrite <- DN. cbv zeta. pose proof (start_comment k (bs " = <<<" ++ LF :: LF :: more) (S (length d)) K) as SC. fold d in SC. rewrite (bbind_run _ _ _ _ _ SC). clear SC. cbv beta iota.
  assert (NF : ~ In NUL d). { unfold d. intros X. apply in_app_or in X as [X|X]; [destruct K as [[K _] _]; destruct (K _ X) as [_ Y]; exact (Y eq_refl)|]. apply in_app_or in X as [X|X]; [cbn in X; decompose [or] X; try discriminate; contradiction|].
    destruct X as [X|[X|X]]; [discriminate|discriminate|exact (N2 X)]. }
  assert (A : at_ (d ++ [NUL]) 0 d). { pose proof (at_copy d) as A. rewrite cstr_id in A; [exact A|]. unfold nul_free. apply forallb_forall. intros c I. unfold nonnul. apply negb_true_iff, Ascii.eqb_neq. intros ->. contradiction. }
  assert (LB : length (d ++ [NUL]) = S (length d)) by (rewrite app_length; cbn; lia). rewrite lem_S. unfold load_from_ml. set (N := S (S (length d))) in *.
  assert (CT : clean []) by (split; [intros c []|reflexivity]).
  destruct (find_multi (S (length d)) N 0 SEmpty None (d ++ [NUL]) k [] (LF :: more) K CT ltac:(unfold N; lia) ltac:(unfold N; lia) A) as (b2 & B1 & B2 & B3 & B4 & B5 & FD). change (S (S (length d))) with N in FD.
  set (v := 0 + length k + 6) in *. cbn [length] in FD, B3. set (nx := S (v + 0)) in *. assert (L2 : length b2 = S (length d)) by (destruct B4; lia). pose proof (at_bound _ _ _ B3) as NB. cbn [length] in NB.
  assert (M : exists b3, multi_text N N v nx nx nx b2 = Ok ((nx, None), b3)).
  { change (multi_text N N) with (multi_text (S (S (length d))) N). cbn [multi_text]. cbv zeta. destruct (line_ok b2 N nx nx [] (LF :: more) B3 eq_refl eq_refl (le_n _) ltac:(cbn [app length]; unfold N; lia)) as (b1 & X & A1 & SB & Z & SF & PL). rewrite X. clear X. assert (L1 : length b1 = length b2) by apply SB.
    rewrite (bbind_run _ _ _ _ _ (rd_str_ok b1 [] N nx A1 ltac:(cbn; unfold N; lia))). assert (B21 : at_ b1 v []) by (eapply at_same_below; [exact SB|cbn; lia|exact B2]). rewrite (bbind_run _ _ _ _ _ (rd_str_ok b1 [] N v B21 ltac:(cbn; unfold N; lia))).
    rewrite nocase_says. change (same_nameb [] []) with true. cbv iota. cbn [length]. rewrite Nat.add_0_r, Nat.eqb_refl. exists b1. reflexivity. }
  destruct M as [b3 M]. rewrite (step (find_entry_ml true N N 0 SEmpty None) _ _ _ (None, nx, SEmpty) b3); [|rewrite FD; rewrite (bbind_run _ _ _ _ _ M); reflexivity]. exists b3. reflexivity.
Qed.
Print Assumptions C106_empty_tag.

Definition text106 : bytes := bs "[A]" ++ LF :: bs "k = <<<End" ++ CR :: LF :: bs " first = 1" ++ CR :: LF :: CR :: LF :: bs "[B]" ++ LF :: bs "END" ++ LF :: bs "j = 2" ++ LF :: bs "m = <<<x" ++ LF :: bs "y".
Example C106_case : text_items_ml text106 = Some [ISection (bs "A"); IEntry (SecNamed (bs "A")) (bs "k") (bs " first = 1" ++ LF :: LF :: bs "[B]"); IEntry (SecNamed (bs "A")) (bs "j") (bs "2"); IEntry (SecNamed (bs "A")) (bs "m") (bs "y")].
Proof. vm_compute. reflexivity. Qed.
Example C106_case2 : exists com l b, load_copy_ml true text106 = Ok (com, l, b) /\ map snd l = [(bs "A", None); (bs "A", Some (bs "k", bs " first = 1" ++ LF :: LF :: bs "[B]")); (bs "A", Some (bs "j", bs "2")); (bs "A", Some (bs "m", bs "y"))].
Proof. eexists _, _, _. split; [vm_compute; reflexivity|]. reflexivity. Qed.
Example C106_case3 : exists com l b, load_copy_ml true (bs "k = <<<T" ++ LF :: bs "t" ++ LF :: bs "j = 2") = Ok (com, l, b) /\ map snd l = [([], Some (bs "k", bs "t" ++ LF :: bs "j = 2")); ([], Some (bs "j", bs "2"))].
Proof. eexists _, _, _. split; [vm_compute; reflexivity|]. reflexivity. Qed.
Example C106_case4 : exists b, load_copy_ml true (bs "k = <<<" ++ LF :: LF :: bs "[lost]" ++ LF :: bs "j = 2") = Ok (None, [], b).
Proof. eexists. vm_compute. reflexivity. Qed.
Example C106_case5 : exists com l b, load_copy_ml false text106 = Ok (com, l, b) /\ length l = 6.
Proof. eexists _, _, _. split; [vm_compute; reflexivity|]. reflexivity. Qed.
