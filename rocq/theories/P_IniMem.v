(** Lemmas about the strings of an INI object: which pointers stay readable, and which calls
    read a string that was deleted. *)
From Coq Require Import Lia.
From Verif Require Import Base P_Base CTypes StringUtils Ini P_Ini IniEdit Spec_Ini Spec_IniEdit IniCalls
  P_IniEdit P_IniEdit2 P_IniEdit3 P_IniEdit4 P_IniEdit5 P_IniEdit6 P_IniEdit7 P_IniEdit8 P_IniEdit9 P_IniEdit10 P_IniEdit11.

(** * Pointers that stay *)
Definition kept (st st' : store) : Prop :=
  (forall p s, deref st p = Ok s -> deref st' p = Ok s) /\ st_multi st' = st_multi st.
Lemma kept_refl st : kept st st.
Proof. split; auto. Qed.
Lemma kept_trans a b c : kept a b -> kept b c -> kept a c.
Proof. intros [A A'] [B B']. split; [auto|congruence]. Qed.
(** whatever happens, if the call returns *)
Definition keeps {A} (m : E A) : Prop := forall st a st', m st = Ok (a, st') -> kept st st'.
Lemma keeps_ret {A} (a : A) : keeps (eret a).
Proof. intros st x st' H. injection H as _ <-. apply kept_refl. Qed.
Lemma keeps_ask {A} (f : store -> res A) : keeps (ask f).
Proof. intros st x st' H. unfold ask in H. destruct (f st); try discriminate. injection H as _ <-. apply kept_refl. Qed.
Lemma ebind_inv {A C} (m : E A) (k : A -> E C) st c st' : ebind m k st = Ok (c, st') -> exists a st1, m st = Ok (a, st1) /\ k a st1 = Ok (c, st').
Proof. unfold ebind. destruct (m st) as [[a st1]| | |]; try discriminate. intros H. exists a, st1. auto. Qed.
Lemma keeps_bind {A C} (m : E A) (k : A -> E C) : keeps m -> (forall a, keeps (k a)) -> keeps (ebind m k).
Proof. intros M K st c st' H. apply ebind_inv in H. destruct H as (a & st1 & H1 & H2). apply (kept_trans _ st1); [apply (M _ _ _ H1)|apply (K _ _ _ _ H2)]. Qed.
Lemma keeps_change f : (forall st, st_strings (f st) = st_strings st) -> (forall st, st_multi (f st) = st_multi st) -> keeps (change f).
Proof.
  intros F M st a st' H. injection H as _ <-. split; [|apply M]. intros p s Hp. destruct p; cbn in *; try exact Hp. rewrite F. exact Hp.
Qed.
Lemma keeps_copy p : keeps (copy_string p).
Proof.
  intros st a st' H. unfold copy_string in H. destruct (deref st p) as [s| | |]; try discriminate. cbn [rbind] in H. injection H as _ <-. split; [|reflexivity].
  intros [q|q|i] t Hq; cbn in *; try exact Hq. rewrite copy_at_app. destruct (copy_at i (st_strings st)); [exact Hq|discriminate].
Qed.
Lemma keeps_copy_if b p : keeps (copy_if b p).
Proof. destruct b; [apply keeps_copy|apply keeps_ret]. Qed.
Lemma keeps_copy_opt b p : keeps (copy_opt b p).
Proof. destruct p; [|apply keeps_ret]. apply keeps_bind; [apply keeps_copy_if|intros; apply keeps_ret]. Qed.
Lemma keeps_next : keeps next_order.
Proof. intros st a st' H. injection H as _ <-. split; [|reflexivity]. intros [q|q|i] t Hq; exact Hq. Qed.
Lemma set_keys_strings i l st : st_strings (set_keys i l st) = st_strings st /\ st_multi (set_keys i l st) = st_multi st.
Proof. unfold set_keys. destruct (nth_error (st_data st) i) as [[n x]|]; split; reflexivity. Qed.
Ltac keeps := repeat first [apply keeps_ret | apply keeps_ask | apply keeps_copy | apply keeps_copy_if | apply keeps_copy_opt | apply keeps_next
  | apply keeps_bind; [|intros ?] ].
Lemma keeps_section sec key value comment copy : keeps (add_section sec key value comment copy).
Proof.
  unfold add_section. keeps. destruct a as [i|]; keeps. apply keeps_change; reflexivity.
Qed.
(** AddEntry, when values are not replaced *)
Lemma kept_add st sec key value comment force copy c st' : st_multi st && force = false ->
  add_entry sec key value comment force copy st = Ok (c, st') -> kept st st'.
Proof.
  intros MF H. unfold add_entry in H.
  apply ebind_inv in H. destruct H as (co & st1 & H1 & H). apply keeps_copy_opt in H1. apply (kept_trans _ _ _ H1). assert (M1 := proj2 H1). clear H1.
  apply ebind_inv in H. destruct H as ([i made] & st2 & H1 & H). apply keeps_section in H1. apply (kept_trans _ _ _ H1). assert (M2 := proj2 H1). clear H1.
  destruct key as [k|]; [destruct value as [v|]|]; try (injection H as _ <-; apply kept_refl).
  apply ebind_inv in H. destruct H as (g & st3 & H1 & H). apply keeps_ask in H1. apply (kept_trans _ _ _ H1). assert (M3 := proj2 H1). clear H1.
  apply ebind_inv in H. destruct H as (o & st4 & H1 & H). apply keeps_next in H1. apply (kept_trans _ _ _ H1). assert (M4 := proj2 H1). clear H1.
  apply ebind_inv in H. destruct H as (mu & st5 & H1 & H). unfold ask in H1. cbn [rbind] in H1. injection H1 as H1 E5. subst st5.
  assert (MU : mu && force = false) by (rewrite <- H1, M4, M3, M2, M1; exact MF). rewrite MU in H.
  apply ebind_inv in H. destruct H as ([[g' o'] c'] & st5 & H0 & H).
  assert (E5 : st5 = st4) by (destruct g; injection H0 as _ _ _ E; symmetry; exact E). subst st5. clear H0.
  revert H. generalize st4. clear. intros st H.
  match type of H with ?m st = _ => assert (K : keeps m) end; [|apply (K _ _ _ H)].
  keeps.
  - destruct g'; [destruct (mu && negb force)|]; keeps.
  - assert (P : forall q w, keeps (l <! ask (fun st => insert st {| n_item := q; n_comment := c'; n_order := o' |} w (keys_at i st)) ;; _ <! change (set_keys i l) ;; eret SI_INSERTED)).
    { intros q w. keeps. apply keeps_change; apply set_keys_strings. }
    destruct g' as [j|]; [destruct (mu && negb force); [apply P|]|apply P]. keeps. apply keeps_change; intros x; destruct (nth_error (keys_at i x) j) as [[? ?]|]; try reflexivity; apply set_keys_strings.
Qed.
Lemma kept_load_found copy es : forall st c st', load_found copy es st = Ok (c, st') -> kept st st'.
Proof.
  induction es as [|f es IH]; intros st c st' H; [injection H as _ <-; apply kept_refl|]. cbn [load_found] in H.
  apply ebind_inv in H. destruct H as (x & st1 & H1 & H). apply (kept_trans _ st1); [|apply (IH _ _ _ H)].
  refine (kept_add _ _ _ _ _ _ _ _ _ _ H1). apply andb_false_r.
Qed.
Lemma keeps_load fc es : keeps (load fc es).
Proof.
  unfold load. keeps.
  - destruct a0, fc; keeps. apply keeps_change; reflexivity.
  - intros st c st' H. apply (kept_load_found _ _ _ _ _ H).
  - destruct a; keeps. apply keeps_change; reflexivity.
Qed.

(** calls that delete no string *)
Definition gentle (c : call) : Prop :=
  match c with CDelete _ _ _ | CReset | CSet _ _ _ _ true => False | _ => True end.
Definition gentle_single (c : call) : Prop :=
  match c with CDelete _ _ _ | CReset | CMultiKey true => False | _ => True end.
Definition lasting (st st' : store) : Prop := forall p s, deref st p = Ok s -> deref st' p = Ok s.
Lemma lasting_strings (f : store -> store) st : st_strings (f st) = st_strings st -> lasting st (f st).
Proof. intros F p s H. destruct p; cbn in *; try exact H. rewrite F. exact H. Qed.
Lemma kept_perform c st a st' : (match c with CSet _ _ _ _ f => st_multi st && f = false | CDelete _ _ _ | CReset => False | _ => True end) ->
  perform c st = Ok (a, st') -> lasting st st' /\ (st_multi st' = match c with CMultiKey b => b | _ => st_multi st end).
Proof.
  intros G H. destruct c as [s k v c f|s k p|s k|s k|s| |s| | |b|b|b|c es]; cbn [perform] in H; try contradiction.
  - apply ebind_inv in H. destruct H as (x & st1 & H1 & H). injection H as _ <-. cbn [set_value] in H1. apply (kept_add _ _ _ _ _ _ _ _ _ G H1).
  - match type of H with ?m st = _ => assert (K : keeps m) by (keeps; destruct a0; keeps) end. apply (K _ _ _ H).
  - match type of H with ?m st = _ => assert (K : keeps m) by keeps end. apply (K _ _ _ H).
  - match type of H with ?m st = _ => assert (K : keeps m) by keeps end. apply (K _ _ _ H).
  - match type of H with ?m st = _ => assert (K : keeps m) by keeps end. apply (K _ _ _ H).
  - match type of H with ?m st = _ => assert (K : keeps m) by keeps end. apply (K _ _ _ H).
  - match type of H with ?m st = _ => assert (K : keeps m) by keeps end. apply (K _ _ _ H).
  - injection H as _ <-. split; [|reflexivity]. apply lasting_strings. reflexivity.
  - injection H as _ <-. split; [|reflexivity]. apply lasting_strings. reflexivity.
  - injection H as _ <-. split; [|reflexivity]. apply lasting_strings. reflexivity.
  - apply ebind_inv in H. destruct H as (x & st1 & H1 & H). injection H as _ <-. apply (keeps_load _ _ _ _ _ H1).
Qed.
Lemma lasting_all h : forall st l st', (Forall gentle h \/ st_multi st = false /\ Forall gentle_single h) -> perform_all h st = Ok (l, st') -> lasting st st'.
Proof.
  induction h as [|c h IH]; intros st l st' G H; [injection H as _ <-; intros p s Hp; exact Hp|]. cbn [perform_all] in H.
  apply ebind_inv in H. destruct H as (a & st1 & H1 & H). apply ebind_inv in H. destruct H as (r & st2 & H2 & H). injection H as _ <-.
  assert (X : lasting st st1 /\ (Forall gentle h \/ st_multi st1 = false /\ Forall gentle_single h)).
  { destruct G as [G|[M G]].
    - destruct (kept_perform c st a st1) as [L _]; [|exact H1|].
      + pose proof (Forall_inv G) as X. destruct c as [? ? ? ? f|? ? ?|? ?|? ?|?| |?| | |b|b|b|? ?]; cbn in *; auto. destruct f; [contradiction|apply andb_false_r].
      + split; [exact L|]. left. exact (Forall_inv_tail G).
    - destruct (kept_perform c st a st1) as [L M1]; [|exact H1|].
      + pose proof (Forall_inv G) as X. destruct c as [? ? ? ? f|? ? ?|? ?|? ?|?| |?| | |b|b|b|? ?]; cbn in *; auto. rewrite M. reflexivity.
      + split; [exact L|]. right. split; [|exact (Forall_inv_tail G)]. pose proof (Forall_inv G) as X. rewrite M1. destruct c as [? ? ? ? f|? ? ?|? ?|? ?|?| |?| | |b|b|b|? ?]; try exact M. destruct b; [destruct X|reflexivity]. }
  destruct X as [L G']. intros p s Hp. apply (IH _ _ _ G' H2). apply L. exact Hp.
Qed.

(** * Reading a deleted string *)
Definition gone (i : nat) (st : store) : Prop := copy_at i (st_strings st) = None.
Lemma gone_read i st : gone i st -> deref st (Copied i) = Undef UbRead.
Proof. intros G. cbn. rewrite G. reflexivity. Qed.
(** a computation that returns or reads a deleted string *)
Definition reads {A} (m : E A) : Prop := forall st, (exists a st', m st = Ok (a, st')) \/ m st = Undef UbRead.
Lemma reads_bind {A C} (m : E A) (k : A -> E C) : reads m -> (forall a, reads (k a)) -> reads (ebind m k).
Proof. intros M K st. unfold ebind. destruct (M st) as [(a & st' & ->)| ->]; [apply K|right; reflexivity]. Qed.
Lemma reads_ret {A} (a : A) : reads (eret a).
Proof. intros st. left. exists a, st. reflexivity. Qed.
Lemma reads_change f : reads (change f).
Proof. intros st. left. exists tt, (f st). reflexivity. Qed.
Lemma deref_cases st p : (exists s, deref st p = Ok s) \/ deref st p = Undef UbRead.
Proof. destruct p as [s|s|i]; cbn; eauto. destruct (copy_at i (st_strings st)); eauto. Qed.
Lemma is_less_cases st p q : (exists b, is_less st p q = Ok b) \/ is_less st p q = Undef UbRead.
Proof.
  unfold is_less. destruct (deref_cases st p) as [[s ->]| ->]; [|right; reflexivity]. cbn [rbind]. destruct (deref_cases st q) as [[t ->]| ->]; [|right; reflexivity].
  left. eexists. reflexivity.
Qed.
Lemma reads_copy p : reads (copy_string p).
Proof. intros st. unfold copy_string. destruct (deref_cases st p) as [[s ->]| ->]; [left; eexists _, _; reflexivity|right; reflexivity]. Qed.
Lemma reads_run k l : reads (delete_run k l).
Proof.
  induction l as [|[n v] l IH]; [apply reads_ret|]. cbn [delete_run]. apply reads_bind; [apply reads_change|intros _]. apply reads_bind; [apply reads_change|intros _].
  destruct l as [|[m w] l]; [apply reads_ret|]. apply reads_bind.
  - intros st. unfold ask. destruct (is_less_cases st k (n_item m)) as [[b ->]| ->]; [left; eexists _, _; reflexivity|right; reflexivity].
  - intros b. destruct b; [apply reads_ret|exact IH].
Qed.
Lemma delete_gone p i st u st' : delete_string p st = Ok (u, st') -> (gone i st \/ p = Copied i) -> gone i st' /\ st_fresh st' = st_fresh st.
Proof.
  intros H G. injection H as _ <-. destruct p as [s|s|j]; try (destruct G as [G|G]; [auto|discriminate]). split; [|reflexivity]. unfold gone. cbn.
  rewrite (copy_at_filter (st_strings st) i (fun k => negb (Nat.eqb k j))). destruct (Nat.eqb_spec i j) as [->|N]; [reflexivity|]. destruct G as [G|G]; [exact G|]. congruence.
Qed.
Lemma run_gone k i l : forall st r st', delete_run k l st = Ok (r, st') -> (gone i st \/ match l with (n, v) :: _ => n_item n = Copied i \/ v = Copied i | [] => False end) ->
  gone i st' /\ st_fresh st' = st_fresh st.
Proof.
  induction l as [|[n v] l IH]; intros st r st' H G; [injection H as _ <-; destruct G as [G|[]]; auto|]. cbn [delete_run] in H.
  apply ebind_inv in H. destruct H as (u1 & st1 & H1 & H). apply ebind_inv in H. destruct H as (u2 & st2 & H2 & H).
  assert (G2 : gone i st2 /\ st_fresh st2 = st_fresh st).
  { assert (F1 : st_fresh st1 = st_fresh st) by (injection H1 as _ <-; destruct (n_item n); reflexivity).
    assert (F2 : st_fresh st2 = st_fresh st1) by (injection H2 as _ <-; destruct v; reflexivity).
    split; [|congruence]. destruct G as [G|[G|G]].
    - apply (delete_gone _ i _ _ _ H2). left. apply (delete_gone _ i _ _ _ H1). auto.
    - apply (delete_gone _ i _ _ _ H2). left. apply (delete_gone _ i _ _ _ H1). auto.
    - apply (delete_gone _ i _ _ _ H2). auto. }
  destruct G2 as [G2 F2]. destruct l as [|[m w] l]; [injection H as _ <-; auto|].
  apply ebind_inv in H. destruct H as (b & st3 & H3 & H). assert (st3 = st2) as ->.
  { unfold ask in H3. destruct (is_less st2 k (n_item m)); try discriminate. injection H3 as _ E. symmetry. exact E. }
  destruct b; [injection H as _ <-; auto|]. destruct (IH _ _ _ H (or_introl G2)) as [G3 F3]. split; [exact G3|congruence].
Qed.
(** deleting the pointed-to key itself *)
Lemma run_own k i n v m w r st : n_item n = Copied i -> k = Copied i -> delete_run k ((n, v) :: (m, w) :: r) st = Undef UbRead.
Proof.
  intros N K. cbn [delete_run]. destruct (delete_string_ok st (n_item n)) as (st1 & E1 & _). rewrite (ebind_ok _ _ _ _ _ E1).
  destruct (delete_string_ok st1 v) as (st2 & E2 & _). rewrite (ebind_ok _ _ _ _ _ E2).
  assert (G : gone i st2) by (apply (delete_gone _ i _ _ _ E2); left; apply (delete_gone _ i _ _ _ E1); auto).
  unfold ebind, ask, is_less. rewrite K, (gone_read _ _ G). reflexivity.
Qed.
(** * Searching again *)
Lemma less_kept st st' p q : lasting st st' -> live st p -> live st q -> is_less st' p q = is_less st p q.
Proof. intros L P Q. unfold is_less. rewrite (L _ _ P), (L _ _ Q), P, Q. reflexivity. Qed.
Lemma lower_kept {V} st st' k (l : list (named * V)) i : lasting st st' -> live st k -> live_names st l -> lower_bound st' k i l = lower_bound st k i l.
Proof.
  intros L K H. revert i. induction l as [|[n v] l IH]; intros i; [reflexivity|]. cbn. assert (HN : live st (n_item n)) by exact (Forall_inv H). rewrite (less_kept st st' _ _ L HN K).
  destruct (is_less st (n_item n) k) as [[]| | |]; cbn; try reflexivity. apply IH. exact (Forall_inv_tail H).
Qed.
Lemma find_kept {V} st st' k (l : list (named * V)) : lasting st st' -> live st k -> live_names st l -> find_name st' k l = find_name st k l.
Proof.
  intros L K H. unfold find_name. rewrite (lower_kept st st' k l 0 L K H). destruct (lower_bound st k 0 l) as [i| | |]; cbn; try reflexivity.
  destruct (nth_error l i) as [[n v]|] eqn:E; [|reflexivity]. rewrite (less_kept st st' _ _ L K); [reflexivity|]. apply nth_error_In in E. unfold live_names in H. rewrite Forall_forall in H. apply (H _ E).
Qed.
Lemma equals_total {V} st k (l : list (named * V)) : live st k -> live_names st l -> exists r, equals st k l = Ok r /\ incl r l.
Proof.
  intros K H. induction l as [|[n v] l IH]; [exists []; split; [reflexivity|apply incl_refl]|]. cbn. assert (HN : live st (n_item n)) by exact (Forall_inv H). rewrite (is_less_ok _ _ _ K HN). cbn [rbind].
  destruct (nocase_less _ _); [exists []; split; [reflexivity|intros x []]|]. destruct (IH (Forall_inv_tail H)) as (r & -> & I). exists ((n, v) :: r). split; [reflexivity|].
  intros x [<-|Hx]; [left; reflexivity|right; apply I; exact Hx].
Qed.
Lemma oldest_in l : forall o c, snd (oldest l o c) = c \/ exists e, In e l /\ snd (oldest l o c) = n_comment (fst e).
Proof.
  induction l as [|[n v] l IH]; intros o c; [left; reflexivity|]. cbn [oldest]. destruct (Nat.ltb (n_order n) o).
  - destruct (IH (n_order n) (n_comment n)) as [E|(e & He & E)]; right; [exists (n, v)|exists e]; cbn; auto.
  - destruct (IH o c) as [E|(e & He & E)]; [left; exact E|right; exists e; cbn; auto].
Qed.
Lemma lasting_trans a b c : lasting a b -> lasting b c -> lasting a c.
Proof. intros A B p s H. apply B, A, H. Qed.
Lemma moved_lasting st st' : moved [] st st' -> lasting st st'.
Proof. intros M p s H. destruct (deref_live _ _ _ H) as [L T]. destruct (mv_keep _ _ _ M p L) as [L' T']; [intros i _ []|]. unfold live in L'. rewrite L', T', T. reflexivity. Qed.
Lemma ask_is {A} (f : store -> res A) st a st' : ask f st = Ok (a, st') -> st' = st /\ f st = Ok a.
Proof. unfold ask. destruct (f st); try discriminate. intros H. injection H as -> <-. auto. Qed.

(** SetValue replacing all values, when the name or the value passed is one of the strings it deletes *)
Lemma forced_reads st sec k v comment i l n ve j : own [] st -> st_multi st = true ->
  live st sec -> live st k -> live st v -> live_opt st comment ->
  find_name st sec (st_data st) = Ok (Some i) -> keys_at i st = l ->
  find_name st k l = Ok (Some j) -> nth_error l j = Some (n, ve) ->
  (exists c, n_item n = Copied c /\ k = Copied c \/ ve = Copied c /\ v = Copied c) ->
  add_entry sec (Some k) (Some v) comment true true st = Undef UbRead.
Proof.
  intros O MU LS LK LV LC FS KA FK NJ DANGER. unfold add_entry.
  destruct (copy_opt_ok true [] st comment O LC ltac:(discriminate)) as (co & st1 & E1 & M1 & O1 & T1 & V1). rewrite (ebind_ok _ _ _ _ _ E1).
  pose proof (moved_lasting _ _ M1) as L1. pose proof (live_data_names _ _ (own_live _ _ O)) as LD.
  assert (LKL : live_keyed st l).
  { subst l. unfold keys_at. destruct (nth_error (st_data st) i) as [[m x]|] eqn:E; [|constructor]. pose proof (own_live _ _ O) as H. unfold live_data in H. rewrite Forall_forall in H. apply nth_error_In in E. apply (H _ E). }
  assert (D1 := mv_data _ _ _ M1).
  unfold add_section. rewrite ebind_assoc. rewrite (ebind_ask _ _ _ (Some i)) by (rewrite D1, (find_kept st st1); auto).
  unfold ebind at 1. unfold eret at 1. cbn iota beta.
  assert (K1 : keys_at i st1 = l) by (unfold keys_at in *; rewrite D1; exact KA).
  rewrite (ebind_ask _ _ _ (Some j)) by (rewrite K1, (find_kept st st1); auto using live_keyed_names).
  unfold ebind at 1. unfold next_order at 1. cbn iota beta. set (st2 := with_order (S (st_order st1)) st1).
  rewrite (ebind_ask _ _ st2 true) by (cbn; f_equal; rewrite (mv_multi _ _ _ M1); exact MU). cbn [andb].
  assert (L2 : lasting st st2) by (apply (lasting_trans _ st1); [exact L1|apply lasting_strings; reflexivity]).
  assert (LIVE : forall p, live st p -> live st2 p) by (intros p Hp; apply (deref_live _ _ _ (L2 _ _ Hp))).
  assert (K2 : keys_at i st2 = l) by exact K1.
  assert (LN2 : live_names st2 (skipn j l)).
  { apply Forall_forall. intros e He. apply LIVE. pose proof (live_keyed_names _ _ LKL) as H. unfold live_names in H. rewrite Forall_forall in H. apply H.
    rewrite <- (firstn_skipn j l). apply in_or_app. auto. }
  destruct (equals_total st2 k (skipn j l) (LIVE _ LK) LN2) as (r & ER & IR).
  rewrite ebind_assoc, (ebind_ask _ _ _ r) by (rewrite K2; exact ER).
  assert (OC : live_opt st (snd (oldest r (S (st_order st1)) None))).
  { destruct (oldest_in r (S (st_order st1)) None) as [-> |(e & He & ->)]; [exact I|]. unfold live_keyed in LKL. rewrite Forall_forall in LKL.
    destruct (LKL e) as [[_ H] _]; [rewrite <- (firstn_skipn j l); apply in_or_app; right; apply IR; exact He|]. exact H. }
  destruct (oldest r (S (st_order st1)) None) as [o c]. cbn [snd] in OC. rewrite ebind_assoc.
  assert (COM : exists q st5, (match c with
                           | None => eret co
                           | Some c => _ <! (match co with Some q => delete_string q | None => eret tt end) ;; c <! copy_string c ;; eret (Some c)
                           end) st2 = Ok (q, st5) /\ lasting st st5 /\ st_data st5 = st_data st /\ st_fresh st <= st_fresh st5).
  { pose proof (mv_le _ _ _ M1) as FR. destruct c as [c|]; [|exists co, st2; split; [reflexivity|]; split; [exact L2|]; split; [exact D1|exact FR]].
    assert (X : exists st3, (match co with Some q => delete_string q | None => eret tt end) st2 = Ok (tt, st3) /\ lasting st st3 /\ st_data st3 = st_data st /\ st_fresh st3 = st_fresh st1).
    { destruct comment as [cm|].
      - assert (CO : exists z, co = Some (Copied z) /\ z = st_fresh st).
        { cbn [copy_opt copy_if] in E1. apply ebind_inv in E1. destruct E1 as (q & stx & Y1 & Y2). injection Y2 as <- <-. unfold copy_string in Y1. destruct (deref st cm); try discriminate. cbn [rbind] in Y1. injection Y1 as <- _. eauto. }
        destruct CO as (z & -> & Z). destruct (delete_string_ok st2 (Copied z)) as (st3 & E3 & M3 & F3). exists st3. split; [exact E3|].
        assert (NZ : forall p, live st p -> forall x, In x (id_of p) -> ~ In x (id_of (Copied z))).
        { intros p Hp x Hx [E|[]]. pose proof (live_lt st [] p x O Hp Hx). lia. }
        assert (LL : lasting st st3).
        { intros p s Hs. destruct (deref_live _ _ _ Hs) as [Hp Tp]. destruct (mv_keep _ _ _ M3 p (LIVE _ Hp) (NZ p Hp)) as [A B]. unfold live in A. rewrite A, B.
          f_equal. destruct (deref_live _ _ _ (L2 _ _ Hs)) as [_ ->]. reflexivity. }
        split; [exact LL|]. split; [rewrite (mv_data _ _ _ M3); exact D1|exact F3].
      - assert (co = None) as -> by (cbn in E1; injection E1 as <- _; reflexivity). exists st2. split; [reflexivity|]. auto 6. }
    destruct X as (st3 & E3 & L3 & D3 & F3). rewrite (ebind_ok _ _ _ _ _ E3). cbn [live_opt] in OC.
    assert (E4 : copy_string c st3 = Ok (Copied (st_fresh st3), with_strings (st_strings st3 ++ [(st_fresh st3, text st c)]) (S (st_fresh st3)) st3)).
    { unfold copy_string. rewrite (L3 _ _ OC). reflexivity. }
    rewrite (ebind_ok _ _ _ _ _ E4). eexists _, _. split; [reflexivity|]. split; [|split; [exact D3|cbn; lia]].
    apply (lasting_trans _ _ _ L3). exact (proj1 (keeps_copy _ _ _ _ E4)). }
  destruct COM as (q & st5 & E5 & L5 & D5 & F5). rewrite (ebind_ok _ _ _ _ _ E5). rewrite ebind_assoc.
  assert (K5 : keys_at i st5 = l) by (unfold keys_at in *; rewrite D5; exact KA).
  unfold delete. rewrite ebind_assoc, (ebind_ask _ _ _ (Some i)) by (rewrite D5, (find_kept st st5); auto).
  assert (NI : exists m, nth_error (st_data st) i = Some (m, l)).
  { unfold keys_at in KA. destruct (nth_error (st_data st) i) as [[m x]|]; [exists m; subst; reflexivity|]. subst l. destruct j; discriminate. }
  destruct NI as [m NI].
  rewrite ebind_assoc, (ebind_ask _ _ _ (Some (m, l))) by (rewrite D5, NI; reflexivity).
  rewrite ebind_assoc, (ebind_ask _ _ _ (Some j)) by (apply (eq_trans (find_kept st st5 k l L5 LK (live_keyed_names _ _ LKL))); exact FK).
  rewrite ebind_assoc.
  assert (SK : exists t, skipn j l = (n, ve) :: t).
  { clear -NJ. revert l NJ. induction j as [|j IH]; intros [|e l] NJ; try discriminate; [injection NJ as ->; eexists; reflexivity|]. apply IH. exact NJ. }
  destruct SK as [t SK]. rewrite SK.
  destruct (reads_run k ((n, ve) :: t) st5) as [(r6 & st6 & E6)|E6]; [|unfold ebind at 1; rewrite E6; reflexivity].
  rewrite (ebind_ok _ _ _ _ _ E6).
  assert (GONE : exists c, gone c st6 /\ c < st_fresh st6 /\ (k = Copied c \/ v = Copied c)).
  { destruct DANGER as [z DANGER]. exists z. destruct (run_gone k z _ _ _ _ E6) as [G F].
    - right. destruct DANGER as [[A _]|[A _]]; auto.
    - split; [exact G|]. split; [|destruct DANGER as [[_ A]|[_ A]]; auto]. rewrite F.
      assert (z < st_fresh st); [|lia]. destruct DANGER as [[_ A]|[_ A]]; [apply (live_lt st [] k z O LK)|apply (live_lt st [] v z O LV)]; rewrite A; left; reflexivity. }
  unfold ebind at 1. unfold change at 1. cbv beta iota. set (kvs := firstn j l ++ r6). set (st7 := with_data (replace_at i (m, kvs) (st_data st6)) st6).
  assert (TR : (match kvs with [] => eret true | _ => eret true end) = @eret bool true) by (destruct kvs; reflexivity).
  cbn [delete_section]. rewrite TR. unfold ebind at 1. unfold eret at 1. cbn iota beta. unfold ebind at 1. unfold eret at 1. cbn iota beta. cbn [copy_if].
  fold st7. destruct GONE as (z & G & F & KV). assert (G7 : gone z st7) by exact G.
  destruct KV as [-> | ->].
  - unfold ebind at 1. unfold copy_string at 1. rewrite (gone_read _ _ G7). reflexivity.
  - destruct (reads_copy k st7) as [(k' & st8 & E8)|E8]; [|unfold ebind at 1; rewrite E8; reflexivity]. rewrite (ebind_ok _ _ _ _ _ E8).
    assert (G8 : gone z st8).
    { unfold copy_string in E8. destruct (deref st7 k); try discriminate. cbn [rbind] in E8. injection E8 as _ <-. unfold gone. cbn [st_strings with_strings]. rewrite copy_at_app.
      change (copy_at z (st_strings st6) = None) in G. change (st_strings st7) with (st_strings st6). rewrite G. change (st_fresh st7) with (st_fresh st6). destruct (Nat.eqb_spec (st_fresh st6) z); [lia|reflexivity]. }
    unfold ebind at 1. unfold copy_string at 1. rewrite (gone_read _ _ G8). reflexivity.
Qed.

(** * Without a loaded text every string is a copy *)
Definition copied (p : ptr) : Prop := exists i, p = Copied i.
Definition copied_line (e : named * ptr) : Prop := copied (n_item (fst e)) /\ copied (snd e).
Definition copied_part (e : named * keyed) : Prop := copied (n_item (fst e)) /\ Forall copied_line (snd e).
Definition all_copied (st : store) : Prop := Forall copied_part (st_data st).
Definition holds {A} (m : E A) (R : A -> Prop) : Prop := forall st a st', all_copied st -> m st = Ok (a, st') -> all_copied st' /\ R a.
Lemma holds_bind {A C} (m : E A) (k : A -> E C) R S0 : holds m R -> (forall a, R a -> holds (k a) S0) -> holds (ebind m k) S0.
Proof. intros M K st c st' Q H. apply ebind_inv in H. destruct H as (a & st1 & H1 & H2). destruct (M _ _ _ Q H1) as [Q1 R1]. apply (K a R1 _ _ _ Q1 H2). Qed.
Lemma holds_ret {A} (a : A) (R : A -> Prop) : R a -> holds (eret a) R.
Proof. intros Ra st x st' Q H. injection H as <- <-. auto. Qed.
Lemma holds_ask {A} (f : store -> res A) (R : A -> Prop) : (forall st a, all_copied st -> f st = Ok a -> R a) -> holds (ask f) R.
Proof. intros F st a st' Q H. apply ask_is in H. destruct H as [-> H]. split; [exact Q|]. apply (F st a Q H). Qed.
Lemma holds_same {A} (m : E A) (R : A -> Prop) : (forall st a st', m st = Ok (a, st') -> st_data st' = st_data st /\ R a) -> holds m R.
Proof. intros F st a st' Q H. destruct (F _ _ _ H) as [D Ra]. split; [unfold all_copied; rewrite D; exact Q|exact Ra]. Qed.
Lemma holds_weaken {A} (m : E A) (R R' : A -> Prop) : (forall a, R a -> R' a) -> holds m R -> holds m R'.
Proof. intros W M st a st' Q H. destruct (M _ _ _ Q H). auto. Qed.
Lemma holds_copy p : holds (copy_string p) copied.
Proof. apply holds_same. intros st a st' H. unfold copy_string in H. destruct (deref st p); try discriminate. cbn [rbind] in H. injection H as <- <-. split; [reflexivity|eexists; reflexivity]. Qed.
Lemma holds_delete_string p : holds (delete_string p) (fun _ => True).
Proof. apply holds_same. intros st a st' H. injection H as _ <-. destruct p; split; reflexivity || exact I. Qed.
Lemma holds_next : holds next_order (fun _ => True).
Proof. apply holds_same. intros st a st' H. injection H as _ <-. split; [reflexivity|exact I]. Qed.
Lemma insert_forall {V} (P : named * V -> Prop) st n v l : P (n, v) -> Forall P l -> forall l', insert st n v l = Ok l' -> Forall P l'.
Proof.
  intros N. induction l as [|[m w] l IH]; intros F l' H; cbn in H; [injection H as <-; auto|]. destruct (is_less st (n_item n) (n_item m)) as [b| | |]; try discriminate. cbn [rbind] in H.
  destruct b; [injection H as <-; auto|]. destruct (insert st n v l) as [r| | |]; try discriminate. cbn [rbind] in H. injection H as <-.
  constructor; [exact (Forall_inv F)|]. apply IH; [exact (Forall_inv_tail F)|reflexivity].
Qed.
Lemma firstn_forall {A} (P : A -> Prop) i l : Forall P l -> Forall P (firstn i l).
Proof. intros F. rewrite Forall_forall in *. intros x Hx. apply F. rewrite <- (firstn_skipn i l). apply in_or_app. auto. Qed.
Lemma skipn_forall {A} (P : A -> Prop) i l : Forall P l -> Forall P (skipn i l).
Proof. intros F. rewrite Forall_forall in *. intros x Hx. apply F. rewrite <- (firstn_skipn i l). apply in_or_app. auto. Qed.
Lemma replace_forall {A} (P : A -> Prop) i x l : P x -> Forall P l -> Forall P (replace_at i x l).
Proof. intros X F. unfold replace_at. apply Forall_app. split; [apply firstn_forall; exact F|]. constructor; [exact X|]. apply skipn_forall. exact F. Qed.
Lemma erase_forall {A} (P : A -> Prop) i l : Forall P l -> Forall P (erase_at i l).
Proof. intros F. unfold erase_at. apply Forall_app. split; [apply firstn_forall; exact F|]. apply skipn_forall. exact F. Qed.
Lemma nth_forall {A} (P : A -> Prop) i l x : Forall P l -> nth_error l i = Some x -> P x.
Proof. intros F N. apply nth_error_In in N. rewrite Forall_forall in F. apply F. exact N. Qed.
Lemma keys_copied i st : all_copied st -> Forall copied_line (keys_at i st).
Proof. intros Q. unfold keys_at. destruct (nth_error (st_data st) i) as [[n l]|] eqn:E; [|constructor]. apply (nth_forall _ _ _ _ Q E). Qed.
Lemma set_keys_copied i l st : all_copied st -> Forall copied_line l -> all_copied (set_keys i l st).
Proof.
  intros Q F. unfold set_keys. destruct (nth_error (st_data st) i) as [[n x]|] eqn:E; [|exact Q]. unfold all_copied. cbn. apply replace_forall; [|exact Q]. split; [apply (nth_forall _ _ _ _ Q E)|exact F].
Qed.
Lemma holds_run k l : Forall copied_line l -> holds (delete_run k l) (Forall copied_line).
Proof.
  induction l as [|[n v] l IH]; intros F; [apply holds_ret; constructor|]. cbn [delete_run]. eapply holds_bind; [apply holds_delete_string|intros _ _]. eapply holds_bind; [apply holds_delete_string|intros _ _].
  destruct l as [|[m w] l]; [apply holds_ret; constructor|]. eapply (holds_bind _ _ (fun _ => True)); [apply holds_ask; auto|intros b _].
  destruct b; [apply holds_ret; exact (Forall_inv_tail F)|]. apply IH. exact (Forall_inv_tail F).
Qed.
Lemma holds_delete_strings l : holds (delete_strings l) (fun _ => True).
Proof.
  induction l as [|[n v] l IH]; [apply holds_ret; exact I|]. cbn [delete_strings]. eapply holds_bind; [apply holds_delete_string|intros _ _]. eapply holds_bind; [apply holds_delete_string|intros _ _]. exact IH.
Qed.
Lemma holds_change f : (forall st, all_copied st -> all_copied (f st)) -> holds (change f) (fun _ => True).
Proof. intros F st a st' Q H. injection H as _ <-. auto. Qed.
Lemma holds_delete_section i n : holds (delete_section i n) (fun _ => True).
Proof.
  unfold delete_section. eapply holds_bind; [apply holds_delete_string|intros _ _]. eapply holds_bind; [apply holds_change|intros _ _; apply holds_ret; exact I].
  intros st Q. apply erase_forall. exact Q.
Qed.
Lemma holds_delete sec key prune : holds (delete sec key prune) (fun _ => True).
Proof.
  unfold delete. destruct sec as [sec|]; [|apply holds_ret; exact I].
  eapply (holds_bind _ _ (fun _ => True)); [apply holds_ask; auto|intros [i|] _]; [|apply holds_ret; exact I].
  eapply (holds_bind _ _ (fun e => match e with Some x => copied_part x | None => True end)).
  { apply holds_ask. intros st a Q H. injection H as <-. destruct (nth_error (st_data st) i) eqn:E; [|exact I]. apply (nth_forall _ _ _ _ Q E). }
  intros [[n kvs]|] C; [|apply holds_ret; exact I]. destruct C as [C1 C2]. cbn [fst snd] in *. destruct key as [k|].
  - eapply (holds_bind _ _ (fun _ => True)); [apply holds_ask; auto|intros [j|] _]; [|apply holds_ret; exact I].
    eapply holds_bind; [apply holds_run; apply skipn_forall; exact C2|]. intros r Fr.
    eapply holds_bind; [apply holds_change|intros _ _].
    + intros st Q. apply replace_forall; [|exact Q]. split; [exact C1|]. apply Forall_app. split; [apply firstn_forall; exact C2|exact Fr].
    + destruct (firstn j kvs ++ r); [destruct prune; [apply holds_delete_section|]|]; apply holds_ret; exact I.
  - eapply holds_bind; [apply holds_delete_strings|intros _ _]. apply holds_delete_section.
Qed.
Lemma holds_section sec key value comment : holds (add_section sec key value comment true) (fun _ => True).
Proof.
  unfold add_section. eapply (holds_bind _ _ (fun _ => True)); [apply holds_ask; auto|intros [i|] _]; [apply holds_ret; exact I|].
  eapply holds_bind; [apply holds_copy|intros s Cs]. eapply holds_bind; [apply holds_next|intros o _].
  eapply (holds_bind _ _ (fun _ => True)); [apply holds_ask; auto|intros i _].
  eapply (holds_bind _ _ (Forall copied_part)).
  - apply holds_ask. intros st a Q H. refine (insert_forall copied_part _ _ _ _ _ Q _ H). split; [exact Cs|constructor].
  - intros d Fd. eapply holds_bind; [apply holds_change; intros st _; exact Fd|intros _ _]. apply holds_ret. exact I.
Qed.
Lemma holds_add sec key value comment force : holds (add_entry sec key value comment force true) (fun _ => True).
Proof.
  unfold add_entry. eapply (holds_bind _ _ (fun _ => True)).
  { destruct comment as [c|]; [|apply holds_ret; exact I]. eapply holds_bind; [apply holds_copy|intros; apply holds_ret; exact I]. }
  intros co _. eapply holds_bind; [apply holds_section|intros [i made] _].
  destruct key as [k|]; [destruct value as [v|]|]; try (apply holds_ret; exact I).
  eapply (holds_bind _ _ (fun _ => True)); [apply holds_ask; auto|intros g _]. eapply holds_bind; [apply holds_next|intros o _].
  eapply (holds_bind _ _ (fun _ => True)); [apply holds_ask; auto|intros multi _].
  eapply (holds_bind _ _ (fun _ => True)).
  { destruct g as [j|]; [destruct (multi && force)|]; try (apply holds_ret; exact I).
    eapply (holds_bind _ _ (fun _ => True)); [apply holds_ask; auto|intros l _]. destruct (oldest l o None) as [o' c].
    eapply (holds_bind _ _ (fun _ => True)).
    { destruct c as [c|]; [|apply holds_ret; exact I]. eapply (holds_bind _ _ (fun _ => True)); [destruct co; [apply holds_delete_string|apply holds_ret; exact I]|intros _ _].
      eapply holds_bind; [apply holds_copy|intros; apply holds_ret; exact I]. }
    intros c' _. eapply holds_bind; [apply holds_delete|intros _ _]. apply holds_ret. exact I. }
  intros [[g' o'] c'] _.
  eapply (holds_bind _ _ (fun q => match g' with Some _ => multi && negb force = true -> copied q | None => copied q end)).
  { destruct g'; [|apply holds_copy]. destruct (multi && negb force); [eapply holds_weaken; [|apply holds_copy]; auto|apply holds_ret; discriminate]. }
  intros q Cq. eapply holds_bind; [apply holds_copy|intros w Cw].
  assert (P : copied q -> holds (l <! ask (fun st => insert st {| n_item := q; n_comment := c'; n_order := o' |} w (keys_at i st)) ;; _ <! change (set_keys i l) ;; eret SI_INSERTED) (fun _ => True)).
  { intros C. eapply (holds_bind _ _ (Forall copied_line)).
    - apply holds_ask. intros st a Q H. refine (insert_forall copied_line _ _ _ _ _ (keys_copied i st Q) _ H). split; assumption.
    - intros l Fl. eapply holds_bind; [apply holds_change; intros st Q; apply set_keys_copied; assumption|intros _ _]. apply holds_ret. exact I. }
  destruct g' as [j|]; [|apply P; exact Cq]. destruct (multi && negb force); [apply P; auto|].
  eapply holds_bind; [apply holds_change|intros _ _; apply holds_ret; exact I].
  intros st Q. destruct (nth_error (keys_at i st) j) as [[n x]|] eqn:E; [|exact Q]. apply set_keys_copied; [exact Q|].
  apply replace_forall; [|apply keys_copied; exact Q]. split; [apply (nth_forall _ _ _ _ (keys_copied i st Q) E)|exact Cw].
Qed.
Definition no_load (c : call) : Prop := match c with CLoad _ _ => False | _ => True end.
Lemma holds_perform c : no_load c -> holds (perform c) (fun _ => True).
Proof.
  intros N. destruct c as [s k v c f|s k p|s k|s k|s| |s| | |b|b|b|c es]; cbn [perform]; try contradiction.
  - eapply holds_bind; [apply holds_add|intros; apply holds_ret; exact I].
  - eapply holds_bind; [apply holds_delete|intros; apply holds_ret; exact I].
  - eapply (holds_bind _ _ (fun _ => True)); [apply holds_ask; auto|intros [v m] _]. eapply (holds_bind _ _ (fun _ => True)); [apply holds_ask; auto|intros; apply holds_ret; exact I].
  - eapply (holds_bind _ _ (fun _ => True)); [apply holds_ask; auto|intros; apply holds_ask; auto].
  - eapply (holds_bind _ _ (fun _ => True)); [apply holds_ask; auto|intros; apply holds_ret; exact I].
  - eapply (holds_bind _ _ (fun _ => True)); [apply holds_ask; auto|intros; apply holds_ask; auto].
  - eapply (holds_bind _ _ (fun _ => True)); [apply holds_ask; auto|intros; apply holds_ask; auto].
  - eapply (holds_bind _ _ (fun _ => True)); [apply holds_ask; auto|intros; apply holds_ret; exact I].
  - eapply holds_bind; [apply holds_change|intros; apply holds_ret; exact I]. constructor.
  - eapply holds_bind; [apply holds_change|intros; apply holds_ret; exact I]. auto.
  - eapply holds_bind; [apply holds_change|intros; apply holds_ret; exact I]. auto.
  - eapply holds_bind; [apply holds_change|intros; apply holds_ret; exact I]. auto.
Qed.
Lemma unloaded h : Forall no_load h -> forall st l st', all_copied st -> perform_all h st = Ok (l, st') -> all_copied st'.
Proof.
  induction h as [|c h IH]; intros N st l st' Q H; [injection H as _ <-; exact Q|]. cbn [perform_all] in H.
  apply ebind_inv in H. destruct H as (a & st1 & H1 & H). apply ebind_inv in H. destruct H as (r & st2 & H2 & H). injection H as _ <-.
  apply (IH (Forall_inv_tail N) st1 r st2); [|exact H2]. apply (holds_perform c (Forall_inv N) _ _ _ Q H1).
Qed.

(** * The keys told are the first of their runs *)
Lemma heads_split {X} (nm : X -> bytes) x rest : forall l last a, vheads nm last l = a ++ x :: rest ->
  (exists l1 l2, l = l1 ++ x :: l2 /\ Forall (fun e => nocase_less (nm e) (nm x) = true) l1 /\ (rest <> [] -> l2 <> []))
  /\ match last with Some q => nocase_less q (nm x) = true | None => True end.
Proof.
  induction l as [|y l IH]; intros last a H; [destruct a; discriminate|]. cbn [vheads] in H.
  destruct (match last with None => true | Some q => nocase_less q (nm y) end) eqn:B.
  - destruct a as [|z a]; cbn [app] in H.
    + injection H as -> H. split; [|destruct last; [exact B|exact I]]. exists [], l. split; [reflexivity|]. split; [constructor|]. intros N E. subst l. apply N. symmetry. exact H.
    + injection H as -> H. destruct (IH _ _ H) as [(l1 & l2 & -> & F & N) L]. split.
      * exists (z :: l1), l2. split; [reflexivity|]. split; [constructor; assumption|exact N].
      * destruct last as [q|]; [|exact I]. apply (nocase_trans _ _ _ B L).
  - destruct last as [q|]; [|discriminate]. destruct (IH _ _ H) as [(l1 & l2 & -> & F & N) L]. split; [|exact L].
    exists (y :: l1), l2. split; [reflexivity|]. split; [|exact N]. constructor; [|exact F].
    destruct (nocase_total q (nm y)) as [T|[T|T]]; [congruence|apply (nocase_trans _ _ _ T L)|].
    destruct (nocase_total (nm y) (nm x)) as [U|[U|U]]; [exact U| |].
    + pose proof (nocase_trans _ _ _ L U) as C. congruence.
    + rewrite (nocase_less_irrefl q (nm x)) in L; [discriminate|]. unfold same_name in *. congruence.
Qed.
Lemma find_first {V} st (x : named * V) l2 l1 : live_names st (l1 ++ x :: l2) -> Forall (fun e => nocase_less (nm_of st e) (nm_of st x) = true) l1 ->
  find_name st (n_item (fst x)) (l1 ++ x :: l2) = Ok (Some (length l1)).
Proof.
  intros L F. destruct x as [n v]. assert (K : live st (n_item n)) by (apply Forall_app in L; destruct L as [_ L]; exact (Forall_inv L)).
  assert (SELF : is_less st (n_item n) (n_item n) = Ok false) by (rewrite (is_less_ok _ _ _ K K), nocase_irrefl; reflexivity).
  assert (LB : forall i, lower_bound st (n_item n) i (l1 ++ (n, v) :: l2) = Ok (length l1 + i)).
  { induction l1 as [|[m w] l1 IH]; intros i; cbn [app lower_bound]; [rewrite SELF; reflexivity|].
    assert (K' : live st (n_item m)) by exact (Forall_inv L). rewrite (is_less_ok _ _ _ K' K). pose proof (Forall_inv F) as Fm. cbn in Fm. unfold nm_of in Fm. cbn [fst] in Fm. rewrite Fm. cbn [rbind].
    rewrite (IH (Forall_inv_tail L) (Forall_inv_tail F)). cbn [length]. f_equal. lia. }
  unfold find_name. cbn [fst]. rewrite LB. cbn [rbind]. rewrite Nat.add_0_r, nth_mid, SELF. reflexivity.
Qed.

(** * How many copies the object holds *)
Definition copies (st : store) : nat := length (st_strings st).
Definition grows {A} (d : nat) (m : E A) : Prop := forall st a st', m st = Ok (a, st') -> copies st + d <= copies st' /\ st_multi st' = st_multi st.
Lemma grows_bind {A C} d e (m : E A) (k : A -> E C) : grows d m -> (forall a, grows e (k a)) -> grows (d + e) (ebind m k).
Proof.
  intros M K st c st' H. apply ebind_inv in H. destruct H as (a & st1 & H1 & H2). destruct (M _ _ _ H1), (K _ _ _ _ H2). split; [lia|congruence].
Qed.
Lemma grows_bind0 {A C} d (m : E A) (k : A -> E C) : grows 0 m -> (forall a, grows d (k a)) -> grows d (ebind m k).
Proof. intros M K. exact (grows_bind 0 d m k M K). Qed.
Lemma grows_ret {A} (a : A) : grows 0 (eret a).
Proof. intros st x st' H. injection H as _ <-. split; [lia|reflexivity]. Qed.
Lemma grows_ask {A} (f : store -> res A) : grows 0 (ask f).
Proof. intros st x st' H. apply ask_is in H. destruct H as [-> _]. split; [lia|reflexivity]. Qed.
Lemma grows_copy p : grows 1 (copy_string p).
Proof.
  intros st a st' H. unfold copy_string in H. destruct (deref st p); try discriminate. cbn [rbind] in H. injection H as _ <-. split; [|reflexivity]. unfold copies. cbn. rewrite app_length. cbn. lia.
Qed.
Lemma grows_less {A} d e (m : E A) : e <= d -> grows d m -> grows e m.
Proof. intros L M st a st' H. destruct (M _ _ _ H). split; [lia|assumption]. Qed.
Lemma grows_next : grows 0 next_order.
Proof. intros st a st' H. injection H as _ <-. split; [unfold copies; cbn; lia|reflexivity]. Qed.
Lemma grows_change f : (forall st, st_strings (f st) = st_strings st) -> (forall st, st_multi (f st) = st_multi st) -> grows 0 (change f).
Proof. intros F M st a st' H. injection H as _ <-. split; [unfold copies; rewrite F; lia|apply M]. Qed.
Lemma grows_copy_opt p : grows 0 (copy_opt true p).
Proof. destruct p; [|apply grows_ret]. apply (grows_less 1); [lia|]. exact (grows_bind 1 0 _ _ (grows_copy p) (fun _ => grows_ret _)). Qed.
Lemma grows_section sec key value comment : grows 0 (add_section sec key value comment true).
Proof.
  unfold add_section. apply grows_bind0; [apply grows_ask|intros [i|]]; [apply grows_ret|]. apply (grows_less 1); [lia|].
  apply (grows_bind 1 0); [apply grows_copy|intros s]. apply grows_bind0; [apply grows_next|intros o]. apply grows_bind0; [apply grows_ask|intros i]. apply grows_bind0; [apply grows_ask|intros d].
  apply grows_bind0; [apply grows_change; reflexivity|intros u]. apply grows_ret.
Qed.
Lemma grows_add st sec k v comment force c st' : st_multi st = false ->
  add_entry sec (Some k) (Some v) comment force true st = Ok (c, st') -> copies st + 1 <= copies st' /\ st_multi st' = false.
Proof.
  intros MU H. unfold add_entry in H.
  apply ebind_inv in H. destruct H as (co & st1 & H1 & H). apply grows_copy_opt in H1. destruct H1 as [G1 M1].
  apply ebind_inv in H. destruct H as ([i made] & st2 & H1 & H). apply grows_section in H1. destruct H1 as [G2 M2].
  apply ebind_inv in H. destruct H as (g & st3 & H1 & H). apply ask_is in H1. destruct H1 as [-> _].
  apply ebind_inv in H. destruct H as (o & st4 & H1 & H). apply grows_next in H1. destruct H1 as [G4 M4].
  apply ebind_inv in H. destruct H as (mu & st5 & H1 & H). apply ask_is in H1. destruct H1 as [-> H1]. injection H1 as <-.
  rewrite M4, M2, M1, MU in H. cbn [andb] in H.
  apply ebind_inv in H. destruct H as ([[g' o'] c'] & st5 & H0 & H).
  assert (E5 : st5 = st4) by (destruct g; injection H0 as _ _ _ E; symmetry; exact E). subst st5. clear H0.
  match type of H with ?m st4 = _ => assert (K : grows 1 m) end.
  { apply grows_bind0; [destruct g'; [apply grows_ret|apply (grows_less 1); [lia|apply grows_copy]]|intros q]. apply (grows_bind 1 0); [apply grows_copy|intros w].
    destruct g' as [j|].
    - apply grows_bind0; [apply grows_change; intros x; destruct (nth_error (keys_at i x) j) as [[? ?]|]; try reflexivity; apply set_keys_strings|intros u]. apply grows_ret.
    - apply grows_bind0; [apply grows_ask|intros l]. apply grows_bind0; [apply grows_change; apply set_keys_strings|intros u; apply grows_ret]. }
  destruct (K _ _ _ H) as [G5 M5]. split; [lia|congruence].
Qed.

(** * Deleting sections through their own names *)
Lemma delete_ptr st d sec prune : same_doc st d -> live st sec ->
  exists st', delete (Some sec) None prune st = Ok (fst (delete_doc (text st sec) None prune d), st') /\ same_doc st' (snd (delete_doc (text st sec) None prune d)).
Proof.
  intros D L. pose proof (sd_own _ _ D) as O. pose proof (sd_inv _ _ D) as I.
  destruct (delete_ok [] st sec None prune O (vinv_vsorted _ _ I) L Logic.I) as (st' & E & O' & V & SE & OR & _); [intros k H; discriminate|].
  destruct (vdelete_ok (text st sec) None prune (st_order st) (view st) d I (sd_parts _ _ D)) as (V1 & V2 & V3). cbn [option_map] in *.
  exists st'. split; [rewrite V2; exact E|]. rewrite V3. destruct D as [D1 D2 D3 D4 D5 D6 D7], SE as [E1 E2 E3 E4 E5 E6]. split; cbn; try congruence.
Qed.
Lemma delete_data sec prune st b st' i : find_name st sec (st_data st) = Ok (Some i) -> delete (Some sec) None prune st = Ok (b, st') -> st_data st' = erase_at i (st_data st).
Proof.
  intros F H. unfold delete in H. rewrite (ebind_ask _ _ _ _ F) in H. rewrite (ebind_ask (fun st => Ok (nth_error (st_data st) i)) _ st _ eq_refl) in H.
  destruct (nth_error (st_data st) i) as [[n kvs]|] eqn:E.
  - destruct (delete_strings_ok kvs st) as (st1 & E1 & M1 & _). rewrite (ebind_ok _ _ _ _ _ E1) in H. unfold delete_section in H.
    destruct (delete_string_ok st1 (n_item n)) as (st2 & E2 & M2 & _). rewrite (ebind_ok _ _ _ _ _ E2) in H. injection H as _ <-. cbn.
    rewrite (mv_data _ _ _ M2), (mv_data _ _ _ M1). reflexivity.
  - exfalso. unfold find_name in F. destruct (lower_bound st sec 0 (st_data st)) as [j| | |]; try discriminate. cbn [rbind] in F.
    destruct (nth_error (st_data st) j) as [[m x]|] eqn:EJ; [|discriminate]. destruct (is_less st sec (n_item m)) as [[]| | |]; try discriminate. cbn in F. congruence.
Qed.
Fixpoint delete_each (prune : bool) (l : list named) : E (list bool) :=
  match l with
  | [] => eret []
  | n :: r => b <! delete (Some (n_item n)) None prune ;; t <! delete_each prune r ;; eret (b :: t)
  end.
Lemma delete_each_ok prune : forall l st d, same_doc st d -> map fst (st_data st) = l ->
  exists st' d', delete_each prune l st = Ok (map (fun _ => true) l, st') /\ same_doc st' d' /\ st_data st' = [].
Proof.
  induction l as [|n l IH]; intros st d D E.
  - exists st, d. split; [reflexivity|]. split; [exact D|]. destruct (st_data st); [reflexivity|discriminate].
  - destruct (st_data st) as [|[m kvs] B] eqn:ED; [discriminate|]. injection E as -> E.
    pose proof (live_data_names _ _ (own_live _ _ (sd_own _ _ D))) as LN. rewrite ED in LN.
    assert (L : live st (n_item n)) by exact (Forall_inv LN).
    pose proof (find_first st (n, kvs) B [] LN (Forall_nil _)) as F. cbn [app fst length] in F. rewrite <- ED in F.
    destruct (delete_ptr st d (n_item n) prune D L) as (st1 & E1 & D1).
    assert (TR : fst (delete_doc (text st (n_item n)) None prune d) = true).
    { unfold delete_doc. destruct (part_of (text st (n_item n)) d) eqn:EP; [reflexivity|]. exfalso.
      unfold delete in E1. rewrite (ebind_ask _ _ _ _ F), (ebind_ask (fun st => Ok (nth_error (st_data st) 0)) _ st _ eq_refl), ED in E1. cbn [nth_error] in E1.
      destruct (delete_strings_ok kvs st) as (st2 & E2 & _). rewrite (ebind_ok _ _ _ _ _ E2) in E1. unfold delete_section in E1.
      destruct (delete_string_ok st2 (n_item n)) as (st3 & E3 & _). rewrite (ebind_ok _ _ _ _ _ E3) in E1. unfold delete_doc in E1. rewrite EP in E1. discriminate. }
    rewrite TR in E1. pose proof (delete_data _ _ _ _ _ _ F E1) as DD. rewrite ED in DD. unfold erase_at in DD. cbn in DD.
    destruct (IH st1 _ D1) as (st' & d' & E2 & D2 & N2); [rewrite DD; exact E|].
    exists st', d'. cbn [delete_each]. rewrite (ebind_ok _ _ _ _ _ E1), (ebind_ok _ _ _ _ _ E2). split; [reflexivity|]. auto.
Qed.
