(** Property C77: loading a text works inside one copy of it. *)
From Verif Require Import Base CTypes StringUtils Ini IniBuf P_Base P_Text Spec_Ini P_Ini P_IniBuf P_IniBuf2 Spec_IniBuf.
From Coq Require Import Lia.

Lemma at_string b p s : at_ b p s -> string_at b p s.
Proof.
  intros H. split; [intros X; pose proof (at_nul_free _ _ _ H) as N; unfold nul_free in N; rewrite forallb_forall in N; specialize (N _ X); discriminate|]. revert p H. induction s as [|c s IH]; intros p H; cbn [at_] in H.
  - assert (L : p < length b) by (apply nth_error_Some; congruence). exists (skipn (S p) b). clear -H. revert b H. induction p as [|p IH]; intros [|x b] H; cbn in *; try discriminate; [injection H as ->; reflexivity|apply IH, H].
  - destruct H as [A [_ H]]. destruct (IH _ H) as [rest E]. exists rest. cbn [app]. rewrite <- E. clear -A. revert b A. induction p as [|p IH]; intros [|x b] A; cbn in *; try discriminate; [injection A as ->; reflexivity|apply IH, A].
Qed.
Lemma string_at_unique b p s s' : string_at b p s -> string_at b p s' -> s = s'.
Proof.
  intros [N [r E]] [N' [r' E']]. rewrite E in E'. clear E. revert s' N' E'. induction s as [|c s IH]; intros [|c' s'] N' E'; cbn in *; [reflexivity|injection E' as <- _; tauto|injection E' as -> _; tauto|].
  injection E' as -> E'. f_equal. apply IH; [tauto|tauto|exact E'].
Qed.
Lemma section_string b sp s : sec_str b sp s -> section_at b sp s.
Proof. destruct sp; cbn; [auto|apply at_string]. Qed.
Lemma line_end_same s : has_line_end s -> line_end_in s.
Proof. intros [c [H N]]. unfold is_nl in N. apply orb_true_iff in N as [N|N]; apply Ascii.eqb_eq in N; subst c; unfold line_end_in; auto. Qed.
Lemma sec_name_names sec s : sec_name sec s -> names sec s.
Proof. destruct sec; cbn; [auto|apply line_end_same]. Qed.
Lemma at_copy data : at_ (data ++ [NUL]) 0 (cstr data).
Proof.
  assert (G : forall pre, at_ (pre ++ data ++ [NUL]) (length pre) (cstr data)); [|exact (G [])]. unfold cstr. induction data as [|c data IH]; intros pre; cbn [span app].
  - cbn [fst at_]. rewrite nth_error_app2 by lia. rewrite Nat.sub_diag. reflexivity.
  - destruct (Ascii.eqb_spec c NUL) as [->|N]; cbn [negb].
    + cbn [fst at_]. rewrite nth_error_app2 by lia. rewrite Nat.sub_diag. reflexivity.
    + specialize (IH (pre ++ [c])). destruct (span _ data) as [x y]. cbn [fst at_] in *. rewrite nth_error_app2 by lia. rewrite Nat.sub_diag. split; [reflexivity|]. split; [exact N|]. rewrite app_length in IH. cbn [length] in IH. rewrite <- app_assoc in IH. rewrite Nat.add_1_r in IH. exact IH.
Qed.
Lemma load_copy_ok data : exists l b, load_copy data = Ok (l, b) /\ length b = (if data then 0 else S (length data)) /\ Forall2 (item_rel b) l (text_items data) /\ Forall (com_any b) l.
Proof.
  destruct data as [|c data]; [exists [], []; repeat split; constructor|]. unfold load_copy. remember (c :: data) as d eqn:Ed. cbv zeta.
  pose proof (ini_items_ok d) as HI. unfold ini_items in HI. destruct (skip_comment (S (length (cstr d))) false (cstr d)) as [s'|] eqn:EK; [|discriminate].
  assert (LC : length (cstr d) <= length d) by (destruct (cstr_prefix d) as [t Et]; rewrite Et at 2; rewrite app_length; lia).
  assert (LB : length (d ++ [NUL]) = S (length d)) by (rewrite app_length; cbn; lia).
  destruct (comment_ok false (S (S (length d))) _ _ _ EK (S (S (length d))) (d ++ [NUL]) 0 0 0 (at_copy d)) as [p [v [b [E1 [A [L [_ [_ SB]]]]]]]]; [lia|lia|lia|lia|lia|discriminate|].
  rewrite (bbind_run _ _ _ _ _ E1). cbv beta iota. rewrite load_entries_S.
  assert (LB1 : length b = S (length d)) by (destruct SB; lia).
  destruct (load_ok _ _ _ _ HI ltac:(lia) (S (S (length d))) (S (length d)) (S (S (length d))) p SEmpty None b A) as [l [b' [X1 [X2 [X3 [X4 X5]]]]]]; [lia|lia|lia|right; reflexivity|exact I|].
  exists l, b'. split; [exact X1|]. split; [destruct X2 as [X2 _]; rewrite X2, LB1; subst d; reflexivity|]. split; [exact X4|exact X5].
Qed.

(** C77. For every text the loader ends, reads and writes only inside its copy of the text
    (as long as the text and one more), forms no pointer before it, and keeps one entry per
    item of the text: at the end each pointer of the entry is to the NUL-terminated name,
    key or value the text gives. *)
Theorem C77_inside : forall data : bytes, exists l b,
  load_copy data = Ok (l, b) /\ length b = (if data then 0 else S (length data)) /\
  Forall2 (kept b) (map fst l) (text_items data).
Proof.
  intros data. destruct (load_copy_ok data) as [l [b [E [L [H _]]]]]. exists l, b. split; [exact E|]. split; [exact L|]. clear E L.
  induction H as [|[e s] i l items H _ IH]; cbn [map]; constructor; [|exact IH]. cbn [fst]. destruct i as [n|sec k v]; cbn [item_rel kept fst snd] in *.
  - destruct H as [A [B _]]. split; [exact A|]. apply section_string, B.
  - destruct H as [pk [pv [m [A [B [C [D [F _]]]]]]]]. exists pk, pv, m. split; [exact A|]. split; [apply at_string, B|]. split; [apply at_string, C|]. split; [apply section_string, D|apply sec_name_names, F].
Qed.
Print Assumptions C77_inside.

(** The strings behind an entry never change after it was stored: what the map of sections
    compared when the entry was added is what the pointers read at the end. *)
Theorem C77_stable : forall data l b e s, load_copy data = Ok (l, b) -> In (e, s) l ->
  reads b e s /\ forall s', reads b e s' -> s' = s.
Proof.
  intros data l b e s E HI. destruct (load_copy_ok data) as [l' [b' [E' [_ [H _]]]]]. rewrite E in E'. injection E' as <- <-.
  assert (X : exists i, item_rel b (e, s) i). { clear E. induction H as [|y i l items H _ IH]; [destruct HI|]. destruct HI as [->|HI]; [exists i; exact H|exact (IH HI)]. }
  assert (R : reads b e s).
  { destruct X as [[n|sec k v] X]; cbn [item_rel fst snd] in X; unfold reads.
    - destruct X as [A [B ->]]. cbn [fst snd]. rewrite A. split; [apply section_string, B|exact I].
    - destruct X as [pk [pv [m [A [B [C [D [_ ->]]]]]]]]. cbn [fst snd]. rewrite A. split; [apply section_string, D|]. split; apply at_string; assumption. }
  split; [exact R|]. destruct s as [n kv]. intros [n' kv'] [S1 S2]. destruct R as [R1 R2]. cbn [fst snd] in *.
  assert (n' = n) as ->. { destruct (e_sec e); cbn [section_at] in *; [congruence|eapply string_at_unique; eassumption]. }
  f_equal. destruct (e_kv e) as [[pk pv]|], kv as [[k v]|], kv' as [[k' v']|]; try tauto. destruct R2 as [K V], S2 as [K' V']. f_equal. f_equal; eapply string_at_unique; eassumption.
Qed.
Print Assumptions C77_stable.

(** A comment handed over with an entry starts with a comment character (AddEntry asserts it). *)
Theorem C77_comments : forall data l b e s p, load_copy data = Ok (l, b) -> In (e, s) l -> e_comment e = Some p ->
  nth_error b p = Some ";"%char \/ nth_error b p = Some "#"%char.
Proof.
  intros data l b e s p E HI HC. destruct (load_copy_ok data) as [l' [b' [E' [_ [_ H]]]]]. rewrite E in E'. injection E' as <- <-.
  rewrite Forall_forall in H. specialize (H _ HI). unfold com_any in H. cbn [fst] in H. rewrite HC in H. cbn [com_ok] in H. destruct H as [_ [x [A B]]].
  unfold ini_comment in B. apply orb_true_iff in B as [B|B]; apply Ascii.eqb_eq in B; subst x; auto.
Qed.
Print Assumptions C77_comments.

(** ** Lookups *)
Lemma lower_nl c d : lower c = lower d -> is_nl c = true -> is_nl d = true.
Proof.
  intros H N. assert (C : c = CR \/ c = LF) by (unfold is_nl in N; apply orb_true_iff in N as [N|N]; apply Ascii.eqb_eq in N; auto).
  assert (G : forall x : ascii, (Ascii.eqb (lower x) (lower CR) || Ascii.eqb (lower x) (lower LF)) = true -> is_nl x = true).
  { intros [[] [] [] [] [] [] [] []]; vm_compute; congruence. }
  apply G. rewrite <- H. destruct C as [->| ->]; reflexivity.
Qed.
Lemma broken_no_match m n : has_line_end m -> ~ line_end_in n -> same_nameb m n = false.
Proof.
  intros [c [HI HN]] NL. destruct (same_nameb m n) eqn:E; [|reflexivity]. exfalso. apply NL. unfold same_nameb in E. apply beqb_eq in E.
  assert (X : In (lower c) (map lower n)) by (rewrite <- E; apply in_map, HI). apply in_map_iff in X as [d [X1 X2]].
  pose proof (lower_nl c d (eq_sym X1) HN) as ND. apply line_end_same. exists d. auto.
Qed.
Lemma same_lookups b l items : Forall2 (item_rel b) l items -> forall d d', (forall n, ~ line_end_in n -> ini_find n d = ini_find n d') ->
  forall n, ~ line_end_in n -> ini_find n (fold_left add_seen (map snd l) d) = ini_find n (fold_left add_item items d').
Proof.
  induction 1 as [|[e s] i l items H _ IH]; intros d d' HD n HN; cbn [map fold_left]; [apply HD, HN|]. cbn [snd]. apply IH; [|exact HN]. clear n HN. intros n HN.
  destruct i as [m|sec k v]; cbn [item_rel fst snd] in H.
  - destruct H as [_ [_ ->]]. cbn [add_seen add_item]. rewrite !ini_update_find, HD by exact HN. reflexivity.
  - destruct H as [pk [pv [m [_ [_ [_ [_ [S ->]]]]]]]]. cbn [add_seen]. rewrite ini_update_find. destruct sec as [m'|]; cbn [sec_name add_item] in *.
    + subst m'. rewrite ini_update_find, HD by exact HN. reflexivity.
    + rewrite (broken_no_match m n S HN). apply HD, HN.
Qed.
(** Looking up any name without a line end in what the in-place loader stored gives exactly
    what the text says (C48). *)
Theorem C77_lookups : forall data : bytes, exists d d', load_in_place data = Ok d /\ ini_load data = Ok d' /\
  forall sec key, ~ line_end_in sec -> get_value d sec key = get_value d' sec key /\ get_section_size d sec = get_section_size d' sec /\ get_all_keys d sec = get_all_keys d' sec.
Proof.
  intros data. destruct (load_copy_ok data) as [l [b [E [_ [H _]]]]]. unfold load_in_place, ini_load. rewrite E, ini_items_ok. eexists _, _. split; [reflexivity|]. split; [reflexivity|].
  intros sec key HN. unfold get_value, get_section_size, get_all_keys. rewrite (same_lookups b l _ H [] [] (fun _ _ => eq_refl) sec HN). auto.
Qed.
Print Assumptions C77_lookups.
Theorem C77_values : forall (data sec key : bytes) d, load_in_place data = Ok d -> ~ line_end_in sec -> get_value d sec key = last_value (section_entries data sec) key.
Proof.
  intros data sec key d E HN. destruct (C77_lookups data) as [d1 [d2 [E1 [E2 H]]]]. rewrite E in E1. injection E1 as <-. destruct (H sec key HN) as [-> _]. apply ini_load_value, E2.
Qed.
Print Assumptions C77_values.

Definition text77 : bytes := bs "#one" ++ LF :: LF :: bs "  ; two" ++ CR :: LF :: bs "[ A ]x" ++ LF :: bs "k  = v w  " ++ CR :: LF :: bs "[open" ++ LF :: bs "j=" ++ LF :: bs "=z" ++ LF :: bs "q=1".
Example C77_case : exists l b, load_copy text77 = Ok (l, b) /\ length l = 4 /\
  map snd l = [(bs "A", None); (bs "A", Some (bs "k", bs "v w")); (bs "open" ++ LF :: bs "j", Some (bs "j", [])); (bs "open" ++ LF :: bs "j", Some (bs "q", bs "1"))].
Proof. eexists _, _. split; [vm_compute; reflexivity|]. split; reflexivity. Qed.
Example C77_case2 : exists d, load_in_place text77 = Ok d /\ get_value d (bs "a") (bs "K") = Some (bs "v w") /\ get_section_size d (bs "open") = (-1)%Z.
Proof. eexists. split; [vm_compute; reflexivity|]. split; reflexivity. Qed.
(** with the comment pointer of a first entry, and a key at the very beginning *)
Example C77_case3 : exists l b, load_copy (bs "k = v") = Ok (l, b) /\ map fst l = [{| e_sec := SEmpty; e_kv := Some (0, 4); e_comment := None |}].
Proof. eexists _, _. split; [vm_compute; reflexivity|]. reflexivity. Qed.
Example C77_case4 : exists l b, load_copy (bs "a=1" ++ LF :: bs "#x" ++ LF :: bs "b=2") = Ok (l, b) /\ map (fun e => e_comment (fst e)) l = [None; Some 4].
Proof. eexists _, _. split; [vm_compute; reflexivity|]. reflexivity. Qed.
