(** Proofs about the Windows adapter list. *)
From Verif Require Import Base P_Base CTypes Disks Network Spec_Exec P_Exec WinNetwork Spec_WinNet.
From Coq Require Import Lia Permutation Sorted ZArith ZifyBool ZifyNat ZifyN.

Lemma digit_isdigit c : digit c <-> isdigit c = true.
Proof. unfold digit, isdigit, code. unfold nat_of_ascii. rewrite andb_true_iff, !N.leb_le. lia. Qed.
Lemma nat_code c : nat_of_ascii c = N.to_nat (N_of_ascii c).
Proof. reflexivity. Qed.

Definition add_digits (o : ascii) (d : bytes) : ascii := fold_left add_digit d o.
Lemma put_digits : forall d i ip r, Forall digit d -> i < 4 ->
  translate_loop (d ++ r) i ip = translate_loop r i
    (let '(Ip a b e f) := ip in
     match i with 0 => Ip (add_digits a d) b e f | 1 => Ip a (add_digits b d) e f | 2 => Ip a b (add_digits e d) f | _ => Ip a b e (add_digits f d) end).
Proof.
  induction d as [|c d IH]; intros i ip r H L.
  - destruct ip. cbn. destruct i as [|[|[|i]]]; reflexivity.
  - inversion H as [|? ? Hc Hd]; subst. cbn [app translate_loop].
    destruct (Ascii.eqb_spec c NUL) as [->|_]; [unfold digit in Hc; cbn in Hc; lia|].
    apply digit_isdigit in Hc. rewrite Hc. destruct ip as [a b e f]. unfold add_digits. cbn [fold_left].
    destruct i as [|[|[|[|i]]]]; try lia; cbn [put_digit rbind]; rewrite IH by (assumption || lia); reflexivity.
Qed.
Lemma add_digits_number d : Forall digit d -> forall n, add_digits (low_byte n) d = low_byte (fold_left (fun n c => (10 * n + (N_of_ascii c - 48))%N) d n).
Proof.
  intros H. induction H as [|c d Hc Hd IH]; intros n; [reflexivity|]. unfold add_digits. cbn [fold_left]. fold (add_digits (add_digit (low_byte n) c) d).
  replace (add_digit (low_byte n) c) with (low_byte (10 * n + (N_of_ascii c - 48))); [apply IH|].
  unfold add_digit, low_byte, code. rewrite N_ascii_embedding by (apply N.mod_lt; lia). f_equal.
  rewrite N.add_mod by lia. rewrite (N.add_mod (n mod 256 * 10)) by lia. rewrite N.mul_mod_idemp_l by lia. rewrite (N.mul_comm 10). reflexivity.
Qed.
Lemma add_digits_zero d : Forall digit d -> add_digits NUL d = low_byte (number d).
Proof. intros H. change NUL with (low_byte 0). apply add_digits_number, H. Qed.

(** skipping a separator *)
Lemma separator c i ip r : ~ digit c -> c <> NUL -> translate_loop (c :: r) i ip = translate_loop r (S i) ip.
Proof.
  intros H N0. cbn. destruct (Ascii.eqb_spec c NUL) as [->|_]; [congruence|]. destruct (isdigit c) eqn:E; [apply digit_isdigit in E; contradiction|reflexivity].
Qed.
Definition more_ok (more : list (ascii * bytes)) := Forall (fun p => ~ digit (fst p) /\ fst p <> NUL /\ Forall digit (snd p)) more.
Lemma too_many : forall more i ip tail, more_ok more -> 3 <= i ->
  translate_loop (flat_map (fun p => fst p :: snd p) more ++ NUL :: tail) i ip =
  if forallb (fun p => match snd p with [] => true | _ => false end) more then Ok ip else Undef UbWrite.
Proof.
  induction more as [|[c d] more IH]; intros i ip tail H L; [reflexivity|].
  inversion H as [|? ? [H1 [H2 H3]] H4]; subst. cbn [fst snd] in *. cbn [flat_map fst snd app]. rewrite separator by assumption.
  cbn [forallb snd]. destruct d as [|x d].
  - cbn [app andb]. apply IH; [assumption|lia].
  - cbn [app translate_loop andb]. inversion H3 as [|? ? Hx Hd]; subst. destruct (Ascii.eqb_spec x NUL) as [->|_]; [unfold digit in Hx; cbn in Hx; lia|].
    apply digit_isdigit in Hx. rewrite Hx. destruct ip. destruct i as [|[|[|i]]]; try lia. reflexivity.
Qed.
Lemma app_cons_assoc (c : ascii) d (l r : bytes) : ((c :: d) ++ l) ++ r = c :: d ++ (l ++ r).
Proof. cbn. rewrite app_assoc. reflexivity. Qed.
Lemma translate_groups d0 more tail : groups_ok d0 more ->
  translate (grouped d0 more ++ NUL :: tail) =
  if forallb (fun p => match snd p with [] => true | _ => false end) (skipn 3 more)
  then Ok (Ip (low_byte (number (group d0 more 0))) (low_byte (number (group d0 more 1))) (low_byte (number (group d0 more 2))) (low_byte (number (group d0 more 3))))
  else Undef UbWrite.
Proof.
  intros [H0 H]. unfold translate, grouped, ip_zero. rewrite <- app_assoc, put_digits by (assumption || lia). unfold group. cbn [map nth].
  rewrite add_digits_zero by exact H0. set (A := low_byte (number d0)).
  assert (Z : low_byte (number []) = NUL) by reflexivity.
  destruct more as [|[c1 d1] more]; [cbn [nth map]; rewrite !Z; reflexivity|]. inversion H as [|? ? [P1 [P2 P3]] H1]; subst. cbn [fst snd] in *.
  cbn [flat_map fst snd]. rewrite app_cons_assoc, separator, put_digits by (assumption || lia). rewrite add_digits_zero by exact P3. cbn [map nth snd]. set (B := low_byte (number d1)).
  destruct more as [|[c2 d2] more]; [cbn [nth map]; rewrite !Z; reflexivity|]. inversion H1 as [|? ? [Q1 [Q2 Q3]] H2]; subst. cbn [fst snd] in *.
  cbn [flat_map fst snd]. rewrite app_cons_assoc, separator, put_digits by (assumption || lia). rewrite add_digits_zero by exact Q3. cbn [map nth snd]. set (C := low_byte (number d2)).
  destruct more as [|[c3 d3] more]; [cbn [nth map]; rewrite !Z; reflexivity|]. inversion H2 as [|? ? [R1 [R2 R3]] H3]; subst. cbn [fst snd] in *.
  cbn [flat_map fst snd]. rewrite app_cons_assoc, separator, put_digits by (assumption || lia). rewrite add_digits_zero by exact R3. cbn [map nth snd skipn].
  apply too_many; [assumption|lia].
Qed.
Lemma grouped_exists : forall s, ~ In NUL s -> exists d0 more, groups_ok d0 more /\ s = grouped d0 more.
Proof.
  induction s as [|c s IH]; intros H.
  - exists [], []. split; [split; constructor|reflexivity].
  - destruct IH as [d0 [more [[G1 G2] ->]]]; [intros X; apply H; right; exact X|].
    destruct (isdigit c) eqn:E.
    + exists (c :: d0), more. split; [split; [constructor; [apply digit_isdigit, E|exact G1]|exact G2]|reflexivity].
    + exists [], ((c, d0) :: more). split; [|reflexivity]. split; [constructor|]. constructor; [|exact G2]. cbn. split; [intros D; apply digit_isdigit in D; congruence|].
      split; [intros ->; apply H; left; reflexivity|exact G1].
Qed.
Lemma unterminated : forall s i ip, ~ In NUL s -> exists u, translate_loop s i ip = Undef u.
Proof.
  induction s as [|c s IH]; intros i ip H; [eexists; reflexivity|]. cbn.
  assert (N0 : ~ In NUL s) by (intros X; apply H; right; exact X).
  destruct (Ascii.eqb_spec c NUL) as [->|_]; [destruct H; left; reflexivity|]. destruct (isdigit c); [|apply IH, N0].
  destruct ip as [a b e f]. destruct i as [|[|[|[|i]]]]; cbn [put_digit rbind]; try (apply IH, N0). eexists. reflexivity.
Qed.
Lemma low_byte_code c : low_byte (N_of_ascii c) = c.
Proof. unfold low_byte. rewrite N.mod_small by apply N_ascii_bounded. apply ascii_N_embedding. Qed.
Lemma translate_dotted s ip tail : dotted s ip -> translate (s ++ NUL :: tail) = Ok ip.
Proof.
  destruct ip as [a b c d]. intros [wa [wb [wc [wd [[_ [A1 A2]] [[_ [B1 B2]] [[_ [C1 C2]] [[_ [D1 D2]] ->]]]]]]]].
  change (wa ++ "."%char :: wb ++ "."%char :: wc ++ "."%char :: wd) with (wa ++ ("."%char :: wb ++ "."%char :: wc ++ "."%char :: wd)).
  replace (wa ++ "."%char :: wb ++ "."%char :: wc ++ "."%char :: wd) with (grouped wa [("."%char, wb); ("."%char, wc); ("."%char, wd)])
    by (unfold grouped; cbn [flat_map fst snd app]; rewrite app_nil_r; reflexivity).
  assert (Dot : ~ digit "."%char) by (unfold digit; cbn; lia).
  rewrite translate_groups.
  - cbn [skipn forallb]. unfold group. cbn [nth map snd]. rewrite A2, B2, C2, D2, !low_byte_code. reflexivity.
  - split; [exact A1|]. repeat apply Forall_cons; try apply Forall_nil; cbn; (split; [exact Dot|]; split; [discriminate|assumption]).
Qed.

(** ranking *)
Lemma lower_tolower c : lower c = tolower c.
Proof. destruct c as [[] [] [] [] [] [] [] []]; reflexivity. Qed.
Lemma mentions_contains d w : contains w (map tolower d) = true <-> mentions d w.
Proof.
  rewrite contains_spec. unfold has, mentions. rewrite (map_ext lower tolower lower_tolower). reflexivity.
Qed.
Lemma count_fold d (sg : Z) : forall words n s, how_many (mentions d) words n ->
  fold_left (fun s w => (s + if contains w (map tolower d) then sg else - sg)%Z) words s = (s + sg * (2 * n - Z.of_nat (length words)))%Z.
Proof.
  induction words as [|w words IH]; intros n s H; inversion H as [|? ? m P H'|? ? m P H']; subst; cbn [fold_left length].
  - lia.
  - apply mentions_contains in P. rewrite P, (IH m) by exact H'. lia.
  - destruct (contains w (map tolower d)) eqn:E; [apply mentions_contains in E; contradiction|]. rewrite (IH n) by exact H'. lia.
Qed.
Lemma rank_score d k : rank d k -> score d = k.
Proof.
  intros [t [s [Ht [Hs ->]]]]. unfold score.
  change bads with suspicious. change goods with trusted.
  pose proof (count_fold d (-1)%Z suspicious s (match d with [] => 0 | _ => 1 end)%Z Hs) as E1. cbn [Z.opp] in E1. rewrite E1.
  pose proof (count_fold d 1%Z trusted t) as E2. cbn [Z.opp] in E2. rewrite E2 by exact Ht.
  change (Z.of_nat (length suspicious)) with 4%Z. change (Z.of_nat (length trusted)) with 3%Z. destruct d; lia.
Qed.
Lemma how_many_exists d : forall words, exists n, how_many (mentions d) words n.
Proof.
  induction words as [|w words [n IH]]; [exists 0%Z; constructor|]. destruct (contains w (map tolower d)) eqn:E.
  - exists (n + 1)%Z. apply one_more; [apply mentions_contains, E|exact IH].
  - exists n. apply not_this; [|exact IH]. intros X. apply mentions_contains in X. congruence.
Qed.
Lemma rank_exists d : rank d (score d).
Proof.
  destruct (how_many_exists d trusted) as [t Ht], (how_many_exists d suspicious) as [s Hs].
  assert (R : rank d (2 * (t - s) + match d with [] => 0 | _ => 1 end + 1)) by (exists t, s; repeat split; assumption).
  rewrite (rank_score _ _ R). exact R.
Qed.
Lemma ranked_score o p : ranked_before o p <-> cmp p o = false.
Proof.
  unfold ranked_before, cmp. split.
  - intros H. apply Z.ltb_ge. apply H; apply rank_exists.
  - intros H i j Hi Hj. apply rank_score in Hi, Hj. lia.
Qed.
Lemma cmp_order : strict_weak_order cmp.
Proof. unfold strict_weak_order, cmp. split; [|split]; intros; lia. Qed.

(** one adapter *)
Lemma nth_error_skipn {A} (l : list A) i : nth_error l i = hd_error (skipn i l).
Proof. revert l; induction i as [|i IH]; intros [|x l]; try reflexivity. apply IH. Qed.
Lemma all_zero_spec a : forall n i, i + n <= length (wa_address a) ->
  all_zero a i n = Ok (negb (existsb (fun c => negb (Ascii.eqb c NUL)) (firstn n (skipn i (wa_address a))))).
Proof.
  induction n as [|n IH]; intros i L; [reflexivity|]. cbn [all_zero]. unfold addr_at. rewrite nth_error_skipn.
  destruct (skipn i (wa_address a)) as [|c r] eqn:E.
  - exfalso. apply (f_equal (@length _)) in E. rewrite skipn_length in E. cbn in E. lia.
  - cbn [hd_error rbind firstn existsb]. replace r with (skipn (S i) (wa_address a)).
    + destruct (Ascii.eqb c NUL) eqn:Ec; [|reflexivity]. cbn [negb orb]. apply IH. lia.
    + clear -E. revert E. generalize (wa_address a). induction i as [|i IH]; intros [|x l] E; cbn in *; try congruence. apply IH, E.
Qed.
Lemma min_nat n : N.to_nat (N.min 6 n) = Nat.min 6 (N.to_nat n).
Proof. lia. Qed.
Lemma copied_mac a : length (wa_address a) = 8 -> copied a (Nat.min 6 (N.to_nat (wa_addr_len a))) = mac a.
Proof.
  unfold copied, mac. generalize (Nat.min 6 (N.to_nat (wa_addr_len a))) (Nat.le_min_l 6 (N.to_nat (wa_addr_len a))).
  generalize (wa_address a). intros l k Lk L.
  destruct l as [|b0 [|b1 [|b2 [|b3 [|b4 [|b5 [|b6 [|b7 [|b8 l]]]]]]]]]; try discriminate L.
  destruct k as [|[|[|[|[|[|[|k]]]]]]]; try reflexivity; lia.
Qed.
Lemma one_adapter_spec a ip : sound a ip ->
  one_adapter a = Ok (if usable a then [{| oa_description := description a; oa_adapter := {| ad_mac := mac a; ad_ip := ip |} |}] else []).
Proof.
  intros [L [text [rest [E D]]]]. unfold one_adapter, usable. destruct (wa_ethernet a); [|reflexivity]. cbn [andb].
  destruct (N.ltb_spec 0 (wa_addr_len a)) as [P|P].
  - rewrite min_nat, all_zero_spec by (rewrite L; lia). cbn [rbind skipn]. destruct (existsb _ _); [|reflexivity]. cbn [negb]. rewrite E, (translate_dotted _ _ _ D). cbn [rbind].
    rewrite copied_mac by exact L. reflexivity.
  - replace (wa_addr_len a) with 0%N by lia. reflexivity.
Qed.
Lemma walk_spec : forall l, Forall (fun a => exists ip, sound a ip) l ->
  exists cards, walk_adapters l = Ok cards /\ Forall2 card (filter usable l) cards.
Proof.
  induction l as [|a l IH]; intros H; [exists []; split; [reflexivity|constructor]|]. inversion H as [|? ? [ip S1] H1]; subst.
  destruct (IH H1) as [cards [E F]]. cbn [walk_adapters filter]. rewrite (one_adapter_spec a ip S1), E. cbn [rbind]. destruct (usable a).
  - eexists. split; [reflexivity|]. cbn [app]. constructor; [|exact F]. split; [reflexivity|]. split; [reflexivity|exact S1].
  - exists cards. split; [reflexivity|exact F].
Qed.

Lemma walk_perm l l' : Permutation l l' -> forall t, walk_adapters l = Ok t -> exists t', walk_adapters l' = Ok t' /\ Permutation t t'.
Proof.
  induction 1 as [|a l l' P IH|a b l|l l2 l3 P1 IH1 P2 IH2]; intros t E.
  - exists t. split; [exact E|reflexivity].
  - cbn [walk_adapters] in *. destruct (one_adapter a) as [x| | |]; try discriminate. cbn [rbind] in *. destruct (walk_adapters l) as [y| | |]; try discriminate. cbn [rbind] in *. injection E as <-.
    destruct (IH y eq_refl) as [t' [-> P']]. exists (x ++ t'). split; [reflexivity|]. apply Permutation_app_head, P'.
  - cbn [walk_adapters] in *. destruct (one_adapter a) as [x| | |], (one_adapter b) as [y| | |]; try discriminate; cbn [rbind] in *; try discriminate. destruct (walk_adapters l) as [z| | |]; try discriminate. cbn [rbind] in *. injection E as <-.
    eexists. split; [reflexivity|]. rewrite !app_assoc. apply Permutation_app_tail, Permutation_app_comm.
  - destruct (IH1 t E) as [t2 [E2 P3]]. destruct (IH2 t2 E2) as [t3 [E3 P4]]. exists t3. split; [exact E3|]. etransitivity; eassumption.
Qed.
Lemma sorted_unique {A} (R : A -> A -> Prop) : forall l l', Permutation l l' -> StronglySorted R l -> StronglySorted R l' ->
  (forall a b, In a l -> In b l -> R a b -> R b a -> a = b) -> l = l'.
Proof.
  induction l as [|a l IH]; intros l' P S1 S2 H.
  - apply Permutation_nil in P. congruence.
  - destruct l' as [|b l']; [apply Permutation_sym, Permutation_nil in P; discriminate|].
    apply StronglySorted_inv in S1 as [T1 F1]. apply StronglySorted_inv in S2 as [T2 F2].
    assert (E : a = b).
    { assert (Ia : In a (b :: l')) by (eapply Permutation_in; [exact P|left; reflexivity]).
      assert (Ib : In b (a :: l)) by (eapply Permutation_in; [apply Permutation_sym, P|left; reflexivity]).
      destruct Ia as [->|Ia]; [reflexivity|]. destruct Ib as [->|Ib]; [reflexivity|].
      apply H; [left; reflexivity|right; exact Ib| |]; [rewrite Forall_forall in F1; apply F1, Ib|rewrite Forall_forall in F2; apply F2, Ia]. }
    subst b. f_equal. apply IH; [eapply Permutation_cons_inv, P|assumption|assumption|]. intros x y Hx Hy. apply H; right; assumption.
Qed.
Lemma forall2_in {A B} (R : A -> B -> Prop) l l' : Forall2 R l l' -> forall y, In y l' -> exists x, In x l /\ R x y.
Proof. induction 1 as [|a b l l' H F IH]; intros y Hy; [contradiction|]. destruct Hy as [<-|Hy]; [exists a; split; [left; reflexivity|exact H]|]. destruct (IH y Hy) as [x [I1 I2]]. exists x. split; [right; exact I1|exact I2]. Qed.
(** adapters of pairwise different rank *)
Lemma different_ranks l cards : Forall2 card l cards ->
  ForallOrdPairs (fun a b => forall k, rank (description a) k -> ~ rank (description b) k) l ->
  forall o p, In o cards -> In p cards -> cmp o p = false -> cmp p o = false -> o = p.
Proof.
  intros F. induction F as [|a c l cards Hc F IH]; intros D o p Ho Hp X Y; [contradiction|].
  inversion D as [|? ? D1 D2]; subst.
  assert (Diff : forall q, In q cards -> score (oa_description c) <> score (oa_description q)).
  { intros q Hq E. destruct (forall2_in _ _ _ F q Hq) as [b [Ib Cb]]. rewrite Forall_forall in D1. specialize (D1 b Ib). destruct Hc as [E1 _], Cb as [E2 _]. rewrite <- E1, <- E2 in D1.
    apply (D1 _ (rank_exists _)). rewrite E. apply rank_exists. }
  unfold cmp in X, Y. destruct Ho as [<-|Ho], Hp as [<-|Hp].
  - reflexivity.
  - exfalso. apply (Diff p Hp). lia.
  - exfalso. apply (Diff o Ho). lia.
  - apply IH; assumption.
Qed.
