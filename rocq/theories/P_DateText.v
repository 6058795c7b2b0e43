(** Which texts are dates: the scanner of Dates.v against Spec_Dates. *)
From Verif Require Import Base CTypes Dates P_Base Spec_Strings Spec_Dates P_Strings P_Dates.

Lemma take_digits_split w : forall s acc v k rest, take_digits w s acc = (v, k, rest) ->
  exists ds, s = ds ++ rest /\ all_digits ds /\ length ds = k /\ v = decimal_from acc ds /\
    (k = w \/ (k < w /\ no_digit_first rest)).
Proof.
  induction w as [|w IH]; intros s acc v k rest H.
  - cbn in H. injection H as <- <- <-. exists []. do 4 (split; [try reflexivity; constructor|]). left; reflexivity.
  - destruct s as [|c r].
    + cbn in H. injection H as <- <- <-. exists []. do 4 (split; [try reflexivity; constructor|]). right. split; [lia|]. intros c r E. discriminate.
    + cbn [take_digits] in H. destruct (isdigit c) eqn:D.
      * destruct (take_digits w r _) as [[v' k'] rest'] eqn:E. injection H as <- <- <-. apply IH in E as [ds [-> [Hd [Hl [-> HE]]]]].
        exists (c :: ds). split; [reflexivity|]. split; [constructor; [apply digit_iff, D|exact Hd]|]. split; [cbn; lia|]. split.
        -- cbn [decimal_from]. f_equal. apply digit_iff in D. unfold code. lia.
        -- lia || (destruct HE as [HE|[HE1 HE2]]; [left; lia|right; split; [lia|exact HE2]]).
      * injection H as <- <- <-. exists []. do 4 (split; [try reflexivity; constructor|]). right. split; [lia|]. intros c' r' [= <- <-] X. apply digit_iff in X. congruence.
Qed.
Lemma take_digits_of ds : forall w rest acc, all_digits ds -> (length ds = w \/ (length ds < w /\ no_digit_first rest)) ->
  take_digits w (ds ++ rest) acc = (decimal_from acc ds, length ds, rest).
Proof.
  induction ds as [|c ds IH]; intros w rest acc Hd Hl.
  - cbn [app length decimal_from] in *. destruct w as [|w]; [reflexivity|]. destruct Hl as [Hl|[_ Hl]]; [discriminate|]. destruct rest as [|x rest]; [reflexivity|].
    cbn [take_digits]. destruct (isdigit x) eqn:D; [|reflexivity]. exfalso. apply (Hl x rest eq_refl). apply digit_iff, D.
  - inversion Hd as [|? ? Hc Hd']; subst. destruct w as [|w]; [cbn in Hl; lia|]. cbn [app take_digits]. rewrite (proj2 (digit_iff c) Hc).
    rewrite IH; [|exact Hd'|cbn in Hl; destruct Hl as [Hl|[Hl HE]]; [left; lia|right; split; [lia|exact HE]]].
    cbn [decimal_from length]. replace (acc * 10 + Z.of_N (code c - 48))%Z with (10 * acc + (Z.of_N (N_of_ascii c) - 48))%Z by (unfold code; lia). reflexivity.
Qed.

Lemma blank_split s : exists ws, s = ws ++ drop_while isspace s /\ Forall blank ws.
Proof.
  destruct (drop_while_split isspace s) as [p [E F]]. exists p. split; [exact E|]. apply Forall_forall. intros c Hc. apply isspace_blank.
  rewrite forallb_forall in F. apply F, Hc.
Qed.
Lemma blank_drop ws r : Forall blank ws -> head_not isspace r -> drop_while isspace (ws ++ r) = r.
Proof.
  intros H Hr. rewrite drop_while_app; [apply drop_while_id, Hr|]. apply forallb_forall. intros c Hc. apply isspace_blank. rewrite Forall_forall in H. apply H, Hc.
Qed.

Lemma scan_int_numeral w s v rest : 1 <= w -> scan_int w s = Some (v, rest) <-> numeral w s v rest.
Proof.
  intros Hw. split.
  - intros H. unfold scan_int in H. destruct (blank_split s) as [ws [Es Hb]]. set (s1 := drop_while isspace s) in *.
    assert (A : forall sign factor w' s2, In (sign, factor) [([], 1%Z); (bs "+", 1%Z); (bs "-", (-1)%Z)] -> length sign + w' = w -> s1 = sign ++ s2 ->
       (let '(v, k, rest) := take_digits w' s2 0%Z in if Nat.eqb k 0 then None else Some ((factor * v)%Z, rest)) = Some (v, rest) -> numeral w s v rest).
    { intros sign factor w' s2 Hi Hlw E1 E2. destruct (take_digits w' s2 0%Z) as [[v' k] rest'] eqn:ET. destruct (Nat.eqb_spec k 0) as [|Hk]; [discriminate|].
      injection E2 as <- <-. apply take_digits_split in ET as [ds [E3 [Hd [Hl [Hv HE]]]]]. subst v' s2.
      rewrite Es, E1. apply num_in; [exact Hi|exact Hb|exact Hd|intros ->; cbn in Hl; lia|]. rewrite app_length. destruct HE as [HE|[HE1 HE2]]; [left; lia|right; split; [lia|exact HE2]]. }
    destruct s1 as [|c r] eqn:E1.
    + apply (A [] 1%Z w []); [left; reflexivity|reflexivity|reflexivity|]. destruct (take_digits w [] 0%Z) as [[v' k] rest']. destruct (Nat.eqb k 0); [exact H|]. rewrite Z.mul_1_l. exact H.
    + destruct (Ascii.eqb_spec c "-"%char) as [->|Hm].
      * apply (A (bs "-") (-1)%Z (w - 1) r); [right; right; left; reflexivity|cbn; lia|exact eq_refl|].
        destruct (take_digits (w - 1) r 0%Z) as [[v' k] rest']. destruct (Nat.eqb k 0); [exact H|]. rewrite <- H. replace (-1 * v')%Z with (- v')%Z by lia. reflexivity.
      * destruct (Ascii.eqb_spec c "+"%char) as [->|Hp].
        -- apply (A (bs "+") 1%Z (w - 1) r); [right; left; reflexivity|cbn; lia|reflexivity|].
           destruct (take_digits (w - 1) r 0%Z) as [[v' k] rest']. destruct (Nat.eqb k 0); [exact H|]. rewrite Z.mul_1_l. exact H.
        -- apply (A [] 1%Z w (c :: r)); [left; reflexivity|reflexivity|reflexivity|].
           destruct (take_digits w (c :: r) 0%Z) as [[v' k] rest']. destruct (Nat.eqb k 0); [exact H|]. rewrite Z.mul_1_l. exact H.
  - intros H. destruct H as [sign factor ws ds rest Hi Hb Hd Hne Hl]. destruct ds as [|d ds]; [congruence|]. clear Hne.
    assert (Dd : isdigit d = true) by (inversion Hd; subst; apply digit_iff; assumption).
    destruct (digit_plain d Dd) as [D1 [D2 [D3 _]]].
    unfold scan_int. destruct Hi as [[= <- <-]|[[= <- <-]|[[= <- <-]|[]]]]; cbn [app] in *; rewrite blank_drop by (try assumption; cbn; try assumption; reflexivity).
    + rewrite D2, D3. change (d :: ds ++ rest) with ((d :: ds) ++ rest). rewrite take_digits_of by assumption. cbn [length Nat.eqb]. rewrite Z.mul_1_l. reflexivity.
    + change (Ascii.eqb "+"%char "-"%char) with false. change (Ascii.eqb "+"%char "+"%char) with true. cbn iota. change (d :: ds ++ rest) with ((d :: ds) ++ rest). rewrite take_digits_of; [|assumption|].
      * cbn [length Nat.eqb]. rewrite Z.mul_1_l. reflexivity.
      * unfold bytes in *. cbn [bs list_ascii_of_string app length] in Hl |- *. destruct Hl as [Hl|[Hl HE]]; [left; lia|right; split; [lia|exact HE]].
    + change (Ascii.eqb "-"%char "-"%char) with true. cbn iota. change (d :: ds ++ rest) with ((d :: ds) ++ rest). rewrite take_digits_of; [|assumption|].
      * cbn [length Nat.eqb]. unfold decimal. replace (-1 * decimal_from 0 (d :: ds))%Z with (- decimal_from 0 (d :: ds))%Z by lia. reflexivity.
      * unfold bytes in *. cbn [bs list_ascii_of_string app length] in Hl |- *. destruct Hl as [Hl|[Hl HE]]; [left; lia|right; split; [lia|exact HE]].
Qed.

Lemma scan_lit_iff c s r : scan_lit c s = Some r <-> s = c :: r.
Proof.
  destruct s as [|x s]; cbn; [split; discriminate|]. destruct (Ascii.eqb_spec x c) as [->|H]; split; intros X; inversion X; subst; try reflexivity; congruence.
Qed.
Lemma obind_some {A B} (o : option A) (k : A -> option B) b : obind o k = Some b <-> exists a, o = Some a /\ k a = Some b.
Proof. destruct o as [a|]; cbn; split; [eauto|intros [x [[= ->] H]]; exact H|discriminate|intros [x [H _]]; discriminate]. Qed.

Lemma scan_plain_iff s y m d : scan_plain s = Some (y, m, d) <->
  exists s1 s2 s3, numeral 4 s y s1 /\ numeral 2 s1 m s2 /\ numeral 2 s2 d s3.
Proof.
  unfold scan_plain. rewrite obind_some. split.
  - intros [[y' s1] [E1 H]]. apply obind_some in H as [[m' s2] [E2 H]]. apply obind_some in H as [[d' s3] [E3 H]]. injection H as -> -> ->.
    exists s1, s2, s3. rewrite scan_int_numeral in E1, E2, E3 by lia. auto.
  - intros [s1 [s2 [s3 [E1 [E2 E3]]]]]. rewrite <- scan_int_numeral in E1, E2, E3 by lia.
    exists (y, s1). split; [exact E1|]. apply obind_some. exists (m, s2). split; [exact E2|]. apply obind_some. exists (d, s3). split; [exact E3|reflexivity].
Qed.
Lemma scan_sep_iff sep s y m d : scan_sep sep s = Some (y, m, d) <->
  exists s1 s2 s3, numeral 4 s y (sep :: s1) /\ numeral 2 s1 m (sep :: s2) /\ numeral 2 s2 d s3.
Proof.
  unfold scan_sep. rewrite obind_some. split.
  - intros [[y' s1] [E1 H]]. apply obind_some in H as [s1' [L1 H]]. apply obind_some in H as [[m' s2] [E2 H]]. apply obind_some in H as [s2' [L2 H]].
    apply obind_some in H as [[d' s3] [E3 H]]. injection H as -> -> ->. apply scan_lit_iff in L1, L2. subst s1 s2.
    exists s1', s2', s3. rewrite scan_int_numeral in E1, E2, E3 by lia. auto.
  - intros [s1 [s2 [s3 [E1 [E2 E3]]]]]. rewrite <- scan_int_numeral in E1, E2, E3 by lia.
    exists (y, sep :: s1). split; [exact E1|]. apply obind_some. exists s1. split; [apply scan_lit_iff; reflexivity|].
    apply obind_some. exists (m, sep :: s2). split; [exact E2|]. apply obind_some. exists s2. split; [apply scan_lit_iff; reflexivity|].
    apply obind_some. exists (d, s3). split; [exact E3|reflexivity].
Qed.

Lemma parse_date_iff s y m d : parse_date s = Ok (y, m, d) <-> date_text s y m d.
Proof.
  unfold parse_date. split.
  - destruct (Nat.eqb_spec (length s) 8) as [L8|L8].
    + destruct (scan_plain (cstr s)) as [[[y' m'] d']|] eqn:E; [|discriminate]. intros [= -> -> ->]. apply scan_plain_iff in E as [s1 [s2 [s3 [E1 [E2 E3]]]]]. eapply dt_plain; eassumption.
    + destruct (Nat.eqb_spec (length s) 10) as [L10|L10]; [|discriminate].
      destruct (scan_sep "-"%char (cstr s)) as [[[y' m'] d']|] eqn:E.
      * intros [= -> -> ->]. apply scan_sep_iff in E as [s1 [s2 [s3 [E1 [E2 E3]]]]]. eapply dt_sep; try eassumption. left; reflexivity.
      * destruct (scan_sep "/"%char (cstr s)) as [[[y' m'] d']|] eqn:E'; [|discriminate].
        intros [= -> -> ->]. apply scan_sep_iff in E' as [s1 [s2 [s3 [E1 [E2 E3]]]]]. eapply dt_sep; try eassumption. right; left; reflexivity.
  - intros [s1 s2 s3 L E1 E2 E3|sep s1 s2 s3 L Hs E1 E2 E3].
    + apply Nat.eqb_eq in L. rewrite L. rewrite (proj2 (scan_plain_iff (cstr s) y m d)) by (exists s1, s2, s3; auto). reflexivity.
    + rewrite L. cbn [Nat.eqb]. destruct Hs as [<-|[<-|[]]].
      * rewrite (proj2 (scan_sep_iff _ (cstr s) y m d)) by (exists s1, s2, s3; auto). reflexivity.
      * destruct (scan_sep "-"%char (cstr s)) as [[[y' m'] d']|] eqn:E.
        -- exfalso. apply scan_sep_iff in E as [r1 [_ [_ [F1 _]]]]. rewrite <- scan_int_numeral in F1, E1 by lia. rewrite E1 in F1. discriminate.
        -- rewrite (proj2 (scan_sep_iff _ (cstr s) y m d)) by (exists s1, s2, s3; auto). reflexivity.
Qed.
Lemma date_fun s y m d y' m' d' : date_text s y m d -> date_text s y' m' d' -> y = y' /\ m = m' /\ d = d'.
Proof. rewrite <- !parse_date_iff. intros -> [= -> -> ->]. auto. Qed.

Lemma seconds_iff mk s t : seconds_from_epoch mk s = Ok t <-> exists y m d, date_text s y m d /\ t = mk y m d.
Proof.
  unfold seconds_from_epoch. split.
  - destruct (parse_outcome s) as [E|[[[y m] d] E]]; rewrite E; [discriminate|]. cbn. intros [= <-]. exists y, m, d. split; [apply parse_date_iff, E|reflexivity].
  - intros [y [m [d [H ->]]]]. apply parse_date_iff in H. rewrite H. reflexivity.
Qed.
Lemma seconds_none mk s : (forall y m d, ~ date_text s y m d) <-> seconds_from_epoch mk s = Throw ExInvalidArg.
Proof.
  unfold seconds_from_epoch. destruct (parse_outcome s) as [E|[[[y m] d] E]]; rewrite E; cbn; split; try reflexivity; try discriminate.
  - intros _ y m d H. apply parse_date_iff in H. congruence.
  - intros H. exfalso. apply (H y m d), parse_date_iff, E.
Qed.
