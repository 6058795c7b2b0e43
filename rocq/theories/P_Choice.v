(** atoi, and the strategy taken from the environment. *)
From Verif Require Import Base CTypes StringUtils Dates HwId Registry Network Disks CpuInfo ExecEnv Strategies Licensecc.
From Verif Require Import P_Base Spec_Listing P_DiskList Spec_Strings Spec_Base64 P_Decode Spec_HwId P_HwId P_HwText Spec_Hw P_Hw P_Hw2 Spec_Dates P_Strings P_Dates P_DateText Spec_Choice.

Lemma dec_digit c : is_base_digit 10 c = isdigit c.
Proof. revert c. assert (H : forall c, Bool.eqb (is_base_digit 10 c) (isdigit c) = true) by (apply byte_sweep; vm_compute; reflexivity). intros c. apply eqb_prop, H. Qed.
Lemma dec_val c : isdigit c = true -> digit_val c = Some (code c - 48)%N.
Proof. intros H. unfold digit_val. rewrite H. reflexivity. Qed.
Lemma digits_of ds : forall rest acc, all_digits ds -> no_digit_first rest ->
  exists v, digits 10 (ds ++ rest) acc = (v, rest) /\ Z.of_N v = decimal_from (Z.of_N acc) ds.
Proof.
  induction ds as [|c ds IH]; intros rest acc F N.
  - exists acc. split; [|reflexivity]. cbn [app]. destruct rest as [|c r]; [reflexivity|]. cbn [digits].
    assert (D : is_base_digit 10 c = false).
    { rewrite dec_digit. destruct (isdigit c) eqn:E; [|reflexivity]. exfalso. apply (N c r eq_refl), digit_iff, E. }
    unfold is_base_digit in D. destruct (digit_val c) as [d|]; [rewrite D|]; reflexivity.
  - inversion F as [|? ? Hc F']; subst. cbn [app digits]. apply digit_iff in Hc. rewrite (dec_val c Hc).
    assert (D : is_base_digit 10 c = true) by (rewrite dec_digit; exact Hc). unfold is_base_digit in D. rewrite (dec_val c Hc) in D. rewrite D.
    destruct (IH rest (acc * 10 + (code c - 48))%N F' N) as [v [E V]]. exists v. split; [exact E|]. rewrite V. cbn [decimal_from]. f_equal.
    apply digit_iff in Hc. unfold code. lia.
Qed.
Lemma clamp_eq z : clamp_long z = nearest64 z.
Proof. unfold clamp_long, nearest64, LONG_MAX, LONG_MIN. destruct (Z.ltb_spec 9223372036854775807 z); [lia|]. destruct (Z.ltb_spec z (-9223372036854775808)); lia. Qed.

Lemma number_unique t n n' : begins_with_number t n -> begins_with_number t n' -> n = n'.
Proof.
  intros [ws [sg [f [ds [rest [I [-> [B [D [Hn [N ->]]]]]]]]]]] [ws' [sg' [f' [ds' [rest' [I' [E [B' [D' [Hn' [N' ->]]]]]]]]]]].
  assert (H : forall (ws sg ds rest : bytes) f, In (sg, f) [([], 1%Z); (bs "+", 1%Z); (bs "-", (-1)%Z)] -> Forall blank ws -> all_digits ds -> ds <> [] ->
     drop_while isspace (ws ++ sg ++ ds ++ rest) = sg ++ ds ++ rest).
  { clear. intros ws sg ds rest f I B D Hn. rewrite drop_while_app by (apply forallb_forall; intros c Hc; apply isspace_blank; rewrite Forall_forall in B; apply B, Hc).
    apply drop_while_id. destruct ds as [|c ds]; [congruence|]. inversion D as [|? ? Hc D']; subst.
    apply digit_iff, digit_plain in Hc as [Hc _]. destruct I as [[= <- <-]|[[= <- <-]|[[= <- <-]|[]]]]; cbn; try reflexivity. exact Hc. }
  assert (E2 : sg ++ ds ++ rest = sg' ++ ds' ++ rest') by (rewrite <- (H ws sg ds rest f I B D Hn), <- (H ws' sg' ds' rest' f' I' B' D' Hn'), E; reflexivity).
  assert (K : forall c, isdigit c = true -> c <> "+"%char /\ c <> "-"%char) by (intros c Hc; split; intros ->; discriminate).
  assert (Es : (sg, f) = (sg', f')).
  { destruct ds as [|c ds]; [congruence|]. destruct ds' as [|c' ds']; [congruence|]. inversion D as [|? ? Hc D0]; inversion D' as [|? ? Hc' D0']; subst.
    apply digit_iff, K in Hc. apply digit_iff, K in Hc'.
    destruct I as [[= <- <-]|[[= <- <-]|[[= <- <-]|[]]]], I' as [[= <- <-]|[[= <- <-]|[[= <- <-]|[]]]]; cbn in E2; try reflexivity; try discriminate; exfalso; destruct Hc, Hc'; injection E2 as; subst; congruence. }
  injection Es as <- <-. apply app_inv_head in E2. f_equal. unfold decimal.
  destruct (digits_of ds rest 0 D N) as [v [E3 V]]. destruct (digits_of ds' rest' 0 D' N') as [v' [E3' V']]. rewrite E2 in E3. rewrite E3 in E3'. injection E3' as <- _.
  cbn in V, V'. congruence.
Qed.
Lemma stands_for_unique t v v' : stands_for t v -> stands_for t v' -> v = v'.
Proof.
  intros [[n [A ->]]|[A ->]] [[n' [B ->]]|[B ->]].
  - rewrite (number_unique _ _ _ A B). reflexivity.
  - exfalso. exact (B _ A).
  - exfalso. exact (A _ B).
  - reflexivity.
Qed.

Lemma strtol_none_or_number t : stands_for t (atoi t).
Proof.
  unfold stands_for, atoi. rewrite int_of_wrap. destruct (drop_while_split isspace t) as [ws [E B]].
  assert (Bl : Forall blank ws) by (apply Forall_forall; intros c Hc; apply isspace_blank; rewrite forallb_forall in B; apply B, Hc).
  pose proof (drop_while_head isspace t) as Hh.
  set (s1 := drop_while isspace t) in *.
  assert (T : forall neg sg f s2, In (sg, f) [([], 1%Z); (bs "+", 1%Z); (bs "-", (-1)%Z)] -> s1 = sg ++ s2 -> f = (if neg : bool then -1 else 1)%Z ->
     (sg = [] -> forall c r, s2 = c :: r -> Ascii.eqb c "-"%char = false /\ Ascii.eqb c "+"%char = false) ->
     let r := match s2 with
              | c :: _ => if is_base_digit 10 c then let '(v, rest) := digits 10 s2 0%N in (clamp_long (if neg then - Z.of_N v else Z.of_N v)%Z, rest) else (0%Z, t)
              | [] => (0%Z, t) end in
     (exists n, begins_with_number t n /\ int_of (fst r) = int_of (nearest64 n)) \/ ((forall n, ~ begins_with_number t n) /\ int_of (fst r) = 0%Z)).
  { intros neg sg f s2 I E1 Ef Hs. cbv zeta.
    assert (NB : (forall c r, s2 = c :: r -> isdigit c = false) -> forall n, ~ begins_with_number t n).
    { intros Hd n [ws' [sg' [f' [ds [rest [I' [Et [B' [D [Hn [N _]]]]]]]]]]].
      destruct ds as [|c ds]; [congruence|]. pose proof (Forall_inv D) as Hc. cbv beta in Hc. pose proof (proj2 (digit_iff c) Hc) as Dc.
      destruct (digit_plain c Dc) as [P1 [P2 [P3 _]]].
      assert (E3 : s1 = sg' ++ (c :: ds) ++ rest).
      { unfold s1. rewrite Et. rewrite drop_while_app by (apply forallb_forall; intros x Hx; apply isspace_blank; rewrite Forall_forall in B'; apply B', Hx).
        apply drop_while_id. destruct I' as [[= <- <-]|[[= <- <-]|[[= <- <-]|[]]]]; cbn; try reflexivity. exact P1. }
      rewrite E1 in E3. destruct I as [[= <- Ef2]|[[= <- Ef2]|[[= <- Ef2]|[]]]], I' as [[= <- <-]|[[= <- <-]|[[= <- <-]|[]]]]; cbn [app bs list_ascii_of_string] in E3.
      - specialize (Hd _ _ E3). congruence.
      - destruct (Hs eq_refl _ _ E3) as [X Y]. discriminate.
      - destruct (Hs eq_refl _ _ E3) as [X Y]. discriminate.
      - injection E3 as E3 _. rewrite <- E3 in P3. discriminate.
      - injection E3 as E3. specialize (Hd _ _ E3). congruence.
      - discriminate.
      - injection E3 as E3 _. rewrite <- E3 in P2. discriminate.
      - discriminate.
      - injection E3 as E3. specialize (Hd _ _ E3). congruence. }
    destruct s2 as [|c r].
    - right. split; [apply NB; intros; discriminate|reflexivity].
    - rewrite dec_digit. destruct (isdigit c) eqn:Dc.
      + destruct (take_digits_split (length (c :: r)) (c :: r) 0 (fst (fst (take_digits (length (c :: r)) (c :: r) 0))) (snd (fst (take_digits (length (c :: r)) (c :: r) 0))) (snd (take_digits (length (c :: r)) (c :: r) 0)))
          as [ds [Ed [Dd [Hl [_ Hr]]]]]; [destruct (take_digits _ _ _) as [[? ?] ?]; reflexivity|].
        set (rest := snd _) in Ed, Hr. set (k := snd (fst _)) in Hl, Hr. clearbody rest k.
        assert (N : no_digit_first rest).
        { destruct Hr as [Hr|[_ Hr]]; [|exact Hr]. assert (rest = []) as ->; [|intros ? ? [=]].
          apply (f_equal (@length _)) in Ed. rewrite app_length in Ed. destruct rest; [reflexivity|]. cbn [length] in *. lia. }
        assert (Hne : ds <> []). { intros ->. cbn in Ed. rewrite <- Ed in N. apply (N c r eq_refl), digit_iff, Dc. }
        destruct (digits_of ds rest 0 Dd N) as [v [E3 V]]. rewrite Ed, E3. cbn [fst]. left. exists (f * decimal ds)%Z. split.
        * exists ws, sg, f, ds, rest. split; [exact I|]. split; [rewrite E, E1, Ed; reflexivity|]. auto.
        * rewrite clamp_eq. f_equal. f_equal. unfold decimal. cbn in V. rewrite V, Ef. destruct neg; lia.
      + right. split; [|reflexivity]. apply NB. intros c' r' [= <- <-]. exact Dc. }
  unfold strtol. cbv zeta. fold s1.
  assert (X : forall s2 : bytes, match s2 with z :: x :: d :: r => if N.eqb 10 16 && Ascii.eqb z "0"%char && (Ascii.eqb x "x"%char || Ascii.eqb x "X"%char) && is_base_digit 16 d then d :: r else s2 | _ => s2 end = s2)
    by (intros [|? [|? [|? ?]]]; reflexivity).
  destruct s1 as [|c r] eqn:E1.
  - cbv beta iota. apply (T false [] 1%Z []); [left; reflexivity|reflexivity|reflexivity|intros _ ? ? [=]].
  - destruct (Ascii.eqb c "-"%char) eqn:C1.
    + rewrite X. apply (T true (bs "-") (-1)%Z r); [right; right; left; reflexivity| |reflexivity|discriminate]. apply Ascii.eqb_eq in C1. subst c. reflexivity.
    + destruct (Ascii.eqb c "+"%char) eqn:C2.
      * rewrite X. apply (T false (bs "+") 1%Z r); [right; left; reflexivity| |reflexivity|discriminate]. apply Ascii.eqb_eq in C2. subst c. reflexivity.
      * pose proof (X (c :: r)) as X2. cbv iota in X2. rewrite X2. apply (T false [] 1%Z (c :: r)); [left; reflexivity|reflexivity|reflexivity|]. intros _ c' r' [= <- <-]. auto.
Qed.
Lemma atoi_spec t v : atoi t = v <-> stands_for t v.
Proof. split; [intros <-; apply strtol_none_or_number|]. intros H. eapply stands_for_unique; [apply strtol_none_or_number|exact H]. Qed.

(** ** the strategy *)
Lemma generate_chosen env m z : generate_user_pc_signature env m z =
  st <-- get_strategy (fst (chosen env z)) ;; o <-- generate_pc_id st m ;;
  match o with None => Throw ExLogic | Some h => hw_print (set_use_environment_var (snd (chosen env z)) h) end.
Proof. unfold generate_user_pc_signature. fold (chosen env z). destruct (chosen env z); reflexivity. Qed.
Lemma chosen_other env z : z <> STRATEGY_DEFAULT -> chosen env z = (z, false).
Proof. intros H. unfold chosen. destruct (Z.eqb_spec z STRATEGY_DEFAULT); [contradiction|reflexivity]. Qed.
Lemma chosen_text (t : bytes) v : t <> [] -> stands_for t v -> chosen (Some t) STRATEGY_DEFAULT = if (Z.ltb v 0 || Z.ltb 3 v)%bool then (STRATEGY_DEFAULT, false) else (v, true).
Proof. intros H S. apply atoi_spec in S. unfold chosen. rewrite Z.eqb_refl. destruct t as [|c r]; [congruence|]. rewrite S. reflexivity. Qed.
Lemma print_denotes h t : hw_print h = Ok t -> denotes t h.
Proof. intros H. apply denotes_iff. destruct (hw_round_trip h) as [s [A B]]. rewrite H in A. injection A as <-. exact B. Qed.
