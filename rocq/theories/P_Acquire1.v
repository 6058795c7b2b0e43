(** The license level: what read_location finds in a text, in terms of Spec_Ini. *)
From Verif Require Import Base CTypes StringUtils Dates Base64 HwId Registry Ini Network Disks ExecEnv Strategies Locate Licensecc.
From Verif Require Import P_Base Spec_Strings Spec_Base64 Spec_Dates P_Strings P_Text P_Decode P_DateText P_HwText Spec_Ini P_Ini Spec_HwId Spec_Hw Spec_Acquire.
From Coq Require Import Sorted.

(** ** the vocabulary of the specification *)
Lemma looks_eq d : looks d = identify_format d.
Proof. unfold looks, identify_format. rewrite looks_base64_eq, looks_ini_eq. reflexivity. Qed.
Lemma dated_iff w es key secs : dated w es key secs <-> exists d, exact_value es (bs key) = Some d /\ seconds_from_epoch (w_mktime w) d = Ok secs.
Proof.
  unfold dated. split.
  - intros [d [y [m [day [H [D ->]]]]]]. exists d. split; [exact H|]. apply seconds_iff. eauto.
  - intros [d [H E]]. apply seconds_iff in E as [y [m [day [D ->]]]]. exists d, y, m, day. auto.
Qed.
Lemma identifies_iff m code : identifies m code <-> exists h d, hw_of_string code = Ok h /\ own m (strategy_bits h) d /\ data53 h = d7_53 d.
Proof. unfold identifies. split; intros [h [d [H X]]]; exists h, d; (split; [apply denotes_iff, H|exact X]). Qed.
Lemma supplies_encoded w i n s raw : unbase64 s = Ok raw -> In NUL raw -> supplies w i (SEncoded n s) (cstr raw).
Proof. intros H Hn. apply unbase64_ok in H as [D ->]. constructor; assumption. Qed.

(** ** names *)
Lemma lower_upper c : lower (toupper c) = lower c.
Proof.
  apply Ascii.eqb_eq. revert c. apply (byte_sweep (fun c => Ascii.eqb (lower (toupper c)) (lower c))). vm_compute. reflexivity.
Qed.
Lemma same_name_upper n f : same_nameb n (toupper_copy f) = same_nameb n f.
Proof.
  unfold same_nameb. f_equal. unfold toupper_copy. rewrite map_map. apply map_ext. intros c. apply lower_upper.
Qed.
Lemma entries_upper text f : section_entries text (toupper_copy f) = section_entries text f.
Proof.
  unfold section_entries. apply flat_map_ext. intros [n|[n|] k v]; cbn; try reflexivity. rewrite same_name_upper. reflexivity.
Qed.
Lemma entries_cstr text f : section_entries (cstr text) f = section_entries text f.
Proof. unfold section_entries, text_items. rewrite cstr_cstr. reflexivity. Qed.

(** ** limits *)
Lemma fold_limits (g : bytes -> option bytes) keys m k :
  sm_get k (fold_left (fun m k => match g k with Some v => sm_set k v m | None => m end) keys m) =
  if existsb (beqb k) keys then match g k with Some v => Some v | None => sm_get k m end else sm_get k m.
Proof.
  revert m; induction keys as [|k' keys IH]; intros m; cbn [fold_left existsb]; [reflexivity|]. rewrite IH.
  destruct (beqb_spec k k') as [<-|N]; cbn [orb].
  - destruct (g k) as [v|] eqn:E; [rewrite sm_get_set_eq|]; destruct (existsb _ keys); reflexivity.
  - destruct (g k') as [v|]; [rewrite sm_get_set_neq by exact N|]; reflexivity.
Qed.
Lemma fold_sorted (g : bytes -> option bytes) keys m : sm_sorted m -> sm_sorted (fold_left (fun m k => match g k with Some v => sm_set k v m | None => m end) keys m).
Proof. revert m; induction keys as [|k keys IH]; intros m H; cbn [fold_left]; [exact H|]. apply IH. destruct (g k); [apply sm_set_sorted|]; exact H. Qed.
Lemma limits_sorted d sec : sm_sorted (read_limits d sec).
Proof. apply fold_sorted. exact I. Qed.
Lemma limits_get text d sec k : ini_load text = Ok d -> sm_get k (read_limits d sec) = exact_value (section_entries text sec) k.
Proof.
  intros H. unfold read_limits. rewrite fold_limits, (ini_load_value _ _ _ _ H). cbn [sm_get]. unfold exact_value.
  pose proof (ini_load_keys _ _ sec H k) as K. destruct (existsb (beqb k) _) eqn:E.
  - apply existsb_exists in E as [k' [Hin Ek]]. apply beqb_eq in Ek. subst k'. rewrite (proj1 K Hin), beqb_refl.
    destruct (last_value _ _); reflexivity.
  - destruct (first_spelling _ k) as [k'|] eqn:F; [|reflexivity]. destruct (beqb_spec k' k) as [->|]; [|reflexivity].
    exfalso. rewrite <- not_true_iff_false in E. apply E, existsb_exists. exists k. split; [apply K; reflexivity|apply beqb_refl].
Qed.
Lemma sorted_strong {V} (m : smap V) : sm_sorted m -> StronglySorted (fun a b => bcmp (fst a) (fst b) = Lt) m.
Proof.
  induction m as [|[k v] m IH]; intros H; [constructor|]. constructor.
  - apply IH. eapply sorted_from_sorted, H.
  - apply Forall_forall. intros [k' v'] Hin. cbn. eapply sorted_from_in; eassumption.
Qed.
Lemma strong_sorted {V} (m : smap V) : StronglySorted (fun a b => bcmp (fst a) (fst b) = Lt) m -> sm_sorted m.
Proof.
  induction m as [|[k v] m IH]; intros H; [exact I|]. apply StronglySorted_inv in H as [H1 H2]. specialize (IH H1).
  destruct m as [|[k' v'] m]; [exact I|]. cbn. inversion H2; subst. cbn in *. auto.
Qed.
Lemma limits_are text d sec : ini_load text = Ok d -> limits_of (section_entries text sec) (read_limits d sec).
Proof.
  intros H. split; [apply sorted_strong, limits_sorted|]. intros k v. rewrite <- (limits_get _ _ _ _ H). split.
  - apply sm_in_get, limits_sorted.
  - apply sm_get_in.
Qed.
Lemma limits_unique es m m' : limits_of es m -> limits_of es m' -> m = m'.
Proof.
  intros [S H] [S' H']. apply strong_sorted in S, S'. apply sm_ext; try assumption. intros k.
  destruct (sm_get k m) as [v|] eqn:E, (sm_get k m') as [v'|] eqn:E'; try reflexivity.
  - apply sm_get_in, H in E. apply sm_get_in, H' in E'. congruence.
  - apply sm_get_in, H, H', (sm_in_get _ _ _ S') in E. congruence.
  - apply sm_get_in, H', H, (sm_in_get _ _ _ S) in E'. congruence.
Qed.
Lemma signed_text_print l : print_for_sign l = signed_text (fl_project l) (fl_limits l).
Proof.
  unfold print_for_sign, signed_text. change LICENSE_SIGNATURE with (bs "sig"). rewrite (upper_eq (trimmed (fl_project l))), (trimmed_eq (fl_project l)). f_equal. induction (fl_limits l) as [|[k v] m IH]; cbn [map concat filter fst]; [reflexivity|].
  destruct (beqb k (bs "sig")); cbn [negb map concat fst snd]; rewrite IH; [reflexivity|]. rewrite (trimmed_eq k), (trimmed_eq v). reflexivity.
Qed.

(** ** lic_ver *)

Definition is_200 (v : bytes) : Prop := length v <= 63 /\ two_hundred v.
Lemma digits_ge base s acc n rest : (1 <= base)%N -> digits base s acc = (n, rest) -> (acc <= n)%N.
Proof.
  intros Hb. revert acc; induction s as [|c s IH]; intros acc; cbn [digits]; [intros [= <- <-]; lia|].
  destruct (digit_val c) as [d|]; [|intros [= <- <-]; lia]. destruct (N.ltb d base); [|intros [= <- <-]; lia].
  intros H. apply IH in H. nia.
Qed.
Lemma digit_inv c d : digit_val c = Some d ->
  (d = 0%N -> c = "0"%char) /\ (d = 2%N -> c = "2"%char) /\ (d = 8%N -> c = "8"%char) /\ (d = 12%N -> c = "c"%char \/ c = "C"%char) /\ (d < 16)%N.
Proof.
  intros H.
  assert (K : forall c, match digit_val c with
     | Some d => (negb (d =? 0)%N || Ascii.eqb c "0") && (negb (d =? 2)%N || Ascii.eqb c "2") && (negb (d =? 8)%N || Ascii.eqb c "8")
                 && (negb (d =? 12)%N || Ascii.eqb c "c" || Ascii.eqb c "C") && (d <? 16)%N
     | None => true end = true) by (apply byte_sweep; vm_compute; reflexivity).
  specialize (K c). rewrite H in K. rewrite !andb_true_iff, !orb_true_iff, !negb_true_iff, !N.eqb_neq, !Ascii.eqb_eq, N.ltb_lt in K.
  destruct K as [[[[K1 K2] K3] K4] K5]. repeat split; try (intros ->); try tauto.
Qed.
Definition zeros (z : bytes) : Prop := Forall (fun c => c = "0"%char) z.

Lemma digits_dec s : digits 10 s 0 = (200%N, []) <-> exists zs, zeros zs /\ s = zs ++ bs "200".
Proof.
  split.
  - induction s as [|c s IH]; cbn [digits]; [discriminate|]. destruct (digit_val c) as [d|] eqn:E; [|discriminate].
    destruct (N.ltb_spec d 10) as [L|L]; [|discriminate]. change (0 * 10 + d)%N with d. pose proof (digit_inv _ _ E) as D. destruct (N.eq_dec d 0) as [->|N0].
    + intros H. destruct (IH H) as [zs [Hz ->]]. exists ("0"%char :: zs). split; [constructor; [reflexivity|exact Hz]|]. cbn. f_equal. apply D. reflexivity.
    + intros H. exists []. split; [constructor|]. cbn [app].
      destruct s as [|a s]; cbn [digits] in H; [injection H as ->; lia|].
      destruct (digit_val a) as [da|] eqn:Ea; [|discriminate]. destruct (N.ltb_spec da 10) as [La|]; [|discriminate].
      destruct s as [|b s]; cbn [digits] in H; [injection H as H; lia|].
      destruct (digit_val b) as [db|] eqn:Eb; [|discriminate]. destruct (N.ltb_spec db 10) as [Lb|]; [|discriminate].
      destruct s as [|x s]; cbn [digits] in H.
      * injection H as H. assert (d = 2%N /\ da = 0%N /\ db = 0%N) as [-> [-> ->]] by lia.
        rewrite (proj1 (proj2 D) eq_refl), (proj1 (digit_inv _ _ Ea) eq_refl), (proj1 (digit_inv _ _ Eb) eq_refl). reflexivity.
      * destruct (digit_val x) as [dx|]; [|discriminate]. destruct (N.ltb dx 10); [|discriminate].
        apply digits_ge in H; lia.
  - intros [zs [Hz ->]]. induction Hz as [|c zs -> Hz IH]; [reflexivity|exact IH].
Qed.
Lemma digits_hex s : digits 16 s 0 = (200%N, []) <-> exists zs c, zeros zs /\ In c ["c"%char; "C"%char] /\ s = zs ++ [c; "8"%char].
Proof.
  split.
  - induction s as [|c s IH]; cbn [digits]; [discriminate|]. destruct (digit_val c) as [d|] eqn:E; [|discriminate].
    destruct (N.ltb_spec d 16) as [L|L]; [|discriminate]. change (0 * 16 + d)%N with d. pose proof (digit_inv _ _ E) as D. destruct (N.eq_dec d 0) as [->|N0].
    + intros H. destruct (IH H) as [zs [c' [Hz [Hc ->]]]]. exists ("0"%char :: zs), c'. split; [constructor; [reflexivity|exact Hz]|]. split; [exact Hc|]. cbn. f_equal. apply D. reflexivity.
    + intros H. exists [], c. split; [constructor|]. cbn [app].
      destruct s as [|a s]; cbn [digits] in H; [injection H as ->; lia|].
      destruct (digit_val a) as [da|] eqn:Ea; [|discriminate]. destruct (N.ltb_spec da 16) as [La|]; [|discriminate].
      destruct s as [|x s]; cbn [digits] in H.
      * injection H as H. assert (d = 12%N /\ da = 8%N) as [-> ->] by lia. split.
        -- destruct D as [_ [_ [_ [D _]]]]. destruct (D eq_refl) as [->| ->]; cbn; auto.
        -- destruct (digit_inv _ _ Ea) as [_ [_ [Da _]]]. rewrite (Da eq_refl). reflexivity.
      * destruct (digit_val x) as [dx|]; [|discriminate]. destruct (N.ltb dx 16); [|discriminate]. apply digits_ge in H; lia.
  - intros [zs [c [Hz [Hc ->]]]]. induction Hz as [|c0 zs -> Hz IH]; [destruct Hc as [<-|[<-|[]]]; reflexivity|exact IH].
Qed.

(** the number part of strtol *)
Definition num_part (base : N) (s2 : bytes) : bytes :=
  match s2 with
  | z :: x :: d :: r =>
      if N.eqb base 16 && Ascii.eqb z "0"%char && (Ascii.eqb x "x"%char || Ascii.eqb x "X"%char) && is_base_digit 16 d then d :: r else s2
  | _ => s2
  end.
Lemma clamp_200 z : clamp_long z = 200%Z <-> z = 200%Z.
Proof. unfold clamp_long, LONG_MAX, LONG_MIN. destruct (Z.ltb_spec 9223372036854775807 z); [split; lia|]. destruct (Z.ltb_spec z (-9223372036854775808)); split; lia. Qed.
Lemma space_split s : exists ws, Forall blank ws /\ s = ws ++ drop_while isspace s /\ (forall c r, drop_while isspace s = c :: r -> isspace c = false).
Proof.
  induction s as [|c s [ws [H1 [H2 H3]]]]; [exists []; repeat split; [constructor|discriminate]|]. cbn [drop_while]. destruct (isspace c) eqn:E.
  - exists (c :: ws). split; [constructor; [apply isspace_blank, E|exact H1]|]. split; [cbn; f_equal; exact H2|exact H3].
  - exists []. split; [constructor|]. split; [reflexivity|]. intros c' r [= <- <-]. exact E.
Qed.
Lemma drop_blanks ws s : Forall blank ws -> (forall c r, s = c :: r -> isspace c = false) -> drop_while isspace (ws ++ s) = s.
Proof.
  intros H Hs. induction H as [|c ws Hc H IH]; cbn [app drop_while].
  - destruct s as [|c r]; [reflexivity|]. cbn. rewrite (Hs c r eq_refl). reflexivity.
  - apply isspace_blank in Hc. rewrite Hc. exact IH.
Qed.
Lemma num_digits base s2 : (base = 10 \/ base = 16)%N ->
  (exists neg, match num_part base s2 with
   | c :: _ => if is_base_digit base c then let '(v, rest) := digits base (num_part base s2) 0%N in (clamp_long (if neg : bool then - Z.of_N v else Z.of_N v)%Z, rest) else (0%Z, s2)
   | [] => (0%Z, s2) end = (200%Z, []) /\ neg = false) <-> digits base (num_part base s2) 0 = (200%N, []).
Proof.
  intros Hb. split.
  - intros [neg [H ->]]. destruct (num_part base s2) as [|c r] eqn:E; [discriminate|]. rewrite <- E in *. clear E.
    destruct (is_base_digit base c); [|discriminate]. destruct (digits base (num_part base s2) 0) as [v rest]. injection H as H ->.
    apply (proj1 (clamp_200 _)) in H. assert (v = 200%N) as -> by lia. reflexivity.
  - intros H. exists false. split; [|reflexivity]. rewrite H. destruct (num_part base s2) as [|c r] eqn:E; [cbn in H; discriminate|].
    cbn [digits] in H. unfold is_base_digit. destruct (digit_val c); [|discriminate]. destruct (N.ltb n base); [|discriminate]. reflexivity.
Qed.
Lemma strtol_200 base s : (base = 10 \/ base = 16)%N ->
  strtol base s = (200%Z, []) <-> exists ws sign s2, s = ws ++ sign ++ s2 /\ Forall blank ws /\ In sign [[]; ["+"%char]] /\ digits base (num_part base s2) 0 = (200%N, []).
Proof.
  intros Hb. unfold strtol. split.
  - destruct (space_split s) as [ws [Hw [Hs Hn]]]. destruct (drop_while isspace s) as [|c s1] eqn:Ed; [cbn; discriminate|].
    destruct (Ascii.eqb_spec c "-") as [->|N1].
    + intros H. exfalso. fold (num_part base s1) in H. destruct (num_part base s1) as [|c r]; [discriminate|].
      destruct (is_base_digit base c); [|discriminate]. destruct (digits base (c :: r) 0) as [v rest]. injection H as H _. apply (proj1 (clamp_200 _)) in H. lia.
    + assert (G : forall sign s2, s = ws ++ sign ++ s2 -> In sign [[]; ["+"%char]] ->
         match num_part base s2 with
         | c :: _ => if is_base_digit base c then let '(v, rest) := digits base (num_part base s2) 0%N in (clamp_long (Z.of_N v)%Z, rest) else (0%Z, s)
         | [] => (0%Z, s) end = (200%Z, []) -> exists ws sign s2, s = ws ++ sign ++ s2 /\ Forall blank ws /\ In sign [[]; ["+"%char]] /\ digits base (num_part base s2) 0 = (200%N, [])).
      { intros sign s2 E Hsg H. exists ws, sign, s2. split; [exact E|]. split; [exact Hw|]. split; [exact Hsg|].
        apply num_digits; [exact Hb|]. exists false. split; [|reflexivity]. destruct (num_part base s2) as [|c' r]; [discriminate|].
        destruct (is_base_digit base c'); [exact H|discriminate]. }
      destruct (Ascii.eqb_spec c "+") as [->|N2].
      * intros H. apply (G ["+"%char] s1); [exact Hs|cbn; auto|exact H].
      * intros H. apply (G [] (c :: s1)); [exact Hs|cbn; auto|exact H].
  - intros [ws [sign [s2 [Hs [Hw [Hsg H]]]]]].
    assert (Hd : exists c r, s2 = c :: r /\ isspace c = false /\ c <> "-"%char /\ c <> "+"%char).
    { destruct s2 as [|c r]; [cbn in H; discriminate|]. exists c, r. split; [reflexivity|].
      assert (Hdig : is_base_digit 16 c = true).
      { unfold num_part in H. destruct r as [|x [|d r]].
        - cbn [digits] in H. unfold is_base_digit. destruct (digit_val c) as [v|] eqn:E; [|discriminate]. apply N.ltb_lt. apply (digit_inv _ _ E).
        - cbn [digits] in H. unfold is_base_digit. destruct (digit_val c) as [v|] eqn:E; [|discriminate]. apply N.ltb_lt. apply (digit_inv _ _ E).
        - destruct (_ && _ && _ && _) eqn:Ez.
          + apply andb_true_iff in Ez as [Ez _]. apply andb_true_iff in Ez as [Ez _]. apply andb_true_iff in Ez as [_ Ez]. apply Ascii.eqb_eq in Ez. subst c. reflexivity.
          + cbn [digits] in H. unfold is_base_digit. destruct (digit_val c) as [v|] eqn:E; [|discriminate]. apply N.ltb_lt. apply (digit_inv _ _ E). }
      assert (K : forall c, negb (is_base_digit 16 c) || (negb (isspace c) && negb (Ascii.eqb c "-") && negb (Ascii.eqb c "+")) = true) by (apply byte_sweep; vm_compute; reflexivity).
      specialize (K c). rewrite Hdig in K. cbn [negb orb] in K. rewrite !andb_true_iff, !negb_true_iff, !Ascii.eqb_neq in K. tauto. }
    destruct Hd as [c [r [-> [Hsp [Hm Hp]]]]].
    destruct (proj2 (num_digits base (c :: r) Hb) H) as [neg [Hn ->]].
    assert (Hn' : match num_part base (c :: r) with
       | c0 :: _ => if is_base_digit base c0 then let '(v, rest) := digits base (num_part base (c :: r)) 0%N in (clamp_long (Z.of_N v)%Z, rest) else (0%Z, s)
       | [] => (0%Z, s) end = (200%Z, [])).
    { destruct (num_part base (c :: r)) as [|c' r']; [discriminate|]. destruct (is_base_digit base c'); [exact Hn|discriminate]. }
    apply Ascii.eqb_neq in Hm, Hp. destruct Hsg as [<-|[<-|[]]]; cbn [app] in Hs; subst s.
    + rewrite drop_blanks; [|exact Hw|intros c' r' [= <- <-]; exact Hsp]. rewrite Hm, Hp. exact Hn'.
    + rewrite drop_blanks; [|exact Hw|intros c' r' [= <- <-]; reflexivity]. exact Hn'.
Qed.
Lemma num_part_10 s : num_part 10 s = s.
Proof. destruct s as [|a [|b [|c r]]]; reflexivity. Qed.
Lemma num_part_16 s2 : digits 16 (num_part 16 s2) 0 = (200%N, []) <->
  exists pre zs c, s2 = pre ++ zs ++ [c; "8"%char] /\ In pre [[]; bs "0x"; bs "0X"] /\ zeros zs /\ In c ["c"%char; "C"%char].
Proof.
  rewrite digits_hex. split.
  - intros [zs [c [Hz [Hc E]]]]. destruct s2 as [|a [|b [|d r]]]; cbn [num_part] in E; try (exists [], zs, c; repeat split; [exact E|cbn; auto|exact Hz|exact Hc]).
    destruct (_ && _ && _ && _) eqn:Ez; [|exists [], zs, c; repeat split; [exact E|cbn; auto|exact Hz|exact Hc]].
    rewrite !andb_true_iff, orb_true_iff, !Ascii.eqb_eq in Ez. destruct Ez as [[[_ ->] [->| ->]] _].
    + exists (bs "0x"), zs, c. repeat split; [rewrite E; reflexivity|cbn; auto|exact Hz|exact Hc].
    + exists (bs "0X"), zs, c. repeat split; [rewrite E; reflexivity|cbn; auto|exact Hz|exact Hc].
  - intros [pre [zs [c [-> [Hp [Hz Hc]]]]]].
    assert (Hhead : forall x y r, zs ++ [c; "8"%char] = x :: y :: r -> y <> "x"%char /\ y <> "X"%char).
    { intros x y r E. destruct Hz as [|z zs -> Hz]; [injection E as <- <- _; split; discriminate|]. injection E as _ E.
      destruct Hz as [|z zs -> Hz]; [|injection E as <- _; split; discriminate]. injection E as <- _. destruct Hc as [<-|[<-|[]]]; split; discriminate. }
    assert (Hdig : exists d r, zs ++ [c; "8"%char] = d :: r /\ is_base_digit 16 d = true).
    { destruct Hz as [|z zs -> Hz]; [exists c, ["8"%char]; split; [reflexivity|destruct Hc as [<-|[<-|[]]]; reflexivity]|]. exists "0"%char, (zs ++ [c; "8"%char]). split; reflexivity. }
    exists zs, c. repeat split; [exact Hz|exact Hc|].
    destruct Hdig as [d [r [Ed Hd]]]. destruct Hp as [<-|[<-|[<-|[]]]]; cbn [app]; rewrite Ed.
    + rewrite Ed in Hhead. destruct r as [|y [|y' r]]; try reflexivity. cbn [num_part]. destruct (Hhead d y (y' :: r) eq_refl) as [H1 H2].
      apply Ascii.eqb_neq in H1, H2. rewrite H1, H2, andb_false_r. reflexivity.
    + cbn [num_part bs app]. unfold bs. cbn. rewrite Hd. reflexivity.
    + cbn [num_part bs app]. unfold bs. cbn. rewrite Hd. reflexivity.
Qed.
Lemma suffix_nil (p : Z * bytes) : (let '(n, suf) := p in match suf with [] => n | _ => (-1)%Z end) = 200%Z <-> p = (200%Z, []).
Proof. destruct p as [n [|c s]]; (split; [intros H; cbv iota beta in H|intros H; injection H as H; try discriminate]); [rewrite H; reflexivity|exact H|discriminate|..]. all: discriminate. Qed.
Lemma two_hundred_dec v : strtol 10 v = (200%Z, []) <-> exists ws sign zs, v = ws ++ sign ++ zs ++ bs "200" /\ Forall blank ws /\ In sign [[]; ["+"%char]] /\ zeros zs.
Proof.
  rewrite strtol_200 by auto. split.
  - intros [ws [sign [s2 [E [H1 [H2 H3]]]]]]. rewrite num_part_10 in H3. apply digits_dec in H3 as [zs [Hz ->]]. exists ws, sign, zs. auto.
  - intros [ws [sign [zs [E [H1 [H2 H3]]]]]]. exists ws, sign, (zs ++ bs "200"). rewrite num_part_10. repeat split; auto. apply digits_dec. eauto.
Qed.
Lemma two_hundred_hex v : strtol 16 v = (200%Z, []) <-> exists ws sign pre zs c, v = ws ++ sign ++ pre ++ zs ++ [c; "8"%char] /\ Forall blank ws /\ In sign [[]; ["+"%char]] /\
  In pre [[]; bs "0x"; bs "0X"] /\ zeros zs /\ In c ["c"%char; "C"%char].
Proof.
  rewrite strtol_200 by auto. split.
  - intros [ws [sign [s2 [E [H1 [H2 H3]]]]]]. apply num_part_16 in H3 as [pre [zs [c [-> [Hp [Hz Hc]]]]]]. exists ws, sign, pre, zs, c. auto 8.
  - intros [ws [sign [pre [zs [c [E [H1 [H2 [H3 [H4 H5]]]]]]]]]]. exists ws, sign, (pre ++ zs ++ [c; "8"%char]). repeat split; auto. apply num_part_16. exists pre, zs, c. auto.
Qed.
Lemma dec_not_hex ws sign zs z x r : ws ++ sign ++ zs ++ bs "200" = z :: x :: r -> Forall blank ws -> In sign [[]; ["+"%char]] -> zeros zs ->
  z = "0"%char -> x <> "x"%char /\ x <> "X"%char.
Proof.
  intros E Hw Hs Hz ->. destruct Hw as [|w ws Hw _]; [|injection E as -> _; apply isspace_blank in Hw; discriminate]. cbn [app] in E.
  destruct Hs as [<-|[<-|[]]]; [|discriminate]. cbn [app] in E. destruct Hz as [|c zs -> Hz]; [discriminate|]. injection E as E.
  destruct Hz as [|c zs -> Hz]; [injection E as <- _|injection E as <- _]; split; discriminate.
Qed.
Lemma two_hundred_cases v : two_hundred v ->
  (strtol 10 v = (200%Z, []) /\ forall z x r, v = z :: x :: r -> z = "0"%char -> x <> "x"%char /\ x <> "X"%char) \/
  (exists x r, v = "0"%char :: x :: r /\ In x ["x"%char; "X"%char] /\ r <> [] /\ strtol 16 r = (200%Z, [])).
Proof.
  intros [ws sign zs H1 H2 H3|x ws sign pre zs c Hx H1 H2 H3 H4 H5].
  - left. split; [apply two_hundred_dec; exists ws, sign, zs; auto|]. intros z x r E. eapply dec_not_hex; eassumption.
  - right. eexists x, _. split; [reflexivity|]. split; [exact Hx|]. split; [|apply two_hundred_hex; exists ws, sign, pre, zs, c; auto 8].
    intros E. apply (f_equal (@length _)) in E. rewrite !app_length in E. cbn in E. lia.
Qed.
Lemma long_200 v : long_of (Some v) (-1) = 200%Z <-> is_200 v.
Proof.
  unfold is_200. unfold long_of. destruct v as [|z v0] eqn:Ev.
  - split; [discriminate|]. intros [_ H]. inversion H as [ws sign zs H1 H2 H3 E|]. exfalso. apply (f_equal (@length _)) in E. rewrite !app_length in E. cbn in E. lia.
  - rewrite <- Ev. destruct (Nat.ltb_spec 64 (length v + 1)) as [L|L]; [split; [discriminate|lia]|].
    split.
    + intros H. split; [lia|]. subst v. destruct v0 as [|x r].
      * apply suffix_nil, two_hundred_dec in H as [ws [sign [zs [-> [H1 [H2 H3]]]]]]. constructor; assumption.
      * destruct (Ascii.eqb_spec z "0") as [->|Nz]; cbn [andb] in H.
        -- destruct (Ascii.eqb_spec x "x") as [->|N1]; [|destruct (Ascii.eqb_spec x "X") as [->|N2]]; cbn [orb] in H.
           ++ destruct r as [|y r]; [discriminate|]. apply suffix_nil, two_hundred_hex in H as [ws [sign [pre [zs [c [-> [H1 [H2 [H3 [H4 H5]]]]]]]]]]. apply th_hex; cbn; auto.
           ++ destruct r as [|y r]; [discriminate|]. apply suffix_nil, two_hundred_hex in H as [ws [sign [pre [zs [c [-> [H1 [H2 [H3 [H4 H5]]]]]]]]]]. apply th_hex; cbn; auto.
           ++ apply suffix_nil, two_hundred_dec in H as [ws [sign [zs [-> [H1 [H2 H3]]]]]]. constructor; assumption.
        -- apply suffix_nil, two_hundred_dec in H as [ws [sign [zs [-> [H1 [H2 H3]]]]]]. constructor; assumption.
    + intros [_ H]. destruct (two_hundred_cases _ H) as [[G Hn]|[x [r [E [Hx [Hr G]]]]]].
      * clear H. subst v. destruct v0 as [|x1 r1]; [rewrite G; reflexivity|].
        destruct (Ascii.eqb_spec z "0") as [Hz|Nz]; [|cbn [andb]; rewrite G; reflexivity].
        destruct (Hn _ _ _ eq_refl Hz) as [N1 N2]. apply Ascii.eqb_neq in N1, N2. rewrite N1, N2. cbn [andb orb]. rewrite G. reflexivity.
      * rewrite E in Ev. injection Ev as <- <-. destruct r as [|y r]; [congruence|]. rewrite G. destruct Hx as [<-|[<-|[]]]; reflexivity.
Qed.
Lemma version_of es : (long_of (last_value es LICENSE_VERSION) (-1) =? 200)%Z = true <-> version_200 es.
Proof.
  rewrite Z.eqb_eq. unfold version_200. change LICENSE_VERSION with (bs "lic_ver"). destruct (last_value es (bs "lic_ver")) as [v|].
  - rewrite long_200. split; [intros [H1 H2]; eauto|intros [v' [[= <-] H]]; exact H].
  - split; [discriminate|intros [v [[=] _]]].
Qed.
