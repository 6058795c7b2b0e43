(** The loader, with the text of the comments. *)
From Coq Require Import Lia.
From Verif Require Import Base P_Base CTypes StringUtils P_Strings Ini Spec_Ini P_Ini IniBuf P_IniBuf P_IniBuf2 IniMulti Spec_IniMulti P_IniMulti P_IniMulti2 P_IniMulti3 P_IniMulti4 P_IniMulti5 P_IniMulti6 P_IniCom.

Definition coms (ls : list bytes) : option bytes := match ls with [] => None | _ => Some (lines_value ls) end.
(** [ini_scan_ml] with the comment before each item *)
Fixpoint ini_scan_mlc (fuel : nat) (sec : section) (cm : option bytes) (s : bytes) : option (list (item * option bytes)) :=
  match fuel with
  | 0 => None
  | S f =>
      match drop_while ini_space s with
      | [] => Some []
      | c :: r =>
          if ini_comment c then
            match take_comment f true (c :: r) with
            | Some (ls, s') => ini_scan_mlc f sec (coms ls) s'
            | None => None
            end
          else if Ascii.eqb c "["%char then
            let '(name, rest) :=
              span (fun x => negb (Ascii.eqb x "]"%char) && not_nl x) (drop_while ini_space r) in
            match rest with
            | d :: rest' =>
                if Ascii.eqb d "]"%char then
                  let n := rdrop_while ini_space name in
                  option_map (cons (ISection n, cm)) (ini_scan_mlc f (SecNamed n) None (to_eol rest'))
                else ini_scan_mlc f SecBroken cm rest
            | [] => ini_scan_mlc f SecBroken cm rest
            end
          else
            let '(key, rest) :=
              span (fun x => negb (Ascii.eqb x "="%char) && not_nl x) (c :: r) in
            match rest with
            | d :: rest' =>
                if Ascii.eqb d "="%char then
                  match key with
                  | [] => ini_scan_mlc f sec cm (to_eol rest)
                  | _ =>
                      let k := rdrop_while ini_space key in
                      let '(val, rest2) :=
                        span not_nl (drop_while (fun x => not_nl x && ini_space x) rest') in
                      let v := rdrop_while ini_space val in
                      let rest3 := match rest2 with [] => [] | _ => skip_newline rest2 end in
                      match opens v with
                      | None => option_map (cons (IEntry sec k v, cm)) (ini_scan_mlc f sec None rest3)
                      | Some tag =>
                          match scan_multi f tag rest3 with
                          | Some ((_ :: _) as ls, rest4) => option_map (cons (IEntry sec k (lines_value ls), cm)) (ini_scan_mlc f sec None rest4)
                          | _ => None
                          end
                      end
                  end
                else ini_scan_mlc f sec cm rest
            | [] => ini_scan_mlc f sec cm rest
            end
      end
  end.
Definition com_is (b : bytes) (m : nat) (com : option nat) (c : option bytes) : Prop :=
  match com, c with None, None => True | Some q, Some t => at_ b q t /\ q + length t < m | _, _ => False end.
Lemma com_is_mono b m m' com c : m <= m' -> com_is b m com c -> com_is b m' com c.
Proof. intros L. destruct com, c; cbn [com_is]; auto. intros [A B]. split; [exact A|lia]. Qed.
Lemma com_is_below b b' m com c : same_below m b b' -> com_is b m com c -> com_is b' m com c.
Proof. intros H. destruct com, c; cbn [com_is]; auto. intros [A B]. split; [eapply at_same_below; [exact H| |exact A]; lia|exact B]. Qed.
Lemma com_is_any b m com c : m <= length b -> com_is b m com c -> com_is b (length b) com c.
Proof. apply com_is_mono. Qed.
Definition com_rel (b : bytes) (es : entry * seen) (i : item * option bytes) : Prop := com_is b (length b) (e_comment (fst es)) (snd i).
Definition goal_mlc (F G N p : nat) (sp : sptr) (com : option nat) (b s : bytes) (items : list (item * option bytes)) : Prop :=
  exists l b', load_from_ml F G N p sp com b = Ok (l, b') /\ same_below p b b' /\ (s = [] -> b' = b) /\ Forall2 (item_rel b') l (map fst items) /\ Forall2 (com_rel b') l items.
Lemma take_comment_le f blank : forall s ls s', take_comment f blank s = Some (ls, s') -> length s' <= length s.
Proof.
  induction f as [|f IH]; intros s ls s' H; (destruct s as [|c s]; [cbn in H; injection H as <- <-; cbn; lia|]); cbn [take_comment] in H; (destruct (ini_comment c); [try discriminate|destruct blank; [|injection H as <- <-; lia]; destruct (drop_while ini_space (c :: s)) as [|d r] eqn:ED; [injection H as <- <-; lia|]; destruct (ini_comment d); [try discriminate|injection H as <- <-; lia]]).
  - pose proof (span_len not_nl (c :: s)) as SL. destruct (span not_nl (c :: s)) as [l t]. cbn [fst snd] in SL. destruct t as [|x t]; [injection H as <- <-; cbn; lia|]. destruct (take_comment f blank (skip_newline (x :: t))) as [[a b]|] eqn:E; [|discriminate]. injection H as <- <-. apply IH in E. pose proof (skip_newline_length x t). cbn [length] in *. cbn. lia.
  - destruct (take_comment f true (d :: r)) as [[a b]|] eqn:E; [|discriminate]. injection H as <- <-. apply IH in E. pose proof (drop_while_length ini_space (c :: s)). rewrite ED in *. cbn [length snd] in *. lia.
Qed.
Lemma take_comment_less f blank c r ls s' : ini_comment c = true -> take_comment f blank (c :: r) = Some (ls, s') -> length s' < length (c :: r).
Proof.
  intros C H. destruct f as [|f]; cbn [take_comment] in H; rewrite C in H; [discriminate|]. pose proof (span_len not_nl (c :: r)) as SL. destruct (span not_nl (c :: r)) as [l t]. cbn [fst snd] in SL. destruct t as [|x t]; [injection H as <- <-; cbn; lia|]. destruct (take_comment f blank (skip_newline (x :: t))) as [[a b]|] eqn:E; [|discriminate]. injection H as <- <-. apply take_comment_le in E. pose proof (skip_newline_length x t). cbn [length] in *. cbn. lia.
Qed.
Lemma load_mlc_ok f : forall sec cm s items, ini_scan_mlc f sec cm s = Some items -> length s < f ->
  forall F G N p sp com b, at_ b p s -> length s < F -> length s < G -> length b <= N ->
    (drop_while ini_space s = [] \/ sec_rel b (first_at p s) sp sec) -> (drop_while ini_space s = [] \/ com_is b p com cm) -> goal_mlc F G N p sp com b s items.
Proof.
  induction f as [|f IH]; intros sec cm s items HS HL F G N p sp com b HA HF HG HN HR HCM; [lia|].
  destruct F as [|F]; [lia|]. unfold goal_mlc. rewrite lfm_cont. cbn [find_entry_ml].
  destruct s as [|c0 s0].
  { cbn in HS. injection HS as <-. cbn [at_] in HA. rewrite (step _ _ _ _ _ _ (rd_ok _ _ _ HA)). rewrite Ascii.eqb_refl. exists [], b. split; [reflexivity|]. split; [apply same_below_refl|]. split; [reflexivity|]. split; constructor. }
  remember (c0 :: s0) as s eqn:Es. assert (H0 : nth_error b p = Some c0 /\ c0 <> NUL) by (subst s; cbn [at_] in HA; tauto). destruct H0 as [H0 NZ].
  rewrite (step _ _ _ _ _ _ (rd_ok _ _ _ H0)). destruct (Ascii.eqb_spec c0 NUL) as [|_]; [congruence|].
  destruct (fwd_ok ini_space b s N p HA (at_lt_N _ _ _ _ HA HN)) as [p1 [E1 [P1 [A1 S1]]]]. rewrite (step _ _ _ _ _ _ E1). clear E1.
  rewrite <- drop_while_span in A1. assert (SL1 := span_len ini_space s). rewrite <- drop_while_span in SL1.
  assert (FA : first_at p s = p1) by (unfold first_at; lia). rewrite FA in HR.
  cbn [ini_scan_mlc] in HS. pose proof (drop_while_head ini_space s) as HH. destruct (drop_while ini_space s) as [|c r] eqn:ED.
  { injection HS as <-. cbn [at_] in A1. rewrite (step _ _ _ _ _ _ (rd_ok _ _ _ A1)). rewrite Ascii.eqb_refl. exists [], b. split; [reflexivity|]. split; [apply same_below_refl|]. split; [reflexivity|]. split; constructor. }
  cbn [head_not] in HH. destruct HR as [HR|HR]; [discriminate|]. destruct HCM as [HCM|HCM]; [discriminate|].
  assert (NE : s <> []) by (subst s; discriminate). clear Es H0 NZ FA.
  pose proof A1 as A1'. cbn [at_] in A1'. destruct A1' as [C1 [NZ A2]]. rewrite (step _ _ _ _ _ _ (rd_ok _ _ _ C1)). destruct (Ascii.eqb_spec c NUL) as [|_]; [congruence|].
  assert (PP : p <= p1) by lia. cbn [length] in SL1.
  (* conclusion from a smaller text with the copy unchanged below p1 *)
  assert (K : forall F' G' p' sp' com' b1 s' its, goal_mlc F' G' N p' sp' com' b1 s' its -> same_below p b b1 -> p <= p' ->
     forall m, m = load_from_ml F' G' N p' sp' com' b1 -> exists l b', m = Ok (l, b') /\ same_below p b b' /\ (s = [] -> b' = b) /\ Forall2 (item_rel b') l (map fst its) /\ Forall2 (com_rel b') l its).
  { intros F' G' p' sp' com' b1 s' its [l [b' [X1 [X2 [X3 X4]]]]] SB LP m ->. exists l, b'. split; [exact X1|]. split; [eapply same_below_trans; [exact SB|eapply same_below_le; [exact LP|exact X2]]|]. split; [intros; congruence|exact X4]. }
  destruct (ini_comment c) eqn:EC.
  { (* a comment *)
    destruct (take_comment f true (c :: r)) as [[ls s']|] eqn:EK; [|discriminate].
    pose proof (take_comment_less f true c r ls s' EC EK) as LT.
    destruct (comment_is true N f (c :: r) ls s' EK N b p1 p1 [] A1 I eq_refl ltac:(cbn; lia) ltac:(intros _; split; [reflexivity|intros _; eauto]) (at_lt_N _ _ _ _ A1 HN) HN) as (p' & v & b1 & E1 & X1 & X2 & XP & X4 & XV).
    cbn [flat flat_map length app] in E1, XV. rewrite Nat.add_0_r in E1. rewrite (step _ _ _ _ _ _ E1). cbn [length] in X2, LT. refine (K F G p' sp v b1 s' items _ _ _ _ eq_refl); [|eapply same_below_le; [|exact X4]; lia|lia].
    eapply (IH sec (coms ls) s' items HS); [lia|exact X1|lia|lia|destruct X4; lia| |].
    - right. eapply sec_rel_mono; [|eapply sec_rel_below; [eapply same_below_le; [|exact X4]|exact HR]]; [unfold first_at; lia|lia].
    - destruct ls as [|l0 ls]; cbn [com_text coms] in *; [subst v; right; exact I|]. destruct XV as (-> & Y1 & Y2 & [-> |Y3]); [left; reflexivity|right]. split; [exact Y1|exact Y3]. }
  destruct (Ascii.eqb_spec c "["%char) as [->|NB].
  { (* a section header *)
    destruct (fwd_ok ini_space b r N (S p1) A2 (at_lt_N _ _ _ _ A2 HN)) as [q [E1 [P2 [A3 S3]]]]. rewrite (step _ _ _ _ _ _ E1). clear E1. rewrite <- drop_while_span in A3. assert (SL2 := span_len ini_space r). rewrite <- drop_while_span in SL2.
    destruct (fwd_ok (fun x => negb (Ascii.eqb x "]"%char) && negb (is_nl x)) b _ N q A3 (at_lt_N _ _ _ _ A3 HN)) as [p2 [E1 [P3 [A4 S4]]]]. rewrite (step _ _ _ _ _ _ E1). clear E1.
    assert (SL3 := span_len (fun x => negb (Ascii.eqb x "]"%char) && negb (is_nl x)) (drop_while ini_space r)). unfold not_nl in HS.
    pose proof (span_snd_head (fun x => negb (Ascii.eqb x "]"%char) && negb (is_nl x)) (drop_while ini_space r)) as HD.
    pose proof (span_sub_free (fun x => negb (Ascii.eqb x "]"%char) && negb (is_nl x)) _ (at_nul_free _ _ _ A3)) as NF.
    destruct (span _ (drop_while ini_space r)) as [name rest]. cbn [fst snd] in *.
    destruct rest as [|d rest].
    - pose proof A4 as A4'. cbn [at_] in A4'. rewrite (step _ _ _ _ _ _ (rd_ok _ _ _ A4')). change (negb (Ascii.eqb NUL "]"%char)) with true. cbv iota.
      refine (K F G p2 (SAt q) com b [] items _ (same_below_refl _ _) _ _ eq_refl); [|lia]. eapply (IH SecBroken cm [] items HS); [cbn; lia|exact A4|cbn; lia|cbn; lia|exact HN|left; reflexivity|right; eapply com_is_mono; [|exact HCM]; lia].
    - pose proof A4 as A4'. cbn [at_] in A4'. destruct A4' as [CD [ND A5]]. rewrite (step _ _ _ _ _ _ (rd_ok _ _ _ CD)). cbn [head_not] in HD. cbn [length] in SL3.
      destruct (Ascii.eqb d "]"%char) eqn:EB; cbn [negb andb] in *.
      + (* closed *)
        destruct (ini_scan_mlc f (SecNamed (rdrop_while ini_space name)) None (to_eol rest)) as [items'|] eqn:EI; [|discriminate]. injection HS as <-. set (n := rdrop_while ini_space name) in *.
        assert (LN : length n <= length name) by apply rdrop_while_length. pose proof (at_bound _ _ _ A4) as B4. cbn [length] in B4.
        destruct (trim_end_ok b q name p2 N S4 NF ltac:(left; lia) P3 ltac:(lia) ltac:(lia) ltac:(lia)) as [T1 T2]. fold n in T1, T2. rewrite (step _ _ _ _ _ _ T1). clear T1.
        set (b1 := put (q + length n) NUL b) in *. assert (L1 : length b1 = length b) by (apply put_length; lia).
        assert (F1 : same_from (S p2) b b1) by (apply put_from; lia). assert (G1 : same_below p b b1) by (apply put_below; lia).
        pose proof (at_same_from _ _ _ _ _ F1 (le_n _) A5) as A6.
        destruct (fwd_ok (fun x => negb (is_nl x)) b1 rest N (S p2) A6 (at_lt_N _ _ _ N A6 ltac:(lia))) as [p3 [E1 [P4 [A7 _]]]]. rewrite (step _ _ _ _ _ _ E1). clear E1. rewrite <- to_eol_span in A7.
        assert (SL4 := span_len (fun x => negb (is_nl x)) rest). rewrite <- to_eol_span in SL4.
        assert (SS : sec_str b1 (SAt q) n) by exact T2.
        unfold bbind at 1. unfold bret at 1. cbn [cont_ml]. set (e := {| e_sec := SAt q; e_kv := None; e_comment := com |}).
        rewrite (bbind_run _ _ _ _ _ (see_sec N e b1 n eq_refl SS ltac:(lia))).
        destruct G as [|G]; [lia|]. rewrite lem_S.
        destruct (IH (SecNamed n) None (to_eol rest) items' EI ltac:(lia) N G N p3 (SAt q) None b1 A7) as [l [b' [X1 [X2 [X3 [X4 X5]]]]]]; [apply (at_lt_N _ _ _ N A7); lia|lia|lia| |right; exact I|].
        { right. cbn [sec_rel]. split; [exact T2|]. unfold first_at. lia. }
        rewrite (bbind_run _ _ _ _ _ X1). exists ((e, (n, None)) :: l), b'. split; [reflexivity|]. split; [eapply same_below_trans; [exact G1|eapply same_below_le; [|exact X2]; lia]|]. split; [intros; congruence|].
        split; [|constructor; [|exact X5]; unfold com_rel; cbn [fst snd e e_comment]; eapply com_is_any; [|eapply com_is_below; [eapply same_below_le; [|exact X2]|eapply com_is_below; [exact G1|exact HCM]]]; [destruct X2; pose proof (at_bound _ _ _ HA); lia|lia]].
        constructor; [|exact X4]. cbn [item_rel fst snd e e_kv e_sec sec_str]. split; [reflexivity|]. split; [|reflexivity]. eapply at_same_below; [exact X2| |exact T2]. lia.
      + (* broken *)
        assert (ENL : is_nl d = true) by (destruct (is_nl d); [reflexivity|discriminate HD]).
        refine (K F G p2 (SAt q) com b (d :: rest) items _ (same_below_refl _ _) _ _ eq_refl); [|lia]. eapply (IH SecBroken cm (d :: rest) items HS); [cbn [length]; lia|exact A4|cbn [length]; lia|cbn [length]; lia|exact HN| |right; eapply com_is_mono; [|exact HCM]; lia].
        right. exists q, name, d. split; [reflexivity|]. split; [apply seg_app; split; [exact S4|]; cbn [seg]; rewrite <- P3; auto|]. split; [exact NF|]. split; [exact ENL|].
        unfold first_at. pose proof (drop_while_length ini_space rest). cbn [drop_while]. rewrite (is_nl_space _ ENL). cbn [length]. lia. }
  (* a key *)
  destruct (fwd_ok (fun x => negb (Ascii.eqb x "="%char) && negb (is_nl x)) b _ N p1 A1 (at_lt_N _ _ _ _ A1 HN)) as [p2 [E1 [P3 [A4 S4]]]]. rewrite (step _ _ _ _ _ _ E1). clear E1.
  assert (SL3 := span_len (fun x => negb (Ascii.eqb x "="%char) && negb (is_nl x)) (c :: r)). unfold not_nl in HS.
  pose proof (span_snd_head (fun x => negb (Ascii.eqb x "="%char) && negb (is_nl x)) (c :: r)) as HD.
  pose proof (span_sub_free (fun x => negb (Ascii.eqb x "="%char) && negb (is_nl x)) _ (at_nul_free _ _ _ A1)) as NF.
  assert (HK : fst (span (fun x => negb (Ascii.eqb x "="%char) && negb (is_nl x)) (c :: r)) = [] \/ exists r', fst (span (fun x => negb (Ascii.eqb x "="%char) && negb (is_nl x)) (c :: r)) = c :: r').
  { cbn [span]. destruct (_ && _); [right; destruct (span _ r); eexists; reflexivity|left; reflexivity]. }
  assert (HC : Ascii.eqb c "="%char = false -> fst (span (fun x => negb (Ascii.eqb x "="%char) && negb (is_nl x)) (c :: r)) <> []).
  { intros X. cbn [span]. rewrite X. cbn [negb andb]. destruct (is_nl c) eqn:ENL; [rewrite (is_nl_space _ ENL) in HH; discriminate|]. cbn [negb]. destruct (span _ r). discriminate. }
  assert (HC2 : Ascii.eqb c "="%char = true -> snd (span (fun x => negb (Ascii.eqb x "="%char) && negb (is_nl x)) (c :: r)) = c :: r).
  { intros X. cbn [span]. rewrite X. reflexivity. }
  destruct (span _ (c :: r)) as [key rest]. cbn [fst snd length] in *.
  assert (LESS : forall d rest', rest = d :: rest' -> Ascii.eqb d "="%char = false -> length rest < S (length r)).
  { intros d rest' -> HE. destruct (Ascii.eqb c "="%char) eqn:EE; [specialize (HC2 eq_refl); injection HC2 as X1 X2; rewrite X1 in HE; congruence|]. specialize (HC eq_refl). destruct key; [congruence|]. cbn [length] in *. lia. }
  destruct rest as [|d rest].
  { pose proof A4 as A4'. cbn [at_] in A4'. rewrite (step _ _ _ _ _ _ (rd_ok _ _ _ A4')). change (negb (Ascii.eqb NUL "="%char)) with true. cbv iota.
    refine (K F G p2 sp com b [] items _ (same_below_refl _ _) _ _ eq_refl); [|lia]. eapply (IH sec cm [] items HS); [cbn; lia|exact A4|cbn; lia|cbn; lia|exact HN|left; reflexivity|right; eapply com_is_mono; [|exact HCM]; lia]. }
  pose proof A4 as A4'. cbn [at_] in A4'. destruct A4' as [CD [ND A5]]. rewrite (step _ _ _ _ _ _ (rd_ok _ _ _ CD)). cbn [head_not] in HD. cbn [length] in SL3.
  destruct (Ascii.eqb d "="%char) eqn:EB; cbn [negb andb] in *.
  2:{ specialize (LESS d rest eq_refl EB). cbn [length] in LESS.
      refine (K F G p2 sp com b (d :: rest) items _ (same_below_refl _ _) _ _ eq_refl); [|lia]. eapply (IH sec cm (d :: rest) items HS); [cbn [length]; lia|exact A4|cbn [length]; lia|cbn [length]; lia|exact HN| |right; eapply com_is_mono; [|exact HCM]; lia].
      right. eapply sec_rel_mono; [|exact HR]. unfold first_at. lia. }
  clear LESS HC HC2. destruct HK as [->|[key' ->]].
  { (* no key before the '=' *)
    cbn [length] in P3. rewrite Nat.add_0_r in P3. subst p2. rewrite Nat.eqb_refl.
    destruct (fwd_ok (fun x => negb (is_nl x)) b _ N p1 A4 (at_lt_N _ _ _ _ A4 HN)) as [p3 [E1 [P4 [A6 _]]]]. rewrite (step _ _ _ _ _ _ E1). clear E1. rewrite <- to_eol_span in A6.
    assert (SL4 := span_len (fun x => negb (is_nl x)) (d :: rest)). rewrite <- to_eol_span in SL4.
    assert (LT : length (to_eol (d :: rest)) <= length rest). { apply Ascii.eqb_eq in EB. subst d. unfold to_eol. cbn [drop_while]. change (not_nl "="%char) with true. cbv iota. apply drop_while_length. }
    cbn [length] in *. refine (K F G p3 sp com b (to_eol (d :: rest)) items _ (same_below_refl _ _) _ _ eq_refl); [|lia]. eapply (IH sec cm _ items HS); [lia|exact A6|lia|lia|exact HN| |right; eapply com_is_mono; [|exact HCM]; lia].
    right. eapply sec_rel_mono; [|exact HR]. unfold first_at. lia. }
  (* an entry *)
  cbn [length] in P3, SL3. destruct (Nat.eqb_spec p1 p2) as [|_]; [lia|].
  set (key := c :: key') in *. set (k := rdrop_while ini_space key) in *. assert (LK : length k <= length key) by apply rdrop_while_length. change (length key) with (S (length key')) in LK.
  pose proof (at_bound _ _ _ A4) as B4. cbn [length] in B4.
  destruct (trim_end_ok b p1 key p2 N S4 NF) as [T1 T2]; [right; exists c, key'; split; [reflexivity|exact HH]|exact P3|lia|lia|change (length key) with (S (length key')); lia|]. fold k in T1, T2.
  rewrite (step _ _ _ _ _ _ T1). clear T1. set (b1 := put (p1 + length k) NUL b) in *. assert (L1 : length b1 = length b) by (apply put_length; lia).
  assert (F1 : same_from (S p2) b b1) by (apply put_from; lia). assert (G1 : same_below p1 b b1) by (apply put_below; lia).
  pose proof (at_same_from _ _ _ _ _ F1 (le_n _) A5) as A6.
  destruct (fwd_ok (fun x => negb (is_nl x) && ini_space x) b1 rest N (S p2) A6 (at_lt_N _ _ _ N A6 ltac:(lia))) as [v [E1 [P4 [A7 _]]]]. rewrite (step _ _ _ _ _ _ E1). clear E1. rewrite <- drop_while_span in A7.
  assert (SL4 := span_len (fun x => negb (is_nl x) && ini_space x) rest). rewrite <- drop_while_span in SL4.
  set (w := drop_while (fun x => negb (is_nl x) && ini_space x) rest) in *.
  destruct (fwd_ok (fun x => negb (is_nl x)) b1 w N v A7 (at_lt_N _ _ _ N A7 ltac:(lia))) as [p3 [E1 [P5 [A8 S8]]]]. rewrite (step _ _ _ _ _ _ E1). clear E1.
  assert (SL5 := span_len (fun x => negb (is_nl x)) w). pose proof (span_sub_free (fun x => negb (is_nl x)) _ (at_nul_free _ _ _ A7)) as NF8.
  change (span (fun c : ascii => negb (is_nl c)) w) with (span (fun x => negb (is_nl x)) w) in HS. change (span not_nl w) with (span (fun x => negb (is_nl x)) w) in HS.
  destruct (span (fun x => negb (is_nl x)) w) as [val rest2]. cbn [fst snd] in *. set (vv := rdrop_while ini_space val) in *. assert (LV : length vv <= length val) by apply rdrop_while_length.
  set (rest3 := match rest2 with [] => [] | _ => skip_newline rest2 end) in *.
  destruct p3 as [|q3]; [lia|]. cbn [back]. rewrite (step (bret q3) _ _ b1 q3 b1 eq_refl).
  assert (NX : exists nx, (c <# rd (S q3) ;; bbind (if Ascii.eqb c NUL then bret (S q3) else skip_nl (S q3)) (fun next => bret next)) b1 = Ok (nx, b1) /\ at_ b1 nx rest3 /\ nx + length rest3 = S q3 + length rest2 /\ (rest3 = [] /\ S q3 = nx \/ S q3 < nx)).
  { destruct rest2 as [|e2 rest2].
    - pose proof A8 as A8'. cbn [at_] in A8'. rewrite (bbind_run _ _ _ _ _ (rd_ok _ _ _ A8')). rewrite Ascii.eqb_refl. exists (S q3). split; [reflexivity|]. split; [exact A8|]. split; [reflexivity|]. left. split; reflexivity.
    - pose proof A8 as A8'. cbn [at_] in A8'. destruct A8' as [CE [NE2 _]]. rewrite (bbind_run _ _ _ _ _ (rd_ok _ _ _ CE)). destruct (Ascii.eqb_spec e2 NUL) as [|_]; [congruence|].
      destruct (skip_nl_ok b1 (S q3) (e2 :: rest2) A8 ltac:(discriminate)) as [nx [X1 [X2 [X3 X4]]]]. exists nx. rewrite (bbind_run _ _ _ _ _ X1). split; [reflexivity|]. split; [exact X2|]. split; [exact X3|]. right. exact X4. }
  destruct NX as [nx [E1 [A9 [LX CX]]]].
  pose proof (at_bound _ _ _ A8) as B8.
  destruct (trail_ok b1 v val N q3 S8 ltac:(left; lia) P5 ltac:(lia)) as [q4 [E4 P6]]. fold vv in P6.
  assert (STEP : forall (K : nat -> B (option entry * nat * sptr)) (h : _ -> B (list (entry * seen))), bbind (c <# rd (S q3) ;; next <# (if Ascii.eqb c NUL then bret (S q3) else skip_nl (S q3)) ;; q <# trail N v q3 ;; _ <# wr (S q) NUL ;; K next) h b1
    = bbind (K nx) h (put (v + length vv) NUL b1)).
  { intros K0 h. unfold bbind in E1 |- *. destruct (rd (S q3) b1) as [[x y]| | |]; try discriminate. destruct ((if Ascii.eqb x NUL then bret (S q3) else skip_nl (S q3)) y) as [[x' y']| | |]; try discriminate. unfold bret in E1. injection E1 as -> ->. rewrite E4. rewrite P6. rewrite wr_ok by lia. reflexivity. }
  rewrite STEP. clear STEP E1. set (b2 := put (v + length vv) NUL b1) in *. assert (L2 : length b2 = length b1) by (apply put_length; lia).
  pose proof (cut_ok b1 v val (S q3) S8 NF8 P5 ltac:(lia)) as AV. cbv zeta in AV. fold vv in AV. fold b2 in AV.
  assert (G2 : same_below (S p2) b1 b2) by (apply put_below; lia).
  assert (AK : at_ b2 p1 k) by (eapply at_same_below; [exact G2|lia|exact T2]).
  assert (ZK : nth_error b2 (p1 + length k) = Some NUL). { rewrite <- (app_nil_r k) in AK. apply at_app in AK. destruct AK as [_ [_ AK]]. exact AK. }
  assert (G12 : same_below p1 b b2) by (eapply same_below_trans; [exact G1|eapply same_below_le; [|exact G2]; lia]).
  destruct (sec_rel_str b2 p1 sp sec (p1 + length k) (sec_rel_below _ _ _ _ _ G12 HR) ltac:(lia) ZK) as [m [M1 [M2 M3]]].
  assert (A10 : at_ b2 nx rest3).
  { destruct CX as [[-> <-]|CX]; [|eapply at_same_from; [apply (put_from b1 (v + length vv) NUL nx); lia|lia|exact A9]]. cbn [at_] in *. unfold b2. rewrite put_nth by lia. destruct (Nat.eqb _ _); [reflexivity|exact A9]. }
  rewrite (step (is_tag v) _ _ b2 _ b2 (is_tag_ok b2 v vv AV)). destruct (opens vv) as [tag|] eqn:EO.
  { (* a value of several lines *)
    destruct (scan_multi f tag rest3) as [[[|l0 ls] rest4]|] eqn:ES; try discriminate. destruct (ini_scan_mlc f sec None rest4) as [items'|] eqn:EI; [|discriminate]. injection HS as <-. set (lv := l0 :: ls) in *.
    destruct (scan_multi_ok sec [] tag f rest3 [] ltac:(lia)) as (ls' & r' & Y1 & MU & LR & _). rewrite ES in Y1. injection Y1 as <- <-.
    apply opens_some in EO. pose proof AV as AT. rewrite EO in AT. apply at_app in AT as (_ & _ & AT). cbn [length] in AT. assert (LVV : length vv = 3 + length tag) by (rewrite EO; reflexivity).
    assert (MT : exists y b3, multi_text N N (v + 3) nx nx nx b2 = Ok ((y, Some nx), b3) /\ at_ b3 nx (lines_value lv) /\ at_ b3 y rest4 /\ y + length rest4 = nx + length rest3 /\ same_below nx b2 b3
      /\ nx + length (lines_value lv) <= y /\ (rest4 = [] \/ nx + length (lines_value lv) < y)).
    { destruct CX as [[R3 NXE]|CX].
      - (* at the end of the text *)
        rewrite R3 in ES, A10 |- *. destruct N as [|N']; [lia|]. destruct f as [|f']; [discriminate|]. cbn [scan_multi span] in ES. destruct (same_nameb_spec [] tag) as [O2|O2]; [discriminate|]. injection ES as Q1 Q2 Q3. unfold lv. rewrite <- Q1, <- Q2, <- Q3.
        destruct (multi_end N' (S N') (v + 3) tag nx b2 A10 AT O2 ltac:(lia) ltac:(lia)) as (b3 & Z1 & Z2 & Z3). exists nx, b3. cbn [lines_value length]. split; [exact Z1|]. split; [exact Z2|]. split; [exact Z2|]. split; [reflexivity|]. split; [exact Z3|]. split; [lia|left; reflexivity].
      - destruct (multi_ok N (v + 3) tag nx rest3 lv rest4 MU [] b2 nx nx N I eq_refl ltac:(cbn; lia) (le_n _) A10 AT ltac:(lia) ltac:(lia) ltac:(lia) ltac:(discriminate)) as (y & b3 & Z1 & Z2 & Z3 & Z4 & Z5 & _ & Z6 & Z7).
        exists y, b3. auto 10. }
    destruct MT as (y & b3 & Z1 & Z2 & Z3 & Z4 & Z5 & Z6 & Z7). rewrite (step _ _ _ _ _ _ Z1). cbv beta iota. rewrite bret_bind.
    assert (G3 : same_below p1 b b3) by (eapply same_below_trans; [exact G12|eapply same_below_le; [|exact Z5]; lia]). assert (L3 : length b3 = length b2) by apply Z5.
    assert (AK3 : at_ b3 p1 k) by (eapply at_same_below; [exact Z5|lia|exact AK]).
    assert (M3' : sec_str b3 sp m). { destruct sp as [|qs]; cbn [sec_str] in *; [exact M1|]. specialize (M3 qs eq_refl). eapply at_same_below; [exact Z5| |exact M1]. lia. }
    set (e := {| e_sec := sp; e_kv := Some (p1, nx); e_comment := com |}). cbn [cont_ml].
    rewrite (bbind_run _ _ _ _ _ (see_kv N e b3 m p1 nx k (lines_value lv) eq_refl M3' AK3 Z2 ltac:(lia))).
    destruct G as [|G]; [lia|]. rewrite lem_S.
    destruct (IH sec None rest4 items' EI ltac:(lia) N G N y sp None b3 Z3) as [l [b' [X1 [X2 [X3 [X4 X5]]]]]]; [apply (at_lt_N _ _ _ N Z3); lia|lia|lia| |right; exact I|].
    { right. eapply sec_rel_mono; [|eapply sec_rel_below; [exact G3|exact HR]]. unfold first_at. lia. }
    rewrite (bbind_run _ _ _ _ _ X1). exists ((e, (m, Some (k, lines_value lv))) :: l), b'. split; [reflexivity|]. split; [eapply same_below_trans; [eapply same_below_le; [exact PP|exact G3]|eapply same_below_le; [|exact X2]; lia]|]. split; [intros; congruence|].
    split; [|constructor; [|exact X5]; unfold com_rel; cbn [fst snd e e_comment]; eapply com_is_any; [|eapply com_is_below; [eapply same_below_le; [|exact X2]|eapply com_is_below; [eapply same_below_le; [exact PP|exact G3]|exact HCM]]]; [destruct X2; pose proof (at_bound _ _ _ HA); lia|lia]].
    constructor; [|exact X4]. cbn [item_rel fst snd e e_kv e_sec]. exists p1, nx, m. split; [reflexivity|].
    split; [eapply at_same_below; [exact X2| |exact AK3]; lia|].
    split; [destruct Z7 as [R4|Z7]; [rewrite (X3 R4); exact Z2|eapply at_same_below; [exact X2|exact Z7|exact Z2]]|].
    split; [|split; [exact M2|reflexivity]].
    destruct sp as [|qs]; cbn [sec_str] in *; [exact M3'|]. specialize (M3 qs eq_refl). eapply at_same_below; [exact X2| |exact M3']. lia. }
  destruct (ini_scan_mlc f sec None rest3) as [items'|] eqn:EI; [|discriminate]. injection HS as <-. rewrite bret_bind.
  set (e := {| e_sec := sp; e_kv := Some (p1, v); e_comment := com |}). cbn [cont_ml].
  rewrite (bbind_run _ _ _ _ _ (see_kv N e b2 m p1 v k vv eq_refl M1 AK AV ltac:(lia))).
  destruct G as [|G]; [lia|]. rewrite lem_S.
  destruct (IH sec None rest3 items' EI ltac:(lia) N G N nx sp None b2 A10) as [l [b' [X1 [X2 [X3 [X4 X5]]]]]]; [apply (at_lt_N _ _ _ N A10); lia|lia|lia| |right; exact I|].
  { right. eapply sec_rel_mono; [|eapply sec_rel_below; [exact G12|exact HR]]. unfold first_at. lia. }
  rewrite (bbind_run _ _ _ _ _ X1). exists ((e, (m, Some (k, vv))) :: l), b'. split; [reflexivity|]. split; [eapply same_below_trans; [eapply same_below_le; [exact PP|exact G12]|eapply same_below_le; [|exact X2]; lia]|]. split; [intros; congruence|].
  split; [|constructor; [|exact X5]; unfold com_rel; cbn [fst snd e e_comment]; eapply com_is_any; [|eapply com_is_below; [eapply same_below_le; [|exact X2]|eapply com_is_below; [eapply same_below_le; [exact PP|exact G12]|exact HCM]]]; [destruct X2; pose proof (at_bound _ _ _ HA); lia|lia]].
  constructor; [|exact X4]. cbn [item_rel fst snd e e_kv e_sec]. exists p1, v, m. split; [reflexivity|].
  split; [eapply at_same_below; [exact X2| |exact AK]; lia|].
  split; [destruct CX as [[R3 _]|CX]; [rewrite (X3 R3); exact AV|eapply at_same_below; [exact X2| |exact AV]; lia]|].
  split; [|split; [exact M2|reflexivity]].
  destruct sp as [|qs]; cbn [sec_str] in *; [exact M1|]. specialize (M3 qs eq_refl). eapply at_same_below; [exact X2| |exact M1]. lia.
Qed.
