(** Texts: unique reading *)
From Coq Require Import ZArith Lia Bool.
From Verif Require Import Base ConvertUtf Spec_Utf P_Utf P_Utf2 P_Utf3.
Local Open Scope Z_scope.

Lemma utf8_of_ne : forall c, utf8_of c <> [].
Proof. intros. unfold utf8_of. cmp; discriminate. Qed.
Lemma utf16_of_ne : forall c, utf16_of c <> [].
Proof. intros. unfold utf16_of. cmp; discriminate. Qed.
Lemma utf8_units : forall c, 0 <= c <= 1114111 -> units 8 (utf8_of c).
Proof. intros. unfold units, utf8_of. change (2 ^ 8) with 256. cmp; repeat constructor; zdm. Qed.
Lemma utf16_units : forall c, 0 <= c <= 1114111 -> units 16 (utf16_of c).
Proof. intros. unfold units, utf16_of. change (2 ^ 16) with 65536. cmp; repeat constructor; zdm. Qed.
Lemma flat_units : forall n (enc : Z -> list Z), (forall c, 0 <= c <= 1114111 -> units n (enc c)) -> forall cs, Forall scalar cs -> units n (flat_map enc cs).
Proof. intros n enc H cs F. induction F as [|c cs [R _] F IH]; [constructor|]. cbn. apply Forall_app. split; [apply H; assumption|exact IH]. Qed.
Lemma utf8_text_units : forall cs, Forall scalar cs -> units 8 (utf8 cs).
Proof. apply flat_units. exact utf8_units. Qed.
Lemma utf16_text_units : forall cs, Forall scalar cs -> units 16 (utf16 cs).
Proof. apply flat_units. exact utf16_units. Qed.
Lemma utf32_text_units : forall cs, Forall scalar cs -> units 32 (utf32 cs).
Proof. unfold units, utf32. change (2 ^ 32) with 4294967296. intros cs F. eapply Forall_impl; [|exact F]. intros c [R _]. lia. Qed.

(** a proper encoding is read in one way only *)
Lemma reads8_proper : forall c su after after' d, scalar c -> reads8 su after' d -> utf8_of c ++ after = su ++ after' -> d = c /\ after' = after.
Proof.
  intros c su after after' d C R E. pose proof (reads_shape _ _ _ (read_proper c [] C)) as H.
  pose proof (reads_shape _ _ _ R) as K. destruct (shape_prefix _ _ _ _ _ _ H K E) as (_ & -> & ->). auto.
Qed.
Lemma pair_range : forall c, 65536 <= c <= 1114111 -> 0 <= (c - 65536) / 1024 <= 1023 /\ 0 <= (c - 65536) mod 1024 <= 1023.
Proof. intros. zdm. Qed.
Lemma cons_eq : forall (a b : Z) l m, a :: l = b :: m -> a = b /\ l = m.
Proof. intros a b l m H. inversion H. auto. Qed.
Lemma utf16_inj_head : forall c d after after', scalar c -> scalar d -> utf16_of c ++ after = utf16_of d ++ after' -> c = d /\ after = after'.
Proof.
  intros c d after after' [RC NC] [RD ND] E. unfold surrogate, high, low in *. unfold utf16_of in E.
  pose proof (pair_range c) as PC. pose proof (pair_range d) as PD.
  destruct (Z.ltb_spec c 65536), (Z.ltb_spec d 65536); cbn [app] in E.
  - inversion E. auto.
  - exfalso. apply cons_eq in E. destruct E as [E1 E2]. lia.
  - exfalso. apply cons_eq in E. destruct E as [E1 E2]. lia.
  - apply cons_eq in E. destruct E as [E1 E]. apply cons_eq in E. destruct E as [E2 E3]. split; [|assumption].
    clear PC PD NC ND. zdm.
Qed.
Lemma reads16_proper : forall strict c su after after' d, scalar c -> reads16 strict su after' d -> utf16_of c ++ after = su ++ after' -> d = c /\ after' = after.
Proof.
  intros strict c su after after' d C R E. destruct R as [d after' D|h x after' _ H NL|l after' _ H].
  - destruct (utf16_inj_head _ _ _ _ C D E). auto.
  - exfalso. destruct C as [RC NC]. unfold surrogate, high, low in *. unfold utf16_of in E. destruct (Z.ltb_spec c 65536); cbn [app] in E.
    + apply cons_eq in E. lia.
    + assert (x = 56320 + (c - 65536) mod 1024) by (apply cons_eq in E; destruct E as [_ E]; apply cons_eq in E; symmetry; apply E). pose proof (pair_range c). lia.
  - exfalso. destruct C as [RC NC]. unfold surrogate, high, low in *. unfold utf16_of in E. pose proof (pair_range c).
    destruct (Z.ltb_spec c 65536); cbn [app] in E; apply cons_eq in E; destruct E as [E1 E2]; lia.
Qed.

Section Unique.
Variables (reads : list Z -> list Z -> Z -> Prop) (form : Z -> list Z).
Hypothesis Hne : forall c, form c <> [].
Hypothesis Hreads_ne : forall su after c, reads su after c -> su <> [].
Hypothesis Hone : forall c su after after' d, scalar c -> reads su after' d -> form c ++ after = su ++ after' -> d = c /\ after' = after.
Lemma read_text : forall cs ds rest, Forall scalar cs -> read_as reads (flat_map form cs) ds rest -> exists es, cs = ds ++ es /\ rest = flat_map form es.
Proof using Hone Hreads_ne.
  intros cs ds rest F H. remember (flat_map form cs) as src eqn:E. revert cs F E.
  induction H as [rest|su after d ds rest R H IH]; intros cs F E.
  - exists cs. auto.
  - destruct F as [|c cs C F].
    + exfalso. cbn in E. apply app_eq_nil in E. destruct E. exact (Hreads_ne _ _ _ R H0).
    + cbn in E. symmetry in E. destruct (Hone _ _ _ _ _ C R E) as [-> ->].
      destruct (IH cs F eq_refl) as (es & -> & ->). exists es. auto.
Qed.
End Unique.

Lemma reads8_ne : forall su after c, reads8 su after c -> su <> [].
Proof. intros su after c []; try discriminate. apply utf8_of_ne. Qed.
Lemma reads16_ne : forall strict su after c, reads16 strict su after c -> su <> [].
Proof. intros strict su after c []; try discriminate. apply utf16_of_ne. Qed.
Lemma reads32_ne : forall strict su after c, reads32 strict su after c -> su <> [].
Proof. intros strict su after c []. discriminate. Qed.
Lemma reads32_proper : forall strict c su after after' d, scalar c -> reads32 strict su after' d -> [c] ++ after = su ++ after' -> d = c /\ after' = after.
Proof. intros strict c su after after' d C R E. destruct R. inversion E. auto. Qed.
Lemma flat_one : forall cs : list Z, flat_map (fun c => [c]) cs = cs.
Proof. induction cs; cbn; [reflexivity|]. rewrite IHcs. reflexivity. Qed.

Definition read_text8 := fun cs ds rest => read_text reads8 utf8_of reads8_ne reads8_proper cs ds rest.
Definition read_text16 := fun strict cs ds rest => read_text (reads16 strict) utf16_of (reads16_ne strict) (reads16_proper strict) cs ds rest.
Definition read_text32 := fun strict cs ds rest => read_text (reads32 strict) (fun c => [c]) (reads32_ne strict) (reads32_proper strict) cs ds rest.

Lemma not_cut8 : forall cs, Forall scalar cs -> ~ cut8 (utf8 cs).
Proof.
  intros cs F (b & more & E & L). destruct F as [|c cs C F]; [discriminate E|]. unfold utf8 in *. cbn [flat_map] in *.
  pose proof (reads_shape _ _ _ (read_proper c [] C)) as H. destruct (shape_announced _ _ H) as (b' & m' & E' & L').
  rewrite E' in E. cbn [app] in E. inversion E; subst b'. rewrite app_length in L. lia.
Qed.
Lemma not_malformed8 : forall cs, Forall scalar cs -> ~ malformed8 (utf8 cs).
Proof.
  intros cs F (N & _ & H). destruct F as [|c cs C F]; [apply N; reflexivity|].
  exact (H (utf8_of c) (utf8 cs) c eq_refl (read_proper c _ C)).
Qed.
Lemma not_cut16 : forall cs, Forall scalar cs -> ~ cut16 (utf16 cs).
Proof.
  intros cs F (h & E & H). destruct F as [|c cs [R N] F]; [discriminate E|]. unfold utf16 in *. cbn [flat_map] in E.
  unfold utf16_of at 1 in E. unfold surrogate, high, low in *. destruct (Z.ltb_spec c 65536); cbn [app] in E; inversion E. lia.
Qed.
Lemma not_unpaired : forall cs, Forall scalar cs -> ~ unpaired (utf16 cs).
Proof.
  intros cs F H. destruct F as [|c cs [R N] F].
  { destruct H as [(l & more & E & _)|(h & x & more & E & _)]; discriminate E. }
  unfold utf16 in H. cbn [flat_map] in H. unfold utf16_of at 1 3 in H || unfold utf16_of at 1 in H. unfold surrogate, high, low in *.
  destruct (Z.ltb_spec c 65536); cbn [app] in H.
  - destruct H as [(l & more & E & LO)|(h & x & more & E & HI & NL)]; apply cons_eq in E; unfold high, low in *; lia.
  - destruct H as [(l & more & E & LO)|(h & x & more & E & HI & NL)].
    + assert (l = 55296 + (c - 65536) / 1024) by (apply cons_eq in E; symmetry; apply E). unfold low in *. pose proof (pair_range c). lia.
    + assert (x = 56320 + (c - 65536) mod 1024) by (apply cons_eq in E; destruct E as [_ E]; apply cons_eq in E; symmetry; apply E). unfold low in *. pose proof (pair_range c). lia.
Qed.
Lemma read_all8 : forall cs rest, Forall scalar cs -> read_as reads8 (utf8 cs ++ rest) cs rest.
Proof.
  intros cs rest F. induction F as [|c cs C F IH]; [constructor|]. unfold utf8 in *. cbn [flat_map]. rewrite <- app_assoc.
  constructor; [constructor; assumption|assumption].
Qed.

Lemma flat_snoc : forall (enc : Z -> list Z) ds c, flat_map enc (ds ++ [c]) = flat_map enc ds ++ enc c.
Proof. intros. rewrite flat_map_app. cbn. rewrite app_nil_r. reflexivity. Qed.

Lemma accounts_text : forall reads form enc cut bad cs tgt a,
  (forall cs ds rest, Forall scalar cs -> read_as reads (flat_map form cs) ds rest -> exists es, cs = ds ++ es /\ rest = flat_map form es) ->
  (forall c su after after' d, scalar c -> reads su after' d -> form c ++ after = su ++ after' -> d = c /\ after' = after) ->
  (forall c, form c <> []) -> (forall su after c, reads su after c -> su <> []) ->
  (forall cs, Forall scalar cs -> ~ cut (flat_map form cs)) -> (forall cs, Forall scalar cs -> ~ bad (flat_map form cs)) ->
  Forall scalar cs -> accounts reads enc cut bad (flat_map form cs) tgt a ->
  exists ds es, longest enc (length tgt) cs ds es /\
    a = Ok (match es with [] => ConversionOK | _ => TargetExhausted end, length (flat_map form ds), length (flat_map enc ds),
            flat_map enc ds ++ skipn (length (flat_map enc ds)) tgt).
Proof.
  intros reads form enc cut bad cs tgt a H1 H2 NE NR H3 H4 F (r & ds & rest & R & E & L & W).
  destruct (H1 _ _ _ F R) as (es & EC & ER). exists ds, es. rewrite EC in F. apply Forall_app in F. destruct F as [FD FE].
  assert (LL : (length (flat_map form cs) - length rest)%nat = length (flat_map form ds)).
  { rewrite EC, flat_map_app, app_length, ER. lia. }
  rewrite LL in E. subst rest.
  destruct r.
  - destruct es as [|c es].
    + split; [|exact E]. repeat split; auto.
    + exfalso. cbn in W. apply app_eq_nil in W. destruct W. eapply NE; eassumption.
  - exfalso. eapply H3; eassumption.
  - destruct W as (su & after & c & EE & RR & LT). destruct es as [|e es].
    + exfalso. cbn in EE. symmetry in EE. apply app_eq_nil in EE. destruct EE. eapply NR; eassumption.
    + cbn in EE. apply Forall_inv in FE. destruct (H2 _ _ _ _ _ FE RR EE) as [-> _].
      split; [|exact E]. repeat split; auto. unfold fits. rewrite flat_snoc, app_length. lia.
  - exfalso. eapply H4; eassumption.
Qed.
Lemma accounts32_text : forall strict enc counted room first cs tgt a,
  (forall c, scalar c -> ~ counted c) -> (forall c, scalar c -> room c = length (enc c)) ->
  Forall scalar cs -> accounts32 strict enc counted room first cs tgt a ->
  exists ds es, longest enc (length tgt) cs ds es /\
    a = Ok (match es with [] => ConversionOK | _ => TargetExhausted end, length ds, length (flat_map enc ds),
            flat_map enc ds ++ skipn (length (flat_map enc ds)) tgt).
Proof.
  intros strict enc counted room first cs tgt a H1 H2 F (r & ds & rest & R & E & L & W).
  rewrite <- (flat_one cs) in R. destruct (read_text32 _ _ _ _ F R) as (es & EC & ER). exists ds, es. rewrite flat_one in ER. subst rest.
  rewrite EC in F. apply Forall_app in F. destruct F as [FD FE].
  replace (length cs - length es)%nat with (length ds) in E by (rewrite EC, app_length; lia).
  assert (NX : ~ Exists counted ds).
  { intros X. apply Exists_exists in X. destruct X as (x & IN & CX). rewrite Forall_forall in FD. exact (H1 _ (FD _ IN) CX). }
  destruct r.
  - destruct W as [-> _]. split; [|exact E]. repeat split; auto.
  - contradiction.
  - destruct W as (c & after & EE & LT & _). subst es. apply Forall_inv in FE.
    split; [|exact E]. repeat split; auto. unfold fits. rewrite flat_snoc, app_length. rewrite <- H2 by assumption. lia.
  - exfalso. destruct W as [[_ W]|(_ & c & after & EE & SU & _)]; [contradiction|]. subst es. apply Forall_inv in FE. destruct FE. contradiction.
Qed.
