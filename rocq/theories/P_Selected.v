(** Which failure is reported when one license was found and all the other places had none. *)
From Verif Require Import Base CTypes StringUtils Dates Base64 HwId Registry Ini Network Disks ExecEnv Strategies Locate Licensecc.
From Verif Require Import P_Base Spec_Strings Spec_Registry P_Registry Spec_Acquire.
From Coq Require Import Lia.

(** the reading and the checking of a license that is refused *)
Inductive shape : list event_type -> list event_type -> event_type -> Prop :=
| sh_absent : shape [PRODUCT_NOT_LICENSED] [] PRODUCT_NOT_LICENSED
| sh_malformed : shape [PRODUCT_FOUND; LICENSE_MALFORMED] [] LICENSE_MALFORMED
| sh_forged : shape [PRODUCT_FOUND] [LICENSE_CORRUPTED] LICENSE_CORRUPTED
| sh_verdict c : failure c -> shape [PRODUCT_FOUND] [SIGNATURE_VERIFIED; c] c.

(** the events about [k], and those of any license that was at least found *)
Definition high (e : event_type) : bool := match e with LICENSE_FOUND | PRODUCT_FOUND | SIGNATURE_VERIFIED | LICENSE_OK => true | _ => false end.
Definition ons_b (k : bytes) (x : event_type * bytes) : bool :=
  (beqb (snd x) k || high (fst x)) && negb (event_eqb (fst x) LICENSE_SPECIFIED).
Notation ons k := (filter (ons_b k)).

Lemma filter_end {A} (f : A -> bool) l pre x : filter f l = pre ++ [x] -> exists a b, l = a ++ x :: b /\ filter f a = pre /\ filter f b = [].
Proof.
  revert pre. induction l as [|y l IH]; intros pre; cbn [filter].
  - intros H. destruct pre; discriminate H.
  - destruct (f y) eqn:E.
    + destruct pre as [|p pre]; cbn [app].
      * intros [= -> H]. exists [], l. auto.
      * intros [= -> H]. destruct (IH _ H) as [a [b [-> [A1 B1]]]]. exists (p :: a), b. split; [reflexivity|]. split; [cbn [filter]; rewrite E, A1; reflexivity|exact B1].
    + intros H. destruct (IH _ H) as [a [b [-> [A1 B1]]]]. exists (y :: a), b. split; [reflexivity|]. split; [cbn [filter]; rewrite E; exact A1|exact B1].
Qed.
Lemma failed_fun l s k e e' : failed_after l s k e -> failed_after l s k e' -> e = e'.
Proof.
  intros [i [[A1 [_ A3]] [N1 F1]]] [j [[B1 [_ B3]] [N2 F2]]]. destruct (Nat.lt_trichotomy i j) as [L|[<-|L]].
  - destruct (A3 _ _ L N2) as [n [X _]]. destruct (F2 _ X).
  - congruence.
  - destruct (B3 _ _ L N1) as [n [X _]]. destruct (F1 _ X).
Qed.
Lemma stage_high e n : stage e n -> (0 < n)%Z <-> high e = true.
Proof. intros H. destruct H; cbn; split; (lia || discriminate || reflexivity). Qed.
Lemma stage_high' e : high e = true -> exists n, stage e n /\ (0 < n)%Z.
Proof. destruct e; try discriminate; intros _; eexists; (split; [constructor|lia]). Qed.
Lemma stage_specified' e n : stage e n -> high e = false -> e = LICENSE_SPECIFIED.
Proof. intros H. destruct H; cbn; congruence. Qed.
(** a license that was found, with the last word about it, is the one reported *)
Lemma selects_high L k pre e n s c k' : ons k L = pre ++ [(e, k)] -> (forall x, In x pre -> snd x = k) -> failure e ->
  (exists e0, In (e0, k) pre /\ stage e0 n) -> (forall e' m, In (e', k) pre -> stage e' m -> (m <= n)%Z) -> (0 < n)%Z ->
  furthest L s -> selects L s (Some (c, k')) -> c = e.
Proof.
  intros HL HK HF [e0 [I0 T0]] HM Hn [U At] Sel.
  assert (IN : forall e' q m, In (e', q) L -> stage e' m -> (0 < m)%Z -> q = k /\ (m <= n)%Z).
  { intros e' q m I T M. assert (J : In (e', q) (ons k L)) by (apply filter_In; split; [exact I|]; unfold ons_b; cbn [fst snd]; rewrite (proj1 (stage_high _ _ T) M), Bool.orb_true_r; destruct T; reflexivity || lia).
    rewrite HL in J. apply in_app_or in J as [J|[J|[]]]; [|injection J as <- <-; destruct (HF _ T)]. pose proof (HK _ J) as E. cbn [snd] in E. subst q. split; [reflexivity|]. apply (HM _ _ J T). }
  assert (I1 : In (e0, k) L). { assert (X : In (e0, k) (ons k L)) by (rewrite HL; apply in_or_app; left; exact I0). apply filter_In in X. apply X. }
  assert (s = n) as ->. { pose proof (U _ _ _ I1 T0). destruct At as [->|[e1 [k1 [I T]]]]; [lia|]. destruct (IN _ _ _ I T ltac:(lia)) as [_ X]. lia. }
  assert (FA : failed_after L n k e).
  { destruct (filter_end _ _ _ _ HL) as [a [b [-> [Ha Hb]]]]. exists (length a). assert (N : nth_error (a ++ (e, k) :: b) (length a) = Some (e, k)) by (rewrite nth_error_app2, Nat.sub_diag by lia; reflexivity).
    split; [|split; [exact N|exact HF]]. split; [exists e; split; [exact N|right; exact HF]|]. split.
    - rewrite <- Ha in I0. apply filter_In in I0 as [I0 _]. apply In_nth_error in I0 as [j J]. exists j, e0. assert (Lj : j < length a) by (apply nth_error_Some; congruence).
      split; [lia|]. split; [rewrite nth_error_app1 by exact Lj; exact J|exact T0].
    - intros i' e' Hi Ni. assert (In (e', k) b).
      { rewrite nth_error_app2 in Ni by lia. destruct (i' - length a) as [|j] eqn:Ej; [lia|]. cbn [nth_error] in Ni. eapply nth_error_In, Ni. }
      destruct (ons_b k (e', k)) eqn:Eo. { assert (X : In (e', k) (ons k b)) by (apply filter_In; split; assumption). rewrite Hb in X. destruct X. }
      unfold ons_b in Eo. cbn [fst snd] in Eo. rewrite beqb_refl in Eo. cbn [orb andb] in Eo. exists 0%Z. destruct e'; try discriminate Eo. split; [constructor|lia]. }
  assert (EQ : forall q e', failed_after L n q e' -> q = k /\ e' = e).
  { intros q e' X. pose proof X as [i [[_ [[j [e1 [_ [J T]]]] _]] _]]. apply nth_error_In in J. destruct (IN _ _ _ J T Hn) as [-> _]. split; [reflexivity|]. eapply failed_fun; [exact X|exact FA]. }
  inversion Sel as [e' q A1 A2 E1|e' q u v A1 A2 A3 A4 E1|]; subst; [apply (EQ _ _ A1)|destruct (A1 _ _ FA)].
Qed.

(** one license was specified, and has the last word *)
Lemma selects_low X k e s c k' : (forall x n, In x X -> ~ stage (fst x) n) -> failure e ->
  furthest (X ++ [(LICENSE_SPECIFIED, k); (e, k)]) s -> selects (X ++ [(LICENSE_SPECIFIED, k); (e, k)]) s (Some (c, k')) -> c = e.
Proof.
  intros HX HF [U At] Sel. set (L := X ++ [(LICENSE_SPECIFIED, k); (e, k)]) in *.
  assert (IN : forall e' q m, In (e', q) L -> stage e' m -> q = k /\ m = 0%Z).
  { intros e' q m I T. apply in_app_or in I as [I|[I|[I|[]]]]; [destruct (HX _ _ I T)|injection I as <- <-; inversion T; auto|injection I as <- <-; destruct (HF _ T)]. }
  assert (I1 : In (LICENSE_SPECIFIED, k) L) by (apply in_or_app; right; left; reflexivity).
  assert (s = 0%Z) as ->. { pose proof (U _ _ _ I1 stage_specified). destruct At as [->|[e1 [k1 [I T]]]]; [lia|]. apply (IN _ _ _ I T). }
  assert (N1 : nth_error L (length X) = Some (LICENSE_SPECIFIED, k)) by (unfold L; rewrite nth_error_app2, Nat.sub_diag by lia; reflexivity).
  assert (N2 : nth_error L (S (length X)) = Some (e, k)) by (unfold L; rewrite nth_error_app2 by lia; replace (S (length X) - length X) with 1 by lia; reflexivity).
  assert (FA : failed_after L 0 k e).
  { exists (S (length X)). split; [|split; [exact N2|exact HF]]. split; [exists e; split; [exact N2|right; exact HF]|]. split.
    - exists (length X), LICENSE_SPECIFIED. split; [lia|]. split; [exact N1|constructor].
    - intros i' e' Hi Ni. exfalso. assert (Y : i' < length L) by (apply nth_error_Some; congruence). unfold L in Y. rewrite app_length in Y. cbn [length] in Y. lia. }
  assert (EQ : forall q e', failed_after L 0 q e' -> q = k /\ e' = e).
  { intros q e' Y. pose proof Y as [i [[_ [[j [e1 [_ [J T]]]] _]] _]]. apply nth_error_In in J. destruct (IN _ _ _ J T) as [-> _]. split; [reflexivity|]. eapply failed_fun; [exact Y|exact FA]. }
  inversion Sel as [e' q A1 A2 E1|e' q u v A1 A2 A3 A4 E1|]; subst; [apply (EQ _ _ A1)|destruct (A1 _ _ FA)].
Qed.

(** ** The events of a call in which one source was there *)
Lemma ons_app k a b : ons k (a ++ b) = ons k a ++ ons k b.
Proof. apply filter_app. Qed.
Lemma zip_app {A B C} (f : A -> B -> list C) l1 l2 r1 r2 : length l1 = length r1 -> zip_with f (l1 ++ l2) (r1 ++ r2) = zip_with f l1 r1 ++ zip_with f l2 r2.
Proof. revert r1. induction l1 as [|x l1 IH]; intros [|y r1] H; try discriminate H; [reflexivity|]. cbn [app zip_with]. rewrite IH by (cbn in H; lia). rewrite app_assoc. reflexivity. Qed.
Lemma split_flat gs a s b : flat_map g_sources gs = a ++ s :: b ->
  exists G1 g G2 a1 b1, gs = G1 ++ g :: G2 /\ g_sources g = a1 ++ s :: b1 /\ a = flat_map g_sources G1 ++ a1 /\ b = b1 ++ flat_map g_sources G2.
Proof.
  revert a. induction gs as [|g gs IH]; intros a; cbn [flat_map]; [destruct a; discriminate|]. intros H.
  destruct (Nat.lt_ge_cases (length a) (length (g_sources g))) as [L|L].
  - exists [], g, gs, a, (skipn (S (length a)) (g_sources g)). split; [reflexivity|].
    assert (E : g_sources g = a ++ s :: skipn (S (length a)) (g_sources g)).
    { assert (X : firstn (length a) (g_sources g) = a). { pose proof (f_equal (firstn (length a)) H) as Y. rewrite firstn_app in Y. replace (length a - length (g_sources g)) with 0 in Y by lia. rewrite firstn_O, app_nil_r, firstn_app, Nat.sub_diag, firstn_O, app_nil_r, firstn_all in Y. exact Y. }
      assert (Y : nth_error (g_sources g) (length a) = Some s). { pose proof (f_equal (fun l => nth_error l (length a)) H) as Y. cbn beta in Y. rewrite nth_error_app1 in Y by exact L. rewrite nth_error_app2, Nat.sub_diag in Y by lia. exact Y. }
      rewrite <- (firstn_skipn (length a) (g_sources g)) at 1. rewrite X. f_equal. apply nth_error_split in Y as [u [v [E1 E2]]]. rewrite E1, <- E2. clear. induction u as [|x u IH]; [reflexivity|exact IH]. }
    split; [exact E|]. split; [reflexivity|]. rewrite E in H. rewrite <- app_assoc in H. apply app_inv_head in H. cbn [app] in H. injection H as H. symmetry. exact H.
  - assert (E : a = g_sources g ++ skipn (length (g_sources g)) a).
    { assert (X : firstn (length (g_sources g)) a = g_sources g). { pose proof (f_equal (firstn (length (g_sources g))) H) as Y. rewrite firstn_app, Nat.sub_diag, firstn_O, app_nil_r, firstn_all in Y. rewrite firstn_app in Y. replace (length (g_sources g) - length a) with 0 in Y by lia. rewrite firstn_O, app_nil_r in Y. symmetry. exact Y. }
      rewrite <- X at 1. symmetry. apply firstn_skipn. }
    rewrite E in H. rewrite <- app_assoc in H. apply app_inv_head in H. destruct (IH _ H) as [G1 [g' [G2 [a1 [b1 [-> [A [B C]]]]]]]]. exists (g :: G1), g', G2, a1, b1.
    split; [reflexivity|]. split; [exact A|]. split; [|exact C]. rewrite E, B. cbn [flat_map]. rewrite app_assoc. reflexivity.
Qed.
Lemma Forall2_app_l {A B} (R : A -> B -> Prop) l1 l2 r : Forall2 R (l1 ++ l2) r -> exists r1 r2, r = r1 ++ r2 /\ Forall2 R l1 r1 /\ Forall2 R l2 r2.
Proof. intros H. apply Forall2_app_inv_l in H as [r1 [r2 [A1 [B1 ->]]]]. eauto. Qed.
Lemma Forall2_len {A B} (R : A -> B -> Prop) l r : Forall2 R l r -> length l = length r.
Proof. induction 1; cbn; congruence. Qed.

(** not there: nothing but its absence is recorded *)
Definition absent (k : bytes) (s : source) (r : report) : Prop :=
  firstn 1024 (cstr (name_of s)) <> k /\ rp_reading r = [] /\ rp_checking r = [] /\ missing r = true.
Lemma absent_looked k ann s r : absent k s r -> ons k (looked ann s r) = [].
Proof.
  intros [K [_ [_ M]]]. unfold looked. rewrite M. assert (E : beqb (firstn 1024 (cstr (name_of s))) k = false) by (destruct (beqb _ k) eqn:E; [apply beqb_eq in E; contradiction|reflexivity]).
  destruct s, ann; try reflexivity; unfold about; cbn [map app filter ons_b fst snd]; unfold ons_b; cbn [fst snd]; rewrite E; reflexivity.
Qed.
Lemma absent_zip k (f : source -> report -> trace) l rs : (forall s r, absent k s r -> ons k (f s r) = []) -> Forall2 (absent k) l rs -> ons k (zip_with f l rs) = [].
Proof. intros H X. induction X as [|s r l rs A1 _ IH]; [reflexivity|]. cbn [zip_with]. rewrite ons_app, (H _ _ A1), IH. reflexivity. Qed.
Definition told_none (k : bytes) (g : group) : Prop := forall x, In x (g_news g) -> snd x <> k /\ high (fst x) = false \/ fst x = LICENSE_SPECIFIED.
Lemma told_none_ons k g : told_none k g -> ons k (g_news g) = [].
Proof.
  unfold told_none. induction (g_news g) as [|x l IH]; intros H; [reflexivity|]. cbn [filter]. rewrite IH by (intros y Y; apply H; right; exact Y).
  destruct (H x (or_introl eq_refl)) as [[A1 B1]|E]; unfold ons_b.
  - destruct (beqb (snd x) k) eqn:E; [apply beqb_eq in E; contradiction|]. rewrite B1. reflexivity.
  - rewrite E. rewrite Bool.andb_false_r. reflexivity.
Qed.
Lemma absent_group k g rs : told_none k g -> Forall2 (absent k) (g_sources g) rs -> ons k (group_trace g rs) = [].
Proof.
  intros T F. unfold group_trace. rewrite !ons_app, (told_none_ons _ _ T). rewrite (absent_zip k (looked (g_announce g))) by (auto using absent_looked). cbn [app]. apply absent_zip; [|exact F].
  intros s r [_ [E _]]. rewrite E. reflexivity.
Qed.
Lemma absent_groups k gs rss : Forall (told_none k) gs -> Forall2 (fun g rs => Forall2 (absent k) (g_sources g) rs) gs rss -> ons k (zip_with group_trace gs rss) = [].
Proof. intros T F. induction F as [|g rs gs rss A1 _ IH]; [reflexivity|]. inversion T; subst. cbn [zip_with]. rewrite ons_app, absent_group, IH by assumption. reflexivity. Qed.
(** everything that was recorded about the source that is there *)
Lemma call_ons k gs rss a s b (R : source -> report -> Prop) : Forall (told_none k) gs -> flat_map g_sources gs = a ++ s :: b ->
  Forall2 (fun g rs => Forall2 R (g_sources g) rs) gs rss -> (forall s' r', In s' (a ++ b) -> R s' r' -> absent k s' r') ->
  exists ra r rb ann, concat rss = ra ++ r :: rb /\ R s r /\ Forall2 R a ra /\ Forall2 R b rb /\
    ons k (call_trace gs rss) = ons k (looked ann s r) ++ ons k (about s (rp_reading r)) ++ ons k (about s (rp_checking r)).
Proof.
  intros T E F HA. destruct (split_flat _ _ _ _ E) as [G1 [g [G2 [a1 [b1 [-> [Eg [-> ->]]]]]]]].
  apply Forall2_app_l in F as [R1 [Rr [-> [F1 F2]]]]. inversion F2 as [|? rs ? R2 Fg F3]; subst. rewrite Eg in Fg. apply Forall2_app_l in Fg as [ra1 [rr [-> [Fa Fs]]]]. inversion Fs as [|? r ? rb1 Fr Fb]; subst.
  assert (ABS : forall l rs, (forall x, In x l -> In x ((flat_map g_sources G1 ++ a1) ++ b1 ++ flat_map g_sources G2)) -> Forall2 R l rs -> Forall2 (absent k) l rs).
  { intros l rs I X. induction X as [|x y l rs X1 _ IH]; constructor; [apply HA; [apply I; left; reflexivity|exact X1]|]. apply IH. intros z Z. apply I. right. exact Z. }
  assert (ABG : forall G RR, (forall x, In x (flat_map g_sources G) -> In x ((flat_map g_sources G1 ++ a1) ++ b1 ++ flat_map g_sources G2)) -> Forall2 (fun g rs => Forall2 R (g_sources g) rs) G RR -> Forall2 (fun g rs => Forall2 (absent k) (g_sources g) rs) G RR).
  { intros G RR I X. induction X as [|x y G RR X1 _ IH]; constructor; [apply ABS; [|exact X1]; intros z Z; apply I; cbn [flat_map]; apply in_or_app; left; exact Z|]. apply IH. intros z Z. apply I. cbn [flat_map]. apply in_or_app. right. exact Z. }
  assert (A1 : Forall2 (absent k) a1 ra1) by (apply ABS; [|exact Fa]; intros x X; rewrite !in_app_iff; auto).
  assert (B1 : Forall2 (absent k) b1 rb1) by (apply ABS; [|exact Fb]; intros x X; rewrite !in_app_iff; auto).
  assert (GA : Forall2 (fun g rs => Forall2 (absent k) (g_sources g) rs) G1 R1) by (apply ABG; [|exact F1]; intros x X; rewrite !in_app_iff; auto).
  assert (GB : Forall2 (fun g rs => Forall2 (absent k) (g_sources g) rs) G2 R2) by (apply ABG; [|exact F3]; intros x X; rewrite !in_app_iff; auto).
  assert (FL : forall (Q : source -> report -> Prop) G RR, Forall2 (fun g rs => Forall2 Q (g_sources g) rs) G RR -> Forall2 Q (flat_map g_sources G) (concat RR)).
  { intros Q G RR X. induction X; cbn [flat_map concat]; [constructor|]. apply Forall2_app; assumption. }
  pose proof (FL _ _ _ GA) as GA'. pose proof (FL _ _ _ GB) as GB'. pose proof (FL _ _ _ F1) as F1'. pose proof (FL _ _ _ F3) as F3'.
  exists (concat R1 ++ ra1), r, (rb1 ++ concat R2), (g_announce g). split; [rewrite concat_app; cbn [concat]; rewrite <- !app_assoc; reflexivity|]. split; [exact Fr|]. split; [apply Forall2_app; assumption|]. split; [apply Forall2_app; assumption|].
  apply Forall_app in T as [T1 T2]. inversion T2 as [|? ? Tg T3]; subst.
  assert (CT : call_trace (G1 ++ g :: G2) (R1 ++ (ra1 ++ r :: rb1) :: R2) = zip_with group_trace (G1 ++ g :: G2) (R1 ++ (ra1 ++ r :: rb1) :: R2) ++
     zip_with (fun s r => about s (rp_checking r)) (flat_map g_sources (G1 ++ g :: G2)) (concat (R1 ++ (ra1 ++ r :: rb1) :: R2))) by (unfold call_trace; destruct G1; reflexivity).
  rewrite CT, ons_app. clear CT. rewrite zip_app by (eapply Forall2_len; exact F1). cbn [zip_with]. rewrite !ons_app, (absent_groups k G1 R1), (absent_groups k G2 R2) by assumption. rewrite app_nil_r. cbn [app].
  rewrite E. rewrite <- !app_assoc. cbn [app].
  assert (CC : concat (R1 ++ (ra1 ++ r :: rb1) :: R2) = (concat R1 ++ ra1) ++ r :: rb1 ++ concat R2) by (rewrite concat_app; cbn [concat]; rewrite <- !app_assoc; reflexivity).
  rewrite CC. clear CC. rewrite app_assoc.
  assert (CK : forall l rs, Forall2 (absent k) l rs -> ons k (zip_with (fun s r => about s (rp_checking r)) l rs) = []) by (intros l rs X; apply absent_zip; [|exact X]; intros s' r' [_ [_ [X1 _]]]; rewrite X1; reflexivity).
  rewrite zip_app by (rewrite !app_length, (Forall2_len _ _ _ GA'), (Forall2_len _ _ _ A1); reflexivity). cbn [zip_with]. rewrite !ons_app, (CK (flat_map g_sources G1 ++ a1)) by (apply Forall2_app; assumption). rewrite (CK (b1 ++ flat_map g_sources G2)) by (apply Forall2_app; assumption).
  rewrite app_nil_r. cbn [app]. rewrite app_assoc. f_equal. unfold group_trace. rewrite !ons_app, (told_none_ons _ _ Tg), Eg. cbn [app].
  rewrite !zip_app by (eapply Forall2_len; exact A1). cbn [zip_with]. rewrite !ons_app.
  assert (LK : forall l rs, Forall2 (absent k) l rs -> ons k (zip_with (looked (g_announce g)) l rs) = []) by (intros l rs X; apply absent_zip; [|exact X]; apply absent_looked).
  assert (RK : forall l rs, Forall2 (absent k) l rs -> ons k (zip_with (fun s r => about s (rp_reading r)) l rs) = []) by (intros l rs X; apply absent_zip; [|exact X]; intros s' r' [_ [X1 _]]; rewrite X1; reflexivity).
  rewrite (LK _ _ A1), (LK _ _ B1), (RK _ _ A1), (RK _ _ B1), !app_nil_r. reflexivity.
Qed.
