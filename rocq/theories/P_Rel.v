(** Two runs of acquire_license compared. *)
From Verif Require Import Base CTypes StringUtils Dates Doubles Base64 HwId Registry Ini Network Disks ExecEnv Strategies Locate Licensecc AcquireGen.
From Verif Require Import P_Base.

Section REL.
(** instants of the two runs that correspond *)
Variable T : nat -> nat -> Prop.
Hypothesis T_S : forall t u, T t u -> T (S t) (S u).
Definition rel_res {A B} (R : A -> B -> Prop) (x : res (A * nat)) (y : res (B * nat)) : Prop :=
  match x, y with
  | Ok (a, t), Ok (b, u) => R a b /\ T t u
  | Throw e, Throw e' => e = e'
  | Undef b, Undef b' => b = b'
  | OutOfFuel, OutOfFuel => True
  | _, _ => False
  end.
Definition rel {A B} (R : A -> B -> Prop) (m : M A) (m' : M B) : Prop := forall t u, T t u -> rel_res R (m t) (m' u).
Lemma rel_ret {A B} (R : A -> B -> Prop) a b : R a b -> rel R (mret a) (mret b).
Proof using Type. intros H t u Ht. cbn. auto. Qed.
Lemma rel_lift {A} (x : res A) : rel eq (mlift x) (mlift x).
Proof using Type. intros t u Ht. unfold mlift. destruct x; cbn; auto. Qed.
Lemma rel_lift_eq {A} (x y : res A) : x = y -> rel eq (mlift x) (mlift y).
Proof using Type. intros ->. apply rel_lift. Qed.
Lemma rel_bind {A B A' B'} (R : A -> B -> Prop) (Q : A' -> B' -> Prop) m m' k k' : rel R m m' -> (forall a b, R a b -> rel Q (k a) (k' b)) -> rel Q (mbind m k) (mbind m' k').
Proof using Type.
  intros H K t u Ht. specialize (H t u Ht). unfold mbind. destruct (m t) as [[a t1]|e|b|], (m' u) as [[a' u1]|e'|b'|]; cbn in *; try contradiction; try congruence; try exact I.
  destruct H as [H H1]. apply K; assumption.
Qed.
Lemma rel_eq {A A' B'} (Q : A' -> B' -> Prop) (m m' : M A) k k' : rel eq m m' -> (forall a, rel Q (k a) (k' a)) -> rel Q (mbind m k) (mbind m' k').
Proof using Type. intros H K. eapply rel_bind; [exact H|]. intros a b <-. apply K. Qed.
Lemma rel_impl {A B} (R R' : A -> B -> Prop) m m' : (forall a b, R a b -> R' a b) -> rel R m m' -> rel R' m m'.
Proof using Type. intros H K t u Ht. specialize (K t u Ht). destruct (m t) as [[a t1]|e|b|], (m' u) as [[a' u1]|e'|b'|]; cbn in *; try contradiction; auto. destruct K. auto. Qed.

Lemma rel_bind_at {A B A' B'} (R : A -> B -> Prop) (Q : A' -> B' -> Prop) m m' k k' t u : rel_res R (m t) (m' u) ->
  (forall a t1 b u1, m t = Ok (a, t1) -> m' u = Ok (b, u1) -> R a b -> T t1 u1 -> rel_res Q (k a t1) (k' b u1)) -> rel_res Q (mbind m k t) (mbind m' k' u).
Proof using Type.
  intros H K. unfold mbind. destruct (m t) as [[a t1]|e|b|], (m' u) as [[a' u1]|e'|b'|]; cbn in *; try contradiction; try congruence; try exact I.
  destruct H as [H H1]. apply K; auto.
Qed.
Record alike_worlds (w w' : world) : Prop := {
  aw_project : w_project w = w_project w'; aw_magic : w_magic w = w_magic w';
  aw_near : w_near_module w = w_near_module w'; aw_env : w_with_env w = w_with_env w';
  aw_module : w_module w = w_module w'; aw_getenv : forall v, w_getenv w v = w_getenv w' v;
  aw_mktime : w_mktime w = w_mktime w';
  aw_good : forall t u p, T t u -> w_good w t p = w_good w' u p;
  aw_file : forall t u p, T t u -> w_file w t p = w_file w' u p
}.
Variables (w w' : world) (bk bk' : backend).
Hypothesis HW : alike_worlds w w'.
Hypothesis HR : bk_ref bk = bk_ref bk'.
Lemma rel_good p : rel eq (m_good w p) (m_good w' p).
Proof using T_S HW. intros t u Ht. cbn. split; [apply (aw_good _ _ HW), Ht|auto]. Qed.
Lemma rel_file p : rel eq (m_file w p) (m_file w' p).
Proof using T_S HW. intros t u Ht. cbn. split; [apply (aw_file _ _ HW), Ht|auto]. Qed.
Lemma add_same e id info r : g_add_event bk e id info r = g_add_event bk' e id info r.
Proof using HR. unfold g_add_event, g_ref_string. rewrite HR. reflexivity. Qed.
Lemma rel_add e id info r : rel eq (mlift (g_add_event bk e id info r)) (mlift (g_add_event bk' e id info r)).
Proof using HR. apply rel_lift_eq, add_same. Qed.
Lemma rel_filter l x r : rel eq (g_filter_existing_files w bk l x r) (g_filter_existing_files w' bk' l x r).
Proof using T_S HW HR.
  revert r. induction l as [|p l IH]; intros r; [apply rel_ret; reflexivity|]. cbn [g_filter_existing_files]. apply rel_eq; [apply rel_add|]. intros r1. apply rel_eq; [apply rel_good|]. intros g.
  apply rel_eq; [apply rel_add|]. intros r2. apply rel_eq; [apply IH|]. intros [fs r3]. apply rel_ret. reflexivity.
Qed.
Lemma rel_locations l r : rel eq (g_license_locations w bk l r) (g_license_locations w' bk' l r).
Proof using T_S HW HR.
  unfold g_license_locations. destruct l as [| | |loc].
  - unfold get_module_name. rewrite (aw_module _ _ HW). destruct (w_module w'); [|apply rel_ret; reflexivity]. apply rel_eq; [apply rel_good|]. intros [|]; (apply rel_eq; [apply rel_add|]; intros; apply rel_ret; reflexivity).
  - unfold env_set. rewrite (aw_getenv _ _ HW). destruct (w_getenv w' LICENSE_LOCATION_VAR) as [[|c v]|]; try apply rel_filter; (apply rel_eq; [apply rel_add|]; intros; apply rel_ret; reflexivity).
  - unfold env_set. rewrite (aw_getenv _ _ HW). destruct (w_getenv w' LICENSE_DATA_VAR) as [[|c v]|]; (apply rel_eq; [apply rel_add|]; intros r1); try (apply rel_ret; reflexivity).
    destruct (identify_format (c :: v)); try (apply rel_ret; reflexivity). apply rel_eq; [apply rel_add|]; intros; apply rel_ret; reflexivity.
  - destruct (loc_data loc) as [|c d] eqn:Ed; [apply rel_lift|]. destruct (Ascii.eqb c NUL); [apply rel_ret; reflexivity|]. apply rel_eq; [apply rel_add|]. intros r1. destruct (loc_type loc =? 0)%Z.
    + apply rel_eq; [apply rel_lift|]. intros s. apply rel_filter.
    + destruct ((_ =? 1)%Z || _); [apply rel_ret; reflexivity|apply rel_lift].
Qed.
Lemma rel_content l id : rel eq (retrieve_license_content w l id) (retrieve_license_content w' l id).
Proof using T_S HW.
  unfold retrieve_license_content. destruct l as [| | |loc]; try (apply rel_eq; [apply rel_file|intros; apply rel_lift]).
  - unfold env_set. rewrite !(aw_getenv _ _ HW). destruct (w_getenv w' LICENSE_LOCATION_VAR) as [v|]; [|apply rel_lift]. destruct (w_getenv w' LICENSE_DATA_VAR) as [[|c d]|]; try (apply rel_ret; reflexivity). destruct (identify_format _); try (apply rel_ret; reflexivity). apply rel_lift.
  - destruct (beqb id EXTERNAL_NAME); [|apply rel_eq; [apply rel_file|intros; apply rel_lift]]. apply rel_eq; [apply rel_lift|]. intros s. destruct (loc_type loc =? 2)%Z; [apply rel_lift|apply rel_ret; reflexivity].
Qed.
(** the same license for feature names that differ in case only *)
Record same_license (l l' : full_license) : Prop := {
  sl_source : fl_source l = fl_source l'; sl_signature : fl_signature l = fl_signature l'; sl_magic : fl_magic l = fl_magic l';
  sl_limits : fl_limits l = fl_limits l'; sl_print : print_for_sign l = print_for_sign l'
}.
Definition same_acc (a b : registry * list full_license) : Prop := fst a = fst b /\ Forall2 same_license (snd a) (snd b).
Variables (f f' : bytes).
Hypothesis HF : toupper_copy f = toupper_copy f'.
Hypothesis HT : toupper_copy (trim_copy f) = toupper_copy (trim_copy f').
Lemma rel_read l id a a' : same_acc a a' -> rel same_acc (g_read_location w bk l f id a) (g_read_location w' bk' l f' id a').
Proof using T_S HW HR HF HT.
  destruct a as [r out], a' as [r' out']. intros [E Hout]. cbn [fst snd] in E, Hout. subst r'. unfold g_read_location. rewrite HF. apply rel_eq; [apply rel_content|]. intros text. apply rel_eq; [apply rel_lift|]. intros d.
  destruct (get_section_size d (toupper_copy f') <=? 0)%Z; [apply rel_eq; [apply rel_add|]; intros; apply rel_ret; split; auto|]. apply rel_eq; [apply rel_add|]. intros r1.
  destruct (get_value d (toupper_copy f') LICENSE_SIGNATURE) as [sig|]; [|apply rel_eq; [apply rel_add|]; intros; apply rel_ret; split; auto].
  destruct (_ =? 200)%Z; [|apply rel_eq; [apply rel_add|]; intros; apply rel_ret; split; auto]. apply rel_ret. split; [reflexivity|]. cbn [snd]. apply Forall2_app; [exact Hout|]. constructor; [|constructor].
  constructor; try reflexivity. unfold print_for_sign. cbn [fl_project fl_limits]. rewrite HT. reflexivity.
Qed.
Lemma rel_read_all l ids a a' : same_acc a a' -> rel same_acc (g_read_all w bk l f ids a) (g_read_all w' bk' l f' ids a').
Proof using T_S HW HR HF HT. revert a a'. induction ids as [|i ids IH]; intros a a' H; [apply rel_ret, H|]. cbn [g_read_all]. eapply rel_bind; [apply rel_read, H|]. intros b b' H'. apply IH, H'. Qed.
Lemma rel_locators ls a a' : same_acc a a' -> rel same_acc (g_read_locators w bk ls f a) (g_read_locators w' bk' ls f' a').
Proof using T_S HW HR HF HT.
  revert a a'. induction ls as [|l ls IH]; intros a a' H; [apply rel_ret, H|]. destruct a as [r out], a' as [r' out']. destruct H as [E H]. cbn [fst snd] in E, H. subst r'. cbn [g_read_locators].
  apply rel_eq; [apply rel_locations|]. intros [ids r1]. eapply rel_bind; [apply rel_read_all; split; [reflexivity|exact H]|]. intros b b' H'. apply IH, H'.
Qed.
Lemma rel_licenses hint : rel same_acc (g_read_licenses w bk hint f) (g_read_licenses w' bk' hint f').
Proof using T_S HW HR HF HT.
  unfold g_read_licenses, get_active_strategies. rewrite (aw_near _ _ HW), (aw_env _ _ HW). destruct (_ ++ _) as [|l ls].
  - apply rel_eq; [apply rel_add|]. intros r. apply rel_eq; [apply rel_lift|]. intros [r1 b]. apply rel_ret. split; [reflexivity|constructor].
  - eapply rel_bind; [apply rel_locators; split; [reflexivity|constructor]|]. intros [r out] [r' out'] [E H]. cbn [fst snd] in E, H. subst r'. destruct H as [|x y out out' Hxy H].
    + apply rel_eq; [apply rel_lift|]. intros [r1 b]. apply rel_ret. split; [reflexivity|constructor].
    + apply rel_ret. split; [reflexivity|]. constructor; assumption.
Qed.
(** what is consulted about a license is the same *)
Definition given_magic (magic : option N) (l : full_license) : N := match magic with Some m => m | None => fl_magic l end.
Record fair (magic : option N) (l : full_license) : Prop := {
  fa_verify : bk_verify bk (print_for_sign l) (fl_signature l) = bk_verify bk' (print_for_sign l) (fl_signature l);
  fa_expiry : sm_get PARAM_EXPIRY_DATE (fl_limits l) <> None -> forall t u, T t u -> w_clock w t = w_clock w' u;
  fa_begin : bk_verify bk (print_for_sign l) (fl_signature l) = Ok true -> given_magic magic l = w_magic w ->
    sm_get PARAM_BEGIN_DATE (fl_limits l) <> None -> forall t u, T t u -> w_clock w t = w_clock w' u;
  fa_machine : bk_verify bk (print_for_sign l) (fl_signature l) = Ok true -> given_magic magic l = w_magic w ->
    forall code, sm_get PARAM_CLIENT_SIGNATURE (fl_limits l) = Some code -> forall t u, T t u -> bk_validate bk t code = bk_validate bk' u code
}.
Lemma rel_now : rel (fun _ _ => True) (m_now w) (m_now w').
Proof using T_S. intros t u Ht. cbn. auto. Qed.
Lemma rel_now_eq : (forall t u, T t u -> w_clock w t = w_clock w' u) -> rel eq (m_now w) (m_now w').
Proof using T_S. intros H t u Ht. cbn. auto. Qed.
Lemma rel_info mg l l' : same_license l l' -> fair mg l -> rel eq (to_license_info w l) (to_license_info w' l').
Proof using T_S HW.
  intros SL FA. unfold to_license_info. rewrite <- (sl_limits _ _ SL), <- (aw_mktime _ _ HW). pose proof (fa_expiry _ _ FA) as HE. destruct (sm_get PARAM_EXPIRY_DATE (fl_limits l)) as [d|]; [|apply rel_ret; reflexivity].
  apply rel_eq; [apply rel_lift|]. intros s. apply rel_eq; [apply rel_now_eq, HE; discriminate|]. intros now. cbv zeta. apply rel_eq; [apply rel_lift|]. intros days. apply rel_ret. reflexivity.
Qed.
Lemma rel_limits mg l l' r : same_license l l' -> fair mg l -> fl_magic l = given_magic mg l -> bk_verify bk (print_for_sign l) (fl_signature l) = Ok true ->
  rel eq (g_verify_limits w bk l r) (g_verify_limits w' bk' l' r).
Proof using T_S HW HR.
  intros SL FA MG OK. unfold g_verify_limits. rewrite <- (sl_limits _ _ SL), <- (sl_source _ _ SL), <- (sl_magic _ _ SL), <- (aw_magic _ _ HW), <- (aw_mktime _ _ HW).
  apply rel_eq; [destruct (N.eqb _ _); [apply rel_ret; reflexivity|apply rel_add]|]. intros r1.
  pose proof (fa_expiry _ _ FA) as F1. pose proof (fa_begin _ _ FA OK) as F2. pose proof (fa_machine _ _ FA OK) as F3. rewrite <- MG in F2, F3.
  eapply (rel_bind (fun a b => (sm_get PARAM_EXPIRY_DATE (fl_limits l) <> None -> a = b) /\ (fl_magic l = w_magic w -> sm_get PARAM_BEGIN_DATE (fl_limits l) <> None -> a = b))).
  { intros t u Ht. cbn. auto. }
  intros now now' [N1 N2].
  apply (rel_bind (fun x y => x = y /\ (fst x = true -> fl_magic l = w_magic w))).
  { destruct (N.eqb_spec (fl_magic l) (w_magic w)) as [Em|Em]; [|apply rel_ret; split; [reflexivity|discriminate]].
    destruct (sm_get PARAM_EXPIRY_DATE (fl_limits l)) as [d|]; [|apply rel_ret; auto]. rewrite <- N1 by discriminate. apply rel_eq; [apply rel_lift|]. intros secs. destruct (secs <? now)%Z; [|apply rel_ret; auto].
    apply rel_eq; [apply rel_add|]. intros r2. apply rel_ret. auto. }
  intros [v2 r2] y [<- HM]. cbn [fst] in HM.
  apply (rel_bind (fun x y => x = y /\ (fst x = true -> fl_magic l = w_magic w))).
  { destruct v2; [|apply rel_ret; split; [reflexivity|discriminate]]. specialize (HM eq_refl). specialize (N2 HM).
    destruct (sm_get PARAM_BEGIN_DATE (fl_limits l)) as [d|]; [|apply rel_ret; auto]. rewrite <- N2 by discriminate. apply rel_eq; [apply rel_lift|]. intros secs. destruct (now <? secs)%Z; [|apply rel_ret; auto].
    apply rel_eq; [apply rel_add|]. intros r3. apply rel_ret. auto. }
  intros [v3 r3] y [<- HM3]. cbn [fst] in HM3. destruct v3; [|apply rel_ret; reflexivity]. specialize (F3 (HM3 eq_refl)). destruct (sm_get PARAM_CLIENT_SIGNATURE (fl_limits l)) as [code|]; [|apply rel_ret; reflexivity].
  apply rel_eq; [|intros e; apply rel_eq; [apply rel_add|intros; apply rel_ret; reflexivity]]. intros t u Ht. unfold m_validate. rewrite (F3 code eq_refl t u Ht). destruct (bk_validate bk' u code); cbn; auto.
Qed.
Lemma rel_all mg ls ls' r ok bad : Forall2 same_license ls ls' -> Forall (fair mg) ls -> rel eq (g_verify_all w bk mg ls r ok bad) (g_verify_all w' bk' mg ls' r ok bad).
Proof using T_S HW HR.
  intros HS. revert r ok bad. induction HS as [|l l' ls ls' SL HS IH]; intros r ok bad HFA; [apply rel_ret; reflexivity|]. inversion HFA as [|? ? FA HFA']; subst. cbn [g_verify_all]. cbv zeta.
  set (m1 := match mg with Some m => _ | None => l end). set (m2 := match mg with Some m => _ | None => l' end).
  assert (SL1 : same_license m1 m2) by (unfold m1, m2; destruct mg; [destruct SL; constructor; auto|exact SL]).
  assert (FA1 : fair mg m1) by (unfold m1; destruct mg; [destruct FA; constructor; auto|exact FA]).
  assert (MG : fl_magic m1 = given_magic mg m1) by (unfold m1, given_magic; destruct mg; reflexivity).
  clearbody m1 m2. apply (rel_bind (fun x y => x = y /\ (fst x = true -> bk_verify bk (print_for_sign m1) (fl_signature m1) = Ok true))).
  { intros t u Ht. unfold mlift, g_verify_signature. rewrite <- (sl_print _ _ SL1), <- (sl_signature _ _ SL1), <- (sl_source _ _ SL1), <- (fa_verify _ _ FA1).
    destruct (bk_verify bk (print_for_sign m1) (fl_signature m1)) as [b| | |]; cbn; auto. rewrite <- add_same. destruct (g_add_event bk _ _ _ _); cbn; auto. split; [|exact Ht]. split; [reflexivity|]. intros ->. reflexivity. }
  intros [b r1] y [<- OK]. cbn [fst] in OK. apply rel_eq; [eapply rel_info; eassumption|]. intros info. destruct b; [|apply IH; assumption].
  apply rel_eq; [eapply rel_limits; eauto|]. intros [b2 r2]. destruct b2; apply IH; assumption.
Qed.
End REL.

(** ** The whole call *)
Lemma rel_acquire (T : nat -> nat -> Prop) w w' bk bk' c c' hint out f f' t u :
  (forall t u, T t u -> T (S t) (S u)) -> alike_worlds T w w' -> bk_ref bk = bk_ref bk' ->
  requested_feature w c = Ok f -> requested_feature w' c' = Ok f' -> toupper_copy f = toupper_copy f' -> toupper_copy (trim_copy f) = toupper_copy (trim_copy f') ->
  option_map ci_magic c = option_map ci_magic c' ->
  (forall r ls t', g_read_licenses w bk hint f t = Ok ((r, ls), t') -> Forall (fair T w w' bk bk' (option_map ci_magic c)) ls) ->
  T t u -> rel_res T eq (g_acquire_license w bk c hint out t) (g_acquire_license w' bk' c' hint out u).
Proof.
  intros TS HW HR E E' HF HT HM HFA Ht. unfold g_acquire_license. apply (rel_bind_at T (fun a b => a = f /\ b = f')).
  { rewrite E, E'. cbn. auto. }
  intros a t1 b u1 H1 H2 [-> ->] Ht1. apply mlift_ok in H1 as [_ ->]. apply mlift_ok in H2 as [_ ->]. apply (rel_bind_at T same_acc).
  { apply rel_licenses; assumption. }
  intros [r ls] t1 [r' ls'] u1 H1 H2 [Er HS] Ht2. cbn [fst snd] in Er, HS. subst r'. apply HFA in H1. rewrite <- HM.
  assert (Y : rel T eq (g_verify_all w bk (option_map ci_magic c) ls r [] []) (g_verify_all w' bk' (option_map ci_magic c) ls' r [] [])) by (apply rel_all; assumption).
  destruct HS as [|l l' ls ls' SL HS].
  - refine (rel_eq T eq _ _ _ _ _ _ t1 u1 Ht2); [apply rel_lift|]. intros [er b]. apply rel_eq; [apply rel_lift|]. intros code. apply rel_ret. reflexivity.
  - refine (rel_eq T eq _ _ _ _ Y _ t1 u1 Ht2). intros [[er ok] bad]. cbv zeta. destruct ok.
    + apply rel_eq; [apply rel_lift|]. intros [er1 b]. apply rel_eq; [apply rel_lift|]. intros code. apply rel_ret. reflexivity.
    + destruct (turn_errors_into_warnings er). apply rel_ret. reflexivity.
Qed.
