From Verif Require Import Base CTypes StringUtils HwId Registry Network Disks ExecEnv Strategies.
From Verif Require Import P_Base P_Strings Spec_Disks P_Disks P_Blkid Spec_Listing P_DiskList Spec_HwId P_HwId Spec_Hw P_Hw P_Hw2 P_Hw3 Spec_Prefer.

(** ** order of the identifiers *)
Lemma disk_data_idents d l : disk_data d = Ok l -> l = disk_idents d.
Proof.
  unfold disk_data, disk_idents. destruct (dk_label_init d).
  - destruct (dk_label d) as [lab|]; [|discriminate]. intros [= <-]. destruct (dk_sn_init d); reflexivity.
  - intros [= <-]. destruct (dk_label d); rewrite app_nil_r; destruct (dk_sn_init d); reflexivity.
Qed.
Lemma disks_data_idents ds l : disks_data ds = Ok l -> l = flat_map disk_idents ds.
Proof.
  revert l; induction ds as [|d ds IH]; intros l; cbn [disks_data flat_map]; [intros [= <-]; reflexivity|].
  intros H. apply rbind_ok in H as [x [Ex H]]. apply rbind_ok in H as [y [Ey H]]. injection H as <-.
  rewrite (disk_data_idents _ _ Ex), (IH _ Ey). reflexivity.
Qed.
Lemma disk_order m ds ids : disks_of (hw_disks m) = Ok (FUNC_RET_OK, ds) -> alternative_ids StDisk m = Ok ids ->
  map data53 ids = map d7_53 (flat_map disk_idents (filter dk_preferred ds) ++ flat_map disk_idents (filter (fun d => negb (dk_preferred d)) ds)) /\
  Forall (fun h => get_identification_strategy h = 2%Z) ids.
Proof.
  intros Ed H. cbn [alternative_ids] in H. unfold generate_disk_pc_id in H. rewrite listing_eq, Ed in H. cbn [rbind] in H.
  destruct ds as [|d ds]; [injection H as <-; split; [reflexivity|constructor]|].
  destruct (disks_data (filter dk_preferred (d :: ds))) as [p| | |] eqn:Ep; cbn [rbind] in H; try discriminate.
  destruct (disks_data (filter (fun d => negb (dk_preferred d)) (d :: ds))) as [o| | |] eqn:Eo; cbn [rbind] in H; try discriminate.
  rewrite (disks_data_idents _ _ Ep), (disks_data_idents _ _ Eo) in H. set (v := _ ++ _) in *.
  destruct v as [|x v']; [injection H as <-; split; [reflexivity|constructor]|].
  destruct (make_ids_ok (identification_strategy StDisk) (x :: v')) as [hs [E F]]; [unfold identification_strategy, STRATEGY_DISK; lia|].
  rewrite E in H. injection H as <-. split; [eapply Forall2_map53, F|].
  clear -F. induction F as [|? ? ? ? [H _]]; constructor; assumption.
Qed.
(** the generated identifier is the first *)
Lemma disk_generated m h : generate_pc_id StDisk m = Ok (Some h) -> exists ids, alternative_ids StDisk m = Ok ids /\ hd_error ids = Some h.
Proof. cbn [generate_pc_id]. unfold generate_concrete. intros H. apply rbind_ok in H as [ids [E H]]. injection H as H. eauto. Qed.

(** ** marking *)
Lemma update_first_nth p (f : disk -> disk) l k d : nth_error l k = Some d ->
  nth_error (update_first p f l) k = Some (if p d && forallb (fun x => negb (p x)) (firstn k l) then f d else d).
Proof.
  revert k; induction l as [|x l IH]; intros k H; [destruct k; discriminate|]. cbn [update_first].
  destruct k as [|k]; cbn [nth_error firstn forallb] in *.
  - injection H as ->. destruct (p d); cbn [nth_error andb]; reflexivity.
  - destruct (p x) eqn:Ex; cbn [nth_error negb andb].
    + rewrite andb_false_r. exact H.
    + rewrite (IH k H). reflexivity.
Qed.
Lemma update_first_length p (f : disk -> disk) l : length (update_first p f l) = length l.
Proof. induction l as [|x l IH]; cbn [update_first]; [reflexivity|]. destruct (p x); cbn; congruence. Qed.
Lemma first_with_bool p (P : disk -> Prop) l k d : (forall x, In x l -> p x = true <-> P x) -> nth_error l k = Some d ->
  p d && forallb (fun x => negb (p x)) (firstn k l) = true <-> first_with P l k.
Proof.
  intros Hp Hd. pose proof (nth_error_In _ _ Hd) as Hin. rewrite andb_true_iff, (Hp d Hin), forallb_forall. split.
  - intros [H1 H2]. exists d. split; [exact Hd|]. split; [exact H1|]. intros j d' Hj Hn HP.
    assert (Hin' : In d' (firstn k l)).
    { apply nth_error_In with j. rewrite <- Hn. clear -Hj. revert l k Hj; induction j as [|j IH]; intros [|x l] [|k] Hj; cbn; try reflexivity; try lia. apply IH. lia. }
    apply H2 in Hin'. apply Hp in HP; [|eapply nth_error_In, Hn]. rewrite HP in Hin'. discriminate.
  - intros [d0 [Hd0 [HP H]]]. rewrite Hd in Hd0. injection Hd0 as <-. split; [exact HP|]. intros x Hx.
    apply In_nth_error in Hx as [j Hj]. assert (j < k) as Hjk.
    { assert (j < length (firstn k l)) by (apply nth_error_Some; congruence). rewrite firstn_length in H0. lia. }
    assert (nth_error l j = Some x) as Hj'.
    { rewrite <- Hj. clear -Hjk. revert l k Hjk; induction j as [|j IH]; intros [|y l] [|k] Hj; cbn; try reflexivity; try lia. apply IH. lia. }
    destruct (p x) eqn:Ex; [|reflexivity]. exfalso. apply (H j x Hjk Hj'). apply Hp; [eapply nth_error_In, Hj'|exact Ex].
Qed.
Lemma prefer_label_ok name l l' : prefer_by_label name l = Ok l' ->
  l' = update_first (fun d => match dk_label d with Some lab => beqb name lab | None => false end) set_preferred l.
Proof.
  revert l'; induction l as [|d l IH]; intros l'; cbn [prefer_by_label update_first]; [intros [= <-]; reflexivity|].
  destruct (dk_label d) as [lab|]; [|discriminate]. destruct (beqb name lab); [intros [= <-]; reflexivity|].
  intros H. apply rbind_ok in H as [r [E H]]. injection H as <-. rewrite (IH _ E). reflexivity.
Qed.

Definition marked (l l' : list disk) (P : nat -> Prop) : Prop :=
  length l' = length l /\ forall k d, nth_error l k = Some d -> exists d', nth_error l' k = Some d' /\ same_but_preferred d d' /\
    (dk_preferred d' = true <-> dk_preferred d = true \/ P k).
Lemma marked_refl l (P : nat -> Prop) : (forall k, ~ P k) -> marked l l P.
Proof. intros H. split; [reflexivity|]. intros k d E. exists d. repeat split; auto. intros [A|A]; [exact A|]. destruct (H k A). Qed.
Lemma marked_update l p (P : nat -> Prop) : (forall k d, nth_error l k = Some d -> p d && forallb (fun x => negb (p x)) (firstn k l) = true <-> P k) ->
  marked l (update_first p set_preferred l) P.
Proof.
  intros H. split; [apply update_first_length|]. intros k d E. eexists. split; [apply update_first_nth, E|].
  pose proof (H k d E) as Hk. destruct (p d && _).
  - split; [repeat split|]. cbn [dk_preferred set_preferred]. tauto.
  - split; [repeat split|]. split; [auto|]. intros [A|A]; [exact A|]. apply Hk in A. discriminate.
Qed.
Lemma first_with_same (P : disk -> Prop) l l' (Q : nat -> Prop) k : marked l l' Q -> (forall d d', same_but_preferred d d' -> P d <-> P d') ->
  first_with P l' k <-> first_with P l k.
Proof.
  intros [Hl H] HP.
  assert (B : forall j d', nth_error l' j = Some d' -> exists d, nth_error l j = Some d /\ same_but_preferred d d').
  { intros j d' E. destruct (nth_error l j) as [d|] eqn:Ed.
    - destruct (H j d Ed) as [d2 [E2 [S _]]]. rewrite E in E2. injection E2 as <-. eauto.
    - apply nth_error_None in Ed. assert (j < length l') by (apply nth_error_Some; congruence). lia. }
  split.
  - intros [d' [E [HPd Hmin]]]. destruct (B _ _ E) as [d [Ed S]]. exists d. split; [exact Ed|]. split; [apply (HP _ _ S), HPd|].
    intros j x Hj Ex Px. destruct (H j x Ex) as [x' [Ex' [Sx _]]]. apply (Hmin j x' Hj Ex'). apply (HP _ _ Sx), Px.
  - intros [d [E [HPd Hmin]]]. destruct (H k d E) as [d' [E' [S _]]]. exists d'. split; [exact E'|]. split; [apply (HP _ _ S), HPd|].
    intros j x' Hj Ex' Px. destruct (B _ _ Ex') as [x [Ex Sx]]. apply (Hmin j x Hj Ex). apply (HP _ _ Sx), Px.
Qed.
Lemma names_same ids e l l' Q k : marked l l' Q -> names ids e l' k <-> names ids e l k.
Proof.
  intros M. unfold names.
  assert (A : forall id, first_with (fun d => dk_id d = id) l' k <-> first_with (fun d => dk_id d = id) l k).
  { intros id. eapply first_with_same; [exact M|]. intros d d' [-> _]. reflexivity. }
  assert (B : forall lab, first_with (fun d => dk_label d = Some lab) l' k <-> first_with (fun d => dk_label d = Some lab) l k).
  { intros lab. eapply first_with_same; [exact M|]. intros d d' [_ [_ [_ [_ [-> _]]]]]. reflexivity. }
  split; (intros [[u [id [X [Y Z]]]]|[lab [X Y]]]; [left; exists u, id; rewrite ?A, <- ?A in *; auto|right; exists lab; rewrite ?B, <- ?B in *; auto]).
Qed.
Lemma skipn_app_len {A} (a b : list A) n : n = length a -> skipn n (a ++ b) = b.
Proof. intros ->. apply skipn_len. Qed.

Lemma prefer_entry_marked by_uuid e l l' : prefer_entry by_uuid e l = Ok l' -> marked l l' (names (fun u => map_find u by_uuid) e l).
Proof.
  unfold prefer_entry. destruct (is_prefix (bs "UUID=") e) eqn:E1.
  - apply is_prefix_spec in E1 as [u ->]. change (skipn 5 (bs "UUID=" ++ u)) with u.
    assert (N : forall k, names (fun u => map_find u by_uuid) (bs "UUID=" ++ u) l k <-> exists id, map_find u by_uuid = Some id /\ first_with (fun d => dk_id d = id) l k).
    { intros k. split.
      - intros [[u' [id [X Y]]]|[lab [X _]]]; [|discriminate]. apply app_inv_head in X. subst. eauto.
      - intros [id [X Y]]. left. exists u, id. auto. }
    destruct (map_find u by_uuid) as [id|] eqn:Ef; intros [= <-].
    + apply marked_update. intros k d Hd. rewrite N.
      rewrite (first_with_bool (fun d => Z.eqb id (dk_id d)) (fun d => dk_id d = id) l k d); [|intros x _; rewrite Z.eqb_eq; split; congruence|exact Hd].
      split; [eauto|]. intros [id' [[= <-] X]]. exact X.
    + apply marked_refl. intros k Hk. apply N in Hk as [id [X _]]. discriminate.
  - destruct (is_prefix (bs "LABEL=") e) eqn:E2.
    + apply is_prefix_spec in E2 as [lab ->]. change (skipn 6 (bs "LABEL=" ++ lab)) with lab. intros H. apply prefer_label_ok in H as ->.
      apply marked_update. intros k d Hd.
      rewrite (first_with_bool (fun d => match dk_label d with Some lab0 => beqb lab lab0 | None => false end) (fun d => dk_label d = Some lab) l k d); [| |exact Hd].
      * split; [intros X; right; exists lab; auto|]. intros [[u [id [X _]]]|[lab' [X Y]]]; [discriminate|]. apply app_inv_head in X. subst. exact Y.
      * intros x _. destruct (dk_label x) as [lx|]; [|split; discriminate]. rewrite beqb_eq. split; [intros ->; reflexivity|intros [= ->]; reflexivity].
    + intros [= <-]. apply marked_refl. intros k [[u [id [X _]]]|[lab [X _]]]; subst.
      * apply not_true_iff_false in E1. apply E1, is_prefix_spec. eauto.
      * apply not_true_iff_false in E2. apply E2, is_prefix_spec. eauto.
Qed.
Lemma same_trans d1 d2 d3 : same_but_preferred d1 d2 -> same_but_preferred d2 d3 -> same_but_preferred d1 d3.
Proof. unfold same_but_preferred. intros H1 H2. intuition congruence. Qed.
Lemma prefer_entries_marked by_uuid es l l' : prefer_entries by_uuid es l = Ok l' ->
  marked l l' (fun k => exists e, In e es /\ names (fun u => map_find u by_uuid) e l k).
Proof.
  revert l l'; induction es as [|e es IH]; intros l l'; cbn [prefer_entries].
  - intros [= <-]. apply marked_refl. intros k [e [[] _]].
  - intros H. apply rbind_ok in H as [l1 [E1 H]]. pose proof (prefer_entry_marked _ _ _ _ E1) as M1. pose proof (IH _ _ H) as M2.
    split; [destruct M1, M2; congruence|]. intros k d Ed. destruct (proj2 M1 k d Ed) as [d1 [Ed1 [S1 P1]]]. destruct (proj2 M2 k d1 Ed1) as [d2 [Ed2 [S2 P2]]].
    exists d2. split; [exact Ed2|]. split; [eapply same_trans; eassumption|]. rewrite P2, P1. split.
    + intros [[A|A]|[e' [A B]]]; [auto|right; exists e; split; [left; reflexivity|exact A]|right; exists e'; split; [right; exact A|apply (names_same _ _ _ _ _ _ M1), B]].
    + intros [A|[e' [[<-|A] B]]]; [auto|auto|right; exists e'; split; [exact A|apply (names_same _ _ _ _ _ _ M1), B]].
Qed.

(** ** the by-uuid directory *)
Definition from_entry (d : disk) (e : dirent) : Prop :=
  usable e (dk_id d) /\ dk_sn d = serial_of (cstr (de_name e)) /\ dk_sn_init d = true /\ dk_preferred d = false.

Lemma usable_test e : is_dots (de_name e) || is_prefix (bs "usb") (de_name e) = false <->
  de_name e <> bs "." /\ de_name e <> bs ".." /\ forall r, de_name e <> bs "usb" ++ r.
Proof.
  unfold is_dots. rewrite !orb_false_iff, !beqb_false. split.
  - intros [[A B] C]. split; [exact A|]. split; [exact B|]. intros r E. apply not_true_iff_false in C. apply C, is_prefix_spec. eauto.
  - intros [A [B C]]. split; [auto|]. apply not_true_iff_false. intros E. apply is_prefix_spec in E as [r E]. exact (C r E).
Qed.
Lemma NoDup_app_snoc {A} (l : list A) x : NoDup l -> ~ In x l -> NoDup (l ++ [x]).
Proof.
  induction 1 as [|y l Hy Hl IH]; cbn; intros Hx; [constructor; [intros []|constructor]|].
  constructor; [|apply IH; tauto]. intros Hin. apply in_app_or in Hin as [Hin|[->|[]]]; tauto.
Qed.

Definition dev_inv (seen : list dirent) (infos : list disk) (by_uuid : list (bytes * Z)) : Prop :=
  NoDup (map dk_id infos) /\ length infos <= 40 /\
  (forall d, In d infos -> exists e, In e seen /\ from_entry d e) /\
  (forall e id, In e seen -> usable e id -> exists d, In d infos /\ dk_id d = id) /\
  (forall u id, map_find u by_uuid = Some id -> exists e, In e seen /\ de_name e = u /\ usable e id) /\
  (forall e id, In e seen -> usable e id -> exists id', map_find (de_name e) by_uuid = Some id').

Lemma dev_loop_inv seen es infos by_uuid infos' by_uuid' : dev_inv seen infos by_uuid -> dev_loop es infos by_uuid = Ok (infos', by_uuid') ->
  exists seen' rest, es = seen' ++ rest /\ dev_inv (seen ++ seen') infos' by_uuid' /\ (rest <> [] -> length infos' = 40).
Proof.
  revert seen infos by_uuid; induction es as [|e es IH]; intros seen infos by_uuid Hi H; cbn [dev_loop] in H.
  { injection H as <- <-. exists [], []. rewrite (app_nil_r seen). split; [reflexivity|]. split; [exact Hi|congruence]. }
  unfold MAX_UNITS in H. destruct (Nat.leb_spec 40 (length infos)) as [Hmax|Hmax].
  { injection H as <- <-. exists [], (e :: es). rewrite (app_nil_r seen). split; [reflexivity|]. split; [exact Hi|]. destruct Hi as [_ [Hl _]]. intros _. lia. }
  assert (Hskip : (forall id, ~ usable e id) -> dev_loop es infos by_uuid = Ok (infos', by_uuid') ->
    exists seen' rest, e :: es = seen' ++ rest /\ dev_inv (seen ++ seen') infos' by_uuid' /\ (rest <> [] -> length infos' = 40)).
  { intros Hno Hl. destruct (IH (seen ++ [e]) infos by_uuid) as [seen' [rest [-> [A B]]]]; [|exact Hl|].
    - destruct Hi as [I1 [I2 [I3 [I4 [I5 I6]]]]]. split; [exact I1|]. split; [exact I2|]. split; [|split; [|split]].
      + intros d Hd. destruct (I3 d Hd) as [x [X Y]]. exists x. split; [apply in_or_app; auto|exact Y].
      + intros x id Hx Hu. apply in_app_or in Hx as [Hx|[<-|[]]]; [eapply I4; eassumption|]. destruct (Hno id Hu).
      + intros u id Hf. destruct (I5 u id Hf) as [x [X Y]]. exists x. split; [apply in_or_app; auto|exact Y].
      + intros x id Hx Hu. apply in_app_or in Hx as [Hx|[<-|[]]]; [eapply I6; eassumption|]. destruct (Hno id Hu).
    - exists (e :: seen'), rest. split; [reflexivity|]. rewrite <- app_assoc in A. split; assumption. }
  destruct (is_dots (de_name e) || is_prefix (bs "usb") (de_name e)) eqn:Et.
  { apply Hskip; [|exact H]. intros id [U1 [U2 [U3 _]]]. assert (E : is_dots (de_name e) || is_prefix (bs "usb") (de_name e) = false) by (apply usable_test; auto). congruence. }
  destruct (de_ino e) as [ino|] eqn:Eino; [|apply Hskip; [|exact H]; intros id [_ [_ [_ [[i [X _]] _]]]]; congruence].
  destruct (de_link e) as [link|] eqn:Elink; [|apply Hskip; [|exact H]; intros id [_ [_ [_ [_ X]]]]; congruence].
  assert (Hu : usable e (wrap_int ino)).
  { apply usable_test in Et as [U1 [U2 U3]]. repeat split; auto; [eauto|congruence]. }
  assert (Huid : forall id, usable e id -> id = wrap_int ino) by (intros id [_ [_ [_ [[i [X ->]] _]]]]; congruence).
  destruct (parse_uuid (de_name e)) as [sn| | |] eqn:Es; cbn [rbind] in H; try discriminate.
  assert (sn = serial_of (cstr (de_name e))) as -> by (rewrite parse_uuid_spec in Es; destruct (Nat.ltb _ _); congruence).
  match type of H with context [infos ++ [?x]] => set (d := x) in H end.
  set (found := existsb (fun x => Z.eqb (dk_id x) (wrap_int ino)) infos) in H.
  destruct (IH (seen ++ [e]) (if found then infos else infos ++ [d]) (map_insert (de_name e) (wrap_int ino) by_uuid)) as [seen' [rest [-> [A B]]]]; [|exact H|].
  - destruct Hi as [I1 [I2 [I3 [I4 [I5 I6]]]]].
    assert (Hfound : found = true <-> exists x, In x infos /\ dk_id x = wrap_int ino).
    { unfold found. rewrite existsb_exists. setoid_rewrite Z.eqb_eq. reflexivity. }
    split; [|split; [|split; [|split; [|split]]]].
    + destruct found; [exact I1|]. rewrite map_app. cbn [map]. apply NoDup_app_snoc; [exact I1|]. intros Hin. apply in_map_iff in Hin as [x [X Y]].
      assert (false = true) by (apply Hfound; exists x; split; [exact Y|exact X]). discriminate.
    + destruct found; [lia|]. rewrite app_length. cbn. lia.
    + intros x Hx. assert (Hx' : In x infos \/ x = d) by (destruct found; [auto|apply in_app_or in Hx as [Hx|[<-|[]]]; auto]).
      destruct Hx' as [Hx'| ->]; [destruct (I3 x Hx') as [y [X Y]]; exists y; split; [apply in_or_app; auto|exact Y]|].
      exists e. split; [apply in_or_app; right; left; reflexivity|]. split; [exact Hu|]. repeat split.
    + intros x id Hx Hux. apply in_app_or in Hx as [Hx|[<-|[]]].
      * destruct (I4 x id Hx Hux) as [y [X Y]]. exists y. split; [destruct found; [exact X|apply in_or_app; auto]|exact Y].
      * apply Huid in Hux as ->. destruct found eqn:Ef.
        -- apply Hfound. reflexivity.
        -- exists d. split; [apply in_or_app; right; left; reflexivity|reflexivity].
    + intros u id Hf. rewrite map_find_insert in Hf. destruct (map_find u by_uuid) as [y|] eqn:Ey.
      * injection Hf as <-. destruct (I5 u y Ey) as [x [X Y]]. exists x. split; [apply in_or_app; auto|exact Y].
      * destruct (beqb_spec (de_name e) u) as [<-|]; [|discriminate]. injection Hf as <-. exists e. split; [apply in_or_app; right; left; reflexivity|]. auto.
    + intros x id Hx Hux. rewrite map_find_insert. destruct (map_find (de_name x) by_uuid) as [y|] eqn:Ey; [eauto|].
      apply in_app_or in Hx as [Hx|[<-|[]]]; [destruct (I6 x id Hx Hux); congruence|]. rewrite beqb_refl. eauto.
  - exists (e :: seen'), rest. split; [reflexivity|]. rewrite <- app_assoc in A. split; assumption.
Qed.
