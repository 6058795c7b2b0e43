From Verif Require Import Base CTypes StringUtils HwId Registry Network Disks.
From Verif Require Import P_Base P_Strings Spec_Disks P_Disks P_Blkid Spec_Prefer P_Prefer.

(** labelling changes labels only *)
Definition same_but_label (d d' : disk) : Prop :=
  dk_id d' = dk_id d /\ dk_device d' = dk_device d /\ dk_sn d' = dk_sn d /\ dk_sn_init d' = dk_sn_init d /\ dk_preferred d' = dk_preferred d.
Lemma sbl_refl d : same_but_label d d.
Proof. repeat split. Qed.
Lemma sbl_trans a b c : same_but_label a b -> same_but_label b c -> same_but_label a c.
Proof. unfold same_but_label. intros H1 H2. intuition congruence. Qed.
Lemma F2_refl l : Forall2 same_but_label l l.
Proof. induction l; constructor; [apply sbl_refl|assumption]. Qed.
Lemma F2_trans a b c : Forall2 same_but_label a b -> Forall2 same_but_label b c -> Forall2 same_but_label a c.
Proof. intros H; revert c; induction H; intros c Hc; inversion Hc; subst; constructor; [eapply sbl_trans; eassumption|auto]. Qed.
Lemma F2_update p lab l : Forall2 same_but_label l (update_first p (set_label lab) l).
Proof. induction l as [|d l IH]; cbn [update_first]; [constructor|]. destruct (p d); constructor; try apply F2_refl; try assumption; repeat split. Qed.
Lemma labels_same env l : Forall2 same_but_label l (read_disk_labels env l).
Proof.
  unfold read_disk_labels. destruct (match de_by_label env with Some x => Some x | None => _ end) as [es|]; [|apply F2_refl].
  assert (H : forall acc, Forall2 same_but_label l acc -> Forall2 same_but_label l (fold_left (fun acc e =>
        if is_dots (de_name e) then acc else match de_ino e with None => acc
             | Some ino => update_first (fun d => Z.eqb (wrap_int ino) (dk_id d)) (set_label (fit 255 (de_name e))) acc end) es acc)).
  { induction es as [|e es IH]; intros acc Ha; cbn [fold_left]; [exact Ha|]. apply IH. destruct (is_dots (de_name e)); [exact Ha|].
    destruct (de_ino e); [|exact Ha]. eapply F2_trans; [exact Ha|]. apply F2_update. }
  apply H, F2_refl.
Qed.
Lemma F2_ids a b : Forall2 same_but_label a b -> map dk_id b = map dk_id a.
Proof. induction 1 as [|x y a b [E _] F IH]; cbn; [reflexivity|]. congruence. Qed.
Lemma F2_in_r a b y : Forall2 same_but_label a b -> In y b -> exists x, In x a /\ same_but_label x y.
Proof. induction 1 as [|x y' a b E F IH]; [intros []|]. intros [<-|H]; [exists x; split; [left; reflexivity|exact E]|]. destruct (IH H) as [z [A B]]. exists z. split; [right; exact A|exact B]. Qed.
Lemma F2_in_l a b x : Forall2 same_but_label a b -> In x a -> exists y, In y b /\ same_but_label x y.
Proof. induction 1 as [|x' y a b E F IH]; [intros []|]. intros [<-|H]; [exists y; split; [left; reflexivity|exact E]|]. destruct (IH H) as [z [A B]]. exists z. split; [right; exact A|exact B]. Qed.

Lemma marked_ids l l' P : marked l l' P -> map dk_id l' = map dk_id l.
Proof.
  intros [Hl H]. revert l' Hl P H; induction l as [|d l IH]; intros [|d' l'] Hl P H; cbn in Hl; try lia; [reflexivity|].
  cbn [map]. f_equal.
  - destruct (H 0 d eq_refl) as [x [[= <-] [[E _] _]]]. exact E.
  - apply (IH l' ltac:(lia) (fun k => P (S k))). intros k x Hx. exact (H (S k) x Hx).
Qed.
Lemma marked_in_r l l' P d' : marked l l' P -> In d' l' -> exists k d, nth_error l k = Some d /\ nth_error l' k = Some d' /\ same_but_preferred d d' /\ (dk_preferred d' = true <-> dk_preferred d = true \/ P k).
Proof.
  intros [Hl H] Hin. apply In_nth_error in Hin as [k Hk]. assert (k < length l') by (apply nth_error_Some; congruence).
  destruct (nth_error l k) as [d|] eqn:Ed; [|apply nth_error_None in Ed; lia]. destruct (H k d Ed) as [x [Ex [S Px]]]. rewrite Hk in Ex. injection Ex as <-.
  exists k, d. auto.
Qed.

Lemma dev_inv_nil : dev_inv [] [] [].
Proof.
  split; [constructor|]. split; [cbn; lia|]. split; [intros d []|]. split; [intros e id []|]. split; [intros u id [=]|intros e id []].
Qed.

(** everything about disks found through /dev/disk/by-uuid *)
Definition uuid_listing (env : disk_env) (es : list dirent) (ds : list disk) : Prop :=
  de_by_uuid env = Some es /\ (exists e id, In e es /\ usable e id) /\ get_disk_infos env = Ok (FUNC_RET_OK, ds).

Lemma uuid_disks env es ds : uuid_listing env es ds ->
  exists seen rest by_uuid base, es = seen ++ rest /\ (rest <> [] -> length ds = 40) /\
    NoDup (map dk_id ds) /\ length ds <= 40 /\
    (forall d, In d ds -> exists e, In e seen /\ usable e (dk_id d) /\ dk_sn d = serial_of (cstr (de_name e)) /\ dk_sn_init d = true) /\
    (forall e id, In e seen -> usable e id -> exists d, In d ds /\ dk_id d = id) /\
    (forall u id, map_find u by_uuid = Some id -> exists e, In e seen /\ de_name e = u /\ usable e id) /\
    (forall e id, In e seen -> usable e id -> exists id', map_find (de_name e) by_uuid = Some id') /\
    (forall d, In d base -> dk_preferred d = false) /\
    marked base ds (fun k => exists f fs, de_fstab env = Some fs /\ In f fs /\ names (fun u => map_find u by_uuid) f base k).
Proof.
  intros [Hes [[e0 [id0 [Hin0 Hu0]]] H]]. unfold get_disk_infos, get_disk_infos_dev in H. rewrite Hes in H.
  destruct (dev_loop es [] []) as [[infos by_uuid]| | |] eqn:El; cbn [rbind] in H; try discriminate.
  destruct (dev_loop_inv [] es [] [] infos by_uuid dev_inv_nil El) as [seen [rest [-> [Hi Hr]]]]. cbn [app] in Hi.
  destruct Hi as [I1 [I2 [I3 [I4 [I5 I6]]]]].
  assert (Hne : infos <> []).
  { intros ->. destruct rest as [|r rest].
    - rewrite app_nil_r in Hin0. destruct (I4 e0 id0 Hin0 Hu0) as [d [[] _]].
    - assert (length (@nil disk) = 40) by (apply Hr; discriminate). discriminate. }
  assert (Hset : exists ds', set_preferred_disks env by_uuid (read_disk_labels env infos) = Ok ds' /\ ds' = ds).
  { destruct infos as [|d0 infos]; [congruence|]. apply rbind_ok in H as [x [X Y]]. injection Y as ->. eauto. }
  clear H. destruct Hset as [ds' [Hset ->]]. set (base := read_disk_labels env infos) in *.
  pose proof (labels_same env infos) as F. fold base in F.
  assert (M : marked base ds (fun k => exists f fs, de_fstab env = Some fs /\ In f fs /\ names (fun u => map_find u by_uuid) f base k)).
  { unfold set_preferred_disks in Hset. destruct (de_fstab env) as [fs|].
    - apply prefer_entries_marked in Hset. destruct Hset as [Hl Hm]. split; [exact Hl|]. intros k d Hd. destruct (Hm k d Hd) as [d' [E [S P]]].
      exists d'. split; [exact E|]. split; [exact S|]. rewrite P. split; (intros [A|A]; [left; exact A|right]).
      + destruct A as [f [A B]]. exists f, fs. auto.
      + destruct A as [f [fs' [[= <-] [A B]]]]. exists f. auto.
    - injection Hset as <-. apply marked_refl. intros k [f [fs [[=] _]]]. }
  exists seen, rest, by_uuid, base. split; [reflexivity|].
  assert (Hlb : length base = length infos) by (clear -F; induction F; cbn; congruence).
  split; [intros Hx; rewrite (proj1 M), Hlb; auto|].
  split; [rewrite (marked_ids _ _ _ M), (F2_ids _ _ F); exact I1|].
  split; [rewrite (proj1 M), Hlb; exact I2|].
  split.
  { intros d Hd. destruct (marked_in_r _ _ _ _ M Hd) as [k [d1 [E1 [_ [S1 _]]]]]. apply nth_error_In in E1.
    destruct (F2_in_r _ _ _ F E1) as [d0 [Hd0 S0]]. destruct (I3 d0 Hd0) as [e [He [U [Sn [Si _]]]]].
    destruct S1 as [A1 [_ [A2 [A3 _]]]], S0 as [B1 [_ [B2 [B3 _]]]]. exists e. split; [exact He|]. split; [congruence|]. split; congruence. }
  split.
  { intros e id He U. destruct (I4 e id He U) as [d [Hd E]]. destruct (F2_in_l _ _ _ F Hd) as [d1 [Hd1 S1]].
    apply In_nth_error in Hd1 as [k Hk]. destruct (proj2 M k d1 Hk) as [d2 [E2 [S2 _]]]. exists d2. split; [eapply nth_error_In, E2|].
    destruct S2 as [A _], S1 as [B _]. congruence. }
  split; [exact I5|]. split; [exact I6|].
  split; [|exact M].
  intros d Hd. destruct (F2_in_r _ _ _ F Hd) as [d0 [Hd0 S0]]. destruct (I3 d0 Hd0) as [e [_ [_ [_ [_ P]]]]]. destruct S0 as [_ [_ [_ [_ E]]]]. congruence.
Qed.

Lemma nodup_id l k j d d' : NoDup (map dk_id l) -> nth_error l k = Some d -> nth_error l j = Some d' -> dk_id d = dk_id d' -> k = j.
Proof.
  intros N Hk Hj E. apply (NoDup_nth_error (map dk_id l)).
  - exact N.
  - rewrite map_length. apply nth_error_Some. congruence.
  - rewrite !nth_error_map, Hk, Hj. cbn. congruence.
Qed.

Lemma uuid_preferred env es ds fs e id d : uuid_listing env es ds -> NoDup (map de_name es) -> length ds < 40 ->
  de_fstab env = Some fs -> In e es -> usable e id -> In (bs "UUID=" ++ de_name e) fs -> In d ds -> dk_id d = id -> dk_preferred d = true.
Proof.
  intros L N H40 Hfs He U Hf Hd Hid. destruct (uuid_disks _ _ _ L) as [seen [rest [by_uuid [base [-> [Hr [N1 [_ [_ [_ [M5 [M6 [_ M]]]]]]]]]]]]].
  assert (rest = []) as -> by (destruct rest; [reflexivity|]; assert (length ds = 40) by (apply Hr; discriminate); lia). rewrite app_nil_r in *.
  destruct (M6 e id He U) as [id' Hm]. destruct (M5 _ _ Hm) as [e' [He' [En U']]].
  assert (e' = e) as ->.
  { apply In_nth_error in He as [i Hi], He' as [j Hj]. assert (i = j); [|congruence]. apply (NoDup_nth_error (map de_name seen)); [exact N|rewrite map_length; apply nth_error_Some; congruence|].
    rewrite !nth_error_map, Hi, Hj. cbn. congruence. }
  assert (id' = id) as -> by (destruct U as [_ [_ [_ [[a [A ->]] _]]]], U' as [_ [_ [_ [[b [B ->]] _]]]]; congruence).
  destruct (marked_in_r _ _ _ _ M Hd) as [k [d0 [Ek [Ek' [S P]]]]]. apply P. right. exists (bs "UUID=" ++ de_name e), fs. split; [exact Hfs|]. split; [exact Hf|].
  left. exists (de_name e), id. split; [reflexivity|]. split; [exact Hm|]. exists d0. split; [exact Ek|]. destruct S as [S _]. split; [congruence|].
  intros j x Hj Ex Ei. rewrite (marked_ids _ _ _ M) in N1. assert (j = k) by (eapply nodup_id; [exact N1|exact Ex|exact Ek|congruence]). lia.
Qed.
Lemma label_preferred env es ds fs lab k d : uuid_listing env es ds -> de_fstab env = Some fs -> In (bs "LABEL=" ++ lab) fs ->
  first_with (fun d => dk_label d = Some lab) ds k -> nth_error ds k = Some d -> dk_preferred d = true.
Proof.
  intros L Hfs Hf F Hd. destruct (uuid_disks _ _ _ L) as [seen [rest [by_uuid [base [_ [_ [_ [_ [_ [_ [_ [_ [_ M]]]]]]]]]]]]].
  assert (k < length ds) by (apply nth_error_Some; congruence). destruct (nth_error base k) as [d0|] eqn:Ed; [|apply nth_error_None in Ed; rewrite (proj1 M) in *; lia].
  destruct (proj2 M k d0 Ed) as [d' [E [S P]]]. rewrite Hd in E. injection E as <-. apply P. right. exists (bs "LABEL=" ++ lab), fs. split; [exact Hfs|]. split; [exact Hf|].
  right. exists lab. split; [reflexivity|]. refine (proj1 (first_with_same _ _ _ _ _ M _) F). intros x y [_ [_ [_ [_ [-> _]]]]]. reflexivity.
Qed.
Lemma preferred_why env es ds d : uuid_listing env es ds -> In d ds -> dk_preferred d = true ->
  exists fs f, de_fstab env = Some fs /\ In f fs /\
    ((exists e, In e es /\ usable e (dk_id d) /\ f = bs "UUID=" ++ de_name e) \/ (exists lab, dk_label d = Some lab /\ f = bs "LABEL=" ++ lab)).
Proof.
  intros L Hd Hp. destruct (uuid_disks _ _ _ L) as [seen [rest [by_uuid [base [-> [Hr [N1 [_ [_ [_ [M5 [_ [Hb M]]]]]]]]]]]]].
  destruct (marked_in_r _ _ _ _ M Hd) as [k [d0 [Ek [Ek' [S P]]]]]. destruct (proj1 P Hp) as [Hp'|[f [fs [Hfs [Hf Hn]]]]].
  { rewrite (Hb d0) in Hp' by (eapply nth_error_In, Ek). discriminate. }
  exists fs, f. split; [exact Hfs|]. split; [exact Hf|]. destruct Hn as [[u [id [-> [Hm [x [Hx [Hid _]]]]]]]|[lab [-> [x [Hx [Hlab _]]]]]]; rewrite Ek in Hx; injection Hx as <-.
  - left. destruct (M5 _ _ Hm) as [e [He [<- U]]]. exists e. split; [apply in_or_app; left; exact He|]. destruct S as [S _]. split; [rewrite S, Hid; exact U|reflexivity].
  - right. exists lab. destruct S as [_ [_ [_ [_ [S _]]]]]. split; [rewrite S; exact Hlab|reflexivity].
Qed.
