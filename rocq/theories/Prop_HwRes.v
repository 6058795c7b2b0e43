(** What the enumeration of the hardware leaves behind (C89). *)
From Verif Require Import Base CTypes StringUtils Network Disks ExecEnv WinNetwork Trace HwResources.
From Verif Require Import P_Base Spec_Resources.
From Coq Require Import Lia.

(** the call came to an end, by returning or by an exception *)
Definition ended {A} (r : res A) : Prop := (exists a, r = Ok a) \/ (exists e, r = Throw e).
(** A computation that leaves the resources as it found them, whatever else is held. *)
Definition tidy {R A} (m : T R A) (h : list R) : Prop := ended (fst m) -> holds h (snd m) h.

Lemma holds_trans {R} (a b c : list R) s t : holds a s b -> holds b t c -> holds a (s ++ t) c.
Proof. induction 1; cbn [app]; intros X; [exact X| |]; constructor; auto. Qed.
Lemma holds_pop {R} (r : R) h t h' : holds h t h' -> holds (r :: h) (Released r :: t) h'.
Proof. intros H. apply (holds_release [] r h). exact H. Qed.
Lemma tidy_ret {R A} (a : A) (h : list R) : tidy (tret a) h.
Proof. intros _. constructor. Qed.
Lemma tidy_lift {R A} (m : res A) (h : list R) : tidy (tlift m) h.
Proof. intros _. constructor. Qed.
Lemma tidy_bind {R A B} (m : T R A) (k : A -> T R B) h : tidy m h -> (forall a, fst m = Ok a -> tidy (k a) h) -> tidy (tbind m k) h.
Proof.
  intros H K. unfold tidy, tbind in *. destruct (fst m) as [a|e|u|] eqn:E; cbn [fst snd].
  - intros X. eapply holds_trans; [apply H; left; eauto|apply (K a eq_refl X)].
  - intros _. apply H. right. eauto.
  - intros [[? X]|[? X]]; discriminate.
  - intros [[? X]|[? X]]; discriminate.
Qed.
(** erasing the history *)
Lemma fst_bind {R A B} (m : T R A) (k : A -> T R B) : fst (tbind m k) = rbind (fst m) (fun a => fst (k a)).
Proof. unfold tbind. destruct (fst m); reflexivity. Qed.
Lemma rbind_same {A B} (m : res A) (k k' : A -> res B) : (forall a, k a = k' a) -> rbind m k = rbind m k'.
Proof. intros H. destruct m; cbn; auto. Qed.

(** acquire, compute without an exception, release *)
Lemma tidy_around {R A} (r : R) (m : T R A) h : ~ In r h -> (forall e, fst m <> Throw e) -> tidy m (r :: h) ->
  tidy (tbind (tlog (Acquired r)) (fun _ => tbind m (fun x => tbind (tlog (Released r)) (fun _ => tret x)))) h.
Proof.
  intros N D H. unfold tidy, tbind in *. cbn. destruct (fst m) as [a|e|u|] eqn:E; cbn [fst snd].
  - intros _. constructor; [exact N|]. eapply holds_trans; [apply H; left; eauto|]. apply holds_pop. constructor.
  - destruct (D e eq_refl).
  - intros [[? X]|[? X]]; discriminate.
  - intros [[? X]|[? X]]; discriminate.
Qed.

Lemma parse_uuid_no_throw u e : parse_uuid u <> Throw e.
Proof. unfold parse_uuid. destruct (Nat.leb _ _); discriminate. Qed.
Lemma tidy_uuid u h : ~ In HScratch h -> tidy (parse_uuid_t u) h.
Proof. intros N. apply (tidy_around HScratch (tlift (parse_uuid u)) h N); [intros e; apply parse_uuid_no_throw|apply tidy_lift]. Qed.
Lemma erase_uuid u : fst (parse_uuid_t u) = parse_uuid u.
Proof. unfold parse_uuid_t. rewrite !fst_bind. cbn. destruct (parse_uuid u); reflexivity. Qed.

Lemma tidy_dev es : forall infos m h, ~ In HScratch h -> tidy (dev_loop_t es infos m) h.
Proof.
  induction es as [|e r IH]; intros infos m h N; cbn [dev_loop_t]; [apply tidy_ret|]. destruct (Nat.leb _ _); [apply tidy_ret|]. destruct (_ || _)%bool; [apply IH, N|].
  destruct (de_ino e); [|apply IH, N]. destruct (de_link e); [|apply IH, N]. apply tidy_bind; [apply tidy_uuid, N|]. intros a _. apply IH, N.
Qed.
Lemma erase_dev es : forall infos m, fst (dev_loop_t es infos m) = dev_loop es infos m.
Proof.
  induction es as [|e r IH]; intros infos m; cbn [dev_loop_t dev_loop]; [reflexivity|]. destruct (Nat.leb _ _); [reflexivity|]. destruct (_ || _)%bool; [apply IH|].
  destruct (de_ino e); [|apply IH]. destruct (de_link e); [|apply IH]. rewrite fst_bind, erase_uuid. apply rbind_same. intros a. apply IH.
Qed.
Lemma dev_no_throw es : forall infos m e, dev_loop es infos m <> Throw e.
Proof.
  induction es as [|x r IH]; intros infos m e; cbn [dev_loop]; [discriminate|]. destruct (Nat.leb _ _); [discriminate|]. destruct (_ || _)%bool; [apply IH|].
  destruct (de_ino x); [|apply IH]. destruct (de_link x); [|apply IH]. destruct (parse_uuid (de_name x)) eqn:E; cbn [rbind]; try discriminate; [apply IH|destruct (parse_uuid_no_throw _ _ E)].
Qed.
Lemma tidy_labels env infos h : ~ In (HDir BY_LABEL) h -> ~ In (HDir BY_PARTLABEL) h -> tidy (read_disk_labels_t env infos) h.
Proof.
  intros N1 N2. unfold read_disk_labels_t, tidy, tbind. destruct (de_by_label env); [|destruct (de_by_partlabel env)]; cbn; intros _.
  1,2: constructor; [assumption|]; apply holds_pop; constructor.
  constructor.
Qed.
Lemma erase_labels env infos : fst (read_disk_labels_t env infos) = Ok (read_disk_labels env infos).
Proof. unfold read_disk_labels_t. destruct (de_by_label env); [|destruct (de_by_partlabel env)]; reflexivity. Qed.
Lemma tidy_disk_dev env : tidy (get_disk_infos_dev_t env) [].
Proof.
  unfold get_disk_infos_dev_t. apply tidy_bind.
  - destruct (de_by_uuid env) as [es|]; [|apply tidy_ret]. apply (tidy_around (HDir BY_UUID) (dev_loop_t es [] [])); [intros []|intros e; rewrite erase_dev; apply dev_no_throw|]. apply tidy_dev. intros [X|[]]; discriminate.
  - intros [infos m] _. apply tidy_bind; [|intros; apply tidy_ret]. apply tidy_labels; intros [].
Qed.
Lemma erase_disk_dev env : fst (get_disk_infos_dev_t env) = get_disk_infos_dev env.
Proof.
  unfold get_disk_infos_dev_t, get_disk_infos_dev. rewrite fst_bind. destruct (de_by_uuid env) as [es|].
  - rewrite !fst_bind. cbn [fst tlog rbind]. rewrite ?fst_bind, erase_dev. destruct (dev_loop es [] []) as [[infos m]| | |]; cbn [rbind fst tlog tret]; try reflexivity. rewrite fst_bind. cbn [fst tlog rbind tret]. rewrite fst_bind, erase_labels. reflexivity.
  - cbn [fst tret rbind]. rewrite fst_bind, erase_labels. reflexivity.
Qed.
Lemma tidy_blkid : forall fuel content pos num out m h, ~ In HScratch h -> tidy (parse_blkid_loop_t fuel content pos num out m) h.
Proof.
  induction fuel as [|f IH]; intros content pos num out m h N; cbn [parse_blkid_loop_t]; destruct (str_find _ content pos); try apply tidy_ret; [apply tidy_lift|].
  repeat (apply tidy_bind; [first [apply tidy_lift|apply tidy_uuid, N]|intros ? _]). apply IH, N.
Qed.
Lemma erase_blkid : forall fuel content pos num out m, fst (parse_blkid_loop_t fuel content pos num out m) = parse_blkid_loop fuel content pos num out m.
Proof.
  induction fuel as [|f IH]; intros content pos num out m; cbn [parse_blkid_loop_t parse_blkid_loop]; destruct (str_find _ content pos); try reflexivity.
  repeat (rewrite fst_bind; first [rewrite erase_uuid|cbn [fst tlift]]; apply rbind_same; intros ?). apply IH.
Qed.
Lemma prefer_no_throw m es : forall l e, prefer_entries m es l <> Throw e.
Proof.
  induction es as [|x r IH]; intros l e; cbn [prefer_entries]; [discriminate|]. unfold prefer_entry. destruct (is_prefix (bs "UUID=") x); [destruct (map_find _ _); cbn [rbind]; apply IH|]. destruct (is_prefix (bs "LABEL=") x); [|cbn [rbind]; apply IH].
  assert (P : forall n l e, prefer_by_label n l <> Throw e).
  { intros n k. induction k as [|d k K]; intros e'; cbn [prefer_by_label]; [discriminate|]. destruct (dk_label d); [|discriminate]. destruct (beqb _ _); [discriminate|]. destruct (prefer_by_label n k) eqn:E; cbn [rbind]; try discriminate. destruct (K e0 eq_refl). }
  destruct (prefer_by_label _ l) eqn:E; cbn [rbind]; try discriminate; [apply IH|destruct (P _ _ _ E)].
Qed.
Lemma tidy_prefer env m l : tidy (set_preferred_disks_t env m l) [].
Proof.
  unfold set_preferred_disks_t. destruct (de_fstab env) as [es|]; [|apply tidy_ret]. apply (tidy_around (HStream FSTAB) (tlift (prefer_entries m es l))); [intros []|intros e; apply prefer_no_throw|apply tidy_lift].
Qed.
Lemma erase_prefer env m l : fst (set_preferred_disks_t env m l) = set_preferred_disks env m l.
Proof.
  unfold set_preferred_disks_t, set_preferred_disks. destruct (de_fstab env); [|reflexivity]. rewrite !fst_bind. cbn [fst tlog tlift rbind]. rewrite ?fst_bind. cbn [fst tlift]. destruct (prefer_entries m l0 l); reflexivity.
Qed.
Lemma tidy_disks env : tidy (get_disk_infos_t env) [].
Proof.
  unfold get_disk_infos_t. apply tidy_bind; [apply tidy_disk_dev|]. intros [[r infos] m] _. destruct r.
  1: { apply tidy_bind; [apply tidy_prefer|intros; apply tidy_ret]. }
  all: destruct (first_some (de_blkid env)); [|apply tidy_ret]; apply tidy_bind; [apply tidy_blkid; intros []|]; intros [? ?] _; apply tidy_bind; [apply tidy_prefer|intros; apply tidy_ret].
Qed.

(** The histories are those of the functions: without the histories they are the models
    used everywhere else. *)
Theorem C89_same :
  (forall env, fst (get_disk_infos_t env) = get_disk_infos env) /\
  (forall x, fst (get_container_type_t x) = Ok (get_container_type x)) /\
  (forall order ifs, fst (get_adapter_infos_t order ifs) = Ok (get_adapter_infos order ifs)) /\
  (forall sort w, fst (win_adapter_infos_t sort w) = win_adapter_infos sort w).
Proof.
  split; [|split; [|split]].
  - intros env. unfold get_disk_infos_t, get_disk_infos. rewrite fst_bind, erase_disk_dev. apply rbind_same. intros [[r infos] m].
    destruct r; [rewrite fst_bind, erase_prefer; apply rbind_same; reflexivity| | |];
    (destruct (first_some (de_blkid env)); [|reflexivity]; rewrite fst_bind; unfold parse_blkid_t, parse_blkid; rewrite erase_blkid; apply rbind_same; intros [? ?]; rewrite fst_bind, erase_prefer; apply rbind_same; reflexivity).
  - intros x. unfold get_container_type_t, get_container_type, check_container_proc_t. destruct (xf_cgroup x); reflexivity.
  - intros order [l|]; [|reflexivity]. cbn. destruct (collect_adapters l); reflexivity.
  - intros sort [a1 f a2 s]. unfold win_adapter_infos_t, win_adapter_infos, adapters_found_t, adapters_found. cbn [wn_alloc1 wn_first wn_alloc2 wn_second].
    destruct a1; [|reflexivity]. rewrite fst_bind. cbn [fst tlog rbind]. destruct f as [p r| |]; [| |reflexivity].
    + rewrite fst_bind. cbn [fst tlift]. destruct (walk_adapters (p :: r)) as [[|]| | |]; reflexivity.
    + rewrite fst_bind. cbn [fst tlog rbind]. destruct a2; [|reflexivity]. rewrite fst_bind. cbn [fst tlog rbind]. destruct s as [p r| |]; [|reflexivity|reflexivity]. rewrite fst_bind. cbn [fst tlift]. destruct (walk_adapters (p :: r)) as [[|]| | |]; reflexivity.
Qed.
(** Directories, streams and blocks of memory: whatever the system contains, when the list
    of the disks, the kind of container or the list of the network adapters has been
    determined, or the determination was left by an exception, everything that was acquired
    has been released, once. *)
Theorem C89_disks env : ended (get_disk_infos env) -> all_released (snd (get_disk_infos_t env)).
Proof. intros H. apply tidy_disks. rewrite (proj1 C89_same). exact H. Qed.
Theorem C89_container x : all_released (snd (get_container_type_t x)).
Proof.
  unfold all_released, get_container_type_t, check_container_proc_t. destruct (xf_cgroup x) as [ls|]; cbn; [|constructor].
  constructor; [intros []|]. constructor; [intros [X|[]]; discriminate|]. repeat apply holds_pop. constructor.
Qed.
Theorem C89_adapters order ifs : all_released (snd (get_adapter_infos_t order ifs)).
Proof. destruct ifs; cbn; [|constructor]. constructor; [intros []|]. apply holds_pop. constructor. Qed.
Lemma walk_no_throw l e : walk_adapters l <> Throw e.
Proof.
  assert (Z : forall a n i e, all_zero a i n <> Throw e).
  { intros a. induction n as [|n IH]; intros i x; cbn [all_zero]; [discriminate|]. unfold addr_at. destruct (nth_error _ _); cbn [rbind]; [|discriminate]. destruct (Ascii.eqb _ _); [apply IH|discriminate]. }
  assert (TL : forall s i ip e, translate_loop s i ip <> Throw e).
  { induction s as [|c s IH]; intros i ip x; cbn [translate_loop]; [discriminate|]. destruct (Ascii.eqb c NUL); [discriminate|]. destruct (isdigit c); [|apply IH].
    unfold put_digit. destruct ip. destruct i as [|[|[|[|i]]]]; cbn [rbind]; try apply IH; discriminate. }
  revert e. induction l as [|a l IH]; intros e; cbn [walk_adapters]; [discriminate|].
  assert (O : forall e, one_adapter a <> Throw e).
  { intros x. unfold one_adapter. destruct (wa_ethernet a); [|discriminate]. destruct (N.ltb _ _); [|discriminate]. destruct (all_zero a 0 _) eqn:E; cbn [rbind]; try discriminate; [|destruct (Z _ _ _ _ E)]. destruct a0; [discriminate|]. unfold translate. destruct (translate_loop _ _ _) eqn:E2; cbn [rbind]; try discriminate. destruct (TL _ _ _ _ E2). }
  destruct (one_adapter a) eqn:E; cbn [rbind]; try discriminate; [|destruct (O e0 eq_refl)]. destruct (walk_adapters l) eqn:E2; cbn [rbind]; try discriminate. destruct (IH e0 eq_refl).
Qed.
Theorem C89_windows_adapters sort w : ended (win_adapter_infos sort w) -> all_released (snd (win_adapter_infos_t sort w)).
Proof.
  intros H. rewrite <- (proj2 (proj2 (proj2 C89_same))) in H. revert H. destruct w as [a1 f a2 s]. unfold win_adapter_infos_t, all_released. cbn [wn_alloc1 wn_first wn_alloc2 wn_second].
  assert (F : forall b h l, ended (fst (adapters_found_t b sort l)) -> ~ In (HBlock b) h -> holds (HBlock b :: h) (snd (adapters_found_t b sort l)) h).
  { intros b h l E _. unfold adapters_found_t, tbind in *. cbn [fst tlift] in *. pose proof (walk_no_throw l) as W. destruct (walk_adapters l) as [t| | |]; cbn [fst snd tlog tret app] in *.
    - apply holds_pop. constructor.
    - destruct (W e eq_refl).
    - destruct E as [[? E]|[? E]]; discriminate.
    - destruct E as [[? E]|[? E]]; discriminate. }
  destruct a1; [|intros _; constructor]. intros E. rewrite fst_bind in E. cbn [fst tlog rbind] in E. unfold tbind at 1. cbn [fst snd tlog app]. constructor; [intros []|]. destruct f as [p r| |].
  - apply F; [exact E|intros []].
  - rewrite fst_bind in E. cbn [fst tlog rbind] in E. unfold tbind at 1. cbn [fst snd tlog app]. apply holds_pop. destruct a2; [|constructor].
    rewrite fst_bind in E. cbn [fst tlog rbind] in E. unfold tbind at 1. cbn [fst snd tlog app]. constructor; [intros []|]. destruct s as [p r| |]; [apply F; [exact E|intros []]| |]; cbn; apply holds_pop; constructor.
  - destruct E as [[? E]|[? E]]; discriminate.
Qed.

(** what can be asked for, with what the system answers *)
Inductive question := QDisks (env : disk_env) | QContainer (x : exec_files) | QAdapters (order : list (bytes * adapter) -> list (bytes * adapter)) (ifs : option (list ifaddr)) | QWinAdapters (sort : list os_adapter -> list os_adapter) (w : win_net).
Definition history (q : question) : list (event hw_resource) :=
  match q with
  | QDisks env => snd (get_disk_infos_t env)
  | QContainer x => snd (get_container_type_t x)
  | QAdapters order ifs => snd (get_adapter_infos_t order ifs)
  | QWinAdapters sort w => snd (win_adapter_infos_t sort w)
  end.
Definition answered (q : question) : Prop :=
  match q with
  | QDisks env => ended (get_disk_infos env)
  | QContainer _ | QAdapters _ _ => True
  | QWinAdapters sort w => ended (win_adapter_infos sort w)
  end.
(** So a program can ask as often as it likes. *)
Theorem C89_for_ever qs : Forall answered qs -> all_released (flat_map history qs).
Proof.
  induction 1 as [|q qs A _ IH]; cbn [flat_map]; [constructor|]. eapply holds_trans; [|exact IH]. destruct q; cbn [history answered] in *.
  - apply C89_disks, A.
  - apply C89_container.
  - apply C89_adapters.
  - apply C89_windows_adapters, A.
Qed.

(** at no moment of the history more than [n] resources are held *)
Definition within {R} (n : nat) (h : list R) (t : list (event R)) : Prop := forall p s, t = p ++ s -> exists h', holds h p h' /\ length h' <= n.
Lemma within_nil {R} n (h : list R) : length h <= n -> within n h [].
Proof. intros L p s E. symmetry in E. apply app_eq_nil in E as [-> _]. exists h. split; [constructor|exact L]. Qed.
Lemma within_app {R} n (h h1 : list R) : forall a b, holds h a h1 -> within n h a -> within n h1 b -> within n h (a ++ b).
Proof.
  intros a b H A B p s E. assert (D : (exists r, a = p ++ r) \/ exists q, p = a ++ q /\ b = q ++ s).
  { clear -E. revert p E. induction a as [|x a IH]; intros p E; cbn [app] in E; [right; exists p; auto|]. destruct p as [|y p]; cbn [app] in E; [left; exists (x :: a); reflexivity|]. injection E as -> E. destruct (IH _ E) as [[r R1]|[q [R1 R2]]]; [left; exists r; rewrite R1; reflexivity|right; exists q; rewrite R1; auto]. }
  destruct D as [[r D]|[q [D1 D2]]]; [apply (A _ _ D)|]. destruct (B _ _ D2) as [h' [H1 H2]]. exists h'. split; [|exact H2]. rewrite D1. eapply holds_trans; eassumption.
Qed.
Lemma within_acquire {R} n (r : R) h t : length h <= n -> ~ In r h -> within n (r :: h) t -> within n h (Acquired r :: t).
Proof. intros L N W [|e p] s E; [exists h; split; [constructor|exact L]|]. cbn in E. injection E as <- E. destruct (W _ _ E) as [h' [H1 H2]]. exists h'. split; [constructor; assumption|exact H2]. Qed.
Lemma within_release {R} n (r : R) h t : length h < n -> within n h t -> within n (r :: h) (Released r :: t).
Proof. intros L W [|e p] s E; [exists (r :: h); split; [constructor|cbn; lia]|]. cbn in E. injection E as <- E. destruct (W _ _ E) as [h' [H1 H2]]. exists h'. split; [apply holds_pop; assumption|exact H2]. Qed.
Lemma within_bind {R A B} n (m : T R A) (k : A -> T R B) h : within n h (snd m) -> tidy m h -> (forall a, fst m = Ok a -> within n h (snd (k a))) -> within n h (snd (tbind m k)).
Proof.
  intros W D K. unfold tbind. destruct (fst m) as [a|e|u|] eqn:E; cbn [snd]; try exact W. eapply within_app; [|exact W|apply K; reflexivity]. apply D. left. eauto.
Qed.
Lemma within_around {R A} n (r : R) (m : T R A) h : length h < n -> ~ In r h -> tidy m (r :: h) -> within n (r :: h) (snd m) ->
  within n h (snd (tbind (tlog (Acquired r)) (fun _ => tbind m (fun x => tbind (tlog (Released r)) (fun _ => tret x))))).
Proof.
  intros L N D W. unfold tbind in *. cbn. unfold tidy in D. destruct (fst m) as [a|e|u|] eqn:E; cbn [fst snd]; apply within_acquire; try lia; try assumption.
  eapply within_app; [apply D; left; eauto|exact W|]. apply within_release; [lia|apply within_nil; lia].
Qed.
Lemma within_uuid n u h : length h < n -> ~ In HScratch h -> within n h (snd (parse_uuid_t u)).
Proof. intros L N. apply (within_around n HScratch (tlift (parse_uuid u))); auto; [apply tidy_lift|]. apply within_nil. cbn [length]. lia. Qed.
Lemma within_dev n es : forall infos m h, length h < n -> ~ In HScratch h -> within n h (snd (dev_loop_t es infos m)).
Proof.
  induction es as [|e r IH]; intros infos m h L N; cbn [dev_loop_t]; [apply within_nil; lia|]. destruct (Nat.leb _ _); [apply within_nil; lia|]. destruct (_ || _)%bool; [apply IH; assumption|].
  destruct (de_ino e); [|apply IH; assumption]. destruct (de_link e); [|apply IH; assumption]. apply within_bind; [apply within_uuid; assumption|apply tidy_uuid, N|]. intros a _. apply IH; assumption.
Qed.
Lemma within_blkid n : forall fuel content pos num out m h, length h < n -> ~ In HScratch h -> within n h (snd (parse_blkid_loop_t fuel content pos num out m)).
Proof.
  induction fuel as [|f IH]; intros content pos num out m h L N; cbn [parse_blkid_loop_t]; destruct (str_find _ content pos); try (apply within_nil; lia).
  repeat (apply within_bind; [first [apply within_uuid; assumption|apply within_nil; lia]|first [apply tidy_lift|apply tidy_uuid, N]|intros ? _]). apply IH; assumption.
Qed.
Lemma within_prefer env m l : within 2 [] (snd (set_preferred_disks_t env m l)).
Proof.
  unfold set_preferred_disks_t. destruct (de_fstab env) as [es|]; [|apply within_nil; cbn; lia]. apply (within_around 2 (HStream FSTAB) (tlift (prefer_entries m es l))); [cbn; lia|intros []|apply tidy_lift|apply within_nil; cbn; lia].
Qed.
Lemma within_disks env : within 2 [] (snd (get_disk_infos_t env)).
Proof.
  assert (D : within 2 [] (snd (get_disk_infos_dev_t env))).
  { unfold get_disk_infos_dev_t. apply within_bind.
    - destruct (de_by_uuid env) as [es|]; [|apply within_nil; cbn; lia]. apply (within_around 2 (HDir BY_UUID) (dev_loop_t es [] [])); [cbn; lia|intros []|apply tidy_dev; intros [X|[]]; discriminate|]. apply within_dev; [cbn; lia|intros [X|[]]; discriminate].
    - destruct (de_by_uuid env) as [es|]; [|apply tidy_ret]. apply (tidy_around (HDir BY_UUID) (dev_loop_t es [] [])); [intros []|intros e; rewrite erase_dev; apply dev_no_throw|]. apply tidy_dev. intros [X|[]]; discriminate.
    - intros [infos m] _. apply within_bind; [|apply tidy_labels; intros []|intros; apply within_nil; cbn; lia].
      unfold read_disk_labels_t, tbind. destruct (de_by_label env); [|destruct (de_by_partlabel env)]; cbn; repeat first [apply within_acquire; [cbn; lia|intros []|]|apply within_release; [cbn; lia|]|apply within_nil; cbn; lia]. }
  unfold get_disk_infos_t. apply within_bind; [exact D|apply tidy_disk_dev|]. intros [[r infos] m] _. destruct r.
  1: { apply within_bind; [apply within_prefer|apply tidy_prefer|intros; apply within_nil; cbn; lia]. }
  all: destruct (first_some (de_blkid env)); [|apply within_nil; cbn; lia]; apply within_bind; [apply within_blkid; [cbn; lia|intros []]|apply tidy_blkid; intros []|]; intros [? ?] _; apply within_bind; [apply within_prefer|apply tidy_prefer|intros; apply within_nil; cbn; lia].
Qed.
(** At no moment more than two things are held, even if a question is not answered. *)
Theorem C89_at_most_two q p s : history q = p ++ s -> exists held, leaves p held /\ length held <= 2.
Proof.
  assert (W : within 2 [] (history q)).
  { destruct q; cbn [history].
    - apply within_disks.
    - unfold get_container_type_t, check_container_proc_t. destruct (xf_cgroup x); cbn; [|apply within_nil; cbn; lia]. apply within_acquire; [cbn; lia|intros []|]. apply within_acquire; [cbn; lia|intros [X|[]]; discriminate|]. apply within_release; [cbn; lia|]. apply within_release; [cbn; lia|]. apply within_nil; cbn; lia.
    - destruct ifs; cbn; [|apply within_nil; cbn; lia]. apply within_acquire; [cbn; lia|intros []|]. apply within_release; [cbn; lia|]. apply within_nil; cbn; lia.
    - assert (F : forall b l, within 2 [HBlock b] (snd (adapters_found_t b sort l))).
      { intros b l. unfold adapters_found_t, tbind. cbn [fst tlift]. destruct (walk_adapters l) as [t| | |]; cbn [fst snd tlog tret tlift app]; try (apply within_nil; cbn; lia). apply within_release; [cbn; lia|]. apply within_nil; cbn; lia. }
      destruct w as [a1 f a2 g]. unfold win_adapter_infos_t. cbn [wn_alloc1 wn_first wn_alloc2 wn_second]. destruct a1; [|apply within_nil; cbn; lia]. unfold tbind at 1. cbn [fst snd tlog app]. apply within_acquire; [cbn; lia|intros []|].
      destruct f as [x r| |]; [apply F| |apply within_nil; cbn; lia]. unfold tbind at 1. cbn [fst snd tlog app]. apply within_release; [cbn; lia|]. destruct a2; [|apply within_nil; cbn; lia]. unfold tbind at 1. cbn [fst snd tlog app]. apply within_acquire; [cbn; lia|intros []|].
      destruct g as [x r| |]; [apply F| |]; cbn; (apply within_release; [cbn; lia|]; apply within_nil; cbn; lia). }
  intros E. destruct (W _ _ E) as [h [H L]]. exists h. auto.
Qed.
Print Assumptions C89_same. Print Assumptions C89_disks. Print Assumptions C89_container. Print Assumptions C89_adapters. Print Assumptions C89_windows_adapters. Print Assumptions C89_for_ever. Print Assumptions C89_at_most_two.

(** two disks, one of them in fstab; an entry of blkid.tab that throws; an overflow on Windows *)
Definition two_disks : disk_env := {| de_by_uuid := Some [{| de_name := bs "."; de_ino := Some 1%Z; de_link := None |}; {| de_name := bs "1122-3344"; de_ino := Some 7%Z; de_link := Some (bs "../../sda1") |}; {| de_name := bs "aa-bb"; de_ino := Some 8%Z; de_link := Some (bs "../../sda2") |}];
  de_by_label := None; de_by_partlabel := Some []; de_blkid := []; de_fstab := Some [bs "UUID=aa-bb"] |}.
Definition short_entry : disk_env := {| de_by_uuid := Some []; de_by_label := None; de_by_partlabel := None; de_blkid := [None; Some (bs "</device>")]; de_fstab := None |}.
Example C89_case :
  ended (get_disk_infos two_disks) /\
  snd (get_disk_infos_t two_disks) = [Acquired (HDir BY_UUID); Acquired HScratch; Released HScratch; Acquired HScratch; Released HScratch; Released (HDir BY_UUID);
    Acquired (HDir BY_PARTLABEL); Released (HDir BY_PARTLABEL); Acquired (HStream FSTAB); Released (HStream FSTAB)] /\
  get_disk_infos short_entry = Throw ExOutOfRange /\ ended (get_disk_infos short_entry) /\ snd (get_disk_infos_t short_entry) = [Acquired (HDir BY_UUID); Released (HDir BY_UUID)] /\
  snd (win_adapter_infos_t (fun l => l) {| wn_alloc1 := true; wn_first := GaOverflow; wn_alloc2 := true; wn_second := GaError |}) = [Acquired (HBlock false); Released (HBlock false); Acquired (HBlock true); Released (HBlock true)].
Proof.
  split; [left; eexists; vm_compute; reflexivity|]. split; [vm_compute; reflexivity|]. split; [vm_compute; reflexivity|]. split; [right; eexists; vm_compute; reflexivity|]. split; vm_compute; reflexivity.
Qed.
