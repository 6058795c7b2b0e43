(** When listing the disks, and judging an identifier, has undefined behaviour. *)
From Verif Require Import Base CTypes StringUtils Base64 HwId Registry Network Disks ExecEnv Strategies.
From Verif Require Import P_Base Spec_Base64 P_Decode Spec_HwId P_HwId P_HwText Spec_Listing P_DiskList Spec_Hw P_Hw P_Hw2.

Definition labelled (d : disk) : Prop := dk_label_init d = true -> exists lab, dk_label d = Some lab.
Lemma labelled_update p f l : (forall d, labelled d -> labelled (f d)) -> Forall labelled l -> Forall labelled (update_first p f l).
Proof.
  intros Hf. induction 1 as [|d l Hd Hl IH]; cbn [update_first]; [constructor|]. destruct (p d); constructor; auto.
Qed.
Lemma labelled_preferred d : labelled d -> labelled (set_preferred d).
Proof. exact (fun H => H). Qed.
Lemma labelled_dev es : forall infos m ds m', dev_loop es infos m = Ok (ds, m') -> Forall labelled infos -> Forall labelled ds.
Proof.
  induction es as [|e es IH]; intros infos m ds m' H Hi; cbn [dev_loop] in H; [injection H as <- _; exact Hi|].
  destruct (Nat.leb _ _); [injection H as <- _; exact Hi|]. destruct (_ || _); [eapply IH; eassumption|].
  destruct (de_ino e); [|eapply IH; eassumption]. destruct (de_link e); [|eapply IH; eassumption].
  apply rbind_ok in H as [sn [_ H]]. eapply IH; [exact H|]. destruct (existsb _ infos); [exact Hi|]. apply Forall_app. split; [exact Hi|].
  constructor; [|constructor]. intros X. discriminate X.
Qed.
Lemma labelled_labels env l : Forall labelled l -> Forall labelled (read_disk_labels env l).
Proof.
  intros Hl. unfold read_disk_labels. destruct (match de_by_label env with Some _ => _ | None => _ end) as [es|]; [|exact Hl].
  revert l Hl. induction es as [|e es IH]; intros l Hl; [exact Hl|]. cbn [fold_left]. apply IH. destruct (is_dots _); [exact Hl|].
  destruct (de_ino e); [|exact Hl]. apply labelled_update; [|exact Hl]. intros d _ _. eexists. reflexivity.
Qed.
Lemma labelled_blkid f : forall content pos num out m ds m', parse_blkid_loop f content pos num out m = Ok (ds, m') -> Forall labelled out -> Forall labelled ds.
Proof.
  induction f as [|f IH]; intros content pos num out m ds m' H Ho; cbn [parse_blkid_loop] in H; (destruct (str_find _ content pos) as [p|]; [|injection H as <- _; exact Ho]); [discriminate|].
  do 6 (apply rbind_ok in H as [? [_ H]]). eapply IH; [exact H|]. apply Forall_app. split; [exact Ho|]. constructor; [|constructor]. intros _. eexists. reflexivity.
Qed.
Lemma labelled_by_label name l l' : prefer_by_label name l = Ok l' -> Forall labelled l -> Forall labelled l'.
Proof.
  revert l'; induction l as [|d l IH]; intros l' H Hl; cbn [prefer_by_label] in H; [injection H as <-; constructor|]. inversion Hl as [|? ? Hd Hl']; subst.
  destruct (dk_label d); [|discriminate]. destruct (beqb name b); [injection H as <-; constructor; assumption|].
  apply rbind_ok in H as [r [E H]]. injection H as <-. constructor; [exact Hd|]. eapply IH; eassumption.
Qed.
Lemma labelled_prefer env m l l' : set_preferred_disks env m l = Ok l' -> Forall labelled l -> Forall labelled l'.
Proof.
  unfold set_preferred_disks. destruct (de_fstab env) as [es|]; [|intros [= <-]; auto]. revert l. induction es as [|e es IH]; intros l H Hl; cbn [prefer_entries] in H; [injection H as <-; exact Hl|].
  apply rbind_ok in H as [l1 [E H]]. eapply IH; [exact H|]. unfold prefer_entry in E. destruct (is_prefix _ e).
  - destruct (map_find _ m); injection E as <-; [|exact Hl]. apply labelled_update; [exact labelled_preferred|exact Hl].
  - destruct (is_prefix _ e); [eapply labelled_by_label; eassumption|injection E as <-; exact Hl].
Qed.
Lemma disks_labelled env r ds : get_disk_infos env = Ok (r, ds) -> Forall labelled ds.
Proof.
  unfold get_disk_infos, get_disk_infos_dev. intros H. apply rbind_ok in H as [[[res infos] m] [E H]]. apply rbind_ok in E as [[infos0 m0] [E0 E]].
  injection E as <- <- <-. assert (L0 : Forall labelled infos0) by (destruct (de_by_uuid env); [eapply labelled_dev; [exact E0|constructor]|injection E0 as <- _; constructor]).
  apply (labelled_labels env) in L0. destruct (match infos0 with [] => _ | _ => _ end).
  - apply rbind_ok in H as [i' [E1 H]]. injection H as _ <-. eapply labelled_prefer; eassumption.
  - destruct (first_some (de_blkid env)) as [content|]; [|injection H as _ <-; exact L0]. apply rbind_ok in H as [[i1 m1] [E1 H]]. apply rbind_ok in H as [i2 [E2 H]].
    injection H as _ <-. eapply labelled_prefer; [exact E2|]. eapply labelled_blkid; [exact E1|constructor].
  - destruct (first_some (de_blkid env)) as [content|]; [|injection H as _ <-; exact L0]. apply rbind_ok in H as [[i1 m1] [E1 H]]. apply rbind_ok in H as [i2 [E2 H]].
    injection H as _ <-. eapply labelled_prefer; [exact E2|]. eapply labelled_blkid; [exact E1|constructor].
  - destruct (first_some (de_blkid env)) as [content|]; [|injection H as _ <-; exact L0]. apply rbind_ok in H as [[i1 m1] [E1 H]]. apply rbind_ok in H as [i2 [E2 H]].
    injection H as _ <-. eapply labelled_prefer; [exact E2|]. eapply labelled_blkid; [exact E1|constructor].
Qed.
Lemma disks_data_total l : Forall labelled l -> exists v, disks_data l = Ok v.
Proof.
  induction 1 as [|d l Hd Hl [v IH]]; cbn [disks_data]; [eauto|]. unfold disk_data. destruct (dk_label_init d) eqn:E.
  - destruct (Hd E) as [lab ->]. cbn [rbind]. rewrite IH. cbn [rbind]. eauto.
  - cbn [rbind]. rewrite IH. cbn [rbind]. eauto.
Qed.
Lemma disk_ids_undef m u : alternative_ids StDisk m = Undef u <-> disks_of (hw_disks m) = Undef u.
Proof.
  cbn [alternative_ids]. unfold generate_disk_pc_id. rewrite listing_eq. destruct (disks_of (hw_disks m)) as [[r ds]|e|u'|] eqn:E; cbn [rbind]; [|split; discriminate|split; intros [= ->]; reflexivity|split; discriminate].
  split; [|discriminate]. intros H. exfalso. pose proof (disks_labelled (hw_disks m) r ds (eq_trans (listing_eq _) E)) as L. destruct r; cbn [rbind] in H; try discriminate. destruct ds as [|d ds]; [discriminate|].
  assert (F : forall p, exists v, disks_data (filter p (d :: ds)) = Ok v).
  { intros p. apply disks_data_total. apply Forall_forall. intros x Hx. apply filter_In in Hx as [Hx _]. rewrite Forall_forall in L. apply L, Hx. }
  destruct (F dk_preferred) as [v1 E1], (F (fun d => negb (dk_preferred d))) as [v2 E2]. rewrite E1, E2 in H. cbn [rbind] in H.
  destruct (v1 ++ v2) as [|x y]; [discriminate|]. destruct (make_ids_ok (identification_strategy StDisk) (x :: y)) as [hs [X _]]; [unfold identification_strategy, STRATEGY_DISK; lia|]. congruence.
Qed.

(** identifiers *)
Lemma validate_undef m text u : validate_pc_signature m text = Undef u <->
  (over_read (undashed text) /\ u = UbRead) \/
  (exists h, denotes text h /\ strategy_bits h = 2%Z /\ disks_of (hw_disks m) = Undef u).
Proof.
  rewrite validate_verdict. destruct (hw_of_string text) as [h|e|u'|] eqn:E.
  - assert (N : ~ over_read (undashed text)) by (intros O; rewrite (proj2 (hw_of_string_undef text UbRead) (conj O eq_refl)) in E; discriminate).
    unfold verdict. destruct (get_strategy (strategy_bits h)) as [[|b|]|x|x|] eqn:Es.
    + split; [discriminate|]. intros [[O _]|[h' [D [S _]]]]; [contradiction|]. apply denotes_iff in D. rewrite E in D. injection D as <-. rewrite S in Es. discriminate.
    + destruct (eth_total b m) as [ids Ei]. rewrite Ei. cbn [rbind]. split; [discriminate|]. intros [[O _]|[h' [D [S _]]]]; [contradiction|].
      apply denotes_iff in D. rewrite E in D. injection D as <-. rewrite S in Es. destruct b; discriminate.
    + pose proof (disk_ids_undef m u) as X. apply get_strategy_num in Es. cbn in Es. destruct (alternative_ids StDisk m) as [ids|x|u0|] eqn:Ea; cbn [rbind].
      * split; [discriminate|]. intros [[O _]|[h' [_ [_ G]]]]; [contradiction|]. apply X in G. discriminate.
      * split; [discriminate|]. intros [[O _]|[h' [_ [_ G]]]]; [contradiction|]. apply X in G. discriminate.
      * split; [intros H; right; exists h; split; [apply denotes_iff, E|]; split; [exact Es|apply X; congruence]|]. intros [[O _]|[h' [_ [_ G]]]]; [contradiction|]. apply X in G. congruence.
      * split; [discriminate|]. intros [[O _]|[h' [_ [_ G]]]]; [contradiction|]. apply X in G. discriminate.
    + split; [discriminate|]. intros [[O _]|[h' [D [S _]]]]; [contradiction|]. apply denotes_iff in D. rewrite E in D. injection D as <-. rewrite S in Es. discriminate.
    + exfalso. clear -Es. unfold get_strategy in Es. repeat destruct (Z.eqb _ _); discriminate.
    + exfalso. clear -Es. unfold get_strategy in Es. repeat destruct (Z.eqb _ _); discriminate.
  - split; [discriminate|]. intros [[O _]|[h' [D _]]].
    + rewrite (proj2 (hw_of_string_undef text UbRead) (conj O eq_refl)) in E. discriminate.
    + apply denotes_iff in D. congruence.
  - apply hw_of_string_undef in E as [O ->]. split; [intros [= <-]; left; auto|]. intros [[_ ->]|[h [D _]]]; [reflexivity|]. destruct D as [[N _] _]. contradiction.
  - exfalso. rewrite hw_of_string_eq in E. destruct (unbase64_outcome (undashed text)) as [[_ X]|[[_ X]|[_ X]]]; rewrite X in E; cbn [rbind] in E; try discriminate. destruct (hw_of_bytes _); discriminate.
Qed.
