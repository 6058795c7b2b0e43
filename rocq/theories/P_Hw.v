From Verif Require Import Base HwId Registry Network Disks ExecEnv Strategies P_Base Spec_HwId P_HwId Spec_Listing P_DiskList Spec_Hw.
From Coq Require Import Lia Permutation.

(** ** Adapters *)
Definition said (a : adapter) (l : list sockaddr) : adapter := fold_left (fun a sa => update_adapter sa a) l a.
Definition adapter0 : adapter := {| ad_mac := mac_zero; ad_ip := ip_zero |}.

Lemma byte_part i k : ascii_of_N (N.shiftr (N.land i (255 * 2 ^ k)) k) = ascii_of_N (i / 2 ^ k mod 256).
Proof.
  f_equal. rewrite <- N.shiftr_div_pow2. change 256%N with (2 ^ 8)%N. rewrite <- N.land_ones.
  rewrite N.shiftr_land. f_equal. rewrite N.shiftr_div_pow2, N.div_mul by (apply N.pow_nonzero; discriminate). reflexivity.
Qed.
Lemma inet_bytes i a : update_adapter (SaInet i) a = {| ad_mac := ad_mac a; ad_ip := ip_bytes i |}.
Proof.
  cbn [update_adapter]. unfold ip_bytes. f_equal.
  pose proof (byte_part i 8) as E8. change (255 * 2 ^ 8)%N with 65280%N in E8. change (2 ^ 8)%N with 256%N in E8.
  pose proof (byte_part i 16) as E16. change (255 * 2 ^ 16)%N with 16711680%N in E16. change (2 ^ 16)%N with 65536%N in E16.
  pose proof (byte_part i 24) as E24. change (255 * 2 ^ 24)%N with 4278190080%N in E24. change (2 ^ 24)%N with 16777216%N in E24.
  rewrite <- E8, <- E16, <- E24.
  replace (i mod 256)%N with (N.land i 255) by (change 255%N with (N.ones 8); apply N.land_ones). reflexivity.
Qed.
Lemma said_spec l a i : ad_ip a = ip_bytes i ->
  said a l = {| ad_mac := last_mac l (ad_mac a); ad_ip := ip_bytes (last_ip l i) |}.
Proof.
  revert a i; induction l as [|sa l IH]; intros a i H; [destruct a; cbn in *; rewrite H; reflexivity|].
  cbn [said fold_left]. fold (said (update_adapter sa a) l). destruct sa as [j|[|] m|]; cbn [last_mac last_ip].
  - rewrite inet_bytes. rewrite (IH _ j) by reflexivity. reflexivity.
  - rewrite (IH _ i) by exact H. reflexivity.
  - rewrite (IH _ i) by exact H. reflexivity.
  - rewrite (IH _ i) by exact H. reflexivity.
Qed.

Lemma beqb_iff a b : beqb a b = true <-> a = b.
Proof. destruct (beqb_spec a b); split; congruence. Qed.

Lemma upsert_in name sa m n a : NoDup (map fst m) -> In (n, a) (upsert name sa m) <->
  (n <> name /\ In (n, a) m) \/
  (n = name /\ ((exists a0, In (name, a0) m /\ a = update_adapter sa a0) \/ (~ In name (map fst m) /\ a = update_adapter sa adapter0))).
Proof.
  induction m as [|[n0 a0] m IH]; cbn [upsert map fst]; intros Hnd.
  - cbn. split.
    + intros [[= <- <-]|[]]. right. split; [reflexivity|]. right. split; [tauto|reflexivity].
    + intros [[_ []]|[-> [[? [[] _]]|[_ ->]]]]. left. reflexivity.
  - inversion Hnd as [|? ? Hni Hnd']; subst. destruct (beqb_spec n0 name) as [->|Hne].
    + cbn [In]. split.
      * intros [[= <- <-]|Hin]; [right; split; [reflexivity|left; exists a0; auto]|].
        left. split; [intros ->; apply Hni; apply (in_map fst) in Hin; exact Hin|auto].
      * intros [[Hn [[= -> _]|Hin]]|[-> [[a1 [[[= <-]|Hin] ->]]|[Hx _]]]]; auto; [congruence| |].
        -- exfalso. apply Hni. apply (in_map fst) in Hin. exact Hin.
        -- exfalso. apply Hx. left. reflexivity.
    + cbn [In]. rewrite (IH Hnd'). split.
      * intros [[= <- <-]|[[Hn Hin]|[-> [[a1 [Hin ->]]|[Hx ->]]]]]; [left; auto|left; auto| |]; right; (split; [reflexivity|]).
        -- left. exists a1. auto.
        -- right. split; [|reflexivity]. intros [E|E]; [congruence|contradiction].
      * intros [[Hn [[= <- <-]|Hin]]|[-> [[a1 [[[= -> _]|Hin] ->]]|[Hx ->]]]]; auto; [congruence| |]; right; right; (split; [reflexivity|]).
        -- left. eauto.
        -- right. split; [|reflexivity]. intros E. apply Hx. right. exact E.
Qed.
Lemma upsert_names name sa m : map fst (upsert name sa m) = if existsb (fun p => beqb (fst p) name) m then map fst m else map fst m ++ [name].
Proof.
  induction m as [|[n0 a0] m IH]; cbn [upsert map fst existsb]; [reflexivity|].
  destruct (beqb n0 name); cbn [map fst orb]; [reflexivity|]. rewrite IH. destruct (existsb _ m); reflexivity.
Qed.
Lemma upsert_nodup name sa m : NoDup (map fst m) -> NoDup (map fst (upsert name sa m)).
Proof.
  intros H. rewrite upsert_names. destruct (existsb _ m) eqn:E; [exact H|].
  apply (Permutation_NoDup (l := name :: map fst m)); [apply Permutation_cons_append|]. constructor; [|exact H].
  intros Hin. apply in_map_iff in Hin as [[n a] [<- Hin]]. apply not_true_iff_false in E. apply E, existsb_exists.
  exists (n, a). split; [exact Hin|]. cbn. apply beqb_iff. reflexivity.
Qed.

Lemma heard_app n l l' : heard n (l ++ l') = heard n l ++ heard n l'.
Proof.
  induction l as [|i l IH]; [reflexivity|]. cbn [app heard]. destruct (ifa_addr i); [|exact IH].
  destruct (negb (ifa_loopback i) && beqb _ n); rewrite IH; reflexivity.
Qed.

Lemma collect_spec l : NoDup (map fst (collect_adapters l)) /\
  forall n a, In (n, a) (collect_adapters l) <-> heard n l <> [] /\ a = said adapter0 (heard n l).
Proof.
  induction l as [|i l [Hnd H]] using rev_ind.
  - split; [constructor|]. intros n a. cbn. split; [intros []|intros [[] _]; reflexivity].
  - unfold collect_adapters in *. rewrite fold_left_app. cbn [fold_left].
    assert (Hskip : (match ifa_addr i with None => True | Some _ => ifa_loopback i = true end) ->
       forall n, heard n (l ++ [i]) = heard n l).
    { intros Hs n. rewrite heard_app. cbn [heard]. destruct (ifa_addr i); [rewrite Hs; cbn|]; apply app_nil_r. }
    destruct (ifa_addr i) as [sa|] eqn:Ea.
    2: { split; [exact Hnd|]. intros n a. rewrite (Hskip I). apply H. }
    destruct (ifa_loopback i) eqn:El.
    { split; [exact Hnd|]. intros n a. rewrite (Hskip eq_refl). apply H. }
    split; [apply upsert_nodup, Hnd|]. intros n a. rewrite (upsert_in _ _ _ _ _ Hnd).
    assert (Hh : heard n (l ++ [i]) = heard n l ++ (if beqb (if_name i) n then [sa] else [])).
    { rewrite heard_app. cbn [heard]. rewrite Ea, El. cbn [negb andb]. unfold if_name. destruct (beqb _ n); reflexivity. }
    rewrite Hh. destruct (beqb_spec (if_name i) n) as [<-|Hne].
    + unfold said. rewrite fold_left_app. cbn [fold_left]. fold (said adapter0 (heard (if_name i) l)). split.
      * intros [[Hn _]|[_ [[a0 [Hin ->]]|[Hx ->]]]]; [congruence| |].
        -- apply H in Hin as [_ ->]. split; [destruct (heard (if_name i) l); discriminate|reflexivity].
        -- split; [destruct (heard (if_name i) l); discriminate|].
           destruct (heard (if_name i) l) as [|x y] eqn:Eh; [reflexivity|]. exfalso. apply Hx.
           apply in_map_iff. exists (if_name i, said adapter0 (x :: y)). split; [reflexivity|]. apply H. rewrite Eh. split; [discriminate|reflexivity].
      * intros [_ ->]. right. split; [reflexivity|]. destruct (heard (if_name i) l) as [|x y] eqn:Eh.
        -- right. split; [|reflexivity]. intros Hin. apply in_map_iff in Hin as [[n a] [En Hin]]. cbn [fst] in En. subst n. apply H in Hin as [Hin _]. congruence.
        -- left. exists (said adapter0 (x :: y)). split; [|reflexivity]. apply H. rewrite Eh. split; [discriminate|reflexivity].
    + rewrite app_nil_r. split.
      * intros [[_ Hin]|[-> _]]; [apply H, Hin|congruence].
      * intros Hx. left. split; [congruence|]. apply H, Hx.
Qed.

Definition adapter_of (l : list ifaddr) (n : bytes) : adapter := {| ad_mac := iface_mac l n; ad_ip := iface_ip l n |}.
Lemma said_adapter l n : said adapter0 (heard n l) = adapter_of l n.
Proof. rewrite (said_spec _ _ 0%N) by reflexivity. reflexivity. Qed.

Lemma collect_adapter l n a : In (n, a) (collect_adapters l) <-> heard n l <> [] /\ a = adapter_of l n.
Proof. rewrite (proj2 (collect_spec l)), said_adapter. reflexivity. Qed.
Lemma collect_map l : collect_adapters l = map (fun n => (n, adapter_of l n)) (map fst (collect_adapters l)).
Proof.
  rewrite map_map. rewrite <- (map_id (collect_adapters l)) at 1. apply map_ext_in. intros [n a] Hin.
  apply collect_adapter in Hin as [_ ->]. reflexivity.
Qed.
Lemma collect_names l n : In n (map fst (collect_adapters l)) <-> heard n l <> [].
Proof.
  rewrite in_map_iff. split.
  - intros [[n' a] [<- Hin]]. apply collect_adapter in Hin as [H _]. exact H.
  - intros H. exists (n, adapter_of l n). split; [reflexivity|]. apply collect_adapter. auto.
Qed.

(** C36 *)
Lemma adapters_exact order l ads : (forall x, Permutation (order x) x) -> get_adapter_infos order (Some l) = (FUNC_RET_OK, ads) ->
  exists names, NoDup names /\ (forall n, In n names <-> heard n l <> []) /\ Permutation ads (map (adapter_of l) names).
Proof.
  intros Ho. unfold get_adapter_infos. destruct (collect_adapters l) as [|p q] eqn:E; [discriminate|]. intros [= <-].
  exists (map fst (collect_adapters l)). split; [apply collect_spec|]. split; [apply collect_names|].
  rewrite <- E. rewrite (Permutation_map snd (Ho (collect_adapters l))). rewrite collect_map at 1. rewrite map_map. cbn [snd]. reflexivity.
Qed.
Lemma adapters_codes order l : fst (get_adapter_infos order (Some l)) = if existsb (fun p => true) (collect_adapters l) then FUNC_RET_OK else FUNC_RET_NOT_AVAIL.
Proof. unfold get_adapter_infos. destruct (collect_adapters l); reflexivity. Qed.
Lemma adapters_none order l : fst (get_adapter_infos order (Some l)) = FUNC_RET_NOT_AVAIL <-> forall n, heard n l = [].
Proof.
  unfold get_adapter_infos. destruct (collect_adapters l) as [|[n a] q] eqn:E; cbn [fst].
  - split; [|reflexivity]. intros _ n. destruct (heard n l) eqn:Eh; [reflexivity|].
    assert (In n (map fst (collect_adapters l))) as Hin by (apply collect_names; congruence). rewrite E in Hin. destruct Hin.
  - split; [discriminate|]. intros H. exfalso. assert (In n (map fst (collect_adapters l))) as Hin by (rewrite E; left; reflexivity).
    apply collect_names in Hin. apply Hin, H.
Qed.

(** ** Identifiers of a machine *)
Lemma filter_map_in {A B} (f : A -> option B) l b : In b (filter_map f l) <-> exists a, In a l /\ f a = Some b.
Proof.
  induction l as [|a l IH]; cbn [filter_map]; [split; [intros []|intros [? [[] _]]]|].
  destruct (f a) as [b'|] eqn:E; cbn [In]; rewrite IH; split.
  - intros [<-|[x [Hin Hx]]]; [exists a; auto|exists x; auto].
  - intros [x [[<-|Hin] Hx]]; [left; congruence|right; eauto].
  - intros [x [Hin Hx]]. eauto.
  - intros [x [[<-|Hin] Hx]]; [congruence|eauto].
Qed.

Lemma is_zero_iff c : is_zero c = true <-> c = NUL.
Proof. unfold is_zero. apply Ascii.eqb_eq. Qed.
Lemma mac_zero_iff a b c d e f : mac_is_zero (Mac a b c d e f) = true <-> (a = NUL /\ b = NUL /\ c = NUL /\ d = NUL /\ e = NUL /\ f = NUL).
Proof. cbn [mac_is_zero]. rewrite !andb_true_iff, !is_zero_iff. tauto. Qed.
Lemma ip_zero_iff a b c d : ip_is_zero (Ip a b c d) = true <-> (a = NUL /\ b = NUL /\ c = NUL /\ d = NUL).
Proof. cbn [ip_is_zero]. rewrite !andb_true_iff, !is_zero_iff. tauto. Qed.

Definition eth_num (use_ip : bool) : Z := if use_ip then 1%Z else 0%Z.

Lemma eth_data use_ip m data d : order_ok m -> generate_ethernet_pc_id use_ip m = (FUNC_RET_OK, data) ->
  In d data <-> own m (eth_num use_ip) d.
Proof.
  intros Ho. unfold generate_ethernet_pc_id, get_adapter_infos. destruct (hw_ifaddrs m) as [l|] eqn:El; [|discriminate].
  destruct (collect_adapters l) as [|p q] eqn:Ec; [discriminate|]. rewrite <- Ec.
  intros Hg. assert (Hd : data = filter_map (adapter_data use_ip) (map snd (hw_order m (collect_adapters l)))).
  { destruct (map snd (hw_order m (collect_adapters l))); congruence. }
  rewrite Hd, filter_map_in.
  assert (Hin : forall a, In a (map snd (hw_order m (collect_adapters l))) <-> exists n, heard n l <> [] /\ a = adapter_of l n).
  { intros a. rewrite in_map_iff. split.
    - intros [[n a'] [<- Hin]]. apply (Permutation_in _ (Ho _)) in Hin. apply collect_adapter in Hin. eauto.
    - intros [n Hn]. exists (n, a). split; [reflexivity|]. apply (Permutation_in _ (Permutation_sym (Ho _))). apply collect_adapter, Hn. }
  split.
  - intros [a [Ha E]]. apply Hin in Ha as [n [Hn ->]]. unfold adapter_data, adapter_of in E. destruct use_ip; cbn [ad_ip ad_mac eth_num] in *.
    + destruct (iface_ip l n) as [i0 i1 i2 i3] eqn:Ei. destruct (ip_is_zero (Ip i0 i1 i2 i3)) eqn:Ez; [discriminate|]. injection E as <-.
      eapply own_ip; [exact El|exact Hn|exact Ei|]. rewrite <- ip_zero_iff. congruence.
    + destruct (iface_mac l n) as [i0 i1 i2 i3 i4 i5] eqn:Ei. destruct (mac_is_zero _) eqn:Ez; [discriminate|]. injection E as <-.
      eapply own_mac; [exact El|exact Hn|exact Ei|]. rewrite <- mac_zero_iff. congruence.
  - intros Hown. destruct use_ip; inversion Hown as [l' n a b c dd e f Hl Hn Hi Hz E1 E2|l' n a b c dd Hl Hn Hi Hz E1 E2| |]; subst;
      rewrite El in Hl; injection Hl as <-; exists (adapter_of l n); (split; [apply Hin; eauto|]); unfold adapter_data, adapter_of; cbn [ad_ip ad_mac]; rewrite Hi.
    + destruct (ip_is_zero (Ip a b c dd)) eqn:Ez; [apply ip_zero_iff in Ez; contradiction|reflexivity].
    + destruct (mac_is_zero (Mac a b c dd e f)) eqn:Ez; [apply mac_zero_iff in Ez; contradiction|reflexivity].
Qed.
Lemma eth_none use_ip m r data : order_ok m -> generate_ethernet_pc_id use_ip m = (r, data) -> r <> FUNC_RET_OK ->
  data = [] /\ forall d, ~ own m (eth_num use_ip) d.
Proof.
  intros Ho. unfold generate_ethernet_pc_id, get_adapter_infos. intros Hg Hr.
  assert (Hno : (forall l n, hw_ifaddrs m = Some l -> heard n l = []) -> forall d, ~ own m (eth_num use_ip) d).
  { intros H d Hown. destruct use_ip; inversion Hown; subst; match goal with Hn : heard ?n ?l <> [] |- _ => apply Hn; eapply H; eassumption end. }
  destruct (hw_ifaddrs m) as [l|] eqn:El.
  - destruct (collect_adapters l) as [|p q] eqn:Ec.
    + injection Hg as <- <-. split; [reflexivity|]. apply Hno. intros l' n [= <-]. destruct (heard n l) eqn:Eh; [reflexivity|].
      assert (In n (map fst (collect_adapters l))) as Hin by (apply collect_names; congruence). rewrite Ec in Hin. destruct Hin.
    + rewrite <- Ec in Hg. destruct (map snd (hw_order m (collect_adapters l))) as [|a0 ar] eqn:Em; [|congruence].
      exfalso. pose proof (Permutation_map snd (Ho (collect_adapters l))) as P. rewrite Em, Ec in P. apply Permutation_nil in P. destruct p; discriminate.
  - injection Hg as <- <-. split; [reflexivity|]. apply Hno. intros l' n [=].
Qed.

Lemma disk_data_in dk l d : disk_data dk = Ok l -> In d l <->
  (dk_sn_init dk = true /\ d = generate_id_by_sn dk) \/
  (exists lab, dk_label_init dk = true /\ dk_label dk = Some lab /\ d = generate_id_by_label lab).
Proof.
  unfold disk_data. intros H. assert (Hsn : forall x, In x (if dk_sn_init dk then [generate_id_by_sn dk] else []) <-> dk_sn_init dk = true /\ x = generate_id_by_sn dk).
  { intros x. destruct (dk_sn_init dk); cbn; split; [intros [<-|[]]; auto|intros [_ ->]; auto|intros []|intros [H0 _]; discriminate H0]. }
  destruct (dk_label_init dk) eqn:El.
  - destruct (dk_label dk) as [lab|] eqn:Eb; [|discriminate]. injection H as <-. rewrite in_app_iff, Hsn. cbn [In]. split.
    + intros [H|[<-|[]]]; [left; exact H|right; eauto].
    + intros [H|[lab' [_ [[= <-] ->]]]]; auto.
  - injection H as <-. rewrite Hsn. split; [auto|]. intros [H|[lab [H _]]]; [exact H|discriminate H].
Qed.
Lemma disks_data_in ds l d : disks_data ds = Ok l -> In d l <-> exists dk x, In dk ds /\ disk_data dk = Ok x /\ In d x.
Proof.
  revert l; induction ds as [|dk ds IH]; intros l H; cbn [disks_data] in H.
  - injection H as <-. split; [intros []|intros [? [? [[] _]]]].
  - apply rbind_ok in H as [x [Ex H]]. apply rbind_ok in H as [y [Ey H]]. injection H as <-. rewrite in_app_iff, (IH y Ey). split.
    + intros [H|[dk' [x' [H1 [H2 H3]]]]]; [exists dk, x; cbn; auto|exists dk', x'; cbn; auto].
    + intros [dk' [x' [[<-|H1] [H2 H3]]]]; [left; congruence|right; eauto].
Qed.
Lemma disks_data_each ds l dk : disks_data ds = Ok l -> In dk ds -> exists x, disk_data dk = Ok x.
Proof.
  revert l; induction ds as [|d ds IH]; intros l H Hin0; [destruct Hin0|]; destruct Hin0 as [<-|Hin]; cbn [disks_data] in H; apply rbind_ok in H as [x [Ex H]]; [eauto|].
  apply rbind_ok in H as [y [Ey H]]. eapply IH; eassumption.
Qed.

Lemma disk_ids m r data d : generate_disk_pc_id m = Ok (r, data) -> In d data <-> own m 2 d.
Proof.
  unfold generate_disk_pc_id. rewrite listing_eq. intros H. apply rbind_ok in H as [[r0 disks] [Eg H]].
  assert (Hown : forall ds, disks_of (hw_disks m) = Ok (FUNC_RET_OK, ds) -> forall pref others,
     disks_data (filter dk_preferred ds) = Ok pref -> disks_data (filter (fun d => negb (dk_preferred d)) ds) = Ok others ->
     In d (pref ++ others) <-> own m 2 d).
  { clear. intros ds Eg pref others Ep Eo. rewrite in_app_iff, (disks_data_in _ _ _ Ep), (disks_data_in _ _ _ Eo). split.
    - intros [[dk [x [Hin [Ex Hd]]]]|[dk [x [Hin [Ex Hd]]]]]; apply filter_In in Hin as [Hin _];
        apply (disk_data_in _ _ _ Ex) in Hd as [[Hs ->]|[lab [Hl [Hb ->]]]];
        solve [eapply own_serial; eassumption|eapply own_label; eassumption].
    - intros Hown. assert (G : exists dk, In dk ds /\ ((dk_sn_init dk = true /\ d = generate_id_by_sn dk) \/
         (exists lab, dk_label_init dk = true /\ dk_label dk = Some lab /\ d = generate_id_by_label lab))).
      { inversion Hown as [| |ds' dk Eg' Hin Hs|ds' dk lab Eg' Hin Hl Hb]; subst; rewrite Eg in Eg'; injection Eg' as <-; exists dk; (split; [exact Hin|]); [left|right]; eauto. }
      destruct G as [dk [Hin G]]. destruct (dk_preferred dk) eqn:Epf; [left|right].
      + assert (Hf : In dk (filter dk_preferred ds)) by (apply filter_In; auto). destruct (disks_data_each _ _ _ Ep Hf) as [x Ex].
        exists dk, x. split; [exact Hf|]. split; [exact Ex|]. apply (disk_data_in _ _ _ Ex), G.
      + assert (Hf : In dk (filter (fun d => negb (dk_preferred d)) ds)) by (apply filter_In; rewrite Epf; auto). destruct (disks_data_each _ _ _ Eo Hf) as [x Ex].
        exists dk, x. split; [exact Hf|]. split; [exact Ex|]. apply (disk_data_in _ _ _ Ex), G. }
  destruct r0.
  2-4: injection H as <- <-; (split; [intros []|]); intros Hown'; inversion Hown'; congruence.
  destruct disks as [|dk0 disks].
  - injection H as <- <-. split; [intros []|]. intros Hown'. inversion Hown'; match goal with H : _ = Ok (FUNC_RET_OK, ?ds), G : In _ ?ds |- _ => rewrite Eg in H; injection H as <-; destruct G end.
  - apply rbind_ok in H as [pref [Ep H]]. apply rbind_ok in H as [others [Eo H]]. injection H as _ <-. eapply Hown; eassumption.
Qed.
Lemma disk_ids_code m r data : generate_disk_pc_id m = Ok (r, data) -> r <> FUNC_RET_OK -> data = [].
Proof.
  unfold generate_disk_pc_id. intros H Hr. apply rbind_ok in H as [[r0 disks] [Eg H]].
  destruct r0; [|injection H as <- <-; reflexivity..].
  destruct disks as [|dk0 disks]; [injection H as <- <-; reflexivity|].
  apply rbind_ok in H as [pref [Ep H]]. apply rbind_ok in H as [others [Eo H]]. injection H as E1 <-. destruct (pref ++ others); [reflexivity|congruence].
Qed.

(** *** the identifiers made from the data *)
Lemma make_id_ok z d : (0 <= z < 8)%Z -> exists h, make_id z d = Ok h /\ get_identification_strategy h = z /\ data53 h = d7_53 d.
Proof.
  intros Hz. unfold make_id.
  destruct (set_strategy_spec z NUL NUL NUL NUL NUL NUL NUL NUL) as [m1 [E _]]; [unfold STRATEGY_NONE; lia|unfold STRATEGY_DEFAULT; lia|].
  unfold hw_empty. rewrite E. cbn [rbind]. eexists. split; [reflexivity|].
  apply set_strategy_fields in E as [_ [_ Es]]. rewrite set_data_strategy, set_data_53, Es. split; [apply Z.mod_small; exact Hz|reflexivity].
Qed.
Lemma make_ids_ok z l : (0 <= z < 8)%Z -> exists hs, make_ids z l = Ok hs /\
  Forall2 (fun d h => get_identification_strategy h = z /\ data53 h = d7_53 d) l hs.
Proof.
  intros Hz. induction l as [|d l [hs [E F]]]; [exists []; split; [reflexivity|constructor]|]. cbn [make_ids].
  destruct (make_id_ok z d Hz) as [h [-> Hh]]. cbn [rbind]. rewrite E. cbn [rbind]. eexists. split; [reflexivity|]. constructor; assumption.
Qed.

(** the strategies that are not the default one *)
Definition concrete (s : strategy) : Prop := s <> StDefault.
Definition strat_num (s : strategy) : Z := identification_strategy s.

Lemma alternative_spec s m ids : order_ok m -> concrete s -> alternative_ids s m = Ok ids ->
  (forall h, In h ids -> get_identification_strategy h = strat_num s /\ exists d, own m (strat_num s) d /\ data53 h = d7_53 d) /\
  (forall d, own m (strat_num s) d -> exists h, In h ids /\ get_identification_strategy h = strat_num s /\ data53 h = d7_53 d).
Proof.
  intros Ho Hc H.
  assert (G : forall data, (forall d, In d data <-> own m (strat_num s) d) -> make_ids (strat_num s) data = Ok ids ->
    (forall h, In h ids -> get_identification_strategy h = strat_num s /\ exists d, own m (strat_num s) d /\ data53 h = d7_53 d) /\
    (forall d, own m (strat_num s) d -> exists h, In h ids /\ get_identification_strategy h = strat_num s /\ data53 h = d7_53 d)).
  { intros data Hd Hm. destruct (make_ids_ok (strat_num s) data) as [hs [E F]].
    { destruct s as [|[|]|]; [congruence| | |]; unfold strat_num, identification_strategy, STRATEGY_IP_ADDRESS, STRATEGY_ETHERNET, STRATEGY_DISK; lia. }
    rewrite E in Hm. injection Hm as ->. split.
    - intros h Hin. clear E. assert (exists d, In d data /\ get_identification_strategy h = strat_num s /\ data53 h = d7_53 d) as [d [H1 [H2 H3]]].
      { clear Hd H. induction F as [|d' h' l hs Hdh F IH]; [destruct Hin|]. destruct Hin as [<-|Hin]; [exists d'; cbn; tauto|]. destruct (IH Hin) as [d [H1 H2]]. exists d. cbn. tauto. }
      split; [exact H2|]. exists d. split; [apply Hd, H1|exact H3].
    - intros d Hown. apply Hd in Hown. clear E Hd H. induction F as [|d' h' l hs Hdh F IH]; [destruct Hown|].
      destruct Hown as [<-|Hin]; [exists h'; cbn; tauto|]. destruct (IH Hin) as [h [H1 H2]]. exists h. cbn. tauto. }
  assert (Gno : ids = [] -> (forall d, ~ own m (strat_num s) d) ->
    (forall h, In h ids -> get_identification_strategy h = strat_num s /\ exists d, own m (strat_num s) d /\ data53 h = d7_53 d) /\
    (forall d, own m (strat_num s) d -> exists h, In h ids /\ get_identification_strategy h = strat_num s /\ data53 h = d7_53 d)).
  { intros -> Hno. split; [intros h []|intros d Hd; exfalso; eapply Hno, Hd]. }
  destruct s as [|use_ip|]; [congruence| |]; cbn [alternative_ids] in H.
  - destruct (generate_ethernet_pc_id use_ip m) as [r data] eqn:Eg. replace (strat_num (StEthernet use_ip)) with (eth_num use_ip) in * by (destruct use_ip; reflexivity).
    assert (Hr : r = FUNC_RET_OK \/ r <> FUNC_RET_OK) by (destruct r; [left; reflexivity|right; discriminate..]).
    destruct Hr as [->|Hr].
    + apply (G data); [intros d; eapply eth_data; eassumption|]. destruct use_ip; exact H.
    + destruct (eth_none _ _ _ _ Ho Eg Hr) as [-> Hno]. apply Gno; [destruct r; congruence|exact Hno].
  - apply rbind_ok in H as [[r data] [Eg H]]. change (strat_num StDisk) with 2%Z in *.
    assert (Hr : r = FUNC_RET_OK \/ r <> FUNC_RET_OK) by (destruct r; [left; reflexivity|right; discriminate..]).
    destruct Hr as [->|Hr].
    + apply (G data); [intros d; eapply disk_ids; eassumption|exact H].
    + pose proof (disk_ids_code _ _ _ Eg Hr) as ->. apply Gno; [destruct r; congruence|].
      intros d Hd. apply (disk_ids _ _ _ d Eg) in Hd. destruct Hd.
Qed.

Lemma get_strategy_num z s : get_strategy z = Ok s -> z = strat_num s.
Proof.
  unfold get_strategy. repeat match goal with |- context [if Z.eqb ?a ?b then _ else _] => destruct (Z.eqb_spec a b) as [->|] end; intros H; try discriminate; injection H as <-; reflexivity.
Qed.
Lemma get_strategy_inv s : get_strategy (strat_num s) = Ok s.
Proof. destruct s as [|[|]|]; reflexivity. Qed.
Lemma strategy_bits_range h : (0 <= strategy_bits h < 8)%Z.
Proof.
  destruct h as [m0 m1 m2 m3 m4 m5 m6 m7]. cbn [strategy_bits]. pose proof (N_ascii_bounded m1).
  assert (N_of_ascii m1 / 32 < 8)%N by (apply N.div_lt_upper_bound; lia). lia.
Qed.

Lemma own_range m z d : own m z d -> z = 0%Z \/ z = 1%Z \/ z = 2%Z.
Proof. intros []; auto. Qed.
Lemma own_strategy m z d : own m z d -> exists s, concrete s /\ strat_num s = z.
Proof. intros H. destruct (own_range _ _ _ H) as [->|[->| ->]]; [exists (StEthernet false)|exists (StEthernet true)|exists StDisk]; (split; [discriminate|reflexivity]). Qed.

(** ** Exceptions *)
Definition calm {A} (r : res A) : Prop := forall e, r = Throw e -> is_logic_error e = true.
Lemma calm_bind {A B} (m : res A) (k : A -> res B) : calm m -> (forall a, m = Ok a -> calm (k a)) -> calm (rbind m k).
Proof. intros Hm Hk e. destruct m; cbn; [apply Hk; reflexivity|intros [= ->]; apply Hm; reflexivity|discriminate|discriminate]. Qed.
Lemma calm_ok {A} (a : A) : calm (Ok a). Proof. intros e [=]. Qed.
Lemma calm_undef {A} u : calm (@Undef A u). Proof. intros e [=]. Qed.
Lemma calm_fuel {A} : calm (@OutOfFuel A). Proof. intros e [=]. Qed.
Lemma calm_logic {A} e : is_logic_error e = true -> calm (@Throw A e).
Proof. intros H e' [= <-]. exact H. Qed.
#[export] Hint Resolve calm_ok calm_undef calm_fuel : calm.

Lemma calm_substr s p n : calm (substr s p n).
Proof. unfold substr. destruct (Nat.ltb _ _); [apply calm_logic; reflexivity|apply calm_ok]. Qed.
Lemma calm_parse_uuid u : calm (parse_uuid u).
Proof. unfold parse_uuid. destruct (Nat.leb _ _); auto with calm. Qed.
Lemma calm_attr s a : calm (get_attribute s a).
Proof. unfold get_attribute. destruct (str_find (bs """") s _); apply calm_substr. Qed.
Lemma calm_blkid f c o n out m : calm (parse_blkid_loop f c o n out m).
Proof.
  revert o n out m; induction f as [|f IH]; intros o n out m; cbn [parse_blkid_loop]; destruct (str_find _ _ _); auto with calm.
  apply calm_bind; [apply calm_substr|intros a _]. apply calm_bind; [apply calm_substr|intros b _].
  apply calm_bind; [apply calm_attr|intros l _]. apply calm_bind; [apply calm_attr|intros d _].
  apply calm_bind; [apply calm_parse_uuid|intros x _]. apply calm_bind; [apply calm_attr|intros t _]. apply IH.
Qed.
Lemma calm_dev_loop es i m : calm (dev_loop es i m).
Proof.
  revert i m; induction es as [|e es IH]; intros i m; cbn [dev_loop]; [auto with calm|]. destruct (Nat.leb _ _); [auto with calm|].
  destruct (is_dots _ || _); [apply IH|]. destruct (de_ino e); [|apply IH]. destruct (de_link e); [|apply IH].
  apply calm_bind; [apply calm_parse_uuid|]. intros sn _. apply IH.
Qed.
Lemma calm_prefer m es l : calm (prefer_entries m es l).
Proof.
  revert l; induction es as [|e es IH]; intros l; cbn [prefer_entries]; [auto with calm|]. apply calm_bind; [|intros; apply IH].
  unfold prefer_entry. destruct (is_prefix _ _); [destruct (map_find _ _); auto with calm|]. destruct (is_prefix _ _); [|auto with calm].
  induction l as [|d l IHl]; cbn [prefer_by_label]; [auto with calm|]. destruct (dk_label d); [|auto with calm]. destruct (beqb _ _); [auto with calm|].
  apply calm_bind; [exact IHl|auto with calm].
Qed.
Lemma calm_disks e : calm (get_disk_infos e).
Proof.
  unfold get_disk_infos, get_disk_infos_dev, set_preferred_disks.
  apply calm_bind.
  - apply calm_bind; [destruct (de_by_uuid e); [apply calm_dev_loop|auto with calm]|]. intros [i m] _. auto with calm.
  - intros [[r i] m] _.
    assert (G : calm match first_some (de_blkid e) with
      | Some content => ' (infos', by_uuid') <-- parse_blkid content;;
                        infos'' <-- match de_fstab e with Some es => prefer_entries by_uuid' es infos' | None => Ok infos' end;; Ok (FUNC_RET_OK, infos'')
      | None => Ok (FUNC_RET_NOT_AVAIL, i) end).
    { destruct (first_some (de_blkid e)); [|auto with calm]. apply calm_bind; [apply calm_blkid|]. intros [i' m'] _.
      apply calm_bind; [destruct (de_fstab e); [apply calm_prefer|auto with calm]|auto with calm]. }
    destruct r; [|exact G..]. apply calm_bind; [destruct (de_fstab e); [apply calm_prefer|auto with calm]|auto with calm].
Qed.
Lemma calm_disks_data ds : calm (disks_data ds).
Proof.
  induction ds as [|d ds IH]; cbn [disks_data]; [auto with calm|]. apply calm_bind; [|intros; apply calm_bind; [exact IH|auto with calm]].
  unfold disk_data. destruct (dk_label_init d); [|auto with calm]. destruct (dk_label d); auto with calm.
Qed.
Lemma calm_make_ids z l : calm (make_ids z l).
Proof.
  induction l as [|d l IH]; cbn [make_ids]; [auto with calm|]. apply calm_bind; [|intros; apply calm_bind; [exact IH|auto with calm]].
  unfold make_id. apply calm_bind; [|auto with calm]. unfold set_identification_strategy, hw_empty.
  destruct (_ || _); [apply calm_logic; reflexivity|auto with calm].
Qed.
Lemma calm_alternative s m : calm (alternative_ids s m).
Proof.
  destruct s; cbn [alternative_ids]; [auto with calm| |].
  - destruct (generate_ethernet_pc_id use_ip m) as [[] data]; auto with calm. apply calm_make_ids.
  - apply calm_bind.
    + unfold generate_disk_pc_id. apply calm_bind; [apply calm_disks|]. intros [r ds] _. destruct r; auto with calm.
      destruct ds; [auto with calm|]. apply calm_bind; [apply calm_disks_data|]. intros. apply calm_bind; [apply calm_disks_data|auto with calm].
    + intros [[] data] _; auto with calm. apply calm_make_ids.
Qed.
