(** The execution environment of a Windows machine. *)
From Verif Require Import Base CTypes StringUtils HwId Registry Network Disks CpuInfo ExecEnv Strategies Licensecc Shared WinSmbios WinNetwork WinMachine.
From Verif Require Import P_Base P_Hw P_Hw2 Spec_Exec P_Exec P_Exec2 Spec_Cpu P_Cpu Spec_Smbios P_Smbios P_Smbios2 Prop_Smbios P_Shared Spec_WinNet Spec_Windows.
From Coq Require Import Permutation.

(** the processor *)
Lemma win_vendor_made c maker : made_by c maker -> win_cpu_vendor c = maker.
Proof. intros H. apply spells_fun in H. rewrite H. unfold win_cpu_vendor. cbn [map concat]. rewrite app_nil_r. reflexivity. Qed.
Lemma win_vendor_spells c : answers32 c -> made_by c (win_cpu_vendor c).
Proof.
  intros A. unfold made_by, win_cpu_vendor. destruct (A 0%N) as [_ [B [C D]]].
  pose proof (spells_bytes [r_ebx (c 0%N); r_edx (c 0%N); r_ecx (c 0%N)]) as P. cbn [map concat] in P. rewrite app_nil_r in P. apply P. repeat constructor; assumption.
Qed.
Lemma win_rows c name : called c name ->
  name ++ repeat NUL (48 - length name) = win_brand_row c 2147483650 ++ win_brand_row c 2147483651 ++ win_brand_row c 2147483652.
Proof. intros [_ [_ [_ P]]]. apply spells_fun in P. rewrite P. reflexivity. Qed.
Lemma win_brand_called c name : called c name -> win_cpu_brand c = name.
Proof.
  intros H. pose proof (win_rows c name H) as R. destruct H as [[_ L] [Hn [Hl _]]]. change (range_of 2147483652) with 2147483648%N in L.
  unfold win_cpu_brand. apply N.leb_le in L. rewrite L.
  replace (win_brand_row c 2147483650 ++ win_brand_row c 2147483651 ++ win_brand_row c 2147483652 ++ repeat NUL 17)
    with (name ++ NUL :: repeat NUL (48 - length name + 16)).
  - apply cstr_app_nul. apply forallb_forall. intros x Hx. apply negb_true_iff, Ascii.eqb_neq. intros ->. exact (Hn Hx).
  - rewrite !app_assoc, <- (app_assoc (win_brand_row c 2147483650)), <- R, <- app_assoc. f_equal.
    rewrite <- repeat_app. replace (48 - length name + 17) with (S (48 - length name + 16)) by lia. reflexivity.
Qed.
Lemma win_brand_named c name : named_cpu c name -> win_cpu_brand c = name.
Proof. intros [H|[H ->]]; [apply win_brand_called, H|]. unfold win_cpu_brand. destruct (N.leb_spec 2147483652 (r_eax (c 2147483648%N))); [lia|reflexivity]. Qed.
Lemma win_hypervisor_bit c : answers32 c -> win_hypervisor c = true <-> hypervisor_on c.
Proof.
  intros A. unfold win_hypervisor, hypervisor_on. destruct (A 1%N) as [_ [_ [E _]]]. unfold is32 in E. set (n := r_ecx (c 1%N)) in *.
  rewrite N.shiftr_div_pow2. change (2 ^ 31)%N with 2147483648%N. split.
  - intros H. apply N.eqb_eq in H. destruct (N.lt_ge_cases n 2147483648) as [L|L]; [|exact L]. rewrite N.div_small in H by exact L. discriminate.
  - intros H. replace (n / 2147483648)%N with 1%N; [reflexivity|]. apply N.div_unique with (r := (n - 2147483648)%N); lia.
Qed.
Lemma win_model_linux c : supports c 1 -> win_cpu_model c = cpu_model c.
Proof. intros H. unfold win_cpu_model, cpu_model. rewrite (get_supported c 1 _ eq_refl H). reflexivity. Qed.

(** conclusions from texts *)
Definition text_of (p : platform) (t : text_id) : bytes :=
  match t with Description => pl_bios_description p | Vendor => pl_bios_vendor p | RawVendor => pl_sys_vendor p end.
Fixpoint first_in (f : text_id -> bytes) (l : list (cloud * list (text_id * string))) : cloud :=
  match l with
  | [] => PROV_UNKNOWN
  | (c, ws) :: r => if existsb (fun p => contains (bs (snd p)) (f (fst p))) ws then c else first_in f r
  end.
Lemma row_in_bool (f : text_id -> bytes) l : existsb (fun p => contains (bs (snd p)) (f (fst p))) l = true <-> exists t w, In (t, w) l /\ has (bs w) (f t).
Proof.
  rewrite existsb_exists. split.
  - intros [[t w] [A B]]. exists t, w. split; [exact A|apply contains_spec, B].
  - intros [t [w [A B]]]. exists (t, w). split; [exact A|apply contains_spec, B].
Qed.
Lemma first_in_spec f l : (exists before row after, l = before ++ row :: after /\ row_in f row /\ fst row = first_in f l /\ forall r, In r before -> ~ row_in f r) \/
  (first_in f l = PROV_UNKNOWN /\ forall r, In r l -> ~ row_in f r).
Proof.
  induction l as [|[c ws] l IH]; [right; split; [reflexivity|intros r []]|]. cbn [first_in].
  destruct (existsb _ ws) eqn:E.
  - left. exists [], (c, ws), l. split; [reflexivity|]. split; [apply row_in_bool in E; exact E|]. split; [reflexivity|intros r []].
  - assert (N : ~ row_in f (c, ws)) by (intros M; apply row_in_bool in M; cbn [snd] in M; congruence).
    destruct IH as [[bf [row [af [-> [A [B C]]]]]]|[A B]].
    + left. exists ((c, ws) :: bf), row, af. split; [reflexivity|]. split; [exact A|]. split; [exact B|]. intros r [<-|Hr]; [exact N|apply C, Hr].
    + right. split; [exact A|]. intros r [<-|Hr]; [exact N|apply B, Hr].
Qed.
Lemma cloud_in_unique f c c' : cloud_in f c -> cloud_in f c' -> c = c'.
Proof.
  intros [[b [r [a [E [M [<- N]]]]]]|[-> N]] [[b' [r' [a' [E' [M' [<- N']]]]]]|[-> N']].
  - rewrite E in E'. destruct (first_split_unique (row_in f) _ _ _ _ _ _ E' M M' N N') as [-> _]. reflexivity.
  - exfalso. apply (N' r); [rewrite E; apply in_elt|exact M].
  - exfalso. apply (N r'); [rewrite E'; apply in_elt|exact M'].
  - reflexivity.
Qed.
Lemma s_cloud_spec p c : s_cloud_provider p = c <-> cloud_in (text_of p) c.
Proof.
  assert (E : s_cloud_provider p = first_in (text_of p) cloud_words).
  { unfold s_cloud_provider. cbv zeta. unfold cloud_words. cbn [first_in existsb fst snd text_of].
    rewrite !orb_false_r, !orb_assoc.
    destruct (Nat.ltb 0 (length (pl_bios_description p)) || Nat.ltb 0 (length (pl_bios_vendor p)) || Nat.ltb 0 (length (pl_sys_vendor p))) eqn:G; [reflexivity|].
    apply orb_false_iff in G as [G G3]. apply orb_false_iff in G as [G1 G2].
    assert (L : forall s : bytes, Nat.ltb 0 (length s) = false -> s = []) by (intros [|? ?]; [reflexivity|discriminate]).
    rewrite (L _ G1), (L _ G2), (L _ G3). reflexivity. }
  rewrite E. assert (F : cloud_in (text_of p) (first_in (text_of p) cloud_words)) by apply first_in_spec.
  split; [intros <-; exact F|]. intros F'. eapply cloud_in_unique; eassumption.
Qed.
Lemma s_is_cloud_spec p : s_is_cloud p = true <-> some_cloud_in (text_of p).
Proof.
  unfold s_is_cloud, some_cloud_in. pose proof (proj1 (s_cloud_spec p _) eq_refl) as F. split.
  - intros C. exists (s_cloud_provider p). split; [exact F|]. destruct (s_cloud_provider p); try discriminate; split; discriminate.
  - intros [c [Fc [A B]]]. assert (s_cloud_provider p = c) by (eapply cloud_in_unique; eassumption). subst c. destruct (s_cloud_provider p); congruence || reflexivity.
Qed.
Lemma s_detail_unfold p :
  s_virtualization_detail p =
  match first_shown (pl_vendor_order p) [(vendor_words, text_of p Description); (vendor_words, text_of p Vendor); (vendor_words, text_of p RawVendor)]
    (first_shown (pl_cpu_order p) [(cpu_words, pl_cpu_vendor p); (cpu_words, pl_cpu_brand p)] BARE_TO_METAL) with
  | BARE_TO_METAL => if pl_hypervisor p || s_is_cloud p then V_OTHER else BARE_TO_METAL
  | r => r
  end.
Proof.
  unfold s_virtualization_detail. cbv zeta. cbn [first_shown text_of]. rewrite vendor_table, cpu_table.
  replace (match find_in_map (pl_cpu_order p (coded cpu_words)) (pl_cpu_brand p) with BARE_TO_METAL => BARE_TO_METAL | v => v end)
    with (find_in_map (pl_cpu_order p (coded cpu_words)) (pl_cpu_brand p)) by (destruct (find_in_map _ (pl_cpu_brand p)); reflexivity).
  match goal with |- match ?r with _ => _ end = _ => destruct r end; reflexivity.
Qed.
Lemma s_detail_sound p c : (forall l, Permutation (pl_vendor_order p l) l) -> (forall l, Permutation (pl_cpu_order p l) l) ->
  (pl_hypervisor p = true <-> hypervisor_on c) -> detail_in (text_of p) c (pl_cpu_vendor p) (pl_cpu_brand p) (s_virtualization_detail p).
Proof.
  intros PV PC Hh. rewrite s_detail_unfold.
  set (lv := [(vendor_words, text_of p Description); (vendor_words, text_of p Vendor); (vendor_words, text_of p RawVendor)]).
  set (lc := [(cpu_words, pl_cpu_vendor p); (cpu_words, pl_cpu_brand p)]).
  assert (Hsr : search_list (text_of p) (pl_cpu_vendor p) (pl_cpu_brand p) = lv ++ lc) by reflexivity. unfold detail_in. rewrite Hsr.
  assert (RV : forall q, In q lv -> real_values (coded (fst q))) by (intros q [<-|[<-|[<-|[]]]]; apply vendor_real).
  assert (RC : forall q, In q lc -> real_values (coded (fst q))) by (intros q [<-|[<-|[]]]; apply cpu_real).
  destruct (first_shown_spec (pl_vendor_order p) lv (first_shown (pl_cpu_order p) lc BARE_TO_METAL) PV RV) as [[b [q [a [E [A [A' B]]]]]]|[E N]].
  - left. exists b, q, (a ++ lc). rewrite E at 1. rewrite <- app_assoc. split; [reflexivity|]. split; [|exact B].
    destruct (first_shown (pl_vendor_order p) lv _); congruence || exact A.
  - rewrite E. destruct (first_shown_spec (pl_cpu_order p) lc BARE_TO_METAL PC RC) as [[b [q [a [E2 [A [A' B]]]]]]|[E2 N2]].
    + left. exists (lv ++ b), q, a. rewrite E2 at 1. rewrite <- app_assoc. split; [reflexivity|]. split.
      * destruct (first_shown (pl_cpu_order p) lc _); congruence || exact A.
      * intros r v Hr. apply in_app_or in Hr as [Hr|Hr]; [apply N, Hr|apply B, Hr].
    + rewrite E2. right. split; [intros r v Hr; apply in_app_or in Hr as [Hr|Hr]; [apply N, Hr|apply N2, Hr]|].
      pose proof (s_is_cloud_spec p) as C. destruct (pl_hypervisor p); cbn [orb]; [left; split; [reflexivity|left; apply Hh; reflexivity]|]. destruct (s_is_cloud p).
      * left. split; [reflexivity|]. right. apply C. reflexivity.
      * right. split; [reflexivity|]. split; intros X; [apply Hh in X|apply C in X]; discriminate.
Qed.

(** the platform that is read *)
Lemma dmi_told f text : firmware_tells f text -> exists d, windows_dmi f = Ok d /\
  dm_bios_description d = text Description /\ dm_bios_vendor d = text Vendor /\ dm_sys_vendor d = text RawVendor.
Proof.
  intros [[H T]|[ss [b [D [F1 [F2 [W [C [NB T]]]]]]]]].
  - exists no_dmi. rewrite !T. split; [apply C64_unavailable, H|]. repeat split; reflexivity.
  - destruct (C64_information ss b f D F1 F2 W C) as [_ I]. destruct (I NB) as [d [E [A [B [A' _]]]]]. exists d. rewrite !T. auto.
Qed.
Lemma some_cloud_ext f g : (forall t, f t = g t) -> some_cloud_in f <-> some_cloud_in g.
Proof.
  assert (G : forall f g : text_id -> bytes, (forall t, f t = g t) -> forall c, cloud_in f c -> cloud_in g c).
  { clear. intros f g H c. assert (R : forall r, row_in f r <-> row_in g r).
    { intros r. split; intros [t [w [A B]]]; exists t, w; (split; [exact A|]); [rewrite <- H|rewrite H]; exact B. }
    intros [[b [r [a [E [M [X N]]]]]]|[E N]]; [left; exists b, r, a|right].
    - split; [exact E|]. split; [apply R, M|]. split; [exact X|]. intros r' Hr Q. apply (N r' Hr), R, Q.
    - split; [exact E|]. intros r Hr Q. apply (N r Hr), R, Q. }
  intros H. assert (H' : forall t, g t = f t) by (intros t; symmetry; apply H).
  split; intros [c [A B]]; exists c; (split; [eapply G; [|exact A]; assumption|exact B]).
Qed.
Lemma cloud_in_ext f g c : (forall t, f t = g t) -> cloud_in f c -> cloud_in g c.
Proof.
  intros H. assert (R : forall r, row_in f r <-> row_in g r).
  { intros r. split; intros [t [w [A B]]]; exists t, w; (split; [exact A|]); [rewrite <- H|rewrite H]; exact B. }
  intros [[b [r [a [E [M [X N]]]]]]|[E N]]; [left; exists b, r, a|right].
  - split; [exact E|]. split; [apply R, M|]. split; [exact X|]. intros r' Hr Q. apply (N r' Hr), R, Q.
  - split; [exact E|]. intros r Hr Q. apply (N r Hr), R, Q.
Qed.
Lemma detail_in_ext f g c maker name v : (forall t, f t = g t) -> detail_in f c maker name v -> detail_in g c maker name v.
Proof.
  intros H. assert (L : search_list f maker name = search_list g maker name) by (unfold search_list; rewrite !H; reflexivity).
  pose proof (some_cloud_ext f g H) as C. unfold detail_in. rewrite L, C. exact (fun x => x).
Qed.
Lemma win_platform_read m text maker name : firmware_tells (wm_firmware m) text -> answers32 (wm_cpu m) -> made_by (wm_cpu m) maker -> named_cpu (wm_cpu m) name ->
  exists p, win_platform m = Ok p /\ pl_container p = CT_NONE /\ (forall t, text_of p t = text t) /\ pl_cpu_vendor p = maker /\ pl_cpu_brand p = name /\
    (pl_hypervisor p = true <-> hypervisor_on (wm_cpu m)) /\ pl_vendor_order p = wm_vendor_order m /\ pl_cpu_order p = wm_cpu_order m.
Proof.
  intros F A M N. destruct (dmi_told _ _ F) as [d [E [E1 [E2 E3]]]]. unfold win_platform. rewrite E. cbn [rbind]. eexists. split; [reflexivity|].
  cbn [pl_container pl_cpu_vendor pl_cpu_brand pl_hypervisor pl_vendor_order pl_cpu_order]. split; [reflexivity|]. split; [intros []; cbn; assumption|].
  split; [apply win_vendor_made, M|]. split; [apply win_brand_named, N|]. split; [apply win_hypervisor_bit, A|]. split; reflexivity.
Qed.
(** the summary without a container *)
Lemma s_cloud_not_bare p : s_is_cloud p = true -> s_virtualization_detail p <> BARE_TO_METAL.
Proof.
  intros H. unfold s_virtualization_detail. cbv zeta. rewrite H, orb_true_r.
  match goal with |- match ?r with _ => _ end <> _ => destruct r end; discriminate.
Qed.
Lemma s_virt_none p : pl_container p = CT_NONE -> s_virtualization p = match s_virtualization_detail p with BARE_TO_METAL => VS_NONE | _ => VS_VM end.
Proof.
  intros H. unfold s_virtualization. rewrite H, detail_eqb_bare. pose proof (s_cloud_not_bare p) as C. destruct (s_is_cloud p).
  - rewrite orb_true_r. specialize (C eq_refl). destruct (s_virtualization_detail p); congruence || reflexivity.
  - destruct (s_virtualization_detail p); reflexivity.
Qed.

(** the default strategy *)
Lemma s_default_is r p : rd_platform r = Ok p ->
  s_generate_user_pc_signature None r STRATEGY_DEFAULT =
  match s_virtualization p with
  | VS_NONE => s_generate_user_pc_signature None r STRATEGY_DISK
  | VS_CONTAINER => match pl_container p with CT_DOCKER => Throw ExLogic | _ => s_generate_user_pc_signature None r STRATEGY_ETHERNET end
  | VS_VM => if s_is_cloud p then Throw ExLogic else s_generate_user_pc_signature None r STRATEGY_ETHERNET
  end.
Proof.
  intros E. unfold s_generate_user_pc_signature. change (STRATEGY_DEFAULT =? STRATEGY_DEFAULT)%Z with true. change (STRATEGY_ETHERNET =? STRATEGY_DEFAULT)%Z with false. change (STRATEGY_DISK =? STRATEGY_DEFAULT)%Z with false. cbv iota beta.
  change (get_strategy STRATEGY_DEFAULT) with (Ok StDefault). change (get_strategy STRATEGY_ETHERNET) with (Ok (StEthernet false)). change (get_strategy STRATEGY_DISK) with (Ok StDisk). cbn [rbind s_generate_pc_id].
  unfold s_available_strategies. rewrite E. cbn [rbind].
  destruct (s_virtualization p).
  - unfold LCC_BARE_TO_METAL_STRATEGIES. cbn [s_try_strategies]. change (get_strategy STRATEGY_DISK) with (Ok StDisk). cbn [rbind].
    destruct (s_generate_concrete StDisk r) as [[h|]| | |]; reflexivity.
  - destruct (pl_container p); try reflexivity; unfold LCC_LXC_STRATEGIES; cbn [s_try_strategies]; change (get_strategy STRATEGY_ETHERNET) with (Ok (StEthernet false)); cbn [rbind];
      destruct (s_generate_concrete (StEthernet false) r) as [[h|]| | |]; reflexivity.
  - destruct (s_is_cloud p); [reflexivity|]. unfold LCC_VM_STRATEGIES. cbn [s_try_strategies]. change (get_strategy STRATEGY_ETHERNET) with (Ok (StEthernet false)). cbn [rbind].
    destruct (s_generate_concrete (StEthernet false) r) as [[h|]| | |]; reflexivity.
Qed.

Lemma detail_bare_unique text c maker name v : detail_in text c maker name BARE_TO_METAL -> detail_in text c maker name v -> v = BARE_TO_METAL.
Proof.
  intros [[b [q [a [E [[w [Iw _]] _]]]]]|[N H]] D.
  - exfalso. assert (Hq : In q (search_list text maker name)) by (rewrite E; apply in_elt).
    assert (R : real_values (coded (fst q))) by (destruct Hq as [<-|[<-|[<-|[<-|[<-|[]]]]]]; try apply vendor_real; apply cpu_real).
    apply (R (bs w) BARE_TO_METAL); [|reflexivity]. unfold coded. apply in_map_iff. exists (w, BARE_TO_METAL). auto.
  - destruct H as [[H _]|[_ [H1 H2]]]; [discriminate|]. destruct D as [[b [q [a [E [Sq _]]]]]|[_ [[-> [D|D]]|[-> _]]]]; [|contradiction|contradiction|reflexivity].
    exfalso. apply (N q v); [rewrite E; apply in_elt|exact Sq].
Qed.
