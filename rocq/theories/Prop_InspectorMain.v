(** The inspector program (C76). *)
From Verif Require Import Base CTypes StringUtils Dates Base64 HwId Registry Ini Network Disks CpuInfo ExecEnv Strategies Locate Licensecc Inspector InspectorMain.
From Verif Require Import P_Base Spec_Strings Spec_Base64 Spec_Dates P_Strings Spec_Ini P_Ini Spec_HwId Spec_Hw Spec_Exec Spec_Registry Spec_Acquire Spec_Faults Ex_Acquire P_Hw P_Hw2 P_Exec2 P_Text P_Acquire2 Prop_Hw Prop_Acquire Prop_Exec Prop_Inspector.
From Coq Require Import Lia Permutation.

(** ** Inversion *)
Definition file_items (w : world) (g : nat -> leftovers) (args : list bytes) (t0 : nat) (l : list item) (t1 : nat) : Prop :=
  exists a b t, (match args with [fname] => i <~ file_report w (g 0) fname ;; mret [i] | _ => mret [] end) t0 = Ok (a, t) /\
    (if w_with_env w then
               match env_set w LICENSE_LOCATION_VAR with
               | Some v => is <~ files_report w g 1 (split_string v ";"%char) ;; mret (VarValue v :: is)
               | None => mret [VarUndefined]
               end
             else mret []) t = Ok (b, t1) /\ l = a ++ b.
Lemma main_inv w g buf args t items t' : inspector_main w g buf args t = Ok (items, t') ->
  exists ids info t1 env dmi rest, id_lines w None buf 20 None id_strategies t = Ok ((ids, info), t1) /\
    env_lines info = Ok env /\ dmi_report (hw_exec (w_machine w (S t1))) = Ok dmi /\ file_items w g args (S (S t1)) rest t' /\
    items = ids ++ env :: adapters_report (w_machine w t1) ++ cpu_report (xf_cpu (hw_exec (w_machine w (S t1)))) :: dmi :: Separator :: rest.
Proof.
  unfold inspector_main. change (PC_IDENTIFIER_SIZE + 1) with 20. intros H.
  apply mbind_ok in H as [[ids info] [t1 [H1 H]]]. apply mbind_ok in H as [env [t2 [H2 H]]]. apply mlift_ok in H2 as [H2 ->].
  apply mbind_ok in H as [m [t3 [H3 H]]]. unfold m_machine in H3. injection H3 as <- <-.
  apply mbind_ok in H as [m [t3 [H3 H]]]. unfold m_machine in H3. injection H3 as <- <-.
  apply mbind_ok in H as [dmi [t3 [H3 H]]]. apply mlift_ok in H3 as [H3 ->].
  apply mbind_ok in H as [a [t4 [H4 H]]]. apply mbind_ok in H as [b [t5 [H5 H]]]. apply mret_ok in H as [-> ->].
  exists ids, info, t1, env, dmi, (a ++ b). split; [exact H1|]. split; [exact H2|]. split; [exact H3|]. split; [|reflexivity]. exists a, b, t4. auto.
Qed.

(** ** The identifiers *)
Lemma buffer_cases env m z a : length a = 20 ->
  identify_buffer env m z (Some a) 20 = match generate_user_pc_signature env m z with
                  | Ok id => Ok (true, Some (id ++ NUL :: skipn 15 a), 20)
                  | Throw _ => Ok (false, Some a, 20)
                  | Undef u => Undef u
                  | OutOfFuel => OutOfFuel
                  end.
Proof.
  intros L. unfold identify_buffer. change (Nat.ltb PC_IDENTIFIER_SIZE 20) with true. cbv iota.
  destruct (generate_user_pc_signature env m z) as [id| | |] eqn:E; try reflexivity. destruct (generate_text _ _ _ _ E) as [N L'].
  rewrite copy_id by (try assumption; lia). reflexivity.
Qed.
Lemma buffer_len env m z a f b s : length a = 20 -> identify_buffer env m z (Some a) 20 = Ok (f, b, s) -> s = 20 /\ exists a', b = Some a' /\ length a' = 20 /\
  forall c, length c = 20 -> exists c', identify_buffer env m z (Some c) 20 = Ok (f, Some c', 20) /\ (f = true -> cstr c' = cstr a').
Proof.
  intros L. rewrite buffer_cases by exact L. destruct (generate_user_pc_signature env m z) as [id|e| |] eqn:E; try discriminate; intros [= <- <- <-]; (split; [reflexivity|]).
  - destruct (generate_text _ _ _ _ E) as [N L']. exists (id ++ NUL :: skipn 15 a). split; [reflexivity|]. split; [rewrite app_length; cbn [length]; rewrite skipn_length; lia|].
    intros c Lc. exists (id ++ NUL :: skipn 15 c). rewrite buffer_cases, E by exact Lc. split; [reflexivity|]. rewrite !cstr_app_nul by exact N. reflexivity.
  - exists a. split; [reflexivity|]. split; [exact L|]. intros c Lc. exists c. rewrite buffer_cases, E by exact Lc. split; [reflexivity|discriminate].
Qed.

(** What a call of identify_pc, as the first of a process, says *)
Definition answer (w : world) (m : machine) (z : Z) (o : option bytes) (x : exec_info) : Prop :=
  forall buf, length buf = 20 -> exists found buf',
    identify_pc (w_getenv w (bs "IDENTIFICATION_STRATEGY")) m z (Some buf) 20 true = Ok (found, Some buf', 20, Some x) /\ o = if found : bool then Some (cstr buf') else None.
Lemma id_lines_spec w m l : (forall i, w_machine w i = m) -> forall st buf info t ls last t', length buf = 20 ->
  (forall e, st = Some e -> make_exec_env (hw_exec m) = Ok e) ->
  id_lines w st buf 20 info l t = Ok ((ls, last), t') ->
  exists x, Forall2 (fun p i => exists o, i = IdLine (snd p) o /\ answer w m (fst p) o x) l ls /\ last = (match l with [] => info | _ => Some x end) /\
   (l <> [] -> exists e, make_exec_env (hw_exec m) = Ok e /\ x = {| xi_cloud := cloud_provider e; xi_virt := virtualization e; xi_detail := virtualization_detail e |}) /\
   (forall e, make_exec_env (hw_exec m) = Ok e -> x = {| xi_cloud := cloud_provider e; xi_virt := virtualization e; xi_detail := virtualization_detail e |}).
Proof.
  intros HM. induction l as [|[z name] l IH]; intros st buf info t ls last t' L HS H; cbn [id_lines] in H.
  - apply mret_ok in H as [E ->]. injection E as -> ->. destruct (make_exec_env (hw_exec m)) as [e| | |].
    1: exists {| xi_cloud := cloud_provider e; xi_virt := virtualization e; xi_detail := virtualization_detail e |}. 2-4: exists {| xi_cloud := AWS; xi_virt := VS_VM; xi_detail := KVM |}.
    all: split; [constructor|]; split; [reflexivity|]; split; [congruence|]; intros e'; [intros [= <-]; reflexivity|discriminate..].
  - apply mbind_ok in H as [m' [t1 [H1 H]]]. unfold m_machine in H1. injection H1 as <- <-. rewrite HM in H. apply mbind_ok in H as [[[[[f b] s] i] e] [t2 [H1 H]]]. apply mlift_ok in H1 as [H1 ->].
    unfold identify_call in H1. apply rbind_ok in H1 as [[[f1 b1] s1] [HB H1]]. apply rbind_ok in H1 as [e1 [HE H1]]. injection H1 as <- <- <- <- <-.
    destruct (buffer_len _ _ _ _ _ _ _ L HB) as [-> [a' [-> [L' HC]]]].
    assert (HE' : make_exec_env (hw_exec m) = Ok e1) by (destruct st as [e0|]; [injection HE as <-; apply HS; reflexivity|exact HE]).
    apply mbind_ok in H as [[ls' last'] [t3 [H2 H]]]. apply mret_ok in H as [E ->]. injection E as -> ->.
    assert (HX : forall e, Some e1 = Some e -> make_exec_env (hw_exec m) = Ok e) by (intros e [= <-]; exact HE').
    destruct (IH _ _ _ _ _ _ _ L' HX H2) as [x [F [G [K1 K2]]]].
    exists x. split; [|split; [|split; [|exact K2]]].
    + constructor; [|exact F]. cbn [fst snd]. eexists. split; [reflexivity|]. intros c Lc. destruct (HC c Lc) as [c' [R C]]. exists f1, c'.
      change (bs "IDENTIFICATION_STRATEGY") with STRATEGY_VAR. rewrite identify_pc_eq, R, HE'. cbn [rbind]. rewrite (K2 _ HE'). split; [reflexivity|]. destruct f1; [rewrite C; reflexivity|reflexivity].
    + destruct l; [|exact G]. rewrite G. rewrite (K2 _ HE'). reflexivity.
    + intros _. exists e1. split; [exact HE'|apply K2, HE'].
Qed.

(** On a machine that stays the same: the first four lines show, for each strategy, what a
    call of identify_pc says; an identifier shown can be put into a license: it is
    accepted on this machine. *)
Theorem C76_identifiers w g buf args t items t' m : (forall i, w_machine w i = m) -> order_ok m -> length buf = 20 ->
  inspector_main w g buf args t = Ok (items, t') ->
  exists x a b c d rest, items = IdLine (bs "DEFAULT") a :: IdLine (bs "MAC") b :: IdLine (bs "IP") c :: IdLine (bs "Disk") d :: rest /\
    (answer w m (-1) a x /\ answer w m 0 b x /\ answer w m 1 c x /\ answer w m 2 d x) /\
    forall id, a = Some id \/ b = Some id \/ c = Some id \/ d = Some id -> validate_pc_signature m id = Ok LICENSE_OK.
Proof.
  intros HM HO L H. apply main_inv in H as [ids [info [t1 [env [dmi [rest [H1 [_ [_ [_ ->]]]]]]]]]].
  destruct (id_lines_spec w m _ HM None buf None t ids info t1 L (fun e Q => ltac:(discriminate)) H1) as [x [F _]]. unfold id_strategies in F.
  inversion F as [|? i0 ? l0 [a [E0 A0]] F0]; subst. inversion F0 as [|? i1 ? l1 [b [E1 A1]] F1]; subst. inversion F1 as [|? i2 ? l2 [c [E2 A2]] F2]; subst. inversion F2 as [|? i3 ? l3 [d [E3 A3]] F3]; subst. inversion F3; subst.
  cbn [fst snd] in *. exists x, a, b, c, d. eexists. split; [reflexivity|]. split; [auto|].
  intros id Q. assert (G : forall z, answer w m z (Some id) x -> validate_pc_signature m id = Ok LICENSE_OK).
  { intros z A. destruct (A (repeat NUL 20) eq_refl) as [f [b' [R E]]]. destruct f; [|discriminate]. injection E as ->.
    eapply (C29_generated_id_validates _ m m); [exact HO|exact HO|repeat split|..|exact R]. reflexivity. }
  destruct Q as [->|[->|[->| ->]]]; eapply G; eassumption.
Qed.
Print Assumptions C76_identifiers.

(** ** The execution environment *)
(** what the words mean *)
Definition virt_word (v : virt_summary) (text : bytes) : Prop :=
  v = VS_NONE /\ text = bs "No virtualization" \/ v = VS_VM /\ text = bs "Virtual machine" \/ v = VS_CONTAINER /\ text = bs "Container".
Definition detail_word (d : virt_detail) (text : bytes) : Prop :=
  In (d, text) [(BARE_TO_METAL, bs "No virtualization"); (VMWARE, bs "Vmware"); (VIRTUALBOX, bs "Virtualbox"); (V_XEN, bs "XEN"); (KVM, bs "KVM");
    (HV, bs "Microsoft Hypervisor"); (PARALLELS, bs "Parallels Desktop"); (V_OTHER, bs "Other type of vm")].
Definition cloud_word (c : cloud) (text : bytes) : Prop :=
  In (c, text) [(PROV_UNKNOWN, bs "Provider unknown"); (ON_PREMISE, bs "On premise hardware (no cloud)"); (GOOGLE_CLOUD, bs "Google Cloud");
    (AZURE_CLOUD, bs "Microsoft Azure"); (AWS, bs "Amazon AWS"); (ALI_CLOUD, bs "Alibaba Cloud (Chinese cloud provider)")].
Theorem C76_environment w g buf args t items t' m : (forall i, w_machine w i = m) -> hash_orders (hw_exec m) -> length buf = 20 ->
  inspector_main w g buf args t = Ok (items, t') ->
  exists v d c s, summary_found (hw_exec m) v /\ detail_found (hw_exec m) d /\ cloud_found (hw_exec m) c /\
    nth_error items 4 = Some s /\ exists tv td tc, s = EnvLines tv td tc /\
    virt_word v tv /\ detail_word d td /\ cloud_word c tc /\
    (* the texts determine what was found *)
    (forall v', virt_word v' tv -> v' = v) /\ (forall d', detail_word d' td -> d' = d) /\ (forall c', cloud_word c' tc -> c' = c).
Proof.
  intros HM HO L H. apply main_inv in H as [ids [info [t1 [env [dmi [rest [H1 [HE [_ [_ ->]]]]]]]]]].
  destruct (id_lines_spec w m _ HM None buf None t ids info t1 L (fun e Q => ltac:(discriminate)) H1) as [x [F [E [K _]]]]. destruct K as [e [EE K]]; [discriminate|]. subst x. cbn in E. subst info.
  exists (virtualization e), (virtualization_detail e), (cloud_provider e), env. split; [apply summary_is; assumption|]. split; [apply detail_sound; assumption|]. split; [apply (cloud_spec _ _ _ EE); reflexivity|].
  assert (LI : length ids = 4) by (clear - F; unfold id_strategies in F; repeat (match goal with X : Forall2 _ _ _ |- _ => inversion X; subst; clear X end); reflexivity).
  split; [rewrite nth_error_app2 by lia; rewrite LI; reflexivity|]. cbn [env_lines xi_virt xi_detail xi_cloud] in HE.
  destruct (virt_text (virtualization e)) as [tv|] eqn:T1; [|discriminate]. destruct (detail_text (virtualization_detail e)) as [td|] eqn:T2; [|discriminate]. destruct (cloud_text (cloud_provider e)) as [tc|] eqn:T3; [|discriminate].
  injection HE as <-. exists tv, td, tc. split; [reflexivity|].
  assert (A1 : virt_word (virtualization e) tv) by (revert T1; unfold virt_word; destruct (virtualization e); cbn; intros [= <-]; auto).
  assert (A2 : detail_word (virtualization_detail e) td) by (revert T2; unfold detail_word; destruct (virtualization_detail e); cbn; intros [= <-]; tauto).
  assert (A3 : cloud_word (cloud_provider e) tc) by (revert T3; unfold cloud_word; destruct (cloud_provider e); cbn; intros [= <-]; tauto).
  split; [exact A1|]. split; [exact A2|]. split; [exact A3|]. split; [|split].
  - intros v' B. unfold virt_word in *. destruct A1 as [[-> ->]|[[-> ->]|[-> ->]]], B as [[-> X]|[[-> X]|[-> X]]]; try reflexivity; discriminate X.
  - intros v' B. revert A2 B. generalize (virtualization_detail e). intros d. unfold detail_word. cbn [In]. intros A B.
    repeat (destruct A as [A|A]; [injection A as <- <-; repeat (destruct B as [B|B]; [first [discriminate B | injection B as <-; reflexivity]|]); destruct B|]); destruct A.
  - intros v' B. revert A3 B. generalize (cloud_provider e). intros d. unfold cloud_word. cbn [In]. intros A B.
    repeat (destruct A as [A|A]; [injection A as <- <-; repeat (destruct B as [B|B]; [first [discriminate B | injection B as <-; reflexivity]|]); destruct B|]); destruct A.
Qed.
Print Assumptions C76_environment.

(** ** The network adapters *)
(** One group of lines for each interface: its name (up to 1024 characters), its MAC address
    as it is, its IP address (first octet [a], last octet [d]) from the last octet to the
    first. Every adapter has the number 0. *)
Definition of_interface (l : list ifaddr) (n : bytes) (i : item) : Prop :=
  exists a b c d p q r s u v, iface_ip l n = Ip a b c d /\ iface_mac l n = Mac p q r s u v /\
    i = AdapterLines 0 (firstn 1024 n) [code d; code c; code b; code a] [code p; code q; code r; code s; code u; code v].
Lemma heard_nul n l : heard n l <> [] -> nul_free n.
Proof.
  induction l as [|i l IH]; cbn [heard]; [congruence|]. destruct (ifa_addr i); [|exact IH]. destruct (negb (ifa_loopback i) && beqb _ n) eqn:E; [|exact IH].
  intros _. apply andb_true_iff in E as [_ E]. apply beqb_eq in E as <-. unfold nul_free. pose proof (cstr_nul_free (ifa_name i)) as Q. unfold nul_free in Q. rewrite <- (firstn_skipn 1025 (cstr (ifa_name i))), forallb_app in Q. apply andb_true_iff in Q as [Q _]. exact Q.
Qed.
Theorem C76_adapters m l : order_ok m -> hw_ifaddrs m = Some l ->
  (forall n, heard n l = []) /\ adapters_report m = [NoAdapters FUNC_RET_NOT_AVAIL] \/
  exists names, NoDup names /\ (forall n, In n names <-> heard n l <> []) /\ names <> [] /\
    exists is, Forall2 (of_interface l) names is /\ Permutation (adapters_report m) is.
Proof.
  intros HO HL. unfold adapters_report. rewrite HL. destruct (get_adapter_infos (hw_order m) (Some l)) as [r ads] eqn:E.
  destruct (C36_none (hw_order m) l) as [C N]. rewrite E in C, N. cbn [fst] in C, N. destruct C as [->| ->].
  - right. pose proof (collect_names l) as IN. exists (map fst (collect_adapters l)). split; [apply collect_spec|]. split; [exact IN|]. split.
    + intros X. rewrite X in IN. assert (Y : FUNC_RET_OK = FUNC_RET_NOT_AVAIL); [|discriminate]. apply N. intros n. destruct (heard n l) eqn:Q; [reflexivity|]. exfalso. apply (IN n). congruence.
    + exists (map (fun n => adapter_lines n (adapter_of l n)) (map fst (collect_adapters l))). split.
      * assert (G : forall n, In n (map fst (collect_adapters l)) -> nul_free n) by (intros n Q; apply (heard_nul n l), IN, Q). revert G.
        generalize (map fst (collect_adapters l)). clear. intros names. induction names as [|n names IH]; intros G; [constructor|]. cbn [map]. constructor; [|apply IH; intros x Q; apply G; right; exact Q].
        unfold of_interface, adapter_lines, adapter_of. cbn [ad_ip ad_mac]. destruct (iface_ip l n) as [a b c d], (iface_mac l n) as [p q r s u v]. exists a, b, c, d, p, q, r, s, u, v. split; [reflexivity|]. split; [reflexivity|].
        unfold fit. rewrite cstr_id by (apply G; left; reflexivity). reflexivity.
      * rewrite (Permutation_map _ (HO (collect_adapters l))). rewrite collect_map at 1. rewrite map_map. reflexivity.
  - left. split; [apply N; reflexivity|reflexivity].
Qed.
Print Assumptions C76_adapters.
(** the adapters reported are those of the machine at one instant *)
Theorem C76_adapters_shown w g buf args t items t' : length buf = 20 -> inspector_main w g buf args t = Ok (items, t') ->
  exists i before after, items = before ++ adapters_report (w_machine w i) ++ after.
Proof.
  intros L H. apply main_inv in H as [ids [info [t1 [env [dmi [rest [_ [_ [_ [_ ->]]]]]]]]]]. eexists t1, (ids ++ [env]), _. rewrite <- app_assoc. reflexivity.
Qed.
Print Assumptions C76_adapters_shown.
(** refuted: the address is shown in the usual order *)
Theorem C76_address_order_refuted : ~ (forall m l n, order_ok m -> hw_ifaddrs m = Some l -> heard n l <> [] ->
  exists a b c d mac, iface_ip l n = Ip a b c d /\ In (AdapterLines 0 n [code a; code b; code c; code d] mac) (adapters_report m)).
Proof.
  intros H. destruct (H (net_machine some_interfaces) some_interfaces (bs "eth0")) as [a [b [c [d [mac [E I]]]]]]; [exact some_order|reflexivity|vm_compute; discriminate|].
  vm_compute in E. injection E as <- <- <- <-. vm_compute in I. repeat (destruct I as [I|I]; [discriminate|]). destruct I.
Qed.
Print Assumptions C76_address_order_refuted.

(** ** The license files *)
(** the files looked at: the argument if it is the only one, then those of the variable *)
Definition looked_at (w : world) (args : list bytes) : list bytes :=
  match args with [f] => [f] | _ => [] end ++
  match w_getenv w (bs "LICENSE_LOCATION") with Some (c :: r) => if w_with_env w then pieces ";"%char (c :: r) else [] | _ => [] end.
(** what is printed about the variable aside *)
Definition about_file (i : item) : bool := match i with LicenseLines _ | FileNotFound _ => true | _ => false end.
Definition reported (w : world) (path : bytes) (i : item) : Prop :=
  exists t, (w_good w t (cstr path) = false /\ i = FileNotFound path) \/
    (w_good w t (cstr path) = true /\ exists leftover t1 code ls t2, inspect w leftover path t1 = Ok ((code, ls), t2) /\ i = LicenseLines ls).
Lemma file_report_spec w g p t i t' : file_report w g p t = Ok (i, t') -> reported w p i /\ about_file i = true.
Proof.
  unfold file_report. intros H. apply mbind_ok in H as [b [t1 [H1 H]]]. unfold m_good in H1. injection H1 as E <-. destruct b.
  - apply mbind_ok in H as [[c ls] [t2 [H1 H]]]. apply mret_ok in H as [-> ->]. split; [|reflexivity]. exists t. right. split; [exact E|]. exists g, (S t), c, ls, t2. auto.
  - apply mret_ok in H as [-> ->]. split; [|reflexivity]. exists t. left. auto.
Qed.
Lemma files_report_spec w g l : forall k t is t', files_report w g k l t = Ok (is, t') -> Forall2 (reported w) l is /\ forallb about_file is = true.
Proof.
  induction l as [|p l IH]; intros k t is t' H; cbn [files_report] in H.
  - apply mret_ok in H as [-> ->]. split; [constructor|reflexivity].
  - apply mbind_ok in H as [i [t1 [H1 H]]]. apply mbind_ok in H as [is' [t2 [H2 H]]]. apply mret_ok in H as [-> ->]. apply file_report_spec in H1 as [A B]. destruct (IH _ _ _ _ H2) as [C D].
    split; [constructor; assumption|]. cbn [forallb]. rewrite B, D. reflexivity.
Qed.
Lemma filter_all (l : list item) : forallb about_file l = true -> filter about_file l = l.
Proof. induction l as [|i l IH]; [reflexivity|]. cbn [forallb filter]. intros H. apply andb_true_iff in H as [A B]. rewrite A, IH by exact B. reflexivity. Qed.
Lemma filter_none (l : list item) : forallb (fun i => negb (about_file i)) l = true -> filter about_file l = [].
Proof. induction l as [|i l IH]; [reflexivity|]. cbn [forallb filter]. intros H. apply andb_true_iff in H as [A B]. apply negb_true_iff in A. rewrite A. apply IH, B. Qed.
Lemma ids_not_about w l : forall st buf size info t ls last t', id_lines w st buf size info l t = Ok ((ls, last), t') -> forallb (fun i => negb (about_file i)) ls = true.
Proof.
  induction l as [|[z n] l IH]; intros st buf size info t ls last t' H; cbn [id_lines] in H; [apply mret_ok in H as [E ->]; injection E as -> _; reflexivity|].
  apply mbind_ok in H as [m [t1 [_ H]]]. apply mbind_ok in H as [[[[[f b] s] i] e] [t2 [_ H]]]. apply mbind_ok in H as [[ls' last'] [t3 [H2 H]]]. apply mret_ok in H as [E ->]. injection E as -> _.
  cbn [forallb about_file negb andb]. eapply IH, H2.
Qed.

(** Every file is reported on, in order, and nothing else: "not found" exactly if it could not be opened. *)
Theorem C76_files w g buf args t items t' : inspector_main w g buf args t = Ok (items, t') ->
  Forall2 (reported w) (looked_at w args) (filter about_file items).
Proof.
  intros H. apply main_inv in H as [ids [info [t1 [env [dmi [rest [H1 [HE [HD [[a [b [t2 [HA [HB ->]]]]] ->]]]]]]]]]].
  assert (NE : about_file env = false) by (unfold env_lines in HE; destruct info as [x|]; [|discriminate]; destruct (virt_text (xi_virt x)); [|discriminate]; destruct (detail_text (xi_detail x)); [|discriminate]; destruct (cloud_text (xi_cloud x)); [|discriminate]; injection HE as <-; reflexivity).
  rewrite filter_app. rewrite (filter_none ids) by (eapply ids_not_about, H1). cbn [app filter]. rewrite NE. rewrite filter_app.
  rewrite (filter_none (adapters_report _)) by (unfold adapters_report; destruct (get_adapter_infos _ _) as [[] ads]; cbn; try reflexivity; destruct (hw_ifaddrs _); [|reflexivity]; generalize (hw_order (w_machine w t1) (collect_adapters l)); intros q; induction q as [|[n [[] []]] q IH]; [reflexivity|exact IH]).
  assert (ND : about_file dmi = false) by (unfold dmi_report in HD; apply rbind_ok in HD as [x [_ HD]]; injection HD as <-; reflexivity).
  cbn [app]. cbn [filter about_file cpu_report]. rewrite ND. rewrite filter_app. unfold looked_at. apply Forall2_app.
  - destruct args as [|f [|]]; [apply mret_ok in HA as [-> ->]; constructor| |apply mret_ok in HA as [-> ->]; constructor].
    apply mbind_ok in HA as [i [t3 [X Y]]]. apply mret_ok in Y as [-> ->]. apply file_report_spec in X as [X Y]. cbn [filter]. rewrite Y. constructor; [exact X|constructor].
  - unfold env_set in HB. change LICENSE_LOCATION_VAR with (bs "LICENSE_LOCATION") in HB. destruct (w_with_env w).
    + destruct (w_getenv w (bs "LICENSE_LOCATION")) as [[|c r]|]; [apply mret_ok in HB as [-> ->]; constructor| |apply mret_ok in HB as [-> ->]; constructor].
      apply mbind_ok in HB as [is [t3 [X Y]]]. apply mret_ok in Y as [-> ->]. apply files_report_spec in X as [X Y]. cbn [filter about_file]. rewrite (filter_all _ Y). rewrite pieces_eq. exact X.
    + apply mret_ok in HB as [-> ->]. destruct (w_getenv w _) as [[|]|]; constructor.
Qed.
Print Assumptions C76_files.

(** ** It runs to its end *)
Lemma buffer_any env m z a c : length a = 20 -> length c = 20 -> (exists r, identify_buffer env m z (Some a) 20 = Ok r) ->
  exists f c', identify_buffer env m z (Some c) 20 = Ok (f, Some c', 20) /\ length c' = 20.
Proof.
  intros L Lc [[[f b] s] H]. destruct (buffer_len _ _ _ _ _ _ _ L H) as [_ [a' [_ [_ K]]]]. destruct (K c Lc) as [c' [E _]]. exists f, c'. split; [exact E|].
  destruct (buffer_len _ _ _ _ _ _ _ Lc E) as [_ [x [[= <-] [X _]]]]. exact X.
Qed.
Lemma mbind_run {A C} (m : M A) (k : A -> M C) t a t1 : m t = Ok (a, t1) -> mbind m k t = k a t1.
Proof. intros H. unfold mbind. rewrite H. reflexivity. Qed.
Lemma id_lines_runs w m e l : (forall i, w_machine w i = m) -> make_exec_env (hw_exec m) = Ok e ->
  forall st buf info t, length buf = 20 -> (st = None \/ st = Some e) ->
  (forall z, In z (map fst l) -> exists a r, length a = 20 /\ identify_buffer (w_getenv w STRATEGY_VAR) m z (Some a) 20 = Ok r) ->
  exists ls last t', id_lines w st buf 20 info l t = Ok ((ls, last), t') /\ (l <> [] \/ info <> None -> last <> None).
Proof.
  intros HM HE. induction l as [|[z n] l IH]; intros st buf info t L HS HI; cbn [id_lines].
  - exists [], info, t. split; [reflexivity|]. intros [X|X]; [congruence|exact X].
  - destruct (HI z (or_introl eq_refl)) as [a [r [La Ha]]]. destruct (buffer_any _ _ _ _ buf La L (ex_intro _ r Ha)) as [f [c' [Hc Lc]]].
    rewrite (mbind_run _ _ _ m (S t)) by (unfold m_machine; rewrite HM; reflexivity).
    assert (X : match st with Some e0 => Ok e0 | None => make_exec_env (hw_exec m) end = Ok e) by (destruct HS as [->| ->]; [exact HE|reflexivity]).
    assert (Y : exists i, identify_call st (w_getenv w STRATEGY_VAR) m z (Some buf) 20 true = Ok (f, Some c', 20, Some i, e)) by (unfold identify_call; rewrite Hc; cbn [rbind]; rewrite X; cbn [rbind]; eexists; reflexivity).
    destruct Y as [i Y]. rewrite (mbind_run _ _ _ (f, Some c', 20, Some i, e) (S t)) by (unfold mlift; etransitivity; [exact (f_equal (fun r => rbind r (fun x => Ok (x, S t))) Y)|reflexivity]).
    match goal with |- context [id_lines w (Some e) c' 20 ?i l] => destruct (IH (Some e) c' i (S t) Lc (or_intror eq_refl) (fun z Hz => HI z (or_intror Hz))) as [ls [last [t' [H K]]]] end.
    rewrite (mbind_run _ _ _ _ _ H). eexists _, _, _. split; [reflexivity|]. intros _. apply K. right. discriminate.
Qed.
(** If identify_pc returns for the four strategies, so does the inspector when no file is to
    be looked at: every lookup of a description succeeds. *)
Theorem C76_runs w g buf args t m : (forall i, w_machine w i = m) -> length buf = 20 -> looked_at w args = [] ->
  (forall z, In z [-1; 0; 1; 2]%Z -> exists r, identify_pc (w_getenv w (bs "IDENTIFICATION_STRATEGY")) m z (Some buf) 20 true = Ok r) ->
  exists items t', inspector_main w g buf args t = Ok (items, t').
Proof.
  intros HM L HF HI.
  assert (HE : exists e, make_exec_env (hw_exec m) = Ok e).
  { destruct (HI 0%Z) as [r H]; [cbn; auto|]. rewrite identify_pc_eq in H. apply rbind_ok in H as [[[? ?] ?] [_ H]]. apply rbind_ok in H as [e [H _]]. exists e. exact H. }
  destruct HE as [e HE].
  destruct (id_lines_runs w m e id_strategies HM HE None buf None t L (or_introl eq_refl)) as [ls [last [t1 [H K]]]].
  { intros z Hz. destruct (HI z) as [r Hr]; [exact Hz|]. rewrite identify_pc_eq in Hr. apply rbind_ok in Hr as [x [Hr _]]. exists buf, x. auto. }
  destruct last as [x|]; [|exfalso; apply K; [left; discriminate|reflexivity]].
  assert (E : exists i, env_lines (Some x) = Ok i) by (destruct x as [[] [] []]; cbn; eexists; reflexivity). destruct E as [i E].
  unfold inspector_main. change (PC_IDENTIFIER_SIZE + 1) with 20. rewrite (mbind_run _ _ _ _ _ H). rewrite (mbind_run _ _ _ i t1) by (unfold mlift; rewrite E; reflexivity). rewrite (mbind_run _ _ _ m (S t1)) by (unfold m_machine; rewrite HM; reflexivity).
  rewrite (mbind_run _ _ _ m (S (S t1))) by (unfold m_machine; rewrite HM; reflexivity).
  assert (ED : exists d, dmi_report (hw_exec m) = Ok d) by (unfold make_exec_env in HE; apply rbind_ok in HE as [d [HE _]]; unfold dmi_report; rewrite HE; eexists; reflexivity). destruct ED as [dmi ED].
  rewrite (mbind_run _ _ _ dmi (S (S t1))) by (unfold mlift; rewrite ED; reflexivity).
  unfold looked_at in HF. apply app_eq_nil in HF as [H1 H2].
  assert (A : (match args with [fname] => i0 <~ file_report w (g 0) fname ;; mret [i0] | _ => mret [] end) (S (S t1)) = Ok ([], S (S t1))) by (destruct args as [|? [|]]; [reflexivity|discriminate|reflexivity]).
  rewrite (mbind_run _ _ _ _ _ A). unfold mbind at 1. unfold env_set. change LICENSE_LOCATION_VAR with (bs "LICENSE_LOCATION"). destruct (w_with_env w); [|eexists _, _; reflexivity].
  destruct (w_getenv w (bs "LICENSE_LOCATION")) as [[|c r]|]; [eexists _, _; reflexivity| |eexists _, _; reflexivity].
  rewrite pieces_eq in H2. rewrite H2. eexists _, _; reflexivity.
Qed.
Print Assumptions C76_runs.

(** The argument is a license that has run out; the license of the variable makes its report OK. *)
Example C76_case :
  match inspector_main (demo false true NOW files [("LICENSE_LOCATION"%string, bs "/a;/zz")]) (fun _ => fresh 7) (repeat "x"%char 20) [bs "/b"] 0 with
  | Ok (items, _) => items =
      let no := Problem (bs "license signature didn't match with current license ") in
      [IdLine (bs "DEFAULT") None; IdLine (bs "MAC") (Some (bs "AABh-YmNk-ZWY=")); IdLine (bs "IP") (Some (bs "ACAK-AAEB-Kio=")); IdLine (bs "Disk") None;
       EnvLines (bs "No virtualization") (bs "No virtualization") (bs "Provider unknown");
       AdapterLines 0 (bs "wlan0") [1; 1; 0; 10]%N [0; 0; 0; 0; 0; 0]%N; AdapterLines 0 (bs "eth0") [2; 1; 0; 32]%N [97; 98; 99; 100; 101; 102]%N;
       CpuLines (bs "GenuineIntel") (bs "NA") false 149225; DmiLines [] [] [] [] 0; Separator;
       LicenseLines [(None, no); (Some (bs "DEMO"), Fine)]; VarValue (bs "/a;/zz"); LicenseLines [(None, no); (Some (bs "demo"), Fine)]; FileNotFound (bs "/zz")]
  | _ => False end.
Proof. vm_compute. reflexivity. Qed.
