(** Property C62: the environment variable IDENTIFICATION_STRATEGY. *)
From Verif Require Import Base CTypes StringUtils HwId Registry Network Disks CpuInfo ExecEnv Strategies Licensecc.
From Verif Require Import P_Base Spec_Strings Spec_Base64 Spec_HwId P_HwId P_HwText Spec_Hw P_Hw P_Hw2 Spec_Dates Spec_Choice P_Choice P_Faults Prop_Hw Prop_Exec.
Local Open Scope Z_scope.

(** Only the default method looks at it, and only if it is not empty. *)
Theorem C62_other_methods : forall (env env' : option bytes) (m : machine) (z : Z), z <> STRATEGY_DEFAULT ->
  generate_user_pc_signature env m z = generate_user_pc_signature env' m z.
Proof. intros env env' m z H. rewrite !generate_chosen, !chosen_other by exact H. reflexivity. Qed.
Print Assumptions C62_other_methods.
Theorem C62_empty : forall (m : machine) (z : Z), generate_user_pc_signature (Some []) m z = generate_user_pc_signature None m z.
Proof. intros m z. rewrite !generate_chosen. unfold chosen. destruct (Z.eqb z STRATEGY_DEFAULT); reflexivity. Qed.
Print Assumptions C62_empty.

(** Every text stands for exactly one number. Numbers outside 0..3 are ignored. *)
Theorem C62_one_number : forall t : bytes, exists! v, stands_for t v.
Proof. intros t. exists (atoi t). split; [apply atoi_spec; reflexivity|]. intros v H. apply atoi_spec, H. Qed.
Print Assumptions C62_one_number.
Theorem C62_ignored : forall (t : bytes) (v : Z) (m : machine) (z : Z), stands_for t v -> v < 0 \/ 3 < v ->
  generate_user_pc_signature (Some t) m z = generate_user_pc_signature None m z.
Proof.
  intros t v m z S H. destruct (list_eq_dec Ascii.ascii_dec t []) as [->|Ht]; [apply C62_empty|].
  destruct (Z.eq_dec z STRATEGY_DEFAULT) as [->|Hz]; [|apply C62_other_methods, Hz].
  rewrite !generate_chosen, (chosen_text t v Ht S). destruct (Z.ltb_spec v 0), (Z.ltb_spec 3 v); cbn [orb]; try lia; reflexivity.
Qed.
Print Assumptions C62_ignored.
(** 3 is accepted as a number but is no strategy. *)
Theorem C62_three_fails : forall (t : bytes) (m : machine), t <> [] -> stands_for t 3 -> generate_user_pc_signature (Some t) m STRATEGY_DEFAULT = Throw ExLogic.
Proof. intros t m Ht S. rewrite generate_chosen, (chosen_text t 3 Ht S). reflexivity. Qed.
Print Assumptions C62_three_fails.

(** 0, 1 and 2 choose the strategy: the result is as if the caller had asked for it
    (whatever the surroundings are), except that the identifier is marked. *)
Definition marked (h : hwid) : bool := N.testbit (N_of_ascii (byte0 h)) 6.
Theorem C62_choice : forall (t : bytes) (v : Z) (m : machine), t <> [] -> stands_for t v -> 0 <= v <= 2 ->
  match generate_user_pc_signature None m v with
  | Ok plain => exists text h h', generate_user_pc_signature (Some t) m STRATEGY_DEFAULT = Ok text /\ denotes plain h /\ denotes text h' /\
                  marked h = false /\ marked h' = true /\ strategy_bits h' = strategy_bits h /\ data53 h' = data53 h
  | Throw e => generate_user_pc_signature (Some t) m STRATEGY_DEFAULT = Throw e
  | Undef u => generate_user_pc_signature (Some t) m STRATEGY_DEFAULT = Undef u
  | OutOfFuel => False
  end.
Proof.
  intros t v m Ht S Hv. rewrite !generate_chosen, (chosen_text t v Ht S), chosen_other by (unfold STRATEGY_DEFAULT; lia).
  destruct (Z.ltb_spec v 0), (Z.ltb_spec 3 v); cbn [orb]; try lia. cbn [fst snd].
  assert (G : exists st, get_strategy v = Ok st) by (assert (v = 0 \/ v = 1 \/ v = 2) as [-> | [-> | ->]] by lia; eexists; reflexivity). destruct G as [st G]. rewrite G. cbn [rbind].
  destruct (generate_pc_id st m) as [[h|]| | |] eqn:E; cbn [rbind]; try reflexivity.
  - destruct (hw_round_trip (set_use_environment_var false h)) as [p [P _]]. destruct (hw_round_trip (set_use_environment_var true h)) as [q [Q _]]. rewrite P, Q.
    exists q, (set_use_environment_var false h), (set_use_environment_var true h). split; [reflexivity|]. split; [apply print_denotes, P|]. split; [apply print_denotes, Q|].
    split; [apply set_env_bit|]. split; [apply set_env_bit|]. destruct (set_env_fields true h) as [-> ->]. destruct (set_env_fields false h) as [-> ->]. auto.
  - assert (C : generate_pc_id st m = generate_concrete st m) by (assert (v = 0 \/ v = 1 \/ v = 2) as [-> | [-> | ->]] by lia; injection G as <-; reflexivity).
    rewrite C in E. unfold generate_concrete in E. destruct (alternative_fed st m) as [F _]. destruct (alternative_ids st m); cbn [rbind] in E; congruence.
Qed.
Print Assumptions C62_choice.

(** A text that is no number counts as 0. *)
Theorem C62_garbage : forall (t : bytes) (m : machine), t <> [] -> (forall n, ~ begins_with_number t n) ->
  generate_user_pc_signature (Some t) m STRATEGY_DEFAULT = generate_user_pc_signature (Some (bs "0")) m STRATEGY_DEFAULT.
Proof.
  intros t m Ht H. assert (S : stands_for t 0) by (right; auto). rewrite !generate_chosen, (chosen_text t 0 Ht S). reflexivity.
Qed.
Print Assumptions C62_garbage.
Theorem C62_unrecognised_ignored_refuted : ~ (forall (t : bytes) (m : machine), (forall v, 0 <= v <= 3 -> ~ begins_with_number t v) ->
  generate_user_pc_signature (Some t) m STRATEGY_DEFAULT = generate_user_pc_signature None m STRATEGY_DEFAULT).
Proof.
  intros H. specialize (H (bs "disk") (exec_machine no_files)).
  assert (N : forall v, ~ begins_with_number (bs "disk") v).
  { intros v Hv. assert (S : stands_for (bs "disk") (atoi (bs "disk"))) by (apply atoi_spec; reflexivity).
    destruct Hv as [ws [sg [f [ds [rest [I [E [B [D [Hn [_ _]]]]]]]]]]]. destruct ds as [|c ds]; [congruence|]. apply Forall_inv in D. cbv beta in D.
    destruct B as [|w ws Hw _].
    - destruct I as [[= <- <-]|[[= <- <-]|[[= <- <-]|[]]]]; cbn in E; injection E as E; try discriminate. subst c. cbn in D. lia.
    - cbn in E. injection E as E. subst w. cbv in Hw. repeat (destruct Hw as [Hw|Hw]; [discriminate|]). destruct Hw || discriminate. }
  assert (P : forall v, 0 <= v <= 3 -> ~ begins_with_number (bs "disk") v) by (intros v _; apply N). specialize (H P). vm_compute in H. discriminate.
Qed.
Print Assumptions C62_unrecognised_ignored_refuted.
Example C62_case : generate_user_pc_signature (Some (bs " +0x")) (exec_machine no_files) STRATEGY_DEFAULT = Ok (bs "QABh-YmNk-ZWY=") /\
  generate_user_pc_signature None (exec_machine no_files) STRATEGY_ETHERNET = Ok (bs "AABh-YmNk-ZWY=") /\
  stands_for (bs " 4294967297") 1 /\ stands_for (bs "-99999999999999999999") 0.
Proof. split; [vm_compute; reflexivity|]. split; [vm_compute; reflexivity|]. split; apply atoi_spec; vm_compute; reflexivity. Qed.
