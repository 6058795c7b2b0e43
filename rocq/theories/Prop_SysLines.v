(** C96: the lines the examination of the machine reads from /proc/self/cgroup (getline(3): with
    their line feeds) and /var/run/systemd/container (std::getline: without), exactly. *)
From Verif Require Import Base CTypes StringUtils HwId Registry Network Disks CpuInfo ExecEnv Strategies SysFiles.

Definition unbroken (l : bytes) : Prop := ~ In LF l.
(** a text: whole lines, and what follows the last line feed *)
Definition text_of (ls : list bytes) (rest : bytes) : bytes := concat (map (fun l => l ++ [LF]) ls) ++ rest.
Definition last_line (rest : bytes) : list bytes := match rest with [] => [] | _ => [rest] end.

Lemma loop_rest keep l : unbroken l -> forall cur, lines_loop keep cur l = last_line (rev cur ++ l).
Proof.
  induction l as [|c l IH]; intros U cur; cbn [lines_loop].
  - destruct cur as [|a cur]; [reflexivity|]. rewrite app_nil_r. unfold last_line. destruct (rev (a :: cur)) eqn:E; [|reflexivity].
    apply (f_equal (@rev ascii)) in E. rewrite rev_involutive in E. discriminate E.
  - destruct (Ascii.eqb_spec c LF) as [->|N]; [destruct U; left; reflexivity|]. rewrite IH by (intros I; apply U; right; exact I).
    cbn [rev]. rewrite <- app_assoc. reflexivity.
Qed.
Lemma loop_line keep l r : unbroken l -> forall cur, lines_loop keep cur (l ++ LF :: r) = ((rev cur ++ l) ++ (if keep then [LF] else [])) :: lines_loop keep [] r.
Proof.
  induction l as [|c l IH]; intros U cur; cbn [app lines_loop].
  - rewrite Ascii.eqb_refl, app_nil_r. destruct keep; [reflexivity|]. rewrite app_nil_r. reflexivity.
  - destruct (Ascii.eqb_spec c LF) as [->|N]; [destruct U; left; reflexivity|]. rewrite IH by (intros I; apply U; right; exact I).
    cbn [rev]. rewrite <- (app_assoc (rev cur)). reflexivity.
Qed.
Lemma lines_of keep ls rest : Forall unbroken ls -> unbroken rest ->
  text_lines keep (text_of ls rest) = map (fun l => l ++ (if keep then [LF] else [])) ls ++ last_line rest.
Proof.
  intros F R. unfold text_lines, text_of. induction F as [|l ls U F IH]; cbn [map concat app]; [apply (loop_rest keep rest R [])|].
  rewrite <- !app_assoc. cbn [app]. rewrite (loop_line keep l _ U []), IH. reflexivity.
Qed.

(** every text is of this form, in one way *)
Theorem C96_text_has_lines : forall t : bytes, exists ls rest, t = text_of ls rest /\ Forall unbroken ls /\ unbroken rest.
Proof.
  induction t as [|c t (ls & rest & -> & F & U)]; [exists [], []; refine (conj eq_refl (conj (Forall_nil _) _)); intros []|].
  destruct (Ascii.eqb_spec c LF) as [->|N]; [exists ([] :: ls), rest; refine (conj eq_refl (conj _ U)); constructor; [intros []|exact F]|].
  destruct F as [|l ls UL F].
  - exists [], (c :: rest). refine (conj eq_refl (conj (Forall_nil _) _)). intros [E|I]; [exact (N E)|exact (U I)].
  - exists ((c :: l) :: ls), rest. refine (conj eq_refl (conj _ U)). constructor; [|exact F]. intros [E|I]; [exact (N E)|exact (UL I)].
Qed.
Print Assumptions C96_text_has_lines.
Theorem C96_cgroup_lines : forall (s : system) (f : file) (ls : list bytes) (rest : bytes), Forall unbroken ls -> unbroken rest ->
  sy_file s (bs "/proc/self/cgroup") = Some f -> f_data f = text_of ls rest ->
  xf_cgroup (exec_at s) = Some (map (fun l => l ++ [LF]) ls ++ last_line rest).
Proof. intros s f ls rest F R E D. cbn [exec_at xf_cgroup]. rewrite E. cbn [option_map]. unfold content. rewrite D, lines_of by assumption. reflexivity. Qed.
Print Assumptions C96_cgroup_lines.
Theorem C96_systemd_lines : forall (s : system) (f : file) (ls : list bytes) (rest : bytes), Forall unbroken ls -> unbroken rest ->
  sy_file s (bs "/var/run/systemd/container") = Some f -> f_data f = text_of ls rest ->
  xf_systemd (exec_at s) = Some (ls ++ last_line rest).
Proof.
  intros s f ls rest F R E D. cbn [exec_at xf_systemd]. rewrite E. cbn [option_map]. unfold content. rewrite D, lines_of by assumption.
  rewrite (map_ext _ (fun l => l)) by (intros l; apply app_nil_r). rewrite map_id. reflexivity.
Qed.
Print Assumptions C96_systemd_lines.
(** the hypotheses hold of a file with an empty line and a last line without its end *)
Example C96_lines_case : let t := text_of [bs "1:cpu:/"; []; bs "lxc"] (bs "end") in
  text_lines true t = [bs "1:cpu:/" ++ [LF]; [LF]; bs "lxc" ++ [LF]; bs "end"] /\ text_lines false t = [bs "1:cpu:/"; []; bs "lxc"; bs "end"].
Proof. vm_compute. refine (conj eq_refl eq_refl). Qed.
