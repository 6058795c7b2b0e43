(** The diagnostic log (C55). *)
From Verif Require Import Base StringUtils P_Base P_Strings P_Ext Logger.
From Coq Require Import Lia.

(** the folder used *)
Definition log_folder (tmpdir : option bytes) : bytes := match tmpdir with None => bs "/tmp" | Some f => cstr f end.

Lemma strlen_nul s n : nul_free s -> strlen (s ++ NUL :: n) = Ok (length s).
Proof.
  intros H. unfold strlen. rewrite existsb_app. cbn [existsb]. rewrite Ascii.eqb_refl, orb_true_r. rewrite cstr_app_nul by exact H. reflexivity.
Qed.
Lemma strlen_full s : nul_free s -> strlen s = Undef UbRead.
Proof.
  intros H. unfold strlen. destruct (existsb (Ascii.eqb NUL) s) eqn:E; [|reflexivity]. apply existsb_exists in E as [c [Hc E]]. apply Ascii.eqb_eq in E. subst c.
  unfold nul_free in H. rewrite forallb_forall in H. specialize (H NUL Hc). discriminate.
Qed.
Lemma nul_free_firstn n s : nul_free s -> nul_free (firstn n s).
Proof. unfold nul_free. rewrite !forallb_forall. intros H c Hc. apply H. rewrite <- (firstn_skipn n s). apply in_or_app. left. exact Hc. Qed.
Lemma repeat_pos n : 0 < n -> repeat NUL n = NUL :: repeat NUL (n - 1).
Proof. destruct n; [lia|]. cbn. rewrite Nat.sub_0_r. reflexivity. Qed.
Lemma strlen_pad d k : nul_free d -> 0 < k -> strlen (d ++ repeat NUL k) = Ok (length d).
Proof. intros H K. rewrite repeat_pos by exact K. apply strlen_nul, H. Qed.
Lemma strncat_ok d src n k : nul_free d -> length (firstn n (cstr src)) + 1 <= k ->
  exists rest, strncat (d ++ repeat NUL k) src n = Ok (d ++ firstn n (cstr src) ++ NUL :: rest) /\ length (d ++ firstn n (cstr src) ++ NUL :: rest) = length d + k.
Proof.
  intros Hd Hk. unfold strncat. rewrite (repeat_pos k) by lia. rewrite strlen_nul by exact Hd. cbn [rbind]. rewrite app_length. cbn [length]. rewrite repeat_length.
  destruct (Nat.ltb_spec (length d + S (k - 1)) (length d + length (firstn n (cstr src)) + 1)) as [X|X]; [lia|]. rewrite cstr_app_nul by exact Hd.
  eexists. split; [reflexivity|]. rewrite !app_length. cbn [length]. rewrite skipn_length, app_length. cbn [length]. rewrite repeat_length. lia.
Qed.
Lemma strncat_over d src n k : nul_free d -> 0 < k -> k < length (firstn n (cstr src)) + 1 -> strncat (d ++ repeat NUL k) src n = Undef UbWrite.
Proof.
  intros Hd H0 Hk. unfold strncat. rewrite (repeat_pos k) by lia. rewrite strlen_nul by exact Hd. cbn [rbind]. rewrite app_length. cbn [length]. rewrite repeat_length.
  destruct (Nat.ltb_spec (length d + S (k - 1)) (length d + length (firstn n (cstr src)) + 1)) as [X|X]; [reflexivity|lia].
Qed.
Lemma folder_nul_free t : nul_free (log_folder t).
Proof. destruct t; [apply cstr_nul_free|reflexivity]. Qed.
Lemma fname_start t : get_log_fname t = 
  (let d := firstn LOG_MAX_PATH (log_folder t) in
   l <-- strlen (d ++ repeat NUL (LOG_MAX_PATH - length d)) ;; strncat (d ++ repeat NUL (LOG_MAX_PATH - length d)) (bs "/open-license.log") (LOG_MAX_PATH - l)).
Proof.
  unfold get_log_fname, strncpy. rewrite Nat.ltb_irrefl. cbn [rbind]. rewrite Nat.sub_diag. cbn [repeat]. rewrite app_nil_r. destruct t; reflexivity.
Qed.
(** A short folder: the path is the folder and the file name, in the buffer and
    terminated. *)
Theorem C55_log_path_safe tmpdir : length (log_folder tmpdir) <= 237 ->
  exists rest, get_log_fname tmpdir = Ok ((log_folder tmpdir ++ bs "/open-license.log") ++ NUL :: rest) /\
    length ((log_folder tmpdir ++ bs "/open-license.log") ++ NUL :: rest) = 255.
Proof.
  intros H. rewrite fname_start. cbv zeta. rewrite firstn_all2 by (unfold LOG_MAX_PATH; lia). pose proof (folder_nul_free tmpdir) as HN. set (d := log_folder tmpdir) in *.
  rewrite strlen_pad by (exact HN || (unfold LOG_MAX_PATH; lia)). cbn [rbind].
  assert (E : firstn (LOG_MAX_PATH - length d) (cstr (bs "/open-license.log")) = bs "/open-license.log").
  { change (cstr (bs "/open-license.log")) with (bs "/open-license.log"). apply firstn_all2. change (length (bs "/open-license.log")) with 17. unfold LOG_MAX_PATH. lia. }
  destruct (strncat_ok d (bs "/open-license.log") (LOG_MAX_PATH - length d) (LOG_MAX_PATH - length d) HN) as [rest [A B]].
  - rewrite E. change (length (bs "/open-license.log")) with 17. unfold LOG_MAX_PATH. lia.
  - rewrite E in A, B. exists rest. rewrite <- app_assoc. split; [exact A|]. rewrite B. unfold LOG_MAX_PATH. lia.
Qed.
Print Assumptions C55_log_path_safe.
(** Any longer folder: the buffer is overrun. *)
Theorem C55_log_path_unsafe tmpdir : 238 <= length (log_folder tmpdir) ->
  get_log_fname tmpdir = Undef UbWrite \/ get_log_fname tmpdir = Undef UbRead.
Proof.
  intros H. rewrite fname_start. cbv zeta. pose proof (folder_nul_free tmpdir) as HN. destruct (Nat.le_gt_cases 255 (length (log_folder tmpdir))) as [L|L].
  - right. assert (E : length (firstn LOG_MAX_PATH (log_folder tmpdir)) = LOG_MAX_PATH) by (rewrite firstn_length; unfold LOG_MAX_PATH; lia). rewrite E, Nat.sub_diag. cbn [repeat]. rewrite app_nil_r.
    rewrite strlen_full by (apply nul_free_firstn, HN). reflexivity.
  - left. rewrite firstn_all2 by (unfold LOG_MAX_PATH; lia). set (d := log_folder tmpdir) in *.
    rewrite strlen_pad by (exact HN || (unfold LOG_MAX_PATH; lia)). cbn [rbind].
    apply strncat_over; [exact HN|unfold LOG_MAX_PATH; lia|]. change (cstr (bs "/open-license.log")) with (bs "/open-license.log"). rewrite firstn_length. change (length (bs "/open-license.log")) with 17. unfold LOG_MAX_PATH. lia.
Qed.
Print Assumptions C55_log_path_unsafe.
Theorem C55_log_path_refuted : ~ (forall tmpdir, exists path, get_log_fname tmpdir = Ok path).
Proof.
  intros H. destruct (H (Some (repeat "x"%char 238))) as [p E]. destruct (C55_log_path_unsafe (Some (repeat "x"%char 238))) as [X|X]; [|congruence..].
  unfold log_folder. rewrite cstr_id by reflexivity. rewrite repeat_length. lia.
Qed.
Print Assumptions C55_log_path_refuted.

(** All histories: with short folders, and times that fit (at most 63 characters),
    logging never fails; every line goes to the log file in the folder that was current
    when the file was opened, and is the time followed by the message. *)
Definition calm_log (op : log_op) : Prop :=
  match op with
  | LogMessage tmpdir _ now _ => length (log_folder tmpdir) <= 237 /\ exists s : bytes, now = Some s /\ length s <= 63 /\ ~ In NUL s
  | LogShutdown => True
  end.
Definition log_line (ops : list log_op) (l : bytes * bytes) : Prop :=
  (exists tmpdir opens now format, In (LogMessage tmpdir opens now format) ops /\ fst l = log_folder tmpdir ++ bs "/open-license.log") /\
  (exists tmpdir opens s format, In (LogMessage tmpdir opens (Some s) format) ops /\ snd l = s ++ cstr format).
Lemma message_ok tmpdir opens (s : bytes) format file : length (log_folder tmpdir) <= 237 -> length s <= 63 -> ~ In NUL s ->
  exists file' line, log_message tmpdir opens (Some s) format file = Ok (file', line) /\
    (forall p, file' = Some p -> file = Some p \/ p = log_folder tmpdir ++ bs "/open-license.log") /\
    (forall p x, line = Some (p, x) -> file' = Some p /\ x = s ++ cstr format).
Proof.
  intros HT HS HN. apply P_Acquire2.nul_free_in in HN.
  assert (HB : forall p : bytes, (buffer <-- timenow (length (cstr format) + 64) (Some s) ;; buffer <-- strcat buffer format ;; l <-- strlen buffer ;; Ok (Some p, Some (p, cstr buffer))) = Ok (Some p, Some (p, s ++ cstr format))).
  { intros p. unfold timenow. destruct (Nat.ltb_spec (length (cstr format) + 64) 64) as [X|_]; [lia|]. destruct (Nat.ltb_spec 63 (length s)) as [X|_]; [lia|]. cbn [orb rbind].
    unfold strcat. destruct (strncat_ok s format (length (cstr format)) (length (cstr format) + 64 - length s) HN) as [rest [A _]]; [rewrite firstn_all; lia|]. rewrite A. cbn [rbind]. rewrite firstn_all.
    assert (N2 : nul_free (s ++ cstr format)) by (unfold nul_free in *; rewrite forallb_app, HN; apply cstr_nul_free).
    rewrite app_assoc. rewrite strlen_nul by exact N2. cbn [rbind]. rewrite cstr_app_nul by exact N2. reflexivity. }
  unfold log_message. destruct file as [p|].
  - cbn [rbind]. rewrite HB. eexists _, _. split; [reflexivity|]. split; [intros q [= <-]; auto|intros q x [= <- <-]; auto].
  - destruct (C55_log_path_safe tmpdir HT) as [rest [A _]]. rewrite A. cbn [rbind].
    assert (NF : nul_free (log_folder tmpdir ++ bs "/open-license.log")) by (unfold nul_free; rewrite forallb_app; pose proof (folder_nul_free tmpdir) as X; unfold nul_free in X; rewrite X; reflexivity).
    rewrite strlen_nul by exact NF. cbn [rbind]. rewrite cstr_app_nul by exact NF. destruct (opens (log_folder tmpdir ++ bs "/open-license.log")).
    + rewrite HB. eexists _, _. split; [reflexivity|]. split; [intros q [= <-]; auto|intros q x [= <- <-]; auto].
    + eexists _, _. split; [reflexivity|]. split; [discriminate|discriminate].
Qed.
Theorem C55_log_histories ops : Forall calm_log ops -> exists lines, log_run ops None = Ok lines /\ Forall (log_line ops) lines.
Proof.
  assert (G : forall r pre file, Forall calm_log r -> (forall p, file = Some p -> exists tmpdir opens now format, In (LogMessage tmpdir opens now format) (pre ++ r) /\ p = log_folder tmpdir ++ bs "/open-license.log") ->
    exists lines, log_run r file = Ok lines /\ Forall (log_line (pre ++ r)) lines).
  { induction r as [|op r IH]; intros pre file H HF; [exists []; split; [reflexivity|constructor]|]. inversion H as [|? ? H1 H2]; subst.
    assert (EA : (pre ++ [op]) ++ r = pre ++ op :: r) by (rewrite <- app_assoc; reflexivity).
    destruct op as [tmpdir opens now format|].
    - destruct H1 as [HT [s [-> [HS HN]]]]. cbn [log_run]. destruct (message_ok tmpdir opens s format file HT HS HN) as [file' [line [E [P1 P2]]]]. rewrite E. cbn [rbind].
      assert (HF' : forall p, file' = Some p -> exists t o n f, In (LogMessage t o n f) (pre ++ LogMessage tmpdir opens (Some s) format :: r) /\ p = log_folder t ++ bs "/open-license.log").
      { intros p Hp. destruct (P1 p Hp) as [X| ->]; [apply HF, X|]. exists tmpdir, opens, (Some s), format. split; [apply in_or_app; right; left; reflexivity|reflexivity]. }
      destruct (IH (pre ++ [LogMessage tmpdir opens (Some s) format]) file' H2) as [lines [EL FL]]; [rewrite EA; exact HF'|]. rewrite EL. cbn [rbind]. rewrite EA in FL.
      eexists. split; [reflexivity|]. destruct line as [[p x]|]; [|exact FL]. constructor; [|exact FL]. destruct (P2 p x eq_refl) as [X ->]. split; [apply (HF' p X)|].
      exists tmpdir, opens, s, format. split; [apply in_or_app; right; left; reflexivity|reflexivity].
    - cbn [log_run]. unfold shutdown_log. destruct (IH (pre ++ [LogShutdown]) None H2) as [lines [EL FL]]; [discriminate|]. rewrite EA in FL. exists lines. split; [exact EL|exact FL]. }
  intros H. apply (G ops [] None H). discriminate.
Qed.
Print Assumptions C55_log_histories.
Example C55_case : log_run [LogMessage None (fun _ => false) (Some (bs "T")) (bs "a"); LogMessage (Some (bs "/x")) (fun _ => true) (Some (bs "T ")) (bs "b"); LogMessage None (fun _ => true) (Some (bs "U ")) (bs "c"); LogShutdown; LogMessage None (fun _ => true) (Some (bs "V ")) (bs "d")] None =
  Ok [(bs "/x/open-license.log", bs "T b"); (bs "/x/open-license.log", bs "U c"); (bs "/tmp/open-license.log", bs "V d")].
Proof. vm_compute. reflexivity. Qed.
