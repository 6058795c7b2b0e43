(** C118: the lines of the log, their format strings included. *)
From Coq Require Import Lia.
From Verif Require Import Base P_Base P_Strings P_Ext CTypes StringUtils InspectorOut Spec_Report Prop_Report Logger Prop_Logger LogText Spec_LogText P_LogText.

(** ** vfprintf prints what the format stands for, and prints nothing but that *)
Theorem C118_vfprintf format args o : vfprintf format args = Ok o <-> prints (cstr format) args o.
Proof. apply vfprintf_is. Qed.
Print Assumptions C118_vfprintf.
Theorem C118_one_text f args o o' : prints f args o -> prints f args o' -> o = o'.
Proof. intros A B. pose proof (prints_format _ _ _ A _ (Nat.lt_succ_diag_r _)). pose proof (prints_format _ _ _ B _ (Nat.lt_succ_diag_r _)). congruence. Qed.
Print Assumptions C118_one_text.

(** the outcome depends on the kinds of the arguments only *)
Lemma convert_kinds minus zero w c a b : map kind_of a = map kind_of b ->
  match convert minus zero w c a with
  | Ok (_, ra) => exists t rb, convert minus zero w c b = Ok (t, rb) /\ map kind_of ra = map kind_of rb
  | Undef u => convert minus zero w c b = Undef u
  | _ => False
  end.
Proof.
  intros H. unfold convert. destruct (Ascii.eqb c "%").
  { destruct (minus || zero || negb (Nat.eqb w 0)); [reflexivity|]. eauto. }
  destruct (Ascii.eqb c "s").
  { destruct zero; [reflexivity|]. destruct a as [|[n|n|s] a], b as [|[m|m|u] b]; try discriminate H; try reflexivity. injection H as H. eauto. }
  destruct (Ascii.eqb c "d").
  { destruct a as [|[n|n|s] a], b as [|[m|m|u] b]; try discriminate H; try reflexivity. injection H as H. eauto. }
  destruct (Ascii.eqb c "x"); [|reflexivity].
  destruct a as [|[n|n|s] a], b as [|[m|m|u] b]; try discriminate H; try reflexivity. injection H as H. eauto.
Qed.
Lemma format_kinds fuel : forall f a b, map kind_of a = map kind_of b ->
  match print_format fuel f a with
  | Ok _ => exists o, print_format fuel f b = Ok o
  | Undef u => print_format fuel f b = Undef u
  | Throw _ => False
  | OutOfFuel => print_format fuel f b = OutOfFuel
  end.
Proof.
  induction fuel as [|fuel IH]; intros f a b H; [reflexivity|]. destruct f as [|c r]; [cbn; eauto|].
  assert (E : c <> "%"%char -> forall args, print_format (S fuel) (c :: r) args = (o <-- print_format fuel r args ;; Ok (c :: o))).
  { intros NP args. destruct c as [[] [] [] [] [] [] [] []]; try reflexivity. congruence. }
  destruct (Ascii.eqb_spec c "%") as [->|NP].
  - cbn [print_format]. destruct (read_flags r false false) as [[minus zero] r1]. destruct (read_width r1 0) as [w [|c r2]]; [reflexivity|].
    pose proof (convert_kinds minus zero w c a b H) as K. destruct (convert minus zero w c a) as [[t ra]| | |]; [|contradiction|rewrite K; reflexivity|contradiction].
    destruct K as (t' & rb & -> & K). cbn [rbind]. pose proof (IH r2 ra rb K) as I. destruct (print_format fuel r2 ra); cbn [rbind].
    + destruct I as [o ->]. cbn. eauto.
    + contradiction.
    + rewrite I. reflexivity.
    + rewrite I. reflexivity.
  - rewrite !(E NP). pose proof (IH r a b H) as I. destruct (print_format fuel r a); cbn [rbind].
    + destruct I as [o ->]. cbn. eauto.
    + contradiction.
    + rewrite I. reflexivity.
    + rewrite I. reflexivity.
Qed.
(** one argument of each kind *)
Definition some_arg (k : kind) : arg := match k with KInt => AInt 0 | KLong => ALong 0 | KStr => AStr [] end.
Lemma some_kinds k : map kind_of (map some_arg k) = k.
Proof. induction k as [|[] k IH]; cbn; [reflexivity|..]; rewrite IH; reflexivity. Qed.

(** ** putting a line together *)
Lemma prints_text x f args o : ~ In "%"%char x -> prints f args o -> prints (x ++ f) args (x ++ o).
Proof. intros N H. induction x as [|c x IH]; [exact H|]. cbn [app]. constructor; [intros ->; apply N; left; reflexivity|]. apply IH. intros I. apply N. right. exact I. Qed.
Lemma prints_string s f args o : prints f args o -> prints (bs "%s" ++ f) (AStr s :: args) (cstr s ++ o).
Proof.
  intros H. apply (pr_argument [] [] "s"%char f (AStr s) args (cstr s) o); try reflexivity; try discriminate; try exact H.
  cbn [existsb]. constructor; [reflexivity|]. exists 0. split; [reflexivity|]. reflexivity.
Qed.
Lemma prints_decimal n ds f args o : (0 <= n)%Z -> numeral 10 (Z.to_N n) ds -> prints f args o -> prints (bs "%d" ++ f) (AInt n :: args) (ds ++ o).
Proof.
  intros P N H. apply (pr_argument [] [] "d"%char f (AInt n) args ds o); try reflexivity; try discriminate; try exact H.
  cbn [existsb]. apply sh_decimal with ds; [replace (Z.abs_N n) with (Z.to_N n) by lia; exact N|]. destruct (Z.ltb_spec n 0); [lia|]. exists 0. split; reflexivity.
Qed.
Lemma prints_end f args o x : ~ In "%"%char x -> prints f args o -> prints (f ++ x) args (o ++ x).
Proof.
  intros N H. induction H as [args|c f args o NP H IH|f args o H IH|flags width c f a args t o F1 F2 F3 F4 F5 SH H IH].
  - cbn. rewrite <- (app_nil_r x). apply prints_text; [exact N|constructor].
  - cbn [app]. constructor; assumption.
  - cbn [app]. now constructor.
  - cbn [app]. rewrite <- !app_assoc. cbn [app]. now apply pr_argument.
Qed.

(** ** Every place but four *)
Definition faulty (s : site) : Prop :=
  In (st_file s, st_line s) [ (bs "os/linux/os_linux.cpp", 175%Z); (bs "os/linux/os_linux.cpp", 234%Z);
                              (bs "os/windows/signature_verifier.cpp", 36%Z); (bs "os/windows/os_win.cpp", 68%Z) ].
Definition is_faulty (s : site) : bool :=
  existsb (fun p => beqb (st_file s) (fst p) && Z.eqb (st_line s) (snd p))
    [ (bs "os/linux/os_linux.cpp", 175%Z); (bs "os/linux/os_linux.cpp", 234%Z); (bs "os/windows/signature_verifier.cpp", 36%Z); (bs "os/windows/os_win.cpp", 68%Z) ].
Lemma is_faulty_true s : is_faulty s = true -> faulty s.
Proof.
  unfold is_faulty, faulty. intros H. apply existsb_exists in H as [[f n] [I H]]. cbn [fst snd] in H. apply andb_prop in H as [A B]. apply beqb_eq in A. apply Z.eqb_eq in B. rewrite A, B. exact I.
Qed.
Definition plain (x : bytes) : bool := forallb (fun c => negb (Ascii.eqb c "%")) x.
Lemma plain_in x : plain x = true -> ~ In "%"%char x.
Proof. unfold plain. rewrite forallb_forall. intros H I. specialize (H _ I). discriminate. Qed.
Definition good (s : site) : bool :=
  is_faulty s ||
  match vfprintf (st_format s) (map some_arg (st_kinds s)) with Ok _ => true | _ => false end &&
  forallb nonnul (full_format s) && plain (st_file s) && forallb nonnul (st_file s) && forallb nonnul (st_format s) && Z.leb 0 (st_line s).

Lemma all_good : forallb good (linux_sites ++ windows_sites) = true.
Proof. vm_compute. reflexivity. Qed.
Lemma good_site s args : In s (linux_sites ++ windows_sites) -> ~ faulty s -> fitting s args ->
  (exists body, prints (st_format s) args body) /\ nul_free (full_format s) /\ ~ In "%"%char (st_file s) /\ nul_free (st_file s) /\ nul_free (st_format s) /\ (0 <= st_line s)%Z.
Proof.
  intros I F K. pose proof all_good as G. rewrite forallb_forall in G. specialize (G s I). unfold good in G.
  destruct (is_faulty s) eqn:B; [exfalso; apply F, is_faulty_true, B|]. cbn [orb] in G.
  repeat (apply andb_prop in G as [G ?]).
  destruct (vfprintf (st_format s) (map some_arg (st_kinds s))) as [o| | |] eqn:V; try discriminate G.
  assert (KK : map kind_of (map some_arg (st_kinds s)) = map kind_of args) by (rewrite some_kinds; symmetry; exact K).
  unfold vfprintf in V. pose proof (format_kinds (S (length (cstr (st_format s)))) (cstr (st_format s)) _ _ KK) as X. rewrite V in X. destruct X as [body X].
  split; [|split; [assumption|split; [apply plain_in; assumption|split; [assumption|split; [assumption|apply Z.leb_le; assumption]]]]].
  exists body. apply format_prints in X. rewrite cstr_id in X by assumption. exact X.
Qed.
Lemma line_prints s errno args body line now :
  (0 <= st_line s)%Z -> ~ In "%"%char now -> nul_free (st_file s) -> numeral 10 (Z.to_N (st_line s)) line -> prints (st_format s) args body ->
  prints (now ++ full_format s) (full_args s errno args) (heading now s line (cstr errno) ++ body ++ [LF]).
Proof.
  intros P N FF NL B. assert (BL : prints (st_format s ++ [LF]) args (body ++ [LF])) by (apply prints_end; [cbn; intros [X|[]]; discriminate X|exact B]).
  unfold full_format, full_args, heading.
  assert (W : forall x args' o, prints x args' o ->
    prints (bs "%s:%d" ++ x) (AStr (st_file s) :: AInt (st_line s) :: args') (st_file s ++ bs ":" ++ line ++ o)).
  { intros x args' o H. change (bs "%s:%d" ++ x) with (bs "%s" ++ (bs ":" ++ (bs "%d" ++ x))). rewrite <- (cstr_id (st_file s) FF) at 2.
    apply prints_string. apply prints_text; [cbn; intros [X|[]]; discriminate X|]. apply prints_decimal; assumption. }
  assert (NP : forall x, plain x = true -> ~ In "%"%char x) by exact plain_in.
  destruct (st_level s).
  - rewrite <- !app_assoc. apply prints_text; [exact N|]. change (bs "[DEBUG] (%s:%d) " ++ st_format s ++ [LF]) with (bs "[DEBUG] (" ++ (bs "%s:%d" ++ (bs ") " ++ st_format s ++ [LF]))).
    apply prints_text; [apply NP; reflexivity|]. apply W. apply prints_text; [apply NP; reflexivity|exact BL].
  - rewrite <- !app_assoc. apply prints_text; [exact N|]. change (bs "[WARN] (%s:%d: errno: %s) " ++ st_format s ++ [LF]) with (bs "[WARN] (" ++ (bs "%s:%d" ++ (bs ": errno: " ++ (bs "%s" ++ (bs ") " ++ st_format s ++ [LF]))))).
    apply prints_text; [apply NP; reflexivity|]. apply W. apply prints_text; [apply NP; reflexivity|]. apply prints_string. apply prints_text; [apply NP; reflexivity|exact BL].
  - rewrite <- !app_assoc. apply prints_text; [exact N|]. change (bs "[ERROR] (%s:%d: errno: %s) " ++ st_format s ++ [LF]) with (bs "[ERROR] (" ++ (bs "%s:%d" ++ (bs ": errno: " ++ (bs "%s" ++ (bs ") " ++ st_format s ++ [LF]))))).
    apply prints_text; [apply NP; reflexivity|]. apply W. apply prints_text; [apply NP; reflexivity|]. apply prints_string. apply prints_text; [apply NP; reflexivity|exact BL].
Qed.

(** the call of _log *)
Lemma message_written tmpdir opens (s : bytes) format file : length (log_folder tmpdir) <= 237 -> length s <= 63 -> ~ In NUL s ->
  log_message tmpdir opens (Some s) format file =
    let path := match file with Some p => p | None => log_folder tmpdir ++ bs "/open-license.log" end in
    Ok (if match file with Some _ => true | None => opens path end then (Some path, Some (path, s ++ cstr format)) else (None, None)).
Proof.
  intros HT HS HN.
  assert (O : forall p, log_message tmpdir opens (Some s) format (Some p) = Ok (Some p, Some (p, s ++ cstr format))).
  { intros p. destruct (message_ok tmpdir opens s format (Some p) HT HS HN) as (file' & line & E & _ & P2). rewrite E.
    unfold log_message in E. cbn [rbind] in E.
    destruct (timenow _ _) as [b| | |]; try discriminate E. cbn [rbind] in E. destruct (strcat b format) as [b2| | |]; try discriminate E. cbn [rbind] in E. destruct (strlen b2); try discriminate E. cbn [rbind] in E.
    injection E as <- <-. destruct (P2 _ _ eq_refl) as [A ->]. reflexivity. }
  destruct file as [p|]; [apply O|]. cbv zeta.
  destruct (C55_log_path_safe tmpdir HT) as [rest [A _]].
  assert (NF : nul_free (log_folder tmpdir ++ bs "/open-license.log")) by (unfold nul_free; rewrite forallb_app; pose proof (folder_nul_free tmpdir) as X; unfold nul_free in X; rewrite X; reflexivity).
  specialize (O (log_folder tmpdir ++ bs "/open-license.log")). unfold log_message in *. cbn [rbind] in O. rewrite A. cbn [rbind].
  rewrite strlen_nul by exact NF. cbn [rbind]. rewrite cstr_app_nul by exact NF. destruct (opens _); [exact O|reflexivity].
Qed.

(** Every call of LOG_DEBUG, LOG_WARN and LOG_ERROR in the library but four, whatever its arguments,
    appends one text: the time, the level, the place, errno, and what the format stands for. *)
Theorem C118_line s args errno now tmpdir opens :
  In s (linux_sites ++ windows_sites) -> ~ faulty s -> fitting s args ->
  length (log_folder tmpdir) <= 237 -> length now <= 63 -> ~ In NUL now -> ~ In "%"%char now ->
  exists line body, numeral 10 (Z.to_N (st_line s)) line /\ prints (st_format s) args body /\
    forall file, log_at true tmpdir opens (Some now) s errno args file =
      let path := match file with Some p => p | None => log_folder tmpdir ++ bs "/open-license.log" end in
      Ok (if match file with Some _ => true | None => opens path end
          then (Some path, Some (path, heading now s line (cstr errno) ++ body ++ [LF])) else (None, None)).
Proof.
  intros I F K HT HS HN HP. destruct (good_site s args I F K) as ((body & B) & NF & PF & FF & SF & P).
  exists (print_num 10 (Z.to_N (st_line s))), body. pose proof (print_numeral 10 (Z.to_N (st_line s)) ltac:(lia)) as NL. split; [exact NL|]. split; [exact B|]. intros file. cbv zeta.
  assert (E : log_at true tmpdir opens (Some now) s errno args file =
    ('(file, line) <-- log_message tmpdir opens (Some now) (full_format s) file ;;
      match line with
      | None => Ok (file, None)
      | Some (p, buffer) => text <-- vfprintf buffer (full_args s errno args) ;; Ok (file, Some (p, text))
      end)) by (unfold log_at; destruct (st_level s); reflexivity).
  rewrite E, message_written by assumption. cbv zeta. cbn [rbind].
  destruct (match file with Some _ => true | None => _ end); [|reflexivity].
  assert (V : vfprintf (now ++ cstr (full_format s)) (full_args s errno args) = Ok (heading now s (print_num 10 (Z.to_N (st_line s))) (cstr errno) ++ body ++ [LF])).
  { apply vfprintf_is. rewrite (cstr_id (full_format s) NF). rewrite cstr_id.
    - apply line_prints; assumption.
    - apply P_Acquire2.nul_free_in in HN. unfold nul_free in *. rewrite forallb_app, HN, NF. reflexivity. }
  rewrite V. reflexivity.
Qed.
Print Assumptions C118_line.
(** Built for release LOG_DEBUG does nothing, the other two the same. *)
Theorem C118_release tmpdir opens now s errno args file :
  log_at false tmpdir opens now s errno args file = match st_level s with DEBUG => Ok (file, None) | _ => log_at true tmpdir opens now s errno args file end.
Proof. unfold log_at. destruct (st_level s); reflexivity. Qed.
Print Assumptions C118_release.

(** ** The four: whatever the arguments, what C does is not defined *)
Definition bad (s : site) : bool :=
  negb (is_faulty s) || match vfprintf (full_format s) (full_args s [] (map some_arg (st_kinds s))) with Undef UbRead => forallb nonnul (full_format s) | _ => false end.
Lemma all_bad : forallb bad (linux_sites ++ windows_sites) = true.
Proof. vm_compute. reflexivity. Qed.
Lemma format_text x f args fuel : plain x = true -> print_format (length x + fuel) (x ++ f) args = (o <-- print_format fuel f args ;; Ok (x ++ o)).
Proof.
  induction x as [|c x IH]; intros N; cbn [length app Nat.add].
  - destruct (print_format fuel f args); reflexivity.
  - unfold plain in N. cbn [forallb] in N. apply andb_prop in N as [NC N].
    assert (E : forall fuel r, print_format (S fuel) (c :: r) args = (o <-- print_format fuel r args ;; Ok (c :: o))).
    { intros k r. destruct c as [[] [] [] [] [] [] [] []]; try reflexivity. discriminate NC. }
    rewrite E, IH by exact N. destruct (print_format fuel f args); reflexivity.
Qed.
Lemma in_plain x : ~ In "%"%char x -> plain x = true.
Proof. intros N. unfold plain. apply forallb_forall. intros c I. destruct (Ascii.eqb_spec c "%") as [->|]; [contradiction|reflexivity]. Qed.
Lemma faulty_is s : faulty s -> is_faulty s = true.
Proof.
  unfold faulty, is_faulty. intros I. apply existsb_exists. eexists. split; [exact I|]. cbn [fst snd]. rewrite Z.eqb_refl, Bool.andb_true_r. apply beqb_eq. reflexivity.
Qed.
Theorem C118_faulty s args errno now tmpdir opens p :
  In s (linux_sites ++ windows_sites) -> faulty s -> fitting s args ->
  length (log_folder tmpdir) <= 237 -> length now <= 63 -> ~ In NUL now -> ~ In "%"%char now ->
  log_at true tmpdir opens (Some now) s errno args (Some p) = Undef UbRead.
Proof.
  intros I F K HT HS HN HP. pose proof all_bad as G. rewrite forallb_forall in G. specialize (G s I). unfold bad in G. rewrite (faulty_is s F) in G. cbn [negb orb] in G.
  destruct (vfprintf (full_format s) (full_args s [] (map some_arg (st_kinds s)))) as [o|x|u|] eqn:V; try discriminate G. destruct u; try discriminate G. rename G into NF.
  assert (E : log_at true tmpdir opens (Some now) s errno args (Some p) =
    ('(file, line) <-- log_message tmpdir opens (Some now) (full_format s) (Some p) ;;
      match line with
      | None => Ok (file, None)
      | Some (p, buffer) => text <-- vfprintf buffer (full_args s errno args) ;; Ok (file, Some (p, text))
      end)) by (unfold log_at; destruct (st_level s); reflexivity).
  rewrite E, message_written by assumption. cbv zeta. cbn [rbind].
  assert (KK : map kind_of (full_args s [] (map some_arg (st_kinds s))) = map kind_of (full_args s errno args)).
  { unfold full_args. destruct (st_level s); cbn [map kind_of]; rewrite some_kinds, K; reflexivity. }
  unfold vfprintf in V. rewrite (cstr_id (full_format s) NF) in V.
  pose proof (format_kinds (S (length (full_format s))) (full_format s) _ _ KK) as X. rewrite V in X.
  unfold vfprintf. rewrite (cstr_id (full_format s) NF). rewrite cstr_id.
  2:{ apply P_Acquire2.nul_free_in in HN. unfold nul_free in *. rewrite forallb_app, HN, NF. reflexivity. }
  rewrite app_length, <- Nat.add_succ_r, format_text by (apply in_plain, HP). rewrite X. reflexivity.
Qed.
Print Assumptions C118_faulty.
Lemma bad_place n : forall s, nth_error (linux_sites ++ windows_sites) n = Some s -> is_faulty s = true -> In s (linux_sites ++ windows_sites) /\ faulty s.
Proof. intros s H F. split; [apply nth_error_In with n; exact H|apply is_faulty_true, F]. Qed.
Theorem C118_defined_refuted : ~ (forall s args errno, In s (linux_sites ++ windows_sites) -> fitting s args ->
  exists r, log_at true None (fun _ => true) (Some (bs "2026-01-01 00:00:00")) s errno args (Some (bs "/tmp/open-license.log")) = Ok r).
Proof.
  intros H. set (s := at_ DEBUG "os/windows/os_win.cpp" 68 (bs "This volume is not fixed : %s, type: %d") [KStr]).
  assert (I : In s (linux_sites ++ windows_sites)) by (apply nth_error_In with 41; reflexivity).
  destruct (H s [AStr (bs "D:\")] [] I eq_refl) as [r E].
  rewrite C118_faulty in E; [discriminate E|exact I|right; right; right; left; reflexivity|reflexivity|cbn; lia|cbn; lia|..]; intros X; cbn in X; repeat destruct X as [X|X]; try discriminate X; exact X.
Qed.
Print Assumptions C118_defined_refuted.

(** ** Data are not formats: whatever the value of the variable, the line holds it as it is... *)
Definition unknown_strategy : site := at_ WARN "hw_identifier/hw_identifier_facade.cpp" 45 (bs "unknown IDENTIFICATION_STRATEGY %s") [KStr].
Theorem C118_verbatim value errno now p tmpdir opens :
  length (log_folder tmpdir) <= 237 -> length now <= 63 -> ~ In NUL now -> ~ In "%"%char now -> ~ In NUL value -> ~ In NUL errno ->
  log_at true tmpdir opens (Some now) unknown_strategy errno [AStr value] (Some p) =
    Ok (Some p, Some (p, now ++ bs "[WARN] (hw_identifier/hw_identifier_facade.cpp:45: errno: " ++ errno ++ bs ") unknown IDENTIFICATION_STRATEGY " ++ value ++ [LF])).
Proof.
  intros HT HS HN HP HV HE.
  destruct (C118_line unknown_strategy [AStr value] errno now tmpdir opens) as (line & body & L & B & E); try assumption.
  - apply in_or_app. left. unfold linux_sites. apply in_or_app. left. cbn. auto.
  - unfold faulty. cbn. intros X. repeat destruct X as [X|X]; try discriminate X; exact X.
  - reflexivity.
  - specialize (E (Some p)). cbv zeta in E. rewrite E. clear E.
    apply P_Acquire2.nul_free_in in HV. apply P_Acquire2.nul_free_in in HE. rewrite (cstr_id errno HE).
    assert (body = bs "unknown IDENTIFICATION_STRATEGY " ++ value) as ->.
    { apply (C118_one_text _ _ _ _ B). cbn [st_format unknown_strategy at_]. change (bs "unknown IDENTIFICATION_STRATEGY %s") with (bs "unknown IDENTIFICATION_STRATEGY " ++ (bs "%s" ++ [])).
      apply prints_text; [apply plain_in; reflexivity|]. rewrite <- (cstr_id value HV) at 2. rewrite <- (app_nil_r (cstr value)). apply prints_string. constructor. }
    assert (line = bs "45") as -> by (apply (print_unique 10 _ _ ltac:(lia)) in L; exact L).
    unfold heading. cbn [st_level st_file unknown_strategy at_]. rewrite <- !app_assoc. reflexivity.
Qed.
Print Assumptions C118_verbatim.
(** ... also when it has the end of a line in it: one call can write two lines of the log. *)
Theorem C118_one_line_refuted : ~ (forall value p x, ~ In NUL value ->
  log_at true None (fun _ => true) (Some (bs "2026-01-01 00:00:00")) unknown_strategy (bs "None") [AStr value] (Some p) = Ok (Some p, Some (p, x)) ->
  exists line, x = line ++ [LF] /\ ~ In LF line).
Proof.
  intros H. set (v := bs "x" ++ [LF] ++ bs "2026-01-01 00:00:01[ERROR] (licensecc.cpp:41: errno: None) forged").
  assert (NV : ~ In NUL v) by (unfold v; intros X; cbn in X; repeat destruct X as [X|X]; try discriminate X; exact X).
  edestruct (H v (bs "l")) as (line & E & N); [exact NV| |].
  - apply (C118_verbatim v (bs "None") (bs "2026-01-01 00:00:00") (bs "l") None (fun _ => true)); try exact NV; try (cbn; lia);
      intros X; cbn in X; repeat destruct X as [X|X]; try discriminate X; exact X.
  - rewrite !app_assoc in E. apply app_inj_tail in E as [<- _]. apply N. apply in_or_app. right. unfold v. right. left. reflexivity.
Qed.
Print Assumptions C118_one_line_refuted.

(** a line with a width, zeros and a hexadecimal number *)
Example C118_case :
  log_at true (Some (bs "/var")) (fun _ => true) (Some (bs "2026-01-01 00:00:00")) (at_ DEBUG "os/linux/network.cpp" 78 (bs "%-8s %s (%d)" ++ [LF]) [KStr; KStr; KInt]) [] [AStr (bs "eth0"); AStr (bs "%n"); AInt (-17)] None =
    Ok (Some (bs "/var/open-license.log"), Some (bs "/var/open-license.log", bs "2026-01-01 00:00:00[DEBUG] (os/linux/network.cpp:78) eth0     %n (-17)" ++ [LF; LF])) /\
  vfprintf (bs "%02x:|%5d|%-3d|%03d|100%%") [AInt 10; AInt (-42); AInt 7; AInt (-1)] = Ok (bs "0a:|  -42|7  |-01|100%") /\
  vfprintf (bs "%x") [AInt (-1)] = Ok (bs "ffffffff") /\
  vfprintf (bs "%s: %s") [AStr (bs "one")] = Undef UbRead.
Proof. vm_compute. refine (conj _ (conj _ (conj _ _))); reflexivity. Qed.
