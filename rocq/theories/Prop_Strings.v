(** Properties C40 - C43, C45, C46: string utilities. *)
From Verif Require Import Base CTypes StringUtils P_Base Spec_Strings P_Strings.

(** C40: trim_copy s is what remains of s when leading blanks and trailing
    blanks/NULs are cut off, it is the only such string, and trimming is
    idempotent. *)
Theorem C40_trim_copy : forall s : bytes,
  (exists p q, s = p ++ trim_copy s ++ q /\ Forall blank p /\ Forall (fun c => blank c \/ c = NUL) q)
  /\ no_leading_blank (trim_copy s) /\ no_trailing_blank_or_nul (trim_copy s).
Proof. exact trim_copy_spec. Qed.
Print Assumptions C40_trim_copy.

Theorem C40_trim_copy_unique : forall s p m q : bytes,
  s = p ++ m ++ q -> Forall blank p -> Forall (fun c => blank c \/ c = NUL) q ->
  no_leading_blank m -> no_trailing_blank_or_nul m -> trim_copy s = m.
Proof. exact trim_copy_unique. Qed.
Print Assumptions C40_trim_copy_unique.

Theorem C40_trim_copy_idempotent : forall s : bytes, trim_copy (trim_copy s) = trim_copy s.
Proof. exact trim_copy_idem. Qed.
Print Assumptions C40_trim_copy_idempotent.

Example C40_case : trim_copy (bs "  a b " ++ [NUL; TAB]) = bs "a b".
Proof. reflexivity. Qed.

(** C41: the result of split_string is exactly the list of separator-free pieces
    whose join is the input, where one trailing separator is swallowed. *)
Theorem C41_split_string : forall (s : bytes) (sep : ascii) (ps : list bytes),
  split_string s sep = ps <->
  (forall p, In p ps -> ~ In sep p) /\
  ((s = join sep ps /\ (ps = [] \/ last ps [] <> [])) \/ (ps <> [] /\ s = join sep ps ++ [sep])).
Proof.
  exact (fun s sep ps => conj
    (fun E => eq_ind _ (fun l => (forall p, In p l -> ~ In sep p) /\
       ((s = join sep l /\ (l = [] \/ last l [] <> [])) \/ (l <> [] /\ s = join sep l ++ [sep])))
       (split_string_sound s sep) _ E)
    (fun H => split_string_complete sep ps s (proj1 H) (proj2 H))).
Qed.
Print Assumptions C41_split_string.

Example C41_case : split_string (bs ";a;;b;") ";"%char = [bs ""; bs "a"; bs ""; bs "b"].
Proof. reflexivity. Qed.

(** C42: with room for n > 0 bytes at the destination and a C string source,
    mstrlcpy stores the longest prefix that fits, a terminator, and leaves the rest
    of the destination alone; in no case does it change more than n bytes. *)
Theorem C42_mstrlcpy : forall (dst s rest : bytes) (n : nat),
  nul_free s -> n <= length dst -> 0 < n ->
  mstrlcpy dst (s ++ NUL :: rest) n =
  Ok (firstn (n - 1) s ++ NUL :: skipn (S (Nat.min (n - 1) (length s))) dst,
      S (Nat.min (n - 1) (length s))).
Proof. exact mstrlcpy_spec. Qed.
Print Assumptions C42_mstrlcpy.

Theorem C42_mstrlcpy_frame : forall (dst src : bytes) (n : nat) (d : bytes) (k : nat),
  mstrlcpy dst src n = Ok (d, k) -> length d = length dst /\ skipn n d = skipn n dst /\ k <= n.
Proof. exact mstrlcpy_bounded. Qed.
Print Assumptions C42_mstrlcpy_frame.

Theorem C42_mstrlcpy_zero : forall dst src : bytes, mstrlcpy dst src 0 = Ok (dst, 0).
Proof. exact (fun dst src => eq_refl). Qed.
Print Assumptions C42_mstrlcpy_zero.

(** Without a terminator within reach it reads past the source; with no room it writes past
    the destination. *)
Theorem C42_mstrlcpy_overread : forall (dst src : bytes) (n : nat),
  nul_free src -> length src + 1 < n -> length src <= length dst -> mstrlcpy dst src n = Undef UbRead.
Proof.
  intros dst src n N L D. unfold mstrlcpy. destruct n as [|m]; [inversion L|]. assert (G : mstrlcpy_go m dst src = Undef UbRead); [|rewrite G; reflexivity].
  assert (L' : length src < m) by lia. clear L. revert m dst N D L'. induction src as [|c src IH]; intros [|m] dst N D L'; cbn [length] in *; try lia; [reflexivity|].
  cbn [mstrlcpy_go]. unfold nul_free in N. cbn [forallb] in N. apply andb_true_iff in N as [N1 N2]. unfold nonnul in N1. destruct (Ascii.eqb c NUL); [discriminate N1|].
  destruct dst as [|x dst]; cbn [length] in D; [lia|]. rewrite (IH m dst N2) by lia. reflexivity.
Qed.
Print Assumptions C42_mstrlcpy_overread.
Theorem C42_mstrlcpy_overflow : forall (dst s rest : bytes) (n : nat),
  nul_free s -> length dst <= length s -> length dst < n -> mstrlcpy dst (s ++ NUL :: rest) n = Undef UbWrite.
Proof.
  intros dst s rest n N D L. unfold mstrlcpy. destruct n as [|m]; [inversion L|]. assert (G : mstrlcpy_go m dst (s ++ NUL :: rest) = Undef UbWrite); [|rewrite G; reflexivity].
  assert (L' : length dst <= m) by lia. clear L. revert m dst N D L'. induction s as [|c s IH]; intros m dst N D L'; cbn [length] in D.
  - destruct dst; [|cbn in D; lia]. destruct m; reflexivity.
  - destruct dst as [|x dst]; cbn [length] in *.
    + destruct m as [|m]; [reflexivity|]. cbn [app mstrlcpy_go]. destruct (Ascii.eqb c NUL); reflexivity.
    + destruct m as [|m]; [lia|]. cbn [app mstrlcpy_go]. unfold nul_free in N. cbn [forallb] in N. apply andb_true_iff in N as [N1 N2]. unfold nonnul in N1. destruct (Ascii.eqb c NUL); [discriminate N1|].
      rewrite (IH m dst N2) by lia. reflexivity.
Qed.
Print Assumptions C42_mstrlcpy_overflow.
Example C42_over_cases : mstrlcpy (bs "xxxxxx") (bs "ab") 4 = Undef UbRead /\ mstrlcpy (bs "xx") (c_str (bs "ab")) 4 = Undef UbWrite.
Proof. split; reflexivity. Qed.

Example C42_case : mstrlcpy (bs "xxxxxx") (c_str (bs "abcdef")) 4 = Ok (bs "abc" ++ NUL :: bs "xx", 4).
Proof. reflexivity. Qed.

(** C43: on a NUL terminated array the result is min(strlen, maxsize) ... *)
Theorem C43_mstrnlen_s : forall (s rest : bytes) (n : nat),
  nul_free s -> mstrnlen_s (s ++ NUL :: rest) n = Ok (Nat.min (length s) n).
Proof. exact mstrnlen_min. Qed.
Print Assumptions C43_mstrnlen_s.

(** ... but an array of exactly maxsize bytes without NUL is read out of bounds
    (exactly the arrays without NUL and not longer than maxsize are). *)
Theorem C43_mstrnlen_s_over_read : forall (a : bytes) (n : nat),
  mstrnlen_s a n = Undef UbRead <-> (nul_free a /\ length a <= n).
Proof. exact mstrnlen_cases. Qed.
Print Assumptions C43_mstrnlen_s_over_read.

Theorem C43_reads_only_maxsize_refuted :
  exists (a : bytes) (n : nat), length a = n /\ mstrnlen_s a n = Undef UbRead.
Proof. exact (ex_intro _ (bs "ABCDEFGHIJKLMNOP") (ex_intro _ 16 (conj eq_refl eq_refl))). Qed.
Print Assumptions C43_reads_only_maxsize_refuted.

(** C45 *)
Theorem C45_identify_format : forall s : bytes,
  (identify_format s = FmtBase64 <-> b64_text s) /\
  (identify_format s = FmtIni <-> ~ b64_text s /\ bracketed_section s) /\
  (identify_format s = FmtUnknown <-> ~ b64_text s /\ ~ bracketed_section s).
Proof. exact identify_format_spec. Qed.
Print Assumptions C45_identify_format.

Example C45_cases : identify_format (bs "QUJDRA==") = FmtBase64 /\ identify_format (bs "[A]") = FmtIni
  /\ identify_format (bs "hello") = FmtUnknown /\ identify_format [] = FmtBase64.
Proof. repeat split. Qed.

(** C46: the extension of the last path component is removed, unless that would
    leave nothing or the path is ".." ... *)
Theorem C46_remove_extension : forall q ext : bytes,
  q <> [] -> (forall c, In c ext -> ~ dot_or_sep c) -> q ++ "."%char :: ext <> bs ".." ->
  remove_extension (q ++ "."%char :: ext) = q.
Proof. exact remove_extension_drop. Qed.
Print Assumptions C46_remove_extension.

(** ... and every other path is returned as it is. *)
Theorem C46_remove_extension_else : forall p : bytes,
  (p = bs ".." \/ (forall q ext, p = q ++ "."%char :: ext -> (forall c, In c ext -> ~ dot_or_sep c) -> q = [])) ->
  remove_extension p = p.
Proof. exact remove_extension_keep. Qed.
Print Assumptions C46_remove_extension_else.

Example C46_cases : remove_extension (bs "/opt/a.b/app.exe") = bs "/opt/a.b/app"
  /\ remove_extension (bs "/opt/a.b/app") = bs "/opt/a.b/app" /\ remove_extension (bs ".app") = bs ".app"
  /\ remove_extension (bs "..") = bs "..".
Proof. repeat split. Qed.
