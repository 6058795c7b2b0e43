(** C116: what kind of license data this is, from the text of the regular expressions on. *)
From Coq Require Import Lia.
From Verif Require Import Base CTypes StringUtils Spec_Strings Regex Spec_Regex P_Regex P_RegexFmt.

(** Both patterns are well-formed (the constructors do not throw) and mean what C45 says. *)
Theorem C116_patterns : exists b64 ini, compile B64 = Some b64 /\ compile INI_SECTION = Some ini /\
  (forall s, matches_all b64 s <-> b64_text s) /\ (forall s, matches_some ini s <-> bracketed_section s).
Proof. exists THE_B64, THE_INI. exact (conj b64_compiles (conj ini_compiles (conj b64_pattern ini_pattern))). Qed.
Print Assumptions C116_patterns.

(** The search in libstdc++'s order of alternatives decides a match, for every expression whose
    loops go over at least one character. *)
Theorem C116_matcher : forall r s, loops_advance r = true ->
  (fst (run_match r s) = true <-> matches_all r s) /\ (run_search r s = true <-> matches_some r s).
Proof. intros r s L. exact (conj (run_match_spec r s L) (run_search_spec r s L)). Qed.
Print Assumptions C116_matcher.

(** The kind of every text, by the search. *)
Theorem C116_format : forall s : bytes,
  (identify_format_re s = Some FmtBase64 <-> b64_text s) /\
  (identify_format_re s = Some FmtIni <-> ~ b64_text s /\ bracketed_section s) /\
  (identify_format_re s = Some FmtUnknown <-> ~ b64_text s /\ ~ bracketed_section s).
Proof.
  intros s. rewrite formats_agree. destruct (P_Strings.identify_format_spec s) as (A & B & C).
  assert (X : forall f, Some (identify_format s) = Some f <-> identify_format s = f) by (intros f; split; [intros E; injection E as E; exact E|intros ->; reflexivity]).
  rewrite !X. exact (conj A (conj B C)).
Qed.
Print Assumptions C116_format.

(** The model used everywhere else is this one. *)
Theorem C116_same : forall s : bytes, identify_format_re s = Some (identify_format s).
Proof. exact formats_agree. Qed.
Print Assumptions C116_same.

(** Every character of a text that matches is a call more on the stack: no bound on the length
    of base64 license data comes with a bound on the stack. *)
Theorem C116_stack : forall r s, fst (run_match r s) = true -> length s < snd (run_match r s).
Proof. exact match_depth. Qed.
Print Assumptions C116_stack.
Theorem C116_stack_license : forall s, b64_text s -> exists b64, compile B64 = Some b64 /\ fst (run_match b64 s) = true /\ length s < snd (run_match b64 s).
Proof.
  intros s T. exists THE_B64. assert (M : fst (run_match THE_B64 s) = true) by (apply run_match_spec; [reflexivity|apply b64_pattern, T]).
  exact (conj b64_compiles (conj M (match_depth _ _ M))).
Qed.
Print Assumptions C116_stack_license.

Example C116_cases :
  map identify_format_re [bs "QUJDRA=="; bs "QUJD"; []; bs "[A]"; bs "QUJDRA="; bs "x[a b]y"; bs "]["; "["%char :: LF :: bs "]"]
  = map Some [FmtBase64; FmtBase64; FmtBase64; FmtIni; FmtUnknown; FmtIni; FmtUnknown; FmtUnknown].
Proof. vm_compute. reflexivity. Qed.
Example C116_other_patterns :
  option_map (fun r => (loops_advance r, map (fun s => fst (run_match r s)) [bs "ab"; bs "abab"; bs "aab"; []])) (compile (bs "(?:ab)*")) = Some (true, [true; true; false; true])
  /\ compile (bs "(?:ab") = None /\ compile (bs "[ab") = None
  /\ option_map loops_advance (compile (bs "(?:a*)*")) = Some false.
Proof. vm_compute. refine (conj _ (conj _ (conj _ _))); reflexivity. Qed.
Example C116_calls : match compile B64 with Some r => map (fun s => snd (run_match r s)) [bs "QUJD"; bs "QUJDQUJD"; bs "QUJDQUJDQUJDQUJD"] | None => [] end = [10; 15; 25].
Proof. vm_compute. reflexivity. Qed.
