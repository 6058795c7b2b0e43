(** C113: byte order marks before INI and license texts. *)
From Coq Require Import Lia.
From Verif Require Import Base P_Base CTypes StringUtils Dates Base64 HwId Registry Ini Network Disks ExecEnv Strategies Locate Licensecc IniEdit IniCalls IniBom.
From Verif Require Import Spec_Ini P_Ini Spec_Strings Spec_Hw Spec_Acquire Spec_IniEdit Spec_IniText P_IniText P_IniEdit11 P_IniFile P_IniBom Spec_Cut P_Cut Prop_Ini Prop_IniEdit Prop_IniText Prop_Acquire Ex_Acquire.

Definition MARK : bytes := ["239"; "187"; "191"]%char.
(** *** An object told to read UTF-8 before its first load: a mark is skipped, once; a text without a
    mark is read as it is. *)
Theorem C113_read : forall text, exists d,
  ini_load text = Ok d /\
  load_text (set_unicode true {| x_utf8 := false; x_loaded := false |}) (MARK ++ text) = Ok ({| x_utf8 := true; x_loaded := true |}, d) /\
  (text <> [] -> ~ begins MARK text -> load_text (set_unicode true {| x_utf8 := false; x_loaded := false |}) text = Ok ({| x_utf8 := true; x_loaded := true |}, d)) /\
  (text <> [] -> load_text {| x_utf8 := false; x_loaded := false |} text = Ok ({| x_utf8 := false; x_loaded := true |}, d)).
Proof.
  intros text. destruct (ini_load_total text) as (d & E). exists d. split; [exact E|]. split; [|split].
  - change (load_text _ _) with (r <-- ini_load text ;; Ok ({| x_utf8 := true; x_loaded := true |}, r)). rewrite E. reflexivity.
  - intros NE NB. destruct text as [|a text]; [congruence|]. unfold load_text, set_unicode, without_mark. cbn [x_loaded x_utf8 andb].
    destruct (Nat.leb 3 (length (a :: text))) eqn:L; cbn [andb]; [|rewrite E; reflexivity].
    destruct (beqb (firstn 3 (a :: text)) UTF8_SIGNATURE) eqn:B; [|rewrite E; reflexivity]. destruct NB. apply beqb_eq in B. exists (skipn 3 (a :: text)). change MARK with UTF8_SIGNATURE. rewrite <- B. symmetry. apply firstn_skipn.
  - intros NE. destruct text as [|a text]; [congruence|]. unfold load_text, without_mark. cbn [x_utf8 andb]. rewrite E. reflexivity.
Qed.
Print Assumptions C113_read.
(** SetUnicode does nothing once data was loaded. *)
Theorem C113_too_late : forall b x data d x', load_text x data = Ok (x', d) -> data <> [] -> set_unicode b x' = x' /\ x_utf8 x' = x_utf8 x.
Proof.
  intros b x data d x' H N. unfold load_text in H. destruct data as [|c r]; [congruence|]. destruct (ini_load _) as [y| | |]; try discriminate. injection H as <- _. split; reflexivity.
Qed.
Print Assumptions C113_too_late.

(** Before the first load it can be switched on and off at will; what was said last counts. *)
Theorem C113_switch : forall b b' x, x_loaded x = false ->
  x_utf8 (set_unicode b x) = b /\ set_unicode b (set_unicode b' x) = set_unicode b x /\ x_loaded (set_unicode b x) = false.
Proof. intros b b' [u l] H. cbn in H. subst l. split; [reflexivity|split; reflexivity]. Qed.
(** *** A saved text has the mark if the object is one for UTF-8 and the caller asked for a mark, and is
    otherwise the text without it. *)
Theorem C113_saved : forall multi multiline h l st t x asked,
  perform_all h (new_store multi multiline) = Ok (l, st) -> answers multi multiline (h ++ [CSave]) (l ++ [Written t]) ->
  (x_utf8 x = true -> asked = true -> save_text x asked st = Ok (MARK ++ t)) /\
  (x_utf8 x = false \/ asked = false -> save_text x asked st = Ok t).
Proof.
  intros m ml h l st t x asked E A.
  assert (LN : length l = length h). { assert (Y : answers m ml h l) by (exists st; exact E). apply answers_are in Y. subst l. apply expect_length. }
  destruct (saves _ _ _ _ _ E) as (t' & SV & A'). assert (t' = t) as ->. { pose proof (answers_end _ _ _ _ _ _ A LN) as Z. pose proof (answers_end _ _ _ _ _ _ A' LN) as Z'. cbn [expect_all expect fst both] in Z, Z'. congruence. }
  unfold save_text. rewrite SV. cbn [rbind]. split; [intros -> ->; reflexivity|]. intros [-> | ->]; [reflexivity|]. rewrite Bool.andb_false_r. reflexivity.
Qed.

(** *** Saved with a mark and loaded by an object told to read UTF-8: the values are those of the
    saved object. *)
Theorem C113_round_trip : forall multi multiline h l st t sec key v more x,
  Forall tidy h -> unnamed_is_first multi multiline h -> x_utf8 x = true ->
  perform_all h (new_store multi multiline) = Ok (l, st) ->
  answers multi multiline (h ++ [CSave; CGet (Some sec) (Some key)]) (l ++ [Written t; Value v more]) -> more = false ->
  save_text x true st = Ok (MARK ++ t) /\
  exists d, load_text (set_unicode true {| x_utf8 := false; x_loaded := false |}) (MARK ++ t) = Ok ({| x_utf8 := true; x_loaded := true |}, d) /\ get_value d sec key = v.
Proof.
  intros m ml h l st t sec key v more x T U X E A M.
  assert (LN : length l = length h). { assert (Y : answers m ml h l) by (exists st; exact E). apply answers_are in Y. subst l. apply expect_length. }
  destruct (saves _ _ _ _ _ E) as (t' & SV & A'). assert (t' = t) as ->. { pose proof (answers_end _ _ _ _ _ _ A LN) as Z. pose proof (answers_end _ _ _ _ _ _ A' LN) as Z'. cbn [expect_all expect fst both] in Z, Z'. congruence. }
  split; [unfold save_text; rewrite SV, X; reflexivity|]. destruct (C113_read t) as (d & L & R & _). exists d. split; [exact R|]. exact (C105_library_reads m ml h l t sec key v more d T U LN A L M).
Qed.
Print Assumptions C113_round_trip.

(** *** The library reads license texts without that setting. A mark is harmless if the first line says
    nothing (it is empty or a comment) and has no '=' ... *)
Theorem C113_harmless : forall text l ls, lines (cstr text) = l :: ls -> meaning l = LNothing -> beqb (strip l) ["["%char] = false -> ~ In "="%char l ->
  text_items (MARK ++ text) = text_items text.
Proof.
  intros s l ls E M O N. change MARK with UTF8_SIGNATURE. rewrite (mark_items _ _ _ E), (mark_plain _ N). unfold text_items. rewrite E. cbn [read_lines app]. rewrite O, M. reflexivity.
Qed.
Print Assumptions C113_harmless.
(** ... but if the first line is the header of the only section, the section is gone: *)
Theorem C113_section_lost : forall text l ls n sec, lines (cstr text) = l :: ls -> meaning l = LHeader n ->
  (forall m, ~ In (ISection m) (tl (text_items text))) ->
  sec <> [] -> section_entries (MARK ++ text) sec = [].
Proof.
  intros s l ls n sec E M ONE NE. change MARK with UTF8_SIGNATURE.
  assert (O : beqb (strip l) ["["%char] = false). { destruct (beqb_eq (strip l) ["["%char]) as [Y _]. destruct (beqb (strip l) _); [|reflexivity]. unfold meaning in M. rewrite (Y eq_refl) in M. discriminate. }
  assert (TI : text_items s = ISection n :: read_lines (SecNamed n) false ls) by (unfold text_items; rewrite E; cbn [read_lines]; rewrite O, M; reflexivity).
  assert (NH : forall m, ~ In (ISection m) (read_lines (SecNamed n) false ls)).
  { intros m. specialize (ONE m). rewrite TI in ONE. exact ONE. }
  unfold section_entries. rewrite (mark_items _ _ _ E), flat_map_app.
  assert (A : flat_map (item_entries sec) (match meaning (UTF8_SIGNATURE ++ l) with LEntry k v => [IEntry (SecNamed []) k v] | _ => [] end) = []).
  { destruct (meaning (UTF8_SIGNATURE ++ l)) as [| | |k v]; try reflexivity. cbn [flat_map item_entries]. destruct sec as [|c r]; [congruence|]. unfold same_nameb. cbn. reflexivity. }
  rewrite A. cbn [app].
  assert (NH' : forall m, ~ In (ISection m) (read_lines (SecNamed []) false ls)) by (intros m I; apply (NH m); apply (headers_same ls (SecNamed []) (SecNamed n)); exact I).
  pose proof (no_header ls (SecNamed []) false NH') as Z. clear - Z NH' NE. induction (read_lines (SecNamed []) false ls) as [|i r IH]; [reflexivity|]. cbn [flat_map]. rewrite IH; [|intros m I; apply (NH' m); right; exact I|intros s k v I; apply (Z s k v); right; exact I]. rewrite app_nil_r.
  destruct i as [m|s k v]; [reflexivity|]. destruct (Z s k v (or_introl eq_refl)) as [->| ->]; cbn [item_entries]; [|reflexivity]. destruct sec as [|c q]; [congruence|]. reflexivity.
Qed.
Print Assumptions C113_section_lost.
(** *** So a license to which an editor has added a mark is not accepted: the product is reported as
    not licensed (if its place is the only one). *)
Theorem C113_refused : forall w c hint out t code out' t' s text l ls n,
  (forall i, order_ok (w_machine w i)) -> acquire_license w c hint out t = Ok ((code, out'), t') ->
  sources w hint = [s] -> (forall e, ~ place_failure w hint e) ->
  (forall content, given w t t' s content -> content = MARK ++ text) ->
  lines (cstr text) = l :: ls -> meaning l = LHeader n ->
  (forall m, ~ In (ISection m) (tl (text_items text))) ->
  feature_of w (option_map ci_feature c) <> [] ->
  code = PRODUCT_NOT_LICENSED \/ (code = LICENSE_FILE_NOT_FOUND /\ exists i, t <= i < t' /\ listed w s i = false).
Proof.
  intros w c hint out t code out' t' s text l ls n O H SR NP CT E M ONE NE. destruct (C14_single_source w c hint out t code out' t' s O H SR NP) as [X|(content & _ & G & D)]; [right; exact X|left].
  rewrite (CT _ G), (C113_section_lost _ _ _ _ _ E M ONE NE) in D.
  assert (NF : forall sig, ~ license_form [] sig) by (intros sig [F _]; discriminate F).
  inversion D; subst; try reflexivity; try congruence; try (exfalso; eapply NF; eassumption). match goal with V : valid_license _ _ _ _ _ _ |- _ => destruct V as (sig & F & _); destruct (NF _ F) end.
Qed.
Print Assumptions C113_refused.

(** concrete: the licenses of the demo with a mark; the same after an empty line *)
Example C113_case :
  let run text := code_of (acquire_license (demo false false NOW [] []) (Some (asking "demo")) (Some (hint_of 1 text)) None 0) in
  run good_license = Ok LICENSE_OK /\ run (MARK ++ good_license) = Ok PRODUCT_NOT_LICENSED /\ run (MARK ++ LF :: good_license) = Ok LICENSE_OK /\
  run (MARK ++ bs "# license" ++ LF :: good_license) = Ok LICENSE_OK.
Proof. vm_compute. refine (conj _ (conj _ (conj _ _))); reflexivity. Qed.
Example C113_conditions : exists l ls n, lines (cstr good_license) = l :: ls /\ meaning l = LHeader n /\
  (forall m, ~ In (ISection m) (tl (text_items good_license))) /\
  sources (demo false false NOW [] []) (Some (hint_of 1 (MARK ++ good_license))) = [SText EXTERNAL (MARK ++ good_license)].
Proof.
  eexists _, _, _. split; [vm_compute; reflexivity|]. split; [vm_compute; reflexivity|]. split; [|vm_compute; reflexivity].
  intros m I. vm_compute in I. repeat (destruct I as [I|I]; [discriminate|]). destruct I.
Qed.
Example C113_saved_case : exists l st, perform_all sample (new_store false false) = Ok (l, st) /\ save_text {| x_utf8 := true; x_loaded := false |} true st = Ok (MARK ++ sample_text) /\
  save_text {| x_utf8 := false; x_loaded := false |} true st = Ok sample_text.
Proof. eexists _, _. split; [vm_compute; reflexivity|]. split; vm_compute; reflexivity. Qed.
