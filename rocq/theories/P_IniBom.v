(** A byte order mark before a text. *)
From Coq Require Import Lia.
From Verif Require Import Base P_Base Ini P_Ini Spec_Ini IniEdit IniBom.

Lemma mark_lines s l ls : lines s = l :: ls -> lines (UTF8_SIGNATURE ++ s) = (UTF8_SIGNATURE ++ l) :: ls.
Proof. intros E. unfold UTF8_SIGNATURE. cbn [app lines]. change (is_eol "239") with false. change (is_eol "187") with false. change (is_eol "191") with false. cbv iota. rewrite E. reflexivity. Qed.
Lemma mark_cstr s : cstr (UTF8_SIGNATURE ++ s) = UTF8_SIGNATURE ++ cstr s.
Proof. unfold cstr, UTF8_SIGNATURE. cbn [app span]. destruct (span _ s) as [a b]. reflexivity. Qed.
Lemma strip_first c l : is_gap c = false -> exists r, strip (c :: l) = c :: r.
Proof.
  intros G. rewrite strip_spec. cbn [drop_while]. rewrite G. destruct (rdrop_while_split is_gap (c :: l)) as (g & E & F). destruct (rdrop_while is_gap (c :: l)) as [|x r].
  - cbn [app] in E. subst g. cbn [forallb] in F. rewrite G in F. discriminate.
  - cbn [app] in E. injection E as <- _. exists r. reflexivity.
Qed.
Lemma mark_meaning l : (exists k v, meaning (UTF8_SIGNATURE ++ l) = LEntry k v) \/ meaning (UTF8_SIGNATURE ++ l) = LNothing.
Proof.
  unfold meaning, UTF8_SIGNATURE. cbn [app]. destruct (strip_first "239" ("187" :: "191" :: l)%char eq_refl) as (r & ->).
  change (Ascii.eqb "239" ";" || Ascii.eqb "239" "#") with false. change (Ascii.eqb "239" "[") with false. cbv iota.
  destruct (cut_at _ _) as [[[|c k] v]|]; [right; reflexivity|left; eauto|right; reflexivity].
Qed.
Lemma mark_plain l : ~ In "="%char l -> meaning (UTF8_SIGNATURE ++ l) = LNothing.
Proof.
  intros N. unfold meaning. destruct (strip (UTF8_SIGNATURE ++ l)) as [|c r] eqn:E; [reflexivity|].
  assert (NI : ~ In "="%char (c :: r)).
  { rewrite <- E, strip_spec. intros I. destruct (rdrop_while_split is_gap (drop_while is_gap (UTF8_SIGNATURE ++ l))) as (g & X & _). assert (J : In "="%char (drop_while is_gap (UTF8_SIGNATURE ++ l))) by (rewrite X; apply in_or_app; left; exact I).
    destruct (drop_while_split is_gap (UTF8_SIGNATURE ++ l)) as (p & Y & _). assert (K : In "="%char (UTF8_SIGNATURE ++ l)) by (rewrite Y; apply in_or_app; right; exact J).
    apply in_app_or in K as [K|K]; [|contradiction]. unfold UTF8_SIGNATURE in K. cbn in K. repeat (destruct K as [K|K]; [discriminate|]). destruct K. }
  assert (C : cut_at "=" (c :: r) = None).
  { clear - NI. induction (c :: r) as [|x t IH]; [reflexivity|]. cbn [cut_at]. destruct (Ascii.eqb_spec x "="); [subst; exfalso; apply NI; left; reflexivity|]. rewrite IH; [reflexivity|]. intros I. apply NI. right. exact I. }
  rewrite C. destruct (Ascii.eqb c ";" || Ascii.eqb c "#"); [reflexivity|]. destruct (Ascii.eqb_spec c "["); [|reflexivity]. exfalso.
  destruct (strip_first "239" ("187" :: "191" :: l)%char eq_refl) as (q & Q). unfold UTF8_SIGNATURE in E. cbn [app] in E. rewrite Q in E. injection E as <- _. discriminate.
Qed.
Lemma mark_not_open l : beqb (strip (UTF8_SIGNATURE ++ l)) ["["%char] = false.
Proof. unfold UTF8_SIGNATURE. cbn [app]. destruct (strip_first "239" ("187" :: "191" :: l)%char eq_refl) as (r & ->). reflexivity. Qed.
(** the first line with the mark says nothing or gives an entry to the unnamed section *)
Lemma mark_items s l ls : lines (cstr s) = l :: ls ->
  text_items (UTF8_SIGNATURE ++ s) = (match meaning (UTF8_SIGNATURE ++ l) with LEntry k v => [IEntry (SecNamed []) k v] | _ => [] end) ++ read_lines (SecNamed []) false ls.
Proof.
  intros E. unfold text_items. rewrite mark_cstr, (mark_lines _ _ _ E). cbn [read_lines]. rewrite mark_not_open. destruct (mark_meaning l) as [(k & v & ->)| ->]; reflexivity.
Qed.
(** before the first header all entries are in the section it started with, or nowhere *)
Lemma no_header ls : forall sec open, (forall n, ~ In (ISection n) (read_lines sec open ls)) ->
  forall s k v, In (IEntry s k v) (read_lines sec open ls) -> s = sec \/ s = SecBroken.
Proof.
  induction ls as [|l ls IH]; intros sec open N s k v I; [destruct I|]. cbn [read_lines] in *. set (l' := if open then "["%char :: l else l) in *. destruct (beqb (strip l') _); [eapply IH; eassumption|].
  destruct (meaning l') as [|n| |k0 v0]; [eapply IH; eassumption|destruct (N n); left; reflexivity| |].
  - destruct (IH SecBroken false N s k v I) as [H|H]; right; exact H.
  - destruct I as [I|I]; [injection I as <- _ _; left; reflexivity|]. eapply IH; [|exact I]. intros n H. apply (N n). right. exact H.
Qed.
(** the lines after a header, read from elsewhere: the same headers *)
Lemma headers_same ls : forall sec sec' open n, In (ISection n) (read_lines sec open ls) <-> In (ISection n) (read_lines sec' open ls).
Proof.
  induction ls as [|l ls IH]; intros sec sec' open n; [reflexivity|]. cbn [read_lines]. set (l' := if open then "["%char :: l else l). destruct (beqb (strip l') _); [apply IH|].
  destruct (meaning l') as [|m| |k v]; [apply IH|reflexivity|reflexivity|]. cbn [In]. rewrite (IH sec sec'). split; intros [H|H]; try discriminate; right; exact H.
Qed.
