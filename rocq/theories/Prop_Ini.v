(** Properties C47 - C49: reading, looking up and saving INI texts. *)
From Verif Require Import Base Ini P_Base Spec_Ini P_Ini P_IniSave.

(** C47. Parsing terminates on every text, never fails, and gives exactly the items
    of the line by line reading of Spec_Ini. *)
Theorem C47_line_oriented : forall text : bytes,
  ini_items text = Some (text_items text) /\ exists d, ini_load text = Ok d.
Proof. intros text. split; [apply ini_items_ok|apply ini_load_total]. Qed.
Print Assumptions C47_line_oriented.

(** Nothing after the first NUL is read. *)
Theorem C47_stops_at_nul : forall text junk : bytes, ini_load (cstr text ++ NUL :: junk) = ini_load text.
Proof.
  intros text junk. unfold ini_load. rewrite !ini_items_ok. unfold text_items. rewrite cstr_app_nul by apply cstr_nul_free. reflexivity.
Qed.
Print Assumptions C47_stops_at_nul.

(** The names, keys and values it finds have no line end, NUL or surrounding space. *)
Theorem C47_clean : forall (text : bytes) d, ini_load text = Ok d -> clean_sections d.
Proof. exact clean_load. Qed.
Print Assumptions C47_clean.

Example C47_case : ini_items (bs "; c" ++ LF :: bs " [ MYPROD ]junk" ++ CR :: LF :: bs "noise" ++ LF :: bs "  sig = a=b " ++ LF :: bs "=x")
  = Some [ISection (bs "MYPROD"); IEntry (SecNamed (bs "MYPROD")) (bs "sig") (bs "a=b")].
Proof. reflexivity. Qed.

(** C48. The comparison is a strict weak order; equivalence is ASCII
    case-insensitive equality. *)
Theorem C48_strict_weak_order :
  (forall a, nocase_less a a = false) /\
  (forall a b c, nocase_less a b = true -> nocase_less b c = true -> nocase_less a c = true) /\
  (forall a b, (nocase_less a b = false /\ nocase_less b a = false) <-> same_name a b).
Proof. split; [exact nocase_irrefl|]. split; [exact nocase_trans|exact nocase_incomparable]. Qed.
Print Assumptions C48_strict_weak_order.

(** A lookup gives the last value written for the key in any section of the name;
    the size of a section is its number of different keys (-1: no such section). *)
Theorem C48_lookup : forall (text : bytes) d sec key, ini_load text = Ok d ->
  get_value d sec key = last_value (section_entries text sec) key /\
  get_section_size d sec = (if has_section_named text sec then Z.of_nat (distinct_keys (section_entries text sec)) else (-1)%Z) /\
  (In key (get_all_keys d sec) <-> first_spelling (section_entries text sec) key = Some key).
Proof.
  intros text d sec key H. split; [apply ini_load_value, H|]. split; [apply ini_load_size, H|apply ini_load_keys, H].
Qed.
Print Assumptions C48_lookup.

(** Spelled out without the helper: the value is that of some occurrence with no
    later occurrence, and there is none exactly when the key does not occur. *)
Theorem C48_last_wins : forall (text : bytes) d sec key v, ini_load text = Ok d ->
  (get_value d sec key = Some v <->
   exists before k after, section_entries text sec = before ++ (k, v) :: after /\ same_name k key /\
     forall k' v', In (k', v') after -> ~ same_name k' key) /\
  (get_value d sec key = None <-> forall k' v', In (k', v') (section_entries text sec) -> ~ same_name k' key).
Proof.
  intros text d sec key v H. rewrite (ini_load_value _ _ _ _ H). split; [apply last_value_some|apply last_value_none].
Qed.
Print Assumptions C48_last_wins.

Example C48_case : exists d, ini_load (bs "[P]" ++ LF :: bs "Key = 1" ++ LF :: bs "[q]" ++ LF :: bs "key=2" ++ LF :: bs "[p]" ++ LF :: bs "kEY=3") = Ok d /\
  get_value d (bs "P") (bs "KEY") = Some (bs "3") /\ get_section_size d (bs "p") = 1%Z.
Proof. eexists. split; [reflexivity|]. split; reflexivity. Qed.

(** C49 *)
Theorem C49_save_load : forall d, clean_sections d -> unnamed_first d -> ini_load (ini_save d) = Ok d.
Proof. exact save_load. Qed.
Print Assumptions C49_save_load.

(** In particular whatever was loaded from a text without a "[]" header line can be
    saved and loaded again. *)
Theorem C49_reload : forall (text : bytes) d, ini_load text = Ok d ->
  (forall n, In (ISection n) (text_items text) -> n <> []) -> ini_load (ini_save d) = Ok d.
Proof. intros text d H Hn. apply save_load; [eapply clean_load, H|eapply unnamed_load; eassumption]. Qed.
Print Assumptions C49_reload.

(** With one, it may not: the entries of the nameless section move to the section before. *)
Theorem C49_nameless_header_refuted : exists text d d', ini_load text = Ok d /\ ini_load (ini_save d) = Ok d' /\
  get_value d [] (bs "y") = Some (bs "2") /\ get_value d' [] (bs "y") = None.
Proof.
  exists (bs "[A]" ++ LF :: bs "x=1" ++ LF :: bs "[]" ++ LF :: bs "y=2").
  eexists. eexists. split; [reflexivity|]. split; [reflexivity|]. split; reflexivity.
Qed.
Print Assumptions C49_nameless_header_refuted.

Example C49_case : let d := [([], [(bs "a", bs "1")]); (bs "PROD", [(bs "sig", bs "x = y"); (bs "lic_ver", [])])] in
  clean_sections d /\ unnamed_first d.
Proof.
  cbv zeta. destruct (ini_load_total (bs "a=1" ++ LF :: bs "[PROD]" ++ LF :: bs "sig=x = y" ++ LF :: bs "lic_ver=")) as [d H].
  assert (E : Ok d = Ok [([], [(bs "a", bs "1")]); (bs "PROD", [(bs "sig", bs "x = y"); (bs "lic_ver", [])])]) by (rewrite <- H; reflexivity).
  injection E as ->. split; [eapply clean_load, H|]. eapply unnamed_load; [|exact H].
  intros n Hin. vm_compute in Hin. destruct Hin as [E|[E|[E|[E|[]]]]]; injection E as <- || discriminate E. discriminate.
Qed.
