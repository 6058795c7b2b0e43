(** Values of several lines that survive being written and read again. *)
From Verif Require Import Base Ini Spec_Ini Spec_IniEdit Spec_IniMulti.

(** no NUL, no CR, no line END_OF_TEXT, and if it is written on one line it does not start with <<< *)
Definition writable (v : bytes) : Prop :=
  ~ In NUL v /\ ~ In CR v /\ (forall l, In l (text_lines v) -> ~ same_name l (bs "END_OF_TEXT"))
  /\ (opens v = None \/ In LF v \/ strip v <> v).
(** the values a text gives to a key when values may have several lines *)
Definition text_values_ml (text sec key : bytes) : option (list bytes) :=
  option_map (fun items => map snd (filter (fun e => same_nameb (fst e) key) (flat_map (item_entries sec) items))) (text_items_ml text).
