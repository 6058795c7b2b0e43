(** What is left of a text that is cut short (C111). *)
From Verif Require Import Base CTypes StringUtils Dates Base64 HwId Registry Ini Network Disks ExecEnv Strategies Locate Licensecc Spec_Ini Spec_Strings Spec_Acquire.

Definition begins (v' v : bytes) : Prop := exists t, v = v' ++ t.
(** the items of a text and those of a beginning of it: the first ones, of which the last one may
    be an entry whose value has lost its end *)
Inductive cut_items : list item -> list item -> Prop :=
| cut_between a b : cut_items a (a ++ b)
| cut_within a b sec k v v' : begins v' v -> cut_items (a ++ [IEntry sec k v']) (a ++ IEntry sec k v :: b).
(** the same for the entries of a section *)
Inductive cut_entries : list (bytes * bytes) -> list (bytes * bytes) -> Prop :=
| cut_before a b : cut_entries a (a ++ b)
| cut_inside a b k v v' : begins v' v -> cut_entries (a ++ [(k, v')]) (a ++ (k, v) :: b).
(** The two signatures verify no two different texts. *)
Definition one_text (w : world) (sig sig' : bytes) : Prop :=
  forall n d n' d' text text', w_bio w sig = (n, d) -> w_bio w sig' = (n', d') ->
    w_verify w text (firstn (Z.to_nat n) d) = true -> w_verify w text' (firstn (Z.to_nat n') d') = true -> text = text'.
(** no blanks around names and values, and no name is empty *)
Definition tidy_entries (es : list (bytes * bytes)) : Prop :=
  forall k v, In (k, v) es -> k <> [] /\ trimmed k = k /\ trimmed v = v.
