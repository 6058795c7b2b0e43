(** Which of the licenses found are valid. *)
From Verif Require Import Base Strategies Locate Licensecc.
From Verif Require Import Spec_Ini Spec_Acquire.

(** the source is there at instant [t] and carries a license that is valid then *)
Definition valid_source (w : world) (feature : bytes) (magic : N) (t : nat) (s : source) (es : list (bytes * bytes)) : Prop :=
  exists content, listed w s t = true /\ supplies w t s content /\ es = section_entries content feature /\
    valid_license w feature magic es (w_clock w t) (w_machine w t).
(** the valid licenses of a list of sources, in order *)
Inductive valid_among (w : world) (feature : bytes) (magic : N) (t : nat) : list source -> list (list (bytes * bytes)) -> Prop :=
| va_nil : valid_among w feature magic t [] []
| va_valid s l es v : valid_source w feature magic t s es -> valid_among w feature magic t l v -> valid_among w feature magic t (s :: l) (es :: v)
| va_other s l v : (forall es, ~ valid_source w feature magic t s es) -> valid_among w feature magic t l v -> valid_among w feature magic t (s :: l) v.
(** the same product, key, calendar, instant and hardware; files, environment, hint and
    places to search may be different *)
Definition same_judge (w : world) (t : nat) (w' : world) (t' : nat) : Prop :=
  w_project w' = w_project w /\ w_magic w' = w_magic w /\ w_mktime w' = w_mktime w /\ w_bio w' = w_bio w /\ w_key_ok w' = w_key_ok w /\
  w_verify w' = w_verify w /\ w_clock w' t' = w_clock w t /\ w_machine w' t' = w_machine w t.
(** what a LicenseInfo says about the license, apart from the events *)
Definition license_fields (o : out_info) := (o_expiry_date o, o_days_left o, o_has_expiry o, o_linked_to_pc o, o_proprietary o).
