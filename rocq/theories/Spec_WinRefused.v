(** Which of the licenses found on Windows are valid. *)
From Verif Require Import Base Locate Licensecc WinSignature WinMachine AcquireGen.
From Verif Require Import Spec_Ini Spec_Acquire Spec_WinAcquire.

(** the source is there at instant [t] and carries a license that is valid then *)
Definition win_valid_source (ww : win_world) (modulus exponent feature : bytes) (magic : N) (t : nat) (s : source) (es : list (bytes * bytes)) : Prop :=
  exists content, listed (places ww) s t = true /\ supplies (places ww) t s content /\ es = section_entries content feature /\
    win_valid_license ww modulus exponent feature magic es (ww_clock ww t) (ww_machine ww t).
(** the valid licenses of a list of sources, in order *)
Inductive win_valid_among (ww : win_world) (modulus exponent feature : bytes) (magic : N) (t : nat) : list source -> list (list (bytes * bytes)) -> Prop :=
| wva_nil : win_valid_among ww modulus exponent feature magic t [] []
| wva_valid s l es v : win_valid_source ww modulus exponent feature magic t s es -> win_valid_among ww modulus exponent feature magic t l v ->
    win_valid_among ww modulus exponent feature magic t (s :: l) (es :: v)
| wva_other s l v : (forall es, ~ win_valid_source ww modulus exponent feature magic t s es) -> win_valid_among ww modulus exponent feature magic t l v ->
    win_valid_among ww modulus exponent feature magic t (s :: l) v.
(** the same product, calendar and instant (key and hardware count through what is valid);
    files, environment, hint and places to search may be different *)
Definition win_same_judge (ww : win_world) (t : nat) (ww' : win_world) (t' : nat) : Prop :=
  ww_project ww' = ww_project ww /\ ww_magic ww' = ww_magic ww /\ ww_mktime ww' = ww_mktime ww /\ ww_clock ww' t' = ww_clock ww t.
(** the same surroundings, apart from environment, module path and the places enabled *)
Definition win_same_surroundings (ww ww' : win_world) : Prop :=
  ww_project ww' = ww_project ww /\ ww_magic ww' = ww_magic ww /\ ww_good ww' = ww_good ww /\ ww_file ww' = ww_file ww /\ ww_clock ww' = ww_clock ww /\
  ww_mktime ww' = ww_mktime ww /\ ww_provider ww' = ww_provider ww /\ ww_key ww' = ww_key ww /\ ww_machine ww' = ww_machine ww.
