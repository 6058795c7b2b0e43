(** When two worlds, or two license texts, are the same as far as a feature is
    concerned. *)
From Verif Require Import Base CTypes StringUtils Dates Base64 HwId Registry Ini Network Disks ExecEnv Strategies Locate Licensecc.
From Verif Require Import Spec_Strings Spec_Ini Spec_Registry Spec_Acquire.

(** what is read of a file: at most 4096 bytes *)
Definition readable (f : file) : bytes := firstn (N.to_nat (N.min (f_size f) 4096)) (f_data f).
(** two files (if any) with the same entries for the feature [f] *)
Definition file_agree (f : bytes) (a b : option file) : Prop :=
  match a, b with
  | Some a, Some b => section_entries (readable a) f = section_entries (readable b) f
  | None, None => True
  | _, _ => False
  end.
(** entries that say the same: every name is spelled the same when first used, and has the
    same last value *)
Definition alike (es es' : list (bytes * bytes)) : Prop :=
  forall k, first_spelling es k = first_spelling es' k /\ last_value es k = last_value es' k.
(** two files (if any) with entries for the feature [f] that say the same *)
Definition file_alike (f : bytes) (a b : option file) : Prop :=
  match a, b with
  | Some a, Some b => alike (section_entries (readable a) f) (section_entries (readable b) f)
  | None, None => True
  | _, _ => False
  end.
(** the same project, keys, clock and hardware *)
Definition same_checks (w w' : world) : Prop :=
  w_project w' = w_project w /\ w_magic w' = w_magic w /\ w_clock w' = w_clock w /\
  w_mktime w' = w_mktime w /\ w_bio w' = w_bio w /\ w_key_ok w' = w_key_ok w /\ w_verify w' = w_verify w /\ w_machine w' = w_machine w.
(** the same places enabled, and the same values for those enabled *)
Definition same_places (w w' : world) : Prop :=
  w_near_module w' = w_near_module w /\ w_with_env w' = w_with_env w /\
  (w_near_module w = true -> w_module w' = w_module w) /\
  (w_with_env w = true -> forall v, w_getenv w' v = w_getenv w v).
(** lines of text *)
Definition plain_line (l : bytes) : Prop := forall c, In c l -> is_eol c = false /\ c <> NUL.
Definition unlines (ls : list bytes) : bytes := concat (map (fun l => l ++ [LF]) ls).
(** not a lone "[" (which continues on the next line) *)
Definition not_open (l : bytes) : Prop := beqb (strip l) ["["%char] = false.
Definition header_line (l : bytes) : Prop := exists n, meaning l = LHeader n.
