(** The accesses of a call of acquire_license to its surroundings. *)
From Verif Require Import Base CTypes StringUtils Base64 HwId Registry Ini Network Disks ExecEnv Strategies Locate Licensecc AcquireIo.
From Verif Require Import Spec_Strings Spec_Base64 Spec_Dates Spec_HwId Spec_Hw Spec_Ini Spec_Registry Spec_Acquire Spec_Listing Spec_Faults.

(** what a call asks for, in order *)
Definition accesses (w : world) (c : option caller) (hint : option location) (out : option out_info) (t : nat) : list access :=
  io_accesses w (io_acquire_license w c hint out) t.

(** the path that is looked for, if the source is a file; the path that is read *)
Definition path_of (s : source) : list bytes := match s with SFile p | SNamed p _ => [cstr p] | SText _ _ | SEncoded _ _ => [] end.
Definition read_of (s : source) : list access := match s with SFile p => [Read (cstr p)] | _ => [] end.
(** the sources that are there when they are looked for, one after the other, from the instant [t] on *)
Fixpoint there (w : world) (ss : list source) (t : nat) : list source :=
  match ss with
  | [] => []
  | s :: rest => (if listed w s t then [s] else []) ++ there w rest (t + length (path_of s))
  end.
(** Searching one place: all its files are looked for, then those that are there are read.
    Searching several places: one after the other. *)
Fixpoint searching (w : world) (places : list (list source)) (t : nat) : list access :=
  match places with
  | [] => []
  | ss :: rest =>
      let here := map Looked (flat_map path_of ss) ++ flat_map read_of (there w ss t) in
      here ++ searching w rest (t + length here)
  end.
Definition search (w : world) (hint : option location) (t : nat) : list access := searching w (map g_sources (groups w hint)) t.

(** Checking a license: the time, for the days left; if the signature is good the time again, for
    the dates; if these are right the hardware, if the license is locked to it. *)
Definition dates (es : list (bytes * bytes)) : list access := match exact_value es (bs "valid-to") with Some _ => [Time] | None => [] end.
Inductive checks (w : world) (feature : bytes) (magic : N) (t t' : nat) (es : list (bytes * bytes)) (sig : bytes) : list access -> Prop :=
| ac_forged : ~ signature_good w feature es sig -> checks w feature magic t t' es sig (dates es)
| ac_refused i : signature_good w feature es sig -> t <= i < t' -> magic <> w_magic w \/ out_of_time w es (w_clock w i) ->
    checks w feature magic t t' es sig (dates es ++ [Time])
| ac_open i : signature_good w feature es sig -> t <= i < t' -> magic = w_magic w -> in_time w es (w_clock w i) -> (forall code, ~ locked es code) ->
    checks w feature magic t t' es sig (dates es ++ [Time])
| ac_locked i code : signature_good w feature es sig -> t <= i < t' -> magic = w_magic w -> in_time w es (w_clock w i) -> locked es code ->
    checks w feature magic t t' es sig (dates es ++ [Time; Hardware]).
(** ... as far as it gets when the call does not return *)
Inductive part (w : world) (feature : bytes) (magic : N) (es : list (bytes * bytes)) (sig : bytes) : list access -> Prop :=
| pt_none : part w feature magic es sig []
| pt_dates : part w feature magic es sig (dates es)
| pt_time : signature_good w feature es sig -> part w feature magic es sig (dates es ++ [Time])
| pt_hardware code : signature_good w feature es sig -> magic = w_magic w -> locked es code -> part w feature magic es sig (dates es ++ [Time; Hardware]).
