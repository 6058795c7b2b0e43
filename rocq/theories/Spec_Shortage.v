(** What can be expected of acquire_license when calls of OpenSSL fail. *)
From Verif Require Import Base HwId Registry Ini Network Disks ExecEnv Strategies Locate Licensecc Trace OpenSsl.
From Verif Require Import Spec_Strings Spec_Ini Spec_Hw Spec_Acquire Spec_AcquireGen.

(** Whatever does not fail answers as it does in [w]; a read that fails reads nothing. *)
Definition part_of (w : world) (o : openssl) : Prop :=
  (os_key o = true -> w_key_ok w = true) /\
  (forall sig, os_read o sig = w_bio w sig \/ (fst (os_read o sig) <= 0)%Z) /\
  (forall text s, os_final o text s = true -> w_verify w text s = true).
(** One of the calls that verifying needs fails. *)
Definition blind (o : openssl) : Prop :=
  os_key_bio o = false \/ os_key o = false \/ os_pkey o = false \/ os_assign o = false \/ os_ctx o = false \/ os_init o = false \/
  (forall text, os_update o text = false) \/ (forall text s, os_final o text s = false).
(** Good signatures have [n] bytes (128 for a key of 1024 bits). *)
Definition signatures_of_size (w : world) (n : nat) : Prop := forall text s, w_verify w text s = true -> length s = n.
(** No license there is has a signature whose text, as it is in the license, has [n] characters
    (base64 of n bytes is longer). *)
Definition texts_not_of_size (w : world) (hint : option location) (t t' : nat) (feature : bytes) (n : nat) : Prop :=
  forall s content sig, In s (sources w hint) -> given w t t' s content -> license_form (section_entries content feature) sig -> length sig <> n.

(** The calls that verifying this signature needs, one by one, all do their work. *)
Definition served (w : world) (o : openssl) : Prop :=
  os_key_bio o = true /\ os_key o = w_key_ok w /\ os_pkey o = true /\ os_assign o = true /\ os_b64 o = true /\ os_encoded o = true /\
  os_ctx o = true /\ os_init o = true /\ (forall text, os_update o text = true) /\
  (forall sig, os_read o sig = w_bio w sig) /\ (forall text s, os_final o text s = w_verify w text s).
