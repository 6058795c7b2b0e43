(** What can be expected of acquire_license on Windows when calls of the provider fail. *)
From Verif Require Import Base HwId Registry Ini Network Disks ExecEnv Strategies Locate Licensecc Shared Trace WinSignature WinMachine AcquireGen.

(** Whatever does not fail in [v] answers as it does in [v0]. The rest of the memory is arbitrary. *)
Definition provider_part (v0 v : provider) : Prop :=
  (pv_open_hash v = true -> pv_open_hash v0 = true) /\
  (pv_object_length v = true -> pv_object_length v0 = true) /\
  (pv_hash_length v = true -> pv_hash_length v0 = true) /\
  (pv_alloc_object v = true -> pv_alloc_object v0 = true) /\
  (pv_alloc_data v = true -> pv_alloc_data v0 = true) /\
  (pv_create_hash v = true -> pv_create_hash v0 = true) /\
  (forall text h, pv_sha256 v text = Some h -> pv_sha256 v0 text = Some h) /\
  (pv_open_rsa v = true -> pv_open_rsa v0 = true) /\
  (forall e n, pv_import v e n = true -> pv_import v0 e n = true) /\
  (forall e n h s, pv_verify v e n h s = true -> pv_verify v0 e n h s = true).
(** One of the calls that verifying needs fails. *)
Definition provider_blind (v : provider) : Prop :=
  pv_open_hash v = false \/ pv_object_length v = false \/ pv_hash_length v = false \/ pv_alloc_object v = false \/ pv_alloc_data v = false \/
  pv_create_hash v = false \/ (forall text, pv_sha256 v text = None) \/ pv_open_rsa v = false \/
  (forall e n, pv_import v e n = false) \/ (forall e n h s, pv_verify v e n h s = false).
(** All the calls answer as in [v0]. *)
Definition provider_served (v0 v : provider) : Prop :=
  pv_open_hash v = pv_open_hash v0 /\ pv_object_length v = pv_object_length v0 /\ pv_hash_length v = pv_hash_length v0 /\
  pv_alloc_object v = pv_alloc_object v0 /\ pv_alloc_data v = pv_alloc_data v0 /\ pv_create_hash v = pv_create_hash v0 /\
  (forall text, pv_sha256 v text = pv_sha256 v0 text) /\ pv_open_rsa v = pv_open_rsa v0 /\
  (forall e n, pv_import v e n = pv_import v0 e n) /\ (forall e n h s, pv_verify v e n h s = pv_verify v0 e n h s).
