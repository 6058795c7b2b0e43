(** acquire_license when calls of OpenSSL fail: the call of every other property, with the
    signature verifier call by call (OpenSsl.v) instead of its summary with memory for
    everything. *)
From Verif Require Import Base HwId Registry Ini Network Disks ExecEnv Strategies Locate Licensecc Trace OpenSsl AcquireGen.

(** os/openssl/signature_verifier.cpp 44-106 as called by limits/license_verifier.cpp 23-34.
    [o text sig]: what the OpenSSL calls answer while this signature of this text is verified
    (the same license listed twice meets the same answers). Hardware as on Linux. *)
Definition short_backend (w : world) (o : bytes -> bytes -> openssl) : backend :=
  {| bk_ref := MAX_PATH;
     bk_verify := fun text sig =>
       ret <-- fst (openssl_verify (o text sig) text sig) ;;
       Ok (match ret with FUNC_RET_OK => true | _ => false end);
     bk_validate := fun i code => validate_pc_signature (w_machine w i) code |}.
Definition short_acquire_license (w : world) (o : bytes -> bytes -> openssl) : option caller -> option location -> option out_info -> M (event_type * option out_info) :=
  g_acquire_license w (short_backend w o).
