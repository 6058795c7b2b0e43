(** acquire_license on Windows when calls of the cryptography provider fail, differently for
    each signature that is verified: the call of C78, the provider no longer the same all the time. *)
From Verif Require Import Base HwId Registry Ini Network Disks ExecEnv Strategies Locate Licensecc Shared Trace WinSignature WinMachine AcquireGen.

(** os/windows/signature_verifier.cpp 182-244 as called by limits/license_verifier.cpp 23-34.
    [v text sig]: what the calls of the provider and of the heap answer while this signature of
    this text is verified (the same license listed twice meets the same answers). The rest as in
    [win_backend]. *)
Definition short_win_backend (ww : win_world) (v : bytes -> bytes -> provider) : backend :=
  {| bk_ref := WIN_MAX_PATH;
     bk_verify := fun text sig => ret <-- fst (win_verify_signature (v text sig) (ww_key ww) text sig) ;; Ok (is_ok ret);
     bk_validate := fun i code => s_validate_pc_signature (win_readings (ww_machine ww i)) code |}.
Definition short_win_acquire_license (ww : win_world) (v : bytes -> bytes -> provider) : option caller -> option location -> option out_info -> M (event_type * option out_info) :=
  g_acquire_license (places ww) (short_win_backend ww v).
