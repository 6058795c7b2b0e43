(** What acquire_license is expected to do on Windows: what a good signature is there, and
    what identifies the machine. *)
From Verif Require Import Base CTypes StringUtils Dates Base64 HwId Registry Ini Network Disks ExecEnv Strategies Locate Licensecc Shared Trace WinSignature WinMachine AcquireGen.
From Verif Require Import Spec_Strings Spec_Base64 Spec_Dates Spec_HwId Spec_Hw Spec_Ini Spec_Registry Spec_Acquire Spec_AcquireGen Spec_Der Prop_WinSig Spec_WinNet Spec_Windows.

(** the provider is there, the signature is base64, and what it decodes to is a signature of
    the hash of the text under the key with these numbers (lengths are 32 bits) *)
Definition win_good (v : provider) (modulus exponent text sig : bytes) : Prop :=
  exists h, hashes v (truncated text) h /\ decodable sig /\ decoded sig <> [] /\ pv_open_rsa v = true /\
    pv_import v exponent modulus = true /\ pv_verify v exponent modulus h (truncated (decoded sig)) = true.
(** the code is of something the machine has *)
Definition win_identifies (m : win_machine) (text : bytes) : Prop :=
  exists h d, denotes text h /\ win_own m (strategy_bits h) d /\ data53 h = d7_53 d.
Definition win_means (ww : win_world) (modulus exponent : bytes) : means :=
  {| mn_good := win_good (ww_provider ww) modulus exponent; mn_ident := fun i code => win_identifies (ww_machine ww i) code |}.

(** The library is built with a key of 1024 bits; the system delivers its network adapters
    whenever it is asked. *)
Definition win_ready (ww : win_world) (modulus exponent : bytes) : Prop :=
  key_1024 (ww_key ww) modulus exponent /\ forall i, healthy (ww_machine ww i).
(** the names of the sources leave room in a license reference (260 characters) *)
Definition short_names (ww : win_world) (hint : option location) : Prop :=
  forall s, In s (sources (places ww) hint) -> length (cstr (name_of s)) < 260.

(** A valid license: of the right form, with a good signature of its contents for this
    feature, with the magic number of the project, in time, and for this machine if it is
    for one. *)
Definition win_valid_license (ww : win_world) (modulus exponent feature : bytes) (magic : N) (es : list (bytes * bytes)) (now : Z) (m : win_machine) : Prop :=
  exists sig limits, license_form es sig /\ limits_of es limits /\ win_good (ww_provider ww) modulus exponent (signed_text feature limits) sig /\
    magic = ww_magic ww /\ in_time (places ww) es now /\ (forall code, locked es code -> win_identifies m code).
Definition win_static (ww : win_world) : Prop :=
  forall i j, ww_good ww i = ww_good ww j /\ ww_file ww i = ww_file ww j /\ ww_clock ww i = ww_clock ww j /\ ww_machine ww i = ww_machine ww j.
