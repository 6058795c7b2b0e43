(** When a call of acquire_license on Windows does not return: all circumstances under which
    it lets an exception escape or has undefined behaviour (with names below 260 characters). *)
From Verif Require Import Base CTypes StringUtils Dates Base64 HwId Registry Ini Network Disks ExecEnv Strategies Locate Licensecc Shared Trace WinSignature WinMachine AcquireGen.
From Verif Require Import Spec_Listing Spec_Strings Spec_Base64 Spec_Dates Spec_HwId Spec_Hw Spec_Ini Spec_Registry Spec_Acquire Spec_AcquireGen Spec_Faults Spec_Der Prop_WinSig Spec_WinNet Spec_Windows Spec_WinAcquire.

(** what is signed in a license of the feature with these entries *)
Definition signs (feature : bytes) (es : list (bytes * bytes)) (text : bytes) : Prop := exists m, limits_of es m /\ text = signed_text feature m.

Inductive win_hazard (ww : win_world) (modulus exponent : bytes) (c : option caller) (hint : option location) (t : nat) : fault -> Prop :=
(* the feature name is not terminated *)
| wh_feature x : c = Some x -> ~ In NUL (ci_feature x) -> win_hazard ww modulus exponent c hint t (FUndef UbRead)
(* the text of the hint is not terminated *)
| wh_hint l : hint = Some l -> ~ In NUL (loc_data l) -> win_hazard ww modulus exponent c hint t (FUndef UbRead)
(* the hint is of no known type *)
| wh_type l : hint = Some l -> cstr (firstn HINT_SIZE (loc_data l)) <> [] -> ~ In (loc_type l) [0; 1; 2]%Z -> win_hazard ww modulus exponent c hint t (FThrow ExLogic)
(* a file exists when looked for but cannot be read afterwards *)
| wh_vanished p i j : In (SFile p) (sources (places ww) hint) -> t <= i < j -> ww_good ww i (cstr p) = true -> ww_file ww j (cstr p) = None ->
    win_hazard ww modulus exponent c hint t (FThrow ExRuntime)
(* LICENSE_DATA is set but LICENSE_LOCATION is not *)
| wh_unset d : ww_with_env ww = true -> variable (places ww) DATA = Some d -> looks d <> FmtUnknown -> ww_getenv ww LOCATION = None ->
    win_hazard ww modulus exponent c hint t (FUndef UbNull)
(* an encoded license does not decode to something with a NUL in it *)
| wh_unterminated n s : In (SEncoded n s) (sources (places ww) hint) -> decodable s -> ~ In NUL (decoded s) -> win_hazard ww modulus exponent c hint t (FUndef UbRead)
(* ... or cannot be decoded at all *)
| wh_cut n s : In (SEncoded n s) (sources (places ww) hint) -> over_read s -> win_hazard ww modulus exponent c hint t (FUndef UbRead)
| wh_padding n s : In (SEncoded n s) (sources (places ww) hint) -> strip_lf s = bs "==" -> win_hazard ww modulus exponent c hint t (FThrow ExLength)
(* there is a license, and no provider for hashing *)
| wh_provider es sig : carried (places ww) (feature_of (places ww) (option_map ci_feature c)) hint t es sig -> pv_open_hash (ww_provider ww) = false ->
    win_hazard ww modulus exponent c hint t (FThrow ExLogic)
(* the signature of a license whose text can be hashed is cut short, is "==", decodes to nothing *)
| wh_sig_cut es sig text h : carried (places ww) (feature_of (places ww) (option_map ci_feature c)) hint t es sig ->
    signs (feature_of (places ww) (option_map ci_feature c)) es text -> hashes (ww_provider ww) (truncated text) h -> over_read sig ->
    win_hazard ww modulus exponent c hint t (FUndef UbRead)
| wh_sig_padding es sig text h : carried (places ww) (feature_of (places ww) (option_map ci_feature c)) hint t es sig ->
    signs (feature_of (places ww) (option_map ci_feature c)) es text -> hashes (ww_provider ww) (truncated text) h -> strip_lf sig = bs "==" ->
    win_hazard ww modulus exponent c hint t (FThrow ExLength)
| wh_sig_empty es sig text h : carried (places ww) (feature_of (places ww) (option_map ci_feature c)) hint t es sig ->
    signs (feature_of (places ww) (option_map ci_feature c)) es text -> hashes (ww_provider ww) (truncated text) h -> decodable sig -> decoded sig = [] ->
    win_hazard ww modulus exponent c hint t (FUndef UbNull)
(* the end date of a license, authentic or not, is malformed *)
| wh_valid_to es sig d : carried (places ww) (feature_of (places ww) (option_map ci_feature c)) hint t es sig ->
    exact_value es (bs "valid-to") = Some d -> (forall y m day, ~ date_text d y m day) -> win_hazard ww modulus exponent c hint t (FThrow ExInvalidArg)
(* the days left do not fit an int *)
| wh_days es sig s i q : carried (places ww) (feature_of (places ww) (option_map ci_feature c)) hint t es sig -> dated (places ww) es "valid-to" s -> t <= i ->
    rounded (s - ww_clock ww i) 86400 q -> (q < -2147483648 \/ 2147483647 < q)%Z -> win_hazard ww modulus exponent c hint t (FUndef UbOverflow)
(* the start date of a license with a good signature is malformed *)
| wh_valid_from es sig text d : carried (places ww) (feature_of (places ww) (option_map ci_feature c)) hint t es sig ->
    signs (feature_of (places ww) (option_map ci_feature c)) es text -> win_good (ww_provider ww) modulus exponent text sig -> magic_of (option_map ci_magic c) = ww_magic ww ->
    exact_value es (bs "valid-from") = Some d -> (forall y m day, ~ date_text d y m day) -> win_hazard ww modulus exponent c hint t (FThrow ExInvalidArg)
(* the hardware identifier of a license with a good signature is cut short *)
| wh_identifier es sig text code : carried (places ww) (feature_of (places ww) (option_map ci_feature c)) hint t es sig ->
    signs (feature_of (places ww) (option_map ci_feature c)) es text -> win_good (ww_provider ww) modulus exponent text sig -> magic_of (option_map ci_magic c) = ww_magic ww ->
    locked es code -> over_read (undashed code) -> win_hazard ww modulus exponent c hint t (FUndef UbRead)
(* no license to look at and nothing to complain about *)
| wh_silent : sources (places ww) hint = [] -> (forall e, ~ place_failure (places ww) hint e) -> win_hazard ww modulus exponent c hint t (FUndef UbNull).
