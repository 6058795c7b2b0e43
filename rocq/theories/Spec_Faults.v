(** When a call of acquire_license does not return: all circumstances under which it
    lets an exception escape or has undefined behaviour. *)
From Verif Require Import Base CTypes StringUtils Dates Base64 HwId Registry Ini Network Disks ExecEnv Strategies Locate Licensecc.
From Verif Require Import Spec_Listing Spec_Strings Spec_Base64 Spec_Dates Spec_HwId Spec_Hw Spec_Ini Spec_Registry Spec_Acquire.

Inductive fault := FThrow (e : exn) | FUndef (u : ub).
(** the fault a computation ends with *)
Inductive raises {A} : res A -> fault -> Prop :=
| raises_throw e : raises (Throw e) (FThrow e)
| raises_undef u : raises (Undef u) (FUndef u).

(** the entries and the signature of a license in one of the sources, as they may be
    read from the instant [t] on *)
Definition carried (w : world) (feature : bytes) (hint : option location) (t : nat) (es : list (bytes * bytes)) (sig : bytes) : Prop :=
  exists s t' content, In s (sources w hint) /\ present w t t' s /\ given w t t' s content /\
    es = section_entries content feature /\ license_form es sig.

(** [hazard ... f]: there is a reason for the call to end with the fault [f]. *)
Inductive hazard (w : world) (c : option caller) (hint : option location) (t : nat) : fault -> Prop :=
(* the feature name is not terminated *)
| hz_feature x : c = Some x -> ~ In NUL (ci_feature x) -> hazard w c hint t (FUndef UbRead)
(* the text of the hint is not terminated *)
| hz_hint l : hint = Some l -> ~ In NUL (loc_data l) -> hazard w c hint t (FUndef UbRead)
(* the hint is of no known type *)
| hz_type l : hint = Some l -> cstr (firstn HINT_SIZE (loc_data l)) <> [] -> ~ In (loc_type l) [0; 1; 2]%Z -> hazard w c hint t (FThrow ExLogic)
(* a path is too long to be recorded *)
| hz_long s : In s (sources w hint) -> 1024 <= length (cstr (name_of s)) -> hazard w c hint t (FUndef UbRead)
(* a file exists when looked for but cannot be read afterwards *)
| hz_vanished p i j : In (SFile p) (sources w hint) -> t <= i < j -> listed w (SFile p) i = true -> w_file w j (cstr p) = None ->
    hazard w c hint t (FThrow ExRuntime)
(* LICENSE_DATA is set but LICENSE_LOCATION is not *)
| hz_unset d : w_with_env w = true -> variable w DATA = Some d -> looks d <> FmtUnknown -> w_getenv w LOCATION = None ->
    hazard w c hint t (FUndef UbNull)
(* an encoded license does not decode to something with a NUL in it *)
| hz_unterminated n s : In (SEncoded n s) (sources w hint) -> decodable s -> ~ In NUL (decoded s) -> hazard w c hint t (FUndef UbRead)
(* ... or cannot be decoded at all *)
| hz_cut n s : In (SEncoded n s) (sources w hint) -> over_read s -> hazard w c hint t (FUndef UbRead)
| hz_padding n s : In (SEncoded n s) (sources w hint) -> strip_lf s = bs "==" -> hazard w c hint t (FThrow ExLength)
(* a signature decodes to too much, or the decoder fails *)
| hz_signature es sig : carried w (feature_of w (option_map ci_feature c)) hint t es sig -> w_key_ok w = true ->
    (fst (w_bio w sig) < 0 \/ 512 <= fst (w_bio w sig))%Z -> hazard w c hint t (FUndef UbWrite)
(* the end date of a license, authentic or not, is malformed *)
| hz_valid_to es sig d : carried w (feature_of w (option_map ci_feature c)) hint t es sig ->
    exact_value es (bs "valid-to") = Some d -> (forall y m day, ~ date_text d y m day) -> hazard w c hint t (FThrow ExInvalidArg)
(* the days left do not fit an int *)
| hz_days es sig s i q : carried w (feature_of w (option_map ci_feature c)) hint t es sig -> dated w es "valid-to" s -> t <= i ->
    rounded (s - w_clock w i) 86400 q -> (q < -2147483648 \/ 2147483647 < q)%Z -> hazard w c hint t (FUndef UbOverflow)
(* the start date of a license with a good signature is malformed *)
| hz_valid_from es sig d : carried w (feature_of w (option_map ci_feature c)) hint t es sig ->
    signature_good w (feature_of w (option_map ci_feature c)) es sig -> magic_of (option_map ci_magic c) = w_magic w ->
    exact_value es (bs "valid-from") = Some d -> (forall y m day, ~ date_text d y m day) -> hazard w c hint t (FThrow ExInvalidArg)
(* the hardware identifier of a license with a good signature is cut short ... *)
| hz_identifier es sig code : carried w (feature_of w (option_map ci_feature c)) hint t es sig ->
    signature_good w (feature_of w (option_map ci_feature c)) es sig -> magic_of (option_map ci_magic c) = w_magic w ->
    locked es code -> over_read (undashed code) -> hazard w c hint t (FUndef UbRead)
(* ... or is that of a disk, and listing the disks has undefined behaviour *)
| hz_disks es sig code h j u : carried w (feature_of w (option_map ci_feature c)) hint t es sig ->
    signature_good w (feature_of w (option_map ci_feature c)) es sig -> magic_of (option_map ci_magic c) = w_magic w ->
    locked es code -> denotes code h -> strategy_bits h = 2%Z -> t <= j -> disks_of (hw_disks (w_machine w j)) = Undef u -> hazard w c hint t (FUndef u)
(* no license to look at and nothing to complain about *)
| hz_silent : sources w hint = [] -> (forall e, ~ place_failure w hint e) -> hazard w c hint t (FUndef UbNull).
