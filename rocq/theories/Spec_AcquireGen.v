(** What acquire_license is expected to do on any platform: the definitions of Spec_Acquire
    that mention signatures or hardware, with what a good signature is and what identifies
    the machine as parameters. (C78 states them for Windows.) *)
From Verif Require Import Base CTypes StringUtils Dates Base64 HwId Registry Ini Network Disks ExecEnv Strategies Locate Licensecc.
From Verif Require Import Spec_Strings Spec_Base64 Spec_Dates Spec_HwId Spec_Hw Spec_Ini Spec_Registry Spec_Acquire.

(** [mn_good text sig]: sig is a good signature of the text. [mn_ident i code]: the code is
    of something the machine has at instant i. *)
Record means := { mn_good : bytes -> bytes -> Prop; mn_ident : nat -> bytes -> Prop }.
(** the license with these entries is signed *)
Definition p_signature_good (k : means) (feature : bytes) (es : list (bytes * bytes)) (sig : bytes) : Prop :=
  exists m, limits_of es m /\ mn_good k (signed_text feature m) sig.
(** A valid license: for the feature, by the project, now, on the machine of instant [j] *)
Definition p_valid_license (w : world) (k : means) (feature : bytes) (magic : N) (es : list (bytes * bytes)) (now : Z) (j : nat) : Prop :=
  exists sig, license_form es sig /\ p_signature_good k feature es sig /\ magic = w_magic w /\
    in_time w es now /\ (forall code, locked es code -> mn_ident k j code).

(** ** The diagnosis of a license text: what is wrong with it, if anything. [t, t'):
    the instants at which clock and machine may have been consulted. *)
Inductive p_diagnosis (w : world) (k : means) (feature : bytes) (magic : N) (t t' : nat) (es : list (bytes * bytes)) : event_type -> Prop :=
| p_dg_absent : es = [] -> p_diagnosis w k feature magic t t' es PRODUCT_NOT_LICENSED
| p_dg_malformed : es <> [] -> (forall sig, ~ license_form es sig) -> p_diagnosis w k feature magic t t' es LICENSE_MALFORMED
| p_dg_forged sig : license_form es sig -> ~ p_signature_good k feature es sig -> p_diagnosis w k feature magic t t' es LICENSE_CORRUPTED
| p_dg_magic sig : license_form es sig -> p_signature_good k feature es sig -> magic <> w_magic w ->
    p_diagnosis w k feature magic t t' es LICENSE_CORRUPTED
| p_dg_expired sig i : license_form es sig -> p_signature_good k feature es sig -> magic = w_magic w ->
    t <= i < t' -> out_of_time w es (w_clock w i) ->
    p_diagnosis w k feature magic t t' es PRODUCT_EXPIRED
| p_dg_mismatch sig i j code : license_form es sig -> p_signature_good k feature es sig -> magic = w_magic w ->
    t <= i < t' -> in_time w es (w_clock w i) -> t <= j < t' -> locked es code -> ~ mn_ident k j code ->
    p_diagnosis w k feature magic t t' es IDENTIFIERS_MISMATCH
| p_dg_ok i j : t <= i < t' -> t <= j < t' -> p_valid_license w k feature magic es (w_clock w i) j ->
    p_diagnosis w k feature magic t t' es LICENSE_OK.

(** ** One source examined *)
(** What is recorded while a license found is checked: the outcome for its signature,
    then the verdict (which goes unrecorded when it is good and no hardware is asked
    for). *)
Inductive p_checking (w : world) (k : means) (feature : bytes) (es : list (bytes * bytes)) (sig : bytes) : event_type -> list event_type -> Prop :=
| p_ck_forged : ~ p_signature_good k feature es sig -> p_checking w k feature es sig LICENSE_CORRUPTED [LICENSE_CORRUPTED]
| p_ck_free : p_signature_good k feature es sig -> exact_value es (bs "client-signature") = None ->
    p_checking w k feature es sig LICENSE_OK [SIGNATURE_VERIFIED]
| p_ck_verdict code : p_signature_good k feature es sig -> (code = LICENSE_OK -> exists c, locked es c) ->
    p_checking w k feature es sig code [SIGNATURE_VERIFIED; code].
Inductive p_reported (w : world) (k : means) (feature : bytes) (magic : N) (t t' : nat) (s : source) : report -> Prop :=
| p_rep_missing i : t <= i < t' -> listed w s i = false ->
    p_reported w k feature magic t t' s
      {| rp_code := LICENSE_FILE_NOT_FOUND; rp_told := None; rp_reading := []; rp_checking := [] |}
| p_rep_absent content : present w t t' s -> given w t t' s content -> section_entries content feature = [] ->
    p_reported w k feature magic t t' s
      {| rp_code := PRODUCT_NOT_LICENSED; rp_told := None; rp_reading := [PRODUCT_NOT_LICENSED]; rp_checking := [] |}
| p_rep_malformed content : present w t t' s -> given w t t' s content -> section_entries content feature <> [] ->
    (forall sig, ~ license_form (section_entries content feature) sig) ->
    p_reported w k feature magic t t' s
      {| rp_code := LICENSE_MALFORMED; rp_told := None; rp_reading := [PRODUCT_FOUND; LICENSE_MALFORMED]; rp_checking := [] |}
| p_rep_license content sig code x steps : present w t t' s -> given w t t' s content ->
    license_form (section_entries content feature) sig ->
    p_diagnosis w k feature magic t t' (section_entries content feature) code ->
    p_checking w k feature (section_entries content feature) sig code steps ->
    describes w t t' (section_entries content feature) x ->
    p_reported w k feature magic t t' s
      {| rp_code := code; rp_told := Some x; rp_reading := [PRODUCT_FOUND]; rp_checking := steps |}.

(** ** The outcome of a call, completely *)
Record p_outcome (w : world) (k : means) (c : option caller) (hint : option location) (out : option out_info) (t : nat)
       (code : event_type) (out' : option out_info) (t' : nat) (rss : list (list report)) (log : list event) : Prop := {
  (* each source of each place was examined *)
  p_oc_reports : Forall2 (fun g rs => Forall2 (p_reported w k (feature_of w (option_map ci_feature c)) (magic_of (option_map ci_magic c)) t t') (g_sources g) rs)
                 (groups w hint) rss;
  (* this is what was recorded *)
  p_oc_log : map (fun ev => (ev_type ev, ev_ref ev)) log = call_trace (groups w hint) rss;
  (* success: some license is good *)
  p_oc_ok : code = LICENSE_OK <-> In LICENSE_OK (map rp_code (concat rss));
  (* failure: the code is selected among what was recorded *)
  p_oc_fail : code <> LICENSE_OK -> exists s ref, furthest (call_trace (groups w hint) rss) s /\
              selects (call_trace (groups w hint) rss) s (Some (code, ref));
  (* the caller's structure *)
  p_oc_null : out = None <-> out' = None;
  p_oc_info : forall o o', out = Some o -> out' = Some o' -> info_out (concat rss) code o o' /\ status_out log o';
  p_oc_severity : code = LICENSE_OK -> Forall (fun ev => ev_sev ev <> SVRT_ERROR) log
}.
