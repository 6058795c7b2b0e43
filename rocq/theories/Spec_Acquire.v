(** What acquire_license is expected to do, stated over the entries of the license
    texts (Spec_Ini), the identifiers of the machine (Spec_Hw) and the oracles of the
    world; no registry, no INI data structure, no monadic code. *)
From Verif Require Import Base CTypes StringUtils Dates Base64 HwId Registry Ini Network Disks ExecEnv Strategies Locate Licensecc.
From Coq Require Import Sorted.
From Verif Require Import Spec_Strings Spec_Base64 Spec_Dates Spec_HwId Spec_Hw Spec_Ini Spec_Registry.

(** ** Where licenses are looked for *)
Inductive source :=
| SFile (path : bytes)              (* a file *)
| SText (name text : bytes)         (* a license passed as text *)
| SEncoded (name text : bytes)      (* ... as base64 text *)
| SNamed (path text : bytes).       (* a file whose mere existence makes [text] a license *)

Definition EXTERNAL : bytes := bs "ExternalDefinition".
Definition LOCATION : bytes := bs "LICENSE_LOCATION".
Definition DATA : bytes := bs "LICENSE_DATA".
(** size of the text passed in a LicenseLocation *)
Definition HINT_SIZE : nat := N.to_nat 4096.

(** The license beside the executable: its name (at most 1023 characters of it)
    without extension, plus ".lic" *)
Definition module_sources (w : world) : list source :=
  match w_module w with
  | None => []
  | Some link => [SFile (stem (cstr (firstn 1023 link)) ++ bs ".lic")]
  end.
(** The value of a variable that is set and not empty *)
Definition variable (w : world) (v : bytes) : option bytes :=
  match w_getenv w v with Some (c :: r) => Some (c :: r) | _ => None end.
Definition location_sources (w : world) : list source :=
  match variable w LOCATION with
  | None => []
  | Some v => map SFile (pieces ";"%char v)
  end.
(** what a text looks like *)
Definition looks (d : bytes) : file_format :=
  if looks_base64 d then FmtBase64 else if looks_ini d then FmtIni else FmtUnknown.
(** LICENSE_DATA decides whether and how to read; what is read is LICENSE_LOCATION
    (see C53) *)
Definition data_sources (w : world) : list source :=
  match variable w DATA with
  | None => []
  | Some d =>
      let text := match w_getenv w LOCATION with Some v => v | None => [] end in
      match looks d with
      | FmtUnknown => []
      | FmtBase64 => [SEncoded LOCATION text]
      | FmtIni => [SText LOCATION text]
      end
  end.
Definition hint_sources (hint : option location) : list source :=
  match hint with
  | None => []
  | Some l =>
      let text := cstr (firstn HINT_SIZE (loc_data l)) in
      match text with
      | [] => []
      | _ =>
          if Z.eqb (loc_type l) 0 then
            map (fun p => if beqb p EXTERNAL then SNamed p text else SFile p) (pieces ";"%char text)
          else if Z.eqb (loc_type l) 1 then [SText EXTERNAL text]
          else if Z.eqb (loc_type l) 2 then [SEncoded EXTERNAL text]
          else []
      end
  end.
(** The places searched, in order: beside the executable, the files of
    LICENSE_LOCATION, LICENSE_DATA, the hint of the caller. Each with what is recorded
    about the place itself, and whether its files are announced (LICENSE_SPECIFIED)
    before they are checked. *)
Record group := { g_news : trace; g_announce : bool; g_sources : list source }.
Definition groups (w : world) (hint : option location) : list group :=
  (if w_near_module w then [{| g_news := []; g_announce := false; g_sources := module_sources w |}] else []) ++
  (if w_with_env w then
     [{| g_news := match variable w LOCATION with
                   | None => [(ENVIRONMENT_VARIABLE_NOT_DEFINED, bs "UNDEF")]
                   | Some _ => []
                   end;
         g_announce := true; g_sources := location_sources w |};
      {| g_news := match variable w DATA with
                   | None => [(ENVIRONMENT_VARIABLE_NOT_DEFINED, LOCATION)]
                   | Some d => (LICENSE_SPECIFIED, LOCATION) ::
                       match looks d with FmtUnknown => [(LICENSE_MALFORMED, LOCATION)] | _ => [] end
                   end;
         g_announce := false; g_sources := data_sources w |}]
   else []) ++
  match hint with
  | None => []
  | Some l => [{| g_news := match cstr (firstn HINT_SIZE (loc_data l)) with
                            | [] => []
                            | _ => [(LICENSE_SPECIFIED, EXTERNAL)]
                            end;
                  g_announce := true; g_sources := hint_sources hint |}]
  end.
(** All sources, in the order in which they are examined *)
Definition sources (w : world) (hint : option location) : list source :=
  flat_map g_sources (groups w hint).

(** Is the source there at instant [i]? *)
Definition listed (w : world) (s : source) (i : nat) : bool :=
  match s with
  | SFile p | SNamed p _ => w_good w i (cstr p)
  | SText _ _ | SEncoded _ _ => true
  end.
(** The text it gives at instant [i]; of a file only the first 4096 bytes. *)
Inductive supplies (w : world) (i : nat) : source -> bytes -> Prop :=
| sup_file p f : w_file w i (cstr p) = Some f ->
    supplies w i (SFile p) (firstn (N.to_nat (N.min (f_size f) 4096)) (f_data f))
| sup_text n s : supplies w i (SText n s) s
| sup_encoded n s : decodable s -> In NUL (decoded s) -> supplies w i (SEncoded n s) (cstr (decoded s))
| sup_named p s : supplies w i (SNamed p s) s.
(** ... at some instant from [t] to before [t'] (only files depend on the instant) *)
Definition given (w : world) (t t' : nat) (s : source) (content : bytes) : Prop :=
  match s with
  | SFile _ => exists i, t <= i < t' /\ supplies w i s content
  | _ => supplies w t s content
  end.

(** the source was there when it was looked for (texts always are) *)
Definition present (w : world) (t t' : nat) (s : source) : Prop :=
  match s with
  | SFile _ | SNamed _ _ => exists i, t <= i < t' /\ listed w s i = true
  | SText _ _ | SEncoded _ _ => True
  end.

(** ** What a license is *)
(** the feature asked for: the caller's, if any, else the project name *)
Definition feature_of (w : world) (feature : option bytes) : bytes :=
  match feature with
  | Some f => match cstr f with [] => w_project w | n => n end
  | None => w_project w
  end.

(** spellings of 200 that lic_ver may have *)
Inductive two_hundred : bytes -> Prop :=
| th_dec ws sign zs : Forall blank ws -> In sign [[]; ["+"%char]] -> Forall (fun c => c = "0"%char) zs ->
    two_hundred (ws ++ sign ++ zs ++ bs "200")
| th_hex x ws sign pre zs c : In x ["x"%char; "X"%char] -> Forall blank ws -> In sign [[]; ["+"%char]] ->
    In pre [[]; bs "0x"; bs "0X"] -> Forall (fun c => c = "0"%char) zs -> In c ["c"%char; "C"%char] ->
    two_hundred ("0"%char :: x :: ws ++ sign ++ pre ++ zs ++ [c; "8"%char]).
Definition version_200 (es : list (bytes * bytes)) : Prop :=
  exists v, last_value es (bs "lic_ver") = Some v /\ length v <= 63 /\ two_hundred v.
Definition license_form (es : list (bytes * bytes)) (sig : bytes) : Prop :=
  last_value es (bs "sig") = Some sig /\ version_200 es.

(** the limits: keys with their values, in byte order of the keys *)
Definition limits_of (es m : list (bytes * bytes)) : Prop :=
  StronglySorted (fun a b => bcmp (fst a) (fst b) = Lt) m /\
  forall k v, In (k, v) m <-> exact_value es k = Some v.
(** the text that is signed: the feature in upper case, then all keys and values but
    the signature *)
Definition signed_text (feature : bytes) (m : list (bytes * bytes)) : bytes :=
  upper (trimmed feature) ++
  concat (map (fun e => trimmed (fst e) ++ trimmed (snd e)) (filter (fun e => negb (beqb (fst e) (bs "sig"))) m)).
(** the signature is good: the key loads, the signature decodes and verifies *)
Definition signature_good (w : world) (feature : bytes) (es : list (bytes * bytes)) (sig : bytes) : Prop :=
  exists m n data, limits_of es m /\ w_key_ok w = true /\ w_bio w sig = (n, data) /\ (0 <= n < 512)%Z /\
    w_verify w (signed_text feature m) (firstn (Z.to_nat n) data) = true.
(** a date of the license, as an instant *)
Definition dated (w : world) (es : list (bytes * bytes)) (key : string) (secs : Z) : Prop :=
  exists d y m day, exact_value es (bs key) = Some d /\ date_text d y m day /\ secs = w_mktime w y m day.
(** the identifier [code] denotes hardware of this machine *)
Definition identifies (m : machine) (code : bytes) : Prop :=
  exists h d, denotes code h /\ own m (strategy_bits h) d /\ data53 h = d7_53 d.
Definition locked (es : list (bytes * bytes)) (code : bytes) : Prop :=
  exact_value es (bs "client-signature") = Some code.

(** within its dates at the time [now] *)
Definition in_time (w : world) (es : list (bytes * bytes)) (now : Z) : Prop :=
  (exact_value es (bs "valid-to") = None \/ exists s, dated w es "valid-to" s /\ (now <= s)%Z) /\
  (exact_value es (bs "valid-from") = None \/ exists s, dated w es "valid-from" s /\ (s <= now)%Z).

Definition out_of_time (w : world) (es : list (bytes * bytes)) (now : Z) : Prop :=
  (exists s, dated w es "valid-to" s /\ (s < now)%Z) \/ (exists s, dated w es "valid-from" s /\ (now < s)%Z).

(** ** A valid license: for the feature, by the project, now, on this machine *)
Definition valid_license (w : world) (feature : bytes) (magic : N) (es : list (bytes * bytes)) (now : Z) (m : machine) : Prop :=
  exists sig, license_form es sig /\ signature_good w feature es sig /\ magic = w_magic w /\
    in_time w es now /\ (forall code, locked es code -> identifies m code).

(** ** The diagnosis of a license text: what is wrong with it, if anything. [t, t'):
    the instants at which clock and machine may have been consulted. *)
Inductive diagnosis (w : world) (feature : bytes) (magic : N) (t t' : nat) (es : list (bytes * bytes)) : event_type -> Prop :=
| dg_absent : es = [] -> diagnosis w feature magic t t' es PRODUCT_NOT_LICENSED
| dg_malformed : es <> [] -> (forall sig, ~ license_form es sig) -> diagnosis w feature magic t t' es LICENSE_MALFORMED
| dg_forged sig : license_form es sig -> ~ signature_good w feature es sig -> diagnosis w feature magic t t' es LICENSE_CORRUPTED
| dg_magic sig : license_form es sig -> signature_good w feature es sig -> magic <> w_magic w ->
    diagnosis w feature magic t t' es LICENSE_CORRUPTED
| dg_expired sig i : license_form es sig -> signature_good w feature es sig -> magic = w_magic w ->
    t <= i < t' -> out_of_time w es (w_clock w i) ->
    diagnosis w feature magic t t' es PRODUCT_EXPIRED
| dg_mismatch sig i j code : license_form es sig -> signature_good w feature es sig -> magic = w_magic w ->
    t <= i < t' -> in_time w es (w_clock w i) -> t <= j < t' -> locked es code -> ~ identifies (w_machine w j) code ->
    diagnosis w feature magic t t' es IDENTIFIERS_MISMATCH
| dg_ok i j : t <= i < t' -> t <= j < t' -> valid_license w feature magic es (w_clock w i) (w_machine w j) ->
    diagnosis w feature magic t t' es LICENSE_OK.

(** ** What is told about a license *)
(** n/d rounded to the nearest integer, halves away from zero *)
Definition rounded (n d q : Z) : Prop :=
  exists r, (n = q * d + r /\ 2 * Z.abs r <= d /\ (2 * Z.abs r = d -> Z.abs n < Z.abs q * d))%Z.
Record told := { td_expiry : bytes; td_days : Z; td_has_expiry : bool; td_linked : bool; td_proprietary : option bytes }.
Definition describes (w : world) (t t' : nat) (es : list (bytes * bytes)) (x : told) : Prop :=
  (td_linked x = true <-> exact_value es (bs "client-signature") <> None) /\
  td_proprietary x = option_map (fun v => firstn 16 (cstr v)) (exact_value es (bs "extra-data")) /\
  match exact_value es (bs "valid-to") with
  | None => td_has_expiry x = false /\ td_days x = 9999%Z /\ td_expiry x = []
  | Some d => td_has_expiry x = true /\ td_expiry x = firstn 10 (cstr d) /\
      exists s i q, t <= i < t' /\ dated w es "valid-to" s /\ rounded (s - w_clock w i) 86400 q /\ td_days x = Z.max q 0
  end.
(** the best of a list: the first perpetual one, else the first with the most days *)
Inductive best : list told -> told -> Prop :=
| best_perpetual a x b : Forall (fun y => td_has_expiry y = true) a -> td_has_expiry x = false -> best (a ++ x :: b) x
| best_longest a x b : Forall (fun y => td_has_expiry y = true) (a ++ x :: b) ->
    Forall (fun y => (td_days y < td_days x)%Z) a -> Forall (fun y => (td_days y <= td_days x)%Z) b -> best (a ++ x :: b) x.

(** ** One source examined *)
(** What is recorded while a license found is checked: the outcome for its signature,
    then the verdict (which goes unrecorded when it is good and no hardware is asked
    for). *)
Inductive checking (w : world) (feature : bytes) (es : list (bytes * bytes)) (sig : bytes) : event_type -> list event_type -> Prop :=
| ck_forged : ~ signature_good w feature es sig -> checking w feature es sig LICENSE_CORRUPTED [LICENSE_CORRUPTED]
| ck_free : signature_good w feature es sig -> exact_value es (bs "client-signature") = None ->
    checking w feature es sig LICENSE_OK [SIGNATURE_VERIFIED]
| ck_verdict code : signature_good w feature es sig -> (code = LICENSE_OK -> exists c, locked es c) ->
    checking w feature es sig code [SIGNATURE_VERIFIED; code].
(** The verdict, what is told if it is a license, and what is recorded while reading
    and while checking it. *)
Record report := { rp_code : event_type; rp_told : option told; rp_reading : list event_type; rp_checking : list event_type }.
Inductive reported (w : world) (feature : bytes) (magic : N) (t t' : nat) (s : source) : report -> Prop :=
| rep_missing i : t <= i < t' -> listed w s i = false ->
    reported w feature magic t t' s
      {| rp_code := LICENSE_FILE_NOT_FOUND; rp_told := None; rp_reading := []; rp_checking := [] |}
| rep_absent content : present w t t' s -> given w t t' s content -> section_entries content feature = [] ->
    reported w feature magic t t' s
      {| rp_code := PRODUCT_NOT_LICENSED; rp_told := None; rp_reading := [PRODUCT_NOT_LICENSED]; rp_checking := [] |}
| rep_malformed content : present w t t' s -> given w t t' s content -> section_entries content feature <> [] ->
    (forall sig, ~ license_form (section_entries content feature) sig) ->
    reported w feature magic t t' s
      {| rp_code := LICENSE_MALFORMED; rp_told := None; rp_reading := [PRODUCT_FOUND; LICENSE_MALFORMED]; rp_checking := [] |}
| rep_license content sig code x steps : present w t t' s -> given w t t' s content ->
    license_form (section_entries content feature) sig ->
    diagnosis w feature magic t t' (section_entries content feature) code ->
    checking w feature (section_entries content feature) sig code steps ->
    describes w t t' (section_entries content feature) x ->
    reported w feature magic t t' s
      {| rp_code := code; rp_told := Some x; rp_reading := [PRODUCT_FOUND]; rp_checking := steps |}.

(** ** All that is recorded during a call, in order *)
Definition name_of (s : source) : bytes := match s with SFile p | SNamed p _ => p | SText n _ | SEncoded n _ => n end.
Definition about (s : source) (es : list event_type) : trace := map (fun e => (e, firstn 1024 (cstr (name_of s)))) es.
Definition missing (r : report) : bool := event_eqb (rp_code r) LICENSE_FILE_NOT_FOUND.
Definition looked (announce : bool) (s : source) (r : report) : trace :=
  match s with
  | SFile _ | SNamed _ _ =>
      about s ((if announce then [LICENSE_SPECIFIED] else []) ++ [if missing r then LICENSE_FILE_NOT_FOUND else LICENSE_FOUND])
  | SText _ _ | SEncoded _ _ => []
  end.
Fixpoint zip_with {A B C} (f : A -> B -> list C) (l : list A) (l' : list B) : list C :=
  match l, l' with a :: l, b :: l' => f a b ++ zip_with f l l' | _, _ => [] end.
(** group by group: news, presence of all its sources, reading of them; then the
    checks of all licenses *)
Definition group_trace (g : group) (rs : list report) : trace :=
  g_news g ++ zip_with (looked (g_announce g)) (g_sources g) rs ++ zip_with (fun s r => about s (rp_reading r)) (g_sources g) rs.
Definition call_trace (gs : list group) (rss : list (list report)) : trace :=
  match gs with
  | [] => [(LICENSE_FILE_NOT_FOUND, bs "UNDEF")]
  | _ => zip_with group_trace gs rss ++
         zip_with (fun s r => about s (rp_checking r)) (flat_map g_sources gs) (concat rss)
  end.

(** ** What the caller gets *)
(** the licenses that were accepted / rejected *)
Definition tolds (accepted : bool) (rs : list report) : list told :=
  flat_map (fun r => match rp_told r with
                     | Some x => if Bool.eqb (event_eqb (rp_code r) LICENSE_OK) accepted then [x] else []
                     | None => []
                     end) rs.
(** The fields of the LicenseInfo after the call: those of the best accepted license,
    else of the best rejected one, else (no license was found) some defaults. *)
Inductive info_out (rs : list report) (code : event_type) (o o' : out_info) : Prop :=
| io_none : Forall (fun r => rp_told r = None) rs ->
    o_expiry_date o' = o_expiry_date o -> o_days_left o' = Some 0%Z -> o_has_expiry o' = o_has_expiry o ->
    o_linked_to_pc o' = Some false -> o_proprietary o' = Some [] -> info_out rs code o o'
| io_some x : best (tolds (event_eqb code LICENSE_OK) rs) x ->
    o_expiry_date o' = Some (td_expiry x) -> o_days_left o' = Some (td_days x) ->
    o_has_expiry o' = Some (td_has_expiry x) -> o_linked_to_pc o' = Some (td_linked x) ->
    o_proprietary o' = td_proprietary x -> info_out rs code o o'.
(** The status array receives the last five events (fewer if there are fewer). *)
Definition status_out (log : list event) (o' : out_info) : Prop :=
  exists rest, o_status o' = map Some (skipn (length log - 5) log) ++ rest.

Definition magic_of (magic : option N) : N := match magic with Some m => m | None => 0%N end.
(** ** The outcome of a call, completely *)
Record outcome (w : world) (c : option caller) (hint : option location) (out : option out_info) (t : nat)
       (code : event_type) (out' : option out_info) (t' : nat) (rss : list (list report)) (log : list event) : Prop := {
  (* each source of each place was examined *)
  oc_reports : Forall2 (fun g rs => Forall2 (reported w (feature_of w (option_map ci_feature c)) (magic_of (option_map ci_magic c)) t t') (g_sources g) rs)
                 (groups w hint) rss;
  (* this is what was recorded *)
  oc_log : map (fun ev => (ev_type ev, ev_ref ev)) log = call_trace (groups w hint) rss;
  (* success: some license is good *)
  oc_ok : code = LICENSE_OK <-> In LICENSE_OK (map rp_code (concat rss));
  (* failure: the code is selected among what was recorded *)
  oc_fail : code <> LICENSE_OK -> exists s k, furthest (call_trace (groups w hint) rss) s /\
              selects (call_trace (groups w hint) rss) s (Some (code, k));
  (* the caller's structure *)
  oc_null : out = None <-> out' = None;
  oc_info : forall o o', out = Some o -> out' = Some o' -> info_out (concat rss) code o o' /\ status_out log o';
  oc_severity : code = LICENSE_OK -> Forall (fun ev => ev_sev ev <> SVRT_ERROR) log
}.
(** failures recorded about a place rather than about a license *)
Definition place_failure (w : world) (hint : option location) (e : event_type) : Prop :=
  (w_with_env w = true /\ e = ENVIRONMENT_VARIABLE_NOT_DEFINED /\ (variable w LOCATION = None \/ variable w DATA = None)) \/
  (w_with_env w = true /\ e = LICENSE_MALFORMED /\ exists d, variable w DATA = Some d /\ looks d = FmtUnknown) \/
  (w_near_module w = false /\ w_with_env w = false /\ hint = None /\ e = LICENSE_FILE_NOT_FOUND).

(** a world that does not change during the call *)
Definition static (w : world) : Prop :=
  forall i j, w_good w i = w_good w j /\ w_file w i = w_file w j /\ w_clock w i = w_clock w j /\ w_machine w i = w_machine w j.
(** the same surroundings, other places to look at *)
Definition same_surroundings (w w' : world) : Prop :=
  w_project w' = w_project w /\ w_magic w' = w_magic w /\ w_good w' = w_good w /\ w_file w' = w_file w /\ w_clock w' = w_clock w /\
  w_mktime w' = w_mktime w /\ w_bio w' = w_bio w /\ w_key_ok w' = w_key_ok w /\ w_verify w' = w_verify w /\ w_machine w' = w_machine w.
