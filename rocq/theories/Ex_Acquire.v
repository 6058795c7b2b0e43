(** A small world to evaluate acquire_license in: used for the concrete cases beside
    the theorems. The "signature scheme" is that a text signs itself. *)
From Verif Require Import Base CTypes StringUtils Dates Base64 HwId Registry Ini Network Disks ExecEnv Strategies Locate Licensecc.
From Verif Require Import P_Base Spec_Hw Spec_Acquire.
From Verif Require Prop_Hw.

Definition LINE (s : string) : bytes := bs s ++ [LF].
Definition path_in (l : list (string * bytes)) (p : bytes) : option bytes :=
  option_map snd (find (fun e => beqb p (bs (fst e))) l).
(** [now]: the time; [files]: the files there are; [env]: the variables *)
Definition demo (near env_on : bool) (now : Z) (files : list (string * bytes)) (env : list (string * bytes)) : world :=
  {| w_project := bs "DEMO"; w_magic := 7; w_near_module := near; w_with_env := env_on;
     w_module := Some (bs "/opt/demo.bin"); w_getenv := path_in env;
     w_good := fun _ p => match path_in files p with Some _ => true | None => false end;
     w_file := fun _ p => option_map (fun d => {| f_size := N.of_nat (length d); f_data := d |}) (path_in files p);
     w_clock := fun _ => now; w_mktime := mktime_utc;
     w_bio := fun s => (Z.of_nat (length s), s); w_key_ok := true; w_verify := fun text sig => beqb text sig;
     w_machine := fun _ => Prop_Hw.net_machine Prop_Hw.some_interfaces |}.
Lemma demo_order near env_on now files env : forall i, order_ok (w_machine (demo near env_on now files env) i).
Proof. intros i. exact Prop_Hw.some_order. Qed.
Definition asking (feature : string) : caller := {| ci_feature := firstn 16 (bs feature ++ repeat NUL 16); ci_magic := 7 |}.
(** the caller's structure, uninitialised *)
Definition blank_out : out_info :=
  {| o_status := repeat None 5; o_expiry_date := None; o_days_left := None; o_has_expiry := None; o_linked_to_pc := None; o_proprietary := None |}.
Definition hint_of (z : Z) (s : bytes) : location := {| loc_type := z; loc_data := s ++ [NUL] |}.
Definition code_of (r : res ((event_type * option out_info) * nat)) : res event_type :=
  match r with Ok ((c, _), _) => Ok c | Throw e => Throw e | Undef u => Undef u | OutOfFuel => OutOfFuel end.
(** the fields of the information handed out *)
Definition fields_of (r : res ((event_type * option out_info) * nat)) :=
  match r with
  | Ok ((c, Some o), _) => Some (c, o_expiry_date o, o_days_left o, o_has_expiry o, o_linked_to_pc o, o_proprietary o)
  | _ => None
  end.
Definition status_of (r : res ((event_type * option out_info) * nat)) :=
  match r with
  | Ok ((c, Some o), _) => Some (c, map (option_map (fun ev => (ev_type ev, ev_ref ev))) (o_status o))
  | _ => None
  end.
(** 2020-09-13 *)
Definition NOW : Z := 1600000000%Z.

(** valid until 2030, locked to the demo machine *)
Definition good_license : bytes :=
  LINE "[demo]" ++ LINE "lic_ver = 200" ++ LINE "valid-to = 2030-01-01" ++ LINE "client-signature=ACAK-AAEB-Kio=" ++
  LINE "sig = DEMOclient-signatureACAK-AAEB-Kio=lic_ver200valid-to2030-01-01".
(** for ever, any machine, with extra data *)
Definition free_license : bytes :=
  LINE "[demo]" ++ LINE "lic_ver = 200" ++ LINE "extra-data = hello" ++ LINE "sig = DEMOextra-datahellolic_ver200".
(** over since 2019 *)
Definition old_license : bytes :=
  LINE "[DEMO]" ++ LINE "lic_ver = 200" ++ LINE "valid-to=20190101" ++ LINE "sig = DEMOlic_ver200valid-to20190101".
(** the signature is that of another license *)
Definition forged_license : bytes :=
  LINE "[DEMO]" ++ LINE "lic_ver = 200" ++ LINE "valid-to=20300101" ++ LINE "sig = DEMOlic_ver200valid-to20190101".
Definition other_machine : bytes :=
  LINE "[DEMO]" ++ LINE "lic_ver = 200" ++ LINE "client-signature=ACAK-AAEC-Kio=" ++ LINE "sig = DEMOclient-signatureACAK-AAEC-Kio=lic_ver200".
Definition files : list (string * bytes) :=
  [("/opt/demo.lic"%string, good_license); ("/a"%string, free_license); ("/b"%string, old_license); ("/c"%string, forged_license); ("/d"%string, other_machine)].

Local Notation run w hint := (code_of (acquire_license w (Some (asking "demo")) hint (Some blank_out) 0)).
Example near : run (demo true false NOW files []) None = Ok LICENSE_OK.
Proof. vm_compute. reflexivity. Qed.
Example text : run (demo false false NOW files []) (Some (hint_of 1 free_license)) = Ok LICENSE_OK.
Proof. vm_compute. reflexivity. Qed.
Example expired : run (demo false false NOW files []) (Some (hint_of 1 old_license)) = Ok PRODUCT_EXPIRED.
Proof. vm_compute. reflexivity. Qed.
Example forged : run (demo false false NOW files []) (Some (hint_of 0 (bs "/c"))) = Ok LICENSE_CORRUPTED.
Proof. vm_compute. reflexivity. Qed.
Example mismatch : run (demo false true NOW files [("LICENSE_LOCATION"%string, bs "/d;/nowhere")]) None = Ok IDENTIFIERS_MISMATCH.
Proof. vm_compute. reflexivity. Qed.
Example several : run (demo true true NOW files [("LICENSE_LOCATION"%string, bs "/d;/nowhere;/c;/b")]) (Some (hint_of 0 (bs "/a;/b"))) = Ok LICENSE_OK.
Proof. vm_compute. reflexivity. Qed.
Example absent : run (demo true false NOW [] []) None = Ok LICENSE_FILE_NOT_FOUND.
Proof. vm_compute. reflexivity. Qed.
