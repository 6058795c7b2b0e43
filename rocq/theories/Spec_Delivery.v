(** The ways a license text can reach the library, as the only one: passed by the caller, plain
    or encoded; in a file the caller or a variable names; in a file beside the program. *)
From Verif Require Import Base CTypes StringUtils Dates Base64 HwId Registry Ini Network Disks ExecEnv Strategies Locate Licensecc.
From Verif Require Import Spec_Strings Spec_Base64 Spec_Acquire.

(** the file exists and has this text, whenever it is looked at; of at most 4096 characters *)
Definition on_disk (w : world) (path text : bytes) : Prop :=
  length text <= HINT_SIZE /\
  forall i, w_good w i path = true /\ w_file w i path = Some {| f_size := N.of_nat (length text); f_data := text |}.
(** No license beside the program, if it is looked for there (its path without extension, and
    ".lic", names no file); [room]: names of files are shorter than this. *)
Definition none_beside (room : nat) (w : world) : Prop :=
  w_near_module w = true -> forall program, w_module w = Some program -> ~ In NUL program /\ length program <= 1023 /\
    length (stem program ++ bs ".lic") < room /\ forall i, w_good w i (stem program ++ bs ".lic") = false.
(** the variables are unset or empty, if they are looked at *)
Definition no_variables (w : world) : Prop :=
  w_with_env w = true -> variable w (bs "LICENSE_LOCATION") = None /\ variable w (bs "LICENSE_DATA") = None.
(** [reaches room w text hint]: called with [hint], the library finds the text and nothing
    else, whichever of the places it was built to search. *)
Inductive reaches (room : nat) (w : world) (text : bytes) : option location -> Prop :=
(* passed by the caller *)
| rc_plain : none_beside room w -> no_variables w -> length text <= HINT_SIZE ->
    reaches room w text (Some {| loc_type := 1; loc_data := text ++ [NUL] |})
(* ... in base64; only a terminator and what follows it may be encoded behind the text *)
| rc_encoded code rest : none_beside room w -> no_variables w -> length code <= HINT_SIZE -> ~ In NUL code ->
    decodable code -> decoded code = text ++ NUL :: rest ->
    reaches room w text (Some {| loc_type := 2; loc_data := code ++ [NUL] |})
(* ... in a file *)
| rc_file path : none_beside room w -> no_variables w -> path <> [] -> ~ In NUL path -> ~ In ";"%char path ->
    ~ In path [EXTERNAL; bs "LICENSE_LOCATION"; bs "UNDEF"] ->
    length path < room -> length path <= HINT_SIZE -> on_disk w path text ->
    reaches room w text (Some {| loc_type := 0; loc_data := path ++ [NUL] |})
(* beside the program: its path without extension, and ".lic" *)
| rc_beside program path : w_near_module w = true -> no_variables w -> w_module w = Some program -> ~ In NUL program -> length program <= 1023 ->
    path = stem program ++ bs ".lic" -> length path < room -> on_disk w path text ->
    reaches room w text None
(* in a file named by the variable LICENSE_LOCATION, LICENSE_DATA being unset or empty *)
| rc_variable path : none_beside room w -> w_with_env w = true -> w_getenv w (bs "LICENSE_LOCATION") = Some path -> variable w (bs "LICENSE_DATA") = None ->
    path <> [] -> ~ In NUL path -> ~ In ";"%char path -> path <> bs "LICENSE_LOCATION" -> length path < room -> on_disk w path text ->
    reaches room w text None.
