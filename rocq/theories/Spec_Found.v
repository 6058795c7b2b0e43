(** One license is found; everything else that is searched is a file that does not exist. *)
From Verif Require Import Base CTypes StringUtils Dates Base64 HwId Registry Ini Network Disks ExecEnv Strategies Locate Licensecc.
From Verif Require Import Spec_Strings Spec_Base64 Spec_Acquire Spec_Delivery.

(** no such file, whenever it is looked for *)
Definition missing_file (room : nat) (w : world) (s : source) : Prop :=
  exists p, s = SFile p /\ ~ In NUL p /\ length p < room /\ p <> EXTERNAL /\ forall i, w_good w i p = false.
(** the text is there: in a file, or passed by the caller as it is or in base64 *)
Definition there (room : nat) (w : world) (text : bytes) (s : source) : Prop :=
  match s with
  | SFile p => ~ In NUL p /\ length p < room /\ ~ In p [bs "LICENSE_LOCATION"; bs "UNDEF"] /\ on_disk w p text
  | SText n x => n = EXTERNAL /\ x = text
  | SEncoded n e => n = EXTERNAL /\ decodable e /\ exists rest, decoded e = text ++ NUL :: rest
  | SNamed _ _ => False
  end.
(** [found room w hint text s]: of what is searched (Spec_Acquire.sources: beside the program,
    the files of LICENSE_LOCATION, LICENSE_DATA, the files or the text of the caller) [s] has
    the text and all the rest is missing. LICENSE_DATA may even be set, to something that is
    not a license. *)
Record found (room : nat) (w : world) (hint : option location) (text : bytes) (s : source) : Prop := {
  fd_where : exists a b, sources w hint = a ++ s :: b /\ forall s', In s' (a ++ b) -> missing_file room w s';
  fd_here : there room w text s;
  fd_data : w_with_env w = true -> variable w (bs "LICENSE_DATA") <> None -> w_getenv w (bs "LICENSE_LOCATION") <> None;
  fd_hint : forall l, hint = Some l -> In NUL (loc_data l) /\ In (loc_type l) [0; 1; 2]%Z
}.
