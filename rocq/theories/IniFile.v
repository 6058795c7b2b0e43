(** Model of the files an INI object is saved to and loaded from: SimpleIni.h SaveFile
    (2310-2330, 2356-2366), FileWriter (371-383) and LoadFile (1296-1313, 1342-1380). The wide
    character variants are not modelled. *)
From Verif Require Import Base CTypes StringUtils Dates Base64 HwId Registry Ini Network Disks ExecEnv Strategies Locate IniEdit.

(** SI_Error as far as these functions return it (236-246) *)
Inductive file_code := F_OK | F_FILE.
(** What happens to a file that is written: whether fopen(.., "wb") opens it; the C library
    collects what fputs is given and hands it to the system in parts, of the sizes [o_parts] (the
    rest when the file is closed); of part number i the system takes [o_takes i] bytes; the process
    may end before it opens the file ([Some 0]) or after n parts were handed over ([Some (S n)]). *)
Record out_file := { o_opens : bool; o_parts : list nat; o_takes : nat -> nat; o_ends : option nat }.
Fixpoint parts (sizes : list nat) (t : bytes) : list bytes :=
  match sizes with [] => [t] | n :: r => firstn n t :: parts r (skipn n t) end.
Fixpoint taken (takes : nat -> nat) (i : nat) (l : list bytes) : bytes :=
  match l with [] => [] | p :: r => firstn (takes i) p ++ taken takes (S i) r end.
(** SaveFile 2310-2330: what it returns ([None]: the process ended), and the content of the file,
    [old] before ([None]: there is none). fputs (FileWriter::Write 376-378) and fclose (2327) report
    errors, which are not looked at. *)
Definition save_file (o : out_file) (old : option bytes) (st : store) : res (option file_code * option bytes) :=
  match o_ends o with
  | Some 0 => Ok (None, old)
  | _ =>
    if negb (o_opens o) then Ok (match o_ends o with None => Some F_FILE | Some _ => None end, old)
    else
      t <-- save st ;;
      let l := parts (o_parts o) t in
      Ok (match o_ends o with
          | None => (Some F_OK, Some (taken (o_takes o) 0 l))
          | Some n => (None, Some (taken (o_takes o) 0 (firstn (n - 1) l)))
          end)
  end.

(** LoadFile 1296-1313, 1342-1380 of a new object: [seeks], [size]: what fseek and ftell say (ftell
    fails: [None]); [f]: the file, [None] if fopen fails; fread gives the bytes there are, at most
    the size asked for. LoadData on what was read. *)
Record in_file := { i_data : bytes; i_seeks : bool; i_size : option N }.
Definition load_path (f : option in_file) : res (file_code * ini) :=
  match f with
  | None => Ok (F_FILE, [])
  | Some f =>
      if negb (i_seeks f) then Ok (F_FILE, [])
      else match i_size f with
           | None => Ok (F_FILE, [])
           | Some n =>
               if N.eqb n 0 then Ok (F_OK, [])
               else
                 let d := firstn (N.to_nat n) (i_data f) in
                 if negb (Nat.eqb (length d) (N.to_nat n)) then Ok (F_FILE, [])
                 else r <-- ini_load d ;; Ok (F_OK, r)
           end
  end.
