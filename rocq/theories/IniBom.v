(** Model of the byte order mark in SimpleIni.h with a store of single bytes (CSimpleIniA):
    SetUnicode and IsUnicode (485-490), LoadData (1395-1401) and Save (2377-2380). The conversion of
    SI_ConvertA (2693-2760) copies. *)
From Verif Require Import Base Ini IniEdit.

(** 246 *)
Definition UTF8_SIGNATURE : bytes := ["239"; "187"; "191"]%char.
(** m_bStoreIsUtf8; whether m_pData is set *)
Record encoding := { x_utf8 : bool; x_loaded : bool }.
(** SetUnicode 485-487 *)
Definition set_unicode (b : bool) (x : encoding) : encoding :=
  if x_loaded x then x else {| x_utf8 := b; x_loaded := false |}.
(** LoadData 1384-1401: what is parsed *)
Definition without_mark (x : encoding) (data : bytes) : bytes :=
  if x_utf8 x && Nat.leb 3 (length data) && beqb (firstn 3 data) UTF8_SIGNATURE then skipn 3 data else data.
(** LoadData into an object without entries; m_pData is set unless there is no data (1391) *)
Definition load_text (x : encoding) (data : bytes) : res (encoding * ini) :=
  match data with
  | [] => Ok (x, [])
  | _ => d <-- ini_load (without_mark x data) ;; Ok ({| x_utf8 := x_utf8 x; x_loaded := true |}, d)
  end.
(** Save 2377-2380 *)
Definition save_text (x : encoding) (add_signature : bool) (st : store) : res bytes :=
  t <-- save st ;; Ok ((if x_utf8 x && add_signature then UTF8_SIGNATURE else []) ++ t).
