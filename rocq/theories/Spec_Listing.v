(** Which disks a machine shows: a description of the outcome of the disk listing,
    by what /dev/disk, the blkid cache and fstab contain. *)
From Verif Require Import Base Network Disks Spec_Disks.

(** The value of a number stored in a 32 bit int. *)
Definition int_of (z : Z) : Z := ((z + 2147483648) mod 4294967296 - 2147483648)%Z.
(** The text after the last [c] (everything, if there is none). *)
Definition after_last (c : ascii) (s : bytes) : bytes := rev (fst (span (fun x => negb (Ascii.eqb x c)) (rev s))).
(** The text before the first [c]. *)
Definition before_first (c : ascii) (s : bytes) : bytes := fst (span (fun x => negb (Ascii.eqb x c)) s).
(** A UUID on which the listing writes outside its scratch buffer. *)
Definition overflows (uuid : bytes) : bool := Nat.leb (others (cstr uuid)) (length (hex_digits (cstr uuid)) mod 2).

(** ** /dev/disk/by-uuid *)
(** The entries that stand for a disk: name, inode of the target, link text. *)
Definition usables (es : list dirent) : list (bytes * Z * bytes) :=
  flat_map (fun e =>
    if beqb (de_name e) (bs ".") || beqb (de_name e) (bs "..") || starts_with (bs "usb") (de_name e) then []
    else match de_ino e, de_link e with
         | Some i, Some l => [(de_name e, int_of i, l)]
         | _, _ => []
         end) es.
Definition u_name (x : bytes * Z * bytes) : bytes := fst (fst x).
Definition u_id (x : bytes * Z * bytes) : Z := snd (fst x).
Definition u_link (x : bytes * Z * bytes) : bytes := snd x.
(** One entry per inode, the first. *)
Fixpoint distinct (seen : list Z) (l : list (bytes * Z * bytes)) : list (bytes * Z * bytes) :=
  match l with
  | [] => []
  | x :: r => if existsb (Z.eqb (u_id x)) seen then distinct seen r else x :: distinct (u_id x :: seen) r
  end.
(** Entries are looked at while fewer than 40 disks have been found. *)
Definition examined (l : list (bytes * Z * bytes)) : list (bytes * Z * bytes) :=
  map snd (filter (fun p => Nat.ltb (length (distinct [] (firstn (fst p) l))) 40) (combine (seq 0 (length l)) l)).

(** The label of the disk with inode [id]: the last entry for it in by-label, or in
    by-partlabel if there is no by-label directory. *)
Definition label_of (env : disk_env) (id : Z) : option bytes :=
  let es := match de_by_label env, de_by_partlabel env with Some l, _ => l | None, Some l => l | None, None => [] end in
  match rev (filter (fun e => negb (beqb (de_name e) (bs ".")) && negb (beqb (de_name e) (bs "..")) &&
                              match de_ino e with Some i => Z.eqb (int_of i) id | None => false end) es) with
  | [] => None
  | e :: _ => Some (firstn 254 (cstr (de_name e)))
  end.
Definition uuid_disk (env : disk_env) (x : bytes * Z * bytes) : disk :=
  {| dk_id := u_id x; dk_device := firstn 1023 (cstr (after_last "/" (firstn 1023 (u_link x))));
     dk_sn := serial_of (cstr (u_name x)); dk_sn_init := true;
     dk_label := label_of env (u_id x);
     dk_label_init := match label_of env (u_id x) with Some _ => true | None => false end;
     dk_preferred := false |}.

(** ** The blkid cache *)
Definition tag : bytes := bs "</device>".
(** where the closing tags begin *)
Definition tags (content : bytes) : list nat := filter (fun p => starts_with tag (skipn p content)) (seq 0 (length content)).
(** The text taken for each device: from just behind the beginning of the previous
    closing tag, as many characters as the position of its own tag (so that it
    goes on past its tag). *)
Definition windows (content : bytes) : list bytes :=
  map (fun q => firstn (snd q) (skipn (fst q) content)) (combine (0 :: map S (tags content)) (tags content)).
(** The value of an attribute: up to the next quote, from behind the first
    occurrence of attr, = and a quote, or from offset |attr|+1 if there is none. *)
Definition value (attr text : bytes) : res bytes :=
  let full := attr ++ bs "=""" in
  match find (fun p => starts_with full (skipn p text)) (seq 0 (S (length text))) with
  | Some p => Ok (before_first """" (skipn (p + length full) text))
  | None => if Nat.ltb (length text) (length attr + 1) then Throw ExOutOfRange
            else Ok (before_first """" (skipn (length attr + 1) text))
  end.
(** the [k]th device, and its UUID *)
Definition blkid_disk (k : nat) (text : bytes) : res (bytes * disk) :=
  label <-- value (bs "PARTLABEL") text ;;
  uuid <-- value (bs "UUID") text ;;
  if overflows uuid then Undef UbWrite else
  type <-- value (bs "TYPE") text ;;
  Ok (uuid, {| dk_id := Z.of_nat k; dk_device := firstn 1023 (cstr (after_last ">" text));
               dk_sn := serial_of (cstr uuid); dk_sn_init := true;
               dk_label := Some (firstn 254 (cstr label)); dk_label_init := true;
               dk_preferred := beqb type (bs "swap") |}).
(** all results, or the first that is none *)
Fixpoint all_ok {A} (l : list (res A)) : res (list A) :=
  match l with
  | [] => Ok []
  | x :: r => v <-- x ;; vs <-- all_ok r ;; Ok (v :: vs)
  end.

(** ** fstab *)
(** the id of the first of the listed UUIDs equal to [u] *)
Definition id_of (table : list (bytes * Z)) (u : bytes) : option Z := option_map snd (find (fun p => beqb (fst p) u) table).
(** the first disk whose label is [lab], or unknown *)
Definition labelled_disk (ds : list disk) (lab : bytes) : option disk :=
  find (fun d => match dk_label d with Some l => beqb l lab | None => true end) ds.
(** a line [LABEL=...] for which an unknown label is compared *)
Definition unknown_label (ds : list disk) (line : bytes) : bool :=
  starts_with (bs "LABEL=") line &&
  match labelled_disk ds (skipn 6 line) with Some d => match dk_label d with None => true | Some _ => false end | None => false end.
(** the disk a line names *)
Definition names_disk (table : list (bytes * Z)) (ds : list disk) (d : disk) (line : bytes) : bool :=
  (starts_with (bs "UUID=") line && match id_of table (skipn 5 line) with Some id => Z.eqb id (dk_id d) | None => false end) ||
  (starts_with (bs "LABEL=") line && match labelled_disk ds (skipn 6 line) with Some d' => Z.eqb (dk_id d') (dk_id d) | None => false end).
Definition with_preferences (table : list (bytes * Z)) (fstab : list bytes) (ds : list disk) : res (list disk) :=
  if existsb (unknown_label ds) fstab then Undef UbUninit
  else Ok (map (fun d =>
         {| dk_id := dk_id d; dk_device := dk_device d; dk_sn := dk_sn d; dk_sn_init := dk_sn_init d; dk_label := dk_label d;
            dk_label_init := dk_label_init d; dk_preferred := dk_preferred d || existsb (names_disk table ds d) fstab |}) ds).

(** ** The listing *)
Definition disks_of (env : disk_env) : res (func_ret * list disk) :=
  let entries := examined (usables (match de_by_uuid env with Some es => es | None => [] end)) in
  let fstab := match de_fstab env with Some ls => ls | None => [] end in
  match entries with
  | _ :: _ =>
      if existsb (fun x => overflows (u_name x)) entries then Undef UbWrite
      else ds <-- with_preferences (map (fun x => (u_name x, u_id x)) entries) fstab (map (uuid_disk env) (distinct [] entries)) ;;
           Ok (FUNC_RET_OK, ds)
  | [] =>
      match flat_map (fun c => match c with Some s => [s] | None => [] end) (de_blkid env) with
      | [] => Ok (FUNC_RET_NOT_AVAIL, [])
      | content :: _ =>
          found <-- all_ok (map (fun q => blkid_disk (fst q) (snd q)) (combine (seq 0 (length (windows content))) (windows content))) ;;
          ds <-- with_preferences (map (fun x => (fst x, dk_id (snd x))) found) fstab (map snd found) ;;
          Ok (FUNC_RET_OK, ds)
      end
  end.
