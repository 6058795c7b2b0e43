(** Model of src/library/os/windows/signature_verifier.cpp: reading the public key and
    verifying a signature with the Windows cryptography provider (64 bit build). *)
From Verif Require Import Base Base64 Network Trace.
Local Open Scope N_scope.

(** size_t of a 64 bit Windows build *)
Definition SIZE_T : N := 2 ^ 64.

(** *ptr where ptr points to element [p] of the array pubKey (118-119) *)
Definition key_at (key : bytes) (p : nat) : res ascii :=
  match nth_error key p with Some b => Ok b | None => Undef UbRead end.

(** 71: "*(ptr++) << (i * 8)", an int, then converted to size_t. Shifting by 32 or more
    is undefined; a result of 2^31 or more becomes negative, and huge as a size_t. *)
Definition shifted (b : ascii) (i : nat) : res N :=
  if (4 <=? i)%nat then Undef UbOverflow
  else let v := code b * 2 ^ (8 * N.of_nat i) in
       Ok (if v <? 2 ^ 31 then v else SIZE_T - 2 ^ 32 + v).
(** 70-72: the loop over the [k] remaining octets of a long length *)
Fixpoint length_octets (key : bytes) (k i p : nat) (result : N) : res (N * nat) :=
  match k with
  | O => Ok (result, p)
  | S k => b <-- key_at key p ;; v <-- shifted b i ;; length_octets key k (S i) (S p) ((result + v) mod SIZE_T)
  end.
(** 64-77 (without the output to cout). Result: the length and the new pointer. *)
Definition read_length (key : bytes) (p : nat) : res (N * nat) :=
  len <-- key_at key p ;;
  if 0 <? N.land (code len) 0x80 then length_octets key (N.to_nat (N.land (code len) 0x7f)) 0 (S p) 0
  else Ok (code len, S p).

(** 79-86 *)
Definition read_sequence (key : bytes) (p : nat) : res (func_ret * nat) :=
  tag <-- key_at key p ;;
  if negb (code tag =? 0x30) then Ok (FUNC_RET_ERROR, S p)
  else '(_, p) <-- read_length key (S p) ;; Ok (FUNC_RET_OK, p).

(** memory that may not have been written yet *)
Definition memory := list (option ascii).
(** 102-104: copy [k] bytes to location[i], location[i+1], ... *)
Fixpoint copy_bytes (key : bytes) (k i p : nat) (loc : memory) : res (memory * nat) :=
  match k with
  | O => Ok (loc, p)
  | S k =>
      b <-- key_at key p ;;
      if (i <? length loc)%nat
      then copy_bytes key k (S i) (S p) (firstn i loc ++ Some b :: skipn (S i) loc)
      else Undef UbWrite
  end.
(** 88-106; expected_length is the size of the location (calls at 121, 122) *)
Definition read_integer (key : bytes) (p : nat) (loc : memory) : res (func_ret * nat * memory) :=
  tag <-- key_at key p ;;
  if negb (code tag =? 0x02) then Ok (FUNC_RET_ERROR, S p, loc)
  else
    '(len, p) <-- read_length key (S p) ;;
    b <-- key_at key p ;;
    let '(len, p) := if code b =? 0 then ((len + (SIZE_T - 1)) mod SIZE_T, S p) else (len, p) in
    if N.of_nat (length loc) <? len then Ok (FUNC_RET_ERROR, p, loc)
    else '(loc, p) <-- copy_bytes key (N.to_nat len) 0 p loc ;; Ok (FUNC_RET_OK, p, loc).

(** 39-45, 111: the exponent and the modulus of PUBKEY_BLOB *)
Record key_blob := { kb_exponent : memory; kb_modulus : memory }.
(** 118-122. What the calls return is not looked at. *)
Definition read_key (key : bytes) : res key_blob :=
  '(_, p) <-- read_sequence key 0 ;;
  '(_, p, modulus) <-- read_integer key p (repeat None 128) ;;
  '(_, p, exponent) <-- read_integer key p (repeat None 3) ;;
  Ok {| kb_exponent := exponent; kb_modulus := modulus |}.

(** ** The provider *)
(** the handles and heap blocks *)
Inductive resource := RHashAlg | RHashObject | RHashData | RHash | RSignAlg | RKey.
(** What the Windows calls answer. [None]/[false]: failure. A hash and a verification
    depend on the bytes they are given; the pointer passed as hash object or output
    buffer is not modelled, nor are the lengths the provider reports. *)
Record provider := {
  pv_open_hash : bool;               (* 50 *)
  pv_object_length : bool;           (* 197 *)
  pv_hash_length : bool;             (* 199 *)
  pv_alloc_object : bool;            (* 202 *)
  pv_alloc_data : bool;              (* 203 *)
  pv_create_hash : bool;             (* 205 *)
  pv_sha256 : bytes -> option bytes; (* 58-59 *)
  pv_open_rsa : bool;                (* 145 *)
  pv_import : bytes -> bytes -> bool;(* 123: exponent, modulus *)
  pv_verify : bytes -> bytes -> bytes -> bytes -> bool; (* 150: exponent, modulus, hash, signature *)
  pv_stack : nat -> ascii            (* what the memory of an unwritten variable happens to hold *)
}.
(** the bytes of the blob as the provider sees them (123) *)
Fixpoint seen (stack : nat -> ascii) (m : memory) : bytes :=
  match m with
  | [] => []
  | o :: m => match o with Some b => b | None => stack O end :: seen (fun i => stack (S i)) m
  end.
Definition seen_exponent (v : provider) (k : key_blob) : bytes := seen (pv_stack v) (kb_exponent k).
Definition seen_modulus (v : provider) (k : key_blob) : bytes := seen (fun i => pv_stack v (3 + i)%nat) (kb_modulus k).

(** a length passed as ULONG/DWORD (58, 142) *)
Definition truncated (data : bytes) : bytes := firstn (N.to_nat (N.of_nat (length data) mod 2 ^ 32)) data.

(** 108-132. Also the key, which BCryptVerifySignature uses (150). *)
Definition read_public_key (v : provider) (key : bytes) : T resource (func_ret * bytes * bytes) :=
  blob <<- tlift (read_key key) ;;
  let e := seen_exponent v blob in
  let n := seen_modulus v blob in
  if pv_import v e n then _ <<- tlog (Acquired RKey) ;; tret (FUNC_RET_OK, e, n)
  else tret (FUNC_RET_ERROR, e, n).
(** func_ret == FUNC_RET_OK *)
Definition is_ok (r : func_ret) : bool := match r with FUNC_RET_OK => true | _ => false end.

(** 134-180. &signatureBlob[0] of an empty vector is undefined (143). *)
Definition verify_hash (v : provider) (key hash signature : bytes) : T resource func_ret :=
  blob <<- tlift (unbase64 signature) ;;
  _ <<- tlift (match blob with [] => Undef UbNull | _ => Ok tt end) ;;
  if pv_open_rsa v then
    _ <<- tlog (Acquired RSignAlg) ;;
    '(result, e, n) <<- read_public_key v key ;;
    let result' := if is_ok result then if pv_verify v e n hash (truncated blob) then FUNC_RET_OK else FUNC_RET_ERROR
                   else result in
    _ <<- twhen (is_ok result) (Released RKey) ;;
    _ <<- tlog (Released RSignAlg) ;;
    tret result'
  else tret FUNC_RET_NOT_AVAIL.

(** 182-244 *)
Definition win_verify_signature (v : provider) (key text signature : bytes) : T resource func_ret :=
  if negb (pv_open_hash v) then tlift (Throw ExLogic)
  else
    _ <<- tlog (Acquired RHashAlg) ;;
    let properties := pv_object_length v && pv_hash_length v in
    let object := properties && pv_alloc_object v in
    let data := properties && pv_alloc_data v in
    _ <<- twhen object (Acquired RHashObject) ;;
    _ <<- twhen data (Acquired RHashData) ;;
    let hash := object && data && pv_create_hash v in
    _ <<- twhen hash (Acquired RHash) ;;
    result <<- (if negb properties then tret FUNC_RET_NOT_AVAIL
                else if negb (object && data) then tret FUNC_RET_BUFFER_TOO_SMALL
                else if negb hash then tret FUNC_RET_NOT_AVAIL
                else match pv_sha256 v (truncated text) with
                     | Some h => verify_hash v key h signature
                     | None => tret FUNC_RET_NOT_AVAIL
                     end) ;;
    _ <<- twhen hash (Released RHash) ;;
    _ <<- twhen object (Released RHashObject) ;;
    _ <<- twhen data (Released RHashData) ;;
    _ <<- tlog (Released RHashAlg) ;;
    tret result.
