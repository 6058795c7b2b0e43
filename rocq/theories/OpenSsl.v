(** Model of src/library/os/openssl/signature_verifier.cpp call by call, with what it
    acquires and releases. [Licensecc.os_verify_signature] is the same function with
    every allocation succeeding (Prop_OpenSsl.v, C74_same). *)
From Verif Require Import Base Network Trace.

(** What the OpenSSL functions answer; [false] is a null pointer or a result other than 1. *)
Record openssl := {
  os_key_bio : bool;                  (* 50 BIO_new_mem_buf *)
  os_key : bool;                      (* 51 d2i_RSAPublicKey_bio, given a BIO *)
  os_pkey : bool;                     (* 57 EVP_PKEY_new *)
  os_assign : bool;                   (* 58 EVP_PKEY_assign_RSA, given a key *)
  os_b64 : bool;                      (* 69 BIO_new *)
  os_encoded : bool;                  (* 70 BIO_new_mem_buf *)
  os_read : bytes -> Z * bytes;       (* 73 BIO_read through the base64 filter *)
  os_ctx : bool;                      (* 80 EVP_MD_CTX_create *)
  os_init : bool;                     (* 85 EVP_DigestVerifyInit, given a key with an RSA *)
  os_update : bytes -> bool;          (* 91 EVP_DigestVerifyUpdate *)
  os_final : bytes -> bytes -> bool   (* 98 EVP_DigestVerifyFinal = 1 *)
}.
(** the objects *)
Inductive ossl_object := OKeyBio | ORsa | OPkey | OB64 | OEncoded | OCtx.

(** 73: what BIO_read returns and writes. Without the filter the text itself is read;
    without a source nothing is. *)
Definition bio_read (o : openssl) (sig : bytes) : Z * bytes :=
  if os_b64 o then if os_encoded o then os_read o sig else (0%Z, [])
  else (Z.of_nat (length sig), sig).
(** 25-32. Freeing a key frees the RSA assigned to it. *)
Definition free_resources (pkey assigned ctx : bool) : T ossl_object unit :=
  _ <<- twhen (pkey && assigned) (Released ORsa) ;;
  _ <<- twhen pkey (Released OPkey) ;;
  twhen ctx (Released OCtx).

(** 44-106 (initialize, 48, only loads tables) *)
Definition openssl_verify (o : openssl) (text sig : bytes) : T ossl_object func_ret :=
  _ <<- twhen (os_key_bio o) (Acquired OKeyBio) ;;
  let rsa := os_key_bio o && os_key o in
  _ <<- twhen rsa (Acquired ORsa) ;;
  _ <<- twhen (os_key_bio o) (Released OKeyBio) ;;
  if negb rsa then tret FUNC_RET_ERROR
  else
    _ <<- twhen (os_pkey o) (Acquired OPkey) ;;
    let assigned := os_pkey o && os_assign o in
    _ <<- twhen (os_b64 o) (Acquired OB64) ;;
    _ <<- twhen (os_encoded o) (Acquired OEncoded) ;;
    _ <<- tlift (if os_b64 o || os_encoded o then Ok tt else Undef UbNull) ;;
    let '(ret, data) := bio_read o sig in
    _ <<- tlift (if Z.ltb ret 0 || Z.leb 512 ret then Undef UbWrite else Ok tt) ;;
    _ <<- twhen (os_encoded o) (Released OEncoded) ;;
    _ <<- twhen (os_b64 o) (Released OB64) ;;
    let signature := firstn (Z.to_nat ret) data in
    if negb (os_ctx o) then _ <<- free_resources (os_pkey o) assigned false ;; tret FUNC_RET_ERROR
    else
      _ <<- tlog (Acquired OCtx) ;;
      if negb (assigned && os_init o) then _ <<- free_resources (os_pkey o) assigned true ;; tret FUNC_RET_ERROR
      else if negb (os_update o text) then _ <<- free_resources (os_pkey o) assigned true ;; tret FUNC_RET_ERROR
      else
        let result := if os_final o text signature then FUNC_RET_OK else FUNC_RET_ERROR in
        _ <<- free_resources (os_pkey o) assigned true ;;
        tret result.
