(** Issuing a license: what the issuer puts in the text, and when the library can check
    its signatures. *)
From Verif Require Import Base Base64 HwId Disks Strategies Locate Licensecc.
From Verif Require Import Spec_Strings Spec_Base64 Spec_Dates Spec_HwId Spec_Hw Spec_Listing Spec_Ini Spec_Acquire Spec_Layout.
From Coq Require Import Sorted Permutation.

(** The entries [es] of a license with these limits: the limits and a signature of
    them, in any order. [sign]: the signature, as text, for a text. *)
Record issued (sign : bytes -> bytes) (feature : bytes) (limits es : list (bytes * bytes)) : Prop := {
  is_sorted : StronglySorted (fun a b => bcmp (fst a) (fst b) = Lt) limits;
  is_distinct : distinct_names limits;
  is_version : In (bs "lic_ver", bs "200") limits;
  is_unsigned : forall k v, In (k, v) limits -> ~ same_name k (bs "sig");
  is_entries : Permutation es ((bs "sig", sign (signed_text feature limits)) :: limits)
}.
(** the public key in the library is that of the issuer: it accepts the signature of
    this text *)
Definition honours (w : world) (sign : bytes -> bytes) (text : bytes) : Prop :=
  w_key_ok w = true /\
  exists n data, w_bio w (sign text) = (n, data) /\ (0 <= n < 512)%Z /\ w_verify w text (firstn (Z.to_nat n) data) = true.
(** the dates are dates, and not ridiculously far away *)
Definition well_dated (w : world) (limits : list (bytes * bytes)) : Prop :=
  forall key d, In key [bs "valid-to"; bs "valid-from"] -> In (key, d) limits ->
    exists y m day, date_text d y m day /\ forall i, (Z.abs (w_mktime w y m day - w_clock w i) <= 86400 * 2147483647)%Z.
(** the hardware identifier is one; if it is that of a disk the disks can be listed *)
Definition well_locked (w : world) (limits : list (bytes * bytes)) : Prop :=
  forall code, In (bs "client-signature", code) limits ->
    ~ over_read (undashed code) /\ forall h j u, denotes code h -> strategy_bits h = 2%Z -> disks_of (hw_disks (w_machine w j)) <> Undef u.
