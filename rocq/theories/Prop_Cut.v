(** C111: a license or INI text that is cut short. *)
From Coq Require Import Lia.
From Verif Require Import Base P_Base CTypes StringUtils Dates Base64 HwId Registry Ini Network Disks ExecEnv Strategies Locate Licensecc.
From Verif Require Import Spec_Ini P_Ini Spec_Strings Spec_Hw Spec_Acquire P_Acquire2 P_Signature Spec_Cut P_Cut P_Cut2 Prop_Ini Prop_Acquire Ex_Acquire.

(** *** What the first bytes of a text say is what the text says, up to a point: the first items, the
    last of which may be an entry whose value is cut. No section and no key appears that the whole
    text has not, and none is mistaken for another. *)
Theorem C111_items : forall text n, cut_items (text_items (firstn n text)) (text_items text).
Proof. intros text n. apply items_cut. Qed.
Print Assumptions C111_items.
Theorem C111_entries : forall text n section, cut_entries (section_entries (firstn n text) section) (section_entries text section).
Proof. intros text n s. apply entries_cut. Qed.
Print Assumptions C111_entries.

(** *** What is looked up in a text that was cut: some value that the whole text gives to that key of
    that section, or a beginning of it ... *)
Theorem C111_lookup : forall text n d d' sec key v', ini_load text = Ok d -> ini_load (firstn n text) = Ok d' ->
  get_value d' sec key = Some v' ->
  exists k v, In (k, v) (section_entries text sec) /\ same_name k key /\ begins v' v /\ get_value d sec key <> None.
Proof.
  intros text n d d' sec key v' L L' G. rewrite (ini_load_value _ _ _ _ L') in G. rewrite (ini_load_value _ _ _ _ L).
  assert (S : forall k, same_nameb k key = true <-> same_name k key) by (intros k; unfold same_nameb, same_name; rewrite beqb_eq; reflexivity).
  assert (IN : forall es v, last_value es key = Some v -> exists k, In (k, v) es /\ same_name k key).
  { induction es as [|[k1 v1] es IH]; [discriminate|]. intros v. cbn [last_value]. destruct (last_value es key) eqn:F; [intros X; injection X as ->; destruct (IH _ eq_refl) as (k' & A & B); exists k'; split; [right; exact A|exact B]|].
    destruct (same_nameb k1 key) eqn:Q; [|discriminate]. intros X. injection X as ->. exists k1. split; [left; reflexivity|apply S, Q]. }
  assert (SOME : forall es k v, In (k, v) es -> same_name k key -> last_value es key <> None).
  { induction es as [|[k1 v1] es IH]; [intros ? ? []|]. intros k v H N. cbn [last_value]. destruct (last_value es key) eqn:F; [discriminate|]. destruct H as [E|H]; [|destruct (IH k v H N eq_refl)]. injection E as -> ->. apply S in N. rewrite N. discriminate. }
  destruct (IN _ _ G) as (k & H & N). destruct (entries_cut text n sec) as [a b|a b k0 v0 v0' B].
  - assert (I : In (k, v') (a ++ b)) by (apply in_or_app; left; exact H). exists k, v'. split; [exact I|]. split; [exact N|]. split; [apply begins_refl|exact (SOME _ _ _ I N)].
  - apply in_app_or in H as [H|[E|[]]].
    + assert (I : In (k, v') (a ++ (k0, v0) :: b)) by (apply in_or_app; left; exact H). exists k, v'. split; [exact I|]. split; [exact N|]. split; [apply begins_refl|exact (SOME _ _ _ I N)].
    + injection E as -> ->. assert (I : In (k, v0) (a ++ (k, v0) :: b)) by (apply in_or_app; right; left; reflexivity). exists k, v0. split; [exact I|]. split; [exact N|]. split; [exact B|exact (SOME _ _ _ I N)].
Qed.
Print Assumptions C111_lookup.
(** ... and if no key occurs twice in the section, a beginning of the value. *)
Theorem C111_value : forall text n d d' sec key v', ini_load text = Ok d -> ini_load (firstn n text) = Ok d' ->
  distinct_names (section_entries text sec) -> get_value d' sec key = Some v' ->
  exists v, get_value d sec key = Some v /\ begins v' v.
Proof.
  intros text n d d' sec key v' L L' D G. destruct (C111_lookup _ _ _ _ _ _ _ L L' G) as (k & v & H & N & B & _). exists v. split; [|exact B]. rewrite (ini_load_value _ _ _ _ L). apply (last_in _ _ _ D). eauto.
Qed.
Print Assumptions C111_value.

(** *** A license that is cut short is never worth more than the whole one: if what is left of it is a
    valid license, so is the whole license, for the same feature, caller, time and machine - if no
    key occurs twice in it and nothing else was signed. *)
Theorem C111_never_better : forall w feature magic text n sig sig' now m,
  let es := section_entries text feature in
  let es' := section_entries (firstn n text) feature in
  distinct_names es -> tidy_entries es ->
  last_value es (bs "sig") = Some sig -> signature_good w feature es sig ->
  last_value es' (bs "sig") = Some sig' -> one_text w sig sig' ->
  valid_license w feature magic es' now m ->
  valid_license w feature magic es now m /\
  (forall k v, k <> bs "sig" -> In (k, v) es <-> In (k, v) es').
Proof.
  intros w f mg text n sig sig' now m es es' D T LS G LS' ONE V. pose proof (entries_cut text n f : cut_entries es' es) as C. pose proof (cut_distinct _ _ C D) as D'. clearbody es es'.
  destruct V as (s & [FS FV] & G' & MG & TM & LK). rewrite LS' in FS. injection FS as <-.
  assert (SAME : forall k v, k <> bs "sig" -> In (k, v) es <-> In (k, v) es').
  { destruct G as (mm & z & data & L & K & B & Z & VE). destruct G' as (mm' & z' & data' & L' & K' & B' & Z' & VE'). apply (cut_weight _ _ C T). apply (same_weight f _ _ _ _ D D' L L'). exact (ONE _ _ _ _ _ _ B B' VE VE'). }
  split; [|exact SAME].
  assert (EX : forall k, k <> bs "sig" -> exact_value es k = exact_value es' k).
  { intros k NS. assert (Q : forall v, exact_value es k = Some v <-> exact_value es' k = Some v) by (intros v; rewrite (exact_in es k v D), (exact_in es' k v D'); apply SAME, NS).
    destruct (exact_value es k) as [v|]; [symmetry; apply Q; reflexivity|]. destruct (exact_value es' k) as [v|]; [destruct (Q v) as [_ Q2]; discriminate (Q2 eq_refl)|reflexivity]. }
  exists sig. split; [split; [exact LS|]|].
  - destruct FV as (v & LV & VV). exists v. split; [|exact VV]. apply (last_in _ _ _ D') in LV as (k & IN & N). apply (last_in _ _ _ D). exists k. split; [|exact N]. apply SAME; [|exact IN]. intros ->. discriminate N.
  - split; [exact G|]. split; [exact MG|]. split.
    + destruct TM as [T1 T2]. split.
      * rewrite EX by discriminate. destruct T1 as [T1|(x & (d & yy & mo & dd & E & DT & SX) & LE)]; [left; exact T1|right]. exists x. split; [exists d, yy, mo, dd; rewrite EX by discriminate; auto|exact LE].
      * rewrite EX by discriminate. destruct T2 as [T2|(x & (d & yy & mo & dd & E & DT & SX) & LE)]; [left; exact T2|right]. exists x. split; [exists d, yy, mo, dd; rewrite EX by discriminate; auto|exact LE].
    + intros code H. apply LK. unfold locked in *. rewrite <- EX by discriminate. exact H.
Qed.
Print Assumptions C111_never_better.

(** For a call that has one license file to look at, which may have been cut at any length (as when
    the disk was full, or when it is longer than the 4096 bytes that are read): the call succeeds only
    if the whole license is valid. *)
Theorem C111_call : forall w c hint out t out' t' p text,
  (forall i, order_ok (w_machine w i)) -> sources w hint = [SFile p] ->
  (forall i f, w_file w i (cstr p) = Some f -> exists n, f_data f = firstn n text) ->
  let feature := feature_of w (option_map ci_feature c) in
  let es := section_entries text feature in
  distinct_names es -> tidy_entries es ->
  (exists sig, last_value es (bs "sig") = Some sig /\ signature_good w feature es sig /\
     forall n sig', last_value (section_entries (firstn n text) feature) (bs "sig") = Some sig' -> one_text w sig sig') ->
  acquire_license w c hint out t = Ok ((LICENSE_OK, out'), t') ->
  exists i j, t <= i < t' /\ t <= j < t' /\ valid_license w feature (magic_of (option_map ci_magic c)) es (w_clock w i) (w_machine w j).
Proof.
  intros w c hint out t out' t' p text O SR FD feature es D T (sig & LS & G & ONE) H. destruct (C01_accept_sound w c hint out t out' t' O H) as (s & content & i & j & IN & PR & GV & I & J & V). fold feature in V.
  rewrite SR in IN. destruct IN as [<-|[]]. cbn [given] in GV. destruct GV as (x & _ & SP). inversion SP as [p0 f F| | |]; subst. destruct (FD _ _ F) as (n & E). rewrite E, firstn_firstn in V.
  exists i, j. split; [exact I|]. split; [exact J|]. pose proof V as V0. destruct V as (sig' & [LS' _] & _). exact (proj1 (C111_never_better w feature _ text _ sig sig' _ _ D T LS G LS' (ONE _ _ LS') V0)).
Qed.
Print Assumptions C111_call.

(** concrete: the license of the demo (valid until 2030, on one machine), cut at every length. Only the
    whole text is accepted; without its last line end it is whole. *)
Example C111_case :
  let run n := code_of (acquire_license (demo false false NOW [] []) (Some (asking "demo")) (Some (hint_of 1 (firstn n good_license))) None 0) in
  forallb (fun n => match run n with Ok LICENSE_OK => false | _ => true end) (seq 1 (length good_license - 2)) = true /\
  run (length good_license - 1) = Ok LICENSE_OK /\ run (length good_license) = Ok LICENSE_OK /\
  section_entries (firstn 40 good_license) (bs "DEMO") = [(bs "lic_ver", bs "200"); (bs "valid-to", bs "2030-01-")] /\
  section_entries (firstn 45 good_license) (bs "DEMO") = [(bs "lic_ver", bs "200"); (bs "valid-to", bs "2030-01-01")].
Proof. vm_compute. repeat split. Qed.
(** ... and its entries meet the conditions of the theorems *)
Example C111_conditions : let w := demo false false NOW [] [] in let es := section_entries good_license (bs "DEMO") in
  distinct_names es /\ tidy_entries es /\ exists sig, last_value es (bs "sig") = Some sig /\ signature_good w (bs "DEMO") es sig /\ one_text w sig sig.
Proof.
  cbv zeta. assert (E : section_entries good_license (bs "DEMO") = [(bs "lic_ver", bs "200"); (bs "valid-to", bs "2030-01-01"); (bs "client-signature", bs "ACAK-AAEB-Kio="); (bs "sig", bs "DEMOclient-signatureACAK-AAEB-Kio=lic_ver200valid-to2030-01-01")]) by (vm_compute; reflexivity).
  rewrite E. split; [|split].
  - cbn [distinct_names]. refine (conj _ (conj _ (conj _ (conj _ I)))); intros n v H; repeat (destruct H as [H|H]; [injection H as <- <-; discriminate|]); destruct H.
  - intros k v H. repeat (destruct H as [H|H]; [injection H as <- <-; split; [discriminate|split; reflexivity]|]). destruct H.
  - eexists. split; [reflexivity|]. split.
    + exists [(bs "client-signature", bs "ACAK-AAEB-Kio="); (bs "lic_ver", bs "200"); (bs "sig", bs "DEMOclient-signatureACAK-AAEB-Kio=lic_ver200valid-to2030-01-01"); (bs "valid-to", bs "2030-01-01")].
      eexists _, _. split; [|split; [reflexivity|split; [reflexivity|split; [cbn; lia|vm_compute; reflexivity]]]].
      rewrite <- E. set (es := section_entries _ _). match goal with |- limits_of es ?m => replace m with (lim es) by (vm_compute; reflexivity) end. apply lim_of.
    + intros n d n' d' t t' B B' V V'. cbn in B, B'. injection B as <- <-. injection B' as <- <-. cbn [w_verify demo] in V, V'. apply beqb_eq in V. apply beqb_eq in V'. congruence.
Qed.
(** If a key occurs twice, losing the second occurrence brings the first back to life (here the
    license loses its end in 2019): its signature was good for that text as well. *)
Definition twice : bytes :=
  LINE "[DEMO]" ++ LINE "lic_ver = 200" ++ LINE "sig = DEMOlic_ver200" ++ LINE "valid-to = 20190101" ++ LINE "sig = DEMOlic_ver200valid-to20190101".
Example C111_twice :
  let run text := code_of (acquire_license (demo false false NOW [] []) (Some (asking "demo")) (Some (hint_of 1 text)) None 0) in
  run twice = Ok PRODUCT_EXPIRED /\ run (firstn 42 twice) = Ok LICENSE_OK.
Proof. vm_compute. split; reflexivity. Qed.
(** The conditions of [C111_call]: the license beside the executable lost its end, and the only
    signature there is verifies one text. *)
Definition strict (n : nat) : world :=
  let w := demo true false NOW [] [] in
  {| w_project := w_project w; w_magic := w_magic w; w_near_module := true; w_with_env := false; w_module := w_module w; w_getenv := w_getenv w;
     w_good := fun _ _ => true; w_file := fun _ _ => Some {| f_size := N.of_nat (Nat.min n (length good_license)); f_data := firstn n good_license |};
     w_clock := w_clock w; w_mktime := w_mktime w; w_bio := w_bio w; w_key_ok := true;
     w_verify := fun text sig => beqb text (bs "DEMOclient-signatureACAK-AAEB-Kio=lic_ver200valid-to2030-01-01") && beqb sig text; w_machine := w_machine w |}.
Example C111_strict : forall n,
  let w := strict n in let es := section_entries good_license (bs "DEMO") in
  sources w None = [SFile (bs "/opt/demo.lic")] /\ (forall i f, w_file w i (bs "/opt/demo.lic") = Some f -> exists k, f_data f = firstn k good_license) /\
  (forall sig sig', one_text w sig sig') /\
  feature_of w (option_map ci_feature (Some (asking "demo"))) = bs "demo".
Proof.
  intros n. cbv zeta. split; [reflexivity|]. split; [intros i f H; injection H as <-; exists n; reflexivity|]. split; [|vm_compute; reflexivity].
  intros sig sig' a d a' d' t t' _ _ V V'. cbn [w_verify strict] in V, V'. apply andb_prop in V as [V _]. apply andb_prop in V' as [V' _]. apply beqb_eq in V. apply beqb_eq in V'. congruence.
Qed.
Example C111_strict_runs : map (fun n => code_of (acquire_license (strict n) (Some (asking "demo")) None None 0)) [0; 60; 100; 142; 143; 144] =
  [Ok PRODUCT_NOT_LICENSED; Ok LICENSE_MALFORMED; Ok LICENSE_CORRUPTED; Ok LICENSE_CORRUPTED; Ok LICENSE_OK; Ok LICENSE_OK].
Proof. vm_compute. reflexivity. Qed.
