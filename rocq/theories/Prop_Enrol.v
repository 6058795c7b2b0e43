(** A license for the customer's machine, from identify_pc to acquire_license (C87). *)
From Verif Require Import Base CTypes StringUtils Dates Base64 HwId Registry Ini Network Disks ExecEnv Strategies Locate Licensecc.
From Verif Require Import P_Base Spec_Listing Spec_Strings Spec_Base64 Spec_Dates Spec_Ini Spec_HwId Spec_Hw P_Hw2 Spec_Registry Spec_Acquire Spec_Ext Spec_Layout Spec_Issue P_Acquire4.
From Verif Require P_Signature P_Layout P_HwText.
From Coq Require Import Sorted Permutation Lia.
From Verif Require Import Ex_Acquire Prop_Acquire Prop_Layout Prop_Issue.
From Verif Require Prop_Hw.

(** What identify_pc tells on the machine [m] identifies it. *)
Lemma told_identifies env m method buf size info buf' size' x : order_ok m -> size <= length buf ->
  identify_pc env m method (Some buf) size info = Ok (true, Some buf', size', x) ->
  validate_pc_signature m (cstr buf') = Ok LICENSE_OK.
Proof. intros Ho L H. eapply (Prop_Hw.C29_generated_id_validates env m m); try eassumption. repeat split. Qed.
Lemma verdict_identifies m code : order_ok m -> validate_pc_signature m code = Ok LICENSE_OK -> identifies m code.
Proof. intros Ho H. apply (validate_spec m code LICENSE_OK Ho H). reflexivity. Qed.
Lemma verdict_readable m code e : validate_pc_signature m code = Ok e -> ~ over_read (undashed code).
Proof.
  intros H O. assert (X : validate_pc_signature m code = Undef UbRead); [|congruence]. apply Prop_Hw.C31_undefined_iff. left. auto.
Qed.
Section ENROLMENT.
(** the customer's call of identify_pc, and what it tells *)
Variables (env : option bytes) (m : machine) (method : Z) (buf : bytes) (size : nat) (info : bool) (buf' : bytes) (size' : nat) (x : option exec_info).
Hypothesis TOLD : order_ok m /\ size <= length buf /\ identify_pc env m method (Some buf) size info = Ok (true, Some buf', size', x).
(** the license issued for it, in any layout, with any other limits *)
Variables (w : world) (sign : bytes -> bytes) (c : option caller) (d : document) (n : bytes) (limits es : list (bytes * bytes)) (text : bytes).
Let feature := feature_of w (option_map ci_feature c).
Hypothesis ISSUED : honours w sign (signed_text feature limits) /\ issued sign feature limits es /\ In (bs "client-signature", cstr buf') limits /\
  distinct_names d /\ In (n, es) d /\ same_name n feature /\ renders d text /\ length text <= HINT_SIZE /\ well_dated w limits.
(** where it is used *)
Hypothesis SURROUNDINGS : static w /\ w_near_module w = false /\ w_with_env w = false /\ (forall i, order_ok (w_machine w i)) /\
  magic_of (option_map ci_magic c) = w_magic w /\ (forall y, c = Some y -> In NUL (ci_feature y)) /\
  (forall i u, disks_of (hw_disks (w_machine w i)) <> Undef u).
Lemma enrolled out t : exists code out' t', acquire_license w c (Some {| loc_type := 1; loc_data := text ++ [NUL] |}) out t = Ok ((code, out'), t') /\
  (out_of_time w limits (w_clock w t) -> code = PRODUCT_EXPIRED) /\
  (in_time w limits (w_clock w t) -> (identifies (w_machine w t) (cstr buf') -> code = LICENSE_OK) /\ (~ identifies (w_machine w t) (cstr buf') -> code = IDENTIFIERS_MISMATCH)).
Proof.
  destruct TOLD as [To [Ts T]]. destruct ISSUED as [I1 [I2 [I3 [I4 [I5 [I6 [I7 [I8 I9]]]]]]]]. destruct SURROUNDINGS as [W1 [W2 [W3 [W4 [W5 [W6 W7]]]]]].
  pose proof (told_identifies _ _ _ _ _ _ _ _ _ To Ts T) as V.
  assert (U : forall id, locked limits id <-> id = cstr buf').
  { intros id. unfold locked. rewrite (is_lim _ _ _ _ I2). split; [|intros ->; exact I3]. intros H. destruct (P_Layout.distinct_in limits (is_distinct _ _ _ _ I2) _ _ _ _ H I3 eq_refl) as [_ X]. exact X. }
  assert (L : well_locked w limits).
  { intros id H. assert (id = cstr buf') as -> by (apply U, (is_lim _ _ _ _ I2), H). split; [eapply verdict_readable, V|]. intros h j u _ _. apply W7. }
  destruct (C81_issued_verdict w sign c d n es limits text out t W4 W1 W2 W3 W6 I1 I2 I4 I5 I6 I7 I8 I9 L) as [code [out' [t' [H [A [B [C _]]]]]]].
  exists code, out', t'. split; [exact H|]. split; [intros O; apply C; [exact W5|exact O]|]. intros O. split; intros Q.
  - apply A; [exact W5|exact O|]. intros id K. apply U in K. subst id. exact Q.
  - apply B; [exact W5|exact O|]. exists (cstr buf'). split; [apply U; reflexivity|exact Q].
Qed.
(** On the customer's machine, and still when hardware has been added, the license is accepted
    during its validity, whatever method, variable or buffer was used to identify it. *)
Theorem C87_accepted_at_home out t : (forall s data, own m s data -> own (w_machine w t) s data) -> in_time w limits (w_clock w t) ->
  exists out' t', acquire_license w c (Some {| loc_type := 1; loc_data := text ++ [NUL] |}) out t = Ok ((LICENSE_OK, out'), t').
Proof.
  intros K I. destruct (enrolled out t) as [code [out' [t' [H [_ A]]]]]. destruct (A I) as [B _]. exists out', t'. rewrite H. rewrite B; [reflexivity|].
  destruct TOLD as [To [Ts T]]. destruct (verdict_identifies m (cstr buf') To) as [h [data [D1 [D2 D3]]]]; [eapply told_identifies; eassumption|]. exists h, data. auto.
Qed.
(** After its end, or before its beginning, it is not. *)
Theorem C87_expired_at_home out t : out_of_time w limits (w_clock w t) ->
  exists out' t', acquire_license w c (Some {| loc_type := 1; loc_data := text ++ [NUL] |}) out t = Ok ((PRODUCT_EXPIRED, out'), t').
Proof. intros I. destruct (enrolled out t) as [code [out' [t' [H [A _]]]]]. exists out', t'. rewrite H, (A I). reflexivity. Qed.
(** On a machine with none of that hardware it is refused, and the caller is told why. *)
Theorem C87_refused_elsewhere out t : (forall s a b, own m s a -> own (w_machine w t) s b -> d7_53 a <> d7_53 b) -> in_time w limits (w_clock w t) ->
  exists out' t', acquire_license w c (Some {| loc_type := 1; loc_data := text ++ [NUL] |}) out t = Ok ((IDENTIFIERS_MISMATCH, out'), t').
Proof.
  intros K I. destruct (enrolled out t) as [code [out' [t' [H [_ A]]]]]. destruct (A I) as [_ B]. exists out', t'. rewrite H. rewrite B; [reflexivity|].
  intros [h [b [D1 [D2 D3]]]]. destruct TOLD as [To [Ts T]]. destruct (verdict_identifies m (cstr buf') To) as [h' [a [E1 [E2 E3]]]]; [eapply told_identifies; eassumption|].
  pose proof (P_HwText.denotes_fun _ _ _ D1 E1) as <-. apply (K _ _ _ E2 D2). congruence.
Qed.
End ENROLMENT.
Print Assumptions C87_accepted_at_home. Print Assumptions C87_expired_at_home. Print Assumptions C87_refused_elsewhere.

(** identification by address, a license with that code *)
Definition CODE : bytes := bs "ACAK-AAEB-Kio=".
Definition HOME_LIMITS : list (bytes * bytes) := [(bs "client-signature", CODE); (bs "lic_ver", bs "200")].
Definition HOME_ENTRIES : list (bytes * bytes) := (bs "sig", signed_text (bs "demo") HOME_LIMITS) :: HOME_LIMITS.
Definition HOME_TEXT : bytes := bs "[demo]" ++ [LF] ++ bs "sig=DEMOclient-signatureACAK-AAEB-Kio=lic_ver200" ++ [LF] ++ bs "client-signature=ACAK-AAEB-Kio=" ++ [LF] ++ bs "lic_ver=200".
Lemma home_text : renders [(bs "demo", HOME_ENTRIES)] HOME_TEXT.
Proof.
  unfold renders.
  change (sets_out (kept (LHeader (bs "demo")) ++ kept (LEntry (bs "sig") (bs "DEMOclient-signatureACAK-AAEB-Kio=lic_ver200")) ++ kept (LEntry (bs "client-signature") CODE) ++ kept (LEntry (bs "lic_ver") (bs "200"))) HOME_TEXT).
  unfold HOME_TEXT. repeat (apply so_line; [|left; reflexivity|]); try apply so_last.
  - apply (wr_header [] [] (bs "demo") [] []); try reflexivity; [split; [wr_clean|vm_compute; intuition discriminate]|wr_plain].
  - apply (wr_entry [] (bs "sig") [] [] (bs "DEMOclient-signatureACAK-AAEB-Kio=lic_ver200") []); try reflexivity; [wr_key|wr_clean].
  - apply (wr_entry [] (bs "client-signature") [] [] CODE []); try reflexivity; [wr_key|wr_clean].
  - apply (wr_entry [] (bs "lic_ver") [] [] (bs "200") []); try reflexivity; [wr_key|wr_clean].
Qed.
Lemma home_issued : issued (fun text => text) (bs "demo") HOME_LIMITS HOME_ENTRIES.
Proof.
  constructor.
  - repeat constructor.
  - split; [|split; [intros ? ? []|exact I]]. intros k v [X|[]] S; injection X as <- <-; vm_compute in S; discriminate S.
  - cbn. auto.
  - intros k v [X|[X|[]]] S; injection X as <- <-; vm_compute in S; discriminate S.
  - apply Permutation_refl.
Qed.
Example C87_case : exists buf' out' t', identify_pc None (Prop_Hw.net_machine Prop_Hw.some_interfaces) 1 (Some (repeat NUL 20)) 20 false = Ok (true, Some buf', 20, None) /\ cstr buf' = CODE /\
  acquire_license (demo false false NOW [] []) (Some (asking "demo")) (Some {| loc_type := 1; loc_data := HOME_TEXT ++ [NUL] |}) (Some blank_out) 0 = Ok ((LICENSE_OK, out'), t').
Proof.
  destruct Prop_Hw.C29_case as [buf' [H1 H2]]. exists buf'. set (w := demo false false NOW [] []).
  destruct (C87_accepted_at_home None (Prop_Hw.net_machine Prop_Hw.some_interfaces) 1 (repeat NUL 20) 20 false buf' 20 None (conj Prop_Hw.some_order (conj (le_n 20) H1)) w (fun text => text)
    (Some (asking "demo")) [(bs "demo", HOME_ENTRIES)] (bs "demo") HOME_LIMITS HOME_ENTRIES HOME_TEXT) with (out := Some blank_out) (t := 0) as [out' [t' H]].
  - split; [split; [reflexivity|eexists _, _; split; [reflexivity|split; [vm_compute; split; [discriminate|reflexivity]|vm_compute; reflexivity]]]|]. split; [exact home_issued|]. split; [rewrite H2; left; reflexivity|].
    split; [split; [intros ? ? []|exact I]|]. split; [left; reflexivity|]. split; [vm_compute; reflexivity|]. split; [exact home_text|]. split; [unfold HINT_SIZE; apply Nat.leb_le; vm_compute; reflexivity|].
    intros key d [<-|[<-|[]]] [X|[X|[]]]; discriminate X.
  - split; [apply demo_static|]. split; [reflexivity|]. split; [reflexivity|]. split; [apply demo_order|]. split; [reflexivity|]. split; [intros y [= <-]; vm_compute; tauto|]. intros i u. vm_compute. discriminate.
  - intros s data O. exact O.
  - split; left; vm_compute; reflexivity.
  - exists out', t'. auto.
Qed.
