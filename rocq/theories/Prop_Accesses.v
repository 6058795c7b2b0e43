(** The accesses of acquire_license to files, clock and hardware (C85). *)
From Verif Require Import Base CTypes StringUtils Dates Doubles Base64 HwId Registry Ini Network Disks ExecEnv Strategies Locate Licensecc AcquireIo.
From Verif Require Import P_Base Spec_Strings Spec_Base64 Spec_Dates P_Strings P_Text P_Decode Spec_Ini P_Ini Spec_HwId Spec_Hw P_Hw2 Spec_Registry P_Registry Spec_Acquire P_Acquire1 P_Acquire2 P_Acquire3 P_Acquire4 Spec_Listing Spec_Faults P_Faults P_Faults2 Spec_Accesses P_Io P_Io2.
From Verif Require Import Ex_Acquire.
From Coq Require Import Lia.

Lemma zip_short {A B C} (f : A -> B -> list C) l l' : (forall a b, length (f a b) <= 1) -> length (zip_with f l l') <= length l.
Proof. intros H. revert l'. induction l as [|a l IH]; intros [|b l']; cbn; try lia. rewrite app_length. specialize (H a b). specialize (IH l'). lia. Qed.
Lemma data_short f s o : length (data_of f s o) <= 1.
Proof. unfold data_of. destruct o; cbn; [|lia]. destruct (found _); cbn; lia. Qed.

Section CALL.
Variables (w : world) (c : option caller) (hint : option location) (out : option out_info) (t : nat).
Let f := feature_of w (option_map ci_feature c).
Let mg := magic_of (option_map ci_magic c).
Lemma after_reading : (exists rest, accesses w c hint out t ++ rest = search w hint t /\ forall x, acquire_license w c hint out t <> Ok x) \/
  exists ds k, accesses w c hint out t = search w hint t ++ k /\ length ds <= length (sources w hint) /\
    Forall (fun d => carried w f hint t (ld_entries d) (ld_sig d)) ds /\
    (forall x t', acquire_license w c hint out t = Ok (x, t') -> exists ks, k = concat ks /\ Forall2 (fun d k => checks w f mg t t' (ld_entries d) (ld_sig d) k) ds ks) /\
    (exists ks, k = concat ks /\ Forall2 (fun d k => part w f mg (ld_entries d) (ld_sig d) k) ds ks).
Proof.
  rewrite <- run_acquire. unfold accesses, io_acquire_license. destruct (requested_feature w c) as [f'| | |] eqn:Ef.
  2,3,4: left; exists (search w hint t); split; [reflexivity|]; intros x; cbn; discriminate.
  apply requested_feature_ok in Ef. fold f in Ef. subst f'. cbn [ilift ibind]. rewrite accesses_bind, run_bind. unfold mbind.
  pose proof (does_licenses w hint f t) as D. unfold does in D. rewrite run_licenses in *. destruct (read_licenses w hint f t) as [[[er ls] u]| | |] eqn:Er.
  2,3,4: left; destruct D as [rest D]; exists rest; rewrite app_nil_r; split; [exact D|intros x; discriminate].
  right. destruct D as [D _]. rewrite D. pose proof (run_licenses w hint f t) as RC. rewrite Er in RC. pose proof (run_count _ _ _ _ _ RC) as Hu. clear RC. rewrite D in Hu.
  apply read_licenses_ok in Er as [Hle [oss [Hos [Hls _]]]]. rewrite zip_licenses in Hls. set (ds := zip_with (data_of f) (sources w hint) (concat oss)) in *. exists ds.
  assert (HD : Forall (fun d => carried w f hint t (ld_entries d) (ld_sig d)) ds).
  { eapply Forall_impl; [|apply (data_carried w f hint t u); [apply incl_refl|apply seen_flat, Hos]]. intros d [H _]. exact H. }
  assert (HL : length ds <= length (sources w hint)) by (apply zip_short; intros; apply data_short). clearbody ds. subst ls. destruct ds as [|d ds].
  - cbn [map]. exists []. split; [|split; [exact HL|split; [exact HD|split; [|exists []; split; [reflexivity|constructor]]]]].
    + f_equal. destruct (turn_warnings_into_errors er) as [[er2 b]| | |]; cbn; try reflexivity. destruct (failure_code er2); reflexivity.
    + intros x t1 _. exists []. split; [reflexivity|constructor].
  - cbn [map]. change (lic_full f d :: map (lic_full f) ds) with (map (lic_full f) (d :: ds)). eexists. split; [reflexivity|]. split; [exact HL|]. split; [exact HD|].
    rewrite accesses_bind, run_bind. unfold mbind. destruct (verify_accesses w f (option_map ci_magic c) (d :: ds) er [] [] u) as [V1 V2]. destruct (io_run w (io_verify_all _ _ _ _ _ _) u) as [[[[er2 ok] bad] v]| | |] eqn:Ev.
    2,3,4: rewrite app_nil_r; split; [discriminate|exact V2].
    match goal with |- context [io_accesses w ?m v] => set (m0 := m) end.
    assert (Z : io_accesses w m0 v = [] /\ forall x t', io_run w m0 v = Ok (x, t') -> t' = v).
    { unfold m0. destruct ok; [|destruct (turn_errors_into_warnings er2); cbn; split; [reflexivity|congruence]]. destruct (turn_warnings_into_errors er2) as [[er3 b]| | |]; cbn; [|split; [reflexivity|discriminate]..].
      destruct (failure_code er3); cbn; (split; [reflexivity|congruence]). }
    destruct Z as [Z1 Z2]. rewrite Z1, app_nil_r. split; [|exact V2]. intros x t' Hx. apply Z2 in Hx. subst t'. destruct (V1 _ _ eq_refl) as [ks [E1 E2]]. exists ks. split; [exact E1|]. eapply Forall2_impl; [|exact E2]. intros a b. apply checks_wide; lia.
Qed.
End CALL.

(** ** C85 *)
(** A call that returns: it searches the places in order, and in each it looks for all the
    files and then reads those that are there; then it checks the licenses it has found. *)
Theorem C85_accesses w c hint out t result t' : acquire_license w c hint out t = Ok (result, t') ->
  exists licenses ks, accesses w c hint out t = search w hint t ++ concat ks /\ length licenses <= length (sources w hint) /\
    Forall (fun l => carried w (feature_of w (option_map ci_feature c)) hint t (fst l) (snd l)) licenses /\
    Forall2 (fun l k => checks w (feature_of w (option_map ci_feature c)) (magic_of (option_map ci_magic c)) t t' (fst l) (snd l) k) licenses ks.
Proof.
  intros H. destruct (after_reading w c hint out t) as [[rest [_ N]]|[ds [k [E [L [D [C _]]]]]]]; [destruct (N _ H)|]. destruct (C _ _ H) as [ks [-> K]].
  exists (map (fun d => (ld_entries d, ld_sig d)) ds), ks. split; [exact E|]. split; [rewrite map_length; exact L|]. split; [rewrite Forall_map; exact D|]. apply Forall2_map_l. exact K.
Qed.
Print Assumptions C85_accesses.
(** Whether or not the call returns: it makes no other accesses than these. *)
Theorem C85_no_others w c hint out t : (exists rest, accesses w c hint out t ++ rest = search w hint t) \/
  exists licenses ks, accesses w c hint out t = search w hint t ++ concat ks /\ length licenses <= length (sources w hint) /\
    Forall (fun l => carried w (feature_of w (option_map ci_feature c)) hint t (fst l) (snd l)) licenses /\
    Forall2 (fun l k => part w (feature_of w (option_map ci_feature c)) (magic_of (option_map ci_magic c)) (fst l) (snd l) k) licenses ks.
Proof.
  destruct (after_reading w c hint out t) as [[rest [E _]]|[ds [k [E [L [D [_ [ks [-> K]]]]]]]]]; [left; eauto|right].
  exists (map (fun d => (ld_entries d, ld_sig d)) ds), ks. split; [exact E|]. split; [rewrite map_length; exact L|]. split; [rewrite Forall_map; exact D|]. apply Forall2_map_l. exact K.
Qed.
Print Assumptions C85_no_others.
Lemma dates_kind es a : In a (dates es) -> a = Time.
Proof. unfold dates. destruct (exact_value es _); [intros [H|[]]; auto|intros []]. Qed.
Lemma part_kind w f mg es sig k a : part w f mg es sig k -> In a k -> a = Time \/ (a = Hardware /\ signature_good w f es sig /\ mg = w_magic w /\ exists code, locked es code).
Proof.
  intros H Ha. inversion H as [|E|G E|code G M C E]; subst k; [destruct Ha|left; eapply dates_kind, Ha|..]; (apply in_app_or in Ha as [Ha|Ha]; [left; eapply dates_kind, Ha|]).
  - destruct Ha as [<-|[]]. auto.
  - destruct Ha as [<-|[<-|[]]]; [auto|]. right. eauto 8.
Qed.
Lemma part_length w f mg es sig k : part w f mg es sig k -> length k <= 3.
Proof. assert (X : length (dates es) <= 1) by (unfold dates; destruct (exact_value es _); cbn; lia). intros H. inversion H; subst; rewrite ?app_length; cbn; lia. Qed.
Lemma zip_in {A B} (R : A -> B -> Prop) l l' y : Forall2 R l l' -> In y l' -> exists x, In x l /\ R x y.
Proof. induction 1 as [|a b l l' H HF IH]; intros Y; [destruct Y|]. destruct Y as [<-|Y]; [exists a; split; [left; reflexivity|exact H]|]. destruct (IH Y) as [x [Hx HR]]. exists x. split; [right; exact Hx|exact HR]. Qed.
Lemma search_kind w gs t a : In a (searching w gs t) -> exists ss s p, In ss gs /\ In s ss /\ In p (path_of s) /\ (a = Looked p \/ a = Read p).
Proof.
  revert t. induction gs as [|ss gs IH]; intros t H; [destruct H|]. cbn [searching] in H. cbv zeta in H. apply in_app_or in H as [H|H].
  - apply in_app_or in H as [H|H].
    + apply in_map_iff in H as [p [<- H]]. apply in_flat_map in H as [s [Hs Hp]]. exists ss, s, p. split; [left; reflexivity|auto].
    + apply in_flat_map in H as [s [Hs Hp]]. apply there_incl in Hs. destruct s as [p| | |]; cbn in Hp; try contradiction. destruct Hp as [<-|[]]. exists ss, (SFile p), (cstr p). split; [left; reflexivity|]. split; [exact Hs|]. split; [left; reflexivity|auto].
  - destruct (IH _ H) as [ss' [s [p [A B]]]]. exists ss', s, p. split; [right; exact A|exact B].
Qed.
(** No file is touched but those named by the sources. *)
Theorem C85_files_touched w c hint out t p : In (Looked p) (accesses w c hint out t) \/ In (Read p) (accesses w c hint out t) ->
  exists s, In s (sources w hint) /\ In p (path_of s).
Proof.
  intros H. assert (X : exists a, In a (accesses w c hint out t) /\ (a = Looked p \/ a = Read p)) by (destruct H; eauto). clear H. destruct X as [a [H K]].
  assert (Y : In a (search w hint t)).
  { destruct (C85_no_others w c hint out t) as [[rest <-]|[ls [ks [E [_ [_ HK]]]]]]; [apply in_or_app; auto|]. rewrite E in H. apply in_app_or in H as [H|H]; [exact H|]. apply in_concat in H as [k [Hk Ha]]. destruct (zip_in _ _ _ _ HK Hk) as [l [_ P]].
    destruct (part_kind _ _ _ _ _ _ _ P Ha) as [->|[-> _]]; destruct K; discriminate. }
  apply search_kind in Y as [ss [s [p' [A [B [C D]]]]]]. apply in_map_iff in A as [g [<- A]]. exists s. split; [apply in_flat_map; eauto|]. destruct K as [-> | ->], D as [D|D]; first [discriminate D|injection D as ->; exact C].
Qed.
Print Assumptions C85_files_touched.
(** The hardware is not examined unless for a genuine license made for this product that is
    locked to a machine. *)
Theorem C85_hardware_private w c hint out t : In Hardware (accesses w c hint out t) ->
  let f := feature_of w (option_map ci_feature c) in
  exists es sig code, carried w f hint t es sig /\ signature_good w f es sig /\ magic_of (option_map ci_magic c) = w_magic w /\ locked es code.
Proof.
  intros H. cbv zeta.
  assert (N : forall gs u, ~ In Hardware (searching w gs u)) by (intros gs u X; apply search_kind in X as [? [? [? [_ [_ [_ [X|X]]]]]]]; discriminate).
  destruct (C85_no_others w c hint out t) as [[rest E]|[ls [ks [E [_ [HC HK]]]]]]; [destruct (N (map g_sources (groups w hint)) t); unfold search in E; rewrite <- E; apply in_or_app; auto|]. rewrite E in H. apply in_app_or in H as [H|H]; [destruct (N _ _ H)|].
  apply in_concat in H as [k [Hk Ha]]. destruct (zip_in _ _ _ _ HK Hk) as [l [Hl P]]. destruct (part_kind _ _ _ _ _ _ _ P Ha) as [X|[_ [G [M [code C]]]]]; [discriminate|]. rewrite Forall_forall in HC. exists (fst l), (snd l), code. auto.
Qed.
Print Assumptions C85_hardware_private.
Lemma there_length w ss t : length (there w ss t) <= length ss.
Proof. revert t. induction ss as [|s ss IH]; intros t; [reflexivity|]. cbn [there]. rewrite app_length. specialize (IH (t + length (path_of s))). destruct (listed w s t); cbn; lia. Qed.
Lemma flat_length {A B} (f : A -> list B) l : (forall a, length (f a) <= 1) -> length (flat_map f l) <= length l.
Proof. intros H. induction l as [|a l IH]; [reflexivity|]. cbn. rewrite app_length. specialize (H a). lia. Qed.
Lemma search_length w gs t : length (searching w gs t) <= 2 * length (concat gs).
Proof.
  revert t. induction gs as [|ss gs IH]; intros t; [cbn; lia|]. cbn [searching concat]. cbv zeta. rewrite !app_length, map_length.
  assert (A : length (flat_map path_of ss) <= length ss) by (apply flat_length; intros []; cbn; lia). assert (B : length (flat_map read_of (there w ss t)) <= length (there w ss t)) by (apply flat_length; intros []; cbn; lia).
  pose proof (there_length w ss t). specialize (IH (t + (length (flat_map path_of ss) + length (flat_map read_of (there w ss t))))). rewrite <- (map_length Looked) in IH. rewrite map_length in *. lia.
Qed.
(** The work is bounded: at most five accesses for every source. *)
Theorem C85_bounded w c hint out t : length (accesses w c hint out t) <= 5 * length (sources w hint).
Proof.
  assert (HS : length (search w hint t) <= 2 * length (sources w hint)) by (unfold search, sources; rewrite flat_map_concat_map; apply search_length).
  destruct (C85_no_others w c hint out t) as [[rest E]|[ls [ks [E [L [_ HK]]]]]].
  - rewrite <- E, app_length in HS. lia.
  - rewrite E, app_length. assert (X : length (concat ks) <= 3 * length ls); [|lia]. clear -HK. induction HK as [|l k ls ks H HK IH]; [cbn; lia|]. cbn [concat length]. rewrite app_length. apply part_length in H. lia.
Qed.
Print Assumptions C85_bounded.
(** ... each of which advances the observer's clock by one. *)
Theorem C85_duration w c hint out t result t' : acquire_license w c hint out t = Ok (result, t') -> t' = t + length (accesses w c hint out t).
Proof. rewrite <- run_acquire. apply run_count. Qed.
Print Assumptions C85_duration.
(** a locked license beside the executable, one of two files of the variable there, a text *)
Example C85_case : let w := demo true true NOW files [("LICENSE_LOCATION"%string, bs "/nowhere;/c")] in
  accesses w (Some (asking "demo")) (Some (hint_of 1 free_license)) None 0 =
  [Looked (bs "/opt/demo.lic"); Read (bs "/opt/demo.lic"); Looked (bs "/nowhere"); Looked (bs "/c"); Read (bs "/c");
   Time; Time; Hardware; (* the one beside the executable *) Time; (* the forged one *) Time (* the text *)].
Proof. vm_compute. reflexivity. Qed.
