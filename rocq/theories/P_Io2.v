(** The accesses of acquire_license. *)
From Verif Require Import Base CTypes StringUtils Dates Doubles Base64 HwId Registry Ini Network Disks ExecEnv Strategies Locate Licensecc AcquireIo.
From Verif Require Import P_Base Spec_Strings Spec_Base64 Spec_Dates P_Strings P_Text P_Decode Spec_Ini P_Ini Spec_HwId Spec_Hw P_Hw2 Spec_Registry P_Registry Spec_Acquire P_Acquire1 P_Acquire2 P_Acquire3 P_Acquire4 Spec_Listing Spec_Faults P_Faults P_Faults2 Spec_Accesses P_Io.
From Coq Require Import Lia.

(** The accesses of [m] are [acc] if it returns, and then the result is as expected; else an
    initial part of [acc]. *)
Definition does {A} (w : world) (m : io A) (t : nat) (acc : list access) (P : A -> Prop) : Prop :=
  match io_run w m t with
  | Ok (a, _) => io_accesses w m t = acc /\ P a
  | _ => exists rest, io_accesses w m t ++ rest = acc
  end.
Lemma does_lift {A} w (r : res A) t : does w (ilift r) t [] (fun a => r = Ok a).
Proof. unfold does. cbn. destruct r; cbn; eauto. Qed.
Lemma does_ret {A} w (a : A) t : does w (iret a) t [] (fun b => b = a).
Proof. split; reflexivity. Qed.
Lemma does_impl {A} w (m : io A) t acc (P Q : A -> Prop) : does w m t acc P -> (forall a, P a -> Q a) -> does w m t acc Q.
Proof. unfold does. intros H I. destruct (io_run w m t) as [[a u]| | |]; try exact H. destruct H. auto. Qed.
Lemma does_bind {A B} w (m : io A) (k : A -> io B) t acc acc' P Q : does w m t acc P -> (forall a, P a -> does w (k a) (t + length acc) acc' Q) -> does w (ibind m k) t (acc ++ acc') Q.
Proof.
  unfold does. intros H K. rewrite run_bind, accesses_bind. unfold mbind. destruct (io_run w m t) as [[a u]|e|b|] eqn:E.
  - destruct H as [<- HP]. apply run_count in E. subst u. specialize (K a HP). destruct (io_run w (k a) _) as [[b v]|e|b|]; [destruct K as [<- K]; auto|..]; destruct K as [rest <-]; exists rest; rewrite app_assoc; reflexivity.
  - destruct H as [rest <-]. exists (rest ++ acc'). rewrite app_nil_r, app_assoc. reflexivity.
  - destruct H as [rest <-]. exists (rest ++ acc'). rewrite app_nil_r, app_assoc. reflexivity.
  - destruct H as [rest <-]. exists (rest ++ acc'). rewrite app_nil_r, app_assoc. reflexivity.
Qed.
Lemma does_step {A B} w (r : res A) (k : A -> io B) t acc Q : (forall a, r = Ok a -> does w (k a) t acc Q) -> does w (ibind (ilift r) k) t acc Q.
Proof. intros H. apply (does_bind w (ilift r) k t [] acc (fun a => r = Ok a)); [apply does_lift|]. intros a E. cbn [length]. rewrite Nat.add_0_r. auto. Qed.
Lemma does_look {B} w p (k : bool -> io B) t acc Q : does w (k (w_good w t (cstr p))) (S t) acc Q -> does w (ibind (look_for p) k) t (Looked (cstr p) :: acc) Q.
Proof.
  intros H. apply (does_bind w (look_for p) k t [Looked (cstr p)] acc (fun b => b = w_good w t (cstr p))); [split; reflexivity|]. intros b ->. cbn [length]. rewrite Nat.add_1_r. exact H.
Qed.
Lemma does_one {A} w (m : io A) t acc (P : A -> Prop) : does w m t (acc ++ []) P -> does w m t acc P.
Proof. rewrite app_nil_r. auto. Qed.

(** ** looking *)
Lemma does_filter w (mk : bytes -> source) l x r t : (forall p, path_of (mk p) = [cstr p] /\ name_of (mk p) = p /\ forall i, listed w (mk p) i = w_good w i (cstr p)) ->
  does w (io_filter_existing_files l x r) t (map Looked (flat_map path_of (map mk l))) (fun a => fst a = map name_of (there w (map mk l) t)).
Proof.
  intros HM. revert r t. induction l as [|p l IH]; intros r t; [split; reflexivity|]. cbn [io_filter_existing_files map flat_map there]. destruct (HM p) as [H1 [H2 H3]]. rewrite H1, H3. cbn [app map length]. rewrite Nat.add_1_r.
  apply does_step. intros r1 _. apply does_look. apply does_step. intros r2 _. apply does_one. eapply does_bind; [apply IH|]. intros [fs r3] E. cbn [fst] in E. subst fs. eapply does_impl; [apply does_ret|]. intros a ->. cbn [fst].
  destruct (w_good w t (cstr p)); [|reflexivity]. cbn [app map]. rewrite H2. reflexivity.
Qed.
Definition locator_places (w : world) (l : locator) : list source := g_sources (group_of w l).
Lemma does_locations w l r t : does w (io_license_locations w l r) t (map Looked (flat_map path_of (locator_places w l))) (fun a => fst a = map name_of (there w (locator_places w l) t)).
Proof.
  unfold locator_places. destruct l as [| | |h]; cbn [io_license_locations group_of g_sources].
  - unfold module_sources, get_module_name. destruct (w_module w) as [link|]; [|split; reflexivity]. change (MAX_PATH - 1) with 1023. unfold module_license. rewrite (stem_eq (cstr (firstn 1023 link))).
    set (p := remove_extension (cstr (firstn 1023 link)) ++ LICENSE_EXT). change (remove_extension (cstr (firstn 1023 link)) ++ bs ".lic") with p. cbv zeta. cbn [flat_map path_of app map there listed]. apply does_look.
    destruct (w_good w t (cstr p)); apply does_step; intros r1 _; split; reflexivity.
  - unfold location_sources. change (env_set w LICENSE_LOCATION_VAR) with (variable w LOCATION). destruct (variable w LOCATION) as [v|]; [|apply does_step; intros; split; reflexivity]. rewrite (pieces_eq ";"%char v). apply does_filter. intros p. repeat split.
  - unfold data_sources. change (env_set w LICENSE_DATA_VAR) with (variable w DATA). destruct (variable w DATA) as [v|]; [|apply does_step; intros; split; reflexivity]. apply does_step. intros r1 _. rewrite (looks_eq v).
    destruct (identify_format v); [split; reflexivity|split; reflexivity|]. apply does_step. intros r2 _. split; reflexivity.
  - unfold hint_sources. destruct (loc_data h) as [|c data] eqn:Ed; [exists []; reflexivity|]. destruct (Ascii.eqb c NUL) eqn:Ec; [rewrite (hint_none _ _ Ec); split; reflexivity|].
    apply does_step. intros r1 _. destruct (hint_text c data Ec) as [x [y Et]].
    set (text := cstr (firstn HINT_SIZE (c :: data))) in *. assert (Em : forall A (a b : A), match text with [] => a | _ => b end = b) by (intros; rewrite Et; reflexivity). rewrite !Em.
    destruct (Z.eqb (loc_type h) 0) eqn:E0; [|destruct (Z.eqb (loc_type h) 1) eqn:E1; [|destruct (Z.eqb (loc_type h) 2) eqn:E2]]; cbn [orb]; try (split; reflexivity).
    + apply does_step. intros s H2. apply string_of_array_text in H2. rewrite max_size in H2. fold text in H2. subst s. rewrite (pieces_eq ";"%char text). apply (does_filter w (fun p => if beqb p EXTERNAL then SNamed p text else SFile p)).
      intros p. destruct (beqb p EXTERNAL); repeat split.
    + exists []. reflexivity.
Qed.
(** ** reading *)
Lemma does_content w l s t : In s (locator_places w l) -> does w (io_license_content w l (cstr (name_of s))) t (read_of s) (fun _ => True).
Proof.
  assert (FF : forall p, does w (f <-$ read_file (cstr p) ;; ilift (get_file_contents f MAX_LICENSE_DATA)) t [Read (cstr p)] (fun _ => True)).
  { intros p. unfold does, read_file. rewrite cstr_cstr. cbn. destruct (get_file_contents _ _); cbn; [auto|exists []; reflexivity..]. }
  assert (LL : forall r : res bytes, does w (ilift r) t [] (fun _ => True)) by (intros r; eapply does_impl; [apply does_lift|auto]).
  unfold locator_places. destruct l as [| | |h]; cbn [group_of g_sources io_license_content]; cbv zeta.
  - unfold module_sources. destruct (w_module w); [|intros []]. intros [<-|[]]. apply FF.
  - unfold location_sources. destruct (variable w LOCATION); [|intros []]. intros H. apply in_map_iff in H as [p [<- _]]. apply FF.
  - unfold data_sources. change (env_set w LICENSE_DATA_VAR) with (variable w DATA). change LICENSE_LOCATION_VAR with LOCATION. destruct (variable w DATA) as [d|]; [|intros []].
    rewrite (looks_eq d). destruct (identify_format d); [intros [<-|[]]|intros [<-|[]]|intros []]; (destruct (w_getenv w LOCATION) as [v|]; apply LL).
  - unfold hint_sources. destruct (cstr (firstn HINT_SIZE (loc_data h))) as [|x y] eqn:Et; [intros []|]. rewrite <- Et. clear x y Et.
    assert (Hnf : nul_free (cstr (firstn HINT_SIZE (loc_data h)))) by apply cstr_nul_free.
    assert (XX : does w (licData <-$ ilift (string_of_array (loc_data h) MAX_LICENSE_DATA) ;; (if (loc_type h =? 2)%Z then ilift (raw <-- unbase64 licData ;; string_of_vector raw) else iret licData)) t [] (fun _ => True)).
    { apply does_step. intros s0 _. destruct (loc_type h =? 2)%Z; apply LL. }
    destruct (Z.eqb_spec (loc_type h) 0) as [E0|E0].
    + intros H. apply in_map_iff in H as [p [<- Hp]]. destruct (beqb p EXTERNAL) eqn:Ep; cbn [name_of]; rewrite (pieces_nul_free _ _ _ Hnf Hp); change EXTERNAL_NAME with EXTERNAL; rewrite Ep; [exact XX|].
      rewrite <- (pieces_nul_free _ _ _ Hnf Hp) at 1. apply FF.
    + destruct (Z.eqb (loc_type h) 1); [intros [<-|[]]; exact XX|]. destruct (Z.eqb (loc_type h) 2) eqn:E2; [|intros []]. intros [<-|[]]. exact XX.
Qed.
Lemma does_read w l f s a t : In s (locator_places w l) -> does w (io_read_location w l f (name_of s) a) t (read_of s) (fun _ => True).
Proof.
  intros H. destruct a as [r out]. unfold io_read_location. apply does_one. eapply does_bind; [apply does_content, H|]. intros text _. apply does_step. intros d _. destruct (_ <=? 0)%Z; [apply does_step; intros; split; auto|]. apply does_step. intros r1 _.
  destruct (get_value _ _ _); [|apply does_step; intros; split; auto]. destruct (_ =? 200)%Z; [split; auto|apply does_step; intros; split; auto].
Qed.
Lemma does_all w l f ss a t : incl ss (locator_places w l) -> does w (io_read_all w l f (map name_of ss) a) t (flat_map read_of ss) (fun _ => True).
Proof.
  revert a t. induction ss as [|s ss IH]; intros a t H; [split; auto|]. cbn [map io_read_all flat_map]. eapply does_bind; [apply does_read, H; left; reflexivity|]. intros b _. apply IH. intros x Hx. apply H. right. exact Hx.
Qed.
Lemma there_incl w ss t : incl (there w ss t) ss.
Proof. revert t. induction ss as [|s ss IH]; intros t x H; [exact H|]. cbn [there] in H. apply in_app_or in H as [H|H]; [|right; eapply IH, H]. destruct (listed w s t); [|destruct H]. left. destruct H as [H|[]]. exact H. Qed.
Lemma does_locators w f ls a t : does w (io_read_locators w f ls a) t (searching w (map (locator_places w) ls) t) (fun _ => True).
Proof.
  revert a t. induction ls as [|l ls IH]; intros a t; [split; auto|]. destruct a as [r out]. cbn [io_read_locators map searching]. cbv zeta. rewrite <- app_assoc. eapply does_bind; [apply does_locations|]. intros [ids r1] E. cbn [fst] in E. subst ids.
  eapply does_bind; [apply does_all, there_incl|]. intros b _. rewrite app_length, Nat.add_assoc. apply IH.
Qed.
Lemma does_licenses w hint f t : does w (io_read_licenses w hint f) t (search w hint t) (fun _ => True).
Proof.
  unfold search. rewrite groups_eq, map_map. change (fun x => g_sources (group_of w x)) with (locator_places w). unfold io_read_licenses. destruct (get_active_strategies w hint) as [|l ls].
  - apply does_step. intros r1 _. apply does_step. intros [r2 b] _. split; auto.
  - apply does_one. eapply does_bind; [apply does_locators|]. intros [r out] _. destruct out; [|split; auto]. apply does_step. intros [r2 b] _. split; auto.
Qed.

(** ** checking *)
Definition lim_post (w : world) (mg : N) (es : list (bytes * bytes)) (t : nat) (acc : list access) (x : res ((bool * registry) * nat)) : Prop :=
  (forall y, x = Ok y -> ((mg <> w_magic w \/ out_of_time w es (w_clock w t)) /\ acc = [Time]) \/
     (mg = w_magic w /\ in_time w es (w_clock w t) /\ (forall code, ~ locked es code) /\ acc = [Time]) \/
     (mg = w_magic w /\ in_time w es (w_clock w t) /\ (exists code, locked es code) /\ acc = [Time; Hardware])) /\
  (acc = [] \/ acc = [Time] \/ (mg = w_magic w /\ (exists code, locked es code) /\ acc = [Time; Hardware])).
Lemma limits_accesses w product id es sig mg r t : let l := {| fl_source := id; fl_project := product; fl_signature := sig; fl_magic := mg; fl_limits := lim es |} in
  lim_post w mg es t (io_accesses w (io_verify_limits w l r) t) (io_run w (io_verify_limits w l r) t).
Proof.
  cbv zeta. unfold io_verify_limits. cbn [fl_limits fl_source fl_magic]. cbv zeta. rewrite !lim_get.
  change PARAM_EXPIRY_DATE with (bs "valid-to"). change PARAM_BEGIN_DATE with (bs "valid-from"). change PARAM_CLIENT_SIGNATURE with (bs "client-signature").
  destruct (N.eqb_spec mg (w_magic w)) as [Em|Em].
  2:{ destruct (add_event LICENSE_CORRUPTED (Some id) None r) as [r1| | |]; cbn [ilift iret ibind ask_time io_accesses io_run rbind]; (split; [|auto]); try discriminate. intros y _. left. auto. }
  cbn [ilift iret ibind ask_time io_accesses io_run]. set (now := w_clock w t) in *.
  assert (REST : forall r2, exact_value es (bs "valid-to") = None \/ (exists s, dated w es "valid-to" s /\ (now <= s)%Z) ->
    let m := ('(valid, r) <-$ match exact_value es (bs "valid-from") with
      | Some d => secs <-$ ilift (seconds_from_epoch (w_mktime w) d) ;;
          (if Z.ltb now secs then r <-$ ilift (add_event PRODUCT_EXPIRED (Some id) (Some (bs "Valid from " ++ d)) r2) ;; iret (false, r) else iret (true, r2))
      | None => iret (true, r2) end ;;
      match valid, exact_value es (bs "client-signature") with
      | true, Some code => m <-$ ask_machine ;; e <-$ ilift (validate_pc_signature m code) ;; r <-$ ilift (add_event e (Some id) None r) ;; iret (event_eqb e LICENSE_OK, r)
      | v, _ => iret (v, r) end) in
    lim_post w mg es t (Time :: io_accesses w m (S t)) (io_run w m (S t))).
  { intros r2 HT. cbv zeta.
    assert (HW : forall r3, exact_value es (bs "valid-from") = None \/ (exists s, dated w es "valid-from" s /\ (s <= now)%Z) ->
      let m := match exact_value es (bs "client-signature") with
      | Some code => m <-$ ask_machine ;; e <-$ ilift (validate_pc_signature m code) ;; r <-$ ilift (add_event e (Some id) None r3) ;; iret (event_eqb e LICENSE_OK, r)
      | None => iret (true, r3) end in lim_post w mg es t (Time :: io_accesses w m (S t)) (io_run w m (S t))).
    { intros r3 HF. cbv zeta. destruct (exact_value es (bs "client-signature")) as [code|] eqn:Ec.
      - cbn [ask_machine iret ilift ibind io_accesses io_run]. destruct (validate_pc_signature (w_machine w (S t)) code) as [e| | |]; [destruct (add_event e (Some id) None r3) as [r4| | |]|..]; cbn [ilift iret ibind io_accesses io_run rbind];
          (split; [first [discriminate|intros y _; right; right; split; [exact Em|]; split; [split; assumption|]; split; [exists code; exact Ec|reflexivity]]|right; right; split; [exact Em|]; split; [exists code; exact Ec|reflexivity]]).
      - cbn [iret io_accesses io_run]. split; [|auto]. intros y _. right. left. split; [exact Em|]. split; [split; assumption|]. split; [|reflexivity]. intros code X. unfold locked in X. congruence. }
    destruct (exact_value es (bs "valid-from")) as [d|] eqn:Ed; [|cbn [iret ibind]; apply (HW r2); auto]. destruct (seconds_from_epoch (w_mktime w) d) as [s| | |] eqn:Es; cbn [ilift iret ibind io_accesses io_run rbind]; try (split; [discriminate|auto]).
    destruct (Z.ltb_spec now s).
    - destruct (add_event PRODUCT_EXPIRED _ _ _) as [r3| | |]; cbn [ilift iret ibind io_accesses io_run rbind]; try (split; [discriminate|auto]). split; [|auto]. intros y _. left. split; [|reflexivity]. right. right. exists s. split; [|fold now; lia]. apply dated_iff. exists d. auto.
    - cbn [iret ibind]. apply (HW r2). right. exists s. split; [apply dated_iff; exists d; auto|lia]. }
  cbv zeta in REST. destruct (exact_value es (bs "valid-to")) as [d|] eqn:Ed; [|cbn [iret ibind]; apply (REST r); auto].
  destruct (seconds_from_epoch (w_mktime w) d) as [s| | |] eqn:Es; cbn [ilift iret ibind io_accesses io_run rbind]; try (split; [discriminate|auto]). destruct (Z.ltb_spec s now).
  - destruct (add_event PRODUCT_EXPIRED _ _ _) as [r2| | |]; cbn [ilift iret ibind io_accesses io_run rbind]; try (split; [discriminate|auto]). split; [|auto]. intros y _. left. split; [|reflexivity]. right. left. exists s. split; [|fold now; lia]. apply dated_iff. exists d. auto.
  - cbn [iret ibind]. apply (REST r). right. exists s. split; [apply dated_iff; exists d; auto|lia].
Qed.
(** toLicenseInfo *)
Lemma info_accesses w product id es sig mg t : let l := {| fl_source := id; fl_project := product; fl_signature := sig; fl_magic := mg; fl_limits := lim es |} in
  (forall y, io_run w (io_license_info w l) t = Ok y -> io_accesses w (io_license_info w l) t = dates es) /\
  (io_accesses w (io_license_info w l) t = [] \/ io_accesses w (io_license_info w l) t = dates es).
Proof.
  cbv zeta. unfold io_license_info, dates. cbn [fl_limits]. rewrite !lim_get. change PARAM_EXPIRY_DATE with (bs "valid-to"). destruct (exact_value es (bs "valid-to")) as [d|]; [|cbn; auto].
  destruct (seconds_from_epoch (w_mktime w) d) as [s| | |]; cbn [ilift iret ibind ask_time io_accesses io_run rbind]; try (split; [discriminate|auto]; fail). cbv zeta. destruct (double_to_int _); cbn [ilift iret ibind io_accesses io_run rbind]; auto.
Qed.
Lemma checks_wide w f mg t t' u u' es sig acc : u <= t -> t' <= u' -> checks w f mg t t' es sig acc -> checks w f mg u u' es sig acc.
Proof. intros H1 H2 H. inversion H; subst; [apply ac_forged|eapply ac_refused with (i := i)|eapply ac_open with (i := i)|eapply ac_locked with (i := i)]; eauto; lia. Qed.
(** all licenses *)
Lemma verify_accesses w product mg ds r ok bad t :
  let m := io_verify_all w mg (map (lic_full product) ds) r ok bad in
  (forall x t', io_run w m t = Ok (x, t') -> exists ks, io_accesses w m t = concat ks /\ Forall2 (fun d k => checks w product (mag mg) t t' (ld_entries d) (ld_sig d) k) ds ks) /\
  (exists ks, io_accesses w m t = concat ks /\ Forall2 (fun d k => part w product (mag mg) (ld_entries d) (ld_sig d) k) ds ks).
Proof.
  assert (NONE : forall ds', exists ks, [] = concat ks /\ Forall2 (fun d k => part w product (mag mg) (ld_entries d) (ld_sig d) k) ds' ks).
  { intros ds'. exists (map (fun _ => []) ds'). split; [induction ds'; [reflexivity|exact IHds']|]. induction ds'; constructor; [apply pt_none|assumption]. }
  cbv zeta. revert r ok bad t. induction ds as [|d ds IH]; intros r ok bad t.
  { split; [intros x t' _|]; (exists []; split; [reflexivity|constructor]). }
  cbn [map io_verify_all]. cbv zeta. fold (lic_at mg (lic_full product d)). assert (EL : lic_at mg (lic_full product d) = {| fl_source := ld_id d; fl_project := product; fl_signature := ld_sig d; fl_magic := mag mg; fl_limits := lim (ld_entries d) |}) by (unfold lic_full; apply lic_at_eq). rewrite !EL. clear EL. set (l := {| fl_source := _; fl_project := _; fl_signature := _; fl_magic := _; fl_limits := _ |}).
  unfold verify_signature. destruct (os_verify_signature w (print_for_sign l) (fl_signature l)) as [b| | |] eqn:Eb; cbn [rbind]; try (split; [discriminate|exact (NONE (d :: ds))]).
  pose proof (os_verify_good w product (ld_id d) (ld_entries d) (ld_sig d) (mag mg) b Eb) as Hg.
  destruct (add_event _ _ _ r) as [r1| | |]; cbn [rbind ilift ibind io_run io_accesses]; try (split; [discriminate|exact (NONE (d :: ds))]).
  destruct (info_accesses w product (ld_id d) (ld_entries d) (ld_sig d) (mag mg) t) as [I1 I2]. fold l in I1, I2. rewrite accesses_bind, run_bind. unfold mbind.
  destruct (io_run w (io_license_info w l) t) as [[info u]| | |] eqn:Er.
  2,3,4: split; [discriminate|]; rewrite app_nil_r; destruct (NONE ds) as [ks [E1 E2]]; destruct I2 as [-> | ->]; [exists ([] :: ks)|exists (dates (ld_entries d) :: ks)]; cbn [concat]; rewrite <- E1, ?app_nil_r; (split; [reflexivity|constructor; [constructor|exact E2]]).
  specialize (I1 _ eq_refl). pose proof (run_count _ _ _ _ _ Er) as Hu. rewrite I1 in *. clear I2.
  assert (STEP : forall v r2 ok2 bad2 k, (checks w product (mag mg) t v (ld_entries d) (ld_sig d) (dates (ld_entries d) ++ k)) -> v = u + length k ->
     part w product (mag mg) (ld_entries d) (ld_sig d) (dates (ld_entries d) ++ k) ->
     let m := io_verify_all w mg (map (lic_full product) ds) r2 ok2 bad2 in
     (forall x t', io_run w m v = Ok (x, t') -> exists ks, dates (ld_entries d) ++ k ++ io_accesses w m v = concat ks /\ Forall2 (fun d k => checks w product (mag mg) t t' (ld_entries d) (ld_sig d) k) (d :: ds) ks) /\
     (exists ks, dates (ld_entries d) ++ k ++ io_accesses w m v = concat ks /\ Forall2 (fun d k => part w product (mag mg) (ld_entries d) (ld_sig d) k) (d :: ds) ks)).
  { intros v r2 ok2 bad2 k Hc Hv Hp m. destruct (IH r2 ok2 bad2 v) as [J1 J2]. fold m in J1, J2. split.
    - intros x t' Hx. destruct (J1 x t' Hx) as [ks [E1 E2]]. pose proof (run_count _ _ _ _ _ Hx) as Ht'. exists ((dates (ld_entries d) ++ k) :: ks). split; [cbn [concat]; rewrite <- E1, app_assoc; reflexivity|].
      constructor; [eapply checks_wide; [| |exact Hc]; lia|]. eapply Forall2_impl; [|exact E2]. intros a c X. eapply checks_wide; [| |exact X]; lia.
    - destruct J2 as [ks [E1 E2]]. exists ((dates (ld_entries d) ++ k) :: ks). split; [cbn [concat]; rewrite <- E1, app_assoc; reflexivity|]. constructor; assumption. }
  cbv zeta in STEP. destruct b.
  - pose proof (proj1 Hg eq_refl) as G. destruct (limits_accesses w product (ld_id d) (ld_entries d) (ld_sig d) (mag mg) r1 u) as [L1 L2]. fold l in L1, L2. rewrite accesses_bind, run_bind. unfold mbind.
    destruct (io_run w (io_verify_limits w l r1) u) as [[[b2 r2] v]| | |] eqn:El.
    2,3,4: split; [discriminate|]; rewrite app_nil_r; destruct (NONE ds) as [ks [E1 E2]]; exists ((dates (ld_entries d) ++ io_accesses w (io_verify_limits w l r1) u) :: ks); cbn [concat]; rewrite <- E1, ?app_nil_r; (split; [reflexivity|]);
      (constructor; [|exact E2]); destruct L2 as [-> |[-> |[M [[code C] ->]]]]; [rewrite app_nil_r; apply pt_dates|apply pt_time, G|eapply pt_hardware; eassumption].
    specialize (L1 _ eq_refl). pose proof (run_count _ _ _ _ _ El) as Hv. clear L2.
    assert (C1 : checks w product (mag mg) t v (ld_entries d) (ld_sig d) (dates (ld_entries d) ++ io_accesses w (io_verify_limits w l r1) u)).
    { destruct L1 as [[D E]|[[M [T [U E]]]|[M [T [[code C] E]]]]]; rewrite E in *; cbn [length] in Hv.
      - apply ac_refused with (i := u); [exact G|lia|exact D].
      - apply ac_open with (i := u); [exact G|lia|exact M|exact T|exact U].
      - apply ac_locked with (i := u) (code := code); [exact G|lia|exact M|exact T|exact C]. }
    assert (C2 : part w product (mag mg) (ld_entries d) (ld_sig d) (dates (ld_entries d) ++ io_accesses w (io_verify_limits w l r1) u)).
    { destruct L1 as [[D ->]|[[M [T [U ->]]]|[M [T [[code C] ->]]]]]; [apply pt_time, G|apply pt_time, G|eapply pt_hardware; eassumption]. }
    destruct b2; apply STEP; assumption.
  - assert (G : ~ signature_good w product (ld_entries d) (ld_sig d)) by (intros X; apply Hg in X; discriminate). specialize (STEP u r1 ok (bad ++ [info]) []). rewrite app_nil_r in STEP. cbn [app length] in STEP. rewrite Nat.add_0_r in STEP.
    apply STEP; [apply ac_forged, G|reflexivity|apply pt_dates].
Qed.
