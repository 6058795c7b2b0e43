From Verif Require Import Base CTypes StringUtils Dates Doubles P_Double Base64 HwId Registry Ini Network Disks ExecEnv Strategies Locate Licensecc.
From Verif Require Import P_Base Spec_Listing P_DiskList Spec_Strings Spec_Base64 Spec_Dates P_Strings P_Text P_Decode P_DateText P_HwText Spec_Base64 P_Base64 Spec_Ini P_Ini Spec_HwId Spec_Hw P_Hw P_Hw2 P_Listing P_Blkid P_Dates Spec_Registry P_Registry Spec_Acquire P_Acquire1 P_Acquire2 P_Acquire3 P_Acquire4 P_Acquire5 Spec_Faults.
From Coq Require Import Sorted Lia.

Definition safe {A} (H : fault -> Prop) (r : res A) : Prop :=
  match r with Ok _ => True | Throw e => H (FThrow e) | Undef u => H (FUndef u) | OutOfFuel => False end.
Lemma safe_bind {A B} (H : fault -> Prop) (r : res A) (k : A -> res B) : safe H r -> (forall a, r = Ok a -> safe H (k a)) -> safe H (rbind r k).
Proof. destruct r; cbn; auto. Qed.
Lemma safe_mbind {A B} (H : fault -> Prop) (m : M A) (k : A -> M B) t : safe H (m t) -> (forall a t', m t = Ok (a, t') -> safe H (k a t')) -> safe H (mbind m k t).
Proof. unfold mbind. destruct (m t) as [[a t']| | |]; cbn; auto. Qed.
Lemma safe_lift {A} (H : fault -> Prop) (r : res A) t : safe H r -> safe H (mlift r t).
Proof. unfold mlift. destruct r; cbn; auto. Qed.
Lemma safe_ret {A} (H : fault -> Prop) (a : A) t : safe H (mret a t).
Proof. exact I. Qed.

Lemma safe_add (H : fault -> Prop) e id info r : (1024 <= length (reference id) -> H (FUndef UbRead)) -> safe H (add_event e id info r).
Proof.
  intros X. destruct (Nat.lt_ge_cases (length (reference id)) 1024) as [L|L]; [rewrite add_event_plain by exact L; exact I|]. specialize (X L).
  unfold add_event. cbv zeta. fold (add_ref id). assert (Hr : ref_string (add_ref id) = Undef UbRead).
  { unfold ref_string. destruct (Nat.ltb_spec (length (add_ref id)) MAX_PATH) as [L'|L']; [|reflexivity]. apply reference_fits in L'. lia. }
  rewrite Hr. destruct (progress e); [|exact X]. destruct (if Z.ltb (step r) z then (z, []) else (step r, adv r)). destruct (Z.eqb z z0); [exact X|exact I].
Qed.
Lemma mstrnlen_safe (H : fault -> Prop) a n : (~ In NUL a -> H (FUndef UbRead)) -> safe H (mstrnlen_s a n).
Proof.
  revert n; induction a as [|x a IH]; intros n X; cbn [mstrnlen_s]; [apply X; intros []|]. destruct (Ascii.eqb_spec x NUL) as [E|E]; [exact I|]. destruct n; [exact I|].
  apply safe_bind; [|intros; exact I]. apply IH. intros Y. apply X. intros [Z|Z]; auto.
Qed.
Lemma array_safe (H : fault -> Prop) a n : (~ In NUL a -> H (FUndef UbRead)) -> safe H (string_of_array a n).
Proof. intros X. apply safe_bind; [apply mstrnlen_safe, X|intros; exact I]. Qed.

(** no loop runs out of fuel, no null pointer is used, no number is out of range *)
Definition fed {A} (r : res A) : Prop := r <> OutOfFuel /\ r <> Undef UbNull /\ r <> Undef UbOverflow.
Lemma fed_ok {A} (a : A) : fed (Ok a). Proof. repeat split; discriminate. Qed.
Lemma fed_throw {A} e : fed (@Throw A e). Proof. repeat split; discriminate. Qed.
Lemma fed_read {A} : fed (@Undef A UbRead). Proof. repeat split; discriminate. Qed.
Lemma fed_write {A} : fed (@Undef A UbWrite). Proof. repeat split; discriminate. Qed.
Lemma fed_uninit {A} : fed (@Undef A UbUninit). Proof. repeat split; discriminate. Qed.
Lemma fed_bind {A B} (r : res A) (k : A -> res B) : fed r -> (forall a, fed (k a)) -> fed (rbind r k).
Proof. destruct r; cbn; auto; intros [X [Y Z]] _; repeat split; congruence. Qed.
#[export] Hint Resolve fed_ok fed_throw fed_read fed_write fed_uninit : fed.
Lemma parse_uuid_fed s : fed (parse_uuid s).
Proof. unfold parse_uuid. destruct (Nat.leb _ _); auto with fed. Qed.
Lemma substr_fed s i n : fed (substr s i n).
Proof. unfold substr. destruct (Nat.ltb _ _); auto with fed. Qed.
Lemma attribute_fed s a : fed (get_attribute s a).
Proof. unfold get_attribute. destruct (str_find (bs _) s _); apply substr_fed. Qed.
#[export] Hint Resolve parse_uuid_fed substr_fed attribute_fed : fed.
Lemma unbase64_fed s : fed (unbase64 s).
Proof. rewrite unbase64_strip. destruct (unbase64_cases (strip_lf s)) as [[_ ->]|[[_ ->]|[_ [_ [[_ ->]|[_ [out ->]]]]]]]; auto with fed. Qed.
Lemma dev_loop_fed es i m : fed (dev_loop es i m).
Proof.
  revert i m; induction es as [|e es IH]; intros i m; cbn [dev_loop]; [auto with fed|]. destruct (Nat.leb _ _); [auto with fed|].
  destruct (is_dots _ || _); [apply IH|]. destruct (de_ino e); [|apply IH]. destruct (de_link e); [|apply IH].
  apply fed_bind; [unfold parse_uuid; destruct (Nat.leb _ _); auto with fed|]. intros sn. apply IH.
Qed.
Lemma prefer_fed m es l : fed (prefer_entries m es l).
Proof.
  revert l; induction es as [|e es IH]; intros l; cbn [prefer_entries]; [auto with fed|]. apply fed_bind; [|intros; apply IH].
  unfold prefer_entry. destruct (is_prefix _ _); [destruct (map_find _ _); auto with fed|]. destruct (is_prefix _ _); [|auto with fed].
  induction l as [|d l IHl]; cbn [prefer_by_label]; [auto with fed|]. destruct (dk_label d); [|auto with fed]. destruct (beqb _ _); [auto with fed|].
  apply fed_bind; [exact IHl|auto with fed].
Qed.
Lemma blkid_loop_calm fuel content o n out m : parse_blkid_loop fuel content o n out m <> Undef UbNull /\ parse_blkid_loop fuel content o n out m <> Undef UbOverflow.
Proof.
  assert (H : forall fuel o n out m, parse_blkid_loop fuel content o n out m = OutOfFuel \/ fed (parse_blkid_loop fuel content o n out m)).
  2:{ destruct (H fuel o n out m) as [E|E]; [rewrite E; split; discriminate|destruct E as [_ E]; exact E]. }
  clear. induction fuel as [|fuel IH]; intros o n out m; cbn [parse_blkid_loop]; (destruct (str_find _ _ _) as [pos|]; [|right; apply fed_ok]); [left; reflexivity|].
  assert (B : forall (A B : Type) (r : res A) (k : A -> res B), fed r -> (forall a, k a = OutOfFuel \/ fed (k a)) -> rbind r k = OutOfFuel \/ fed (rbind r k)).
  { intros A B r k [X [Y Z]] K. destruct r; cbn; [apply K|right; apply fed_throw|right; repeat split; congruence|left; reflexivity]. }
  repeat (apply B; [auto with fed|intros ?]). cbv zeta. apply IH.
Qed.
Lemma parse_blkid_fed content : fed (parse_blkid content).
Proof. split; [apply parse_blkid_fuel|apply blkid_loop_calm]. Qed.
Lemma disks_fed e : fed (get_disk_infos e).
Proof.
  unfold get_disk_infos, get_disk_infos_dev, set_preferred_disks.
  apply fed_bind.
  - apply fed_bind; [destruct (de_by_uuid e); [apply dev_loop_fed|auto with fed]|]. intros [i m]. auto with fed.
  - intros [[r i] m].
    assert (G : fed match first_some (de_blkid e) with
      | Some content => ' (infos', by_uuid') <-- parse_blkid content;;
                        infos'' <-- match de_fstab e with Some es => prefer_entries by_uuid' es infos' | None => Ok infos' end;; Ok (FUNC_RET_OK, infos'')
      | None => Ok (FUNC_RET_NOT_AVAIL, i) end).
    { destruct (first_some (de_blkid e)); [|auto with fed]. apply fed_bind; [apply parse_blkid_fed|]. intros [i' m'].
      apply fed_bind; [destruct (de_fstab e); [apply prefer_fed|auto with fed]|auto with fed]. }
    destruct r; [|exact G..]. apply fed_bind; [destruct (de_fstab e); [apply prefer_fed|auto with fed]|auto with fed].
Qed.
Lemma disks_data_fed ds : fed (disks_data ds).
Proof.
  induction ds as [|d ds IH]; cbn [disks_data]; [auto with fed|]. apply fed_bind; [|intros; apply fed_bind; [exact IH|auto with fed]].
  unfold disk_data. destruct (dk_label_init d); [|auto with fed]. destruct (dk_label d); auto with fed.
Qed.
Lemma make_ids_fed z l : fed (make_ids z l).
Proof.
  induction l as [|d l IH]; cbn [make_ids]; [auto with fed|]. apply fed_bind; [|intros; apply fed_bind; [exact IH|auto with fed]].
  unfold make_id. apply fed_bind; [|auto with fed]. unfold set_identification_strategy, hw_empty. destruct (_ || _); auto with fed.
Qed.
Lemma alternative_fed s m : fed (alternative_ids s m).
Proof.
  destruct s; cbn [alternative_ids]; [auto with fed| |].
  - destruct (generate_ethernet_pc_id use_ip m) as [[] data]; auto with fed. apply make_ids_fed.
  - apply fed_bind.
    + unfold generate_disk_pc_id. apply fed_bind; [apply disks_fed|]. intros [r ds]. destruct r; auto with fed.
      destruct ds; [auto with fed|]. apply fed_bind; [apply disks_data_fed|]. intros. apply fed_bind; [apply disks_data_fed|auto with fed].
    + intros [[] data]; auto with fed. apply make_ids_fed.
Qed.
Lemma fed_cast {A B} u : fed (@Undef A u) -> fed (@Undef B u).
Proof. intros [_ [X Y]]. repeat split; congruence. Qed.
Lemma fed_out {A B} : fed (@OutOfFuel A) -> fed (@OutOfFuel B).
Proof. intros [X _]. congruence. Qed.
#[export] Hint Resolve fed_out : fed.
Lemma validate_fed m text : fed (validate_pc_signature m text).
Proof.
  rewrite validate_verdict. assert (X : fed (hw_of_string text)).
  { unfold hw_of_string. apply fed_bind; [apply unbase64_fed|]. intros a. destruct (hw_of_bytes a); auto with fed. }
  destruct (hw_of_string text) as [h| | |]; [|auto with fed|eapply fed_cast, X|destruct X; congruence]. unfold verdict.
  assert (Y : fed (get_strategy (strategy_bits h))) by (unfold get_strategy; repeat (destruct (Z.eqb _ _); auto with fed)).
  destruct (get_strategy (strategy_bits h)) as [s| | |]; [|auto with fed|eapply fed_cast, Y|destruct Y; congruence]. assert (Z := alternative_fed s m).
  destruct s; [auto with fed| |]; (destruct (alternative_ids _ m); [auto with fed|auto with fed|eapply fed_cast, Z|destruct Z; congruence]).
Qed.
Lemma validate_safe (H : fault -> Prop) m text : (over_read (undashed text) -> H (FUndef UbRead)) ->
  (forall h u, denotes text h -> strategy_bits h = 2%Z -> disks_of (hw_disks m) = Undef u -> H (FUndef u)) -> safe H (validate_pc_signature m text).
Proof.
  intros Y Z. assert (X : forall u, validate_pc_signature m text = Undef u -> H (FUndef u)) by (intros u E; apply validate_undef in E as [[O ->]|[h [D [S G]]]]; eauto).
  destruct (validate_pc_signature m text) eqn:E; cbn; auto; [destruct (validate_no_throw _ _ _ E)|destruct (validate_fed m text) as [N _]; congruence].
Qed.
Lemma seconds_safe (H : fault -> Prop) w d : ((forall y m day, ~ date_text d y m day) -> H (FThrow ExInvalidArg)) -> safe H (seconds_from_epoch (w_mktime w) d).
Proof.
  intros X. rewrite (seconds_none (w_mktime w) d) in X. unfold seconds_from_epoch in *. destruct (parse_outcome d) as [E|[[[y m] dd] E]]; rewrite E in *; [|exact I]. cbn in *. apply X. reflexivity.
Qed.

Section FAULTS.
Context (w : world) (c : option caller) (hint : option location) (t0 : nat).
Notation HZ := (hazard w c hint t0).
Notation feature := (feature_of w (option_map ci_feature c)).

Lemma locator_incl l : In l (get_active_strategies w hint) -> incl (locator_sources w l) (sources w hint).
Proof. intros Hl s Hs. unfold sources. rewrite groups_eq. apply in_flat_map. exists (group_of w l). split; [apply in_map; exact Hl|exact Hs]. Qed.
Lemma external_hint h : In (LocExternal h) (get_active_strategies w hint) -> hint = Some h.
Proof.
  unfold get_active_strategies. intros H. apply in_app_or in H as [H|H]; [destruct (w_near_module w); [destruct H as [H|[]]; discriminate|destruct H]|].
  apply in_app_or in H as [H|H]; [destruct (w_with_env w); [destruct H as [H|[H|[]]]; discriminate|destruct H]|].
  destruct hint; [destruct H as [H|[]]; congruence|destruct H].
Qed.
Lemma env_active : In LocEnvVarData (get_active_strategies w hint) -> w_with_env w = true.
Proof.
  unfold get_active_strategies. intros H. apply in_app_or in H as [H|H]; [destruct (w_near_module w); [destruct H as [H|[]]; discriminate|destruct H]|].
  apply in_app_or in H as [H|H]; [destruct (w_with_env w); [reflexivity|destruct H]|]. destruct hint; [destruct H as [H|[]]; discriminate|destruct H].
Qed.

Lemma filter_safe l x r t : (forall p, In p l -> 1024 <= length (cstr p) -> HZ (FUndef UbRead)) -> safe HZ (filter_existing_files w l x r t).
Proof.
  revert r t; induction l as [|p l IH]; intros r t X; cbn [filter_existing_files]; [apply safe_ret|].
  apply safe_mbind; [apply safe_lift, safe_add; intros L; apply (X p); [left; reflexivity|exact L]|]. intros r1 t1 _.
  apply safe_mbind; [exact I|]. intros g t2 _. apply safe_mbind; [apply safe_lift, safe_add; intros L; apply (X p); [left; reflexivity|exact L]|]. intros r2 t3 _.
  apply safe_mbind; [|intros [? ?] ? _; exact I]. apply IH. intros q Hq. apply X. right. exact Hq.
Qed.
Local Ltac short := intros L; exfalso; vm_compute in L; lia.
Lemma locations_safe l r t : In l (get_active_strategies w hint) -> safe HZ (license_locations w l r t).
Proof.
  intros Hl. pose proof (locator_incl l Hl) as Hi. unfold locator_sources in Hi. destruct l as [| | |h]; cbn [license_locations group_of g_sources] in *.
  - unfold get_module_name. unfold module_sources in Hi. destruct (w_module w) as [link|]; [|apply safe_ret]. rewrite (stem_eq (cstr (firstn 1023 link))) in Hi.
    apply safe_mbind; [exact I|]. intros g t1 _.
    assert (K : 1024 <= length (reference (Some (module_license (cstr (firstn (MAX_PATH - 1) link))))) -> HZ (FUndef UbRead)) by (intros L; eapply hz_long; [apply Hi; left; reflexivity|exact L]).
    destruct g; (apply safe_mbind; [apply safe_lift, safe_add, K|intros; exact I]).
  - unfold location_sources in Hi. change (env_set w LICENSE_LOCATION_VAR) with (variable w LOCATION). destruct (variable w LOCATION) as [v|].
    + apply filter_safe. intros p Hp L. rewrite <- pieces_eq in Hp. apply (hz_long _ _ _ _ (SFile p)); [apply Hi, in_map, Hp|exact L].
    + apply safe_mbind; [apply safe_lift, safe_add; short|intros; exact I].
  - change (env_set w LICENSE_DATA_VAR) with (variable w DATA). destruct (variable w DATA) as [v|].
    + apply safe_mbind; [apply safe_lift, safe_add; short|]. intros r1 t1 _. destruct (identify_format v); exact I.
    + apply safe_mbind; [apply safe_lift, safe_add; short|intros; exact I].
  - pose proof (external_hint h Hl) as Eh. unfold hint_sources in Hi. destruct (loc_data h) as [|x data] eqn:Ed; [cbn; eapply hz_hint; [exact Eh|rewrite Ed; intros []]|].
    destruct (Ascii.eqb x NUL) eqn:Ex; [exact I|]. destruct (hint_text x data Ex) as [y [z Et]]. rewrite Et in Hi. rewrite <- Et in Hi.
    apply safe_mbind; [apply safe_lift, safe_add; short|]. intros r1 t1 _. destruct (Z.eqb_spec (loc_type h) 0) as [E0|E0].
    + apply safe_mbind; [apply safe_lift, array_safe; intros N; eapply hz_hint; [exact Eh|rewrite Ed; exact N]|]. intros s t2 Hs. apply mlift_ok in Hs as [Hs _]. apply string_of_array_text in Hs. rewrite max_size in Hs. subst s.
      apply filter_safe. intros p Hp L. rewrite <- pieces_eq in Hp. set (mk := fun p => if beqb p EXTERNAL then SNamed p (cstr (firstn HINT_SIZE (x :: data))) else SFile p) in Hi.
      apply (hz_long _ _ _ _ (mk p)); [apply Hi, in_map, Hp|]. unfold mk. destruct (beqb p EXTERNAL); exact L.
    + destruct (Z.eqb_spec (loc_type h) 1) as [E1|E1]; [exact I|]. destruct (Z.eqb_spec (loc_type h) 2) as [E2|E2]; [exact I|]. cbn.
      eapply hz_type; [exact Eh|rewrite Ed, Et; discriminate|]. intros [X|[X|[X|[]]]]; congruence.
Qed.


Lemma encoded_safe n s : In (SEncoded n s) (sources w hint) -> safe HZ (raw <-- unbase64 s ;; string_of_vector raw).
Proof.
  intros Hs. apply safe_bind.
  - destruct (unbase64_outcome s) as [[O E]|[[O E]|[O E]]]; rewrite E; cbn; [eapply hz_cut; eassumption|eapply hz_padding; eassumption|exact I].
  - intros raw E. apply unbase64_ok in E as [E ->]. unfold string_of_vector. destruct (existsb _ (decoded s)) eqn:X; [exact I|]. cbn. eapply hz_unterminated; [exact Hs|exact E|]. intros N.
    rewrite <- not_true_iff_false in X. apply X. apply existsb_exists. exists NUL. split; [exact N|reflexivity].
Qed.
Lemma retrieve_safe l s u t : In l (get_active_strategies w hint) -> In s (locator_sources w l) -> t0 <= u -> checked w u t s true ->
  safe HZ (retrieve_license_content w l (cstr (sid s)) t).
Proof.
  intros Hl Hs Hu Hc. pose proof (locator_incl l Hl s Hs) as Hi.
  assert (FF : forall p, s = SFile p -> safe HZ ((f <~ m_file w (cstr p) ;; mlift (get_file_contents f MAX_LICENSE_DATA)) t)).
  { intros p ->. apply safe_mbind; [exact I|]. intros f t1 E. unfold m_file in E. injection E as E _. rewrite cstr_cstr in E. apply safe_lift. destruct f; [exact I|]. cbn.
    destruct Hc as [i [Hi' Hl']]. apply (hz_vanished _ _ _ _ p i t); [exact Hi|lia|exact Hl'|exact E]. }
  unfold locator_sources in Hs. destruct l as [| | |h]; cbn [group_of g_sources retrieve_license_content] in *.
  - unfold module_sources in Hs. destruct (w_module w); [|destruct Hs]. destruct Hs as [<-|[]]. apply FF. reflexivity.
  - unfold location_sources in Hs. destruct (variable w LOCATION); [|destruct Hs]. apply in_map_iff in Hs as [p [<- _]]. apply FF. reflexivity.
  - unfold data_sources in Hs. change (env_set w LICENSE_DATA_VAR) with (variable w DATA). change LICENSE_LOCATION_VAR with LOCATION. destruct (variable w DATA) as [d|] eqn:Ed; [|destruct Hs].
    assert (NU : looks d <> FmtUnknown) by (intros E; rewrite E in Hs; destruct Hs).
    destruct (w_getenv w LOCATION) as [v|] eqn:Ev; [|cbn; eapply hz_unset; [apply env_active, Hl|exact Ed|exact NU|exact Ev]].
    rewrite (looks_eq d) in Hs. destruct (identify_format d); try exact I. destruct Hs as [<-|[]]. apply safe_lift. eapply encoded_safe, Hi.
  - pose proof (external_hint h Hl) as Eh. assert (AR : safe HZ (string_of_array (loc_data h) MAX_LICENSE_DATA)) by (apply array_safe; intros N; eapply hz_hint; [exact Eh|exact N]).
    unfold hint_sources in Hs. destruct (cstr (firstn HINT_SIZE (loc_data h))) as [|x y] eqn:Et; [destruct Hs|]. rewrite <- Et in *. clear x y Et.
    assert (Hnf : nul_free (cstr (firstn HINT_SIZE (loc_data h)))) by apply cstr_nul_free.
    destruct (Z.eqb_spec (loc_type h) 0) as [E0|E0].
    + apply in_map_iff in Hs as [p [Es Hp]]. rewrite E0. change (0 =? 2)%Z with false. destruct (beqb p EXTERNAL) eqn:Ep; subst s; cbn [sid]; rewrite (pieces_nul_free _ _ _ Hnf Hp); change EXTERNAL_NAME with EXTERNAL; rewrite Ep.
      * apply safe_mbind; [apply safe_lift, AR|intros; exact I].
      * rewrite <- (pieces_nul_free _ _ _ Hnf Hp) at 1. apply FF. reflexivity.
    + destruct (Z.eqb_spec (loc_type h) 1) as [E1|E1]; [|destruct (Z.eqb_spec (loc_type h) 2) as [E2|E2]; [|destruct Hs]]; destruct Hs as [<-|[]]; cbn [sid]; change (beqb (cstr EXTERNAL) EXTERNAL_NAME) with true; cbv iota.
      * rewrite E1. change (1 =? 2)%Z with false. apply safe_mbind; [apply safe_lift, AR|intros; exact I].
      * apply safe_mbind; [apply safe_lift, AR|]. intros d t1 Hd. apply mlift_ok in Hd as [Hd ->]. apply string_of_array_text in Hd. rewrite max_size in Hd. subst d. apply safe_lift. eapply encoded_safe, Hi.
Qed.
Lemma judge_safe product s c' acc : In s (sources w hint) -> safe HZ (judge product (sid s) (section_entries c' product) acc).
Proof.
  intros Hs. assert (L : 1024 <= length (reference (Some (sid s))) -> HZ (FUndef UbRead)) by (intros X; eapply hz_long; [exact Hs|exact X]).
  destruct acc as [r out]. unfold judge. destruct (section_entries c' product); [apply safe_bind; [apply safe_add, L|intros; exact I]|]. apply safe_bind; [apply safe_add, L|]. intros r1 _.
  destruct (found _); [exact I|]. apply safe_bind; [apply safe_add, L|intros; exact I].
Qed.
Lemma read_all_safe l product ss bs u t acc : In l (get_active_strategies w hint) -> incl ss (locator_sources w l) -> t0 <= u -> Forall2 (checked w u t) ss bs ->
  safe HZ (read_all w l product (map sid (keep ss bs)) acc t).
Proof.
  intros Hl Hi Hu. revert bs t acc. induction ss as [|s ss IH]; intros bs t acc HF; [inversion HF; subst; exact I|].
  assert (Hi' : incl ss (locator_sources w l)) by (intros x Hx; apply Hi; right; exact Hx). assert (Hs : In s (locator_sources w l)) by (apply Hi; left; reflexivity).
  inversion HF as [|? b ? bs' Hb HF']; subst. cbn [keep]. destruct b; [|apply IH; assumption]. cbn [map read_all]. apply safe_mbind.
  - rewrite read_location_eq. apply safe_mbind; [eapply retrieve_safe; eassumption|]. intros content t1 _. apply safe_lift, judge_safe. eapply locator_incl; eassumption.
  - intros acc' t1 H1. apply IH; [exact Hi'|]. rewrite read_location_eq in H1. apply mbind_ok in H1 as [content [t2 [Hc Hj]]]. apply mlift_ok in Hj as [_ ->].
    destruct (retrieve_ok w l s t content t2 Hs Hc) as [Ht _]. eapply Forall2_impl; [|exact HF']. intros a x X. eapply checked_wide; [| |exact X]; lia.
Qed.
Lemma read_locators_safe product ls acc t : incl ls (get_active_strategies w hint) -> t0 <= t -> safe HZ (read_locators w ls product acc t).
Proof.
  revert acc t; induction ls as [|l ls IH]; intros [r out] t Hi Ht; cbn [read_locators]; [exact I|]. assert (Hl : In l (get_active_strategies w hint)) by (apply Hi; left; reflexivity).
  apply safe_mbind; [apply locations_safe, Hl|]. intros [ids r1] t1 H1. apply locations_ok in H1 as [Ht1 [bs [Hb [-> _]]]].
  apply safe_mbind; [eapply (read_all_safe l product _ bs t t1); [exact Hl|apply incl_refl|exact Ht|exact Hb]|]. intros [r2 out2] t2 H2.
  destruct (read_all_ok w l product (locator_sources w l) bs r1 out t1 r2 out2 t2 t (incl_refl _) Ht1 Hb H2) as [Ht2 _]. apply IH; [intros x Hx; apply Hi; right; exact Hx|lia].
Qed.
Lemma raise_safe H r T : grown reg_empty T r -> safe H (turn_warnings_into_errors r).
Proof. intros Hg. destruct (turn_warnings_spec r (grown_inv _ _ _ empty_inv Hg)) as [r' [b [E _]]]. rewrite E. exact I. Qed.
Lemma read_licenses_safe product t : t0 <= t -> safe HZ (read_licenses w hint product t).
Proof.
  intros Ht. unfold read_licenses. destruct (get_active_strategies w hint) as [|l ls] eqn:Eg.
  - apply safe_mbind; [apply safe_lift, safe_add; short|]. intros r t1 H1. apply mlift_ok in H1 as [H1 _]. apply grown_add in H1. apply safe_mbind; [eapply safe_lift, raise_safe, H1|intros [? ?]; intros; exact I].
  - rewrite <- Eg. apply safe_mbind; [apply read_locators_safe; [apply incl_refl|exact Ht]|]. intros [r out] t1 H1. apply read_locators_ok in H1 as [_ [oss [_ [_ Hg]]]]. destruct out; [|exact I].
    apply safe_mbind; [eapply safe_lift, raise_safe, Hg|intros [? ?]; intros; exact I].
Qed.

(** checking *)
Notation CR := (carried w feature hint t0).
Notation LIC d mg := {| fl_source := ld_id d; fl_project := feature; fl_signature := ld_sig d; fl_magic := mg; fl_limits := lim (ld_entries d) |}.
Lemma info_safe d mg t : t0 <= t -> CR (ld_entries d) (ld_sig d) -> safe HZ (to_license_info w (LIC d mg) t).
Proof.
  intros Ht Hc. unfold to_license_info. cbn [fl_limits]. rewrite !lim_get. change PARAM_EXPIRY_DATE with (bs "valid-to"). destruct (exact_value (ld_entries d) (bs "valid-to")) as [x|] eqn:Ev; [|exact I].
  apply safe_mbind; [apply safe_lift, seconds_safe; intros Hf; eapply hz_valid_to; eassumption|]. intros s t1 Hs. apply mlift_ok in Hs as [Hs ->].
  apply safe_mbind; [exact I|]. intros now t2 Hn. unfold m_now in Hn. injection Hn as <- <-. cbv zeta. apply safe_mbind; [|intros; exact I]. apply safe_lift. change (60 * 60 * 24)%Z with 86400%Z. rewrite days_exact. destruct (_ || _) eqn:E; [|exact I]. cbn [safe].
  eapply (hz_days _ _ _ _ _ _ s t); [exact Hc|apply dated_iff; exists x; auto|exact Ht|apply round_div_rounded; lia|]. unfold INT_MAX, INT_MIN in E. apply orb_true_iff in E as [E|E]; apply Z.ltb_lt in E; auto.
Qed.
Lemma limits_safe d mg r t : t0 <= t -> CR (ld_entries d) (ld_sig d) -> signature_good w feature (ld_entries d) (ld_sig d) -> mg = magic_of (option_map ci_magic c) ->
  (exists s, In s (sources w hint) /\ ld_id d = sid s) -> safe HZ (verify_limits w (LIC d mg) r t).
Proof.
  intros Ht Hc Hg Hm [s [Hs Hid]]. assert (L : 1024 <= length (reference (Some (ld_id d))) -> HZ (FUndef UbRead)) by (intros X; eapply hz_long; [exact Hs|rewrite Hid in X; exact X]).
  unfold verify_limits. cbn [fl_limits fl_source fl_magic]. rewrite !lim_get.
  change PARAM_EXPIRY_DATE with (bs "valid-to"). change PARAM_BEGIN_DATE with (bs "valid-from"). change PARAM_CLIENT_SIGNATURE with (bs "client-signature").
  destruct (N.eqb_spec mg (w_magic w)) as [Em|Em].
  2:{ apply safe_mbind; [apply safe_lift, safe_add, L|]. intros r1 t1 _. apply safe_mbind; [exact I|]. intros now t2 _. apply safe_mbind; [exact I|]. intros [v r2] t3 E. apply mret_ok in E as [[= -> ->] ->].
      apply safe_mbind; [exact I|]. intros [v r2] t4 E. apply mret_ok in E as [[= -> ->] ->]. exact I. }
  subst mg. apply safe_mbind; [exact I|]. intros r1 t1 E. apply mret_ok in E as [-> ->]. apply safe_mbind; [exact I|]. intros now t2 E. unfold m_now in E. injection E as <- <-.
  apply safe_mbind.
  { destruct (exact_value (ld_entries d) (bs "valid-to")) as [x|] eqn:Ev; [|exact I]. apply safe_mbind; [apply safe_lift, seconds_safe; intros Hf; eapply hz_valid_to; eassumption|]. intros secs t3 _.
    destruct (Z.ltb _ _); [|exact I]. apply safe_mbind; [apply safe_lift, safe_add, L|intros; exact I]. }
  intros [v r2] t3 E1. assert (T3 : t3 = S t).
  { destruct (exact_value (ld_entries d) (bs "valid-to")); [|apply mret_ok in E1 as [_ ->]; reflexivity]. apply mbind_ok in E1 as [secs [t4 [E1 E2]]]. apply mlift_ok in E1 as [_ ->]. destruct (Z.ltb _ _); [|apply mret_ok in E2 as [_ ->]; reflexivity].
    apply mbind_ok in E2 as [? [? [E2 E3]]]. apply mlift_ok in E2 as [_ ->]. apply mret_ok in E3 as [_ ->]. reflexivity. }
  subst t3. clear E1. apply safe_mbind.
  { destruct v; [|exact I]. destruct (exact_value (ld_entries d) (bs "valid-from")) as [x|] eqn:Ev; [|exact I].
    apply safe_mbind; [apply safe_lift, seconds_safe; intros Hf; eapply hz_valid_from; eassumption|]. intros secs t4 _.
    destruct (Z.ltb _ _); [|exact I]. apply safe_mbind; [apply safe_lift, safe_add, L|intros; exact I]. }
  intros [v' r3] t4 E1. assert (T4 : t4 = S t).
  { destruct v; [|apply mret_ok in E1 as [_ ->]; reflexivity]. destruct (exact_value (ld_entries d) (bs "valid-from")); [|apply mret_ok in E1 as [_ ->]; reflexivity]. apply mbind_ok in E1 as [secs [t5 [E1 E2]]]. apply mlift_ok in E1 as [_ ->]. destruct (Z.ltb _ _); [|apply mret_ok in E2 as [_ ->]; reflexivity].
    apply mbind_ok in E2 as [? [? [E2 E3]]]. apply mlift_ok in E2 as [_ ->]. apply mret_ok in E3 as [_ ->]. reflexivity. }
  subst t4. destruct v'; [|exact I]. destruct (exact_value (ld_entries d) (bs "client-signature")) as [code|] eqn:Ec; [|exact I].
  apply safe_mbind; [exact I|]. intros m t5 E. unfold m_machine in E. injection E as <- <-.
  apply safe_mbind; [apply safe_lift, validate_safe; [intros O; eapply (hz_identifier _ _ _ _ _ _ code); eassumption|intros h u D S2 G; eapply (hz_disks _ _ _ _ _ _ code h (S t)); try eassumption; lia]|]. intros e t6 _.
  apply safe_mbind; [apply safe_lift, safe_add, L|intros; exact I].
Qed.
Lemma verify_all_safe ds r ok bad t : (forall i, order_ok (w_machine w i)) -> t0 <= t ->
  Forall (fun d => CR (ld_entries d) (ld_sig d) /\ license_form (ld_entries d) (ld_sig d) /\ exists s, In s (sources w hint) /\ ld_id d = sid s) ds ->
  safe HZ (verify_all w (option_map ci_magic c) (map (lic_full feature) ds) r ok bad t).
Proof.
  intros HO. revert r ok bad t. induction ds as [|d ds IH]; intros r ok bad t Ht HF; cbn [map verify_all]; [exact I|].
  inversion HF as [|? ? [Hc [Hf Hs]] HF']; subst. fold (lic_at (option_map ci_magic c) (lic_full feature d)). unfold lic_full at 1 2 3. rewrite lic_at_eq.
  assert (L : 1024 <= length (reference (Some (ld_id d))) -> HZ (FUndef UbRead)) by (destruct Hs as [s [Hs Hid]]; intros X; eapply hz_long; [exact Hs|rewrite Hid in X; exact X]).
  match goal with |- context [verify_signature w ?l r] => set (lic := l) end.
  apply safe_mbind.
  { apply safe_lift. unfold verify_signature. apply safe_bind; [|intros b _; apply safe_bind; [apply safe_add, L|intros; exact I]].
    unfold os_verify_signature. destruct (w_key_ok w) eqn:Ek; [|exact I]. cbn [negb]. cbn [lic fl_signature]. destruct (w_bio w (ld_sig d)) as [n data] eqn:Eb. destruct (_ || _) eqn:E; [|exact I]. cbn.
    eapply hz_signature; [exact Hc|exact Ek|]. rewrite Eb. cbn. apply orb_true_iff in E as [E|E]; [apply Z.ltb_lt in E|apply Z.leb_le in E]; auto. }
  intros [b r1] t1 H1. apply mlift_ok in H1 as [H1 ->]. unfold verify_signature in H1. apply rbind_ok in H1 as [b' [Hb H1]]. apply rbind_ok in H1 as [r2 [_ H1]]. injection H1 as H1 H1r. subst b r2.
  pose proof (os_verify_good _ _ _ _ _ _ _ Hb) as Hg.
  apply safe_mbind; [apply (info_safe d _ t Ht Hc)|]. intros i t1 H2. apply to_license_info_ok in H2 as [Ht1 _].
  destruct b'; [|apply IH; [lia|exact HF']].
  apply safe_mbind; [apply (limits_safe d _ r1 t1); [lia|exact Hc|apply Hg; reflexivity| |exact Hs]; destruct c; reflexivity|]. intros [lo r2] t2 H3. apply verify_limits_ok in H3 as [Ht2 _]; [|exact Hf|apply Hg; reflexivity|exact HO].
  destruct lo; apply IH; try exact HF'; lia.
Qed.
End FAULTS.
