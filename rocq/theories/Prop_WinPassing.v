(** Calls on Windows while time passes (C88). *)
From Verif Require Import Base CTypes StringUtils Dates Doubles Base64 HwId Registry Ini Network Disks ExecEnv Strategies Locate Licensecc Shared Trace WinSignature WinMachine AcquireGen.
From Verif Require Import P_Base Spec_Listing Spec_Strings Spec_Base64 Spec_Dates Spec_Ini Spec_HwId Spec_Hw Spec_Registry Spec_Acquire P_Acquire3 P_Acquire4 P_Acquire5 Spec_Faults Spec_Passing Spec_AcquireGen P_AcqGen2 Spec_Windows Spec_WinAcquire Spec_WinRepeat Spec_WinPassing.
From Verif Require Import Ex_Acquire Prop_Acquire Spec_Der Prop_WinSig Prop_Windows Prop_WinAcquire Prop_Passing.
From Verif Require Prop_Issue.
From Coq Require Import Lia.

Section STEADY.
Variables (w : world) (mn : means).
Hypothesis ST : steady w.
Hypothesis SI : forall i j code, mn_ident mn i code -> mn_ident mn j code.
Variables (f : bytes) (mg : N) (hint : option location).
(** what is valid later was valid before, unless it had not begun *)
Lemma backwards s t t' u u' r1 r2 : t <= t' -> t' <= u -> begun w f hint t -> In s (sources w hint) ->
  p_reported w mn f mg t t' s r1 -> p_reported w mn f mg u u' s r2 -> rp_code r2 = LICENSE_OK -> rp_code r1 = LICENSE_OK.
Proof.
  intros Ht Hu HB Hs R1 R2 K. destruct (p_reported_ok mn _ _ _ _ _ _ _ R2 K) as [content [i [j [x [P [G [Hi [Hj [V _]]]]]]]]]. eapply (p_valid_reported mn); [exact Ht| | |exact R1].
  - intros k _. eapply (st_present w ST), P.
  - intros content' k l G' Hk Hl. rewrite <- (st_content w ST _ _ _ _ _ _ _ G G') in *. destruct V as [sig [V1 [V2 [V3 [[V4 V5] V6]]]]]. exists sig. split; [exact V1|]. split; [exact V2|]. split; [exact V3|]. split; [split|].
    + destruct V4 as [V4|[e [D L]]]; [left; exact V4|right; exists e; split; [exact D|]]. pose proof (st_clock w ST k i ltac:(lia)). lia.
    + destruct V5 as [V5|[e [D L]]]; [left; exact V5|right; exists e; split; [exact D|]]. pose proof (HB _ _ _ (st_carried w ST f hint _ _ _ _ _ t Hs P G V1) D). pose proof (st_clock w ST t k ltac:(lia)). lia.
    + intros code Hc. apply (SI j l). apply V6, Hc.
Qed.
(** what is valid stays so until its end *)
Lemma forwards s t t' u u' r1 r2 : t' <= u -> u <= u' -> p_reported w mn f mg t t' s r1 -> p_reported w mn f mg u u' s r2 -> rp_code r1 = LICENSE_OK ->
  (forall content e, given w t t' s content -> dated w (section_entries content f) "valid-to" e -> (w_clock w u' <= e)%Z) -> rp_code r2 = LICENSE_OK.
Proof.
  intros Ht Hu R1 R2 K HE. destruct (p_reported_ok mn _ _ _ _ _ _ _ R1 K) as [content [i [j [x [P [G [Hi [Hj [V _]]]]]]]]]. eapply (p_valid_reported mn); [exact Hu| | |exact R2].
  - intros k _. eapply (st_present w ST), P.
  - intros content' k l G' Hk Hl. rewrite <- (st_content w ST _ _ _ _ _ _ _ G G') in *. destruct V as [sig [V1 [V2 [V3 [[V4 V5] V6]]]]]. exists sig. split; [exact V1|]. split; [exact V2|]. split; [exact V3|]. split; [split|].
    + destruct V4 as [V4|[e [D L]]]; [left; exact V4|right; exists e; split; [exact D|]]. pose proof (HE _ _ G D). pose proof (st_clock w ST k u' ltac:(lia)). lia.
    + destruct V5 as [V5|[e [D L]]]; [left; exact V5|right; exists e; split; [exact D|]]. pose proof (st_clock w ST i k ltac:(lia)). lia.
    + intros code Hc. apply (SI j l). apply V6, Hc.
Qed.
(** what is told of a license that is accepted twice *)
Lemma both_told s t t' u u' r1 r2 : t' <= u -> p_reported w mn f mg t t' s r1 -> p_reported w mn f mg u u' s r2 -> rp_code r1 = LICENSE_OK -> rp_code r2 = LICENSE_OK ->
  exists x1 x2, rp_told r1 = Some x1 /\ rp_told r2 = Some x2 /\ td_has_expiry x1 = td_has_expiry x2 /\ (td_days x2 <= td_days x1)%Z.
Proof.
  intros Hu R1 R2 K1 K2. destruct (p_reported_ok mn _ _ _ _ _ _ _ R1 K1) as [c1 [i1 [j1 [x1 [_ [G1 [_ [_ [_ [T1 [_ [_ D1]]]]]]]]]]]].
  destruct (p_reported_ok mn _ _ _ _ _ _ _ R2 K2) as [c2 [i2 [j2 [x2 [_ [G2 [_ [_ [_ [T2 [_ [_ D2]]]]]]]]]]]]. rewrite <- (st_content w ST _ _ _ _ _ _ _ G1 G2) in D2. exists x1, x2. split; [exact T1|]. split; [exact T2|].
  destruct (exact_value (section_entries c1 f) (bs "valid-to")) as [d|].
  - destruct D1 as [A1 [_ [e1 [k1 [q1 [B1 [C1 [E1 F1]]]]]]]], D2 as [A2 [_ [e2 [k2 [q2 [B2 [C2 [E2 F2]]]]]]]]. split; [congruence|]. rewrite F1, F2. pose proof (dated_fun _ _ _ _ _ C1 C2) as <-. pose proof (st_clock w ST k1 k2 ltac:(lia)). pose proof (rounded_mono _ _ _ _ E2 E1 ltac:(lia)). lia.
  - destruct D1 as [A1 [B1 _]], D2 as [A2 [B2 _]]. split; [congruence|lia].
Qed.
End STEADY.

Section CALLS.
Variables (ww : win_world) (modulus exponent : bytes) (c : option caller) (hint : option location).
Let w := places ww.
Let mn := win_means ww modulus exponent.
Let feature := feature_of w (option_map ci_feature c).
Hypothesis READY : win_ready ww modulus exponent.
Hypothesis SHORT : short_names ww hint.
Hypothesis STEADY : win_steady ww.
Let ST : steady w.
Proof. destruct STEADY as [A B]. split; [|exact B]. intros i j. destruct (A i j) as [A1 [A2 _]]. split; [exact A1|]. split; [exact A2|reflexivity]. Qed.
Let SI : forall i j code, mn_ident mn i code -> mn_ident mn j code.
Proof. intros i j code. destruct STEADY as [A _]. destruct (A i j) as [_ [_ A3]]. unfold mn. cbn [mn_ident win_means]. rewrite A3. auto. Qed.
(** two calls, one after the other *)
Variables (out out2 : option out_info) (t t' u u' : nat) (code code2 : event_type) (o o2 : option out_info).
Hypothesis FIRST : win_acquire_license ww c hint out t = Ok ((code, o), t').
Hypothesis SECOND : win_acquire_license ww c hint out2 u = Ok ((code2, o2), u').
Hypothesis AFTER : t' <= u.
Lemma two_calls : exists rs1 rs2, t <= t' /\ u <= u' /\ Forall2 (p_reported w mn feature (magic_of (option_map ci_magic c)) t t') (sources w hint) rs1 /\ Forall2 (p_reported w mn feature (magic_of (option_map ci_magic c)) u u') (sources w hint) rs2 /\
  (code = LICENSE_OK <-> exists r, In r rs1 /\ rp_code r = LICENSE_OK) /\ (code2 = LICENSE_OK <-> exists r, In r rs2 /\ rp_code r = LICENSE_OK) /\
  (forall x x', out = Some x -> o = Some x' -> info_out rs1 code x x') /\ (forall x x', out2 = Some x -> o2 = Some x' -> info_out rs2 code2 x x').
Proof using READY SHORT FIRST SECOND.
  destruct (C78_outcome ww modulus exponent hint READY SHORT _ _ _ _ _ _ FIRST) as [H1 [rss1 [log1 O1]]]. destruct (C78_outcome ww modulus exponent hint READY SHORT _ _ _ _ _ _ SECOND) as [H2 [rss2 [log2 O2]]]. exists (concat rss1), (concat rss2).
  split; [exact H1|]. split; [exact H2|]. split; [exact (p_outcome_reports _ _ _ _ _ _ _ _ _ _ _ O1)|]. split; [exact (p_outcome_reports _ _ _ _ _ _ _ _ _ _ _ O2)|].
  split; [rewrite (p_oc_ok _ _ _ _ _ _ _ _ _ _ _ O1), in_map_iff; split; intros [r [A B]]; exists r; auto|]. split; [rewrite (p_oc_ok _ _ _ _ _ _ _ _ _ _ _ O2), in_map_iff; split; intros [r [A B]]; exists r; auto|].
  split; intros x x' A B; [apply (p_oc_info _ _ _ _ _ _ _ _ _ _ _ O1 x x' A B)|apply (p_oc_info _ _ _ _ _ _ _ _ _ _ _ O2 x x' A B)].
Qed.

(** Once refused, always refused: a license that is over does not come back. *)
Theorem C88_refused_for_good_windows : begun w feature hint t -> code <> LICENSE_OK -> code2 <> LICENSE_OK.
Proof using READY SHORT STEADY FIRST SECOND AFTER.
  intros HB N K. apply N. destruct two_calls as [rs1 [rs2 [H1 [H2 [F1 [F2 [O1 [O2 _]]]]]]]]. apply O1. apply O2 in K as [r2 [I2 K]]. destruct (pair_back _ _ _ _ _ _ F1 F2 I2) as [s [r1 [Is [I1 [R1 R2]]]]]. exists r1. split; [exact I1|].
  eapply (backwards w mn ST SI feature _ hint s t t' u u'); eassumption.
Qed.
(** The number of days left never grows. *)
Theorem C88_days_never_grow_windows x x2 y y2 : begun w feature hint t -> code = LICENSE_OK -> code2 = LICENSE_OK -> out = Some x -> o = Some y -> out2 = Some x2 -> o2 = Some y2 ->
  exists has days days2, o_has_expiry y = Some has /\ o_has_expiry y2 = Some has /\ o_days_left y = Some days /\ o_days_left y2 = Some days2 /\ (days2 <= days)%Z.
Proof using READY SHORT STEADY FIRST SECOND AFTER.
  intros HB K1 K2 E1 E2 E3 E4. destruct two_calls as [rs1 [rs2 [H1 [H2 [F1 [F2 [O1 [O2 [B1 B2]]]]]]]]]. specialize (B1 _ _ E1 E2). specialize (B2 _ _ E3 E4). rewrite K1 in *. rewrite K2 in *.
  destruct (proj1 O1 eq_refl) as [a1 [A1 A2]]. destruct (proj1 O2 eq_refl) as [a2 [A3 A4]].
  assert (T : forall t t' rs r, Forall2 (p_reported w mn feature (magic_of (option_map ci_magic c)) t t') (sources w hint) rs -> In r rs -> rp_code r = LICENSE_OK -> rp_told r <> None).
  { intros p p' rs r F I K. destruct (pair_back _ _ _ _ _ _ F F I) as [s [r' [_ [_ [R _]]]]]. destruct (pair_back _ _ _ _ _ _ F F I) as [s0 [r0 [_ [_ [_ R0]]]]]. destruct (p_reported_ok mn _ _ _ _ _ _ _ R0 K) as [? [? [? [z [_ [_ [_ [_ [_ [T _]]]]]]]]]]. congruence. }
  destruct B1 as [N _ _ _ _ _|z1 B1 _ D1 X1 _ _]; [rewrite Forall_forall in N; destruct (T _ _ _ _ F1 A1 A2 (N _ A1))|]. destruct B2 as [N _ _ _ _ _|z2 B2 _ D2 X2 _ _]; [rewrite Forall_forall in N; destruct (T _ _ _ _ F2 A3 A4 (N _ A3))|].
  assert (P : td_has_expiry z1 = td_has_expiry z2 /\ (td_days z2 <= td_days z1)%Z).
  2: { destruct P as [P Q]. exists (td_has_expiry z1), (td_days z1), (td_days z2). rewrite X1, X2, D1, D2, P. auto. }
  change (event_eqb LICENSE_OK LICENSE_OK) with true in *. pose proof (best_in _ _ B1) as M1. pose proof (best_in _ _ B2) as M2. apply tolds_in in M1 as [r1 [I1 [L1 T1]]]. apply tolds_in in M2 as [r2 [I2 [L2 T2]]].
  (* the second best license was accepted before *)
  destruct (pair_back _ _ _ _ _ _ F1 F2 I2) as [s [q1 [Is [J1 [R1 R2]]]]].
  assert (L3 : rp_code q1 = LICENSE_OK) by (eapply (backwards w mn ST SI feature _ hint s t t' u u'); eassumption).
  destruct (both_told w mn ST SI feature _ s t t' u u' q1 r2 AFTER R1 R2 L3 L2) as [v1 [v2 [V1 [V2 [V3 V4]]]]]. rewrite T2 in V2. injection V2 as <-.
  destruct (best_top _ _ v1 B1) as [G1 G2]; [apply tolds_in; eauto|].
  (* a perpetual one is still accepted *)
  destruct (td_has_expiry z1) eqn:Z1.
  - specialize (G2 eq_refl). destruct (td_has_expiry z2); [split; [reflexivity|lia]|]. discriminate (G1 V3).
  - destruct (pair_back _ _ _ _ _ _ F2 F1 I1) as [s' [q2 [Is' [J2 [R2' R1']]]]]. destruct (p_reported_ok mn _ _ _ _ _ _ _ R1' L1) as [content [i [j [z [_ [G [_ [_ [_ [Tz [_ [_ Dz]]]]]]]]]]]]. rewrite T1 in Tz. injection Tz as <-.
    destruct (exact_value (section_entries content feature) (bs "valid-to")) eqn:Ev; [destruct Dz; congruence|]. destruct Dz as [_ [Dz _]].
    assert (L4 : rp_code q2 = LICENSE_OK).
    { eapply (forwards w mn ST SI feature _ s' t t' u u' r1 q2 AFTER H2 R1' R2' L1). intros content' e G' [d [yy [mm [dd [X _]]]]]. rewrite <- (st_content w ST _ _ _ _ _ _ _ G G') in X. congruence. }
    destruct (both_told w mn ST SI feature _ s' t t' u u' r1 q2 AFTER R1' R2' L1 L4) as [p1 [p2 [P1 [P2 [P3 _]]]]]. rewrite T1 in P1. injection P1 as <-. rewrite Z1 in P3.
    destruct (best_top _ _ p2 B2) as [G3 _]; [apply tolds_in; eauto|]. pose proof (G3 (eq_sym P3)) as Z2. rewrite Z2. split; [reflexivity|].
    destruct (p_reported_ok mn _ _ _ _ _ _ _ R2 L2) as [content2 [i2 [j2 [zz [_ [_ [_ [_ [_ [Tz [_ [_ Dz2]]]]]]]]]]]]. rewrite T2 in Tz. injection Tz as <-.
    destruct (exact_value (section_entries content2 feature) (bs "valid-to")); [destruct Dz2; congruence|]. destruct Dz2 as [_ [Dz2 _]]. lia.
Qed.
(** The number of days left can be relied upon, up to the rounding to whole days: the license is
    good for that long (no end: for ever) ... *)
Theorem C88_days_reliable_windows x y : code = LICENSE_OK -> out = Some x -> o = Some y ->
  (o_has_expiry y = Some false \/ exists days, o_days_left y = Some days /\ (1 <= days)%Z /\ (w_clock w u' <= w_clock w t + 86400 * days - 43200)%Z) -> code2 = LICENSE_OK.
Proof using READY SHORT STEADY FIRST SECOND AFTER.
  intros K1 E1 E2 HD. destruct two_calls as [rs1 [rs2 [H1 [H2 [F1 [F2 [O1 [O2 [B1 _]]]]]]]]]. specialize (B1 _ _ E1 E2). rewrite K1 in B1. change (event_eqb LICENSE_OK LICENSE_OK) with true in *. destruct (proj1 O1 K1) as [a1 [A1 A2]]. apply O2.
  destruct B1 as [N _ _ _ _ _|z B1 _ D1 X1 _ _].
  { rewrite Forall_forall in N. destruct (pair_back _ _ _ _ _ _ F1 F1 A1) as [s [r [_ [_ [_ R]]]]]. destruct (p_reported_ok mn _ _ _ _ _ _ _ R A2) as [? [? [? [z [_ [_ [_ [_ [_ [T _]]]]]]]]]]. rewrite (N _ A1) in T. discriminate. }
  apply best_in, tolds_in in B1 as [r1 [I1 [L1 T1]]]. destruct (pair_back _ _ _ _ _ _ F2 F1 I1) as [s [r2 [_ [I2 [R2 R1]]]]]. exists r2. split; [exact I2|].
  eapply (forwards w mn ST SI feature _ s t t' u u' r1 r2 AFTER H2 R1 R2 L1). intros content e G De.
  destruct (p_reported_ok mn _ _ _ _ _ _ _ R1 L1) as [content' [i [j [zz [_ [G' [_ [_ [_ [Tz [_ [_ Dz]]]]]]]]]]]]. rewrite T1 in Tz. injection Tz as <-. rewrite <- (st_content w ST _ _ _ _ _ _ _ G G') in Dz.
  destruct (exact_value (section_entries content feature) (bs "valid-to")) as [d|] eqn:Ev; [|destruct De as [d [yy [mm [dd [X _]]]]]; congruence].
  destruct Dz as [Hx [_ [e' [k [q [Hk [De' [R Dq]]]]]]]]. pose proof (dated_fun _ _ _ _ _ De De') as <-. destruct HD as [HD|[days [HD [Hd Hc]]]]; [congruence|]. rewrite D1 in HD. injection HD as Hdays. pose proof (st_clock w ST t k ltac:(lia)).
  assert (q = days) by lia. subst q. destruct R as [rr [R1' [R2' _]]]. lia.
Qed.
(** ... and no longer. *)
Theorem C88_days_exhausted_windows x y days : begun w feature hint t -> code = LICENSE_OK -> out = Some x -> o = Some y -> o_has_expiry y = Some true -> o_days_left y = Some days ->
  (w_clock w t' + 86400 * days + 43200 < w_clock w u)%Z -> code2 <> LICENSE_OK.
Proof using READY SHORT STEADY FIRST SECOND AFTER.
  intros HB K1 E1 E2 HX HD HC K2. destruct two_calls as [rs1 [rs2 [H1 [H2 [F1 [F2 [O1 [O2 [B1 _]]]]]]]]]. specialize (B1 _ _ E1 E2). rewrite K1 in B1. change (event_eqb LICENSE_OK LICENSE_OK) with true in *. destruct (proj1 O1 K1) as [a1 [A1 A2]]. apply O2 in K2 as [r2 [I2 K2]].
  destruct B1 as [N _ _ _ _ _|z B1 _ D1 X1 _ _].
  { rewrite Forall_forall in N. destruct (pair_back _ _ _ _ _ _ F1 F1 A1) as [s [r [_ [_ [_ R]]]]]. destruct (p_reported_ok mn _ _ _ _ _ _ _ R A2) as [? [? [? [z [_ [_ [_ [_ [_ [T _]]]]]]]]]]. rewrite (N _ A1) in T. discriminate. }
  destruct (pair_back _ _ _ _ _ _ F1 F2 I2) as [s [r1 [Is [I1 [R1 R2]]]]]. assert (L1 : rp_code r1 = LICENSE_OK) by (eapply (backwards w mn ST SI feature _ hint s t t' u u'); eassumption).
  destruct (p_reported_ok mn _ _ _ _ _ _ _ R1 L1) as [content [i [j [z1 [_ [G [_ [_ [_ [Tz [_ [_ Dz]]]]]]]]]]]]. destruct (best_top _ _ z1 B1) as [G1 G2]; [apply tolds_in; eauto|]. rewrite X1 in HX. injection HX as HX. rewrite D1 in HD. injection HD as HD. specialize (G2 HX).
  destruct (exact_value (section_entries content feature) (bs "valid-to")) as [d|] eqn:Ev; [|destruct Dz as [Dz _]; rewrite (G1 Dz) in HX; discriminate].
  destruct Dz as [_ [_ [e [k [q [Hk [De [[rr [Q1 [Q2 _]]] Dq]]]]]]]]. destruct (p_reported_ok mn _ _ _ _ _ _ _ R2 K2) as [content2 [i2 [j2 [_ [_ [G' [Hi2 [_ [[sig [_ [_ [_ [[V4 _] _]]]]] _]]]]]]]]].
  rewrite <- (st_content w ST _ _ _ _ _ _ _ G G') in V4. destruct V4 as [V4|[e' [De' V4]]]; [congruence|]. pose proof (dated_fun _ _ _ _ _ De De') as <-. pose proof (st_clock w ST k t' ltac:(lia)). pose proof (st_clock w ST u i2 ltac:(lia)). lia.
Qed.
End CALLS.
Print Assumptions C88_refused_for_good_windows. Print Assumptions C88_days_never_grow_windows. Print Assumptions C88_days_reliable_windows. Print Assumptions C88_days_exhausted_windows.

(** a license for the first disk of the machine until 2030-01-01, from 2029-12-20 on, two days from
    access to access *)
Definition win_ticking : win_world := win_with_clock (pc false false NOW [] [] pc_one) (fun i => 1892419200 + 172800 * Z.of_nat i)%Z.
Definition win_told_days (r : res ((event_type * option out_info) * nat)) := match r with Ok ((code, Some o), t) => Some (code, o_days_left o) | _ => None end.
Example C88_case_windows : let h := Some (hint_of 1 disk_license) in let run t := win_told_days (win_acquire_license win_ticking (Some (asking "demo")) h (Some blank_out) t) in
  win_ready win_ticking (odd_modulus 126) ["001"%char; "000"%char; "001"%char] /\ short_names win_ticking h /\ win_steady win_ticking /\ begun (places win_ticking) (bs "demo") h 0 /\
  run 0 = Some (LICENSE_OK, Some 12%Z) /\ run 4 = Some (LICENSE_OK, Some 4%Z) /\ run 9 = Some (PRODUCT_EXPIRED, Some 0%Z).
Proof.
  cbv zeta. split; [apply pc_ready; reflexivity|].
  assert (SS : sources (places win_ticking) (Some (hint_of 1 disk_license)) = [SText EXTERNAL disk_license]).
  { unfold hint_of. rewrite Prop_Issue.sole_source; [reflexivity|reflexivity|reflexivity|discriminate|vm_compute; reflexivity|unfold HINT_SIZE; apply Nat.leb_le; vm_compute; reflexivity]. }
  split; [intros s Hs; rewrite SS in Hs; destruct Hs as [<-|[]]; vm_compute; lia|]. split; [split; [repeat split|intros i j L; cbn [win_ticking win_with_clock ww_clock]; lia]|]. split; [|vm_compute; repeat split].
  intros es sig s [src [t' [content [Hs [_ [Hg [-> _]]]]]]]. rewrite SS in Hs. destruct Hs as [<-|[]]. inversion Hg; subst. intros [d [y [m [dd [X _]]]]]. vm_compute in X. discriminate X.
Qed.
