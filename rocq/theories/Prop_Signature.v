(** What a signature covers and what it does not (C17, C18). *)
From Verif Require Import Base CTypes StringUtils Dates Base64 HwId Registry Ini Network Disks ExecEnv Strategies Locate Licensecc.
From Verif Require Import P_Base Spec_Strings Spec_Base64 Spec_Dates P_Strings P_Text P_Decode P_DateText P_HwText Spec_Ini P_Ini P_IniSave Spec_HwId Spec_Hw P_Hw P_Hw2 Spec_Registry P_Registry Spec_Acquire P_Acquire1 P_Acquire2 P_Acquire3 P_Acquire4 P_Acquire5 Spec_Faults Spec_Ext P_Ext Spec_Signature P_Signature.
From Coq Require Import Sorted Lia Permutation.
From Verif Require Import Ex_Acquire Prop_Acquire Prop_Faults.

(** ** C17 *)
(** The beginning [x] of a value may be moved into its key: the signature stays good
    (provided no other key lies between the old and the new key). *)
Definition between (k k' k2 : bytes) : Prop := bcmp k2 k <> bcmp k2 k'.
Theorem C17_resplit w f a b k x y sig :
  distinct_names (a ++ (k, x ++ y) :: b) -> distinct_names (a ++ (k ++ x, y) :: b) ->
  k <> bs "sig" -> k ++ x <> bs "sig" -> solid k -> solid x -> solid y ->
  (forall k2 v2, In (k2, v2) (a ++ b) -> ~ between k (k ++ x) k2) ->
  (signature_good w f (a ++ (k, x ++ y) :: b) sig <-> signature_good w f (a ++ (k ++ x, y) :: b) sig).
Proof.
  intros HD HD' Hs Hs' Sk Sx Sy HB. set (es := a ++ (k, x ++ y) :: b) in *. set (es' := a ++ (k ++ x, y) :: b) in *.
  assert (HB' : forall k2 v2, In (k2, v2) (a ++ b) -> bcmp k2 k = bcmp k2 (k ++ x)).
  { intros k2 v2 H. specialize (HB k2 v2 H). unfold between in HB. destruct (bcmp k2 k), (bcmp k2 (k ++ x)); try reflexivity; exfalso; apply HB; discriminate. }
  destruct (lim_of es) as [LS LI]. assert (Hk : In (k, x ++ y) (lim es)) by (apply LI, exact_in; [exact HD|apply in_or_app; right; left; reflexivity]).
  apply in_split in Hk as [pre [post E]]. rewrite E in LS, LI.
  assert (HO : forall e, In e (pre ++ post) <-> In e (a ++ b)).
  { assert (ND : ~ In (k, x ++ y) (pre ++ post)).
    { apply strong_sorted in LS. intros X. assert (N : NoDup (map fst (pre ++ (k, x ++ y) :: post))).
      { clear -LS. apply sorted_strong in LS. induction LS as [|e m H IH F]; cbn; constructor; [|exact IH]. intros X. apply in_map_iff in X as [e' [Ee He]]. rewrite Forall_forall in F. specialize (F e' He). destruct e as [ek ev], e' as [ek' ev']. cbn [fst] in *. subst ek'. rewrite bcmp_refl in F. discriminate. }
      rewrite map_app in N. cbn [map] in N. apply NoDup_remove_2 in N. apply N. rewrite <- map_app. change k with (fst (k, x ++ y)). apply in_map, X. }
    assert (ND' : ~ In (k, x ++ y) (a ++ b)).
    { intros X. assert (N : forall v', In (k, v') (a ++ b) -> False); [|eapply N, X]. clear -HD. unfold es in HD. induction a as [|[k0 v0] a IH]; cbn [app distinct_names] in HD.
      - destruct HD as [HD _]. intros v' X. apply (HD k v' X). reflexivity.
      - destruct HD as [HD1 HD2]. intros v' [[= -> ->]|X]; [|eapply IH; eassumption]. apply (HD1 k (x ++ y)); [apply in_or_app; right; left; reflexivity|reflexivity]. }
    intros [k2 v2]. specialize (LI k2 v2). rewrite exact_in in LI by exact HD. unfold es in LI. rewrite !in_app_iff in LI. rewrite !in_app_iff in ND, ND'. rewrite !in_app_iff. cbn [In] in LI. split; intros H.
    - assert (Z : In (k2, v2) pre \/ (k, x ++ y) = (k2, v2) \/ In (k2, v2) post) by (destruct H as [H|H]; [left|right; right]; exact H). apply LI in Z. destruct Z as [X|[X|X]]; [left; exact X| |right; exact X]. exfalso. apply ND. rewrite X. exact H.
    - assert (Z : In (k2, v2) a \/ (k, x ++ y) = (k2, v2) \/ In (k2, v2) b) by (destruct H as [H|H]; [left|right; right]; exact H). apply LI in Z. destruct Z as [X|[X|X]]; [left; exact X| |right; exact X]. exfalso. apply ND'. rewrite X. exact H. }
  assert (L' : limits_of es' (pre ++ (k ++ x, y) :: post)).
  { split.
    - assert (HB2 : forall e, In e (pre ++ post) -> bcmp (fst e) k = bcmp (fst e) (k ++ x)) by (intros [k2 v2] H; apply (HB' k2 v2), HO, H).
      clear -LS HB2. induction pre as [|e pre IH]; cbn [app] in *.
      + inversion LS as [|? ? S F]; subst. constructor; [exact S|]. rewrite Forall_forall in *. intros e He. specialize (F e He). cbn [fst] in *. rewrite bcmp_antisym. rewrite <- HB2 by exact He. rewrite <- bcmp_antisym. exact F.
      + inversion LS as [|? ? S F]; subst. constructor; [apply IH; [exact S|intros e' He'; apply HB2; right; exact He']|]. rewrite Forall_forall in *. intros e' He'. apply in_app_or in He' as [He'|[<-|He']].
        * apply F, in_or_app. left. exact He'.
        * cbn [fst]. rewrite <- HB2 by (left; reflexivity). apply (F (k, x ++ y)). apply in_or_app. right. left. reflexivity.
        * apply F, in_or_app. right. right. exact He'.
    - intros k2 v2. rewrite exact_in by exact HD'. unfold es'. specialize (HO (k2, v2)). rewrite !in_app_iff in *. cbn [In]. tauto. }
  assert (L0 : limits_of es (pre ++ (k, x ++ y) :: post)) by (split; assumption).
  assert (T : signed_text f (pre ++ (k, x ++ y) :: post) = signed_text f (pre ++ (k ++ x, y) :: post)).
  { rewrite !signed_split by assumption. rewrite (solid_trim k Sk), (solid_trim y Sy). rewrite (solid_trim (x ++ y)) by (apply solid_app; auto). rewrite (solid_trim (k ++ x)) by (apply solid_app; auto). rewrite <- !app_assoc. reflexivity. }
  split; eapply good_text; eauto.
Qed.
Print Assumptions C17_resplit.

(** ** End to end: any of the three limits can be removed from any signed license of
    this form, whose limit then no longer counts, whatever the time and the machine. *)
Definition LIMITS : list bytes := [bs "valid-to"; bs "valid-from"; bs "client-signature"].
Definition signed_with (k v s : bytes) : list (bytes * bytes) := [(bs "lic_ver", bs "200"); (k, v); (bs "sig", s)].
Lemma two_hundred_200 : two_hundred (bs "200").
Proof. apply (th_dec [] [] []); try constructor. reflexivity. Qed.
Lemma limit_key k : In k LIMITS -> solid k /\ ~ In "="%char k /\ exists c r, k = c :: r /\ ~ In c [";"%char; "#"%char; "["%char].
Proof.
  intros H. repeat (destruct H as [<-|H]); [| | |destruct H].
  all: split; [apply solid_lit; reflexivity|]; split; [cbn; intros H; repeat (destruct H as [H|H]; [discriminate|]); destruct H|].
  all: eexists _, _; split; [reflexivity|]; cbn; intros H; repeat (destruct H as [H|H]; [discriminate|]); destruct H.
Qed.
Lemma key_entries k x y s : In k LIMITS -> ~ In "="%char x -> solid x -> solid y -> solid s -> Forall good_entry (signed_with (k ++ x) y s).
Proof.
  intros Hk Hx Sx Sy Ss. destruct (limit_key k Hk) as [Sk [Ek [c [r [E Hc]]]]]. assert (GL : forall q v, In q [bs "lic_ver"; bs "sig"] -> solid v -> good_entry (q, v)).
  { intros q v Hq Sv. split; [|split; [exact Sv|split]]; cbn [fst].
    - destruct Hq as [<-|[<-|[]]]; apply solid_lit; reflexivity.
    - destruct Hq as [<-|[<-|[]]]; cbn; intros H; repeat (destruct H as [H|H]; [discriminate|]); destruct H.
    - destruct Hq as [<-|[<-|[]]]; (eexists _, _; split; [reflexivity|]; cbn; intros H; repeat (destruct H as [H|H]; [discriminate|]); destruct H). }
  constructor; [apply GL; [left; reflexivity|apply solid_lit; reflexivity]|]. constructor; [|constructor; [apply GL; [right; left; reflexivity|exact Ss]|constructor]].
  split; [|split; [exact Sy|split]]; cbn [fst].
  - apply solid_app. auto.
  - intros H. apply in_app_or in H. destruct H; contradiction.
  - subst k. exists c, (r ++ x). split; [reflexivity|exact Hc].
Qed.
(** no name of this form is one of the others *)
Lemma key_distinct k x y s : In k LIMITS -> distinct_names (signed_with (k ++ x) y s).
Proof.
  intros Hk. unfold signed_with. cbn [distinct_names]. split; [|split; [|split; [intros ? ? []|exact I]]].
  - intros n v [E|[E|[]]] Q; injection E as <- <-; [|discriminate]. repeat (destruct Hk as [<-|Hk]; [discriminate|]). destruct Hk.
  - intros n v [E|[]] Q. injection E as <- <-. repeat (destruct Hk as [<-|Hk]; [discriminate|]). destruct Hk.
Qed.
Lemma exact_gone k x y s k2 : In k LIMITS -> In k2 LIMITS -> x <> [] -> exact_value (signed_with (k ++ x) y s) k2 = None.
Proof.
  intros Hk Hk2 Hx. destruct (exact_value _ _) as [v|] eqn:E; [|reflexivity]. exfalso. apply exact_in in E; [|apply key_distinct, Hk]. destruct x as [|c x]; [destruct (Hx eq_refl)|].
  destruct E as [[= E _]|[[= E _]|[[= E _]|[]]]].
  - repeat (destruct Hk2 as [<-|Hk2]; [discriminate|]). destruct Hk2.
  - repeat (destruct Hk as [<-|Hk]; [repeat (destruct Hk2 as [<-|Hk2]; [discriminate|]); destruct Hk2|]). destruct Hk.
  - repeat (destruct Hk2 as [<-|Hk2]; [discriminate|]). destruct Hk2.
Qed.
Lemma key_form k x y s : In k LIMITS -> license_form (signed_with (k ++ x) y s) s.
Proof.
  intros Hk. pose proof (key_distinct k x y s Hk) as HD.
  assert (L : forall k2 v2, In (k2, v2) (signed_with (k ++ x) y s) -> last_value (signed_with (k ++ x) y s) k2 = Some v2).
  { intros k2 v2 H. apply (exact_in _ _ _ HD) in H. unfold exact_value in H. destruct (first_spelling _ _) as [k'|]; [|discriminate]. destruct (beqb k' k2); [exact H|discriminate]. }
  split; [apply L; cbn; auto|]. exists (bs "200"). split; [apply L; left; reflexivity|]. split; [cbn; lia|exact two_hundred_200].
Qed.
Lemma key_not_between k x : In k LIMITS -> forall k2 v2, In (k2, v2) ([(bs "lic_ver", bs "200")] ++ [(bs "sig", v2)]) -> ~ between k (k ++ x) k2.
Proof.
  intros Hk k2 v2 H. unfold between. intros N. apply N. clear N. assert (K : k2 = bs "lic_ver" \/ k2 = bs "sig") by (destruct H as [[= <- _]|[[= <-]|[]]]; auto).
  repeat (destruct Hk as [<-|Hk]; [destruct K as [->| ->]; reflexivity|]). destruct Hk.
Qed.
Theorem C17_limit_removed w c out t k x y s :
  (forall i, order_ok (w_machine w i)) -> static w -> w_near_module w = false -> w_with_env w = false ->
  (* the caller asks for the feature, with the magic number of the project *)
  let feature := feature_of w (option_map ci_feature c) in
  (forall x, c = Some x -> In NUL (ci_feature x)) -> magic_of (option_map ci_magic c) = w_magic w ->
  solid feature -> ~ In "]"%char feature ->
  (* a license with the limit k = xy and a good signature *)
  In k LIMITS -> solid x -> x <> [] -> ~ In "="%char x -> solid y -> solid s ->
  signature_good w feature (section_entries (license_text feature (signed_with k (x ++ y) s)) feature) s ->
  (* is turned into one without the limit, which is accepted *)
  let tampered := license_text feature (signed_with (k ++ x) y s) in
  length tampered <= HINT_SIZE ->
  exact_value (section_entries tampered feature) k = None /\
  exists out' t', acquire_license w c (Some {| loc_type := 1; loc_data := tampered ++ [NUL] |}) out t = Ok ((LICENSE_OK, out'), t').
Proof.
  intros HO HS Hn He f Hc Hm Sf Hf Hk Sx Nx Ex Sy Ss HG T HL.
  destruct (limit_key k Hk) as [Sk [Ek [c0 [r0 [Ek0 Hc0]]]]].
  assert (G : Forall good_entry (signed_with (k ++ x) y s)) by (apply key_entries; assumption).
  assert (G0 : Forall good_entry (signed_with k (x ++ y) s)).
  { pose proof (key_entries k [] (x ++ y) s Hk) as K. rewrite app_nil_r in K. apply K; try assumption; [intros []|constructor|apply solid_app; auto]. }
  rewrite license_entries in HG by assumption.
  assert (ET : section_entries T f = signed_with (k ++ x) y s) by (apply license_entries; assumption).
  assert (HG' : signature_good w f (signed_with (k ++ x) y s) s).
  { refine (proj1 (C17_resplit w f [(bs "lic_ver", bs "200")] [(bs "sig", s)] k x y s _ _ _ _ Sk Sx Sy _) HG).
    - pose proof (key_distinct k [] (x ++ y) s Hk) as K. rewrite app_nil_r in K. exact K.
    - apply key_distinct, Hk.
    - repeat (destruct Hk as [<-|Hk]; [discriminate|]). destruct Hk.
    - repeat (destruct Hk as [<-|Hk]; [discriminate|]). destruct Hk.
    - intros k2 v2 H. apply (key_not_between k x Hk k2 v2). destruct H as [H|[H|[]]]; [left; exact H|right; left; congruence]. }
  assert (EX : forall k2, In k2 LIMITS -> exact_value (signed_with (k ++ x) y s) k2 = None) by (intros; apply exact_gone; assumption).
  split; [rewrite ET; apply EX, Hk|].
  set (h := {| loc_type := 1; loc_data := T ++ [NUL] |}).
  assert (NT : ~ In NUL T) by (apply license_text_nul; assumption).
  assert (TX : cstr (firstn HINT_SIZE (T ++ [NUL])) = T).
  { destruct (Nat.eq_dec (length T) HINT_SIZE) as [Eq|Ne].
    - rewrite <- Eq, firstn_app_exact. apply cstr_id, nul_free_in, NT.
    - rewrite firstn_all2 by (rewrite app_length; cbn [length]; lia). apply cstr_app_nul, nul_free_in, NT. }
  assert (HT : T <> []) by (unfold T, license_text, unlines; discriminate).
  assert (SR : sources w (Some h) = [SText EXTERNAL T]).
  { unfold sources, groups. rewrite Hn, He. cbn [app flat_map g_sources]. unfold hint_sources. cbn [loc_data h loc_type]. rewrite TX. destruct T as [|c1 T1] eqn:E; [destruct (HT eq_refl)|]. reflexivity. }
  assert (CA : forall es sig, carried w f (Some h) t es sig -> es = signed_with (k ++ x) y s /\ sig = s).
  { intros es sig [src [t' [content [Hsrc [_ [Hg [-> F]]]]]]]. rewrite SR in Hsrc. destruct Hsrc as [<-|[]]. inversion Hg; subst. rewrite ET in *. split; [reflexivity|]. eapply form_fun; [exact F|apply key_form, Hk]. }
  apply (C02_accepts_total w c (Some h) out t (SText EXTERNAL T) T HO HS).
  - constructor; fold f; rewrite ?SR.
    + exact Hc.
    + intros l [= <-]. split; [apply in_or_app; right; left; reflexivity|cbn; auto].
    + intros src [<-|[]]. vm_compute. lia.
    + intros p i j [H|[]]. discriminate.
    + rewrite He. discriminate.
    + intros n0 s0 [H|[]]. discriminate.
    + intros es sig H. apply CA in H as [-> ->]. destruct HG' as [m [n [data [_ [_ [B [N _]]]]]]]. rewrite B. exact N.
    + intros es sig key d H. apply CA in H as [-> _]. intros [<-|[<-|[]]] E; rewrite EX in E by (cbn; auto); discriminate.
    + intros es sig code H. apply CA in H as [-> _]. unfold locked. rewrite EX by (cbn; auto). discriminate.
    + left. discriminate.
  - rewrite SR. left. reflexivity.
  - reflexivity.
  - constructor.
  - fold f. rewrite ET. exists s. split; [apply key_form, Hk|]. split; [exact HG'|]. split; [exact Hm|]. split.
    + split; left; apply EX; cbn; auto.
    + intros code L. unfold locked in L. rewrite EX in L by (cbn; auto). discriminate.
Qed.
Print Assumptions C17_limit_removed.
(** an expired license; one for another machine *)
Example C17_case : let w := demo false false NOW [] [] in
  let run l := code_of (acquire_license w (Some (asking "demo")) (Some (hint_of 1 (license_text (bs "demo") l))) None 0) in
  run (signed_with (bs "valid-to") (bs "20190101") (bs "DEMOlic_ver200valid-to20190101")) = Ok PRODUCT_EXPIRED /\
  run (signed_with (bs "valid-to20190101") [] (bs "DEMOlic_ver200valid-to20190101")) = Ok LICENSE_OK /\
  run (signed_with (bs "client-signature") (bs "ACAK-AAEC-Kio=") (bs "DEMOclient-signatureACAK-AAEC-Kio=lic_ver200")) = Ok IDENTIFIERS_MISMATCH /\
  run (signed_with (bs "client-signatureACAK") (bs "-AAEC-Kio=") (bs "DEMOclient-signatureACAK-AAEC-Kio=lic_ver200")) = Ok LICENSE_OK.
Proof. cbv zeta. split; [vm_compute; reflexivity|]. split; [vm_compute; reflexivity|]. split; vm_compute; reflexivity. Qed.
(** so the property as a user expects it is false *)
Theorem C17_signature_binds_refuted : ~ (forall w f es es' sig key, signature_good w f es sig -> signature_good w f es' sig -> In key LIMITS ->
  exact_value es key = exact_value es' key).
Proof.
  intros H. set (w := demo false false NOW [] []). set (s := bs "DEMOlic_ver200valid-to20190101").
  assert (G : signature_good w (bs "demo") (signed_with (bs "valid-to") (bs "20190101") s) s).
  { exists [(bs "lic_ver", bs "200"); (bs "sig", s); (bs "valid-to", bs "20190101")], (Z.of_nat (length s)), s. split.
    - apply limits_perm.
      + pose proof (key_distinct (bs "valid-to") [] (bs "20190101") s) as K. rewrite app_nil_r in K. apply K. cbn. auto.
      + apply perm_skip, perm_swap.
      + repeat constructor.
    - split; [reflexivity|]. split; [reflexivity|]. split; [vm_compute; split; [discriminate|reflexivity]|vm_compute; reflexivity]. }
  assert (G' : signature_good w (bs "demo") (signed_with (bs "valid-to20190101") [] s) s).
  { exists [(bs "lic_ver", bs "200"); (bs "sig", s); (bs "valid-to20190101", [])], (Z.of_nat (length s)), s. split.
    - apply limits_perm.
      + apply (key_distinct (bs "valid-to") (bs "20190101") [] s). cbn. auto.
      + apply perm_skip, perm_swap.
      + repeat constructor.
    - split; [reflexivity|]. split; [reflexivity|]. split; [vm_compute; split; [discriminate|reflexivity]|vm_compute; reflexivity]. }
  specialize (H w _ _ _ _ (bs "valid-to") G G' (or_introl eq_refl)). vm_compute in H. discriminate.
Qed.
Print Assumptions C17_signature_binds_refuted.

(** ** C18 *)
Lemma keys_eq (m m' : list (bytes * bytes)) : StronglySorted (fun a b => bcmp (fst a) (fst b) = Lt) m -> StronglySorted (fun a b => bcmp (fst a) (fst b) = Lt) m' ->
  (forall k, In k (map fst m) <-> In k (map fst m')) -> map fst m = map fst m'.
Proof.
  set (strip2 := map (fun e : bytes * bytes => (fst e, tt))).
  assert (S : forall l, StronglySorted (fun a b => bcmp (fst a) (fst b) = Lt) l -> sm_sorted (strip2 l)).
  { intros l H. apply strong_sorted. induction H as [|e l H IH F]; [constructor|]. cbn [strip2 map]. constructor; [exact IH|]. rewrite Forall_forall in *. intros e' He'. apply in_map_iff in He' as [e2 [<- He2]]. apply (F e2 He2). }
  assert (K : forall l, map fst (strip2 l) = map fst l) by (intros l; unfold strip2; rewrite map_map; reflexivity).
  intros H H' E. rewrite <- (K m), <- (K m'). f_equal. apply sm_ext; [apply S, H|apply S, H'|]. intros k.
  destruct (sm_get k (strip2 m)) as [[]|] eqn:G, (sm_get k (strip2 m')) as [[]|] eqn:G'; try reflexivity; exfalso.
  - apply sm_get_none in G'. apply G'. rewrite K. apply E. rewrite <- K. apply sm_get_in in G. apply (in_map fst) in G. exact G.
  - apply sm_get_none in G. apply G. rewrite K. apply E. rewrite <- K. apply sm_get_in in G'. apply (in_map fst) in G'. exact G'.
Qed.
Lemma pieces_eq (m m' : list (bytes * bytes)) tail tail' : map fst m = map fst m' ->
  (forall k v v', In ((k, v), (k, v')) (combine m m') -> k <> bs "sig" -> length (trimmed v) = length (trimmed v')) ->
  concat (map piece (kept m)) ++ tail = concat (map piece (kept m')) ++ tail' ->
  (forall k v v', In ((k, v), (k, v')) (combine m m') -> k <> bs "sig" -> trimmed v = trimmed v') /\ tail = tail'.
Proof.
  revert m'. induction m as [|[k v] m IH]; intros [|[k' v'] m'] HK HL HE; try discriminate HK.
  - split; [intros ? ? ? []|exact HE].
  - cbn [map fst] in HK. injection HK as -> HK. destruct (beqb_spec k' (bs "sig")) as [->|Hs].
    + destruct (IH m' HK) as [A B].
      * intros k v0 v0' Hin. apply HL. right. exact Hin.
      * exact HE.
      * split; [|exact B]. intros k v0 v0' [E|Hin] Hk; [congruence|]. eapply A; eassumption.
    + rewrite (kept_cons k' v m Hs), (kept_cons k' v' m' Hs) in HE. cbn [map concat] in HE. unfold piece at 1 3 in HE. cbn [fst snd] in HE. rewrite <- !app_assoc in HE. apply app_inv_head in HE.
      assert (L : length (trimmed v) = length (trimmed v')) by (apply (HL k'); [left; reflexivity|exact Hs]).
      assert (EV : trimmed v = trimmed v' /\ concat (map piece (kept m)) ++ tail = concat (map piece (kept m')) ++ tail').
      { revert L HE. generalize (trimmed v) (trimmed v'). intros p q L HE. revert q L HE. induction p as [|x p IHp]; intros [|y q] L HE; try discriminate L; [auto|]. cbn [app] in HE. injection HE as -> HE. cbn in L. injection L as L. destruct (IHp q L HE) as [-> E2]. auto. }
      destruct EV as [EV HE']. destruct (IH m' HK) as [A B]; [intros k v0 v0' Hin; apply HL; right; exact Hin|exact HE'|].
      split; [|exact B]. intros k v0 v0' [E|Hin] Hk; [inversion E; subst; exact EV|]. eapply A; eassumption.
Qed.
Lemma pieces_length (m m' : list (bytes * bytes)) k0 : map fst m = map fst m' -> NoDup (map fst m) ->
  (forall k v v', In ((k, v), (k, v')) (combine m m') -> k <> bs "sig" -> k <> k0 -> length (trimmed v) = length (trimmed v')) ->
  length (concat (map piece (kept m))) = length (concat (map piece (kept m'))) ->
  forall k v v', In ((k, v), (k, v')) (combine m m') -> k <> bs "sig" -> length (trimmed v) = length (trimmed v').
Proof.
  assert (R : forall m m', map fst m = map fst m' -> (forall k v v', In ((k, v), (k, v')) (combine m m') -> k <> bs "sig" -> length (trimmed v) = length (trimmed v')) ->
    length (concat (map piece (kept m))) = length (concat (map piece (kept m')))).
  { induction m0 as [|[k v] m0 IH]; intros [|[k' v'] m0'] HK HL; try discriminate HK; [reflexivity|]. cbn [map fst] in HK. injection HK as -> HK.
    assert (IH' := IH m0' HK (fun k v0 v0' Hin => HL k v0 v0' (or_intror Hin))). destruct (beqb_spec k' (bs "sig")) as [->|Hs]; [exact IH'|].
    rewrite (kept_cons k' v m0 Hs), (kept_cons k' v' m0' Hs). cbn [map concat]. unfold piece at 1 3. cbn [fst snd]. rewrite !app_length, (HL k' v v' (or_introl eq_refl) Hs), IH'. reflexivity. }
  revert m'. induction m as [|[k v] m IH]; intros [|[k' v'] m'] HK HD HL HE; try discriminate HK.
  - intros ? ? ? [].
  - cbn [map fst] in HK, HD. injection HK as -> HK. inversion HD as [|? ? HN HD']; subst.
    assert (HL' : forall k v v', In ((k, v), (k, v')) (combine m m') -> k <> bs "sig" -> k <> k0 -> length (trimmed v) = length (trimmed v')) by (intros; eapply HL; [right|..]; eassumption).
    destruct (beqb_spec k' (bs "sig")) as [->|Hs].
    + intros k v0 v0' [E|Hin] Hk; [congruence|]. eapply IH; eassumption.
    + rewrite (kept_cons k' v m Hs), (kept_cons k' v' m' Hs) in HE. cbn [map concat] in HE. unfold piece at 1 3 in HE. cbn [fst snd] in HE. rewrite !app_length in HE.
      destruct (bytes_eq_dec k' k0) as [->|Hne].
      * assert (X : forall k v v', In ((k, v), (k, v')) (combine m m') -> k <> bs "sig" -> length (trimmed v) = length (trimmed v')).
        { intros k v0 v0' Hin Hk. apply (HL' k); [exact Hin|exact Hk|]. intros ->. apply HN. apply in_combine_l in Hin. apply (in_map fst) in Hin. exact Hin. }
        rewrite (R m m' HK X) in HE. intros k v0 v0' [E|Hin] Hk; [inversion E; subst; lia|]. eapply X; eassumption.
      * assert (E1 : length (trimmed v) = length (trimmed v')) by (apply (HL k'); [left; reflexivity|exact Hs|exact Hne]).
        intros k v0 v0' [E|Hin] Hk; [inversion E; subst; exact E1|]. revert Hin Hk. apply IH; try assumption. lia.
Qed.
Lemma pair_in es es' m m' k v v' : limits_of es m -> limits_of es' m' -> map fst m = map fst m' ->
  (In ((k, v), (k, v')) (combine m m') <-> exact_value es k = Some v /\ exact_value es' k = Some v').
Proof.
  intros [S H] [S' H'] E. rewrite <- H, <- H'. split; [intros X; split; [eapply in_combine_l|eapply in_combine_r]; exact X|].
  intros [A B]. clear H H'. revert m' S' E B. induction S as [|[k1 v1] m S IH F]; intros [|[k2 v2] m'] S' E B; try discriminate E; [destruct A|]. cbn [map fst] in E. injection E as -> E.
  inversion S' as [|? ? S2 F2]; subst. rewrite Forall_forall in F, F2. cbn [combine In].
  destruct A as [A|A], B as [B|B].
  - left. congruence.
  - injection A as -> ->. specialize (F2 _ B). cbn [fst] in F2. rewrite bcmp_refl in F2. discriminate.
  - injection B as -> ->. specialize (F _ A). cbn [fst] in F. rewrite bcmp_refl in F. discriminate.
  - right. apply IH; assumption.
Qed.
(** Same keys, and the lengths of the values (surrounding blanks aside) agree but for
    at most one key [k0]: then equal signed texts have equal values. *)
Theorem C18_values_bound f es es' m m' k0 : limits_of es m -> limits_of es' m' ->
  (forall k, exact_value es k = None <-> exact_value es' k = None) ->
  (forall k v v', k <> bs "sig" -> k <> k0 -> exact_value es k = Some v -> exact_value es' k = Some v' -> length (trimmed v) = length (trimmed v')) ->
  signed_text f m = signed_text f m' ->
  forall k v v', k <> bs "sig" -> exact_value es k = Some v -> exact_value es' k = Some v' -> trimmed v = trimmed v'.
Proof.
  intros L L' HK HL HT k v v' Hs Hv Hv'. pose proof L as [S H]. pose proof L' as [S' H'].
  assert (M : forall (m : list (bytes * bytes)) es, limits_of es m -> forall q, In q (map fst m) <-> exact_value es q <> None).
  { clear. intros m es [_ H] q. split.
    - intros X. apply in_map_iff in X as [[q' u] [E X]]. cbn in E. subst q'. apply H in X. congruence.
    - intros X. destruct (exact_value es q) as [u|] eqn:E; [|congruence]. apply H in E. apply (in_map fst) in E. exact E. }
  assert (EK : map fst m = map fst m').
  { apply keys_eq; try assumption. intros q. rewrite (M m es L), (M m' es' L'). rewrite HK. reflexivity. }
  assert (ND : NoDup (map fst m)).
  { clear -S. induction S as [|[q u] m S IH F]; cbn; constructor; [|exact IH]. intros X. apply in_map_iff in X as [[q' u'] [E X]]. cbn in E. subst q'. rewrite Forall_forall in F. specialize (F _ X). cbn [fst] in F. rewrite bcmp_refl in F. discriminate. }
  rewrite !signed_eq in HT. apply app_inv_head in HT.
  assert (LL : forall k v v', In ((k, v), (k, v')) (combine m m') -> k <> bs "sig" -> length (trimmed v) = length (trimmed v')).
  { apply (pieces_length m m' k0 EK ND); [|rewrite HT; reflexivity]. intros q u u' Hin Hq Hq0. apply (pair_in es es' m m' q u u' L L' EK) in Hin as [A B]. eapply HL; eassumption. }
  destruct (pieces_eq m m' [] [] EK LL) as [A _]; [rewrite !app_nil_r; exact HT|]. apply (A k); [|exact Hs]. apply (pair_in es es' m m' k v v' L L' EK). auto.
Qed.
Print Assumptions C18_values_bound.
(** The name of the feature is bound, up to case and surrounding blanks. *)
Theorem C18_feature_bound f f' m : signed_text f m = signed_text f' m -> same_name (trimmed f) (trimmed f').
Proof.
  unfold signed_text. intros H. apply app_inv_tail in H. unfold same_name. apply (f_equal (map lower)) in H. unfold upper in H. rewrite !map_map in H.
  rewrite !(map_ext _ lower lower_upper) in H. exact H.
Qed.
Print Assumptions C18_feature_bound.
(** A signature that verifies one text only does not validate a license with one
    value altered ... *)
Definition verifies_once (w : world) (sig : bytes) : Prop :=
  forall n data text text', w_bio w sig = (n, data) -> w_verify w text (firstn (Z.to_nat n) data) = true -> w_verify w text' (firstn (Z.to_nat n) data) = true -> text = text'.
Theorem C18_altered_value w f es es' sig k0 v v' : verifies_once w sig -> signature_good w f es sig ->
  k0 <> bs "sig" -> exact_value es k0 = Some v -> exact_value es' k0 = Some v' -> trimmed v <> trimmed v' ->
  (forall k, k <> k0 -> k <> bs "sig" -> exact_value es' k = exact_value es k) -> (exact_value es (bs "sig") = None <-> exact_value es' (bs "sig") = None) ->
  ~ signature_good w f es' sig.
Proof.
  intros HV [m [n [data [L [K [B [N V]]]]]]] Hs Hv Hv' Hne HE HS [m' [n' [data' [L' [K' [B' [N' V']]]]]]]. rewrite B in B'. injection B' as <- <-.
  apply Hne. eapply (C18_values_bound f es es' m m' k0 L L'); [| |exact (HV _ _ _ _ B V V')|exact Hs|exact Hv|exact Hv'].
  - intros k. destruct (bytes_eq_dec k k0) as [->|H]; [rewrite Hv, Hv'; split; discriminate|]. destruct (bytes_eq_dec k (bs "sig")) as [->|H2]; [exact HS|]. rewrite HE by assumption. reflexivity.
  - intros k u u' Hk Hk0 Hu Hu'. rewrite HE in Hu' by assumption. congruence.
Qed.
Print Assumptions C18_altered_value.
(** ... nor the same license for another feature. *)
Theorem C18_altered_feature w f f' es sig : verifies_once w sig -> signature_good w f es sig -> ~ same_name (trimmed f) (trimmed f') -> ~ signature_good w f' es sig.
Proof.
  intros HV [m [n [data [L [K [B [N V]]]]]]] Hne [m' [n' [data' [L' [K' [B' [N' V']]]]]]]. rewrite B in B'. injection B' as <- <-. rewrite (limits_unique _ _ _ L' L) in V'.
  apply Hne, (C18_feature_bound f f' m), (HV _ _ _ _ B V V').
Qed.
Print Assumptions C18_altered_feature.
(** Adding or removing a limit altogether changes the text as well, if no other part
    changes. *)
Theorem C18_added_limit f a k v b : k <> bs "sig" -> trimmed k ++ trimmed v <> [] -> signed_text f (a ++ (k, v) :: b) <> signed_text f (a ++ b).
Proof.
  intros Hk Hne E. apply (f_equal (@length _)) in E. rewrite signed_split in E by exact Hk. rewrite signed_eq, kept_app, map_app, concat_app in E. rewrite !app_length in E.
  destruct (trimmed k ++ trimmed v) as [|c r] eqn:X; [congruence|]. apply (f_equal (@length _)) in X. rewrite app_length in X. cbn [length] in X. lia.
Qed.
Print Assumptions C18_added_limit.
Example C18_case : let w := demo false false NOW [] [] in
  verifies_once w (bs "DEMOlic_ver200valid-to20190101") /\
  code_of (acquire_license w (Some (asking "demo")) (Some (hint_of 1 forged_license)) None 0) = Ok LICENSE_CORRUPTED /\
  signed_text (bs "demo") [(bs "lic_ver", bs "200"); (bs "valid-to", bs " 20300101 ")] = signed_text (bs "DEMO ") [(bs "lic_ver", bs "200"); (bs "valid-to", bs "20300101")].
Proof.
  cbv zeta. split; [|split; vm_compute; reflexivity]. intros n data text text' _ H H'. cbn [w_verify demo] in H, H'. apply beqb_eq in H, H'. congruence.
Qed.
