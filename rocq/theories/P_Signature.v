(** Lemmas on signed texts. *)
From Verif Require Import Base CTypes StringUtils Dates Base64 HwId Registry Ini Network Disks ExecEnv Strategies Locate Licensecc.
From Verif Require Import P_Base Spec_Strings Spec_Base64 Spec_Dates P_Strings P_Text P_Decode P_DateText P_HwText Spec_Ini P_Ini P_IniSave Spec_Registry Spec_Acquire P_Acquire1 P_Acquire2 Spec_Ext P_Ext Spec_Signature.
From Coq Require Import Sorted Lia Permutation.

Lemma solid_app a b : solid (a ++ b) <-> solid a /\ solid b.
Proof. apply Forall_app. Qed.
Lemma solid_trim s : solid s -> trimmed s = s.
Proof.
  intros H. unfold solid in H. rewrite Forall_forall in H. rewrite trimmed_eq. apply (trim_copy_unique s [] s []); try constructor.
  - cbn [app]. rewrite app_nil_r. reflexivity.
  - intros c r ->. apply (H c). left. reflexivity.
  - intros c r ->. intros X. destruct (H c) as [A B]; [apply in_or_app; right; left; reflexivity|]. tauto.
Qed.
Lemma gap_blank c : is_gap c = true -> blank c.
Proof. unfold is_gap. intros H. apply orb_true_iff in H as [H|H]; apply Ascii.eqb_eq in H; subst; cbn; auto. Qed.
Lemma eol_blank c : is_eol c = true -> blank c.
Proof. unfold is_eol. intros H. apply orb_true_iff in H as [H|H]; apply Ascii.eqb_eq in H; subst; cbn; auto 9. Qed.
Lemma solid_strip s : solid s -> strip s = s.
Proof.
  intros H. unfold solid in H. rewrite Forall_forall in H. rewrite strip_spec.
  assert (G : forall c, In c s -> is_gap c = false) by (intros c Hc; destruct (is_gap c) eqn:E; [|reflexivity]; destruct (H c Hc) as [A _]; destruct (A (gap_blank c E))).
  rewrite drop_while_id by (destruct s; cbn; [exact I|apply G; left; reflexivity]).
  apply rdrop_while_id. apply (last_not_spec is_gap (fun c => is_gap c = true)); [tauto|]. intros c r ->. rewrite G; [discriminate|apply in_or_app; right; left; reflexivity].
Qed.
Lemma solid_clean s : solid s -> clean s.
Proof.
  intros H. split; [|apply solid_strip, H]. unfold solid in H. rewrite Forall_forall in H. intros c Hc. destruct (H c Hc) as [A B]. split; [|exact B].
  destruct (is_eol c) eqn:E; [|reflexivity]. destruct (A (eol_blank c E)).
Qed.
Lemma solid_lit s : forallb (fun c => negb (isspace c) && negb (Ascii.eqb c NUL)) s = true -> solid s.
Proof.
  intros H. rewrite forallb_forall in H. apply Forall_forall. intros c Hc. specialize (H c Hc). apply andb_true_iff in H as [A B]. split.
  - intros X. apply isspace_blank in X. rewrite X in A. discriminate.
  - intros ->. discriminate.
Qed.

(** ** entries and limits *)
Lemma first_spelling_none es key : (forall k v, In (k, v) es -> ~ same_name k key) -> first_spelling es key = None.
Proof. intros H. apply first_last, last_value_none, H. Qed.
Lemma exact_in es k v : distinct_names es -> (exact_value es k = Some v <-> In (k, v) es).
Proof.
  induction es as [|[k0 v0] es IH]; [cbn; split; [discriminate|tauto]|]. cbn [distinct_names]. intros [H1 H2]. specialize (IH H2). unfold exact_value in *. cbn [first_spelling last_value].
  destruct (same_nameb_spec k0 k) as [S|S].
  - assert (N : last_value es k = None). { apply last_value_none. intros k' v' Hin X. apply (H1 k' v' Hin). unfold same_name in *. congruence. }
    rewrite N. destruct (beqb_spec k0 k) as [->|Hne].
    + split; [intros [= ->]; left; reflexivity|]. intros [[= ->]|Hin]; [reflexivity|]. exfalso. apply (H1 k v Hin). reflexivity.
    + split; [discriminate|]. intros [[= -> ->]|Hin]; [congruence|]. exfalso. apply (H1 k v Hin). exact S.
  - cbn [In]. split.
    + intros X. right. apply IH. destruct (first_spelling es k) as [k'|] eqn:F; [|discriminate]. destruct (beqb k' k); [|discriminate]. destruct (last_value es k); [exact X|discriminate].
    + intros [[= -> ->]|Hin]; [destruct S; reflexivity|]. apply IH in Hin. destruct (first_spelling es k) as [k'|] eqn:F; [|discriminate]. destruct (beqb k' k); [|discriminate]. rewrite Hin. reflexivity.
Qed.
Lemma limits_perm es m : distinct_names es -> Permutation es m -> StronglySorted (fun a b => bcmp (fst a) (fst b) = Lt) m -> limits_of es m.
Proof.
  intros HD HP HS. split; [exact HS|]. intros k v. rewrite exact_in by exact HD. split; apply Permutation_in; [symmetry|]; exact HP.
Qed.

(** ** signed texts *)
Definition piece (e : bytes * bytes) : bytes := trimmed (fst e) ++ trimmed (snd e).
Definition kept (m : list (bytes * bytes)) := filter (fun e => negb (beqb (fst e) (bs "sig"))) m.
Lemma signed_eq f m : signed_text f m = upper (trimmed f) ++ concat (map piece (kept m)).
Proof. reflexivity. Qed.
Lemma kept_app a b : kept (a ++ b) = kept a ++ kept b.
Proof. apply filter_app. Qed.
Lemma kept_cons k v m : k <> bs "sig" -> kept ((k, v) :: m) = (k, v) :: kept m.
Proof. intros H. unfold kept. cbn [filter fst]. apply beqb_false in H. rewrite H. reflexivity. Qed.
Lemma signed_split f a k v b : k <> bs "sig" ->
  signed_text f (a ++ (k, v) :: b) = (upper (trimmed f) ++ concat (map piece (kept a))) ++ (trimmed k ++ trimmed v) ++ concat (map piece (kept b)).
Proof.
  intros H. rewrite signed_eq, kept_app, kept_cons by exact H. rewrite map_app, concat_app. cbn [map concat]. unfold piece at 2. cbn [fst snd]. rewrite <- !app_assoc. reflexivity.
Qed.
Lemma good_text w f f' es es' m m' sig : limits_of es m -> limits_of es' m' -> signed_text f m = signed_text f' m' -> signature_good w f es sig -> signature_good w f' es' sig.
Proof.
  intros H H' E [m0 [n [data [L [K [B [N V]]]]]]]. rewrite (limits_unique _ _ _ L H), E in V. exists m', n, data. auto.
Qed.

(** ** license texts *)
Lemma meaning_entry k v : clean_key k -> clean v -> solid k -> solid v -> meaning (entry_line (k, v)) = LEntry k v.
Proof.
  intros [_ [He [c [r [-> Hc]]]]] _ Sk Sv. unfold meaning, entry_line. cbn [fst snd].
  rewrite solid_strip by (apply Forall_app; split; [exact Sk|constructor; [|exact Sv]]; split; [cbn; intros H; repeat (destruct H as [H|H]; [discriminate|]); destruct H|discriminate]).
  cbn [app]. assert (Hi : forall x, In x [";"%char; "#"%char; "["%char] -> Ascii.eqb c x = false) by (intros x Hx; apply Ascii.eqb_neq; intros ->; contradiction).
  rewrite (Hi ";"%char), (Hi "#"%char), (Hi "["%char) by (cbn; auto). cbn [orb].
  rewrite (cut_at_span "="%char (c :: r ++ "="%char :: v) (c :: r) v); [|apply not_in_forallb, He|reflexivity]. rewrite !solid_strip by assumption. reflexivity.
Qed.
Lemma meaning_header n : solid n -> ~ In "]"%char n -> meaning ("["%char :: n ++ ["]"%char]) = LHeader n /\ not_open ("["%char :: n ++ ["]"%char]).
Proof.
  intros Sn Hn. assert (S : solid ("["%char :: n ++ ["]"%char])). { constructor; [split; [cbn; intros H; repeat (destruct H as [H|H]; [discriminate|]); destruct H|discriminate]|]. apply Forall_app. split; [exact Sn|]. constructor; [|constructor]. split; [cbn; intros H; repeat (destruct H as [H|H]; [discriminate|]); destruct H|discriminate]. }
  split.
  - unfold meaning. rewrite (solid_strip _ S). cbn [Ascii.eqb orb]. change (Ascii.eqb "["%char ";"%char) with false. change (Ascii.eqb "["%char "#"%char) with false. change (Ascii.eqb "["%char "["%char) with true. cbn [orb].
    rewrite (cut_at_span "]"%char (n ++ ["]"%char]) n []); [|apply not_in_forallb, Hn|reflexivity]. rewrite (solid_strip _ Sn). reflexivity.
  - unfold not_open. rewrite (solid_strip _ S). destruct n; reflexivity.
Qed.
Definition good_entry (e : bytes * bytes) : Prop :=
  solid (fst e) /\ solid (snd e) /\ ~ In "="%char (fst e) /\ exists c r, fst e = c :: r /\ ~ In c [";"%char; "#"%char; "["%char].
Lemma good_entry_line e : good_entry e -> meaning (entry_line e) = LEntry (fst e) (snd e) /\ not_open (entry_line e) /\ solid (entry_line e).
Proof.
  destruct e as [k v]. intros [Sk [Sv [He [c [r [E Hc]]]]]]. cbn [fst snd] in *. subst k.
  assert (S : solid (entry_line (c :: r, v))) by (apply Forall_app; split; [exact Sk|constructor; [|exact Sv]]; split; [cbn; intros H; repeat (destruct H as [H|H]; [discriminate|]); destruct H|discriminate]).
  split; [|split; [|exact S]].
  - apply meaning_entry; [|apply solid_clean, Sv|exact Sk|exact Sv]. split; [apply solid_clean, Sk|]. split; [exact He|]. exists c, r. auto.
  - unfold not_open. pose proof (solid_strip _ S) as SS. unfold entry_line in *. cbn [fst snd app] in *. rewrite SS. apply beqb_false. intros [= -> _]. apply Hc. cbn. auto.
Qed.
Lemma solid_plain l : solid l -> plain_line l.
Proof. intros H c Hc. destruct (proj1 (solid_clean _ H) c Hc) as [A B]. split; [exact A|exact B]. Qed.
Lemma read_entries sec es : Forall good_entry es -> read_lines sec false (map entry_line es ++ [[]]) = map (fun e => IEntry sec (fst e) (snd e)) es.
Proof.
  induction 1 as [|e es He H IH]; [reflexivity|]. cbn [map app read_lines]. cbv zeta. destruct (good_entry_line e He) as [M [N _]]. rewrite N, M, IH. reflexivity.
Qed.
Theorem license_entries f es : solid f -> ~ In "]"%char f -> Forall good_entry es -> section_entries (license_text f es) f = es.
Proof.
  intros Sf Hf He. destruct (meaning_header f Sf Hf) as [M N].
  assert (P : Forall plain_line (("["%char :: f ++ ["]"%char]) :: map entry_line es)).
  { constructor.
    - intros c [<-|Hc]; [split; [reflexivity|discriminate]|]. apply in_app_or in Hc as [Hc|[<-|[]]]; [apply (solid_plain f Sf c Hc)|split; [reflexivity|discriminate]].
    - apply Forall_forall. intros l Hl. apply in_map_iff in Hl as [e [<- Hin]]. rewrite Forall_forall in He. apply solid_plain, good_entry_line, He, Hin. }
  unfold section_entries, text_items, license_text. rewrite cstr_id by (apply unlines_nul, P). rewrite lines_unlines by exact P. cbn [app read_lines]. cbv zeta. rewrite N, M. rewrite read_entries by exact He.
  cbn [flat_map item_entries app]. clear. induction es as [|[k v] es IH]; [reflexivity|]. cbn [map flat_map item_entries fst snd]. rewrite same_nameb_refl. cbn [app]. rewrite IH. reflexivity.
Qed.
Lemma license_text_nul f es : solid f -> ~ In "]"%char f -> Forall good_entry es -> ~ In NUL (license_text f es).
Proof.
  intros Sf Hf He. apply nul_free_in, unlines_nul. constructor.
  - intros c [<-|Hc]; [split; [reflexivity|discriminate]|]. apply in_app_or in Hc as [Hc|[<-|[]]]; [apply (solid_plain f Sf c Hc)|split; [reflexivity|discriminate]].
  - apply Forall_forall. intros l Hl. apply in_map_iff in Hl as [e [<- Hin]]. rewrite Forall_forall in He. apply solid_plain, good_entry_line, He, Hin.
Qed.
