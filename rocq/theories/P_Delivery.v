(** The ways of Spec_Delivery: one source that is there, always, with that text; the others never are. *)
From Verif Require Import Base CTypes StringUtils Dates Base64 HwId Registry Ini Network Disks ExecEnv Strategies Locate Licensecc.
From Verif Require Import P_Base Spec_Strings Spec_Base64 P_Text Spec_Acquire P_Acquire1 P_Acquire2 Spec_Delivery.
From Verif Require Import Spec_Registry P_Registry P_Selected.
From Coq Require Import Lia.

(** not there, whenever it is looked for; another name *)
Definition elsewhere (room : nat) (w : world) (s s' : source) : Prop :=
  (exists p, s' = SFile p) /\ cstr (name_of s') <> cstr (name_of s) /\ (forall i, listed w s' i = false) /\ length (cstr (name_of s')) < room.
Record sole (room : nat) (w : world) (hint : option location) (text : bytes) (s : source) : Prop := {
  so_sources : exists a b, sources w hint = a ++ s :: b /\ forall s', In s' (a ++ b) -> elsewhere room w s s';
  so_listed : forall i, listed w s i = true;
  so_given : forall t t' x, given w t t' s x -> x = text;
  so_name : length (cstr (name_of s)) < room;
  so_read : forall p, s = SFile p -> forall j, w_file w j (cstr p) <> None;
  so_enc : forall n e, s = SEncoded n e -> decodable e /\ In NUL (decoded e);
  so_hint : forall l, hint = Some l -> In NUL (loc_data l) /\ In (loc_type l) [0; 1; 2]%Z;
  so_env : w_with_env w = true -> variable w DATA <> None -> w_getenv w LOCATION <> None;
  so_news : Forall (told_none (cstr (name_of s))) (groups w hint)
}.
(** announced as found, or passed by the caller and nothing else is even specified *)
Definition stands_out (w : world) (hint : option location) (s : source) : Prop :=
  (exists p, s = SFile p) \/
  exists G x, groups w hint = G ++ [{| g_news := [(LICENSE_SPECIFIED, EXTERNAL)]; g_announce := true; g_sources := [s] |}] /\ (s = SText EXTERNAL x \/ s = SEncoded EXTERNAL x) /\
    Forall (fun g => (forall x n, In x (g_news g) -> ~ stage (fst x) n) /\ (g_announce g = false \/ g_sources g = [])) G.
Lemma sole_in room w hint text s s' : sole room w hint text s -> In s' (sources w hint) -> s' = s \/ elsewhere room w s s'.
Proof. intros [[a [b [E H]]] _ _ _ _ _ _ _ _] I. rewrite E in I. apply in_app_or in I as [I|[I|I]]; [right; apply H, in_or_app; auto|left; auto|right; apply H, in_or_app; auto]. Qed.
Lemma sole_short room w hint text s s' : sole room w hint text s -> In s' (sources w hint) -> length (cstr (name_of s')) < room.
Proof. intros H I. destruct (sole_in _ _ _ _ _ _ H I) as [->|[_ [_ [_ X]]]]; [apply (so_name _ _ _ _ _ H)|exact X]. Qed.
Lemma hint_text text : nul_free text -> length text <= HINT_SIZE -> cstr (firstn HINT_SIZE (text ++ [NUL])) = text.
Proof.
  intros HF HL. rewrite firstn_app, (firstn_all2 text) by exact HL. destruct (HINT_SIZE - length text) as [|n]; cbn [firstn].
  - rewrite app_nil_r. apply cstr_id, HF.
  - rewrite firstn_nil. apply cstr_app_nul, HF.
Qed.
Lemma fields_one p s : existsb p s = false -> fields p s = [s].
Proof. induction s as [|c s IH]; [reflexivity|]. cbn [existsb fields]. intros H. apply Bool.orb_false_iff in H as [-> H]. rewrite (IH H). reflexivity. Qed.
Lemma pieces_one sep s : ~ In sep s -> s <> [] -> pieces sep s = [s].
Proof.
  intros N E. unfold pieces. rewrite fields_one. { destruct s; [contradiction|reflexivity]. }
  destruct (existsb _ s) eqn:X; [|reflexivity]. apply existsb_exists in X as [c [A B]]. apply Ascii.eqb_eq in B. subst c. contradiction.
Qed.
Lemma stem_free p : ~ In NUL p -> ~ In NUL (stem p).
Proof.
  intros H. unfold stem. destruct (beqb p _); [exact H|]. destruct (cut_last _ p) as [[a ext]|] eqn:E; [|exact H]. destruct a as [|x a]; [exact H|]. destruct (existsb _ ext); [exact H|].
  apply cut_last_some in E as [-> _]. intros X. apply H, in_or_app. left. exact X.
Qed.
Lemma file_given w path text : on_disk w path text -> forall t t' x, given w t t' (SFile path) x -> cstr path = path -> x = text.
Proof.
  intros [L D] t t' x [i [_ G]] C. inversion G as [p f F| | |]; subst. rewrite C in F. destruct (D i) as [_ F']. rewrite F in F'. injection F' as ->. cbn [f_size f_data].
  rewrite firstn_all2; [reflexivity|]. unfold HINT_SIZE in L. rewrite N2Nat.inj_min, Nat2N.id. lia.
Qed.
Lemma last_app {A} (l l' : list A) d : l' <> [] -> last (l ++ l') d = last l' d.
Proof. intros H. induction l as [|x l IH]; [reflexivity|]. cbn [app last]. rewrite IH. destruct l; cbn [app]; [destruct l'; [contradiction|reflexivity]|reflexivity]. Qed.
(** ** The groups that are searched in vain *)
Definition near (w : world) : list group := if w_near_module w then [{| g_news := []; g_announce := false; g_sources := module_sources w |}] else [].
Definition vars (w : world) : list group :=
  if w_with_env w then [{| g_news := [(ENVIRONMENT_VARIABLE_NOT_DEFINED, bs "UNDEF")]; g_announce := true; g_sources := [] |};
                        {| g_news := [(ENVIRONMENT_VARIABLE_NOT_DEFINED, LOCATION)]; g_announce := false; g_sources := [] |}] else [].
Lemma vars_groups w hint : no_variables w -> exists rest, groups w hint = near w ++ vars w ++ rest /\
  rest = match hint with None => [] | Some l => [{| g_news := match cstr (firstn HINT_SIZE (loc_data l)) with [] => [] | _ => [(LICENSE_SPECIFIED, EXTERNAL)] end; g_announce := true; g_sources := hint_sources hint |}] end.
Proof.
  intros V. eexists. split; [|reflexivity]. unfold groups, near, vars. f_equal. f_equal. destruct (w_with_env w) eqn:E; [|reflexivity]. destruct (V E) as [V1 V2].
  change (bs "LICENSE_LOCATION") with LOCATION in V1. change (bs "LICENSE_DATA") with DATA in V2. unfold location_sources, data_sources. rewrite V1, V2. reflexivity.
Qed.
Lemma near_sources room w s : none_beside room w -> 4 < room -> (exists i, listed w s i = true) -> (forall p, s = SFile p -> cstr p = p) -> (forall n x, s <> SNamed n x) -> (forall n x, s = SText n x \/ s = SEncoded n x -> n = EXTERNAL) ->
  (forall s', In s' (flat_map g_sources (near w)) -> elsewhere room w s s').
Proof.
  intros NB HR [i Li] Cs Ns Ex s' I. unfold near in I. destruct (w_near_module w) eqn:E; [|destruct I]. cbn [flat_map g_sources] in I. rewrite app_nil_r in I. unfold module_sources in I. destruct (w_module w) as [program|] eqn:M; [|destruct I].
  destruct (NB E program M) as [F [L [L' D]]]. rewrite firstn_all2 in I by exact L. rewrite (cstr_id program) in I by (apply nul_free_in, F). destruct I as [<-|[]].
  assert (Fc : nul_free (stem program ++ bs ".lic")). { apply nul_free_in. intros X. apply in_app_or in X as [X|X]; [destruct (stem_free _ F X)|]. repeat (destruct X as [X|X]; [discriminate X|]). destruct X. }
  split; [eauto|]. cbn [name_of listed]. rewrite (cstr_id _ Fc). split; [|split; [exact D|exact L']].
  assert (END : forall x, stem program ++ bs ".lic" = x -> last x NUL = "c"%char) by (intros x <-; rewrite last_app; [reflexivity|discriminate]).
  destruct s as [p|n x|n x|n x]; cbn [name_of listed] in *.
  - intros X. rewrite <- X, D in Li. discriminate.
  - intros X. rewrite (Ex n x (or_introl eq_refl)) in X. apply END in X. discriminate X.
  - intros X. rewrite (Ex n x (or_intror eq_refl)) in X. apply END in X. discriminate X.
  - destruct (Ns n x eq_refl).
Qed.
Lemma near_none k w : Forall (told_none k) (near w).
Proof. unfold near. destruct (w_near_module w); constructor; [intros x []|constructor]. Qed.
Lemma vars_none k w : k <> LOCATION -> k <> bs "UNDEF" -> Forall (told_none k) (vars w).
Proof. intros A B. unfold vars. destruct (w_with_env w); constructor; [|constructor; [|constructor]]; intros x [<-|[]]; left; (split; [cbn [snd]; congruence|reflexivity]). Qed.
Lemma vars_sources w : flat_map g_sources (vars w) = [].
Proof. unfold vars. destruct (w_with_env w); reflexivity. Qed.
Lemma near_quiet w : Forall (fun g => (forall x n, In x (g_news g) -> ~ stage (fst x) n) /\ (g_announce g = false \/ g_sources g = [])) (near w).
Proof. unfold near. destruct (w_near_module w); constructor; [|constructor]. split; [intros x n []|left; reflexivity]. Qed.
Lemma vars_quiet w : Forall (fun g => (forall x n, In x (g_news g) -> ~ stage (fst x) n) /\ (g_announce g = false \/ g_sources g = [])) (vars w).
Proof. unfold vars. destruct (w_with_env w); constructor; [|constructor; [|constructor]]; (split; [intros x n [<-|[]] T; inversion T|auto]). Qed.
Lemma no_data w : no_variables w -> w_with_env w = true -> variable w DATA <> None -> w_getenv w LOCATION <> None.
Proof. intros V E H. destruct (V E) as [_ V2]. change (bs "LICENSE_DATA") with DATA in V2. contradiction. Qed.

Lemma reaches_sole room w text hint : 18 < room -> text <> [] -> nul_free text -> reaches room w text hint -> exists s, sole room w hint text s /\ stands_out w hint s.
Proof.
  intros HR HT HF R. destruct R as [NB V L|code rest NB V L F D Dd|path NB V Hne F Sc X L L' D|program path N V M F L -> L' D|path NB E G G' Hne F Sc X L D].
  - destruct (vars_groups w (Some {| loc_type := 1; loc_data := text ++ [NUL] |}) V) as [rest [Gs Er]]. cbn [hint_sources loc_type loc_data] in Er. rewrite hint_text in Er by assumption.
    assert (Er' : rest = [{| g_news := [(LICENSE_SPECIFIED, EXTERNAL)]; g_announce := true; g_sources := [SText EXTERNAL text] |}]) by (destruct text; [contradiction|exact Er]). clear Er. subst rest.
    exists (SText EXTERNAL text). split; [constructor; try discriminate|].
    + exists (flat_map g_sources (near w)), []. split; [unfold sources; rewrite Gs, !flat_map_app, vars_sources; reflexivity|]. rewrite app_nil_r. apply near_sources; [exact NB|lia|exists 0; reflexivity|discriminate|discriminate|].
      intros n x [Y|Y]; [injection Y as <- _; reflexivity|discriminate Y].
    + reflexivity.
    + intros t t' x G. inversion G; reflexivity.
    + change (length (cstr (name_of (SText EXTERNAL text)))) with 18. exact HR.
    + intros l [= <-]. split; [apply in_or_app; right; left; reflexivity|cbn; auto].
    + apply no_data, V.
    + rewrite Gs. apply Forall_app. split; [apply near_none|]. apply Forall_app. split; [apply vars_none; discriminate|]. constructor; [|constructor]. intros x [<-|[]]. right. reflexivity.
    + right. exists (near w ++ vars w), text. split; [rewrite <- app_assoc; exact Gs|]. split; [left; reflexivity|]. apply Forall_app. split; [apply near_quiet|apply vars_quiet].
  - assert (Fc : nul_free code) by (apply nul_free_in, F). assert (Hc : code <> []) by (intros ->; unfold decoded in Dd; cbn in Dd; destruct text; discriminate Dd).
    destruct (vars_groups w (Some {| loc_type := 2; loc_data := code ++ [NUL] |}) V) as [rest' [Gs Er]]. cbn [hint_sources loc_type loc_data] in Er. rewrite hint_text in Er by assumption.
    assert (Er' : rest' = [{| g_news := [(LICENSE_SPECIFIED, EXTERNAL)]; g_announce := true; g_sources := [SEncoded EXTERNAL code] |}]) by (destruct code; [contradiction|exact Er]). clear Er. subst rest'.
    exists (SEncoded EXTERNAL code). split; [constructor; try discriminate|].
    + exists (flat_map g_sources (near w)), []. split; [unfold sources; rewrite Gs, !flat_map_app, vars_sources; reflexivity|]. rewrite app_nil_r. apply near_sources; [exact NB|lia|exists 0; reflexivity|discriminate|discriminate|].
      intros n x [Y|Y]; [discriminate Y|injection Y as <- _; reflexivity].
    + reflexivity.
    + intros t t' x G. inversion G; subst. rewrite Dd. apply cstr_app_nul, HF.
    + change (length (cstr (name_of (SEncoded EXTERNAL code)))) with 18. exact HR.
    + intros n e [= <- <-]. split; [exact D|]. rewrite Dd. apply in_or_app. right. left. reflexivity.
    + intros l [= <-]. split; [apply in_or_app; right; left; reflexivity|cbn; auto].
    + apply no_data, V.
    + rewrite Gs. apply Forall_app. split; [apply near_none|]. apply Forall_app. split; [apply vars_none; discriminate|]. constructor; [|constructor]. intros x [<-|[]]. right. reflexivity.
    + right. exists (near w ++ vars w), code. split; [rewrite <- app_assoc; exact Gs|]. split; [right; reflexivity|]. apply Forall_app. split; [apply near_quiet|apply vars_quiet].
  - assert (Fc : nul_free path) by (apply nul_free_in, F). assert (X1 : path <> EXTERNAL /\ path <> LOCATION /\ path <> bs "UNDEF") by (repeat split; intros ->; apply X; cbn [In]; auto). destruct X1 as [X1 [X2 X3]].
    destruct (vars_groups w (Some {| loc_type := 0; loc_data := path ++ [NUL] |}) V) as [rest' [Gs Er]]. cbn [hint_sources loc_type loc_data] in Er. rewrite hint_text in Er by assumption. change (Z.eqb 0 0) with true in Er. cbv iota in Er. rewrite pieces_one in Er by assumption. cbn [map] in Er.
    assert (Er' : rest' = [{| g_news := [(LICENSE_SPECIFIED, EXTERNAL)]; g_announce := true; g_sources := [SFile path] |}]) by (destruct (beqb path EXTERNAL) eqn:B; [apply beqb_eq in B; contradiction|]; destruct path; [contradiction|exact Er]). clear Er. subst rest'.
    assert (Li : forall i, listed w (SFile path) i = true) by (intros i; cbn [listed]; rewrite cstr_id by exact Fc; apply D).
    exists (SFile path). split; [constructor; try discriminate|].
    + exists (flat_map g_sources (near w)), []. split; [unfold sources; rewrite Gs, !flat_map_app, vars_sources; reflexivity|]. rewrite app_nil_r. apply near_sources; [exact NB|lia|exists 0; apply Li|intros p [= <-]; apply cstr_id, Fc|discriminate|].
      intros n x [Y|Y]; discriminate Y.
    + exact Li.
    + intros t t' x G. apply (file_given _ _ _ D t t' x G), cstr_id, Fc.
    + cbn [name_of]. rewrite cstr_id by exact Fc. exact L.
    + intros p [= <-] j. rewrite cstr_id by exact Fc. destruct D as [_ D]. destruct (D j) as [_ ->]. discriminate.
    + intros l [= <-]. split; [apply in_or_app; right; left; reflexivity|cbn; auto].
    + apply no_data, V.
    + cbn [name_of]. rewrite cstr_id by exact Fc. rewrite Gs. apply Forall_app. split; [apply near_none|]. apply Forall_app. split; [apply vars_none; assumption|]. constructor; [|constructor]. intros x [<-|[]]. right. reflexivity.
    + left. eauto.
  - set (path := stem program ++ bs ".lic") in *. assert (Fp : nul_free program) by (apply nul_free_in, F).
    assert (Fc : nul_free path). { apply nul_free_in. intros X. apply in_app_or in X as [X|X]; [destruct (stem_free _ F X)|]. repeat (destruct X as [X|X]; [discriminate X|]). destruct X. }
    assert (END : forall x, path = x -> last x NUL = "c"%char) by (intros x <-; unfold path; rewrite last_app; [reflexivity|discriminate]).
    destruct (vars_groups w None V) as [rest' [Gs ->]].
    assert (Gn : flat_map g_sources (near w) = [SFile path]) by (unfold near; rewrite N; cbn [flat_map g_sources app]; unfold module_sources; rewrite M; rewrite firstn_all2 by exact L; rewrite (cstr_id program) by exact Fp; reflexivity).
    exists (SFile path). split; [constructor; try discriminate|].
    + exists [], []. split; [unfold sources; rewrite Gs, !flat_map_app, vars_sources, Gn; reflexivity|intros s' []].
    + intros i. cbn [listed]. rewrite cstr_id by exact Fc. apply D.
    + intros t t' x G. apply (file_given _ _ _ D t t' x G), cstr_id, Fc.
    + cbn [name_of]. rewrite cstr_id by exact Fc. exact L'.
    + intros p [= <-] j. rewrite cstr_id by exact Fc. destruct D as [_ D]. destruct (D j) as [_ ->]. discriminate.
    + apply no_data, V.
    + cbn [name_of]. rewrite cstr_id by exact Fc. rewrite Gs. apply Forall_app. split; [apply near_none|]. apply Forall_app. split; [|constructor]. apply vars_none; intros Y; apply END in Y; discriminate Y.
    + left. eauto.
  - assert (Fc : nul_free path) by (apply nul_free_in, F).
    assert (V : variable w LOCATION = Some path) by (unfold variable; change LOCATION with (bs "LICENSE_LOCATION"); rewrite G; destruct path; [contradiction|reflexivity]).
    change (bs "LICENSE_DATA") with DATA in G'.
    assert (Gs : groups w None = near w ++ [{| g_news := []; g_announce := true; g_sources := [SFile path] |}; {| g_news := [(ENVIRONMENT_VARIABLE_NOT_DEFINED, LOCATION)]; g_announce := false; g_sources := [] |}]).
    { unfold groups, near. f_equal. rewrite E. unfold location_sources, data_sources. rewrite V, G', pieces_one by assumption. reflexivity. }
    assert (Li : forall i, listed w (SFile path) i = true) by (intros i; cbn [listed]; rewrite cstr_id by exact Fc; apply D).
    exists (SFile path). split; [constructor; try discriminate|].
    + exists (flat_map g_sources (near w)), []. split; [unfold sources; rewrite Gs, flat_map_app; reflexivity|]. rewrite app_nil_r. apply near_sources; [exact NB|lia|exists 0; apply Li|intros p [= <-]; apply cstr_id, Fc|discriminate|].
      intros n x [Y|Y]; discriminate Y.
    + exact Li.
    + intros t t' x Gv. apply (file_given _ _ _ D t t' x Gv), cstr_id, Fc.
    + cbn [name_of]. rewrite cstr_id by exact Fc. exact L.
    + intros p [= <-] j. rewrite cstr_id by exact Fc. destruct D as [_ D]. destruct (D j) as [_ ->]. discriminate.
    + congruence.
    + cbn [name_of]. rewrite cstr_id by exact Fc. rewrite Gs. apply Forall_app. split; [apply near_none|]. constructor; [intros x []|constructor; [|constructor]]. intros x [<-|[]]. left. split; [intros Y; apply X; symmetry; exact Y|reflexivity].
    + left. eauto.
Qed.
