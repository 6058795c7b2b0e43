(** Loading entries into an INI object that is empty. *)
From Coq Require Import Lia.
From Verif Require Import Base P_Base CTypes StringUtils P_Strings Ini Spec_Ini P_Ini P_IniSave IniBuf P_IniBuf P_IniBuf2 Spec_IniEdit Spec_IniText P_IniDoc P_IniText.

(** the values of a key among entries *)
Definition entry_of (sec : bytes) (e : bytes * option (bytes * bytes)) : list (bytes * bytes) :=
  match e with (s, Some (k, v)) => if same_nameb s sec then [(k, v)] else [] | _ => [] end.
Definition loaded_values (sec key : bytes) (es : list (bytes * option (bytes * bytes))) : list bytes := key_values key (flat_map (entry_of sec) es).
Lemma kept_values b l items sec key : Forall2 (item_rel b) l items -> Forall (fun i => match i with IEntry SecBroken _ _ => False | _ => True end) items ->
  loaded_values sec key (map snd l) = key_values key (flat_map (item_entries sec) items).
Proof.
  intros F N. unfold loaded_values. f_equal. induction F as [|[e s] i l items H _ IH]; [reflexivity|]. cbn [map flat_map]. rewrite IH by exact (Forall_inv_tail N). f_equal. clear IH. pose proof (Forall_inv N) as X. destruct i as [n|[n|] k v]; cbn [item_rel snd] in H.
  - destruct H as (_ & _ & ->). reflexivity.
  - destruct H as (pk & pv & m & _ & _ & _ & _ & E & ->). cbn in E. subst m. reflexivity.
  - destruct X.
Qed.
Definition vals (sec key : bytes) (d : edoc) : list bytes := map l_value (values_of sec key d).
Lemma vals_none sec key s c d : vals sec key (set_doc s None c false d) = vals sec key d.
Proof. unfold vals. rewrite !values_at, lines_set_section, set_multi_same. reflexivity. Qed.
Lemma vals_some sec key s k v c d : vals sec key (set_doc s (Some (k, v)) c false d) =
  if same_nameb s sec && same_nameb k key then (if d_multi d then vals sec key d ++ [v] else [v]) else vals sec key d.
Proof.
  unfold vals. destruct (same_nameb s sec) eqn:S0; cbn [andb].
  - apply same_is in S0. rewrite <- !(values_congr s sec key key _ S0 eq_refl). destruct (same_nameb k key) eqn:K0.
    + apply same_is in K0. rewrite <- !(values_congr s s k key _ eq_refl K0). rewrite !values_at, set_multi_same, lines_set_same, give_same.
      destruct (d_multi d), (filter (of_key k) (lines_at s d)) as [|a r]; try reflexivity. rewrite map_app. reflexivity.
    + rewrite !values_at, set_multi_same, lines_set_same, give_other; [reflexivity|]. intros X. apply same_is in X. congruence.
  - rewrite !values_at, set_multi_same, lines_set_other; [reflexivity|]. intros X. apply same_is in X. congruence.
Qed.
Lemma loaded_cons sec key s k v es : loaded_values sec key ((s, Some (k, v)) :: es) = (if same_nameb s sec && same_nameb k key then [v] else []) ++ loaded_values sec key es.
Proof. unfold loaded_values. cbn [flat_map entry_of]. rewrite key_values_app. f_equal. destruct (same_nameb s sec); [|reflexivity]. unfold key_values. cbn [filter fst andb]. destruct (same_nameb k key); reflexivity. Qed.
Lemma load_multi sec key es : forall d, d_multi d = true -> vals sec key (load_doc es d) = vals sec key d ++ loaded_values sec key (map fst es).
Proof.
  induction es as [|[[s [[k v]|]] c] es IH]; intros d M; cbn [load_doc map fst]; [rewrite app_nil_r; reflexivity| |].
  - rewrite IH by (rewrite set_multi_same; exact M). rewrite vals_some, M, loaded_cons. destruct (same_nameb s sec && same_nameb k key); [rewrite <- app_assoc|]; reflexivity.
  - rewrite IH by (rewrite set_multi_same; exact M). rewrite vals_none. reflexivity.
Qed.
Lemma load_single sec key es : forall d, d_multi d = false -> vals sec key (load_doc es d) = match rev (loaded_values sec key (map fst es)) with [] => vals sec key d | v :: _ => [v] end.
Proof.
  induction es as [|[[s [[k v]|]] c] es IH]; intros d M; cbn [load_doc map fst]; [reflexivity| |].
  - rewrite IH by (rewrite set_multi_same; exact M). rewrite vals_some, M, loaded_cons. destruct (same_nameb s sec && same_nameb k key); [|reflexivity]. cbn [app rev]. destruct (rev (loaded_values sec key (map fst es))); reflexivity.
  - rewrite IH by (rewrite set_multi_same; exact M). rewrite vals_none. reflexivity.
Qed.
Lemma load_empty sec key es d : d_parts d = [] -> (d_multi d = true \/ length (loaded_values sec key (map fst es)) <= 1) -> vals sec key (load_doc es d) = loaded_values sec key (map fst es).
Proof.
  intros P H. assert (V : vals sec key d = []) by (unfold vals, values_of, part_of; rewrite P; reflexivity). destruct (d_multi d) eqn:M.
  - rewrite load_multi, V by exact M. reflexivity.
  - destruct H as [H|H]; [discriminate|]. rewrite load_single, V by exact M. destruct (loaded_values sec key (map fst es)) as [|a [|b r]]; [reflexivity|reflexivity|cbn in H; lia].
Qed.
