(** Loading texts into an INI object that already holds something. *)
From Coq Require Import Lia.
From Verif Require Import Base P_Base CTypes StringUtils P_Strings Ini Spec_Ini P_Ini P_IniSave IniBuf P_IniBuf P_IniBuf2 Spec_IniBuf Prop_IniBuf IniEdit Spec_IniEdit IniCalls Spec_IniText P_IniEdit11 P_IniDoc P_IniText Prop_IniEdit Prop_IniText
  IniMulti Spec_IniMulti P_IniMulti4 Prop_IniMulti Spec_IniMultiText P_IniMultiText P_IniReload Spec_IniLayers.

Lemma loads_rel ml text es items : loads ml text es -> says ml text items -> exists b l, Forall2 (item_rel b) l items /\ map fst es = map snd l.
Proof.
  intros (com & l & b & E & M) R. exists b, l. split; [|exact M]. destruct ml; cbn [says] in R.
  - destruct (load_ml_copy _ _ R) as (com' & l' & b' & E' & F). rewrite E in E'. injection E' as <- <- <-. exact F.
  - subst items. destruct (load_copy_ok text) as (l' & b' & E' & _ & F & _). apply C106_off in E' as (com' & E'). rewrite E in E'. injection E' as <- <- <-. exact F.
Qed.
Lemma layer_values b l items sec key : ~ line_end_in sec -> Forall2 (item_rel b) l items ->
  loaded_values sec key (map snd l) = values_in items sec key.
Proof.
  intros N F. unfold loaded_values, values_in. change (key_values key (flat_map (entry_of sec) (map snd l)) = key_values key (flat_map (item_entries sec) items)). f_equal. induction F as [|[e s] i l items H _ IH]; [reflexivity|]. cbn [map flat_map]. rewrite IH. f_equal. clear IH. destruct i as [n|[n|] k v]; cbn [item_rel snd] in H.
  - destruct H as (_ & _ & ->). reflexivity.
  - destruct H as (pk & pv & m & _ & _ & _ & _ & E & ->). cbn in E. subst m. reflexivity.
  - destruct H as (pk & pv & m & _ & _ & _ & _ & E & ->). cbn in E. cbn [snd entry_of item_entries]. rewrite (broken_no_match m sec E N). reflexivity.
Qed.
Lemma last_rev es key : last_value es key = hd_error (rev (key_values key es)).
Proof.
  unfold key_values. induction es as [|[k v] es IH]; [reflexivity|]. cbn [last_value filter fst]. rewrite IH. destruct (same_nameb k key); cbn [map rev snd].
  - destruct (rev (map snd (filter _ es))); reflexivity.
  - destruct (hd_error _); reflexivity.
Qed.
Lemma vals_hd sec key d : hd_error (vals sec key d) = option_map l_value (hd_error (values_of sec key d)).
Proof. unfold vals. destruct (values_of sec key d); reflexivity. Qed.
Lemma single_len sec key d : d_multi d = false -> length (vals sec key d) <= 1.
Proof. intros M. unfold vals, values_of. rewrite map_length. destruct (part_of sec d) as [p|]; [|cbn; lia]. rewrite M. rewrite firstn_length. lia. Qed.
(** what CGet answers *)
Lemma get_vals sec key d : fst (expect (CGet (Some sec) (Some key)) d) = Value (hd_error (vals sec key d)) (match vals sec key d with _ :: _ :: _ => true | _ => false end).
Proof. cbn [expect both fst]. unfold vals. destruct (values_of sec key d) as [|a [|b r]]; reflexivity. Qed.
Lemma all_vals sec key d : exists vs, fst (expect (CAll (Some sec) (Some key)) d) = Told vs /\ (match vs with Some vs => map fst vs | None => [] end) = vals sec key d /\ vs <> Some [].
Proof.
  cbn [expect both fst]. unfold vals. destruct (values_of sec key d) as [|a r]; [exists None; repeat split; discriminate|]. exists (Some (map value_told (a :: r))). split; [reflexivity|]. split; [|discriminate]. rewrite map_map. reflexivity.
Qed.
Definition opened (sec : bytes) (e : bytes * option (bytes * bytes)) : bool := same_nameb (fst e) sec.
Lemma layer_sections b l items sec : ~ line_end_in sec -> Forall2 (item_rel b) l items -> existsb (opened sec) (map snd l) = section_in items sec.
Proof.
  intros N F. unfold section_in. induction F as [|[e s] i l items H _ IH]; [reflexivity|]. cbn [map existsb]. rewrite IH. f_equal. clear IH. destruct i as [n|[n|] k v]; cbn [item_rel snd] in H.
  - destruct H as (_ & _ & ->). reflexivity.
  - destruct H as (pk & pv & m & _ & _ & _ & _ & E & ->). cbn in E. subst m. reflexivity.
  - destruct H as (pk & pv & m & _ & _ & _ & _ & E & ->). cbn in E. unfold opened. cbn [fst snd item_opens]. apply (broken_no_match m sec E N).
Qed.
Lemma has_change sec s f ps : (forall p, p_name (f p) = p_name p) -> existsb (of_name sec) (change_first (of_name s) f ps) = existsb (of_name sec) ps.
Proof.
  intros H. induction ps as [|p ps IH]; [reflexivity|]. cbn [change_first]. destruct (of_name s p); cbn [existsb]; [unfold of_name; rewrite H; reflexivity|rewrite IH; reflexivity].
Qed.
Lemma has_with sec s c ps : existsb (of_name sec) (with_part s c ps) = existsb (of_name sec) ps || same_nameb s sec.
Proof.
  unfold with_part. destruct (existsb (of_name s) ps) eqn:E.
  - destruct (same_nameb s sec) eqn:S0; [|rewrite Bool.orb_false_r; reflexivity]. rewrite Bool.orb_true_r. apply same_is in S0. apply existsb_exists in E as (p & I & P). apply existsb_exists. exists p. split; [exact I|]. unfold of_name in *. apply same_is. apply same_is in P. unfold same_name in *. congruence.
  - rewrite existsb_app. cbn [existsb]. unfold of_name at 2. cbn [p_name]. rewrite Bool.orb_false_r. reflexivity.
Qed.
Lemma has_set sec s kv c d : has_section sec (set_doc s kv c false d) = has_section sec d || same_nameb s sec.
Proof.
  unfold has_section, set_doc. destruct kv as [[k v]|]; cbn [d_parts with_parts]; [|apply has_with]. rewrite has_change by reflexivity. apply has_with.
Qed.
Lemma has_load sec es : forall d, has_section sec (load_doc es d) = has_section sec d || existsb (opened sec) (map fst es).
Proof.
  induction es as [|[[s kv] c] es IH]; intros d; cbn [load_doc map fst existsb]; [rewrite Bool.orb_false_r; reflexivity|]. rewrite IH, has_set. unfold opened at 2. cbn [fst]. rewrite Bool.orb_assoc. reflexivity.
Qed.
