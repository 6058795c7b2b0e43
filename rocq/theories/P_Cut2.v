(** The signed text of a license that is cut short. *)
From Coq Require Import Lia Sorted Permutation.
From Verif Require Import Base P_Base CTypes StringUtils Ini Licensecc P_Ini Spec_Ini Spec_Strings Spec_Acquire P_Text P_Acquire2 P_Signature Spec_Cut P_Cut.

Lemma span_begins f a b : begins a b -> begins (fst (span f a)) (fst (span f b)).
Proof.
  intros (t & ->). induction a as [|c a IH]; [apply begins_nil|]. cbn [app span]. destruct (f c); [|apply begins_refl].
  destruct (span _ a) as [x y]. destruct (span _ (a ++ t)) as [z w]. apply begins_cons. exact IH.
Qed.
(** *** names that occur once *)
Lemma distinct_head (a b : list (bytes * bytes)) : distinct_names (a ++ b) -> distinct_names a.
Proof.
  induction a as [|[n v] a IH]; [intros; exact I|]. cbn [app distinct_names]. intros [H D]. split; [|apply IH, D]. intros n' v' Hin. apply (H n' v'). apply in_or_app. left. exact Hin.
Qed.
Lemma distinct_value (a b : list (bytes * bytes)) k v v' : distinct_names (a ++ (k, v) :: b) -> distinct_names (a ++ (k, v') :: b).
Proof.
  induction a as [|[n u] a IH]; cbn [app distinct_names]; [intros [H D]; split; assumption|]. intros [H D]. split; [|apply IH, D].
  intros n' u' Hin. apply in_app_or in Hin as [Hin|[E|Hin]]; [apply (H n' u'); apply in_or_app; left; exact Hin| |apply (H n' u'); apply in_or_app; right; right; exact Hin].
  injection E as <- <-. apply (H k v). apply in_or_app. right. left. reflexivity.
Qed.
Lemma cut_distinct es' es : cut_entries es' es -> distinct_names es -> distinct_names es'.
Proof.
  intros [a b|a b k v v' B] D; [apply (distinct_head a b D)|]. apply (distinct_value _ _ _ _ v') in D. apply (distinct_head _ b). rewrite <- app_assoc. exact D.
Qed.
Lemma distinct_nodup (es : list (bytes * bytes)) : distinct_names es -> NoDup es.
Proof.
  induction es as [|[k v] es IH]; [constructor|]. cbn [distinct_names]. intros [H D]. constructor; [|apply IH, D]. intros Hin. apply (H _ _ Hin). reflexivity.
Qed.
Lemma limits_nodup es m : limits_of es m -> NoDup m.
Proof.
  intros [S _]. induction S as [|[k v] m S IH F]; constructor; [|exact IH]. intros X. rewrite Forall_forall in F. specialize (F _ X). cbn [fst] in F. rewrite bcmp_refl in F. discriminate.
Qed.
Lemma limits_perm_of es m : distinct_names es -> limits_of es m -> Permutation es m.
Proof.
  intros D L. apply NoDup_Permutation; [apply distinct_nodup, D|apply (limits_nodup es m L)|]. intros [k v]. destruct L as [_ L]. rewrite L. symmetry. apply exact_in, D.
Qed.
(** *** the length of a signed text *)
Definition weigh (e : bytes * bytes) : nat := if beqb (fst e) (bs "sig") then 0 else length (trimmed (fst e)) + length (trimmed (snd e)).
Definition weight (es : list (bytes * bytes)) : nat := list_sum (map weigh es).
Lemma weight_app a b : weight (a ++ b) = weight a + weight b.
Proof. unfold weight. rewrite map_app. apply list_sum_app. Qed.
Lemma weight_perm a b : Permutation a b -> weight a = weight b.
Proof. intros P. unfold weight. induction P; cbn [map list_sum fold_right] in *; unfold list_sum in *; cbn [fold_right] in *; lia. Qed.
Lemma signed_length f m : length (signed_text f m) = length (upper (trimmed f)) + weight m.
Proof.
  rewrite signed_eq, app_length. f_equal. induction m as [|[k v] m IH]; [reflexivity|]. unfold kept in *. cbn [filter fst]. unfold weight in *. cbn [map list_sum fold_right]. unfold weigh at 1. cbn [fst snd].
  destruct (beqb k (bs "sig")); cbn [negb]; [exact IH|]. cbn [map concat]. rewrite app_length, IH. unfold piece. cbn [fst snd]. rewrite app_length. reflexivity.
Qed.
Lemma same_weight f es es' m m' : distinct_names es -> distinct_names es' -> limits_of es m -> limits_of es' m' -> signed_text f m = signed_text f m' -> weight es = weight es'.
Proof.
  intros D D' L L' E. rewrite (weight_perm _ _ (limits_perm_of _ _ D L)), (weight_perm _ _ (limits_perm_of _ _ D' L')). apply (f_equal (@length _)) in E. rewrite !signed_length in E. lia.
Qed.
(** nothing but a signature is lost when the weight stays *)
Lemma cut_weight es' es : cut_entries es' es -> tidy_entries es -> weight es = weight es' -> (forall k v, k <> bs "sig" -> In (k, v) es <-> In (k, v) es').
Proof.
  assert (Z : forall b, (forall k v, In (k, v) b -> k <> [] /\ trimmed k = k /\ trimmed v = v) -> weight b = 0 -> forall k v, k <> bs "sig" -> ~ In (k, v) b).
  { induction b as [|[k0 v0] b IH]; intros T W k v NS; [intros []|]. change (weight ((k0, v0) :: b)) with (weigh (k0, v0) + weight b) in W. intros [E|Hin].
    - injection E as -> ->. unfold weigh in W. cbn [fst snd] in W. destruct (T k v (or_introl eq_refl)) as (NE & TK & _). destruct (beqb_spec k (bs "sig")) as [Y|Y]; [congruence|]. rewrite TK in W. destruct k; [congruence|]. cbn in W. lia.
    - apply (IH (fun k v H => T k v (or_intror H))) with (k := k) (v := v); [lia|exact NS|exact Hin]. }
  intros [a b|a b k0 v0 v0' (t & ->)] T W k v NS.
  - rewrite weight_app in W. rewrite in_app_iff. assert (B : ~ In (k, v) b) by (apply (Z b); [intros k1 v1 H; apply T, in_or_app; right; exact H|lia|exact NS]). tauto.
  - rewrite !weight_app in W. change (weight ((k0, v0' ++ t) :: b)) with (weigh (k0, v0' ++ t) + weight b) in W. change (weight [(k0, v0')]) with (weigh (k0, v0') + 0) in W.
    destruct (T k0 (v0' ++ t) ltac:(apply in_or_app; right; left; reflexivity)) as (NE & TK & TV). unfold weigh in W. cbn [fst snd] in W. rewrite TV, app_length in W.
    assert (LE : length (trimmed v0') <= length v0').
    { rewrite trimmed_eq. clear. rewrite <- trimmed_eq. unfold trimmed. rewrite rev_length. assert (U : forall p s, length (unlead p s) <= length s) by (intros p s; induction s as [|c s IH]; cbn [unlead]; [lia|]; destruct (p c); cbn [length]; lia). pose proof (U (fun c => blankb c || Ascii.eqb c "000"%char) (rev (unlead blankb v0'))) as A. rewrite rev_length in A. pose proof (U blankb v0'). lia. }
    assert (NB : weight b = 0) by (destruct (beqb k0 (bs "sig")); lia). assert (B : ~ In (k, v) b) by (apply (Z b); [intros k1 v1 H; apply T, in_or_app; right; right; exact H|exact NB|exact NS]).
    rewrite !in_app_iff. cbn [In]. destruct (beqb_spec k0 (bs "sig")) as [->|NK].
    + split; [intros [H|[E|H]]; [left; exact H|congruence|contradiction]|intros [H|[E|[]]]; [left; exact H|congruence]].
    + assert (t = []) as -> by (destruct t; [reflexivity|cbn in W; lia]). rewrite app_nil_r. tauto.
Qed.
Lemma last_in es key v : distinct_names es -> (last_value es key = Some v <-> exists k, In (k, v) es /\ same_name k key).
Proof.
  induction es as [|[k0 v0] es IH]; [cbn; intros _; split; [discriminate|intros (k & [] & _)]|]. cbn [distinct_names last_value]. intros [H D]. specialize (IH D).
  assert (S : forall k, same_nameb k key = true <-> same_name k key) by (intros k; unfold same_nameb, same_name; rewrite beqb_eq; reflexivity). split.
  - destruct (last_value es key) as [u|] eqn:E; [intros X; injection X as ->; destruct (proj1 IH eq_refl) as (k & Hin & N); exists k; split; [right; exact Hin|exact N]|].
    destruct (same_nameb k0 key) eqn:N; [|discriminate]. intros X. injection X as ->. exists k0. split; [left; reflexivity|apply S, N].
  - intros (k & [E|Hin] & N).
    + injection E as -> ->. destruct (last_value es key) as [u|] eqn:E.
      * exfalso. clear IH. assert (X : exists k', In (k', u) es /\ same_name k' key).
        { clear H D. induction es as [|[k1 v1] es IH]; [discriminate|]. cbn [last_value] in E. destruct (last_value es key) eqn:F; [injection E as ->; destruct (IH eq_refl) as (k' & A & B); exists k'; split; [right; exact A|exact B]|].
          destruct (same_nameb k1 key) eqn:G; [|discriminate]. injection E as ->. exists k1. split; [left; reflexivity|apply S, G]. }
        destruct X as (k' & A & B). apply (H k' u A). unfold same_name in *. congruence.
      * apply S in N. rewrite N. reflexivity.
    + rewrite (proj2 IH (ex_intro _ k (conj Hin N))). reflexivity.
Qed.
