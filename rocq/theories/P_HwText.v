(** What identifier texts denote: HwId.v against Spec_HwId. *)
From Verif Require Import Base CTypes Base64 HwId P_Base Spec_Strings Spec_Base64 Spec_HwId P_Base64 P_Decode.

Lemma hw_of_bytes_iff b h : hw_of_bytes b = Some h <-> b = eight_bytes h.
Proof.
  split.
  - destruct b as [|b0 [|b1 [|b2 [|b3 [|b4 [|b5 [|b6 [|b7 [|]]]]]]]]]; cbn; try discriminate. intros [= <-]. reflexivity.
  - intros ->. destruct h. reflexivity.
Qed.
Lemma hw_of_string_eq text : hw_of_string text = (d <-- unbase64 (undashed text) ;; match hw_of_bytes d with Some h => Ok h | None => Throw ExLogic end).
Proof. reflexivity. Qed.
Lemma denotes_iff text h : hw_of_string text = Ok h <-> denotes text h.
Proof.
  rewrite hw_of_string_eq. unfold denotes. split.
  - intros H. apply rbind_ok in H as [d [E H]]. apply unbase64_ok in E as [E ->]. split; [exact E|]. apply hw_of_bytes_iff.
    destruct (hw_of_bytes (decoded (undashed text))) as [h'|]; [injection H as ->; reflexivity|discriminate].
  - intros [D E]. rewrite (proj2 (unbase64_ok _ (decoded (undashed text)))) by (split; [exact D|reflexivity]). cbn [rbind].
    rewrite (proj2 (hw_of_bytes_iff _ h) E). reflexivity.
Qed.
Lemma denotes_fun text h h' : denotes text h -> denotes text h' -> h = h'.
Proof. rewrite <- !denotes_iff. intros -> [= ->]. reflexivity. Qed.
(** the other outcomes *)
Lemma hw_of_string_undef text u : hw_of_string text = Undef u <-> over_read (undashed text) /\ u = UbRead.
Proof.
  rewrite hw_of_string_eq. destruct (unbase64_outcome (undashed text)) as [[O E]|[[O E]|[O E]]]; rewrite E; cbn [rbind].
  - split; [intros [= <-]; auto|intros [_ ->]; reflexivity].
  - split; [discriminate|]. intros [[_ [X _]] _]. congruence.
  - split; [destruct (hw_of_bytes _); discriminate|]. intros [X _]. destruct O as [O _]. contradiction.
Qed.
Lemma hw_of_string_throw text : (exists e, hw_of_string text = Throw e) <-> ~ over_read (undashed text) /\ forall h, ~ denotes text h.
Proof.
  rewrite hw_of_string_eq. destruct (unbase64_outcome (undashed text)) as [[O E]|[[O E]|[O E]]]; rewrite E; cbn [rbind].
  - split; [intros [e [=]]|]. tauto.
  - split; [|eauto]. intros _. split; [intros [_ [X _]]; congruence|]. intros h [[_ X] _]. congruence.
  - split.
    + intros [e H]. split; [apply O|]. intros h D. apply denotes_iff in D. rewrite hw_of_string_eq, E in D. cbn [rbind] in D. congruence.
    + intros [_ H]. destruct (hw_of_bytes (decoded (undashed text))) as [h|] eqn:Eh; [|eauto]. exfalso. apply (H h). apply denotes_iff.
      rewrite hw_of_string_eq, E. cbn [rbind]. rewrite Eh. reflexivity.
Qed.
Lemma undashed_dashes text : undashed text = map (fun c => if Ascii.eqb c "-"%char then LF else c) text.
Proof. reflexivity. Qed.
