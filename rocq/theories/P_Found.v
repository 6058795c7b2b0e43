(** found (Spec_Found) in the terms of P_Delivery *)
From Verif Require Import Base CTypes StringUtils Dates Base64 HwId Registry Ini Network Disks ExecEnv Strategies Locate Licensecc.
From Verif Require Import P_Base Spec_Strings Spec_Base64 P_Text Spec_Registry P_Registry Spec_Acquire P_Acquire1 P_Acquire2 Spec_Delivery P_Selected P_Delivery Spec_Found.
From Coq Require Import Lia.

Lemma news_none k w hint : k <> LOCATION -> k <> bs "UNDEF" -> Forall (told_none k) (groups w hint).
Proof.
  intros A B. unfold groups. apply Forall_app. split; [apply (near_none k w)|]. apply Forall_app. split.
  - destruct (w_with_env w); [|constructor]. constructor; [|constructor; [|constructor]]; intros x; cbn [g_news].
    + destruct (variable w LOCATION); intros H; [destruct H|]. destruct H as [<-|[]]. left. split; [intros X; apply B; symmetry; exact X|reflexivity].
    + destruct (variable w DATA) as [d|]; [intros [<-|H]; [right; reflexivity|]|intros H].
      * destruct (looks d); cbn in H; try contradiction. destruct H as [<-|[]]. left. split; [intros X; apply A; symmetry; exact X|reflexivity].
      * destruct H as [<-|[]]. left. split; [intros X; apply A; symmetry; exact X|reflexivity].
  - destruct hint as [l|]; [|constructor]. constructor; [|constructor]. intros x. cbn [g_news]. destruct (cstr _); [intros []|]. intros [<-|[]]. right. reflexivity.
Qed.
Lemma found_sole room w hint text s : 18 < room -> nul_free text -> found room w hint text s -> sole room w hint text s.
Proof.
  intros HR HF [[a [b [E H]]] T D L].
  assert (NM : forall s', missing_file room w s' -> elsewhere room w s s').
  { intros s' [p [-> [F [Lp [Np M]]]]]. assert (Fp : cstr p = p) by (apply cstr_id, nul_free_in, F). split; [eauto|]. cbn [name_of listed]. rewrite Fp. split; [|split; [exact M|exact Lp]].
    destruct s as [q|n x|n e|n x]; cbn [there name_of] in *.
    - destruct T as [Fq [_ [_ [_ Dq]]]]. rewrite (cstr_id q) by (apply nul_free_in, Fq). intros ->. destruct (Dq 0) as [X _]. rewrite M in X. discriminate.
    - destruct T as [-> _]. exact Np.
    - destruct T as [-> _]. exact Np.
    - destruct T. }
  destruct s as [q|n x|n e|n x]; cbn [there] in T; [destruct T as [Fq [Lq [Nq Dq]]]|destruct T as [-> ->]|destruct T as [-> [De [rest Dd]]]|destruct T].
  - assert (Eq : cstr q = q) by (apply cstr_id, nul_free_in, Fq). constructor; try discriminate.
    + exists a, b. split; [exact E|]. intros s' I. apply NM, H, I.
    + intros i. cbn [listed]. rewrite Eq. apply Dq.
    + intros t t' x G. apply (file_given _ _ _ Dq t t' x G), Eq.
    + cbn [name_of]. rewrite Eq. exact Lq.
    + intros p [= <-] j. rewrite Eq. destruct Dq as [_ Dq]. destruct (Dq j) as [_ ->]. discriminate.
    + exact L.
    + exact D.
    + cbn [name_of]. rewrite Eq. apply news_none; intros ->; apply Nq; cbn [In]; auto.
  - constructor; try discriminate.
    + exists a, b. split; [exact E|]. intros s' I. apply NM, H, I.
    + reflexivity.
    + intros t t' x G. inversion G; reflexivity.
    + change (length (cstr (name_of (SText EXTERNAL text)))) with 18. exact HR.
    + exact L.
    + exact D.
    + apply news_none; discriminate.
  - constructor; try discriminate.
    + exists a, b. split; [exact E|]. intros s' I. apply NM, H, I.
    + reflexivity.
    + intros t t' x G. inversion G; subst. rewrite Dd. apply cstr_app_nul, HF.
    + change (length (cstr (name_of (SEncoded EXTERNAL e)))) with 18. exact HR.
    + intros n e' [= <- <-]. split; [exact De|]. rewrite Dd. apply in_or_app. right. left. reflexivity.
    + exact L.
    + exact D.
    + apply news_none; discriminate.
Qed.
