From Verif Require Import Base CTypes StringUtils Network Disks P_Base P_Strings Spec_Disks P_Disks P_Blkid.

Lemma cut_eq {A} (a b a' b' : list A) : a ++ b = a' ++ b' -> length a <= length a' -> exists t, a' = a ++ t /\ b = t ++ b'.
Proof.
  revert a'; induction a as [|x a IH]; intros a' E L.
  - exists a'. split; [reflexivity|exact E].
  - destruct a' as [|x' a']; [cbn in L; lia|]. cbn in E, L. injection E as <- E. destruct (IH a' E ltac:(lia)) as [t [-> ->]]. exists t. auto.
Qed.

Lemma first_fresh (c : ascii) (n s rest : bytes) : ~ In c n -> (forall a b, s <> a ++ (c :: n) ++ b) -> first_at (c :: n) (s ++ (c :: n) ++ rest) s rest.
Proof.
  intros Hc Hs. split; [reflexivity|]. intros a' b' E. destruct (Nat.le_gt_cases (length s) (length a')) as [L|L]; [exact L|]. exfalso.
  symmetry in E. destruct (cut_eq _ _ _ _ E ltac:(lia)) as [t [-> Et]].
  destruct (Nat.le_gt_cases (length (c :: n)) (length t)) as [Lt|Lt].
  - destruct (cut_eq _ _ _ _ Et Lt) as [u [-> _]]. apply (Hs a' u). reflexivity.
  - symmetry in Et. destruct (cut_eq _ _ _ _ Et ltac:(lia)) as [u [Eu E2]]. destruct t as [|x t]; [rewrite app_nil_r in L; lia|].
    destruct u as [|y u]; [rewrite app_nil_r in Eu; rewrite Eu in Lt; lia|].
    cbn in E2, Eu. injection E2 as <- _. injection Eu as _ Eu. apply Hc. rewrite Eu. apply in_elt.
Qed.
Lemma fresh_prefix (c : ascii) (n pre s : bytes) : ~ In c pre -> (forall a b, s <> a ++ (c :: n) ++ b) -> forall a b, pre ++ s <> a ++ (c :: n) ++ b.
Proof.
  intros Hp Hs a b E. destruct (Nat.le_gt_cases (length pre) (length a)) as [L|L].
  - destruct (cut_eq _ _ _ _ E L) as [t [-> ->]]. eapply Hs. reflexivity.
  - symmetry in E. destruct (cut_eq _ _ _ _ E ltac:(lia)) as [t [-> Et]]. destruct t as [|x t]; [rewrite app_nil_r in L; lia|].
    cbn in Et. injection Et as <- _. apply Hp, in_elt.
Qed.
Lemma attribute_pre c attr pre s v : ~ In c pre -> attribute s (c :: attr) v -> attribute (pre ++ s) (c :: attr) v.
Proof.
  intros Hp [a [b [[E H] Hq]]]. exists (pre ++ a), b. split; [|exact Hq]. split; [rewrite E, !app_assoc; reflexivity|].
  intros a' b' E'. rewrite app_length. destruct (Nat.le_gt_cases (length pre) (length a')) as [L|L].
  - destruct (cut_eq _ _ _ _ E' L) as [t [-> Et]]. apply H in Et. rewrite app_length. lia.
  - exfalso. symmetry in E'. destruct (cut_eq _ _ _ _ E' ltac:(lia)) as [t [-> Et]]. destruct t as [|x t]; [rewrite app_nil_r in L; lia|].
    cbn in Et. injection Et as <- _. apply Hp, in_elt.
Qed.

(** what the loop reports of a device: everything but the name *)
Definition reported (num : Z) (d : blkid_dev) (dk : disk) : Prop :=
  dk_id dk = num /\ dk_sn_init dk = true /\ dk_sn dk = serial_of (cstr (bd_uuid d)) /\ dk_label_init dk = true /\
  dk_label dk = Some (firstn 254 (cstr (bd_label d))) /\ (dk_preferred dk = true <-> bd_type d = bs "swap").

Inductive all_reported : Z -> list blkid_dev -> list disk -> Prop :=
| ar_nil num : all_reported num [] []
| ar_cons num d dk ds dks : reported num d dk -> all_reported (num + 1) ds dks -> all_reported num (d :: ds) (dk :: dks).

Lemma substr_ok s p n : p <= length s -> substr s p n = Ok (firstn n (skipn p s)).
Proof. intros H. unfold substr. destruct (Nat.ltb_spec (length s) p); [lia|reflexivity]. Qed.
Lemma find_last_lt p s i : find_last p s = Some i -> i < length s.
Proof. intros H. apply find_last_some in H as [a [c [b [-> [<- _]]]]]. rewrite app_length. cbn. lia. Qed.
Lemma device_ok (cur : bytes) : exists dev, substr cur (match find_last (fun c => Ascii.eqb c ">"%char) cur with Some i => i + 1 | None => 0 end) (length cur) = Ok dev.
Proof.
  destruct (find_last _ cur) as [i|] eqn:E; rewrite substr_ok; eauto; [|lia]. apply find_last_lt in E. lia.
Qed.

Lemma tag_no_attr c : In c (bs "PUT") -> ~ In c (tl closing).
Proof. cbn. intuition (subst; discriminate). Qed.

Lemma blkid_devices fuel content oldpos num out m pre ds tail :
  skipn oldpos content = pre ++ blkid_text ds tail -> oldpos <= length content ->
  (pre = [] \/ pre = tl closing) -> Forall blkid_ok ds ->
  (forall a b, tail <> a ++ closing ++ b) -> Forall (fun d => exists sn, parse_uuid (bd_uuid d) = Ok sn) ds -> length ds <= fuel ->
  exists new m', parse_blkid_loop fuel content oldpos num out m = Ok (out ++ new, m') /\ all_reported num ds new.
Proof.
  revert oldpos num out m pre ds; induction fuel as [|fuel IH]; intros oldpos num out m pre ds Hsk Ho Hpre Fok Htail Fu Hlen.
  - destruct ds; [|cbn in Hlen; lia]. exists [], m. split; [|constructor]. cbn [parse_blkid_loop]. rewrite str_find_at, Hsk by exact Ho.
    unfold blkid_text. cbn [map concat app].
    assert (Hnone : find_here closing (pre ++ tail) = None).
    { apply find_here_none. apply (fresh_prefix "<" (tl closing)); [|exact Htail]. destruct Hpre as [->| ->]; cbn; intuition discriminate. }
    change (bs "</device>") with closing. rewrite Hnone. cbn [option_map]. rewrite app_nil_r. reflexivity.
  - cbn [parse_blkid_loop]. rewrite str_find_at, Hsk by exact Ho. change (bs "</device>") with closing in *.
    destruct ds as [|d ds].
    + exists [], m. split; [|constructor]. unfold blkid_text. cbn [map concat app].
      assert (Hnone : find_here closing (pre ++ tail) = None).
      { apply find_here_none. apply (fresh_prefix "<" (tl closing)); [|exact Htail]. destruct Hpre as [->| ->]; cbn; intuition discriminate. }
      rewrite Hnone. cbn [option_map]. rewrite app_nil_r. reflexivity.
    + inversion Fok as [|? ? [Hno [Hu [Hl Ht]]] Fok']; subst. inversion Fu as [|? ? [sn Hsn] Fu']; subst.
      assert (Etext : pre ++ blkid_text (d :: ds) tail = (pre ++ bd_text d) ++ closing ++ blkid_text ds tail).
      { unfold blkid_text. cbn [map concat]. change (bs "</device>") with closing. rewrite <- !app_assoc. reflexivity. }
      assert (Hpre' : ~ In "<"%char pre) by (destruct Hpre as [->| ->]; cbn; intuition discriminate).
      assert (F : first_at closing (pre ++ blkid_text (d :: ds) tail) (pre ++ bd_text d) (blkid_text ds tail)).
      { rewrite Etext. apply (first_fresh "<" (tl closing)); [cbn; intuition discriminate|]. apply fresh_prefix; [exact Hpre'|exact Hno]. }
      rewrite (find_here_first _ _ _ _ F). cbn [option_map]. set (i := length (pre ++ bd_text d)) in *.
      rewrite substr_ok by exact Ho. cbn [rbind]. rewrite Hsk.
      set (cur := firstn (oldpos + i) (pre ++ blkid_text (d :: ds) tail)).
      assert (Ecur : exists ext, cur = pre ++ bd_text d ++ ext).
      { unfold cur. rewrite Etext, firstn_app. fold i. rewrite firstn_all2 by (fold i; lia). eexists. rewrite <- app_assoc. reflexivity. }
      destruct Ecur as [ext Ecur].
      assert (Hattr : forall c at_ v, In c (bs "PUT") -> attribute (bd_text d) (c :: at_) v -> get_attribute cur (c :: at_) = Ok v).
      { intros c at_ v Hc Ha. apply get_attribute_spec. rewrite Ecur. apply attribute_pre.
        - destruct Hpre as [->| ->]; [intros []|apply tag_no_attr, Hc].
        - apply attribute_ext, Ha. }
      destruct (device_ok cur) as [dev ->]. cbn [rbind].
      change (bs "PARTLABEL") with ("P"%char :: bs "ARTLABEL") in *. rewrite (Hattr _ _ _ (or_introl eq_refl) Hl). cbn [rbind].
      change (bs "UUID") with ("U"%char :: bs "UID") in *. rewrite (Hattr _ _ _ (or_intror (or_introl eq_refl)) Hu). cbn [rbind].
      rewrite Hsn. cbn [rbind].
      change (bs "TYPE") with ("T"%char :: bs "YPE") in *. rewrite (Hattr _ _ _ (or_intror (or_intror (or_introl eq_refl))) Ht). cbn [rbind].
      match goal with |- context [parse_blkid_loop fuel content _ _ (out ++ [?x]) ?mm] => set (dk := x); set (m2 := mm) end.
      assert (Hlc : length closing = 9) by reflexivity.
      assert (Hlen2 : length content = oldpos + i + 9 + length (blkid_text ds tail)).
      { assert (length (skipn oldpos content) = length content - oldpos) by apply skipn_length. rewrite Hsk, Etext, !app_length in H. unfold i in *. rewrite !app_length in *. lia. }
      destruct (IH (oldpos + i + 1) (num + 1)%Z (out ++ [dk]) m2 (tl closing) ds) as [new [m' [E A]]]; try assumption; try lia.
      * replace (oldpos + i + 1) with (oldpos + (i + 1)) by lia. rewrite <- skipn_skipn', Hsk, Etext.
        rewrite <- skipn_skipn'. unfold i. rewrite skipn_len. reflexivity.
      * right. reflexivity.
      * cbn in Hlen. lia.
      * exists (dk :: new), m'. split; [rewrite E, <- app_assoc; reflexivity|]. constructor; [|exact A].
        unfold reported, dk; cbn [dk_id dk_sn dk_sn_init dk_label dk_label_init dk_preferred].
        assert (sn = serial_of (cstr (bd_uuid d))) as -> by (rewrite parse_uuid_spec in Hsn; destruct (Nat.ltb _ _); congruence).
        repeat (split; [reflexivity|]). apply beqb_eq.
Qed.
