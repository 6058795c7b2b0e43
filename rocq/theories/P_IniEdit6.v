(** Lemmas about IniEdit.v: the tables sorted by name, and the document in load order. *)
From Coq Require Import Permutation Sorting.Sorted Lia.
From Verif Require Import Base P_Base CTypes StringUtils Ini P_Ini IniEdit Spec_Ini Spec_IniEdit P_IniEdit P_IniEdit2 P_IniEdit3 P_IniEdit4 P_IniEdit5.

(** * Load order *)
Section load_order.
  Context {V : Type}.
  Definition ord (a b : rnamed * V) : Prop := r_order (fst a) < r_order (fst b).
  Fixpoint oins (x : rnamed * V) (l : list (rnamed * V)) : list (rnamed * V) :=
    match l with [] => [x] | y :: r => if Nat.ltb (r_order (fst x)) (r_order (fst y)) then x :: l else y :: oins x r end.
  Fixpoint byord (l : list (rnamed * V)) : list (rnamed * V) := match l with [] => [] | x :: r => oins x (byord r) end.
  Definition tidy (l : list (rnamed * V)) : Prop := NoDup (map (fun e => r_order (fst e)) l).

  Lemma oins_perm x l : Permutation (x :: l) (oins x l).
  Proof.
    induction l as [|y r IH]; cbn [oins]; [apply Permutation_refl|]. destruct (Nat.ltb (r_order (fst x)) (r_order (fst y))); [apply Permutation_refl|].
    eapply perm_trans; [apply perm_swap|]. apply Permutation.perm_skip. exact IH.
  Qed.
  Lemma byord_perm l : Permutation l (byord l).
  Proof. induction l as [|x r IH]; cbn; [constructor|]. eapply perm_trans; [apply Permutation.perm_skip; exact IH|]. apply oins_perm. Qed.
  Lemma oins_sorted x l : StronglySorted ord l -> ~ In (r_order (fst x)) (map (fun e => r_order (fst e)) l) -> StronglySorted ord (oins x l).
  Proof.
    intros H. induction H as [|y r S IH F]; cbn [oins map In]; intros N; [repeat constructor|]. destruct (Nat.ltb_spec (r_order (fst x)) (r_order (fst y))) as [L|L].
    - constructor; [constructor; assumption|]. constructor; [exact L|]. eapply Forall_impl; [|exact F]. intros a Ha. unfold ord in *. lia.
    - constructor; [apply IH; tauto|]. apply Forall_forall. intros a Ha. apply (Permutation_in _ (Permutation_sym (oins_perm x r))) in Ha. destruct Ha as [<-|Ha].
      + unfold ord. assert (r_order (fst y) <> r_order (fst x)) by tauto. lia.
      + rewrite Forall_forall in F. apply F. exact Ha.
  Qed.
  Lemma byord_sorted l : tidy l -> StronglySorted ord (byord l).
  Proof.
    unfold tidy. induction l as [|x r IH]; cbn; intros N; [constructor|]. inversion N as [|? ? N1 N2]; subst. apply oins_sorted; [apply IH; exact N2|].
    intros H. apply N1. eapply Permutation_in; [|exact H]. apply Permutation_map. apply Permutation_sym. apply byord_perm.
  Qed.
  Lemma sorted_tidy l : StronglySorted ord l -> tidy l.
  Proof.
    induction 1 as [|a l S IH F]; unfold tidy; cbn; constructor; [|exact IH]. intros H. apply in_map_iff in H. destruct H as (b & E & Hb).
    rewrite Forall_forall in F. specialize (F b Hb). unfold ord in F. lia.
  Qed.
  Lemma tidy_perm l m : Permutation l m -> tidy l -> tidy m.
  Proof. intros P. apply Permutation_NoDup. apply Permutation_map. exact P. Qed.
  Lemma sorted_unique l : forall m, StronglySorted ord l -> StronglySorted ord m -> Permutation l m -> l = m.
  Proof.
    induction l as [|a l IH]; intros m SL SM P.
    - apply Permutation_nil in P. congruence.
    - destruct m as [|b m]; [apply Permutation_sym, Permutation_nil in P; discriminate|].
      inversion SL as [|? ? SL1 FL]; inversion SM as [|? ? SM1 FM]; subst.
      assert (a = b).
      { assert (Ha : In a (b :: m)) by (eapply Permutation_in; [exact P|left; reflexivity]).
        assert (Hb : In b (a :: l)) by (eapply Permutation_in; [apply Permutation_sym; exact P|left; reflexivity]).
        destruct Ha as [Ha|Ha]; [congruence|]. destruct Hb as [Hb|Hb]; [congruence|].
        rewrite Forall_forall in FL, FM. specialize (FL b Hb). specialize (FM a Ha). unfold ord in *. lia. }
      subst b. f_equal. apply IH; auto. apply (Permutation_cons_inv P).
  Qed.
  Lemma byord_is l m : Permutation l m -> StronglySorted ord m -> byord l = m.
  Proof.
    intros P S. apply sorted_unique; [|exact S|].
    - apply byord_sorted. apply (tidy_perm m); [apply Permutation_sym; exact P|]. apply sorted_tidy. exact S.
    - eapply perm_trans; [apply Permutation_sym; apply byord_perm|exact P].
  Qed.
  Lemma sorted_filter P l : StronglySorted ord l -> StronglySorted ord (filter P l).
  Proof.
    induction 1 as [|a l S IH F]; cbn; [constructor|]. destruct (P a); [|exact IH]. constructor; [exact IH|]. apply Forall_forall. intros b Hb.
    apply filter_In in Hb. rewrite Forall_forall in F. apply F. apply Hb.
  Qed.
  Lemma perm_filter (P : rnamed * V -> bool) l m : Permutation l m -> Permutation (filter P l) (filter P m).
  Proof.
    induction 1 as [|x l m H IH|x y l|l m n H1 IH1 H2 IH2]; cbn; [constructor| | |].
    - destruct (P x); [apply Permutation.perm_skip|]; exact IH.
    - destruct (P y), (P x); first [apply perm_swap|apply Permutation_refl].
    - eapply perm_trans; eassumption.
  Qed.
  Lemma byord_filter P l : tidy l -> byord (filter P l) = filter P (byord l).
  Proof. intros T. apply byord_is; [apply perm_filter; apply byord_perm|apply sorted_filter; apply byord_sorted; exact T]. Qed.

  Lemma sorted_app l m : StronglySorted ord (l ++ m) <-> StronglySorted ord l /\ StronglySorted ord m /\ (forall a b, In a l -> In b m -> ord a b).
  Proof.
    split.
    - induction l as [|x l IH]; cbn; intros H.
      + repeat split; [constructor|exact H|intros a b []].
      + inversion H as [|? ? S1 F]; subst. destruct (IH S1) as (A & B & C). apply Forall_app in F. destruct F as [F1 F2]. repeat split; [constructor; assumption|exact B|].
        intros a b [<-|Ha] Hb; [rewrite Forall_forall in F2; apply F2; exact Hb|apply C; assumption].
    - intros (A & B & C). induction A as [|x l SA IH F]; cbn; [exact B|]. constructor; [apply IH; intros a b Ha Hb; apply C; [right; exact Ha|exact Hb]|].
      apply Forall_app. split; [exact F|]. apply Forall_forall. intros b Hb. apply C; [left; reflexivity|exact Hb].
  Qed.
  (** the last element *)
  Lemma byord_last l x m o : Permutation l (x :: m) -> tidy m -> Forall (fun e => r_order (fst e) <= o) m -> r_order (fst x) = S o ->
    byord l = byord m ++ [x] /\ StronglySorted ord (byord m ++ [x]).
  Proof.
    intros P T B E. assert (SS : StronglySorted ord (byord m ++ [x])).
    { apply sorted_app. split; [apply byord_sorted; exact T|]. split; [repeat constructor|]. intros a b Ha [<-|[]]. unfold ord.
      rewrite Forall_forall in B. specialize (B a (Permutation_in _ (Permutation_sym (byord_perm m)) Ha)). lia. }
    split; [|exact SS]. apply byord_is; [|exact SS]. rewrite P. eapply perm_trans; [apply Permutation.perm_skip; apply byord_perm|]. apply Permutation_cons_append.
  Qed.
  (** an element replaced by one with the same load order *)
  Lemma byord_replace A x B x' X Y : tidy (A ++ x :: B) -> r_order (fst x') = r_order (fst x) -> byord (A ++ x :: B) = X ++ x :: Y ->
    byord (A ++ x' :: B) = X ++ x' :: Y.
  Proof.
    intros T E H. pose proof (byord_sorted _ T) as S. pose proof (byord_perm (A ++ x :: B)) as P. rewrite H in *. apply byord_is.
    - rewrite <- Permutation_middle. rewrite <- (Permutation_middle X). apply Permutation.perm_skip. 
      apply Permutation_cons_inv with (a := x). rewrite Permutation_middle, (Permutation_middle X). exact P.
    - clear -S E. induction X as [|y X IH]; cbn in *; inversion S as [|? ? S1 F]; subst.
      + constructor; [exact S1|]. eapply Forall_impl; [|exact F]. intros a Ha. unfold ord in *. rewrite E. exact Ha.
      + constructor; [apply IH; exact S1|]. rewrite Forall_app in *. destruct F as [F1 F2]. split; [exact F1|]. inversion F2; subst. constructor; [|assumption].
        unfold ord in *. rewrite E. assumption.
  Qed.
End load_order.

Lemma filter_split {A} (P : A -> bool) L e r : filter P L = e :: r ->
  exists X Y, L = X ++ e :: Y /\ Forall (fun a => P a = false) X /\ P e = true /\ filter P Y = r.
Proof.
  induction L as [|a L IH]; cbn; [discriminate|]. destruct (P a) eqn:E.
  - intros H. injection H as -> <-. exists [], L. auto.
  - intros H. destruct (IH H) as (X & Y & -> & F & Q & R). exists (a :: X), Y. split; [reflexivity|]. split; [constructor; assumption|]. auto.
Qed.
Lemma change_first_mid {A} P f (X : list A) e Y : Forall (fun a => P a = false) X -> P e = true -> change_first P f (X ++ e :: Y) = X ++ f e :: Y.
Proof. intros F H. induction F as [|a X Ha F IH]; cbn; [rewrite H; reflexivity|]. rewrite Ha, IH. reflexivity. Qed.
Lemma only_first_mid {A} P f (X : list A) e Y : Forall (fun a => P a = false) X -> P e = true -> only_first P f (X ++ e :: Y) = X ++ f e :: filter (fun b => negb (P b)) Y.
Proof. intros F H. induction F as [|a X Ha F IH]; cbn; [rewrite H; reflexivity|]. rewrite Ha, IH. reflexivity. Qed.
Lemma filter_nil_none {A} (P : A -> bool) l : filter P l = [] -> Forall (fun a => P a = false) l.
Proof.
  induction l as [|a l IH]; cbn; [constructor|]. destruct (P a) eqn:E; [discriminate|]. intros H. constructor; auto.
Qed.
Lemma existsb_filter {A} (P : A -> bool) l : existsb P l = match filter P l with [] => false | _ => true end.
Proof. induction l as [|a l IH]; cbn; [reflexivity|]. destruct (P a); [reflexivity|exact IH]. Qed.
Lemma find_filter {A} (P : A -> bool) l : List.find P l = hd_error (filter P l).
Proof. induction l as [|a l IH]; cbn; [reflexivity|]. destruct (P a); [reflexivity|exact IH]. Qed.

(** * The lines of a section *)
Definition line (e : rnamed * bytes) : eline := {| l_key := r_name (fst e); l_comment := r_comment (fst e); l_value := snd e |}.
Definition lines (l : vkeyed) : list eline := map line (byord l).
Lemma of_key_line k e : of_key k (line e) = is_eq vn k e.
Proof. reflexivity. Qed.
Lemma keys_eqs_ord l k : keys_sorted l -> StronglySorted ord (Eqs vn k l).
Proof.
  intros H. pose proof (proj1 (sorted_map fst key_before l) H) as H1. clear H. unfold Eqs. induction H1 as [|a l S IH F]; [constructor|]. cbn [filter].
  destruct (is_eq vn k a) eqn:Ea; [|exact IH]. constructor; [exact IH|]. apply Forall_forall. intros b Hb. apply filter_In in Hb. destruct Hb as [Hb Eb].
  rewrite Forall_forall in F. specialize (F b Hb). destruct F as [F|[_ F]]; [|exact F]. exfalso. unfold is_eq, same_nameb, vn in *.
  apply beqb_eq in Ea, Eb. rewrite (nocase_less_irrefl (r_name (fst a)) (r_name (fst b))) in F; [discriminate|]. unfold same_name. congruence.
Qed.
Lemma filter_byord l k : keys_sorted l -> tidy l -> filter (is_eq vn k) (byord l) = Eqs vn k l.
Proof.
  intros K T. apply sorted_unique.
  - apply sorted_filter. apply byord_sorted. exact T.
  - apply keys_eqs_ord. exact K.
  - apply perm_filter. apply Permutation_sym. apply byord_perm.
Qed.
Lemma filter_lines l k : keys_sorted l -> tidy l -> filter (of_key k) (lines l) = map line (Eqs vn k l).
Proof. intros K T. unfold lines. rewrite filter_map. f_equal. apply (filter_byord l k K T). Qed.

Lemma ss_app {A} (R : A -> A -> Prop) l m : StronglySorted R (l ++ m) <-> StronglySorted R l /\ StronglySorted R m /\ (forall a b, In a l -> In b m -> R a b).
Proof.
  split.
  - induction l as [|x l IH]; cbn; intros H.
    + repeat split; [constructor|exact H|intros a b []].
    + inversion H as [|? ? S1 F]; subst. destruct (IH S1) as (A1 & B & C). apply Forall_app in F. destruct F as [F1 F2]. repeat split; [constructor; assumption|exact B|].
      intros a b [<-|Ha] Hb; [rewrite Forall_forall in F2; apply F2; exact Hb|apply C; assumption].
  - intros (A1 & B & C). induction A1 as [|x l SA IH F]; cbn; [exact B|]. constructor; [apply IH; intros a b Ha Hb; apply C; [right; exact Ha|exact Hb]|].
    apply Forall_app. split; [exact F|]. apply Forall_forall. intros b Hb. apply C; [left; reflexivity|exact Hb].
Qed.
Lemma less_same_r a b c : nocase_less a b = true -> same_name b c -> nocase_less a c = true.
Proof.
  intros H S. destruct (nocase_total a c) as [T|[T|T]]; [exact T| |].
  - pose proof (nocase_trans _ _ _ T H) as X. rewrite (nocase_less_irrefl c b) in X; [discriminate|]. unfold same_name in *. congruence.
  - rewrite (nocase_less_irrefl a b) in H; [discriminate|]. unfold same_name in *. congruence.
Qed.
Lemma less_same_l a b c : nocase_less a b = true -> same_name a c -> nocase_less c b = true.
Proof.
  intros H S. destruct (nocase_total c b) as [T|[T|T]]; [exact T| |].
  - pose proof (nocase_trans _ _ _ H T) as X. rewrite (nocase_less_irrefl a c) in X; [discriminate|]. exact S.
  - rewrite (nocase_less_irrefl a b) in H; [discriminate|]. unfold same_name in *. congruence.
Qed.
Lemma eq_same {W} k (e : rnamed * W) : is_eq vn k e = true <-> same_name (r_name (fst e)) k.
Proof. unfold is_eq, same_nameb, vn, same_name. apply beqb_eq. Qed.
(** other elements with the key [k] *)
Lemma keys_rebuild l k M : keys_sorted l -> Forall (fun e => is_eq vn k e = true) M -> StronglySorted ord M -> keys_sorted (Lt vn k l ++ M ++ Gt vn k l).
Proof.
  intros K F S. unfold keys_sorted in K |- *. pose proof (proj1 (sorted_map fst key_before l) K) as K0. clear K. 
  apply (sorted_map fst key_before). rewrite Forall_forall in F.
  assert (SUB : forall P, StronglySorted (fun a b : rnamed * bytes => key_before (fst a) (fst b)) (filter P l)).
  { intros P. clear -K0. induction K0 as [|a l S IH F]; cbn; [constructor|]. destruct (P a); [|exact IH]. constructor; [exact IH|]. apply Forall_forall. intros b Hb.
    apply filter_In in Hb. rewrite Forall_forall in F. apply F. apply Hb. }
  apply ss_app. split; [apply SUB|]. split.
  - apply ss_app. split; [|split; [apply SUB|]].
    + clear -S F. induction S as [|a M S IH FF]; [constructor|]. constructor; [apply IH; intros x Hx; apply F; right; exact Hx|]. apply Forall_forall. intros b Hb. right.
      rewrite Forall_forall in FF. split; [|apply FF; exact Hb].
      pose proof (proj1 (eq_same k a) (F a (or_introl eq_refl))) as X1. pose proof (proj1 (eq_same k b) (F b (or_intror Hb))) as X2. unfold same_name in *. congruence.
    + intros a b Ha Hb. left. apply filter_In in Hb. destruct Hb as [_ Hb]. apply (less_same_l k). exact Hb. pose proof (proj1 (eq_same k a) (F a Ha)) as X1. unfold same_name in *. congruence.
  - intros a b Ha Hb. left. apply filter_In in Ha. destruct Ha as [_ Ha]. unfold is_lt in Ha. apply in_app_iff in Hb. destruct Hb as [Hb|Hb].
    + apply (less_same_r _ k); [exact Ha|]. pose proof (proj1 (eq_same k b) (F b Hb)) as X1. unfold same_name in *. congruence.
    + apply filter_In in Hb. destruct Hb as [_ Hb]. apply (nocase_trans _ k); assumption.
Qed.

Definition below {W} (o : nat) (l : list (rnamed * W)) : Prop := Forall (fun e => r_order (fst e) <= o) l.
Record kinv (o : nat) (l : vkeyed) : Prop := { ki_sorted : keys_sorted l; ki_tidy : tidy l; ki_below : below o l }.

Lemma keys_part l k : keys_sorted l -> l = Lt vn k l ++ Eqs vn k l ++ Gt vn k l.
Proof. intros K. apply partition_sorted. apply keys_weak. exact K. Qed.
Lemma without_eqs l k : keys_sorted l -> Lt vn k l ++ Gt vn k l = filter (fun e => negb (is_eq vn k e)) l.
Proof.
  intros K. rewrite (keys_part l k K) at 3. rewrite !filter_app.
  rewrite (filter_all _ (Lt vn k l)), (filter_none _ (Eqs vn k l)), (filter_all _ (Gt vn k l)); [reflexivity| | |].
  - eapply Forall_impl; [|apply Gt_all]. intros e He. destruct (three vn k e) as [(X1 & X2 & X3)|[(X1 & X2 & X3)|(X1 & X2 & X3)]]; rewrite X2; congruence || reflexivity.
  - apply Forall_forall. intros e He. apply filter_In in He. destruct He as [_ ->]. reflexivity.
  - eapply Forall_impl; [|apply Lt_all]. intros e He. destruct (three vn k e) as [(X1 & X2 & X3)|[(X1 & X2 & X3)|(X1 & X2 & X3)]]; rewrite X2; congruence || reflexivity.
Qed.
Lemma ord_tidy {W} (l m : list (rnamed * W)) : Permutation l m -> StronglySorted ord m -> tidy l.
Proof. intros P S. apply (tidy_perm m); [apply Permutation_sym; exact P|apply sorted_tidy; exact S]. Qed.
Lemma below_perm {W} o (l m : list (rnamed * W)) : Permutation l m -> below o m -> below o l.
Proof. intros P. apply Permutation_Forall. apply Permutation_sym. exact P. Qed.
Lemma below_le {W} o o' (l : list (rnamed * W)) : o <= o' -> below o l -> below o' l.
Proof. intros H. apply Forall_impl. intros a Ha. lia. Qed.
Lemma kinv_le o o' l : o <= o' -> kinv o l -> kinv o' l.
Proof. intros H [A B C]. split; auto. apply (below_le o); assumption. Qed.

Lemma vkeys_ok multi force k val c o l : kinv o l ->
  kinv (S o) (vkeys multi force k val c (S o) l) /\ lines (vkeys multi force k val c (S o) l) = give multi force k val c (lines l).
Proof.
  intros [K T B]. unfold give. rewrite existsb_filter, (filter_lines l k K T). pose proof (filter_byord l k K T) as FB.
  pose proof (keys_part l k K) as PT. pose proof (byord_perm l) as BP. pose proof (byord_sorted l T) as BS.
  set (new := (rnew k c (S o), val)).
  assert (NEWEQ : is_eq vn k new = true) by apply (self_eq new).
  assert (LAST : forall l', Permutation l' (new :: l) -> tidy l' /\ below (S o) l' /\ lines l' = lines l ++ [{| l_key := k; l_comment := c; l_value := val |}]).
  { intros l' P'. destruct (byord_last l' new l o P' T B eq_refl) as [E1 E2]. split; [|split].
    - apply (ord_tidy l' (byord l ++ [new])); [|exact E2]. rewrite <- E1. apply byord_perm.
    - apply (below_perm _ _ _ P'). constructor; [cbn; lia|]. apply (below_le o); [lia|exact B].
    - unfold lines. rewrite E1, map_app. reflexivity. }
  unfold vkeys. destruct (Eqs vn k l) as [|e r] eqn:EE.
  - cbn [map]. destruct (LAST (Lt vn k l ++ new :: Gt vn k l)) as (T1 & B1 & L1).
    { rewrite <- Permutation_middle. apply Permutation.perm_skip. rewrite PT at 3. apply Permutation_refl. }
    split; [split; [|exact T1|exact B1]|exact L1].
    apply (keys_rebuild l k [new] K); [constructor; [exact NEWEQ|constructor]|repeat constructor].
  - cbn [map]. assert (HE : In e l /\ is_eq vn k e = true) by (apply filter_In; change (In e (Eqs vn k l)); rewrite EE; left; reflexivity).
    pose proof (keys_eqs_ord l k K) as SE. rewrite EE in SE.
    assert (ALLE : Forall (fun x => is_eq vn k x = true) (e :: r)) by (rewrite <- EE; apply Forall_forall; intros x Hx; apply filter_In in Hx; apply Hx).
    destruct (filter_split _ _ _ _ FB) as (X & Y & BXY & FX & _ & FY).
    assert (FXL : Forall (fun a => of_key k a = false) (map line X)) by (apply Forall_map; exact FX).
    destruct multi; [destruct force|].
    + (* replaced *)
      set (e' := (rnew k (match r_comment (fst e) with Some x => Some x | None => c end) (r_order (fst e)), val)).
      set (N := X ++ e' :: filter (fun b => negb (is_eq vn k b)) Y).
      assert (E'EQ : is_eq vn k e' = true) by apply (self_eq e').
      assert (PN : Permutation (Lt vn k l ++ e' :: Gt vn k l) N).
      { unfold N. rewrite <- !Permutation_middle. apply Permutation.perm_skip. rewrite (without_eqs l k K). 
        eapply perm_trans; [apply perm_filter; exact BP|]. rewrite BXY, filter_app. cbn [filter]. rewrite (proj2 HE). cbn [negb].
        rewrite (filter_all _ X); [apply Permutation_refl|]. eapply Forall_impl; [|exact FX]. intros a ->. reflexivity. }
      assert (SN : StronglySorted ord N).
      { unfold N. rewrite BXY in BS. apply sorted_app in BS. destruct BS as (S1 & S2 & S3). inversion S2 as [|? ? S4 S5]; subst. apply sorted_app. split; [exact S1|]. split.
        - constructor; [apply sorted_filter; exact S4|]. apply Forall_forall. intros b Hb. apply filter_In in Hb. rewrite Forall_forall in S5. apply (S5 b). apply Hb.
        - intros a b Ha [<-|Hb]; [apply (S3 a e Ha); left; reflexivity|]. apply filter_In in Hb. apply S3; [exact Ha|right; apply Hb]. }
      split; [split|].
      * apply (keys_rebuild l k [e'] K); [constructor; [exact E'EQ|constructor]|repeat constructor].
      * apply (ord_tidy _ N PN SN).
      * apply (below_perm _ _ _ PN). unfold N. unfold below in B |- *. rewrite Forall_forall in B. apply Forall_forall. intros x Hx.
        assert (INL : In x (byord l) \/ x = e').
        { rewrite BXY. rewrite in_app_iff in *. destruct Hx as [Hx|[Hx|Hx]]; [auto|auto|]. apply filter_In in Hx. left. right. right. apply Hx. }
        destruct INL as [INL| ->]; [|cbn; specialize (B e (proj1 HE)); lia].
        specialize (B x (Permutation_in _ (Permutation_sym BP) INL)). lia.
      * unfold lines at 1. rewrite (byord_is _ _ PN SN). unfold N, lines. rewrite BXY, !map_app. cbn [map].
        rewrite only_first_mid; [|exact FXL|exact (proj2 HE)]. rewrite filter_map. reflexivity.
    + (* one more *)
      destruct (LAST (Lt vn k l ++ (e :: r) ++ new :: Gt vn k l)) as (T1 & B1 & L1).
      { rewrite app_assoc. rewrite <- Permutation_middle. apply Permutation.perm_skip. rewrite <- app_assoc. rewrite PT at 3. apply Permutation_refl. }
      split; [split; [|exact T1|exact B1]|exact L1].
      assert (RB : keys_sorted (Lt vn k l ++ ((e :: r) ++ [new]) ++ Gt vn k l)).
      { apply (keys_rebuild l k _ K); [apply Forall_app; split; [exact ALLE|constructor; [exact NEWEQ|constructor]]|].
        apply sorted_app. split; [exact SE|]. split; [repeat constructor|]. intros a b Ha [<-|[]]. unfold ord. cbn. unfold below in B. rewrite Forall_forall in B.
        assert (In a l) by (rewrite <- EE in Ha; apply filter_In in Ha; apply Ha). specialize (B a H). lia. }
      rewrite <- app_assoc in RB. exact RB.
    + (* changed *)
      set (e' := (fst e, val)).
      assert (PTE : l = Lt vn k l ++ e :: (r ++ Gt vn k l)) by exact PT.
      assert (BR : byord (Lt vn k l ++ e' :: (r ++ Gt vn k l)) = X ++ e' :: Y).
      { apply (byord_replace _ e); [rewrite <- PTE; exact T|reflexivity|rewrite <- PTE; exact BXY]. }
      split; [split|].
      * apply (keys_rebuild l k (e' :: r) K).
        -- inversion ALLE; subst. constructor; assumption.
        -- inversion SE; subst. constructor; assumption.
      * unfold tidy in *. rewrite PTE in T. rewrite map_app in *. exact T.
      * unfold below in *. apply (below_le o); [lia|]. unfold below. rewrite PTE in B. rewrite Forall_app in *. destruct B as [B1 B2]. split; [exact B1|].
        inversion B2; subst. constructor; assumption.
      * unfold lines at 1. change ((e' :: r) ++ Gt vn k l) with (e' :: (r ++ Gt vn k l)). rewrite BR. unfold lines. rewrite BXY, !map_app. cbn [map].
        rewrite change_first_mid; [reflexivity|exact FXL|exact (proj2 HE)].
Qed.
