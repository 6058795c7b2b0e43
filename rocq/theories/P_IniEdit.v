(** Lemmas about IniEdit.v: pointers and searches. *)
From Coq Require Import Permutation Sorting.Sorted Lia.
From Verif Require Import Base P_Base CTypes StringUtils Ini P_Ini IniEdit Spec_Ini Spec_IniEdit.

(** * Monad *)
Lemma ebind_ok {A C} (m : E A) (k : A -> E C) st a st' : m st = Ok (a, st') -> ebind m k st = k a st'.
Proof. intros H. unfold ebind. rewrite H. reflexivity. Qed.
Lemma ask_ok {A} (f : store -> res A) st a : f st = Ok a -> ask f st = Ok (a, st).
Proof. intros H. unfold ask. rewrite H. reflexivity. Qed.
Lemma ebind_ask {A C} (f : store -> res A) (k : A -> E C) st a : f st = Ok a -> ebind (ask f) k st = k a st.
Proof. intros H. apply ebind_ok. apply ask_ok. exact H. Qed.
Lemma ebind_assoc {A B C} (m : E A) (k : A -> E B) (h : B -> E C) st :
  ebind (ebind m k) h st = ebind m (fun a => ebind (k a) h) st.
Proof. unfold ebind. destruct (m st) as [[a s]| | |]; reflexivity. Qed.

(** * Texts *)
Definition text (st : store) (p : ptr) : bytes := match deref st p with Ok s => s | _ => [] end.
Definition live (st : store) (p : ptr) : Prop := deref st p = Ok (text st p).
Lemma deref_live st p s : deref st p = Ok s -> live st p /\ text st p = s.
Proof. intros H. unfold live, text. rewrite H. split; reflexivity. Qed.
Lemma is_less_ok st p q : live st p -> live st q -> is_less st p q = Ok (nocase_less (text st p) (text st q)).
Proof. intros H1 H2. unfold is_less. rewrite H1, H2. reflexivity. Qed.
Definition live_opt (st : store) (p : option ptr) : Prop := match p with Some q => live st q | None => True end.

(** * Sorted lists of named elements *)
Section sorted.
  Context {X : Type} (nm : X -> bytes).
  Definition weak (a b : X) : Prop := nocase_less (nm b) (nm a) = false.
  Definition is_lt (s : bytes) (a : X) : bool := nocase_less (nm a) s.
  Definition is_eq (s : bytes) (a : X) : bool := same_nameb (nm a) s.
  Definition is_gt (s : bytes) (a : X) : bool := nocase_less s (nm a).
  Definition Lt s l := filter (is_lt s) l.
  Definition Eqs s l := filter (is_eq s) l.
  Definition Gt s l := filter (is_gt s) l.

  Lemma three s a : (is_lt s a = true /\ is_eq s a = false /\ is_gt s a = false)
                 \/ (is_lt s a = false /\ is_eq s a = true /\ is_gt s a = false)
                 \/ (is_lt s a = false /\ is_eq s a = false /\ is_gt s a = true).
  Proof.
    unfold is_lt, is_eq, is_gt. rewrite <- nocase_eqb_same. unfold nocase_eqb.
    destruct (nocase_less (nm a) s) eqn:E1, (nocase_less s (nm a)) eqn:E2; cbn; auto.
    exfalso. pose proof (nocase_trans _ _ _ E1 E2) as H. rewrite nocase_irrefl in H. discriminate.
  Qed.
  Lemma gt_up s a b : weak a b -> is_gt s a = true -> is_gt s b = true.
  Proof.
    unfold weak, is_gt. intros W H. destruct (nocase_total (nm a) (nm b)) as [T|[T|T]].
    - apply (nocase_trans _ _ _ H T).
    - congruence.
    - destruct (nocase_less s (nm b)) eqn:E; [reflexivity|]. exfalso.
      destruct (nocase_total s (nm b)) as [U|[U|U]]; [congruence| |].
      + pose proof (nocase_trans _ _ _ U H) as C. rewrite (nocase_less_irrefl (nm b) (nm a)) in C; [discriminate|]. symmetry. exact T.
      + rewrite (nocase_less_irrefl s (nm a)) in H; [discriminate|]. unfold same_name in *. congruence.
  Qed.
  Lemma lt_down s a b : weak a b -> is_lt s b = true -> is_lt s a = true.
  Proof.
    unfold weak, is_lt. intros W H. destruct (nocase_total (nm a) (nm b)) as [T|[T|T]].
    - apply (nocase_trans _ _ _ T H).
    - congruence.
    - destruct (nocase_less (nm a) s) eqn:E; [reflexivity|]. exfalso.
      destruct (nocase_total (nm a) s) as [U|[U|U]]; [congruence| |].
      + pose proof (nocase_trans _ _ _ H U) as C. rewrite (nocase_less_irrefl (nm b) (nm a)) in C; [discriminate|]. symmetry. exact T.
      + rewrite (nocase_less_irrefl (nm b) s) in H; [discriminate|]. unfold same_name in *. congruence.
  Qed.
  Lemma filter_none {Y} (P : Y -> bool) l : Forall (fun a => P a = false) l -> filter P l = [].
  Proof. induction 1 as [|a l H _ IH]; cbn; [reflexivity|]. rewrite H. exact IH. Qed.
  Lemma filter_all {Y} (P : Y -> bool) l : Forall (fun a => P a = true) l -> filter P l = l.
  Proof. induction 1 as [|a l H _ IH]; cbn; [reflexivity|]. rewrite H, IH. reflexivity. Qed.
  Lemma partition_sorted s l : StronglySorted weak l -> l = Lt s l ++ Eqs s l ++ Gt s l.
  Proof.
    induction 1 as [|a l S IH F]; [reflexivity|]. unfold Lt, Eqs, Gt in *. cbn [filter].
    destruct (three s a) as [(A & B & C)|[(A & B & C)|(A & B & C)]]; rewrite A, B, C.
    - cbn [app]. f_equal. exact IH.
    - assert (N : filter (is_lt s) l = []).
      { apply filter_none. apply Forall_forall. intros b Hb. rewrite Forall_forall in F. destruct (is_lt s b) eqn:X0; [|reflexivity].
        pose proof (lt_down s a b (F b Hb) X0). congruence. }
      rewrite N in *. cbn [app] in *. f_equal. exact IH.
    - assert (G : Forall (fun b => is_gt s b = true) l).
      { apply Forall_forall. intros b Hb. rewrite Forall_forall in F. apply (gt_up s a b (F b Hb) C). }
      assert (N1 : filter (is_lt s) l = []).
      { apply filter_none. eapply Forall_impl; [|exact G]. intros b Hb. destruct (three s b) as [(P & Q & R)|[(P & Q & R)|(P & Q & R)]]; congruence. }
      assert (N2 : filter (is_eq s) l = []).
      { apply filter_none. eapply Forall_impl; [|exact G]. intros b Hb. destruct (three s b) as [(P & Q & R)|[(P & Q & R)|(P & Q & R)]]; congruence. }
      rewrite N1, N2 in *. cbn [app] in *. f_equal. exact IH.
  Qed.
End sorted.

(** * Searches *)
Definition nm_of {V} (st : store) (e : named * V) : bytes := text st (n_item (fst e)).
Definition live_names {V} (st : store) (l : list (named * V)) : Prop := Forall (fun e => live st (n_item (fst e))) l.
Lemma lower_bound_ok {V} st k (l : list (named * V)) i : live st k -> live_names st l -> StronglySorted (weak (nm_of st)) l ->
  lower_bound st k i l = Ok (i + length (Lt (nm_of st) (text st k) l)).
Proof.
  intros K L S. revert i. induction l as [|[n v] l IH]; intros i; cbn [lower_bound Lt filter length].
  - f_equal. lia.
  - inversion L as [|? ? L1 L2]; subst. inversion S as [|? ? S1 F]; subst. cbn [fst] in L1. rewrite (is_less_ok _ _ _ L1 K). cbn [rbind].
    change (is_lt (nm_of st) (text st k) (n, v)) with (nocase_less (text st (n_item n)) (text st k)).
    destruct (nocase_less (text st (n_item n)) (text st k)) eqn:X0.
    + rewrite (IH L2 S1). unfold Lt. cbn [length]. f_equal. lia.
    + rewrite filter_none; [cbn; f_equal; lia|]. apply Forall_forall. intros b Hb. rewrite Forall_forall in F.
      destruct (is_lt (nm_of st) (text st k) b) eqn:Y; [|reflexivity].
      pose proof (lt_down (nm_of st) (text st k) _ _ (F b Hb) Y) as C. unfold is_lt, nm_of in C. cbn [fst] in C. congruence.
Qed.
Lemma find_name_ok {V} st k (l : list (named * V)) : live st k -> live_names st l -> StronglySorted (weak (nm_of st)) l ->
  find_name st k l = Ok (match Eqs (nm_of st) (text st k) l with [] => None | _ => Some (length (Lt (nm_of st) (text st k) l)) end).
Proof.
  intros K L S. unfold find_name. rewrite (lower_bound_ok _ _ _ _ K L S). cbn [rbind Nat.add].
  pose proof (partition_sorted (nm_of st) (text st k) l S) as P.
  set (a := Lt _ _ _) in *. set (b := Eqs _ _ _) in *. set (c := Gt _ _ _) in *.
  assert (nth_error l (length a) = nth_error (b ++ c) 0) as ->.
  { rewrite P at 1. rewrite nth_error_app2 by lia. rewrite Nat.sub_diag. reflexivity. }
  assert (LL : live_names st (a ++ b ++ c)) by (rewrite <- P; exact L). unfold live_names in LL. rewrite !Forall_app in LL. destruct LL as (_ & LB & LC).
  destruct b as [|[n v] b0] eqn:Eb; cbn [app].
  - destruct c as [|[n v] c0] eqn:Ec; [reflexivity|]. cbn [nth_error]. pose proof (Forall_inv LC) as L1. cbn [fst] in L1.
    rewrite (is_less_ok _ _ _ K L1). cbn [rbind].
    assert (G : is_gt (nm_of st) (text st k) (n, v) = true).
    { assert (In (n, v) (Gt (nm_of st) (text st k) l)) as I by (fold c; rewrite Ec; left; reflexivity). unfold Gt in I. apply filter_In in I. apply I. }
    unfold is_gt, nm_of in G. cbn [fst] in G. rewrite G. reflexivity.
  - cbn [nth_error]. pose proof (Forall_inv LB) as L1. cbn [fst] in L1. rewrite (is_less_ok _ _ _ K L1). cbn [rbind].
    assert (G : is_eq (nm_of st) (text st k) (n, v) = true).
    { assert (In (n, v) (Eqs (nm_of st) (text st k) l)) as I by (fold b; rewrite Eb; left; reflexivity). unfold Eqs in I. apply filter_In in I. apply I. }
    destruct (three (nm_of st) (text st k) (n, v)) as [(A1 & A2 & A3)|[(A1 & A2 & A3)|(A1 & A2 & A3)]]; try congruence.
    unfold is_gt, nm_of in A3. cbn [fst] in A3. rewrite A3. reflexivity.
Qed.
Lemma insert_ok {V} st n (v : V) l : live st (n_item n) -> live_names st l -> StronglySorted (weak (nm_of st)) l ->
  insert st n v l = Ok (Lt (nm_of st) (text st (n_item n)) l ++ Eqs (nm_of st) (text st (n_item n)) l ++ (n, v) :: Gt (nm_of st) (text st (n_item n)) l).
Proof.
  intros K L S. set (s := text st (n_item n)). induction l as [|[m w] l IH]; [reflexivity|].
  inversion L as [|? ? L1 L2]; subst. inversion S as [|? ? S1 F]; subst. cbn [fst] in L1. cbn [insert].
  rewrite (is_less_ok _ _ _ K L1). cbn [rbind]. specialize (IH L2 S1). unfold Lt, Eqs, Gt in *. cbn [filter].
  destruct (three (nm_of st) s (m, w)) as [(A & B & C)|[(A & B & C)|(A & B & C)]]; rewrite A, B, C; unfold is_gt, nm_of in C; cbn [fst] in C; fold s; rewrite C.
  - rewrite IH. reflexivity.
  - rewrite IH. cbn [rbind].
    assert (N : filter (is_lt (nm_of st) s) l = []).
    { apply filter_none. apply Forall_forall. intros b Hb. rewrite Forall_forall in F. destruct (is_lt (nm_of st) s b) eqn:X0; [|reflexivity].
      pose proof (lt_down (nm_of st) s _ _ (F b Hb) X0) as Z. congruence. }
    rewrite N. reflexivity.
  - assert (G : Forall (fun b => is_gt (nm_of st) s b = true) l).
    { apply Forall_forall. intros b Hb. rewrite Forall_forall in F. apply (gt_up (nm_of st) s _ _ (F b Hb)). exact C. }
    rewrite (filter_all _ _ G). rewrite !filter_none; [reflexivity| |].
    + eapply Forall_impl; [|exact G]. intros b Hb. destruct (three (nm_of st) s b) as [(P & Q & R)|[(P & Q & R)|(P & Q & R)]]; congruence.
    + eapply Forall_impl; [|exact G]. intros b Hb. destruct (three (nm_of st) s b) as [(P & Q & R)|[(P & Q & R)|(P & Q & R)]]; congruence.
Qed.
(** a run of equal names, then greater ones *)
Lemma equals_ok {V} st k (b c : list (named * V)) : live st k -> live_names st (b ++ c) ->
  Forall (fun e => is_gt (nm_of st) (text st k) e = false) b -> Forall (fun e => is_gt (nm_of st) (text st k) e = true) c ->
  equals st k (b ++ c) = Ok b.
Proof.
  intros K L B C. induction b as [|[n v] b IH]; cbn [app equals].
  - destruct c as [|[n v] c]; [reflexivity|]. inversion L; subst. cbn [fst equals] in *. rewrite is_less_ok by assumption. cbn [rbind].
    inversion C as [|? ? C1 _]; subst. unfold is_gt, nm_of in C1. cbn [fst] in C1. rewrite C1. reflexivity.
  - cbn [app] in L. inversion L; subst. inversion B as [|? ? B1 B2]; subst. cbn [fst] in *. rewrite is_less_ok by assumption. cbn [rbind].
    unfold is_gt, nm_of in B1. cbn [fst] in B1. rewrite B1. rewrite IH by assumption. reflexivity.
Qed.

(** * Ownership *)
Definition id_of (p : ptr) : list nat := match p with Copied i => [i] | _ => [] end.
Definition id_opt (p : option ptr) : list nat := match p with Some q => id_of q | None => [] end.
Definition ids_named (n : named) : list nat := id_of (n_item n) ++ id_opt (n_comment n).
Definition ids_keyed (l : keyed) : list nat := flat_map (fun e => ids_named (fst e) ++ id_of (snd e)) l.
Definition ids_data (d : list (named * keyed)) : list nat := flat_map (fun e => ids_named (fst e) ++ ids_keyed (snd e)) d.
Definition live_named (st : store) (n : named) : Prop := live st (n_item n) /\ live_opt st (n_comment n).
Definition live_keyed (st : store) (l : keyed) : Prop := Forall (fun e => live_named st (fst e) /\ live st (snd e)) l.
Definition live_data (st : store) (d : list (named * keyed)) : Prop := Forall (fun e => live_named st (fst e) /\ live_keyed st (snd e)) d.

(** every string the object can reach is alive, and every copy is reached once; [P]: the
    pointers held by the call in progress *)
Definition ids (P : list ptr) : list nat := flat_map id_of P.
Record own (P : list ptr) (st : store) : Prop := {
  own_live : live_data st (st_data st);
  own_comment : live_opt st (st_comment st);
  own_held : Forall (live st) P;
  own_once : NoDup (ids P ++ id_opt (st_comment st) ++ ids_data (st_data st));
  own_fresh : Forall (fun e => fst e < st_fresh st) (st_strings st) }.

Lemma copy_at_app l i j s : copy_at i (l ++ [(j, s)]) = match copy_at i l with Some t => Some t | None => if Nat.eqb j i then Some s else None end.
Proof. induction l as [|[k t] l IH]; cbn; [reflexivity|]. destruct (Nat.eqb k i); [reflexivity|exact IH]. Qed.
Lemma copy_at_fresh l i : Forall (fun e => fst e < i) l -> copy_at i l = None.
Proof. induction 1 as [|[k t] l H _ IH]; cbn in *; [reflexivity|]. destruct (Nat.eqb_spec k i); [lia|exact IH]. Qed.
Lemma copy_at_in l i s : copy_at i l = Some s -> In i (map fst l).
Proof. induction l as [|[k t] l IH]; cbn; [discriminate|]. destruct (Nat.eqb_spec k i); [auto|]. intros H. right. apply IH. exact H. Qed.
Lemma copy_at_filter l i (P : nat -> bool) : copy_at i (filter (fun e => P (fst e)) l) = if P i then copy_at i l else None.
Proof.
  induction l as [|[k t] l IH]; cbn; [destruct (P i); reflexivity|]. destruct (P k) eqn:Pk; cbn.
  - destruct (Nat.eqb_spec k i) as [->|N]; [rewrite Pk; reflexivity|exact IH].
  - destruct (Nat.eqb_spec k i) as [->|N]; [rewrite Pk in *; exact IH|exact IH].
Qed.
(** where a pointer may point *)
Definition agree (st st' : store) (p : ptr) : Prop := deref st' p = deref st p.
Lemma agree_live st st' p : agree st st' p -> live st p -> live st' p /\ text st' p = text st p.
Proof. intros A L. unfold agree in A. unfold live, text in *. rewrite A. destruct (deref st p); [auto| | |]; discriminate. Qed.
Lemma live_id st p i : live st p -> In i (id_of p) -> exists s, copy_at i (st_strings st) = Some s.
Proof.
  intros L H. destruct p as [s|s|j]; cbn in H; try contradiction. destruct H as [->|[]]. unfold live, text in L. cbn in L.
  destruct (copy_at i (st_strings st)) as [s|]; [eauto|discriminate].
Qed.
Lemma live_lt st P p i : own P st -> live st p -> In i (id_of p) -> i < st_fresh st.
Proof.
  intros O L H. destruct (live_id _ _ _ L H) as [s C]. apply copy_at_in in C. apply in_map_iff in C. destruct C as ([k t] & <- & I).
  pose proof (own_fresh _ _ O) as F. rewrite Forall_forall in F. apply (F _ I).
Qed.
