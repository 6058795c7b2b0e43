(** The items of a text that is cut short. *)
From Coq Require Import Lia.
From Verif Require Import Base P_Base CTypes StringUtils Ini P_Ini Spec_Ini Spec_Cut.

Lemma begins_refl v : begins v v.
Proof. exists []. symmetry. apply app_nil_r. Qed.
Lemma begins_nil v : begins [] v.
Proof. exists v. reflexivity. Qed.
Lemma begins_cons c a b : begins a b -> begins (c :: a) (c :: b).
Proof. intros (t & ->). exists t. reflexivity. Qed.
Lemma firstn_begins n (s : bytes) : begins (firstn n s) s.
Proof. exists (skipn n s). symmetry. apply firstn_skipn. Qed.
Lemma begins_firstn a (b : bytes) : begins a b -> exists n, a = firstn n b.
Proof. intros (t & ->). exists (length a). rewrite firstn_app, Nat.sub_diag, firstn_all, app_nil_r. reflexivity. Qed.
(** two beginnings of the same text *)
Lemma begins_both a b c : begins a c -> begins b c -> begins a b \/ begins b a.
Proof.
  revert b c. induction a as [|x a IH]; intros b c A B; [left; apply begins_nil|]. destruct b as [|y b]; [right; apply begins_nil|].
  destruct A as (t & ->). destruct B as (u & E). injection E as <- E. destruct (IH b (a ++ t)) as [H|H]; [exists t; reflexivity|exists u; exact E|left; apply begins_cons; exact H|right; apply begins_cons; exact H].
Qed.

Lemma cstr_begins a b : begins a b -> begins (cstr a) (cstr b).
Proof.
  intros (t & ->). unfold cstr. induction a as [|c a IH]; [apply begins_nil|]. cbn [app span]. destruct (negb (Ascii.eqb c NUL)); [|apply begins_refl].
  destruct (span _ a) as [x y]. destruct (span _ (a ++ t)) as [z w]. apply begins_cons. exact IH.
Qed.
(** the lines of a beginning: the first ones and a beginning of the next *)
Lemma lines_begin s n : exists k p l, lines (firstn n s) = firstn k (lines s) ++ [p] /\ nth_error (lines s) k = Some l /\ begins p l.
Proof.
  revert n. induction s as [|c s IH]; intros n.
  - rewrite firstn_nil. exists 0, [], []. split; [reflexivity|]. split; [reflexivity|apply begins_refl].
  - destruct n as [|n].
    + destruct (lines (c :: s)) as [|l ls] eqn:E; [destruct (lines_nonnil (c :: s) E)|]. exists 0, [], l. split; [reflexivity|]. split; [reflexivity|apply begins_nil].
    + cbn [firstn lines]. destruct (IH n) as (k & p & l & E & N & B). destruct (is_eol c).
      * exists (S k), p, l. rewrite E. split; [reflexivity|]. split; [exact N|exact B].
      * destruct (lines s) as [|l0 ls] eqn:LS; [destruct (lines_nonnil s LS)|]. destruct k as [|k].
        -- cbn in E. rewrite E. cbn in N. injection N as ->. exists 0, (c :: p), (c :: l). split; [reflexivity|]. split; [reflexivity|apply begins_cons; exact B].
        -- cbn [firstn app] in E. rewrite E. exists (S k), p, l. split; [reflexivity|]. split; [exact N|exact B].
Qed.
(** reading the first lines, then others *)
Lemma read_app a : forall sec open, exists i sec' open', forall b, read_lines sec open (a ++ b) = i ++ read_lines sec' open' b.
Proof.
  induction a as [|l a IH]; intros sec open; [exists [], sec, open; reflexivity|]. cbn [app read_lines].
  set (l' := if open then "["%char :: l else l). destruct (beqb (strip l') ["["%char]).
  - destruct (IH sec true) as (i & s' & o' & H). exists i, s', o'. exact H.
  - destruct (meaning l') as [|n| |k v].
    + destruct (IH sec false) as (i & s' & o' & H). exists i, s', o'. exact H.
    + destruct (IH (SecNamed n) false) as (i & s' & o' & H). exists (ISection n :: i), s', o'. intros b. rewrite H. reflexivity.
    + destruct (IH SecBroken false) as (i & s' & o' & H). exists i, s', o'. exact H.
    + destruct (IH sec false) as (i & s' & o' & H). exists (IEntry sec k v :: i), s', o'. intros b. rewrite H. reflexivity.
Qed.
(** a stripped beginning is a beginning of the stripped text *)
Lemma rdrop_begins a b : begins a b -> begins (rdrop_while is_gap a) (rdrop_while is_gap b) .
Proof.
  intros (t & ->). destruct (rdrop_while_split is_gap a) as (g & E & G). destruct (rdrop_while_split is_gap (a ++ t)) as (h & F & H).
  set (x := rdrop_while is_gap a) in *. set (y := rdrop_while is_gap (a ++ t)) in *.
  assert (X : begins x (a ++ t)) by (exists (g ++ t); rewrite E at 1; rewrite <- app_assoc; reflexivity). assert (Y : begins y (a ++ t)) by (exists h; exact F).
  destruct (begins_both x y _ X Y) as [B|(u & B)]; [exact B|].
  (* y is a beginning of x: what x has beyond it is all gaps, but x ends with no gap *)
  exists []. rewrite app_nil_r. assert (U : forallb is_gap u = true).
  { assert (Q : h = u ++ g ++ t).
    { apply (app_inv_head y). rewrite <- F. rewrite E at 1. rewrite B, <- !app_assoc. reflexivity. }
    rewrite Q, forallb_app in H. apply andb_prop in H. apply H. }
  destruct u as [|c u _] using rev_ind; [rewrite app_nil_r in B; exact (eq_sym B)|exfalso].
  rewrite forallb_app in U. apply andb_prop in U as [_ U]. cbn in U. rewrite andb_true_r in U.
  assert (ID : rdrop_while is_gap x = x) by (unfold x; apply rdrop_while_app_id || (unfold rdrop_while; rewrite rev_involutive; f_equal; apply drop_while_id; apply drop_while_head)).
  rewrite B, app_assoc in ID. rewrite rdrop_while_app in ID by (cbn; rewrite U; reflexivity).
  destruct (rdrop_while_split is_gap (y ++ u)) as (z & Z & _). rewrite ID in Z. apply (f_equal (@length ascii)) in Z. rewrite !app_length in Z. cbn in Z. lia.
Qed.
Lemma strip_begins a b : begins a b -> begins (strip a) (strip b).
Proof.
  intros (t & ->). rewrite !strip_spec. destruct (drop_while_split is_gap a) as (p & E & P). destruct (drop_while is_gap a) as [|c r] eqn:D.
  - apply begins_nil.
  - assert (drop_while is_gap (a ++ t) = (c :: r) ++ t) as ->.
    { rewrite E, <- app_assoc, drop_while_app by exact P. apply drop_while_id. pose proof (drop_while_head is_gap a) as H. rewrite D in H. exact H. }
    apply rdrop_begins. exists t. reflexivity.
Qed.
Lemma cut_at_begins x a b u v : begins a b -> cut_at x a = Some (u, v) -> exists v', cut_at x b = Some (u, v') /\ begins v v'.
Proof. intros (t & ->) H. exists (v ++ t). split; [apply cut_at_app_some; exact H|exists t; reflexivity]. Qed.
(** the meaning of a beginning of a line *)
Lemma meaning_begins p l : begins p l ->
  match meaning p with
  | LHeader n => meaning l = LHeader n
  | LEntry k v' => exists v, meaning l = LEntry k v /\ begins v' v
  | LNothing | LBroken => True
  end.
Proof.
  intros B. apply strip_begins in B. unfold meaning. destruct (strip p) as [|c r]; [exact I|]. destruct B as (t & B). destruct (strip l) as [|c' r'] eqn:SL; [discriminate|]. injection B as -> RR.
  assert (B : begins r r') by (exists t; exact RR). clear RR.
  destruct (Ascii.eqb c ";" || Ascii.eqb c "#"); [exact I|]. destruct (Ascii.eqb c "[").
  - destruct (cut_at "]" r) as [[n x]|] eqn:C; [|exact I]. destruct (cut_at_begins _ _ _ _ _ B C) as (v' & -> & _). reflexivity.
  - destruct (cut_at "=" (c :: r)) as [[[|k0 k] v]|] eqn:C; [exact I| |exact I]. destruct (cut_at_begins _ _ _ _ _ (begins_cons c _ _ B) C) as (v' & -> & BV).
    exists (strip v'). split; [reflexivity|apply strip_begins; exact BV].
Qed.
Lemma meaning_open l : strip l = ["["%char] -> meaning l = LBroken.
Proof. intros E. unfold meaning. rewrite E. reflexivity. Qed.
Lemma read_cut sec open p l rest : begins p l -> cut_items (read_lines sec open [p]) (read_lines sec open (l :: rest)).
Proof.
  intros B. cbn [read_lines]. set (p' := if open then "["%char :: p else p). set (l' := if open then "["%char :: l else l).
  assert (B' : begins p' l') by (unfold p', l'; destruct open; [apply begins_cons|]; exact B). clearbody p' l'. clear B p l open.
  destruct (beqb (strip p') ["["%char]) eqn:SP; [apply (cut_between [])|]. pose proof (meaning_begins p' l' B') as M. destruct (meaning p') as [|n| |k v'].
  - apply (cut_between []).
  - assert (SL : beqb (strip l') ["["%char] = false) by (destruct (beqb_eq (strip l') ["["%char]) as [X _]; destruct (beqb (strip l') ["["%char]); [rewrite (meaning_open _ (X eq_refl)) in M; discriminate|reflexivity]).
    rewrite SL, M. apply (cut_between [ISection n]).
  - apply (cut_between []).
  - destruct M as (v & M & BV).
    assert (SL : beqb (strip l') ["["%char] = false) by (destruct (beqb_eq (strip l') ["["%char]) as [X _]; destruct (beqb (strip l') ["["%char]); [rewrite (meaning_open _ (X eq_refl)) in M; discriminate|reflexivity]).
    rewrite SL, M. apply (cut_within [] _ sec k v v' BV).
Qed.
Lemma cut_prefix i a b : cut_items a b -> cut_items (i ++ a) (i ++ b).
Proof. intros [x y|x y sec k v v' B]; rewrite !app_assoc; [apply cut_between|apply cut_within; exact B]. Qed.
Lemma firstn_nth {A} (l : list A) k x : nth_error l k = Some x -> l = firstn k l ++ x :: skipn (S k) l.
Proof. revert k. induction l as [|a l IH]; intros [|k] H; try discriminate; [injection H as ->; reflexivity|]. cbn [firstn app skipn]. f_equal. apply IH. exact H. Qed.
Lemma items_cut t n : cut_items (text_items (firstn n t)) (text_items t).
Proof.
  unfold text_items. destruct (begins_firstn _ _ (cstr_begins _ _ (firstn_begins n t))) as (m & ->). set (s := cstr t). clearbody s.
  destruct (lines_begin s m) as (k & p & l & E & N & B). rewrite E. destruct (read_app (firstn k (lines s)) (SecNamed []) false) as (i & sec & open & R). rewrite R.
  assert (RL : read_lines (SecNamed []) false (lines s) = i ++ read_lines sec open (l :: skipn (S k) (lines s))) by (rewrite <- R, <- (firstn_nth _ _ _ N); reflexivity). rewrite RL. apply cut_prefix, read_cut. exact B.
Qed.
Lemma entries_cut t n name : cut_entries (section_entries (firstn n t) name) (section_entries t name).
Proof.
  unfold section_entries. destruct (items_cut t n) as [a b|a b sec k v v' B]; rewrite !flat_map_app; [apply cut_before|].
  cbn [flat_map app]. rewrite app_nil_r. destruct sec as [m|]; cbn [item_entries]; [|cbn [app]; rewrite app_nil_r; apply cut_before].
  destruct (same_nameb m name); [|cbn [app]; rewrite app_nil_r; apply cut_before]. cbn [app]. apply cut_inside. exact B.
Qed.
