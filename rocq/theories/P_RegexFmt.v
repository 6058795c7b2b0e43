(** The two patterns of identify_format. *)
From Coq Require Import Lia.
From Verif Require Import Base P_Base CTypes StringUtils Spec_Strings P_Strings Regex Spec_Regex P_Regex.

Definition ALPHA : list (ascii * ascii) := [("A", "Z"); ("a", "z"); ("0", "9"); ("+", "+"); ("/", "/")]%char.
Definition A_ := Set_ ALPHA.
Definition E_ := Set_ [("=", "=")]%char.
Definition QUAD := Cat (Cat A_ (Cat A_ (Cat A_ (Cat A_ Eps)))) Eps.
Definition PAD2 := Cat (Cat A_ (Cat A_ Eps)) (Cat E_ (Cat E_ Eps)).
Definition PAD1 := Cat (Cat A_ (Cat A_ (Cat A_ Eps))) (Cat E_ Eps).
Definition TAIL := Or (Or PAD2 PAD1) Eps.
Definition THE_B64 := Cat Bol (Cat (Star true QUAD) (Cat TAIL (Cat Eol Eps))).
Definition THE_INI := Cat (Set_ [("[", "[")]%char) (Cat (Star false Any) (Cat (Set_ [("]", "]")]%char) Eps)).
Lemma b64_compiles : compile B64 = Some THE_B64. Proof. vm_compute. reflexivity. Qed.
Lemma ini_compiles : compile INI_SECTION = Some THE_INI. Proof. vm_compute. reflexivity. Qed.

Lemma set_is l p w q : matches (Set_ l) p w q <-> exists c, w = [c] /\ in_set c l = true.
Proof.
  split.
  - intros M. inversion M; subst. exists c. split; [reflexivity|]. apply in_set_spec. eauto.
  - intros (c & -> & I). apply in_set_spec in I as (a & b & I & A & B). econstructor; eassumption.
Qed.
Lemma cat_is a b p w q : matches (Cat a b) p w q <-> exists u v, w = u ++ v /\ matches a p u (v ++ q) /\ matches b (p ++ u) v q.
Proof.
  split.
  - intros M. inversion M; subst. eauto.
  - intros (u & v & -> & A & B). constructor; assumption.
Qed.
Lemma eps_is p w q : matches Eps p w q <-> w = [].
Proof. split; [intros M; inversion M; reflexivity|intros ->; constructor]. Qed.
Lemma or_is a b p w q : matches (Or a b) p w q <-> matches a p w q \/ matches b p w q.
Proof. split; [intros M; inversion M; auto|intros [M|M]; [apply m_left|apply m_right]; exact M]. Qed.
Lemma one_is x c : in_set c [(x, x)] = true <-> c = x.
Proof.
  rewrite in_set_spec. split.
  - intros (a & b & [E|[]] & A & B). injection E as <- <-. rewrite <- (ascii_N_embedding c), <- (ascii_N_embedding x). f_equal. lia.
  - intros ->. exists x, x. split; [left; reflexivity|split; apply N.le_refl].
Qed.
Lemma alpha_is c : in_set c ALPHA = true <-> b64_alpha c.
Proof. rewrite <- is_b64_char_spec. replace (in_set c ALPHA) with (is_b64_char c); [tauto|]. destruct c as [[] [] [] [] [] [] [] []]; reflexivity. Qed.

(** ** [...] *)
Lemma dots_sound r p w q : matches r p w q -> forall g, r = Star g Any -> forall c, In c w -> ~ line_break c.
Proof.
  induction 1; intros g' E c' I; try discriminate E.
  - destruct I.
  - injection E as -> ->. apply in_app_iff in I as [I|I]; [|eapply IHmatches2; [reflexivity|exact I]]. inversion H; subst. destruct I as [<-|[]]. assumption.
Qed.
Lemma dots_complete g w : forall p q, (forall c, In c w -> ~ line_break c) -> matches (Star g Any) p w q.
Proof.
  induction w as [|c w IH]; intros p q H; [constructor|]. apply (m_more g Any [c] w p q); [constructor; apply H; left; reflexivity|]. apply IH. intros x I. apply H. right. exact I.
Qed.
Lemma ini_is p w q : matches THE_INI p w q <-> exists name, w = "["%char :: name ++ ["]"%char] /\ forall c, In c name -> ~ line_break c.
Proof.
  unfold THE_INI. rewrite cat_is. split.
  - intros (u & v & -> & A & B). apply set_is in A as (c & -> & I). apply one_is in I as ->. apply cat_is in B as (name & v' & -> & A & B). apply cat_is in B as (x & y & -> & B & C). apply eps_is in C as ->. apply set_is in B as (c & -> & I). apply one_is in I as ->. exists name. split; [reflexivity|]. exact (dots_sound _ _ _ _ A _ eq_refl).
  - intros (name & -> & H). exists ["["%char], (name ++ ["]"%char]). split; [reflexivity|]. split; [apply set_is; exists "["%char; split; reflexivity|]. apply cat_is. exists name, ["]"%char]. split; [reflexivity|]. split; [apply dots_complete, H|]. apply cat_is. exists ["]"%char], []. split; [reflexivity|]. split; [apply set_is; exists "]"%char; split; reflexivity|apply eps_is; reflexivity].
Qed.
Lemma ini_pattern s : matches_some THE_INI s <-> bracketed_section s.
Proof.
  unfold matches_some, bracketed_section. split.
  - intros (p & w & q & -> & M). apply ini_is in M as (name & -> & H). exists p, name, q. split; [|exact H]. cbn [app]. rewrite <- app_assoc. reflexivity.
  - intros (p & name & q & -> & H). exists p, ("["%char :: name ++ ["]"%char]), q. split; [cbn [app]; rewrite <- app_assoc; reflexivity|]. apply ini_is. exists name. split; [reflexivity|exact H].
Qed.

(** ** base64 *)
Lemma alpha_cat b p w q : matches (Cat A_ b) p w q <-> exists c v, w = c :: v /\ b64_alpha c /\ matches b (p ++ [c]) v q.
Proof.
  rewrite cat_is. split.
  - intros (u & v & -> & A & B). apply set_is in A as (c & -> & I). apply alpha_is in I. exists c, v. auto.
  - intros (c & v & -> & A & B). exists [c], v. split; [reflexivity|]. split; [apply set_is; exists c; split; [reflexivity|apply alpha_is, A]|exact B].
Qed.
Lemma equals_cat b p w q : matches (Cat E_ b) p w q <-> exists v, w = "="%char :: v /\ matches b (p ++ ["="%char]) v q.
Proof.
  rewrite cat_is. split.
  - intros (u & v & -> & A & B). apply set_is in A as (c & -> & I). apply one_is in I as ->. exists v. auto.
  - intros (v & -> & B). exists ["="%char], v. split; [reflexivity|]. split; [apply set_is; exists "="%char; split; reflexivity|exact B].
Qed.
Lemma quad_is p w q : matches QUAD p w q <-> exists a b c d, w = [a; b; c; d] /\ b64_alpha a /\ b64_alpha b /\ b64_alpha c /\ b64_alpha d.
Proof.
  unfold QUAD. rewrite cat_is. split.
  - intros (u & v & -> & A & B). apply eps_is in B as ->. apply alpha_cat in A as (a & ? & -> & ? & A). apply alpha_cat in A as (b & ? & -> & ? & A). apply alpha_cat in A as (c & ? & -> & ? & A). apply alpha_cat in A as (d & ? & -> & ? & A). apply eps_is in A as ->. exists a, b, c, d. auto.
  - intros (a & b & c & d & -> & A & B & C & D). exists [a; b; c; d], []. split; [reflexivity|]. split; [|apply eps_is; reflexivity].
    apply alpha_cat. exists a, [b; c; d]. split; [reflexivity|]. split; [exact A|]. apply alpha_cat. exists b, [c; d]. split; [reflexivity|]. split; [exact B|]. apply alpha_cat. exists c, [d]. split; [reflexivity|]. split; [exact C|]. apply alpha_cat. exists d, []. split; [reflexivity|]. split; [exact D|apply eps_is; reflexivity].
Qed.
Lemma pad2_is p w q : matches PAD2 p w q <-> exists a b, w = [a; b; "="%char; "="%char] /\ b64_alpha a /\ b64_alpha b.
Proof.
  unfold PAD2. rewrite cat_is. split.
  - intros (u & v & -> & A & B). apply alpha_cat in A as (a & ? & -> & ? & A). apply alpha_cat in A as (b & ? & -> & ? & A). apply eps_is in A as ->. apply equals_cat in B as (? & -> & B). apply equals_cat in B as (? & -> & B). apply eps_is in B as ->. exists a, b. auto.
  - intros (a & b & -> & A & B). exists [a; b], ["="; "="]%char. split; [reflexivity|]. split.
    + apply alpha_cat. exists a, [b]. split; [reflexivity|]. split; [exact A|]. apply alpha_cat. exists b, []. split; [reflexivity|]. split; [exact B|apply eps_is; reflexivity].
    + apply equals_cat. exists ["="%char]. split; [reflexivity|]. apply equals_cat. exists []. split; [reflexivity|apply eps_is; reflexivity].
Qed.
Lemma pad1_is p w q : matches PAD1 p w q <-> exists a b c, w = [a; b; c; "="%char] /\ b64_alpha a /\ b64_alpha b /\ b64_alpha c.
Proof.
  unfold PAD1. rewrite cat_is. split.
  - intros (u & v & -> & A & B). apply alpha_cat in A as (a & ? & -> & ? & A). apply alpha_cat in A as (b & ? & -> & ? & A). apply alpha_cat in A as (c & ? & -> & ? & A). apply eps_is in A as ->. apply equals_cat in B as (? & -> & B). apply eps_is in B as ->. exists a, b, c. auto.
  - intros (a & b & c & -> & A & B & C). exists [a; b; c], ["="]%char. split; [reflexivity|]. split.
    + apply alpha_cat. exists a, [b; c]. split; [reflexivity|]. split; [exact A|]. apply alpha_cat. exists b, [c]. split; [reflexivity|]. split; [exact B|]. apply alpha_cat. exists c, []. split; [reflexivity|]. split; [exact C|apply eps_is; reflexivity].
    + apply equals_cat. exists []. split; [reflexivity|apply eps_is; reflexivity].
Qed.
Lemma tail_is p w q : matches TAIL p w q <-> matches PAD2 p w q \/ matches PAD1 p w q \/ w = [].
Proof. unfold TAIL. rewrite !or_is, eps_is. tauto. Qed.
Lemma quads_sound r p w q : matches r p w q -> r = Star true QUAD -> forall t, b64_text t -> b64_text (w ++ t).
Proof.
  induction 1; intros E t T; try discriminate E.
  - exact T.
  - injection E as -> ->. apply quad_is in H as (x & y & z & d & -> & ? & ? & ? & ?). cbn [app]. apply b64_quad; try assumption. apply IHmatches2; [reflexivity|exact T].
Qed.
Lemma b64_parts s : b64_text s -> exists u v, s = u ++ v /\ (forall p q, matches (Star true QUAD) p u q) /\ (forall p q, matches TAIL p v q).
Proof.
  induction 1 as [|a b A B|a b c A B C|a b c d r A B C D T (u & v & -> & U & V)].
  - exists [], []. split; [reflexivity|]. split; [constructor|]. intros p q. apply tail_is. auto.
  - exists [], [a; b; "="%char; "="%char]. split; [reflexivity|]. split; [constructor|]. intros p q. apply tail_is. left. apply pad2_is. exists a, b. auto.
  - exists [], [a; b; c; "="%char]. split; [reflexivity|]. split; [constructor|]. intros p q. apply tail_is. right. left. apply pad1_is. exists a, b, c. auto.
  - exists ([a; b; c; d] ++ u), v. split; [reflexivity|]. split; [|exact V]. intros p q. apply m_more; [|apply U]. apply quad_is. exists a, b, c, d. auto.
Qed.
Lemma b64_pattern s : matches_all THE_B64 s <-> b64_text s.
Proof.
  unfold matches_all, THE_B64. rewrite cat_is. split.
  - intros (x & y & -> & A & B). inversion A; subst. cbn [app] in *. apply cat_is in B as (u & v & -> & U & B). apply cat_is in B as (v1 & v2 & -> & V & B). apply cat_is in B as (e & f & -> & E & F). apply eps_is in F as ->. inversion E; subst. cbn [app]. rewrite app_nil_r.
    apply (quads_sound _ _ _ _ U eq_refl). apply tail_is in V as [V|[V| ->]]; [| |constructor].
    + apply pad2_is in V as (a & b & -> & ? & ?). apply b64_pad2; assumption.
    + apply pad1_is in V as (a & b & c & -> & ? & ? & ?). apply b64_pad1; assumption.
  - intros T. apply b64_parts in T as (u & v & -> & U & V). exists [], (u ++ v). split; [reflexivity|]. split; [constructor|]. apply cat_is. exists u, v. split; [reflexivity|]. split; [apply U|]. apply cat_is. exists v, []. split; [symmetry; apply app_nil_r|]. split; [apply V|]. apply cat_is. exists [], []. split; [reflexivity|]. split; [constructor|apply eps_is; reflexivity].
Qed.
Lemma b64_runs s : fst (run_match THE_B64 s) = b64_match s.
Proof.
  pose proof (run_match_spec THE_B64 s eq_refl) as X. rewrite b64_pattern, <- b64_match_spec in X. destruct (fst (run_match THE_B64 s)), (b64_match s); try reflexivity; [symmetry; apply X; reflexivity|apply X; reflexivity].
Qed.
Lemma ini_runs s : run_search THE_INI s = has_section s.
Proof.
  pose proof (run_search_spec THE_INI s eq_refl) as X. rewrite ini_pattern, <- has_section_spec in X. destruct (run_search THE_INI s), (has_section s); try reflexivity; [symmetry; apply X; reflexivity|apply X; reflexivity].
Qed.
Lemma formats_agree s : identify_format_re s = Some (identify_format s).
Proof. unfold identify_format_re, identify_format. rewrite b64_compiles, ini_compiles, b64_runs, ini_runs. reflexivity. Qed.
