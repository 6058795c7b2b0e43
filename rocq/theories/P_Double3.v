(** strtod against the texts of numbers. *)
From Coq Require Import Lia QArith.
From Verif Require Import Base P_Base CTypes StringUtils IniEdit StrToD Spec_Double P_Double1 P_Double2.
Local Open Scope nat_scope.

Definition stops (p : ascii -> bool) (t : bytes) : Prop := match t with [] => True | c :: _ => p c = false end.
Lemma span_inv p s a t : span p s = (a, t) -> s = a ++ t /\ Forall (fun c => p c = true) a /\ stops p t.
Proof.
  revert a t. induction s as [|c r IH]; intros a t; cbn [span]; [intros H; injection H as <- <-; auto using Forall_nil; repeat split; constructor|].
  destruct (p c) eqn:E.
  - destruct (span p r) as [x y]. intros H. injection H as <- <-. destruct (IH _ _ eq_refl) as (-> & F & S). split; [reflexivity|]. split; [constructor; assumption|exact S].
  - intros H. injection H as <- <-. split; [reflexivity|]. split; [constructor|exact E].
Qed.
Lemma span_all p a t : Forall (fun c => p c = true) a -> stops p t -> span p (a ++ t) = (a, t).
Proof.
  intros F S. induction F as [|c r H _ IH].
  - cbn [app]. destruct t as [|c r]; [reflexivity|]. cbn in S |- *. rewrite S. reflexivity.
  - cbn [app span]. rewrite H, IH. reflexivity.
Qed.
(** figures *)
Lemma fig_digit c d : nth_error (bs "0123456789abcdef") (N.to_nat d) = Some c \/ nth_error (bs "0123456789ABCDEF") (N.to_nat d) = Some c -> digit_val c = Some d.
Proof.
  intros H. assert (L : (N.to_nat d < 16)%nat) by (destruct H as [H|H]; assert (X := nth_error_Some (bs "0123456789abcdef") (N.to_nat d)); [|clear X; assert (X := nth_error_Some (bs "0123456789ABCDEF") (N.to_nat d))]; rewrite H in X; apply X; discriminate).
  rewrite <- (N2Nat.id d). set (n := N.to_nat d) in *. clearbody n. do 16 (destruct n as [|n]; [destruct H as [H|H]; injection H as <-; reflexivity|]). lia.
Qed.
Lemma digit_fig c d : digit_val c = Some d -> nth_error (bs "0123456789abcdef") (N.to_nat d) = Some c \/ nth_error (bs "0123456789ABCDEF") (N.to_nat d) = Some c.
Proof. destruct c as [[] [] [] [] [] [] [] []]; vm_compute; intros H; (discriminate H || (injection H as <-; vm_compute; auto)). Qed.
Lemma figures_digits b s ds : figures b s ds -> Forall (fun c => is_base_digit b c = true) s /\ forall acc, digits b s acc = (fold_left (fun a d => a * b + d)%N ds acc, []).
Proof.
  induction 1 as [|c d s ds [L H] _ [F IH]]; [split; [constructor|reflexivity]|].
  apply fig_digit in H. apply N.ltb_lt in L. split.
  - constructor; [|exact F]. unfold is_base_digit. rewrite H. exact L.
  - intros acc. cbn [digits fold_left]. rewrite H, L. apply IH.
Qed.
Lemma figures_value b s ds : figures b s ds -> digits_value b s = in_base b ds.
Proof. intros H. unfold digits_value. rewrite (proj2 (figures_digits _ _ _ H)). reflexivity. Qed.
Lemma digits_figures b s : Forall (fun c => is_base_digit b c = true) s -> exists ds, figures b s ds.
Proof.
  induction 1 as [|c s H _ (ds & IH)]; [exists []; constructor|]. unfold is_base_digit in H. destruct (digit_val c) as [d|] eqn:E; [|discriminate].
  exists (d :: ds). constructor; [|exact IH]. split; [apply N.ltb_lt; exact H|apply digit_fig; exact E].
Qed.
Lemma figures_app b s ds t es : figures b s ds -> figures b t es -> figures b (s ++ t) (ds ++ es).
Proof. apply Forall2_app. Qed.
Lemma figures_length b s ds : figures b s ds -> length s = length ds.
Proof. induction 1; cbn [length]; congruence. Qed.
Lemma figures_nil b ds : figures b [] ds -> ds = [].
Proof. inversion 1. reflexivity. Qed.

(** signs *)
Lemma sign_inv s neg t : take_sign s = (neg, t) -> exists sg, s = sg ++ t /\ sign_text neg sg.
Proof.
  destruct s as [|c r]; cbn [take_sign]; [intros H; injection H as <- <-; exists []; cbn; auto|].
  destruct (Ascii.eqb_spec c "-") as [->|]; [intros H; injection H as <- <-; exists (bs "-"); cbn; auto|].
  destruct (Ascii.eqb_spec c "+") as [->|]; intros H; injection H as <- <-; [exists (bs "+")|exists []]; cbn; auto.
Qed.
Definition no_sign (t : bytes) : Prop := stops (fun c => Ascii.eqb c "-" || Ascii.eqb c "+") t.
Lemma sign_all neg sg t : sign_text neg sg -> no_sign t -> take_sign (sg ++ t) = (neg, t).
Proof.
  intros H N. destruct neg; cbn in H; [subst; reflexivity|]. destruct H as [->| ->]; [|reflexivity]. cbn [app]. destruct t as [|c r]; [reflexivity|]. cbn in N |- *.
  apply orb_false_iff in N as [-> ->]. reflexivity.
Qed.
(** blanks *)
Lemma space_white c : isspace c = true <-> white c.
Proof. destruct c as [[] [] [] [] [] [] [] []]; unfold white; vm_compute; (split; [intros H; (discriminate H || tauto)|intros H; (reflexivity || (repeat destruct H as [H|H]; try discriminate H; destruct H))]). Qed.
Lemma spaces_inv s : exists ws, s = ws ++ drop_while isspace s /\ Forall white ws.
Proof.
  induction s as [|c r (ws & E & F)]; [exists []; split; [reflexivity|constructor]|]. cbn [drop_while]. destruct (isspace c) eqn:S.
  - exists (c :: ws). split; [cbn [app]; f_equal; exact E|]. constructor; [apply space_white; exact S|exact F].
  - exists []. split; [reflexivity|constructor].
Qed.
Lemma spaces_all ws t : Forall white ws -> stops isspace t -> drop_while isspace (ws ++ t) = t.
Proof.
  intros F S. induction F as [|c r H _ IH].
  - cbn [app]. destruct t as [|c r]; [reflexivity|]. cbn in S |- *. rewrite S. reflexivity.
  - cbn [app drop_while]. apply space_white in H. rewrite H. exact IH.
Qed.
(** mantissas *)
Lemma mantissa_inv b s whole frac r : take_mantissa b s = Some (whole, frac, r) -> exists t, s = t ++ r /\ figures_text b (digits_value b (whole ++ frac)) (length frac) t.
Proof.
  unfold take_mantissa. destruct (span (is_base_digit b) s) as [w t] eqn:S1. apply span_inv in S1 as (-> & F1 & _). destruct (digits_figures b w F1) as (ds & D1).
  assert (WHOLE : w <> [] -> figures_text b (digits_value b w) 0 w).
  { intros NE. rewrite (figures_value _ _ _ D1). apply ft_whole with (ds := ds); [exact D1|]. intros ->. inversion D1. congruence. }
  destruct t as [|c t].
  { destruct w as [|x w]; [discriminate|]. intros H. injection H as <- <- <-. exists (x :: w). split; [reflexivity|]. rewrite app_nil_r. apply WHOLE. discriminate. }
  destruct (Ascii.eqb_spec c ".") as [->|N].
  2:{ destruct w as [|x w]; [discriminate|]. intros H. injection H as <- <- <-. exists (x :: w). split; [reflexivity|]. rewrite app_nil_r. apply WHOLE. discriminate. }
  destruct (span (is_base_digit b) t) as [f u] eqn:S2. apply span_inv in S2 as (-> & F2 & _). destruct (digits_figures b f F2) as (es & D2).
  assert (NE : w ++ f <> [] -> figures_text b (digits_value b (w ++ f)) (length f) (w ++ bs "." ++ f)).
  { intros X. rewrite (figures_value _ _ _ (figures_app _ _ _ _ _ D1 D2)), (figures_length _ _ _ D2). apply ft_point; [exact D1|exact D2|]. intros Y. apply X. apply app_eq_nil in Y as [-> ->]. inversion D1. inversion D2. reflexivity. }
  assert (SP : w ++ "."%char :: f ++ u = (w ++ bs "." ++ f) ++ u) by (rewrite <- app_assoc; reflexivity). rewrite SP.
  destruct w as [|x w]; [destruct f as [|y f]; [discriminate|]|]; intros H; injection H as <- <- <-; eexists; (split; [reflexivity|]); apply NE; discriminate.
Qed.
Definition after_mantissa (b : N) (t : bytes) : Prop := stops (is_base_digit b) t /\ stops (fun c => Ascii.eqb c ".") t.
Lemma mantissa_all b v k s e : figures_text b v k s -> after_mantissa b e -> is_base_digit b "." = false ->
  exists whole frac, take_mantissa b (s ++ e) = Some (whole, frac, e) /\ digits_value b (whole ++ frac) = v /\ length frac = k.
Proof.
  intros H [S1 S2] P. unfold take_mantissa. inversion H as [s0 ds D NE|s0 ds t es D1 D2 NE]; subst.
  - rewrite (span_all _ _ _ (proj1 (figures_digits _ _ _ D)) S1). exists s, []. rewrite app_nil_r. split; [|split; [apply figures_value; exact D|reflexivity]].
    assert (X : s <> []) by (intros ->; inversion D; congruence). destruct e as [|c e]; [destruct s; [congruence|reflexivity]|]. cbn in S2. rewrite S2. destruct s; [congruence|reflexivity].
  - replace ((s0 ++ bs "." ++ t) ++ e) with (s0 ++ ("."%char :: t ++ e)) by (rewrite <- app_assoc; reflexivity).
    assert (P' : stops (is_base_digit b) ("."%char :: t ++ e)) by exact P. rewrite (span_all _ _ _ (proj1 (figures_digits _ _ _ D1)) P'). change (Ascii.eqb "." ".") with true. cbv iota. rewrite (span_all _ _ _ (proj1 (figures_digits _ _ _ D2)) S1).
    exists s0, t. split; [|split; [apply figures_value, figures_app; assumption|apply (figures_length _ _ _ D2)]].
    destruct s0; [|reflexivity]. destruct t; [|reflexivity]. apply figures_nil in D1. apply figures_nil in D2. subst. cbn in NE. congruence.
Qed.
(** exponents *)
Definition letters (upper lower : ascii) : bytes := [lower; upper].
Lemma exponent_inv up low s x : (forall c, toupper c = up -> In c (letters up low)) -> take_exponent up s = (x, []) -> exponent_text (letters up low) x s.
Proof.
  intros UP. unfold take_exponent. destruct s as [|c t]; [intros H; injection H as <-; constructor|].
  destruct (Ascii.eqb_spec (toupper c) up) as [U|]; [|discriminate]. destruct (take_sign t) as [neg u] eqn:SG. apply sign_inv in SG as (sg & -> & SG).
  destruct (span (is_base_digit 10) u) as [ds r] eqn:S. apply span_inv in S as (-> & F & _). destruct (digits_figures 10 ds F) as (es & D). destruct ds as [|d ds]; [discriminate|]. intros H. injection H as <- ->.
  rewrite app_nil_r, (figures_value _ _ _ D). apply ex_some; [apply UP; exact U|exact SG|exact D|]. intros ->. inversion D.
Qed.
Lemma figures_head b s ds : figures b s ds -> ds <> [] -> exists c r, s = c :: r /\ is_base_digit b c = true.
Proof. intros H NE. destruct (figures_digits _ _ _ H) as [F _]. destruct F as [|c r X _]; [inversion H; congruence|]. exists c, r. auto. Qed.
Lemma ten_sixteen c : is_base_digit 10 c = true -> is_base_digit 16 c = true.
Proof. unfold is_base_digit. destruct (digit_val c); [|discriminate]. rewrite !N.ltb_lt. lia. Qed.
(** a figure or a point is none of the other characters *)
Lemma digit_plain c : is_base_digit 16 c = true \/ c = "."%char ->
  isspace c = false /\ Ascii.eqb c "-" || Ascii.eqb c "+" = false /\ Ascii.eqb (toupper c) "I" = false /\ Ascii.eqb (toupper c) "N" = false /\ Ascii.eqb (toupper c) "X" = false.
Proof. destruct c as [[] [] [] [] [] [] [] []]; vm_compute; intros [H|H]; (discriminate H || auto). Qed.
Lemma exponent_all up low s x : (forall c, In c (letters up low) -> toupper c = up) -> exponent_text (letters up low) x s -> take_exponent up s = (x, []).
Proof.
  intros UP H. inversion H as [|c neg sg t ds C SG D NE]; subst; [reflexivity|]. unfold take_exponent. rewrite (UP c C), Ascii.eqb_refl.
  destruct (figures_head _ _ _ D NE) as (d & r & -> & DG). rewrite (sign_all neg sg _ SG) by (apply digit_plain; left; apply ten_sixteen; exact DG).
  assert (SP : span (is_base_digit 10) (d :: r) = (d :: r, [])) by (rewrite <- (app_nil_r (d :: r)) at 1; apply span_all; [apply (figures_digits _ _ _ D)|exact I]). rewrite SP. rewrite (figures_value _ _ _ D). reflexivity.
Qed.
(** words *)
Lemma word_inv up low : length (bs up) = length (bs low) -> (forall c p, In p (combine (bs up) (bs low)) -> toupper c = fst p -> c = fst p \/ c = snd p) ->
  forall s r, take_word (bs up) s = Some r -> exists w, s = w ++ r /\ word_text up low w.
Proof.
  unfold word_text. generalize (bs up) (bs low). intros us. induction us as [|u us IH]; intros ls L UP s r H.
  - injection H as ->. exists []. split; [reflexivity|constructor].
  - destruct ls as [|l ls]; [discriminate|]. destruct s as [|c s]; [discriminate|]. cbn [take_word] in H. destruct (Ascii.eqb_spec (toupper c) u) as [E|]; [|discriminate].
    injection L as L. destruct (IH ls L (fun c p I => UP c p (or_intror I)) s r H) as (w & -> & W). exists (c :: w). split; [reflexivity|]. cbn [combine]. constructor; [|exact W].
    apply (UP c (u, l)); [left; reflexivity|exact E].
Qed.
Lemma word_all up low : length (bs up) = length (bs low) -> (forall c p, In p (combine (bs up) (bs low)) -> c = fst p \/ c = snd p -> toupper c = fst p) ->
  forall w r, word_text up low w -> take_word (bs up) (w ++ r) = Some r.
Proof.
  unfold word_text. generalize (bs up) (bs low). intros us. induction us as [|u us IH]; intros ls L UP w r H.
  - inversion H. destruct r; reflexivity.
  - destruct ls as [|l ls]; [discriminate|]. cbn [combine] in H. inversion H as [|c p w' ps C W]; subst. cbn [app take_word]. rewrite (UP c (u, l) (or_introl eq_refl) C), Ascii.eqb_refl. injection L as L.
    apply (IH ls L); [intros; apply (UP c0 p); [right; assumption|assumption]|exact W].
Qed.
Ltac letter := intros c p H; cbn in H; repeat (destruct H as [<-|H]; [cbn [fst snd]; destruct c as [[] [] [] [] [] [] [] []]; vm_compute; intros H; try (destruct H as [H|H]); try discriminate H; auto|]); destruct H.
Lemma inf_inv s r : take_word (bs "INF") s = Some r -> exists w, s = w ++ r /\ word_text "INF" "inf" w.
Proof. apply word_inv; [reflexivity|letter]. Qed.
Lemma infinity_inv s r : take_word (bs "INFINITY") s = Some r -> exists w, s = w ++ r /\ word_text "INFINITY" "infinity" w.
Proof. apply word_inv; [reflexivity|letter]. Qed.
Lemma nan_inv s r : take_word (bs "NAN") s = Some r -> exists w, s = w ++ r /\ word_text "NAN" "nan" w.
Proof. apply word_inv; [reflexivity|letter]. Qed.
Lemma inf_all w r : word_text "INF" "inf" w -> take_word (bs "INF") (w ++ r) = Some r.
Proof. apply word_all; [reflexivity|letter]. Qed.
Lemma infinity_all w r : word_text "INFINITY" "infinity" w -> take_word (bs "INFINITY") (w ++ r) = Some r.
Proof. apply word_all; [reflexivity|letter]. Qed.
Lemma nan_all w r : word_text "NAN" "nan" w -> take_word (bs "NAN") (w ++ r) = Some r.
Proof. apply word_all; [reflexivity|letter]. Qed.
Lemma nan_char_is c : nan_char c = true <-> word_char c.
Proof.
  destruct c as [[] [] [] [] [] [] [] []]; unfold word_char; vm_compute; (split; [intros H; (discriminate H || tauto)|intros H; (reflexivity || (repeat (destruct H as [H|H]; [discriminate H|]); destruct H))]).
Qed.
Lemma payload_inv t : take_payload t = [] -> t = [] \/ exists u, Forall word_char u /\ t = bs "(" ++ u ++ bs ")".
Proof.
  destruct t as [|c t]; [auto|]. cbn [take_payload]. destruct (Ascii.eqb_spec c "(") as [->|]; [|discriminate]. destruct (span nan_char t) as [u [|d r]] eqn:S; [discriminate|].
  destruct (Ascii.eqb_spec d ")") as [->|]; [|discriminate]. intros ->. right. apply span_inv in S as (-> & F & _). exists u. split; [|reflexivity]. eapply Forall_impl; [|exact F]. intros a. apply nan_char_is.
Qed.
Lemma payload_all t : t = [] \/ (exists u, Forall word_char u /\ t = bs "(" ++ u ++ bs ")") -> take_payload t = [].
Proof.
  intros [->|(u & F & ->)]; [reflexivity|]. change (bs "(" ++ u ++ bs ")") with ("("%char :: u ++ bs ")"). cbn [take_payload]. change (Ascii.eqb "(" "(") with true. cbv iota.
  rewrite span_all; [reflexivity| |reflexivity]. eapply Forall_impl; [|exact F]. intros a. apply nan_char_is.
Qed.

(** * what strtod accepts is the text of the number *)
Lemma upE c : toupper c = "E"%char -> In c (letters "E" "e").
Proof. destruct c as [[] [] [] [] [] [] [] []]; vm_compute; intros H; (discriminate H || tauto). Qed.
Lemma upP c : toupper c = "P"%char -> In c (letters "P" "p").
Proof. destruct c as [[] [] [] [] [] [] [] []]; vm_compute; intros H; (discriminate H || tauto). Qed.
Lemma upX c : toupper c = "X"%char -> c = "x"%char \/ c = "X"%char.
Proof. destruct c as [[] [] [] [] [] [] [] []]; vm_compute; intros H; (discriminate H || tauto). Qed.
Lemma decimal_inv neg s x : take_decimal neg s = Some (x, []) -> exists q, unsigned_text q s /\ stands_for neg q x.
Proof.
  unfold take_decimal. destruct (take_mantissa 10 s) as [[[w f] r]|] eqn:M; [|discriminate]. destruct (take_exponent "E" r) as [e r'] eqn:E. intros H. injection H as <- ->.
  apply mantissa_inv in M as (t & -> & M). apply (exponent_inv _ _ _ _ upE) in E.
  eexists. split; [apply ut_decimal; [exact M|exact E]|]. apply (round_number_ok neg 10). reflexivity.
Qed.
Lemma hex_inv neg s x : take_hex neg s = Some (x, []) -> exists q, unsigned_text q s /\ stands_for neg q x.
Proof.
  unfold take_hex. destruct s as [|z [|y t]]; [discriminate|discriminate|]. destruct (Ascii.eqb_spec z "0") as [->|]; [|discriminate]. destruct (Ascii.eqb_spec (toupper y) "X") as [Y|]; [|discriminate]. cbn [andb].
  destruct (take_mantissa 16 t) as [[[w f] r]|] eqn:M; [|discriminate]. destruct (take_exponent "P" r) as [e r'] eqn:E. intros H. injection H as <- ->.
  apply mantissa_inv in M as (u & -> & M). apply (exponent_inv _ _ _ _ upP) in E.
  eexists. split; [change ("0"%char :: y :: u ++ r) with (["0"%char; y] ++ u ++ r); apply ut_hex; [exact M|exact E|]|apply (round_number_ok neg 2); reflexivity].
  apply upX in Y as [->| ->]; cbn; auto.
Qed.
Lemma strtod_inv s x : strtod s = (Some x, []) -> number_text x s.
Proof.
  unfold strtod. destruct (spaces_inv s) as (ws & E & W). destruct (take_sign (drop_while isspace s)) as [neg t] eqn:SG. apply sign_inv in SG as (sg & SE & SG). rewrite SE in E.
  destruct (take_word (bs "INFINITY") t) as [r|] eqn:T1.
  { intros H. injection H as <- ->. apply infinity_inv in T1 as (w & -> & T1). rewrite app_nil_r in E. rewrite E. apply nt_infinite; auto. }
  destruct (take_word (bs "INF") t) as [r|] eqn:T2.
  { intros H. injection H as <- ->. apply inf_inv in T2 as (w & -> & T2). rewrite app_nil_r in E. rewrite E. apply nt_infinite; auto. }
  destruct (take_word (bs "NAN") t) as [r|] eqn:T3.
  { intros H. injection H as <- P. apply nan_inv in T3 as (w & -> & T3). rewrite E. apply nt_nan; auto. apply payload_inv. exact P. }
  destruct (take_hex neg t) as [[y r]|] eqn:T4.
  { intros H. injection H as -> ->. apply hex_inv in T4 as (q & T4 & Q). rewrite E. apply nt_number with (q := q) (neg := neg); auto. }
  destruct (take_decimal neg t) as [[y r]|] eqn:T5; [|discriminate].
  intros H. injection H as -> ->. apply decimal_inv in T5 as (q & T5 & Q). rewrite E. apply nt_number with (q := q) (neg := neg); auto.
Qed.
