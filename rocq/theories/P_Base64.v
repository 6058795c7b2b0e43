(** Proofs about Base64.v. *)
From Verif Require Import Base CTypes Base64 P_Base Spec_Strings Spec_Base64.

Definition nrange (k : nat) : list N := map N.of_nat (seq 0 k).
Lemma nrange_in k n : (n < N.of_nat k)%N -> In n (nrange k).
Proof. intros H. unfold nrange. apply in_map_iff. exists (N.to_nat n). split; [lia|]. apply in_seq. lia. Qed.
Lemma nsweep k (p : N -> bool) : forallb p (nrange k) = true -> forall n, (n < N.of_nat k)%N -> p n = true.
Proof. intros H n Hn. rewrite forallb_forall in H. apply H, nrange_in, Hn. Qed.

Lemma unb64_at i : (i < 64)%N -> unb64 (b64_at i) = i.
Proof.
  intros H. apply N.eqb_eq. revert i H. apply (nsweep 64 (fun i => N.eqb (unb64 (b64_at i)) i)). vm_compute. reflexivity.
Qed.
Lemma b64_at_not_lf i : (i < 64)%N -> Ascii.eqb (b64_at i) LF = false.
Proof.
  intros H. apply negb_true_iff. revert i H. apply (nsweep 64 (fun i => negb (Ascii.eqb (b64_at i) LF))). vm_compute. reflexivity.
Qed.
Lemma b64_at_not_eq i : (i < 64)%N -> Ascii.eqb (b64_at i) "="%char = false.
Proof.
  intros H. apply negb_true_iff. revert i H. apply (nsweep 64 (fun i => negb (Ascii.eqb (b64_at i) "="%char))). vm_compute. reflexivity.
Qed.
Lemma b64_at_index i : (i < 64)%N -> alpha_index (b64_at i) (N.to_nat i).
Proof.
  intros H. unfold alpha_index, b64_at. apply nth_error_nth'. change (length _) with 64. lia.
Qed.

(** the 6-bit groups as numbers *)
Lemma code_hi c k : (N.shiftr (code c) k <= 255 / 2 ^ k)%N.
Proof. rewrite N.shiftr_div_pow2. apply N.div_le_mono; [apply N.pow_nonzero; lia|]. pose proof (code_lt c). lia. Qed.

Definition i0 (a : ascii) : N := N.shiftr (code a) 2.
Definition i1 (a b : ascii) : N := (N.shiftl (N.land 3 (code a)) 4 + N.shiftr (code b) 4)%N.
Definition i2 (b c : ascii) : N := (N.shiftl (N.land 15 (code b)) 2 + N.shiftr (code c) 6)%N.
Definition i3 (c : ascii) : N := N.land 63 (code c).
Definition i1' (a : ascii) : N := N.shiftl (N.land 3 (code a)) 4.
Definition i2' (b : ascii) : N := N.shiftl (N.land 15 (code b)) 2.

Ltac bsweep1 := intros; match goal with a : ascii |- _ =>
  pattern a; match goal with |- ?P a => idtac end end.

Lemma i0_lt a : (i0 a < 64)%N.
Proof. apply N.ltb_lt. revert a. apply byte_sweep. vm_compute. reflexivity. Qed.
Lemma i1_lt a b : (i1 a b < 64)%N.
Proof. apply N.ltb_lt. revert a b. apply byte_sweep2. vm_compute. reflexivity. Qed.
Lemma i2_lt a b : (i2 a b < 64)%N.
Proof. apply N.ltb_lt. revert a b. apply byte_sweep2. vm_compute. reflexivity. Qed.
Lemma i3_lt a : (i3 a < 64)%N.
Proof. apply N.ltb_lt. revert a. apply byte_sweep. vm_compute. reflexivity. Qed.
Lemma i1'_lt a : (i1' a < 64)%N.
Proof. apply N.ltb_lt. revert a. apply byte_sweep. vm_compute. reflexivity. Qed.
Lemma i2'_lt a : (i2' a < 64)%N.
Proof. apply N.ltb_lt. revert a. apply byte_sweep. vm_compute. reflexivity. Qed.

Lemma enc0_i a : enc0 a = b64_at (i0 a). Proof. reflexivity. Qed.
Lemma enc1_i a b : enc1 a b = b64_at (i1 a b). Proof. reflexivity. Qed.
Lemma enc2_i a b : enc2 a b = b64_at (i2 a b). Proof. reflexivity. Qed.
Lemma enc3_i a : enc3 a = b64_at (i3 a). Proof. reflexivity. Qed.

Lemma low_lt k a : (N.land (2 ^ k - 1) (code a) < 2 ^ k)%N.
Proof. rewrite N.land_comm, <- N.pred_sub, <- N.ones_equiv, N.land_ones. apply N.mod_lt, N.pow_nonzero. lia. Qed.

Lemma dec0_ok a b : dec0 (i0 a) (i1 a b) = a.
Proof. apply Ascii.eqb_eq. revert a b. apply byte_sweep2. vm_compute. reflexivity. Qed.
Lemma dec0_ok' a : dec0 (i0 a) (i1' a) = a.
Proof. apply Ascii.eqb_eq. revert a. apply byte_sweep. vm_compute. reflexivity. Qed.

Lemma dec1_gen x b z : (x < 4)%N -> (z < 4)%N ->
  dec1 (N.shiftl x 4 + N.shiftr (code b) 4) (N.shiftl (N.land 15 (code b)) 2 + z) = b.
Proof.
  intros Hx Hz. apply Ascii.eqb_eq.
  assert (H : forall b, forallb (fun x => forallb (fun z =>
     Ascii.eqb (dec1 (N.shiftl x 4 + N.shiftr (code b) 4) (N.shiftl (N.land 15 (code b)) 2 + z)) b) (nrange 4)) (nrange 4) = true)
    by (apply byte_sweep; vm_compute; reflexivity).
  specialize (H b). rewrite forallb_forall in H. specialize (H x (nrange_in 4 x Hx)).
  rewrite forallb_forall in H. exact (H z (nrange_in 4 z Hz)).
Qed.
Lemma dec1_ok a b c : dec1 (i1 a b) (i2 b c) = b.
Proof. apply dec1_gen; [exact (low_lt 2 a)|]. pose proof (code_hi c 6) as H. change (255 / 2 ^ 6)%N with 3%N in H. lia. Qed.
Lemma dec1_ok' a b : dec1 (i1 a b) (i2' b) = b.
Proof. unfold i1, i2'. rewrite <- (N.add_0_r (N.shiftl (N.land 15 (code b)) 2)). apply dec1_gen; [exact (low_lt 2 a)|lia]. Qed.
Lemma dec2_ok b c : dec2 (i2 b c) (i3 c) = c.
Proof. apply Ascii.eqb_eq. revert b c. apply byte_sweep2. vm_compute. reflexivity. Qed.

(** encoding without line feeds *)
Fixpoint enc_plain (bin : bytes) : bytes :=
  match bin with
  | b0 :: b1 :: b2 :: r => enc0 b0 :: enc1 b0 b1 :: enc2 b1 b2 :: enc3 b2 :: enc_plain r
  | [b0; b1] => [enc0 b0; enc1 b0 b1; b64_at (i2' b1); "="%char]
  | [b0] => [enc0 b0; b64_at (i1' b0); "="%char; "="%char]
  | [] => []
  end.

(** induction by groups of three *)
Lemma triple_ind (P : bytes -> Prop) :
  P [] -> (forall a, P [a]) -> (forall a b, P [a; b]) ->
  (forall a b c r, P r -> P (a :: b :: c :: r)) -> forall l, P l.
Proof.
  intros H0 H1 H2 H3 l. assert (G : forall n l, length l <= n -> P l).
  { induction n as [|n IH]; intros [|a [|b [|c r]]] Hl; cbn in Hl; auto; try lia. apply H3, IH. lia. }
  exact (G (length l) l (le_n _)).
Qed.

Lemma strip_app a b : strip_lf (a ++ b) = strip_lf a ++ strip_lf b.
Proof. apply filter_app. Qed.
Lemma strip_put line buf c : Ascii.eqb c LF = false -> strip_lf (put line buf c) = strip_lf buf ++ [c].
Proof.
  intros H. unfold put, add_CR_if_needed. rewrite strip_app. f_equal.
  - destruct (_ && _)%bool; [rewrite strip_app, app_nil_r|]; reflexivity.
  - unfold strip_lf. cbn [filter]. change "010"%char with LF. rewrite H. reflexivity.
Qed.

Lemma enc_plain_nolf bin : forallb (fun c => negb (Ascii.eqb c LF)) (enc_plain bin) = true.
Proof.
  induction bin as [|a|a b|a b c r IH] using triple_ind; cbn [enc_plain forallb]; [reflexivity|..];
   rewrite ?enc0_i, ?enc1_i, ?enc2_i, ?enc3_i, ?b64_at_not_lf by auto using i0_lt, i1_lt, i2_lt, i3_lt, i1'_lt, i2'_lt;
   [reflexivity..|exact IH].
Qed.

Lemma strip_enc_loop line buf bin : strip_lf (enc_loop line buf bin) = strip_lf buf ++ enc_plain bin.
Proof.
  revert buf. induction bin as [|a|a b|a b c r IH] using triple_ind; intros buf; cbn [enc_loop enc_plain].
  - rewrite app_nil_r. reflexivity.
  - fold (i1' a). rewrite !strip_put by (rewrite ?enc0_i; try apply b64_at_not_lf; auto using i0_lt, i1'_lt).
    rewrite <- !app_assoc. reflexivity.
  - fold (i2' b). rewrite !strip_put by (rewrite ?enc0_i, ?enc1_i; try apply b64_at_not_lf; auto using i0_lt, i1_lt, i2'_lt).
    rewrite <- !app_assoc. reflexivity.
  - rewrite IH, !strip_put by (rewrite ?enc0_i, ?enc1_i, ?enc2_i, ?enc3_i; apply b64_at_not_lf; auto using i0_lt, i1_lt, i2_lt, i3_lt).
    rewrite <- !app_assoc. reflexivity.
Qed.

Lemma base64_strip bin line : 3 <= length bin ->
  exists out, base64 bin line = Ok out /\ strip_lf out = enc_plain bin.
Proof.
  intros H. unfold base64. destruct (Nat.ltb_spec (length bin) 3); [lia|].
  eexists. split; [reflexivity|].
  destruct (_ && _)%bool; rewrite ?strip_app, strip_enc_loop; cbn [strip_lf filter app]; [|reflexivity].
  change (strip_lf [LF]) with (@nil ascii). apply app_nil_r.
Qed.

(** ** decoding: list view of the loop *)
Lemma str_at_ok s i c : nth_error s i = Some c -> str_at s i = Ok c.
Proof. unfold str_at. intros ->. reflexivity. Qed.
Lemma str_at_mid p c r : str_at (p ++ c :: r) (length p) = Ok c.
Proof. apply str_at_ok. rewrite nth_error_app2, Nat.sub_diag by lia. reflexivity. Qed.
Lemma str_at_mid' p q c r i : i = length p + length q -> str_at (p ++ q ++ c :: r) i = Ok c.
Proof. intros ->. apply str_at_ok. rewrite nth_error_app2 by lia. rewrite nth_error_app2 by lia. replace (_ - _ - _) with 0 by lia. reflexivity. Qed.

Lemma dec_loop_step f p a b c d r bound out :
  (N.of_nat (length p) <= bound)%N ->
  dec_loop (S f) (p ++ a :: b :: c :: d :: r) (length p) bound out =
  dec_loop f (p ++ a :: b :: c :: d :: r) (length p + 4) bound
     (out ++ [dec0 (unb64 a) (unb64 b); dec1 (unb64 b) (unb64 c); dec2 (unb64 c) (unb64 d)]).
Proof.
  intros H. cbn [dec_loop]. apply N.leb_le in H. rewrite H.
  rewrite str_at_mid. rewrite (str_at_mid' p [a] b (c :: d :: r)) by (cbn; lia).
  rewrite (str_at_mid' p [a; b] c (d :: r)) by (cbn; lia). rewrite (str_at_mid' p [a; b; c] d r) by (cbn; lia).
  reflexivity.
Qed.
Lemma dec_loop_stop f s n bound out : (bound < N.of_nat n)%N -> dec_loop f s n bound out = Ok (n, out).
Proof. intros H. destruct f; cbn [dec_loop]; apply N.leb_gt in H; rewrite H; reflexivity. Qed.

(** decoding [4k] characters from position [length p] *)
Fixpoint dec_quads (s : bytes) : bytes :=
  match s with
  | a :: b :: c :: d :: r =>
      dec0 (unb64 a) (unb64 b) :: dec1 (unb64 b) (unb64 c) :: dec2 (unb64 c) (unb64 d) :: dec_quads r
  | _ => []
  end.

Lemma dec_loop_quads k : forall f p q r bound out,
  length q = 4 * k -> k <= f -> (N.of_nat (length p + 4 * k) <= bound + 4)%N ->
  (bound < N.of_nat (length p + 4 * k))%N ->
  dec_loop f (p ++ q ++ r) (length p) bound out = Ok (length p + 4 * k, out ++ dec_quads q).
Proof.
  induction k as [|k IH]; intros f p q r bound out Hq Hf Hb1 Hb2.
  - destruct q; [|discriminate]. cbn [dec_quads]. rewrite app_nil_r, Nat.mul_0_r, Nat.add_0_r in *.
    apply dec_loop_stop. exact Hb2.
  - destruct q as [|a [|b [|c [|d q]]]]; cbn [length] in Hq; try lia.
    destruct f as [|f]; [lia|]. cbn [app]. rewrite dec_loop_step by lia.
    replace (p ++ a :: b :: c :: d :: q ++ r) with ((p ++ [a; b; c; d]) ++ q ++ r) by (rewrite <- app_assoc; reflexivity).
    replace (length p + 4) with (length (p ++ [a; b; c; d])) by (rewrite app_length; reflexivity).
    rewrite IH; rewrite ?app_length; cbn [length]; try lia. cbn [dec_quads]. rewrite <- app_assoc. f_equal. f_equal. lia.
Qed.

(** the loop from the start with a bound that lies beyond the text: some read is
    out of bounds *)
Lemma dec_loop_over f s n bound out :
  n <= length s -> length s + 4 < n + 4 * f -> (N.of_nat (length s) + 4 <= bound)%N ->
  dec_loop f s n bound out = Undef UbRead.
Proof.
  revert n out. induction f as [|f IH]; intros n out Hn Hf Hb; [lia|].
  cbn [dec_loop]. assert (E : (N.leb (N.of_nat n) bound) = true) by (apply N.leb_le; lia). rewrite E.
  assert (G : forall i, (exists c, str_at s i = Ok c) \/ (str_at s i = Undef UbRead)).
  { intros i. unfold str_at. destruct (nth_error s i); [left; eauto|]. destruct (Nat.eqb i (length s)); [left; eauto|right; reflexivity]. }
  assert (F : forall i, length s < i -> str_at s i = Undef UbRead).
  { intros i Hi. unfold str_at. rewrite (proj2 (nth_error_None s i)) by lia. destruct (Nat.eqb_spec i (length s)); [lia|reflexivity]. }
  destruct (G n) as [[a ->]| ->]; [cbn [rbind]|reflexivity].
  destruct (G (n + 1)) as [[b ->]| ->]; [cbn [rbind]|reflexivity].
  destruct (G (n + 2)) as [[c ->]| ->]; [cbn [rbind]|reflexivity].
  destruct (Nat.lt_ge_cases (length s) (n + 3)) as [Hlt|Hge]; [rewrite F by exact Hlt; reflexivity|].
  destruct (G (n + 3)) as [[d ->]| ->]; [cbn [rbind]|reflexivity].
  destruct (Nat.lt_ge_cases (length s) (n + 4)) as [Hlt|Hge4].
  - (* the next round starts after the terminator *)
    destruct f as [|f]; [lia|]. cbn [dec_loop].
    assert (E2 : (N.leb (N.of_nat (n + 4)) bound) = true) by (apply N.leb_le; lia).
    rewrite E2, F by lia. reflexivity.
  - apply IH; lia.
Qed.

Lemma eq_sign_le s i : eq_sign_at s i <= 1.
Proof. unfold eq_sign_at. destruct (nth_error s i); [destruct (_ =? _)%char|]; lia. Qed.
Lemma pad_le s : pad_count s <= 2.
Proof. unfold pad_count. pose proof (eq_sign_le s (length s - 1)). pose proof (eq_sign_le s (length s - 2)). lia. Qed.

(** unbase64 in terms of the stripped text *)
Definition unbase64_core (s : bytes) : res bytes :=
  let len := length s in
  let pad := pad_count s in
  if Nat.ltb len 2 then Ok []
  else if Nat.ltb (3 * len / 4) pad then Throw ExLength
  else
    let bound := size_sub (size_sub (N.of_nat len) 4) (N.of_nat pad) in
    '(charNo, out) <-- dec_loop (S len) s 0 bound [] ;;
    if Nat.eqb pad 1 then
      a <-- str_at s charNo ;;
      b <-- str_at s (charNo + 1) ;;
      c <-- str_at s (charNo + 2) ;;
      Ok (out ++ [dec0 (unb64 a) (unb64 b); dec1 (unb64 b) (unb64 c)])
    else if Nat.eqb pad 2 then
      a <-- str_at s charNo ;;
      b <-- str_at s (charNo + 1) ;;
      Ok (out ++ [dec0 (unb64 a) (unb64 b)])
    else Ok out.

Lemma unbase64_strip d : unbase64 d = unbase64_core (strip_lf d).
Proof.
  unfold unbase64, unbase64_core. change LF with "010"%char. fold (strip_lf d). generalize (strip_lf d) as s. intros s.
  assert (E : (if match nth_error s (length s - 1) with Some c => (c =? "=")%char | None => false end then 1 else 0) +
      (if match nth_error s (length s - 2) with Some c => (c =? "=")%char | None => false end then 1 else 0) = pad_count s).
  { unfold pad_count, eq_sign_at. destruct (nth_error s (length s - 1)), (nth_error s (length s - 2)); reflexivity. }
  cbv zeta. rewrite E. reflexivity.
Qed.

(** text of at least 4 + pad characters: where the loop ends *)
Lemma unbase64_loop s pad :
  4 + pad <= length s -> pad <= 2 ->
  exists k, 4 * k <= length s /\ 4 * k < length s - pad + 1 /\ length s - pad < 4 * k + 4 /\ 1 <= k /\
    dec_loop (S (length s)) s 0 (size_sub (size_sub (N.of_nat (length s)) 4) (N.of_nat pad)) []
    = Ok (4 * k, dec_quads (firstn (4 * k) s)).
Proof.
  intros H Hp. set (k := (length s - pad) / 4).
  assert (Hk : 4 * k <= length s - pad < 4 * k + 4).
  { unfold k. pose proof (Nat.div_mod (length s - pad) 4 ltac:(lia)). pose proof (Nat.mod_upper_bound (length s - pad) 4 ltac:(lia)). lia. }
  exists k. assert (1 <= k) by lia. repeat split; try lia.
  unfold size_sub. destruct (N.leb_spec 4 (N.of_nat (length s))); [|lia].
  destruct (N.leb_spec (N.of_nat pad) (N.of_nat (length s) - 4)); [|lia].
  rewrite <- (firstn_skipn (4 * k) s) at 2.
  rewrite (dec_loop_quads k (S (length s)) [] (firstn (4 * k) s) (skipn (4 * k) s)); cbn [length];
    rewrite ?firstn_length; try lia. reflexivity.
Qed.

Lemma str_at_lt s i : i < length s -> exists c, nth_error s i = Some c /\ str_at s i = Ok c.
Proof.
  intros H. destruct (nth_error s i) as [c|] eqn:E; [|apply nth_error_None in E; lia].
  exists c. split; [reflexivity|apply str_at_ok, E].
Qed.
Lemma str_at_le s i : i <= length s -> exists c, str_at s i = Ok c.
Proof.
  intros H. destruct (Nat.eq_dec i (length s)) as [ ->|]; [|destruct (str_at_lt s i) as [c [_ E]]; [lia|eauto]].
  exists NUL. unfold str_at. rewrite (proj2 (nth_error_None s (length s))) by lia. rewrite Nat.eqb_refl. reflexivity.
Qed.
Lemma str_at_gt s i : length s < i -> str_at s i = Undef UbRead.
Proof. intros H. unfold str_at. rewrite (proj2 (nth_error_None s i)) by lia. destruct (Nat.eqb_spec i (length s)); [lia|reflexivity]. Qed.

Lemma unbase64_short s : 2 <= length s -> length s < 4 + pad_count s -> 3 * length s / 4 >= pad_count s ->
  unbase64_core s = Undef UbRead.
Proof.
  intros H1 H2 H3. unfold unbase64_core. destruct (Nat.ltb_spec (length s) 2); [lia|].
  destruct (Nat.ltb_spec (3 * length s / 4) (pad_count s)); [lia|].
  rewrite dec_loop_over; [reflexivity|lia|lia|].
  pose proof (pad_le s). unfold size_sub, SIZE_MAX1.
  destruct (N.leb_spec 4 (N.of_nat (length s))); match goal with |- context [N.leb ?a ?b] => destruct (N.leb_spec a b) end; lia.
Qed.

(** the exact outcomes *)
Lemma unbase64_cases s :
  (length s < 2 /\ unbase64_core s = Ok []) \/
  (s = bs "==" /\ unbase64_core s = Throw ExLength) \/
  (2 <= length s /\ s <> bs "==" /\
   ((length s < 4 + pad_count s \/ (pad_count s = 1 /\ length s mod 4 = 1)) /\ unbase64_core s = Undef UbRead
   \/ ~ (length s < 4 + pad_count s \/ (pad_count s = 1 /\ length s mod 4 = 1)) /\ exists out, unbase64_core s = Ok out)).
Proof.
  destruct (Nat.lt_ge_cases (length s) 2) as [Hlt|Hge].
  { left. split; [exact Hlt|]. unfold unbase64_core. apply Nat.ltb_lt in Hlt. rewrite Hlt. reflexivity. }
  right. pose proof (pad_le s) as Hp. destruct (bytes_eq_dec s (bs "==")) as [ ->|Hne]; [left; split; reflexivity|].
  right. split; [exact Hge|]. split; [exact Hne|].
  assert (H3 : 3 * length s / 4 >= pad_count s).
  { destruct (Nat.eq_dec (length s) 2) as [E2|].
    - destruct s as [|a [|b [|c s]]]; cbn [length] in E2; try lia. change (3 * length [a; b] / 4) with 1.
      unfold pad_count, eq_sign_at. cbn. destruct (Ascii.eqb_spec b "="%char) as [ ->|]; destruct (Ascii.eqb_spec a "="%char) as [ ->|]; try lia.
      exfalso. apply Hne. reflexivity.
    - assert (2 <= 3 * length s / 4) by (apply Nat.div_le_lower_bound; lia). lia. }
  destruct (Nat.lt_ge_cases (length s) (4 + pad_count s)) as [Hs|Hl].
  { left. split; [left; exact Hs|]. apply unbase64_short; assumption. }
  destruct (unbase64_loop s (pad_count s) Hl Hp) as [k [K1 [K2 [K3 [K4 E]]]]].
  unfold unbase64_core. destruct (Nat.ltb_spec (length s) 2); [lia|].
  destruct (Nat.ltb_spec (3 * length s / 4) (pad_count s)); [lia|]. cbv zeta. rewrite E. cbn [rbind].
  destruct (Nat.eqb_spec (pad_count s) 1) as [P1|P1].
  - assert (Hdm : length s = 4 * (length s / 4) + length s mod 4) by (apply Nat.div_mod; lia).
    assert (Hmu : length s mod 4 < 4) by (apply Nat.mod_upper_bound; lia).
    destruct (str_at_le s (4 * k)) as [a ->]; [lia|]. destruct (str_at_le s (4 * k + 1)) as [b ->]; [lia|]. cbn [rbind].
    destruct (Nat.eq_dec (length s mod 4) 1) as [E1|E1].
    + left. split; [right; auto|]. rewrite str_at_gt by lia. reflexivity.
    + right. split; [lia|]. destruct (str_at_le s (4 * k + 2)) as [c ->]; [lia|]. eexists. reflexivity.
  - right. split; [lia|]. destruct (Nat.eqb_spec (pad_count s) 2) as [P2|P2]; [|eexists; reflexivity].
    destruct (str_at_le s (4 * k)) as [a ->]; [lia|]. destruct (str_at_le s (4 * k + 1)) as [b ->]; [lia|]. eexists. reflexivity.
Qed.

(** ** round trip *)
Lemma split_triples (l : bytes) : exists j t3 tail, l = t3 ++ tail /\ length t3 = 3 * j /\ length tail < 3.
Proof.
  exists (length l / 3), (firstn (3 * (length l / 3)) l), (skipn (3 * (length l / 3)) l).
  pose proof (Nat.div_mod (length l) 3 ltac:(lia)). pose proof (Nat.mod_upper_bound (length l) 3 ltac:(lia)).
  rewrite firstn_skipn, firstn_length, skipn_length. repeat split; lia.
Qed.

Lemma enc_plain_app t3 tail j : length t3 = 3 * j -> enc_plain (t3 ++ tail) = enc_plain t3 ++ enc_plain tail.
Proof.
  revert t3; induction j as [|j IH]; intros t3 H.
  - destruct t3; [reflexivity|discriminate].
  - destruct t3 as [|a [|b [|c t3]]]; cbn [length] in H; try lia. cbn [app enc_plain]. rewrite IH by lia. reflexivity.
Qed.
Lemma enc_plain_length3 t3 j : length t3 = 3 * j -> length (enc_plain t3) = 4 * j.
Proof.
  revert t3; induction j as [|j IH]; intros t3 H.
  - destruct t3; [reflexivity|discriminate].
  - destruct t3 as [|a [|b [|c t3]]]; cbn [length] in H; try lia. cbn [enc_plain length]. rewrite IH by lia. lia.
Qed.
Lemma dec_enc_quads t3 j : length t3 = 3 * j -> dec_quads (enc_plain t3) = t3.
Proof.
  revert t3; induction j as [|j IH]; intros t3 H.
  - destruct t3; [reflexivity|discriminate].
  - destruct t3 as [|a [|b [|c t3]]]; cbn [length] in H; try lia. cbn [enc_plain dec_quads]. rewrite IH by lia.
    rewrite enc0_i, enc1_i, enc2_i, enc3_i, !unb64_at by auto using i0_lt, i1_lt, i2_lt, i3_lt.
    rewrite dec0_ok, dec1_ok, dec2_ok. reflexivity.
Qed.

Lemma pad_count_end p x y : pad_count (p ++ [x; y]) =
  (if Ascii.eqb y "="%char then 1 else 0) + (if Ascii.eqb x "="%char then 1 else 0).
Proof.
  unfold pad_count, eq_sign_at. rewrite app_length. cbn [length].
  replace (length p + 2 - 1) with (length p + 1) by lia. replace (length p + 2 - 2) with (length p) by lia.
  rewrite !nth_error_app2 by lia. replace (length p + 1 - length p) with 1 by lia. rewrite Nat.sub_diag. reflexivity.
Qed.

Lemma enc_plain_pad3 t3 j : length t3 = 3 * S j -> pad_count (enc_plain t3) = 0.
Proof.
  intros H.
  assert (E : exists t' a b c, t3 = t' ++ [a; b; c] /\ length t' = 3 * j).
  { exists (firstn (3 * j) t3). pose proof (firstn_skipn (3 * j) t3) as E.
    assert (L : length (skipn (3 * j) t3) = 3) by (rewrite skipn_length; lia).
    destruct (skipn (3 * j) t3) as [|a [|b [|c [|d r]]]]; cbn in L; try lia.
    exists a, b, c. split; [symmetry; exact E|]. rewrite firstn_length. lia. }
  destruct E as [t' [a [b [c [-> Ht]]]]]. rewrite (enc_plain_app t' [a; b; c] j Ht). cbn [enc_plain].
  change [enc0 a; enc1 a b; enc2 b c; enc3 c] with ([enc0 a; enc1 a b] ++ [enc2 b c; enc3 c]).
  rewrite app_assoc, pad_count_end, enc2_i, enc3_i, !b64_at_not_eq by auto using i2_lt, i3_lt. reflexivity.
Qed.

Lemma size_sub_le a b : (b <= a)%N -> size_sub a b = (a - b)%N.
Proof. intros H. unfold size_sub. apply N.leb_le in H. rewrite H. reflexivity. Qed.

Lemma unbase64_core_enc bin : 3 <= length bin -> unbase64_core (enc_plain bin) = Ok bin.
Proof.
  intros H. destruct (split_triples bin) as [j [t3 [tail [-> [H3 Ht]]]]].
  rewrite app_length in H. assert (Hj : 1 <= j) by lia.
  rewrite (enc_plain_app _ _ _ H3). pose proof (enc_plain_length3 _ _ H3) as L3.
  destruct tail as [|a [|b [|c tail]]]; cbn [length] in Ht; try lia; cbn [enc_plain].
  - rewrite !app_nil_r. unfold unbase64_core. destruct j as [|j]; [lia|].
    rewrite (enc_plain_pad3 _ _ H3), L3. destruct (Nat.ltb_spec (4 * S j) 2); [lia|].
    destruct (Nat.ltb_spec (3 * (4 * S j) / 4) 0); [lia|]. cbv zeta.
    rewrite (size_sub_le _ 4) by lia; rewrite size_sub_le by lia.
    pose proof (dec_loop_quads (S j) (S (4 * S j)) [] (enc_plain t3) [] (N.of_nat (4 * S j) - 4 - N.of_nat 0) []) as E.
    cbn [app length] in E. rewrite app_nil_r in E. rewrite E by (rewrite ?L3; lia).
    cbn [rbind Nat.eqb app]. rewrite (dec_enc_quads _ _ H3). reflexivity.
  - change [enc0 a; b64_at (i1' a); "="%char; "="%char] with ([enc0 a; b64_at (i1' a)] ++ ["="%char; "="%char]).
    unfold unbase64_core. rewrite app_assoc, pad_count_end. cbn [Ascii.eqb Bool.eqb Nat.add].
    rewrite <- app_assoc, app_length, L3. cbn [app length].
    destruct (Nat.ltb_spec (4 * j + 4) 2); [lia|].
    assert (Hd : 2 <= 3 * (4 * j + 4) / 4) by (apply Nat.div_le_lower_bound; lia).
    destruct (Nat.ltb_spec (3 * (4 * j + 4) / 4) 2); [lia|]. cbv zeta. rewrite (size_sub_le _ 4) by lia; rewrite size_sub_le by lia.
    pose proof (dec_loop_quads j (S (4 * j + 4)) [] (enc_plain t3) [enc0 a; b64_at (i1' a); "="%char; "="%char] (N.of_nat (4 * j + 4) - 4 - N.of_nat 2) []) as E.
    cbn [app length] in E. rewrite E by (rewrite ?L3; lia). cbn [rbind Nat.eqb Nat.add].
    replace (4 * j) with (length (enc_plain t3)) by exact L3. rewrite str_at_mid. cbn [rbind].
    rewrite (str_at_mid' (enc_plain t3) [enc0 a] (b64_at (i1' a)) ["="%char; "="%char]) by reflexivity. cbn [rbind].
    rewrite (dec_enc_quads _ _ H3), enc0_i, !unb64_at, dec0_ok' by auto using i0_lt, i1'_lt. reflexivity.
  - change [enc0 a; enc1 a b; b64_at (i2' b); "="%char] with ([enc0 a; enc1 a b] ++ [b64_at (i2' b); "="%char]).
    unfold unbase64_core. rewrite app_assoc, pad_count_end, (b64_at_not_eq (i2' b)) by apply i2'_lt. cbn [Ascii.eqb Bool.eqb Nat.add].
    rewrite <- app_assoc, app_length, L3. cbn [app length].
    destruct (Nat.ltb_spec (4 * j + 4) 2); [lia|].
    assert (Hd : 2 <= 3 * (4 * j + 4) / 4) by (apply Nat.div_le_lower_bound; lia).
    destruct (Nat.ltb_spec (3 * (4 * j + 4) / 4) 1); [lia|]. cbv zeta. rewrite (size_sub_le _ 4) by lia; rewrite size_sub_le by lia.
    pose proof (dec_loop_quads j (S (4 * j + 4)) [] (enc_plain t3) [enc0 a; enc1 a b; b64_at (i2' b); "="%char] (N.of_nat (4 * j + 4) - 4 - N.of_nat 1) []) as E.
    cbn [app length] in E. rewrite E by (rewrite ?L3; lia). cbn [rbind Nat.eqb Nat.add].
    replace (4 * j) with (length (enc_plain t3)) by exact L3. rewrite str_at_mid. cbn [rbind].
    rewrite (str_at_mid' (enc_plain t3) [enc0 a] (enc1 a b) [b64_at (i2' b); "="%char]) by reflexivity. cbn [rbind].
    rewrite (str_at_mid' (enc_plain t3) [enc0 a; enc1 a b] (b64_at (i2' b)) ["="%char]) by reflexivity. cbn [rbind].
    rewrite (dec_enc_quads _ _ H3), enc0_i, enc1_i, !unb64_at, dec0_ok, dec1_ok' by auto using i0_lt, i1_lt, i2'_lt. reflexivity.
Qed.

Lemma base64_round_trip d line : 3 <= length d -> exists text, base64 d line = Ok text /\ unbase64 text = Ok d.
Proof.
  intros H. destruct (base64_strip d line H) as [out [E S]]. exists out. split; [exact E|].
  rewrite unbase64_strip, S. apply unbase64_core_enc, H.
Qed.

Lemma base64_ub d line : base64 d line = Undef UbRead <-> length d < 3.
Proof. unfold base64. destruct (Nat.ltb_spec (length d) 3); split; intros; (reflexivity || lia || discriminate). Qed.

(** ** RFC 4648 *)
Definition beql (a b : list bool) : bool := if list_eq_dec Bool.bool_dec a b then true else false.
Lemma beql_eq a b : beql a b = true -> a = b.
Proof. unfold beql. destruct (list_eq_dec Bool.bool_dec a b); congruence. Qed.

Lemma bits_i0 a : bits_of 6 (i0 a) = firstn 6 (bits8 a).
Proof. apply beql_eq. revert a. apply byte_sweep. vm_compute. reflexivity. Qed.
Lemma bits_i1 a b : bits_of 6 (i1 a b) = skipn 6 (bits8 a) ++ firstn 4 (bits8 b).
Proof. apply beql_eq. revert a b. apply byte_sweep2. vm_compute. reflexivity. Qed.
Lemma bits_i2 b c : bits_of 6 (i2 b c) = skipn 4 (bits8 b) ++ firstn 2 (bits8 c).
Proof. apply beql_eq. revert b c. apply byte_sweep2. vm_compute. reflexivity. Qed.
Lemma bits_i3 c : bits_of 6 (i3 c) = skipn 2 (bits8 c).
Proof. apply beql_eq. revert c. apply byte_sweep. vm_compute. reflexivity. Qed.
Lemma bits_i1' a : bits_of 6 (i1' a) = skipn 6 (bits8 a) ++ repeat false 4.
Proof. apply beql_eq. revert a. apply byte_sweep. vm_compute. reflexivity. Qed.
Lemma bits_i2' b : bits_of 6 (i2' b) = skipn 4 (bits8 b) ++ repeat false 2.
Proof. apply beql_eq. revert b. apply byte_sweep. vm_compute. reflexivity. Qed.

Lemma bits3 a b c rest : bits_of 6 (i0 a) ++ bits_of 6 (i1 a b) ++ bits_of 6 (i2 b c) ++ bits_of 6 (i3 c) ++ rest
  = bits8 a ++ bits8 b ++ bits8 c ++ rest.
Proof.
  rewrite bits_i0, bits_i1, bits_i2, bits_i3, <- !app_assoc, app_assoc, firstn_skipn. f_equal.
Qed.

Lemma enc_plain_encodes bin : encodes (enc_plain bin) bin.
Proof.
  unfold encodes. induction bin as [|a|a b|a b c r IH] using triple_ind; cbn [enc_plain].
  - exists [], [], 0. cbn. repeat split; [constructor|lia].
  - exists [enc0 a; b64_at (i1' a)], [N.to_nat (i0 a); N.to_nat (i1' a)], 4. split; [reflexivity|]. split; [|split; [|lia]].
    + repeat constructor; [rewrite enc0_i|]; apply b64_at_index; auto using i0_lt, i1'_lt.
    + cbn [map concat]. rewrite !N2Nat.id, bits_i0, bits_i1', !app_nil_r, app_assoc, firstn_skipn. reflexivity.
  - exists [enc0 a; enc1 a b; b64_at (i2' b)], [N.to_nat (i0 a); N.to_nat (i1 a b); N.to_nat (i2' b)], 2.
    split; [reflexivity|]. split; [|split; [|lia]].
    + repeat constructor; rewrite ?enc0_i, ?enc1_i; apply b64_at_index; auto using i0_lt, i1_lt, i2'_lt.
    + cbn [map concat]. rewrite !N2Nat.id, bits_i0, bits_i1, bits_i2', !app_nil_r, <- !app_assoc, app_assoc, firstn_skipn. reflexivity.
  - destruct IH as [cs [idx [z [E [F [B Hz]]]]]].
    exists (enc0 a :: enc1 a b :: enc2 b c :: enc3 c :: cs),
      (N.to_nat (i0 a) :: N.to_nat (i1 a b) :: N.to_nat (i2 b c) :: N.to_nat (i3 c) :: idx), z.
    split; [|split; [|split; [|exact Hz]]].
    + rewrite E. cbn [app length]. do 4 f_equal. replace (S (S (S (S (length cs))))) with (length cs + 1 * 4) by lia.
      rewrite Nat.mod_add by lia. reflexivity.
    + repeat (constructor; [rewrite ?enc0_i, ?enc1_i, ?enc2_i, ?enc3_i; apply b64_at_index; auto using i0_lt, i1_lt, i2_lt, i3_lt|]). exact F.
    + cbn [map concat]. rewrite !N2Nat.id, B, bits3, <- !app_assoc. reflexivity.
Qed.

Lemma base64_rfc d line out : base64 d line = Ok out -> encodes (strip_lf out) d.
Proof.
  intros H. assert (3 <= length d).
  { destruct (Nat.lt_ge_cases (length d) 3) as [L|]; [|assumption]. apply (base64_ub d line) in L. congruence. }
  destruct (base64_strip d line H0) as [o [E S]]. rewrite H in E. injection E as <-. rewrite S. apply enc_plain_encodes.
Qed.

(** ** line structure *)
Definition wf_lines (line : Z) (buf : bytes) : Prop :=
  forall i c, nth_error buf i = Some c -> (c = LF <-> ((Z.of_nat i + 1) mod line = 0)%Z).

Lemma put_wf line buf c : (2 <= line)%Z -> c <> LF -> wf_lines line buf -> wf_lines line (put line buf c).
Proof.
  intros Hl Hc W. unfold put, add_CR_if_needed. destruct (Z.ltb_spec 0 line); [|lia]. cbn [andb].
  destruct (Z.eqb_spec ((Z.of_nat (length buf) + 1) mod line) 0) as [E|E]; intros i x Hx.
  - rewrite <- app_assoc in Hx. cbn [app] in Hx. destruct (Nat.lt_ge_cases i (length buf)) as [L|G].
    { rewrite nth_error_app1 in Hx by exact L. apply (W _ _ Hx). }
    rewrite nth_error_app2 in Hx by exact G. destruct (i - length buf) as [|[|k]] eqn:Ei; cbn in Hx.
    + injection Hx as <-. replace i with (length buf) by lia. tauto.
    + injection Hx as <-. split; [contradiction|]. replace i with (length buf + 1) by lia. intros E2. exfalso.
      rewrite Nat2Z.inj_add in E2. change (Z.of_nat 1) with 1%Z in E2.
      rewrite <- Z.add_mod_idemp_l, E in E2 by lia. rewrite Z.mod_small in E2 by lia. lia.
    + destruct k; discriminate.
  - destruct (Nat.lt_ge_cases i (length buf)) as [L|G].
    { rewrite nth_error_app1 in Hx by exact L. apply (W _ _ Hx). }
    rewrite nth_error_app2 in Hx by exact G. destruct (i - length buf) as [|k] eqn:Ei; cbn in Hx.
    + injection Hx as <-. replace i with (length buf) by lia. split; [contradiction|tauto].
    + destruct k; discriminate.
Qed.

Lemma b64_at_ne i : (i < 64)%N -> b64_at i <> LF.
Proof. intros H E. apply b64_at_not_lf in H. rewrite E in H. discriminate. Qed.

Lemma enc_loop_wf line buf bin : (2 <= line)%Z -> wf_lines line buf -> wf_lines line (enc_loop line buf bin).
Proof.
  intros Hl. revert buf. induction bin as [|a|a b|a b c r IH] using triple_ind; intros buf W; cbn [enc_loop].
  - exact W.
  - fold (i1' a). repeat apply put_wf; auto; rewrite ?enc0_i; try discriminate; apply b64_at_ne; auto using i0_lt, i1'_lt.
  - fold (i2' b). repeat apply put_wf; auto; rewrite ?enc0_i, ?enc1_i; try discriminate; apply b64_at_ne; auto using i0_lt, i1_lt, i2'_lt.
  - apply IH. repeat apply put_wf; auto; rewrite ?enc0_i, ?enc1_i, ?enc2_i, ?enc3_i; apply b64_at_ne; auto using i0_lt, i1_lt, i2_lt, i3_lt.
Qed.

Lemma base64_lines d line out : (2 <= line)%Z -> base64 d line = Ok out ->
  forall i c, nth_error out i = Some c -> (c = LF <-> ((Z.of_nat i + 1) mod line = 0)%Z \/ i = length out - 1).
Proof.
  intros Hl. unfold base64. destruct (Nat.ltb_spec (length d) 3) as [|Hd]; [discriminate|]. intros [= <-].
  assert (W : wf_lines line (enc_loop line [] d)).
  { apply enc_loop_wf; [exact Hl|]. intros [|i] c H; discriminate. }
  set (buf := enc_loop line [] d) in *. destruct (Z.eqb_spec line 0); [lia|]. cbn [negb andb].
  destruct (Ascii.eqb_spec (last buf NUL) LF) as [EL|EL]; cbn [negb]; intros i c H.
  - rewrite (W _ _ H). split; [auto|]. intros [E|E]; [exact E|]. rewrite <- (W _ _ H).
    subst i. destruct buf as [|x buf'] eqn:Eb using rev_ind; [discriminate|].
    rewrite last_last in EL. subst x. rewrite app_length in H. cbn [length] in H.
    replace (length buf' + 1 - 1) with (length buf') in H by lia. rewrite nth_error_app_last in H. congruence.
  - rewrite app_length. cbn [length]. destruct (Nat.lt_ge_cases i (length buf)) as [L|G].
    + rewrite nth_error_app1 in H by exact L. rewrite (W _ _ H). split; [auto|]. intros [E|E]; [exact E|lia].
    + rewrite nth_error_app2 in H by exact G. destruct (i - length buf) as [|k] eqn:Ei; cbn in H; [|destruct k; discriminate].
      injection H as <-. split; [intros _; right; lia|reflexivity].
Qed.
