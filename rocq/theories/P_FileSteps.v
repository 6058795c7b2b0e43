(** Reading a file step by step. *)
From Coq Require Import Lia.
From Verif Require Import Base CTypes StringUtils Registry ExecEnv Strategies Locate Licensecc AcquireIo P_Base P_Io FileSteps Spec_Acquire Spec_FileSteps.

Lemma deliver_next d at_ n f : forall off want j got j', deliver d at_ n f off want j = (got, j') -> j <= j'.
Proof.
  induction f as [|f IH]; intros off want j got j' H; cbn [deliver] in H; [injection H as _ <-; lia|]. destruct want as [|want]; [injection H as _ <-; lia|].
  destruct (k_most d (at_ j)) as [m|]; [|injection H as _ <-; lia]. destruct (firstn _ _) as [|c r]; [injection H as _ <-; lia|].
  destruct (deliver d at_ n f (off + length (c :: r)) (S want - length (c :: r)) (S j)) as [rest j1] eqn:E. injection H as _ <-. apply IH in E. lia.
Qed.
Lemma read_next d at_ j p : j < snd (read_steps d at_ j p).
Proof.
  unfold read_steps. destruct (k_path d (at_ j) p) as [n|]; [|cbn; lia]. cbv zeta. destruct (deliver _ _ _ _ _ _ _) as [got j'] eqn:E. apply deliver_next in E. cbn. lia.
Qed.
Lemma nth_firstn {A} k (l : list A) i : i < k -> nth_error (firstn k l) i = nth_error l i.
Proof. revert k i. induction l as [|a l IH]; intros [|k] [|i] H; cbn; try lia; try reflexivity. apply IH. lia. Qed.
Lemma nth_skipn {A} k (l : list A) i : nth_error (skipn k l) i = nth_error l (k + i).
Proof. revert k. induction l as [|a l IH]; intros [|k]; cbn; try reflexivity; [destruct i; reflexivity|apply IH]. Qed.
Lemma buffer_pos : 1 <= BUFFER.
Proof. apply Nat.leb_le. vm_compute. reflexivity. Qed.
Global Opaque BUFFER.
(** the bytes delivered, one by one *)
Lemma deliver_bytes d at_ n f : forall off want j got j', deliver d at_ n f off want j = (got, j') -> want <= f ->
  length got <= want /\
  (exists when, (forall a b, a <= b -> when a <= when b) /\ (forall i, j <= when i) /\ (forall i, i < length got -> when i < j' /\ nth_error (k_data d (at_ (when i)) n) (off + i) = nth_error got i)) /\
  (length got < want -> j < j' /\ (k_most d (at_ (j' - 1)) = None \/ length (k_data d (at_ (j' - 1)) n) <= off + length got)).
Proof.
  induction f as [|f IH]; intros off want j got j' H L; cbn [deliver] in H.
  { injection H as <- <-. split; [cbn; lia|]. split; [exists (fun _ => j); split; [lia|split; [lia|intros i X; cbn in X; lia]]|cbn; lia]. }
  destruct want as [|want]. { injection H as <- <-. split; [cbn; lia|]. split; [exists (fun _ => j); split; [lia|split; [lia|intros i X; cbn in X; lia]]|cbn; lia]. }
  destruct (k_most d (at_ j)) as [m|] eqn:M.
  2: { injection H as <- <-. split; [cbn; lia|]. split; [exists (fun _ => j); split; [lia|split; [lia|intros i X; cbn in X; lia]]|]. intros _. split; [lia|left]. replace (S j - 1) with j by lia. exact M. }
  remember (firstn (Nat.min BUFFER (Nat.max 1 m)) (skipn off (k_data d (at_ j) n))) as chunk eqn:C.
  assert (CN : forall i, i < length chunk -> nth_error (k_data d (at_ j) n) (off + i) = nth_error chunk i).
  { intros i Hi. rewrite C in Hi |- *. rewrite firstn_length in Hi. rewrite nth_firstn by lia. rewrite nth_skipn. reflexivity. }
  destruct chunk as [|c r].
  { injection H as <- <-. split; [cbn; lia|]. split; [exists (fun _ => j); split; [lia|split; [lia|intros i X; cbn in X; lia]]|]. intros _. split; [lia|right]. replace (S j - 1) with j by lia. cbn [length].
    assert (X : length (firstn (Nat.min BUFFER (Nat.max 1 m)) (skipn off (k_data d (at_ j) n))) = 0) by (rewrite <- C; reflexivity). rewrite firstn_length, skipn_length in X. pose proof buffer_pos. lia. }
  set (ch := c :: r) in *. destruct (deliver d at_ n f (off + length ch) (S want - length ch) (S j)) as [rest j1] eqn:E. pose proof (f_equal fst H) as G1. pose proof (f_equal snd H) as G2. cbn [fst snd] in G1, G2. subst got j'. clear H.
  assert (LC : 1 <= length ch) by (cbn; lia). destruct (IH _ _ _ _ _ E ltac:(lia)) as (I1 & (when & W1 & W2 & W3) & I3). pose proof (deliver_next _ _ _ _ _ _ _ _ _ E) as NX.
  assert (LF : length (firstn (S want) ch) = Nat.min (S want) (length ch)) by apply firstn_length.
  split; [rewrite app_length, LF; lia|]. split.
  - exists (fun i => if i <? length ch then j else when (i - length ch)). split; [|split].
    + intros a b AB. destruct (Nat.ltb_spec a (length ch)), (Nat.ltb_spec b (length ch)); try lia; [|apply W1; lia]. specialize (W2 (b - length ch)). lia.
    + intros i. specialize (W2 (i - length ch)). destruct (i <? length ch); lia.
    + intros i Hi. rewrite app_length, LF in Hi. destruct (Nat.ltb_spec i (length ch)) as [X|X].
      * split; [lia|]. rewrite (CN i X). destruct (Nat.ltb_spec i (S want)) as [Y|Y]; [|lia]. rewrite nth_error_app1 by lia. rewrite nth_firstn by lia. reflexivity.
      * destruct (Nat.leb_spec (length ch) (S want)) as [Y|Y]; [|lia]. destruct (W3 (i - length ch) ltac:(lia)) as [A B]. split; [exact A|]. rewrite nth_error_app2 by lia. rewrite LF. replace (Nat.min (S want) (length ch)) with (length ch) by lia. rewrite <- B. f_equal. lia.
  - rewrite app_length, LF. intros Hl. destruct (Nat.leb_spec (length ch) (S want)) as [Y|Y]; [|lia]. destruct (I3 ltac:(lia)) as [A B]. split; [lia|]. destruct B as [B|B]; [left; exact B|right]. lia.
Qed.

(** ** one reading *)
Lemma max_data : MAX_LICENSE_DATA = 4096. Proof. reflexivity. Qed.
Lemma read_found d at_ j p f j' : read_steps d at_ j p = (Some f, j') ->
  exists n got, k_path d (at_ j) p = Some n /\ f = {| f_size := N.of_nat (length (k_data d (at_ (S j)) n)); f_data := got |} /\
    deliver d at_ n (Nat.min (length (k_data d (at_ (S j)) n)) MAX_LICENSE_DATA) 0 (Nat.min (length (k_data d (at_ (S j)) n)) MAX_LICENSE_DATA) (S (S j)) = (got, j').
Proof.
  unfold read_steps. intros H. destruct (k_path d (at_ j) p) as [n|]; [|discriminate]. cbv zeta in H. destruct (deliver _ _ _ _ _ _ _) as [got j1] eqn:E. injection H as <- <-. eauto.
Qed.
Lemma text_of_file n d t (got : bytes) : length got <= Nat.min (length (k_data d t n)) MAX_LICENSE_DATA -> firstn (N.to_nat (N.min (N.of_nat (length (k_data d t n))) 4096)) got = got.
Proof.
  intros H. replace (N.to_nat (N.min (N.of_nat (length (k_data d t n))) 4096)) with (Nat.min (length (k_data d t n)) MAX_LICENSE_DATA); [apply firstn_all2, H|].
  rewrite N2Nat.inj_min, Nat2N.id. reflexivity.
Qed.
Lemma read_torn d at_ j p f j' lo hi : read_steps d at_ j p = (Some f, j') -> lo <= j -> j' <= hi -> torn d at_ lo hi p (firstn (N.to_nat (N.min (f_size f) 4096)) (f_data f)).
Proof.
  intros H L U. pose proof (read_next d at_ j p) as N. rewrite H in N. cbn [snd] in N. apply read_found in H as (n & got & K & -> & D). apply deliver_bytes in D as (D1 & (when & W1 & W2 & W3) & _); [|lia]. cbn [f_size f_data]. rewrite text_of_file by exact D1.
  exists n, j, when. split; [exact L|]. split; [lia|]. split; [exact K|]. split; [rewrite <- max_data; lia|]. split; [exact W1|]. intros i c E. assert (X : i < length got) by (apply nth_error_Some; congruence). destruct (W3 i X) as [A B]. specialize (W2 i). split; [lia|]. split; [lia|]. cbn [Nat.add] in B. rewrite B. exact E.
Qed.

(** ** the surroundings as a call finds them: accesses at the steps [s 0], [s 1], ..., of which
    the [i]-th reads the path [rd i] *)
Definition seen_steps (w : world) (d : disk) (at_ : nat -> nat) (s : nat -> nat) (rd : nat -> option bytes) : world :=
  {| w_project := w_project w; w_magic := w_magic w; w_near_module := w_near_module w; w_with_env := w_with_env w;
     w_module := w_module w; w_getenv := w_getenv w; w_good := fun i p => can_open d (at_ (s i)) p;
     w_file := fun i p => match rd i with Some q => if beqb q p then fst (read_steps d at_ (s i) p) else None | None => None end;
     w_clock := fun i => w_clock w (at_ (s i)); w_mktime := w_mktime w; w_bio := w_bio w; w_key_ok := w_key_ok w; w_verify := w_verify w;
     w_machine := fun i => w_machine w (at_ (s i)) |}.
Lemma seen_fixed w d at_ s rd : same_fixed w (seen_steps w d at_ s rd).
Proof. repeat split. Qed.
Definition later (w : world) : world :=
  {| w_project := w_project w; w_magic := w_magic w; w_near_module := w_near_module w; w_with_env := w_with_env w;
     w_module := w_module w; w_getenv := w_getenv w; w_good := fun i => w_good w (S i); w_file := fun i => w_file w (S i);
     w_clock := fun i => w_clock w (S i); w_mktime := w_mktime w; w_bio := w_bio w; w_key_ok := w_key_ok w; w_verify := w_verify w;
     w_machine := fun i => w_machine w (S i) |}.
Definition plus1 {A} (r : res (A * nat)) : res (A * nat) := '(a, t) <-- r ;; Ok (a, S t).
Lemma run_later {A} w (m : io A) : forall t, io_run w m (S t) = plus1 (io_run (later w) m t).
Proof. induction m as [r|p c IH|p c IH|c IH|c IH]; intros t; cbn [io_run]; [destruct r; reflexivity|apply IH..]. Qed.
Definition first (a : nat) (s : nat -> nat) (i : nat) : nat := match i with 0 => a | S i => s i end.
Definition firsto (a : option bytes) (s : nat -> option bytes) (i : nat) : option bytes := match i with 0 => a | S i => s i end.
Definition same_end {A} (r r' : res (A * nat)) (s : nat -> nat) : Prop :=
  match r, r' with
  | Ok (a, j), Ok (a', n) => a = a' /\ j = s n
  | Throw e, Throw e' => e = e' | Undef u, Undef u' => u = u' | OutOfFuel, OutOfFuel => True
  | _, _ => False
  end.
Lemma same_end_later {A} (r r' : res (A * nat)) j s : same_end r r' s -> same_end r (plus1 r') (first j s).
Proof. unfold same_end, plus1. destruct r as [[a x]| | |], r' as [[a' n]| | |]; cbn; auto. Qed.
Lemma steps_run {A} w d at_ (m : io A) : forall j, exists s rd, s 0 = j /\ (forall i, s i < s (S i)) /\
  (forall i p, rd i = Some p -> snd (read_steps d at_ (s i) p) = s (S i)) /\
  same_end (run_steps w d at_ m j) (io_run (seen_steps w d at_ s rd) m 0) s.
Proof.
  induction m as [r|p c IH|p c IH|c IH|c IH]; intros j; cbn [run_steps io_run].
  - exists (fun i => j + i), (fun _ => None). split; [apply Nat.add_0_r|]. split; [intros; lia|]. split; [discriminate|]. destruct r; cbn; auto.
  - destruct (IH (can_open d (at_ j) p) (S j)) as (s & rd & S0 & SM & SR & E). exists (first j s), (firsto None rd). split; [reflexivity|]. split; [intros [|i]; cbn; [lia|apply SM]|]. split; [intros [|i] q; cbn; [discriminate|apply SR]|].
    rewrite run_later. apply same_end_later. exact E.
  - pose proof (read_next d at_ j p) as N. destruct (IH (fst (read_steps d at_ j p)) (snd (read_steps d at_ j p))) as (s & rd & S0 & SM & SR & E). exists (first j s), (firsto (Some p) rd). split; [reflexivity|]. split; [intros [|i]; cbn; [lia|apply SM]|].
    split; [intros [|i] q; cbn; [intros [= <-]; symmetry; exact S0|apply SR]|].
    rewrite run_later. apply same_end_later. cbn [w_file seen_steps firsto first]. rewrite (proj2 (beqb_eq p p) eq_refl). exact E.
  - destruct (IH (w_clock w (at_ j)) (S j)) as (s & rd & S0 & SM & SR & E). exists (first j s), (firsto None rd). split; [reflexivity|]. split; [intros [|i]; cbn; [lia|apply SM]|]. split; [intros [|i] q; cbn; [discriminate|apply SR]|].
    rewrite run_later. apply same_end_later. exact E.
  - destruct (IH (w_machine w (at_ j)) (S j)) as (s & rd & S0 & SM & SR & E). exists (first j s), (firsto None rd). split; [reflexivity|]. split; [intros [|i]; cbn; [lia|apply SM]|]. split; [intros [|i] q; cbn; [discriminate|apply SR]|].
    rewrite run_later. apply same_end_later. exact E.
Qed.
Lemma steps_mono s : (forall i, s i < s (S i)) -> forall a b, a < b -> s a < s b.
Proof. intros H a b L. induction L as [|b L IH]; [apply H|]. specialize (H b). lia. Qed.
Lemma acquire_run w d at_ c hint out j : exists s rd, s 0 = j /\ (forall i, s i < s (S i)) /\
  (forall i p, rd i = Some p -> snd (read_steps d at_ (s i) p) = s (S i)) /\
  same_end (acquire_steps w d at_ c hint out j) (acquire_license (seen_steps w d at_ s rd) c hint out 0) s.
Proof.
  destruct (steps_run w d at_ (io_acquire_license w c hint out) j) as (s & rd & S0 & SM & SR & E). exists s, rd. split; [exact S0|]. split; [exact SM|]. split; [exact SR|].
  rewrite <- (run_acquire (seen_steps w d at_ s rd)). rewrite <- (io_fixed w (seen_steps w d at_ s rd) (seen_fixed _ _ _ _ _)). exact E.
Qed.

Lemma contents_padded n got : length got <= Nat.min n MAX_LICENSE_DATA ->
  get_file_contents (Some {| f_size := N.of_nat n; f_data := got |}) MAX_LICENSE_DATA = Ok (got ++ repeat NUL (Nat.min n MAX_LICENSE_DATA - length got)).
Proof.
  intros H. unfold get_file_contents. cbn [f_size f_data]. rewrite N2Nat.inj_min, !Nat2N.id. rewrite (firstn_all2 _ H). reflexivity.
Qed.
Lemma grows_full d at_ n want j got j' size : deliver d at_ n want 0 want (S j) = (got, j') -> (forall a b, a < b -> at_ a < at_ b) -> only_grows d n (at_ j) (at_ j') -> no_errors d ->
  size = length (k_data d (at_ j) n) -> want <= size -> length got = want.
Proof.
  intros D M O NE -> W. apply deliver_bytes in D as (D1 & _ & D3); [|lia]. destruct (Nat.eq_dec (length got) want) as [E|E]; [exact E|]. destruct (D3 ltac:(lia)) as [A [B|B]]; [destruct (NE _ B)|].
  assert (X : at_ j < at_ (j' - 1)) by (apply M; lia). assert (Y : at_ (j' - 1) < at_ j') by (apply M; lia). destruct (O (at_ j) (at_ (j' - 1)) ltac:(lia) ltac:(lia) ltac:(lia)) as [more EX]. rewrite EX, app_length in B. lia.
Qed.
