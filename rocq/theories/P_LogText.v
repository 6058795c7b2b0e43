(** vfprintf prints what the format stands for. *)
From Coq Require Import Lia.
From Verif Require Import Base P_Base CTypes StringUtils InspectorOut Spec_Report Prop_Report Logger LogText Spec_LogText.

Lemma filled_is minus w s t : filled minus w s t <-> t = pad_text minus false w s.
Proof.
  unfold filled, pad_text. destruct minus; split.
  - intros (n & -> & L). rewrite app_length, repeat_length in L. replace n with (w - length s) by lia. reflexivity.
  - intros ->. exists (w - length s). split; [reflexivity|]. rewrite app_length, repeat_length. lia.
  - intros (n & -> & L). rewrite app_length, repeat_length in L. replace n with (w - length s) by lia. reflexivity.
  - intros ->. exists (w - length s). split; [reflexivity|]. rewrite app_length, repeat_length. lia.
Qed.
Lemma number_is minus zero w neg ds t : number minus zero w (if neg : bool then bs "-" else []) ds t <-> t = pad_number minus zero w neg ds.
Proof.
  unfold number, pad_number. cbv zeta. destruct (zero && negb minus); [|apply filled_is]. unfold pad_text. split.
  - intros (n & -> & L). rewrite !app_length, repeat_length in L. generalize dependent (if neg then bs "-" else []). intros q L. replace n with (w - length q - length ds) by lia. reflexivity.
  - intros ->. generalize (if neg then bs "-" else []). intros q. exists (w - length q - length ds). split; [reflexivity|]. rewrite !app_length, repeat_length. lia.
Qed.
Lemma read_flags_is s : forall minus zero, exists flags r, s = flags ++ r /\ forallb flag flags = true /\ match r with c :: _ => flag c = false | [] => True end /\
  read_flags s minus zero = (minus || existsb (Ascii.eqb "-") flags, zero || existsb (Ascii.eqb "0") flags, r).
Proof.
  induction s as [|c s IH]; intros minus zero.
  - exists [], []. cbn. rewrite !Bool.orb_false_r. auto.
  - destruct (flag c) eqn:F.
    + unfold flag in F. apply Bool.orb_prop in F as [F|F]; apply Ascii.eqb_eq in F; subst c; cbn [read_flags].
      * destruct (IH true zero) as (flags & r & -> & A & B & C). exists ("-"%char :: flags), r. split; [reflexivity|]. split; [exact A|]. split; [exact B|]. rewrite C. cbn. rewrite Bool.orb_true_r. reflexivity.
      * destruct (IH minus true) as (flags & r & -> & A & B & C). exists ("0"%char :: flags), r. split; [reflexivity|]. split; [exact A|]. split; [exact B|]. rewrite C. cbn. rewrite Bool.orb_true_r. reflexivity.
    + exists [], (c :: s). split; [reflexivity|]. split; [reflexivity|]. split; [exact F|]. cbn [existsb]. rewrite !Bool.orb_false_r.
      destruct c as [[] [] [] [] [] [] [] []]; try reflexivity; discriminate F.
Qed.
Lemma read_flags_of flags r minus zero : forallb flag flags = true -> match r with c :: _ => flag c = false | [] => True end ->
  read_flags (flags ++ r) minus zero = (minus || existsb (Ascii.eqb "-") flags, zero || existsb (Ascii.eqb "0") flags, r).
Proof.
  revert minus zero; induction flags as [|c flags IH]; intros minus zero F R.
  - cbn [app existsb]. rewrite !Bool.orb_false_r. destruct r as [|c r]; [reflexivity|]. destruct c as [[] [] [] [] [] [] [] []]; try reflexivity; discriminate R.
  - cbn [forallb] in F. apply andb_prop in F as [F FS]. unfold flag in F. apply Bool.orb_prop in F as [F|F]; apply Ascii.eqb_eq in F; subst c; cbn [app read_flags]; rewrite IH by assumption; cbn; rewrite Bool.orb_true_r; reflexivity.
Qed.
Lemma read_width_of ds r : forall w, forallb isdigit ds = true -> match r with c :: _ => isdigit c = false | [] => True end ->
  read_width (ds ++ r) w = (fold_left (fun a c => 10 * a + (N.to_nat (N_of_ascii c) - 48)) ds w, r).
Proof.
  induction ds as [|c ds IH]; intros w F R.
  - cbn [app fold_left]. destruct r as [|c r]; [reflexivity|]. cbn [read_width]. rewrite R. reflexivity.
  - cbn [forallb] in F. apply andb_prop in F as [F FS]. cbn [app read_width fold_left]. rewrite F. apply IH; assumption.
Qed.
Lemma read_width_is s : forall w : nat, exists ds r, s = ds ++ r /\ forallb isdigit ds = true /\ match r with c :: _ => isdigit c = false | [] => True end.
Proof.
  induction s as [|c s IH]; intros w; [exists [], []; auto|]. destruct (isdigit c) eqn:F.
  - destruct (IH w) as (ds & r & -> & A & B). exists (c :: ds), r. cbn [app forallb]. rewrite F. auto.
  - exists [], (c :: s). auto.
Qed.
(** a number is written in one way *)
Local Open Scope N_scope.
Definition val (b : N) (ds : list N) (a : N) : N := fold_left (fun a d => a * b + d) ds a.
Lemma val_grows b ds : forall a, 2 <= b -> a <= val b ds a.
Proof.
  induction ds as [|d ds IH]; intros a B; cbn; [lia|]. unfold val in IH. specialize (IH (a * b + d) B). nia.
Qed.
Lemma val_pos b ds : 2 <= b -> ds <> [] -> hd 0 ds <> 0 -> 0 < val b ds 0.
Proof.
  intros B E H. destruct ds as [|d ds]; [congruence|]. cbn in H. cbn. pose proof (val_grows b ds d B) as G. unfold val in G. lia.
Qed.
Lemma val_snoc b ds d : val b (ds ++ [d]) 0 = val b ds 0 * b + d.
Proof. unfold val. rewrite fold_left_app. reflexivity. Qed.
Lemma hd_snoc (ds : list N) d : ds <> [] -> hd 0 (ds ++ [d]) = hd 0 ds.
Proof. destruct ds; [congruence|reflexivity]. Qed.
Lemma val_unique b ds : forall es, 2 <= b -> Forall (fun d => d < b) ds -> Forall (fun d => d < b) es ->
  (ds = [] \/ hd 0 ds <> 0) -> (es = [] \/ hd 0 es <> 0) -> val b ds 0 = val b es 0 -> ds = es.
Proof.
  induction ds as [|d ds IH] using rev_ind; intros es B D E HD HE V.
  - destruct HE as [->|HE]; [reflexivity|]. destruct es as [|e es]; [reflexivity|]. pose proof (val_pos b (e :: es) B ltac:(discriminate) HE). cbn [val fold_left] in V. unfold val in *. cbn [fold_left] in *. lia.
  - destruct HD as [HD|HD]; [destruct ds; discriminate HD|].
    destruct es as [|e es _] using rev_ind.
    + assert (NE : ds ++ [d] <> []) by (destruct ds; discriminate). pose proof (val_pos b _ B NE HD). cbn in V. unfold val in *. cbn in V. lia.
    + destruct HE as [HE|HE]; [destruct es; discriminate HE|].
      apply Forall_app in D as [D D1]. apply Forall_app in E as [E E1]. inversion D1 as [|? ? LD _]; subst. inversion E1 as [|? ? LE _]; subst.
      rewrite !val_snoc in V.
      assert (d = e /\ val b ds 0 = val b es 0) as [-> V'].
      { destruct (N.div_mod_unique b (val b ds 0) (val b es 0) d e LD LE) as [Q R]; [lia|]. split; assumption. }
      f_equal. apply IH; try assumption.
      * destruct ds; [now left|]. right. rewrite hd_snoc in HD by discriminate. exact HD.
      * destruct es; [now left|]. right. rewrite hd_snoc in HE by discriminate. exact HE.
Qed.
Lemma print_unique b n s : 2 <= b <= 16 -> numeral b n s -> s = print_num b n.
Proof.
  intros B (ds & N1 & D & Z1 & V1 & ->). destruct (print_numeral b n B) as (es & N2 & E & Z2 & V2 & ->). f_equal.
  change (val b ds 0 = n) in V1. change (val b es 0 = n) in V2.
  destruct (N.eq_dec (hd 0 ds) 0) as [A|A]; destruct (N.eq_dec (hd 0 es) 0) as [A'|A'].
  - rewrite (Z1 A), (Z2 A'). reflexivity.
  - pose proof (val_pos b es ltac:(lia) N2 A'). rewrite (Z1 A) in V1. cbn in V1. lia.
  - pose proof (val_pos b ds ltac:(lia) N1 A). rewrite (Z2 A') in V2. cbn in V2. lia.
  - apply (val_unique b); try assumption; try lia; auto; congruence.
Qed.
Local Close Scope N_scope.
Lemma convert_is minus zero w c args t rest : flag c = false -> isdigit c = false -> c <> "%"%char ->
  (convert minus zero w c args = Ok (t, rest) <-> exists a, args = a :: rest /\ shows minus zero w c a t).
Proof.
  intros FC DC NP. unfold convert. destruct (Ascii.eqb_spec c "%") as [E|_]; [congruence|].
  destruct (Ascii.eqb_spec c "s") as [->|N1].
  { split.
    - destruct zero; [discriminate|]. destruct args as [|[n|n|s] r]; try discriminate. intros E. injection E as <- <-. exists (AStr s). split; [reflexivity|]. constructor; [reflexivity|]. apply filled_is. reflexivity.
    - intros (a & -> & H). inversion H as [s t' Z F| |]; subst. apply filled_is in F as ->. reflexivity. }
  destruct (Ascii.eqb_spec c "d") as [->|N2].
  { split.
    - destruct args as [|[n|n|s] r]; try discriminate. intros E. injection E as <- <-. exists (AInt n). split; [reflexivity|]. apply sh_decimal with (print_num 10 (Z.abs_N n)); [apply print_numeral; lia|]. apply number_is. reflexivity.
    - intros (a & -> & H). inversion H as [|n ds t' N F|]; subst. apply number_is in F as ->. rewrite (print_unique 10 _ ds ltac:(lia) N). reflexivity. }
  destruct (Ascii.eqb_spec c "x") as [->|N3].
  { split.
    - destruct args as [|[n|n|s] r]; try discriminate. intros E. injection E as <- <-. exists (AInt n). split; [reflexivity|]. apply sh_hex with (print_num 16 (Z.to_N (n mod 4294967296))); [apply print_numeral; lia|]. apply (number_is minus zero w false). reflexivity.
    - intros (a & -> & H). inversion H as [| |n ds t' N F]; subst. apply (number_is minus zero w false) in F as ->. rewrite (print_unique 16 _ ds ltac:(lia) N). reflexivity. }
  split; [discriminate|]. intros (a & -> & H). inversion H; congruence.
Qed.

Lemma shows_conv minus zero w c a t : shows minus zero w c a t -> c <> "%"%char.
Proof. intros H E. subst c. inversion H. Qed.
Lemma prints_format f args o : prints f args o -> forall fuel, length f < fuel -> print_format fuel f args = Ok o.
Proof.
  intros H. induction H as [args|c f args o NP H IH|f args o H IH|flags width c f a args t o F1 F2 F3 F4 F5 SH H IH]; intros fuel L; (destruct fuel as [|fuel]; [lia|]).
  - reflexivity.
  - cbn [length] in L. assert (E : print_format (S fuel) (c :: f) args = (o <-- print_format fuel f args ;; Ok (c :: o))).
    { destruct c as [[] [] [] [] [] [] [] []]; try reflexivity. congruence. }
    rewrite E, IH by lia. reflexivity.
  - cbn [length] in L. cbn [print_format read_flags read_width]. change (isdigit "%") with false. cbn. rewrite IH by lia. reflexivity.
  - cbn [print_format]. rewrite read_flags_of; [|exact F1|].
    2:{ destruct width as [|d width]; [exact F4|]. cbn [app]. cbn [forallb] in F2. apply andb_prop in F2 as [D _]. cbn [hd] in F3. unfold flag.
        destruct (Ascii.eqb_spec d "-") as [->|_]; [discriminate D|]. destruct (Ascii.eqb_spec d "0"); [congruence|reflexivity]. }
    cbn [orb]. rewrite read_width_of by assumption. fold (width_of width).
    assert (C : convert (existsb (Ascii.eqb "-") flags) (existsb (Ascii.eqb "0") flags) (width_of width) c (a :: args) = Ok (t, args)).
    { apply convert_is; [exact F4|exact F5|exact (shows_conv _ _ _ _ _ _ SH)|]. exists a. split; [reflexivity|exact SH]. }
    rewrite C. cbn [rbind]. cbn [length] in L. rewrite !app_length in L. cbn [length] in L. rewrite IH by lia. reflexivity.
Qed.

Lemma width_pos ds : forall w, w <> 0 -> fold_left (fun a c => 10 * a + (N.to_nat (N_of_ascii c) - 48)) ds w <> 0.
Proof. induction ds as [|d ds IH]; intros w W; [exact W|]. cbn [fold_left]. apply IH. lia. Qed.
Lemma digit_value d : isdigit d = true -> d <> "0"%char -> N.to_nat (N_of_ascii d) - 48 <> 0.
Proof. destruct d as [[] [] [] [] [] [] [] []]; intros H N; try discriminate H; try congruence; vm_compute; congruence. Qed.
Lemma format_prints fuel : forall f args o, print_format fuel f args = Ok o -> prints f args o.
Proof.
  induction fuel as [|fuel IH]; intros f args o H; [discriminate H|].
  destruct f as [|c r]; [injection H as <-; constructor|].
  destruct (Ascii.eqb_spec c "%") as [->|NP].
  - cbn [print_format] in H. destruct (read_flags_is r false false) as (flags & r1 & -> & FF & F1 & E). rewrite E in H. cbn [orb] in H. clear E.
    destruct (read_width_is r1 0) as (ds & r2 & -> & DD & D1).
    rewrite read_width_of in H by assumption. fold (width_of ds) in H.
    assert (HD : hd "1"%char ds <> "0"%char).
    { destruct ds as [|d ds]; [discriminate|]. cbn [app] in F1. cbn [hd]. intros ->. discriminate F1. }
    destruct r2 as [|c r3]; [discriminate H|].
    destruct (convert _ _ _ _ _) as [[t rest]| | |] eqn:C; try discriminate H. cbn [rbind] in H.
    destruct (print_format fuel r3 rest) as [o'| | |] eqn:P; try discriminate H. cbn [rbind] in H. injection H as <-.
    apply IH in P.
    destruct (Ascii.eqb_spec c "%") as [->|NC].
    + unfold convert in C. cbn [Ascii.eqb Bool.eqb] in C. change (Ascii.eqb "%" "%") with true in C. cbv iota in C.
      destruct (existsb (Ascii.eqb "-") flags) eqn:M; [discriminate C|]. destruct (existsb (Ascii.eqb "0") flags) eqn:Z; [discriminate C|].
      cbn [orb] in C. destruct (Nat.eqb_spec (width_of ds) 0) as [W|W]; [|discriminate C]. cbn [negb] in C. injection C as <- <-.
      assert (flags = []) as ->.
      { destruct flags as [|x flags]; [reflexivity|]. cbn [forallb existsb] in *. apply andb_prop in FF as [FX _]. apply Bool.orb_false_elim in M as [M _]. apply Bool.orb_false_elim in Z as [Z _].
        unfold flag in FX. apply Bool.orb_prop in FX as [FX|FX]; apply Ascii.eqb_eq in FX; subst x; discriminate. }
      assert (ds = []) as ->.
      { destruct ds as [|d ds]; [reflexivity|]. exfalso. cbn [forallb] in DD. apply andb_prop in DD as [DX _]. cbn [hd] in HD. revert W. unfold width_of. cbn [fold_left]. apply width_pos. pose proof (digit_value d DX HD). lia. }
      cbn [app]. now constructor.
    + assert (FC : flag c = false).
      { destruct (flag c) eqn:FC; [|reflexivity]. unfold flag in FC. apply Bool.orb_prop in FC as [FX|FX]; apply Ascii.eqb_eq in FX; subst c; discriminate C. }
      apply convert_is in C as (a & -> & SH); [|exact FC|exact D1|exact NC].
      now apply pr_argument.
  - assert (E : print_format (S fuel) (c :: r) args = (o <-- print_format fuel r args ;; Ok (c :: o))).
    { destruct c as [[] [] [] [] [] [] [] []]; try reflexivity. congruence. }
    rewrite E in H. destruct (print_format fuel r args) as [o'| | |] eqn:P; try discriminate H. injection H as <-. constructor; [exact NP|]. apply IH. exact P.
Qed.
Lemma vfprintf_is f args o : vfprintf f args = Ok o <-> prints (cstr f) args o.
Proof. unfold vfprintf. split; [apply format_prints|]. intros H. apply (prints_format _ _ _ H). lia. Qed.
(** fuel is never short *)
Lemma read_width_shorter s : forall w, length (snd (read_width s w)) <= length s.
Proof. induction s as [|c s IH]; intros w; cbn [read_width]; [cbn; lia|]. destruct (isdigit c); [|cbn; lia]. specialize (IH (10 * w + (N.to_nat (N_of_ascii c) - 48))). cbn [length]. lia. Qed.
Lemma print_format_fuel fuel : forall f args, length f < fuel -> print_format fuel f args <> OutOfFuel.
Proof.
  induction fuel as [|fuel IH]; intros f args L; [lia|]. destruct f as [|c r]; [discriminate|]. cbn [length] in L.
  destruct (Ascii.eqb_spec c "%") as [->|NP].
  - cbn [print_format]. destruct (read_flags_is r false false) as (flags & r1 & -> & FF & F1 & E). rewrite E. rewrite app_length in L.
    pose proof (read_width_shorter r1 0) as W. destruct (read_width r1 0) as [w [|c r3]]; [discriminate|]. cbn [snd length] in W.
    destruct (convert _ _ _ _ _) as [[t rest]| | |] eqn:C; try discriminate.
    + cbn [rbind]. pose proof (IH r3 rest ltac:(lia)) as N. destruct (print_format fuel r3 rest); try discriminate. congruence.
    + exfalso. unfold convert in C.
      repeat match type of C with context [if ?b then _ else _] => destruct b | context [match ?l with _ => _ end] => destruct l end; discriminate C.
  - assert (E : print_format (S fuel) (c :: r) args = (o <-- print_format fuel r args ;; Ok (c :: o))).
    { destruct c as [[] [] [] [] [] [] [] []]; try reflexivity. congruence. }
    rewrite E. pose proof (IH r args ltac:(lia)) as N. destruct (print_format fuel r args); try discriminate. congruence.
Qed.
