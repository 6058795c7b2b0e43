(** Walking a firmware table. *)
From Verif Require Import Base P_Base WinSmbios Spec_Smbios.
From Coq Require Import Lia.

Lemma byte_at_app pre l k : byte_at (pre ++ l) (length pre + k) = byte_at l k.
Proof. unfold byte_at. rewrite nth_error_app2 by lia. replace (length pre + k - length pre) with k by lia. reflexivity. Qed.
Lemma skipn_plus {A} (pre l : list A) k : skipn (length pre + k) (pre ++ l) = skipn k l.
Proof. induction pre as [|a pre IH]; [reflexivity|]. cbn. exact IH. Qed.
Lemma string_at_app pre l k : string_at (pre ++ l) (length pre + k) = string_at l k.
Proof. unfold string_at. rewrite skipn_plus. reflexivity. Qed.
Lemma string_here_app t r : ~ In NUL t -> string_here (t ++ NUL :: r) = Ok t.
Proof.
  induction t as [|c t IH]; intros H; [reflexivity|]. cbn [app string_here]. destruct (Ascii.eqb_spec c NUL) as [->|N]; [destruct H; left; reflexivity|].
  rewrite IH by (intros I; apply H; right; exact I). reflexivity.
Qed.
Lemma string_loop_ok l : Forall (fun t => t <> [] /\ ~ In NUL t) l -> forall fuel pre post, length l < fuel ->
  string_loop fuel (pre ++ concat (map (fun t => t ++ [NUL]) l) ++ NUL :: post) (length pre) = Ok (length pre + length (concat (map (fun t => t ++ [NUL]) l)) + 1, l).
Proof.
  induction 1 as [|t l [Ht Hn] _ IH]; intros fuel pre post Hf; (destruct fuel as [|fuel]; [cbn in Hf; lia|]).
  - cbn [string_loop map concat app]. rewrite <- (Nat.add_0_r (length pre)) at 1. rewrite string_at_app. cbn; try (do 2 f_equal; lia); try reflexivity.
  - cbn [string_loop map concat]. rewrite <- (Nat.add_0_r (length pre)) at 1. rewrite string_at_app. unfold string_at. cbn [skipn].
    rewrite <- !app_assoc. cbn [app]. rewrite string_here_app by exact Hn. cbn [rbind]. destruct t as [|c t]; [congruence|].
    assert (L : length pre + length (c :: t) + 1 = length (pre ++ (c :: t) ++ [NUL])) by (rewrite !app_length; cbn; lia). rewrite L.
    replace (pre ++ (c :: t) ++ NUL :: concat (map (fun t0 => t0 ++ [NUL]) l) ++ NUL :: post) with ((pre ++ (c :: t) ++ [NUL]) ++ concat (map (fun t0 => t0 ++ [NUL]) l) ++ NUL :: post) by (rewrite <- !app_assoc; reflexivity).
    rewrite IH by (cbn in Hf; lia). cbn [rbind]. do 2 f_equal. rewrite !app_length. cbn. lia.
Qed.
Lemma code_nat n : n <= 255 -> N.to_nat (code (ascii_of_nat n)) = n.
Proof. intros H. unfold code. change (N.to_nat (N_of_ascii (ascii_of_nat n))) with (nat_of_ascii (ascii_of_nat n)). apply nat_ascii_embedding. lia. Qed.
Lemma image_length s : length (image s) = length (st_fields s) + 4 + length (string_area (st_strings s)).
Proof. unfold image. cbn [length]. rewrite app_length. lia. Qed.
Lemma area_length l : 2 <= length (string_area l) \/ Forall (fun t => t <> [] /\ ~ In NUL t) l -> 2 <= length (string_area l).
Proof. intros [H|H]; [exact H|]. destruct H as [|t l [Ht _] _]; cbn; [lia|]. rewrite !app_length. cbn. destruct t; [congruence|cbn; lia]. Qed.

Lemma extract_ok s pre post : well_formed s -> extract_strings (pre ++ image s ++ post) (length pre) = Ok (length pre + length (image s), st_strings s).
Proof.
  intros [HL HS]. unfold extract_strings. rewrite byte_at_app. cbn [image app byte_at nth_error rbind]. rewrite code_nat by exact HL.
  assert (B : length pre + (length (st_fields s) + 4) = length (pre ++ (st_type s :: ascii_of_nat (length (st_fields s) + 4) :: fst (st_handle s) :: snd (st_handle s) :: st_fields s)) + 0) by (rewrite !app_length; cbn; lia).
  replace (pre ++ st_type s :: ascii_of_nat (length (st_fields s) + 4) :: fst (st_handle s) :: snd (st_handle s) :: (st_fields s ++ string_area (st_strings s)) ++ post)
    with ((pre ++ (st_type s :: ascii_of_nat (length (st_fields s) + 4) :: fst (st_handle s) :: snd (st_handle s) :: st_fields s)) ++ string_area (st_strings s) ++ post)
    by (rewrite <- ?app_assoc; cbn [app]; rewrite <- ?app_assoc; reflexivity).
  rewrite B, byte_at_app, Nat.add_0_r. rewrite image_length. set (P := pre ++ _) in *.
  assert (LP : length pre + (length (st_fields s) + 4) = length P) by lia.
  destruct (st_strings s) as [|t l] eqn:E.
  - cbn. do 2 f_equal. lia.
  - inversion HS as [|? ? [Ht Hn] HS']; subst. destruct t as [|c t]; [congruence|]. cbn [string_area map concat app byte_at nth_error rbind].
    destruct (Ascii.eqb_spec c NUL) as [->|_]; [destruct Hn; left; reflexivity|].
    change (c :: ((t ++ [NUL]) ++ concat (map (fun t0 => t0 ++ [NUL]) l)) ++ [NUL]) with (concat (map (fun t0 => t0 ++ [NUL]) ((c :: t) :: l)) ++ [NUL]).
    replace (c :: (((t ++ [NUL]) ++ concat (map (fun t0 => t0 ++ [NUL]) l)) ++ [NUL]) ++ post) with (concat (map (fun t0 => t0 ++ [NUL]) ((c :: t) :: l)) ++ NUL :: post)
      by (cbn [map concat app]; rewrite <- !app_assoc; reflexivity).
    rewrite string_loop_ok; [|exact HS|].
    + do 2 f_equal. rewrite !app_length. cbn [length]. lia.
    + assert (K : length ((c :: t) :: l) <= length (concat (map (fun t0 => t0 ++ [NUL]) ((c :: t) :: l)))).
      { clear. induction ((c :: t) :: l) as [|a r IH]; cbn; [lia|]. rewrite !app_length. cbn. lia. }
      rewrite !app_length. lia.
Qed.

Lemma table_app a b : table (a ++ b) = table a ++ table b.
Proof. unfold table. rewrite map_app, concat_app. reflexivity. Qed.
Lemma starts_from pre ss : map (fun i => length (table (firstn i (pre ++ ss)))) (seq (length pre) (length ss)) = map (fun i => length (table pre) + length (table (firstn i ss))) (seq 0 (length ss)).
Proof.
  rewrite <- (Nat.add_0_r (length pre)). generalize 0 as k. induction (length ss) as [|n IH]; intros k; [reflexivity|]. cbn [seq map]. f_equal.
  - rewrite firstn_app_2, table_app, app_length. reflexivity.
  - rewrite <- Nat.add_succ_r. apply IH.
Qed.
Lemma feed_loop_ok ss : Forall well_formed ss -> forall fuel pre post, length ss < fuel ->
  (forall x, length (pre ++ table ss) <= x -> x < length (pre ++ table ss ++ post) -> False) ->
  feed_loop fuel (pre ++ table ss ++ post) (length pre) = Ok (map (fun x => length pre + x) (starts ss)).
Proof.
  induction 1 as [|s ss Hs _ IH]; intros fuel pre post Hf HP; (destruct fuel as [|fuel]; [cbn in Hf; lia|]).
  - cbn [feed_loop table map concat app starts length seq]. destruct (Nat.ltb_spec (length pre) (length (pre ++ post))) as [L|L]; [|reflexivity].
    exfalso. apply (HP (length pre)); cbn [table map concat app]; [rewrite app_nil_r; lia|exact L].
  - cbn [feed_loop]. assert (E : table (s :: ss) = image s ++ table ss) by reflexivity. rewrite E in *.
    assert (L2 : 6 <= length (image s)) by (rewrite image_length; assert (2 <= length (string_area (st_strings s))) by (apply area_length; right; apply Hs); lia).
    destruct (Nat.ltb_spec (length pre) (length (pre ++ (image s ++ table ss) ++ post))) as [L|L]; [|rewrite !app_length in L; lia].
    unfold skip. replace (pre ++ (image s ++ table ss) ++ post) with (pre ++ image s ++ (table ss ++ post)) by (rewrite <- !app_assoc; reflexivity).
    rewrite extract_ok by exact Hs. cbn [rbind]. rewrite <- (app_length pre (image s)), app_assoc. rewrite IH.
    + cbn [rbind]. unfold starts. cbn [length seq map firstn]. do 2 f_equal; [cbn; lia|]. rewrite map_map. rewrite <- seq_shift, !map_map. apply map_ext. intros i. cbn [firstn].
      change (table (s :: firstn i ss)) with (image s ++ table (firstn i ss)). rewrite !app_length. lia.
    + cbn in Hf. lia.
    + intros x H1 H2. apply (HP x); rewrite !app_length in *; lia.
Qed.
Lemma feed_ok ss post : Forall well_formed ss -> feed (table ss ++ post) (length (table ss)) = Ok (table ss, starts ss).
Proof.
  intros H. unfold feed. destruct (Nat.ltb_spec (length (table ss ++ post)) (length (table ss))) as [L|_]; [rewrite app_length in L; lia|].
  replace (firstn (length (table ss)) (table ss ++ post)) with (table ss) by (rewrite firstn_app, firstn_all, Nat.sub_diag; cbn; rewrite app_nil_r; reflexivity).
  assert (K := feed_loop_ok ss H (S (length (table ss))) [] []). cbn [app length] in K. rewrite app_nil_r in K. rewrite K.
  - cbn [rbind]. do 2 f_equal. rewrite map_id. reflexivity.
  - assert (length ss <= length (table ss)); [|lia]. clear -H. induction H as [|s ss Hs _ IH]; [cbn; lia|]. change (table (s :: ss)) with (image s ++ table ss). rewrite app_length. cbn [length]. rewrite image_length. lia.
  - intros x H1 H2. lia.
Qed.

(** ** any table at all *)
Definition only_reads {A} (r : res A) : Prop := match r with Ok _ => True | Undef UbRead => True | _ => False end.
Lemma only_bind {A B} (r : res A) (k : A -> res B) : only_reads r -> (forall a, r = Ok a -> only_reads (k a)) -> only_reads (rbind r k).
Proof. destruct r as [a|e|u|]; cbn; auto; tauto. Qed.
Lemma byte_only d i : only_reads (byte_at d i).
Proof. unfold byte_at. destruct (nth_error d i); exact I. Qed.
Lemma string_here_only d : only_reads (string_here d).
Proof. induction d as [|c d IH]; [exact I|]. cbn. destruct (Ascii.eqb c NUL); [exact I|]. apply only_bind; [exact IH|]. intros; exact I. Qed.
Lemma string_here_len d s : string_here d = Ok s -> length s < length d.
Proof.
  revert s. induction d as [|c d IH]; intros s; cbn [string_here]; [discriminate|]. destruct (Ascii.eqb c NUL); [intros [= <-]; cbn; lia|].
  intros H. apply rbind_ok in H as [t [H E]]. injection E as <-. apply IH in H. cbn. lia.
Qed.
Lemma string_loop_only fuel : forall d p, length d - p < fuel -> only_reads (string_loop fuel d p) /\ (forall q l, string_loop fuel d p = Ok (q, l) -> p < q).
Proof.
  induction fuel as [|f IH]; intros d p H; [lia|]. cbn [string_loop].
  destruct (string_at d p) as [s| | |] eqn:E; cbn [rbind]; try (split; [|discriminate]);
    try (unfold string_at in E; assert (O := string_here_only (skipn p d)); rewrite E in O; exact O).
  unfold string_at in E. assert (L := string_here_len _ _ E). rewrite skipn_length in L.
  destruct s as [|c s]; [split; [exact I|]; intros q l [= <- <-]; lia|].
  destruct (IH d (p + length (c :: s) + 1)) as [I1 I2]; [cbn [length] in *; lia|]. split.
  - apply only_bind; [exact I1|]. intros [q l] _. exact I.
  - intros q l Hq. apply rbind_ok in Hq as [[q' l'] [Hq E']]. injection E' as <- <-. apply I2 in Hq. lia.
Qed.
Lemma extract_only d x : only_reads (extract_strings d x) /\ (forall q l, extract_strings d x = Ok (q, l) -> x < q).
Proof.
  unfold extract_strings. destruct (byte_at d (x + 1)) as [len| | |] eqn:E1; cbn [rbind]; try (split; [assert (O := byte_only d (x + 1)); rewrite E1 in O; exact O|discriminate]).
  destruct (byte_at d (x + N.to_nat (code len))) as [c| | |] eqn:E2; cbn [rbind]; try (split; [assert (O := byte_only d (x + N.to_nat (code len))); rewrite E2 in O; exact O|discriminate]).
  destruct (Ascii.eqb c NUL); [split; [exact I|intros q l [= <- <-]; lia]|].
  destruct (string_loop_only (S (length d)) d (x + N.to_nat (code len)) ltac:(lia)) as [A B]. split; [exact A|]. intros q l H. apply B in H. lia.
Qed.
Lemma skip_only d x : only_reads (skip d x) /\ (forall q, skip d x = Ok q -> x < q).
Proof.
  unfold skip. destruct (extract_only d x) as [A B]. split; [apply only_bind; [exact A|intros [? ?] _; exact I]|].
  intros q H. apply rbind_ok in H as [[p l] [H E]]. injection E as <-. exact (B _ _ H).
Qed.
Lemma feed_loop_only fuel : forall d x, length d - x < fuel -> only_reads (feed_loop fuel d x) /\
  (forall hs, feed_loop fuel d x = Ok hs -> Forall (fun h => x <= h < length d) hs /\ forall h, In h hs -> exists q l, extract_strings d h = Ok (q, l)).
Proof.
  induction fuel as [|f IH]; intros d x H; [lia|]. cbn [feed_loop]. destruct (Nat.ltb_spec x (length d)) as [L|L]; [|split; [exact I|intros hs [= <-]; split; [constructor|intros h []]]].
  destruct (skip_only d x) as [A B]. destruct (skip d x) as [p| | |] eqn:E; cbn [rbind]; try (split; [exact A|discriminate]). specialize (B p eq_refl).
  destruct (IH d p ltac:(lia)) as [C D]. split; [apply only_bind; [exact C|intros; exact I]|].
  intros hs Hh. apply rbind_ok in Hh as [r [Hr E']]. injection E' as <-. destruct (D _ Hr) as [D1 D2]. split.
  - constructor; [lia|]. eapply Forall_impl; [|exact D1]. cbn. intros; lia.
  - intros h [<-|I]; [|apply D2, I]. unfold skip in E. apply rbind_ok in E as [[q l] [E _]]. eauto.
Qed.
