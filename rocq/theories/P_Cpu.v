(** The readings of the processor. *)
From Verif Require Import Base CpuInfo P_Base Spec_Cpu.

Lemma code_lt a : (N_of_ascii a < 256)%N.
Proof. destruct a as [[] [] [] [] [] [] [] []]; vm_compute; reflexivity. Qed.
Lemma packs_bytes n : is32 n -> packs (u32_bytes n) n.
Proof.
  intros H. unfold is32 in H. unfold u32_bytes. cbn [map]. exists (ascii_of_N (n mod 256)), (ascii_of_N ((n / 256) mod 256)), (ascii_of_N ((n / 65536) mod 256)), (ascii_of_N ((n / 16777216) mod 256)).
  split; [reflexivity|]. rewrite !N_ascii_embedding by (apply N.mod_lt; discriminate).
  assert (E1 : (n / 65536 = n / 256 / 256)%N) by (rewrite N.div_div by discriminate; reflexivity).
  assert (E2 : (n / 16777216 = n / 256 / 256 / 256)%N) by (rewrite !N.div_div by discriminate; reflexivity).
  rewrite E1, E2. pose proof (N.div_mod n 256 ltac:(discriminate)). pose proof (N.div_mod (n/256) 256 ltac:(discriminate)).
  pose proof (N.div_mod (n/256/256) 256 ltac:(discriminate)).
  assert (n / 256 / 256 / 256 < 256)%N by (rewrite !N.div_div by discriminate; apply N.div_lt_upper_bound; [discriminate|lia]).
  rewrite (N.mod_small (n/256/256/256)) by assumption. lia.
Qed.
Lemma packs_fun w n : packs w n -> w = u32_bytes n.
Proof.
  intros [a [b [c [d [-> ->]]]]]. unfold u32_bytes. cbn [map].
  pose proof (code_lt a). pose proof (code_lt b). pose proof (code_lt c). pose proof (code_lt d).
  set (A := N_of_ascii a) in *. set (B := N_of_ascii b) in *. set (C := N_of_ascii c) in *. set (D := N_of_ascii d) in *.
  replace (A + 256 * B + 65536 * C + 16777216 * D)%N with (A + (B + (C + D * 256) * 256) * 256)%N by lia.
  assert (X1 : ((A + (B + (C + D * 256) * 256) * 256) / 256 = B + (C + D * 256) * 256)%N) by (rewrite N.div_add by discriminate; rewrite N.div_small by assumption; reflexivity).
  assert (X2 : ((B + (C + D * 256) * 256) / 256 = C + D * 256)%N) by (rewrite N.div_add by discriminate; rewrite N.div_small by assumption; reflexivity).
  assert (X3 : ((C + D * 256) / 256 = D)%N) by (rewrite N.div_add by discriminate; rewrite N.div_small by assumption; reflexivity).
  replace 65536%N with (256 * 256)%N by reflexivity. replace 16777216%N with (256 * 256 * 256)%N by reflexivity.
  rewrite <- !N.div_div by discriminate. rewrite X1, X2, X3.
  rewrite !N.mod_add by discriminate. rewrite !N.mod_small by assumption. unfold A, B, C, D. rewrite !ascii_N_embedding. reflexivity.
Qed.
Lemma spells_fun s ns : spells s ns -> s = concat (map u32_bytes ns).
Proof.
  intros [ws [-> F]]. f_equal. induction F as [|w n ws ns P F IH]; [reflexivity|]. cbn [map]. rewrite <- IH. f_equal. apply packs_fun, P.
Qed.
Lemma spells_bytes ns : Forall is32 ns -> spells (concat (map u32_bytes ns)) ns.
Proof.
  intros H. exists (map u32_bytes ns). split; [reflexivity|]. induction H; constructor; [apply packs_bytes; assumption|assumption].
Qed.

Lemma range_land leaf : is32 leaf -> N.land leaf 2147483648 = range_of leaf.
Proof.
  unfold is32, range_of. intros H. apply N.bits_inj. intros i. rewrite N.land_spec. replace 2147483648%N with (2 ^ 31)%N by reflexivity.
  rewrite N.pow2_bits_eqb. destruct (N.eqb_spec 31 i) as [<-|Hi].
  - rewrite andb_true_r. destruct (N.ltb_spec leaf (2 ^ 31)) as [L|L].
    + rewrite N.bits_0. rewrite N.testbit_eqb. rewrite N.div_small by exact L. reflexivity.
    + rewrite N.pow2_bits_true. rewrite N.testbit_eqb. replace (leaf / 2 ^ 31)%N with 1%N; [reflexivity|]. apply N.div_unique with (r := (leaf - 2^31)%N); lia.
  - rewrite andb_false_r. destruct (N.ltb leaf (2 ^ 31)); [rewrite N.bits_0; reflexivity|]. rewrite N.pow2_bits_false by exact Hi. reflexivity.
Qed.
Lemma get_supported c leaf old : is32 leaf -> supports c leaf -> get_cpuid c leaf old = c leaf.
Proof.
  intros H [A B]. unfold get_cpuid, cpuid_max. cbv zeta. rewrite (range_land leaf H).
  destruct (N.eqb_spec (r_eax (c (range_of leaf))) 0); [contradiction|]. destruct (N.ltb_spec (r_eax (c (range_of leaf))) leaf); [lia|reflexivity].
Qed.
Lemma get_unsupported c leaf old : is32 leaf -> ~ supports c leaf -> get_cpuid c leaf old = old.
Proof.
  intros H N. unfold get_cpuid, cpuid_max. cbv zeta. rewrite (range_land leaf H). unfold supports in N. cbv zeta in N.
  destruct (N.eqb_spec (r_eax (c (range_of leaf))) 0); [reflexivity|]. destruct (N.ltb_spec (r_eax (c (range_of leaf))) leaf); [reflexivity|tauto].
Qed.

Lemma vendor_spells c : answers32 c -> r_eax (c 0%N) <> 0%N -> spells (get_cpu_vendor c) [r_ebx (c 0%N); r_edx (c 0%N); r_ecx (c 0%N)].
Proof.
  intros A H. unfold get_cpu_vendor. cbv zeta. rewrite get_supported; [|reflexivity|split; [exact H|apply N.le_0_l]].
  destruct (A 0%N) as [_ [B [C D]]]. pose proof (spells_bytes [r_ebx (c 0%N); r_edx (c 0%N); r_ecx (c 0%N)]) as S. cbn [map concat] in S. rewrite app_nil_r in S.
  apply S. repeat constructor; assumption.
Qed.

Lemma hypervisor_bit c : answers32 c -> is_hypervisor_set c = true <-> supports c 1 /\ (2147483648 <= r_ecx (c 1%N))%N.
Proof.
  intros A. unfold is_hypervisor_set. cbv zeta.
  assert (D : supports c 1 \/ ~ supports c 1).
  { unfold supports. cbv zeta. destruct (N.eqb_spec (r_eax (c (range_of 1))) 0); [right; tauto|]. destruct (N.leb_spec 1 (r_eax (c (range_of 1)))); [left; auto|right; lia]. }
  destruct D as [D|D].
  - rewrite (get_supported c 1 _ eq_refl D). destruct (A 1%N) as [_ [_ [E _]]]. unfold is32 in E. set (n := r_ecx (c 1%N)) in *.
    rewrite N.shiftr_div_pow2. change (2 ^ 31)%N with 2147483648%N.
    split.
    + intros H. split; [exact D|]. apply N.eqb_eq in H. destruct (N.lt_ge_cases n 2147483648) as [L|L]; [|exact L]. rewrite N.div_small in H by exact L. discriminate.
    + intros [_ H]. replace (n / 2147483648)%N with 1%N; [reflexivity|]. apply N.div_unique with (r := (n - 2147483648)%N); lia.
  - rewrite (get_unsupported c 1 _ eq_refl D). split; [discriminate|tauto].
Qed.

Lemma nth_code (s : bytes) i : i < length s -> ~ In NUL s -> N_of_ascii (nth i s NUL) <> 0%N.
Proof.
  intros H N E. apply N. assert (X : nth i s NUL = NUL) by (rewrite <- (ascii_N_embedding (nth i s NUL)), E; reflexivity).
  rewrite <- X. apply nth_In, H.
Qed.

Lemma brand_rows c name : called c name ->
  name ++ repeat NUL (48 - length name) = brand_row c 2147483650 ++ brand_row c 2147483651 ++ brand_row c 2147483652.
Proof.
  intros [S [_ [_ P]]]. apply spells_fun in P. rewrite P. unfold brand_row. cbv zeta. unfold supports in S. cbv zeta in S.
  change (range_of 2147483652) with 2147483648%N in S.
  rewrite !get_supported; try reflexivity; try (split; [change (range_of _) with 2147483648%N; tauto|change (range_of _) with 2147483648%N; lia]).
Qed.
Lemma brand_eax c name : called c name -> r_eax (c 2147483652%N) = 0%N <-> length name <= 32.
Proof.
  intros [_ [Hn [Hl [ws [E F]]]]]. unfold brand_words in F. cbn [flat_map app] in F.
  repeat match goal with H : Forall2 packs _ (_ :: _) |- _ => inversion H; clear H; subst end.
  repeat match goal with H : Forall2 packs _ [] |- _ => inversion H; clear H; subst end.
  repeat match goal with H : packs _ _ |- _ => destruct H as (? & ? & ? & ? & -> & ?) end. cbn [concat app] in E.
  match goal with H : r_eax (c 2147483652%N) = (N_of_ascii ?a + 256 * N_of_ascii ?b + 65536 * N_of_ascii ?e + 16777216 * N_of_ascii ?d)%N |- _ =>
    rewrite H; assert (E32 : nth 32 (name ++ repeat NUL (48 - length name)) NUL = a) by (rewrite E; reflexivity);
    assert (E33 : nth 33 (name ++ repeat NUL (48 - length name)) NUL = b) by (rewrite E; reflexivity);
    assert (E34 : nth 34 (name ++ repeat NUL (48 - length name)) NUL = e) by (rewrite E; reflexivity);
    assert (E35 : nth 35 (name ++ repeat NUL (48 - length name)) NUL = d) by (rewrite E; reflexivity) end.
  split.
  - intros Z. destruct (Nat.le_gt_cases (length name) 32) as [L|L]; [exact L|exfalso].
    rewrite app_nth1 in E32 by lia. pose proof (nth_code name 32 ltac:(lia) Hn) as X. rewrite E32 in X. lia.
  - intros L. assert (G : forall i, 32 <= i -> nth i (name ++ repeat NUL (48 - length name)) NUL = NUL).
    { intros i Hi. rewrite app_nth2 by lia. apply nth_repeat. }
    rewrite G in E32, E33, E34, E35 by lia. subst. reflexivity.
Qed.
Lemma brand_of c name : called c name -> get_cpu_brand c = if Nat.leb (length name) 32 then bs "NA" else name.
Proof.
  intros H. unfold get_cpu_brand, cpuid_max. pose proof (brand_eax c name H) as B. destruct (N.eqb_spec (r_eax (c 2147483652%N)) 0) as [E|E].
  - apply B in E. apply Nat.leb_le in E. rewrite E. reflexivity.
  - assert (L : Nat.leb (length name) 32 = false) by (apply Nat.leb_gt; destruct (Nat.le_gt_cases (length name) 32) as [L|L]; [tauto|exact L]).
    rewrite L. rewrite !app_assoc, <- (app_assoc (brand_row c 2147483650)), <- (brand_rows c name H). rewrite <- app_assoc.
    destruct H as [_ [Hn [Hl _]]]. assert (R : forall n, repeat NUL n ++ repeat NUL 16 = NUL :: repeat NUL (n + 15)).
    { intros n. rewrite <- repeat_app. replace (n + 16) with (S (n + 15)) by lia. reflexivity. }
    rewrite R. apply cstr_app_nul. apply forallb_forall. intros x Hx. apply negb_true_iff, Ascii.eqb_neq. intros ->. exact (Hn Hx).
Qed.
Lemma brand_length c : length (get_cpu_brand c) <= 48.
Proof.
  unfold get_cpu_brand. destruct (N.eqb _ 0); [cbn; lia|].
  assert (R : forall leaf, length (brand_row c leaf) = 16) by reflexivity.
  set (s := brand_row c 2147483650 ++ brand_row c 2147483651 ++ brand_row c 2147483652). 
  assert (L : length s = 48) by (unfold s; rewrite !app_length, !R; reflexivity).
  rewrite !app_assoc, <- (app_assoc (brand_row c 2147483650)). fold s.
  destruct (cstr_split s) as [E|[t E]].
  - assert (N : nul_free s) by (rewrite <- E; apply cstr_nul_free). change (repeat NUL 16) with (NUL :: repeat NUL 15). rewrite cstr_app_nul by exact N. lia.
  - rewrite E. rewrite <- app_assoc. cbn [app]. rewrite cstr_app_nul by apply cstr_nul_free.
    apply (f_equal (@length _)) in E. rewrite app_length in E. cbn [length] in E. lia.
Qed.
Lemma model_bits c i : N.testbit (cpu_model c) i =
  let r := get_cpuid c 1 no_regs in
  ((i <? 14)%N && N.testbit (r_eax r) i) || ((13 <=? i)%N && (i <? 24)%N && N.testbit (r_eax r) (i + 2)) || ((24 <=? i)%N && (i <? 32)%N && N.testbit (r_ebx r) (i - 24)).
Proof.
  unfold cpu_model. cbv zeta. set (r := get_cpuid c 1 no_regs). clearbody r. rewrite !N.lor_spec, N.land_spec, N.shiftr_spec', N.land_spec.
  assert (M : forall k j, N.testbit (N.ones k) j = (j <? k)%N).
  { intros k j. destruct (N.ltb_spec j k); [apply N.ones_spec_low|apply N.ones_spec_high]; assumption. }
  change 16383%N with (N.ones 14). rewrite M. change 67076096%N with (N.shiftl (N.ones 11) 15). change 255%N with (N.ones 8). f_equal; [f_equal|].
  - apply andb_comm.
  - rewrite andb_comm. f_equal. destruct (N.leb_spec 13 i).
    + rewrite N.shiftl_spec_high' by lia. rewrite M. cbn [andb]. destruct (N.ltb_spec (i + 2 - 15) 11), (N.ltb_spec i 24); try reflexivity; lia.
    + rewrite N.shiftl_spec_low by lia. reflexivity.
  - destruct (N.leb_spec 24 i).
    + rewrite N.shiftl_spec_high', N.land_spec, M by lia. rewrite andb_comm. f_equal. cbn [andb]. destruct (N.ltb_spec (i - 24) 8), (N.ltb_spec i 32); try reflexivity; lia.
    + rewrite N.shiftl_spec_low by lia. reflexivity.
Qed.
