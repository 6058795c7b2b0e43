(** C112: an INI object saved to a file and loaded from it. *)
From Coq Require Import Lia.
From Verif Require Import Base P_Base CTypes StringUtils Dates Base64 HwId Registry Ini Network Disks ExecEnv Strategies Locate IniEdit Spec_IniEdit IniCalls IniFile Spec_IniFile Spec_Ini P_Ini Spec_IniText Spec_Cut P_Cut P_IniText P_IniEdit11 P_IniFile Prop_IniEdit Prop_IniText Prop_Cut.
From Verif Require Inspector.

(** *** SaveFile reports that the file could not be opened, and nothing else: neither an error while
    writing nor one while closing. No call has undefined behaviour. *)
Theorem C112_code : forall multi multiline h l st o old, perform_all h (new_store multi multiline) = Ok (l, st) ->
  exists content, save_file o old st = Ok (match o_ends o with None => Some (if o_opens o then F_OK else F_FILE) | Some _ => None end, content).
Proof.
  intros m ml h l st o old E. destruct (saves _ _ _ _ _ E) as (t & SV & _). unfold save_file. rewrite SV. destruct (o_ends o) as [[|n]|], (o_opens o); eexists; reflexivity.
Qed.
Print Assumptions C112_code.

(** *** Without errors the file holds exactly the text that Save writes, whatever it held before. *)
Theorem C112_complete : forall multi multiline h l st o old t,
  perform_all h (new_store multi multiline) = Ok (l, st) -> answers multi multiline (h ++ [CSave]) (l ++ [Written t]) ->
  o_opens o = true -> o_ends o = None -> takes_all o t ->
  save_file o old st = Ok (Some F_OK, Some t).
Proof.
  intros m ml h l st o old t E A OP EN T. destruct (saves _ _ _ _ _ E) as (t' & SV & A'). assert (t' = t) as ->. { apply answers_are in A. apply answers_are in A'. rewrite <- A' in A. apply app_inv_head in A. injection A as ->. reflexivity. }
  unfold save_file. rewrite SV, OP, EN. change (Ok (Some F_OK, Some (taken (o_takes o) 0 (parts (o_parts o) t))) = Ok (Some F_OK, Some t)). rewrite (taken_all (o_takes o) (parts (o_parts o) t) 0) by (intros j p P; exact (T j p P)). rewrite concat_parts. reflexivity.
Qed.
Print Assumptions C112_complete.

(** *** Whenever the process ends, and wherever the disk is full: before the file is opened it is as it
    was, and after that it holds a beginning of the new text (perhaps nothing): never a part of what
    it held before, and the old content is lost. *)
Theorem C112_prefix : forall multi multiline h l st o old t code content,
  perform_all h (new_store multi multiline) = Ok (l, st) -> answers multi multiline (h ++ [CSave]) (l ++ [Written t]) ->
  stays_failed o t -> save_file o old st = Ok (code, content) ->
  (~ opened o /\ content = old) \/ (opened o /\ exists n, content = Some (firstn n t)).
Proof.
  intros m ml h l st o old t code content E A F H. destruct (saves _ _ _ _ _ E) as (t' & SV & A'). assert (t' = t) as ->. { apply answers_are in A. apply answers_are in A'. rewrite <- A' in A. apply app_inv_head in A. injection A as ->. reflexivity. }
  unfold save_file in H. rewrite SV in H. unfold opened. destruct (o_ends o) as [[|n]|] eqn:EN.
  - left. injection H as <- <-. split; [intros [_ X]; destruct (X eq_refl)|reflexivity].
  - destruct (o_opens o); [right|left; injection H as <- <-; split; [intros [X _]; discriminate|reflexivity]]. split; [split; [reflexivity|discriminate]|].
    cbn [negb] in H. injection H as <- <-. assert (B : begins (taken (o_takes o) 0 (firstn (S n - 1) (parts (o_parts o) t))) t).
    { set (l0 := parts (o_parts o) t) in *. destruct (taken_begins (o_takes o) (firstn (S n - 1) l0) 0) as (x & X).
      - intros a b p AB P. assert (LT : a < length (firstn (S n - 1) l0)) by (apply nth_error_Some; intros Q; discriminate (eq_trans (eq_sym P) Q)). apply (F a b p AB). fold l0. rewrite <- (firstn_skipn (S n - 1) l0), nth_error_app1; [exact P|exact LT].
      - destruct (concat_firstn (S n - 1) l0) as (y & Y). unfold l0 in Y at 1. rewrite concat_parts in Y. exists (x ++ y). rewrite app_assoc. etransitivity; [exact Y|]. f_equal. exact X. }
    destruct (begins_firstn _ _ B) as (k & K). exists k. f_equal. exact K.
  - destruct (o_opens o); [right|left; injection H as <- <-; split; [intros [X _]; discriminate|reflexivity]]. split; [split; [reflexivity|discriminate]|].
    cbn [negb] in H. injection H as <- <-. assert (B : begins (taken (o_takes o) 0 (parts (o_parts o) t)) t).
    { destruct (taken_begins (o_takes o) (parts (o_parts o) t) 0 F) as (x & X). rewrite concat_parts in X. exists x. exact X. }
    destruct (begins_firstn _ _ B) as (k & K). exists k. f_equal. exact K.
Qed.
Print Assumptions C112_prefix.

(** *** LoadFile into a new object: SI_OK exactly if the file can be opened and all the bytes it is
    said to have are read; the object is then what LoadData makes of them (nothing of no bytes). *)
Theorem C112_load : forall f d, load_path f = Ok (F_OK, d) <->
  exists g n, f = Some g /\ i_seeks g = true /\ i_size g = Some n /\ N.to_nat n <= length (i_data g) /\ ini_load (firstn (N.to_nat n) (i_data g)) = Ok d.
Proof.
  intros f d. unfold load_path. destruct f as [g|]; [|split; [discriminate|intros (g & n & E & _); discriminate]]. destruct (i_seeks g) eqn:SK; cbn [negb]; [|split; [discriminate|intros (g' & n & E & S & _); injection E as <-; congruence]].
  destruct (i_size g) as [n|] eqn:SZ; [|split; [discriminate|intros (g' & n & E & _ & S & _); injection E as <-; congruence]].
  assert (X : forall g' n', Some g = Some g' -> i_size g' = Some n' -> g' = g /\ n' = n) by (intros g' n' E S; injection E as <-; split; [reflexivity|congruence]).
  destruct (N.eqb_spec n 0) as [->|NZ].
  - split.
    + intros E. injection E as <-. exists g, 0%N. split; [reflexivity|]. split; [exact SK|]. split; [exact SZ|]. split; [cbn; lia|reflexivity].
    + intros (g' & n' & E & _ & S & _ & L). destruct (X _ _ E S) as [-> ->]. cbn in L. injection L as <-. reflexivity.
  - rewrite firstn_length. destruct (Nat.eqb_spec (Nat.min (N.to_nat n) (length (i_data g))) (N.to_nat n)) as [Q|Q]; cbn [negb].
    + split.
      * intros E. exists g, n. split; [reflexivity|]. split; [exact SK|]. split; [exact SZ|]. split; [lia|]. destruct (ini_load _) as [r| | |]; try discriminate. injection E as <-. reflexivity.
      * intros (g' & n' & E & _ & S & _ & L). destruct (X _ _ E S) as [-> ->]. rewrite L. reflexivity.
    + split; [discriminate|]. intros (g' & n' & E & _ & S & LE & _). destruct (X _ _ E S) as [-> ->]. lia.
Qed.
Print Assumptions C112_load.
(** It is the loading the inspector does. *)
Theorem C112_inspector : forall f, Inspector.load_file f =
  d <-- load_path (option_map (fun f => {| i_data := f_data f; i_seeks := true; i_size := Some (f_size f) |}) f) ;; Ok (snd d).
Proof.
  intros [f|]; [|reflexivity]. cbn [option_map load_path i_data i_seeks i_size negb Inspector.load_file]. destruct (N.eqb_spec (f_size f) 0) as [Z|Z]; [reflexivity|].
  rewrite firstn_length. destruct (N.ltb_spec (N.of_nat (length (f_data f))) (f_size f)) as [L|L].
  - destruct (Nat.eqb_spec (Nat.min (N.to_nat (f_size f)) (length (f_data f))) (N.to_nat (f_size f))) as [Q|Q]; [lia|reflexivity].
  - destruct (Nat.eqb_spec (Nat.min (N.to_nat (f_size f)) (length (f_data f))) (N.to_nat (f_size f))) as [Q|Q]; [|lia]. cbn [negb]. destruct (ini_load _); reflexivity.
Qed.
Print Assumptions C112_inspector.

(** the file as it is found afterwards *)
Definition found_file (x : bytes) : option in_file := Some {| i_data := x; i_seeks := true; i_size := Some (N.of_nat (length x)) |}.
Lemma load_found x d : load_path (found_file x) = Ok (F_OK, d) -> ini_load x = Ok d.
Proof.
  intros H. apply C112_load in H as (g & n & G & _ & S & _ & L). injection G as <-. cbn [i_size i_data] in *. injection S as <-. rewrite Nat2N.id, firstn_all in L. exact L.
Qed.
(** *** Saved without errors and loaded again: the values are those of the object. *)
Theorem C112_round_trip : forall multi multiline h l st o old t sec key v more d content,
  Forall tidy h -> unnamed_is_first multi multiline h ->
  perform_all h (new_store multi multiline) = Ok (l, st) -> answers multi multiline (h ++ [CSave; CGet (Some sec) (Some key)]) (l ++ [Written t; Value v more]) ->
  o_opens o = true -> o_ends o = None -> takes_all o t ->
  save_file o old st = Ok (Some F_OK, Some content) -> load_path (found_file content) = Ok (F_OK, d) ->
  more = false -> get_value d sec key = v.
Proof.
  intros m ml h l st o old t sec key v more d content T U E A OP EN TA H L M.
  assert (LN : length l = length h). { assert (X : answers m ml h l) by (exists st; exact E). apply answers_are in X. subst l. apply expect_length. }
  assert (A1 : answers m ml (h ++ [CSave]) (l ++ [Written t])).
  { destruct (saves _ _ _ _ _ E) as (t' & _ & A'). assert (t' = t) as ->; [|exact A']. pose proof (answers_end _ _ _ _ _ _ A LN) as Z. pose proof (answers_end _ _ _ _ _ _ A' LN) as Z'. cbn [expect_all expect fst both] in Z, Z'. congruence. }
  rewrite (C112_complete m ml h l st o old t E A1 OP EN TA) in H. injection H as <-. apply load_found in L. exact (C105_library_reads m ml h l t sec key v more d T U LN A L M).
Qed.
Print Assumptions C112_round_trip.
(** *** After a crash at any point of SaveFile, or on a full disk: each value that is read from the file
    is a value that the saved object has for that key of that section, or a beginning of one. *)
Theorem C112_values : forall multi multiline h l st o old t code content sec key v' vs d,
  Forall tidy h -> unnamed_is_first multi multiline h ->
  perform_all h (new_store multi multiline) = Ok (l, st) ->
  answers multi multiline (h ++ [CSave; CAll (Some sec) (Some key)]) (l ++ [Written t; Told vs]) ->
  stays_failed o t -> opened o -> save_file o old st = Ok (code, Some content) -> load_path (found_file content) = Ok (F_OK, d) ->
  get_value d sec key = Some v' -> exists told v c, vs = Some told /\ In (v, c) told /\ begins v' v.
Proof.
  intros m ml h l st o old t code content sec key v' vs d T U E A SF OP H L G.
  assert (LN : length l = length h). { assert (X : answers m ml h l) by (exists st; exact E). apply answers_are in X. subst l. apply expect_length. }
  assert (A1 : answers m ml (h ++ [CSave]) (l ++ [Written t])).
  { destruct (saves _ _ _ _ _ E) as (t' & _ & A'). assert (t' = t) as ->; [|exact A']. pose proof (answers_end _ _ _ _ _ _ A LN) as Z. pose proof (answers_end _ _ _ _ _ _ A' LN) as Z'. cbn [expect_all expect fst both] in Z, Z'. congruence. }
  destruct (C112_prefix m ml h l st o old t _ _ E A1 SF H) as [[N _]|[_ (n & EQ)]]; [destruct (N OP)|]. injection EQ as ->. apply load_found in L.
  destruct (ini_load t) as [d0| | |] eqn:L0.
  2-4: destruct (ini_load_total t) as (d0 & X); congruence.
  destruct (C111_lookup t n d0 d sec key v' L0 L G) as (k & v & I & N & B & _).
  pose proof (C105_written m ml h l t sec key vs T U LN A) as W. unfold text_values in W.
  assert (IV : In v (map snd (filter (fun e => same_nameb (fst e) key) (section_entries t sec)))).
  { apply in_map_iff. exists (k, v). split; [reflexivity|]. apply filter_In. split; [exact I|]. cbn [fst]. unfold same_nameb. apply beqb_eq. exact N. }
  rewrite W in IV. destruct vs as [told|]; [|destruct IV]. apply in_map_iff in IV as ([v0 c] & EV & IN). cbn in EV. subst v0. exists told, v, c. auto.
Qed.
Print Assumptions C112_values.

(** concrete: the object of C105 saved over another file: the process ends at each point of the
    writing in parts of 8 bytes; the disk is full after 30 bytes *)
Definition eights : list nat := repeat 8 20.
Definition kill (n : nat) : out_file := {| o_opens := true; o_parts := eights; o_takes := fun _ => 8; o_ends := Some n |}.
Definition full_disk : out_file := {| o_opens := true; o_parts := eights; o_takes := fun i => if i <? 3 then 8 else if i =? 3 then 6 else 0; o_ends := None |}.
Definition fine : out_file := {| o_opens := true; o_parts := eights; o_takes := fun _ => 8; o_ends := None |}.
Definition refused : out_file := {| o_opens := false; o_parts := []; o_takes := fun _ => 0; o_ends := None |}.
Definition save_sample (o : out_file) : res (option file_code * option bytes) :=
  match perform_all sample (new_store false false) with Ok (_, st) => save_file o (Some (bs "[old]")) st | Throw e => Throw e | Undef u => Undef u | OutOfFuel => OutOfFuel end.
Lemma parts_eights t : length t <= 160 -> forall sizes, sizes = eights -> forall i p, nth_error (parts sizes t) i = Some p -> length p <= 8.
Proof.
  intros L sizes ->. unfold eights. assert (X : forall n t i p, length t <= 8 * n -> nth_error (parts (repeat 8 n) t) i = Some p -> length p <= 8); [|intros i p; apply X; exact L].
  clear. induction n as [|n IH]; intros t i p L H; cbn [repeat parts] in H.
  - destruct i as [|[|i]]; try discriminate. injection H as <-. lia.
  - destruct i as [|i]; [assert (E : Some (firstn 8 t) = Some p) by exact H; assert (p = firstn 8 t) as -> by congruence; rewrite firstn_length; lia|]. apply (IH (skipn 8 t) i p); [rewrite skipn_length; lia|exact H].
Qed.
Example C112_case :
  save_sample refused = Ok (Some F_FILE, Some (bs "[old]")) /\ save_sample fine = Ok (Some F_OK, Some sample_text) /\
  save_sample full_disk = Ok (Some F_OK, Some (firstn 30 sample_text)) /\
  map (fun n => save_sample (kill n)) [0; 1; 2; 5; 8] =
    map (fun c => Ok (None, Some c)) [bs "[old]"; []; firstn 8 sample_text; firstn 32 sample_text; sample_text].
Proof. vm_compute. refine (conj _ (conj _ (conj _ _))); reflexivity. Qed.
Example C112_conditions : takes_all fine sample_text /\ stays_failed full_disk sample_text /\ opened full_disk /\ (forall n, stays_failed (kill n) sample_text).
Proof.
  assert (L : length sample_text <= 160) by (vm_compute; lia). split; [|split; [|split; [split; [reflexivity|discriminate]|]]].
  - intros i p. apply (parts_eights _ L _ eq_refl).
  - intros i j p IJ P T. apply (parts_eights _ L _ eq_refl) in P. cbn [o_takes full_disk] in *. destruct (Nat.ltb_spec i 3), (Nat.eqb_spec i 3), (Nat.ltb_spec j 3), (Nat.eqb_spec j 3); try reflexivity; lia.
  - intros n i j p IJ P T. apply (parts_eights _ L _ eq_refl) in P. cbn [o_takes kill] in T. lia.
Qed.
(** *** If the system refuses one part and takes later ones, the text has a hole: SaveFile returns
    SI_OK, LoadFile too, and a key has the value of another one. *)
Definition hole : out_file := {| o_opens := true; o_parts := [8; 6]; o_takes := fun i => if i =? 1 then 0 else 100; o_ends := None |}.
Definition two_keys : list call := [CSet (bs "s") (Some (bs "a")) (Some (bs "1")) None false; CSet (bs "s") (Some (bs "b")) (Some (bs "2")) None false].
Theorem C112_hole_refuted : ~ (forall multi multiline h l st o old content sec key v' vs d,
  perform_all h (new_store multi multiline) = Ok (l, st) -> answers multi multiline (h ++ [CAll (Some sec) (Some key)]) (l ++ [Told vs]) ->
  save_file o old st = Ok (Some F_OK, Some content) -> load_path (found_file content) = Ok (F_OK, d) ->
  get_value d sec key = Some v' -> exists told v c, vs = Some told /\ In (v, c) told /\ begins v' v).
Proof.
  intros H. destruct (perform_all two_keys (new_store false false)) as [[l st]| | |] eqn:E; try (vm_compute in E; discriminate).
  specialize (H false false two_keys l st hole None (bs "[s]" ++ [LF] ++ bs "a = 2" ++ [LF] ++ [LF]) (bs "s") (bs "a") (bs "2") (Some [(bs "1", None)])).
  assert (A : answers false false (two_keys ++ [CAll (Some (bs "s")) (Some (bs "a"))]) (l ++ [Told (Some [(bs "1", None)])])).
  { eexists. vm_compute in E. injection E as <- <-. vm_compute. reflexivity. }
  assert (X : exists d, load_path (found_file (bs "[s]" ++ [LF] ++ bs "a = 2" ++ [LF] ++ [LF])) = Ok (F_OK, d) /\ get_value d (bs "s") (bs "a") = Some (bs "2")) by (eexists; split; vm_compute; reflexivity).
  destruct X as (d & L & G). destruct (H d E A) as (told & v & c & T & I & (x & B)).
  - vm_compute in E. injection E as <- <-. vm_compute. reflexivity.
  - exact L.
  - exact G.
  - injection T as <-. destruct I as [I|[]]. injection I as <- <-. destruct x; discriminate.
Qed.
Print Assumptions C112_hole_refuted.
