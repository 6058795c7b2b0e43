(** The disk listing computes what Spec_Listing describes. *)
From Verif Require Import Base CTypes StringUtils Network Disks P_Base P_Strings Spec_Disks P_Disks P_Blkid P_Blkid2 Spec_Listing.

Lemma int_of_wrap z : wrap_int z = int_of z.
Proof.
  unfold wrap_int, int_of. pose proof (Z.mod_pos_bound z 4294967296 ltac:(lia)) as B.
  pose proof (Z.div_mod z 4294967296 ltac:(lia)) as D.
  destruct (Z.ltb_spec (z mod 4294967296) 2147483648).
  - rewrite <- (Z.mod_unique (z + 2147483648) 4294967296 (z / 4294967296) (z mod 4294967296 + 2147483648)); lia.
  - rewrite <- (Z.mod_unique (z + 2147483648) 4294967296 (z / 4294967296 + 1) (z mod 4294967296 - 2147483648)); lia.
Qed.

(** ** preferences *)
Definition mark (Q : disk -> bool) (d : disk) : disk :=
  {| dk_id := dk_id d; dk_device := dk_device d; dk_sn := dk_sn d; dk_sn_init := dk_sn_init d; dk_label := dk_label d;
     dk_label_init := dk_label_init d; dk_preferred := dk_preferred d || Q d |}.

Lemma mark_ext Q Q' l : (forall d, In d l -> Q d = Q' d) -> map (mark Q) l = map (mark Q') l.
Proof. intros H. apply map_ext_in. intros d Hd. unfold mark. rewrite (H d Hd). reflexivity. Qed.
Lemma mark_none l : map (mark (fun _ => false)) l = l.
Proof. rewrite <- (map_id l) at 2. apply map_ext. intros [? ? ? ? ? ? p]. unfold mark; cbn. rewrite orb_false_r. reflexivity. Qed.

Lemma update_mark (p : disk -> bool) Q ds : NoDup (map dk_id ds) -> (forall d, p (mark Q d) = p d) ->
  update_first p set_preferred (map (mark Q) ds) =
  map (mark (fun d => Q d || match find p ds with Some d' => Z.eqb (dk_id d') (dk_id d) | None => false end)) ds.
Proof.
  intros N Hp. induction ds as [|d ds IH]; [reflexivity|]. cbn [map] in *. inversion N as [|? ? Hnot N']; subst. cbn [update_first find map].
  rewrite Hp. destruct (p d) eqn:E.
  - f_equal; [unfold mark, set_preferred; cbn; rewrite Z.eqb_refl, !orb_true_r; reflexivity|].
    apply mark_ext. intros d' Hin. destruct (Z.eqb_spec (dk_id d) (dk_id d')) as [Ei|]; [|rewrite orb_false_r; reflexivity].
    exfalso. apply Hnot. rewrite Ei. apply in_map, Hin.
  - rewrite IH by assumption. f_equal. unfold mark. f_equal. f_equal. destruct (find p ds) as [d'|] eqn:Ef; [|rewrite orb_false_r; reflexivity].
    apply find_some in Ef as [Hin _]. destruct (Z.eqb_spec (dk_id d') (dk_id d)) as [Ei|]; [|rewrite orb_false_r; reflexivity].
    exfalso. apply Hnot. rewrite <- Ei. apply in_map, Hin.
Qed.

Lemma prefer_label_mark name Q ds : NoDup (map dk_id ds) ->
  prefer_by_label name (map (mark Q) ds) =
  match labelled_disk ds name with
  | Some d => match dk_label d with
              | None => Undef UbUninit
              | Some _ => Ok (map (mark (fun x => Q x || Z.eqb (dk_id d) (dk_id x))) ds)
              end
  | None => Ok (map (mark Q) ds)
  end.
Proof.
  intros N. induction ds as [|d ds IH]; [reflexivity|]. cbn [map] in *. inversion N as [|? ? Hnot N']; subst. unfold labelled_disk.
  cbn [prefer_by_label find map]. change (dk_label (mark Q d)) with (dk_label d). destruct (dk_label d) as [lab|] eqn:El; [|rewrite El; reflexivity].
  replace (beqb name lab) with (beqb lab name) by (destruct (beqb_spec lab name), (beqb_spec name lab); congruence).
  destruct (beqb lab name) eqn:E.
  - rewrite El. f_equal. f_equal; [unfold mark, set_preferred; cbn; rewrite Z.eqb_refl, !orb_true_r; reflexivity|].
    apply mark_ext. intros d' Hin. destruct (Z.eqb_spec (dk_id d) (dk_id d')) as [Ei|]; [|rewrite orb_false_r; reflexivity].
    exfalso. apply Hnot. rewrite Ei. apply in_map, Hin.
  - rewrite IH by assumption. fold (labelled_disk ds name). destruct (labelled_disk ds name) as [d'|] eqn:Ef; [|reflexivity].
    destruct (dk_label d'); [|reflexivity]. cbn [rbind]. f_equal. f_equal. unfold mark. f_equal. f_equal.
    apply find_some in Ef as [Hin _]. destruct (Z.eqb_spec (dk_id d') (dk_id d)) as [Ei|]; [|rewrite orb_false_r; reflexivity].
    exfalso. apply Hnot. rewrite <- Ei. apply in_map, Hin.
Qed.

Lemma prefer_entry_mark m table line Q ds : NoDup (map dk_id ds) -> (forall u, map_find u m = id_of table u) ->
  prefer_entry m line (map (mark Q) ds) =
  if unknown_label ds line then Undef UbUninit else Ok (map (mark (fun d => Q d || names_disk table ds d line)) ds).
Proof.
  intros N Hm. unfold prefer_entry, unknown_label, names_disk. change is_prefix with starts_with.
  destruct (starts_with (bs "UUID=") line) eqn:E1.
  - assert (starts_with (bs "LABEL=") line = false) as ->.
    { change starts_with with is_prefix in *. apply is_prefix_spec in E1 as [b ->]. reflexivity. }
    cbn [andb orb]. rewrite Hm. destruct (id_of table (skipn 5 line)) as [id|].
    + f_equal. rewrite update_mark by (trivial; reflexivity). apply mark_ext. intros d Hd. rewrite orb_false_r. f_equal.
      destruct (find (fun d0 => Z.eqb id (dk_id d0)) ds) as [d'|] eqn:Ef.
      * apply find_some in Ef as [_ Ef]. apply Z.eqb_eq in Ef. subst. reflexivity.
      * symmetry. apply (find_none _ _ Ef _ Hd).
    + f_equal. apply mark_ext. intros. rewrite !orb_false_r. reflexivity.
  - cbn [andb orb]. destruct (starts_with (bs "LABEL=") line); cbn [andb].
    + rewrite prefer_label_mark by assumption. destruct (labelled_disk ds (skipn 6 line)) as [d|].
      * destruct (dk_label d); reflexivity.
      * f_equal. apply mark_ext. intros. rewrite orb_false_r. reflexivity.
    + f_equal. apply mark_ext. intros. rewrite orb_false_r. reflexivity.
Qed.

Lemma prefer_entries_mark m table es Q ds : NoDup (map dk_id ds) -> (forall u, map_find u m = id_of table u) ->
  prefer_entries m es (map (mark Q) ds) =
  if existsb (unknown_label ds) es then Undef UbUninit else Ok (map (mark (fun d => Q d || existsb (names_disk table ds d) es)) ds).
Proof.
  intros N Hm. revert Q; induction es as [|e es IH]; intros Q; cbn [prefer_entries existsb].
  - f_equal. apply mark_ext. intros. rewrite orb_false_r. reflexivity.
  - rewrite (prefer_entry_mark m table) by assumption. destruct (unknown_label ds e); [reflexivity|]. cbn [rbind orb]. rewrite IH.
    destruct (existsb (unknown_label ds) es); [reflexivity|]. f_equal. apply mark_ext. intros. rewrite orb_assoc. reflexivity.
Qed.

Lemma preferences_eq env m table ds : NoDup (map dk_id ds) -> (forall u, map_find u m = id_of table u) ->
  set_preferred_disks env m ds = with_preferences table (match de_fstab env with Some ls => ls | None => [] end) ds.
Proof.
  intros N Hm. unfold set_preferred_disks, with_preferences. destruct (de_fstab env) as [es|].
  - rewrite <- (mark_none ds) at 1. rewrite (prefer_entries_mark m table) by assumption. destruct (existsb _ es); reflexivity.
  - cbn [existsb]. f_equal. symmetry. apply (mark_none ds).
Qed.

(** ** labels *)
Definition relabel (f : Z -> option bytes) (d : disk) : disk :=
  {| dk_id := dk_id d; dk_device := dk_device d; dk_sn := dk_sn d; dk_sn_init := dk_sn_init d;
     dk_label := match f (dk_id d) with Some l => Some l | None => dk_label d end;
     dk_label_init := match f (dk_id d) with Some _ => true | None => dk_label_init d end; dk_preferred := dk_preferred d |}.

Lemma update_relabel id lab f ds : NoDup (map dk_id ds) ->
  update_first (fun d => Z.eqb id (dk_id d)) (set_label lab) (map (relabel f) ds) =
  map (relabel (fun i => if Z.eqb id i then Some lab else f i)) ds.
Proof.
  intros N. induction ds as [|d ds IH]; [reflexivity|]. cbn [map] in *. inversion N as [|? ? Hnot N']; subst. cbn [update_first map].
  change (dk_id (relabel f d)) with (dk_id d). destruct (Z.eqb_spec id (dk_id d)) as [->|Hne].
  - f_equal; [unfold relabel, set_label; cbn; rewrite Z.eqb_refl; reflexivity|].
    apply map_ext_in. intros d' Hin. unfold relabel. destruct (Z.eqb_spec (dk_id d) (dk_id d')) as [Ei|]; [|reflexivity].
    exfalso. apply Hnot. rewrite Ei. apply in_map, Hin.
  - rewrite IH by assumption. f_equal. unfold relabel. destruct (Z.eqb_spec id (dk_id d)); [congruence|reflexivity].
Qed.

Definition label_in (es : list dirent) (id : Z) : option bytes :=
  match rev (filter (fun e => negb (beqb (de_name e) (bs ".")) && negb (beqb (de_name e) (bs "..")) &&
                              match de_ino e with Some i => Z.eqb (int_of i) id | None => false end) es) with
  | [] => None
  | e :: _ => Some (firstn 254 (cstr (de_name e)))
  end.
Lemma label_in_snoc es e id : label_in (es ++ [e]) id =
  if negb (beqb (de_name e) (bs ".")) && negb (beqb (de_name e) (bs "..")) && match de_ino e with Some i => Z.eqb (int_of i) id | None => false end
  then Some (firstn 254 (cstr (de_name e))) else label_in es id.
Proof. unfold label_in. rewrite filter_app, rev_app_distr. cbn [filter]. destruct (_ && _ && _); reflexivity. Qed.

Lemma relabel_ext f g ds : (forall i, f i = g i) -> map (relabel f) ds = map (relabel g) ds.
Proof. intros H. apply map_ext. intros d. unfold relabel. rewrite H. reflexivity. Qed.
Lemma relabel_none ds : map (relabel (fun _ => None)) ds = ds.
Proof. rewrite <- (map_id ds) at 2. apply map_ext. intros []. reflexivity. Qed.

Lemma read_labels_eq env ds : NoDup (map dk_id ds) -> read_disk_labels env ds = map (relabel (label_of env)) ds.
Proof.
  intros N. unfold read_disk_labels, label_of.
  assert (G : forall es, fold_left (fun acc e =>
        if is_dots (de_name e) then acc
        else match de_ino e with
             | None => acc
             | Some ino => update_first (fun d => Z.eqb (wrap_int ino) (dk_id d)) (set_label (fit 255 (de_name e))) acc
             end) es ds = map (relabel (label_in es)) ds).
  { intros es. induction es as [|e es IH] using rev_ind; [symmetry; apply relabel_none|].
    rewrite fold_left_app. cbn [fold_left]. rewrite IH. unfold is_dots.
    destruct (beqb (de_name e) (bs ".") || beqb (de_name e) (bs "..")) eqn:E.
    - apply relabel_ext. intros i. rewrite label_in_snoc, <- negb_orb, E. reflexivity.
    - destruct (de_ino e) as [ino|] eqn:Ei.
      + rewrite update_relabel, int_of_wrap by assumption. apply relabel_ext. intros i. rewrite label_in_snoc, <- negb_orb, E, Ei. reflexivity.
      + apply relabel_ext. intros i. rewrite label_in_snoc, <- negb_orb, E, Ei. reflexivity. }
  destruct (de_by_label env) as [es|]; [apply G|]. destruct (de_by_partlabel env) as [es|]; [apply G|]. symmetry. apply relabel_none.
Qed.

(** ** by-uuid *)
Local Notation entry := (bytes * Z * bytes)%type.
Lemma distinct_snoc seen l (x : entry) : distinct seen (l ++ [x]) =
  distinct seen l ++ (if existsb (Z.eqb (u_id x)) seen || existsb (fun y => Z.eqb (u_id y) (u_id x)) (distinct seen l) then [] else [x]).
Proof.
  revert seen; induction l as [|y l IH]; intros seen; cbn [app distinct existsb].
  - rewrite orb_false_r. destruct (existsb _ seen); reflexivity.
  - destruct (existsb (Z.eqb (u_id y)) seen) eqn:E; [apply IH|]. rewrite IH. cbn [app existsb]. f_equal. f_equal.
    rewrite (Z.eqb_sym (u_id y)). destruct (Z.eqb (u_id x) (u_id y)), (existsb (Z.eqb (u_id x)) seen); reflexivity.
Qed.
Lemma distinct_mono seen (l t : list entry) : length (distinct seen l) <= length (distinct seen (l ++ t)).
Proof.
  induction t as [|x t IH] using rev_ind; [rewrite app_nil_r; lia|]. rewrite app_assoc, distinct_snoc, app_length. lia.
Qed.
Lemma distinct_nodup_aux seen (l : list entry) : NoDup (map u_id (distinct seen l)) /\ forall i, In i seen -> ~ In i (map u_id (distinct seen l)).
Proof.
  revert seen; induction l as [|x l IH]; intros seen; cbn [distinct]; [split; [constructor|intros i _ []]|].
  destruct (existsb (Z.eqb (u_id x)) seen) eqn:E; [apply IH|]. destruct (IH (u_id x :: seen)) as [A B]. cbn [map]. split.
  - constructor; [apply B; left; reflexivity|exact A].
  - intros i Hi [<-|Hin]; [|exact (B i (or_intror Hi) Hin)]. apply not_true_iff_false in E. apply E, existsb_exists. exists (u_id x).
    split; [exact Hi|apply Z.eqb_refl].
Qed.

Fixpoint exr (l0 l : list entry) : list entry :=
  match l with
  | [] => []
  | e :: r => if Nat.ltb (length (distinct [] l0)) 40 then e :: exr (l0 ++ [e]) r else []
  end.
Lemma examined_exr_aux l0 l : map snd (filter (fun p => Nat.ltb (length (distinct [] (firstn (fst p) (l0 ++ l)))) 40) (combine (seq (length l0) (length l)) l)) = exr l0 l.
Proof.
  revert l0; induction l as [|e l IH]; intros l0; [reflexivity|]. cbn [length seq combine filter fst exr].
  rewrite firstn_len. destruct (Nat.ltb_spec (length (distinct [] l0)) 40) as [H|H].
  - cbn [map snd]. f_equal. specialize (IH (l0 ++ [e])). rewrite <- app_assoc, app_length in IH. cbn [app length] in IH. rewrite Nat.add_1_r in IH. exact IH.
  - assert (F : filter (fun p : nat * entry => Nat.ltb (length (distinct [] (firstn (fst p) (l0 ++ e :: l)))) 40) (combine (seq (S (length l0)) (length l)) l) = []).
    { destruct (filter _ _) as [|[k y] t] eqn:E; [reflexivity|]. exfalso.
      assert (Hin : In (k, y) (filter (fun p : nat * entry => Nat.ltb (length (distinct [] (firstn (fst p) (l0 ++ e :: l)))) 40) (combine (seq (S (length l0)) (length l)) l))) by (rewrite E; left; reflexivity).
      apply filter_In in Hin as [Hin Hlt]. apply in_combine_l, in_seq in Hin. cbn [fst] in Hlt. apply Nat.ltb_lt in Hlt.
      rewrite firstn_app, firstn_all2 in Hlt by lia. pose proof (distinct_mono [] l0 (firstn (k - length l0) (e :: l))). lia. }
    rewrite F. reflexivity.
Qed.
Lemma examined_exr l : examined l = exr [] l.
Proof. apply (examined_exr_aux [] l). Qed.

Definition base (x : entry) : disk :=
  {| dk_id := u_id x; dk_device := firstn 1023 (cstr (after_last "/" (firstn 1023 (u_link x))));
     dk_sn := serial_of (cstr (u_name x)); dk_sn_init := true; dk_label := None; dk_label_init := false; dk_preferred := false |}.
Lemma base_labels env l : map (relabel (label_of env)) (map base l) = map (uuid_disk env) l.
Proof.
  rewrite map_map. apply map_ext. intros x. unfold relabel, base, uuid_disk. cbn. destruct (label_of env (u_id x)); reflexivity.
Qed.

Lemma after_last_eq c s : after_last c s = match find_last (fun x => Ascii.eqb x c) s with Some i => skipn (i + 1) s | None => s end.
Proof.
  unfold after_last. 
  assert (S1 : forall (f : ascii -> bool) t u, forallb f t = true -> (match u with [] => True | x :: _ => f x = false end) -> fst (span f (t ++ u)) = t).
  { intros f t u Ht Hu. induction t as [|a t IH]; cbn [app].
    - destruct u as [|x u]; [reflexivity|]. cbn [span]. rewrite Hu. reflexivity.
    - cbn [forallb] in Ht. apply andb_true_iff in Ht as [Ha Ht]. cbn [span]. rewrite Ha. specialize (IH Ht).
      destruct (span f (t ++ u)). cbn [fst] in *. congruence. }
  destruct (find_last (fun x => Ascii.eqb x c) s) as [i|] eqn:E.
  - apply find_last_some in E as [a [x [b [-> [<- [Hx Hb]]]]]]. 
    rewrite rev_app_distr. cbn [rev]. rewrite <- app_assoc. cbn [app]. rewrite S1.
    + rewrite rev_involutive. replace (length a + 1) with (length (a ++ [x])) by (rewrite app_length; reflexivity).
      replace (a ++ x :: b) with ((a ++ [x]) ++ b) by (rewrite <- app_assoc; reflexivity). rewrite skipn_len. reflexivity.
    + apply forallb_forall. intros y Hy. rewrite forallb_forall in Hb. apply Hb, in_rev, Hy.
    + rewrite Hx. reflexivity.
  - apply find_last_none in E. rewrite <- (app_nil_r (rev s)), S1; [apply rev_involutive| |exact I].
    apply forallb_forall. intros y Hy. rewrite forallb_forall in E. apply E, in_rev, Hy.
Qed.

Lemma map_find_insert k v m k' : map_find k' (map_insert k v m) = match map_find k' m with Some x => Some x | None => if beqb k k' then Some v else None end.
Proof.
  unfold map_insert. assert (E : existsb (fun p => beqb (fst p) k) m = match map_find k m with Some _ => true | None => false end).
  { induction m as [|[a b] m IH]; cbn; [reflexivity|]. destruct (beqb a k); [reflexivity|exact IH]. }
  rewrite E. destruct (map_find k m) as [y|] eqn:Ek.
  - destruct (beqb_spec k k') as [->|]; [rewrite Ek; reflexivity|]. destruct (map_find k' m); reflexivity.
  - clear E. induction m as [|[a b] m IH]; cbn [map_find app] in *; [reflexivity|]. destruct (beqb a k') eqn:E'; [reflexivity|].
    destruct (beqb a k) eqn:Ea; [discriminate|]. apply IH, Ek.
Qed.

Definition insert_all (l : list (bytes * Z)) (m : list (bytes * Z)) : list (bytes * Z) := fold_left (fun m p => map_insert (fst p) (snd p) m) l m.
Lemma insert_all_find l m u : map_find u (insert_all l m) = match map_find u m with Some x => Some x | None => id_of l u end.
Proof.
  unfold insert_all. revert m; induction l as [|[k v] l IH]; intros m; cbn [fold_left fst snd].
  - destruct (map_find u m); reflexivity.
  - rewrite IH, map_find_insert. destruct (map_find u m) as [x|]; [reflexivity|]. unfold id_of. cbn [find fst].
    destruct (beqb k u); reflexivity.
Qed.

Definition pair_of (x : entry) : bytes * Z := (u_name x, u_id x).
Lemma usables_cons e es : usables (e :: es) =
  (if is_dots (de_name e) || is_prefix (bs "usb") (de_name e) then []
   else match de_ino e, de_link e with Some i, Some l => [(de_name e, int_of i, l)] | _, _ => [] end) ++ usables es.
Proof. unfold is_dots. reflexivity. Qed.

Lemma dev_loop_eq es l0 m :
  dev_loop es (map base (distinct [] l0)) m =
  if existsb (fun x => overflows (u_name x)) (exr l0 (usables es)) then Undef UbWrite
  else Ok (map base (distinct [] (l0 ++ exr l0 (usables es))), insert_all (map pair_of (exr l0 (usables es))) m).
Proof.
  revert l0 m; induction es as [|e es IH]; intros l0 m.
  - cbn. rewrite app_nil_r. reflexivity.
  - cbn [dev_loop]. rewrite map_length. change MAX_UNITS with 40.
    destruct (Nat.leb_spec 40 (length (distinct [] l0))) as [H|H].
    + assert (E : forall l, exr l0 l = []).
      { intros [|x l]; [reflexivity|]. cbn [exr]. destruct (Nat.ltb_spec (length (distinct [] l0)) 40); [lia|reflexivity]. }
      rewrite E. cbn. rewrite app_nil_r. reflexivity.
    + rewrite usables_cons. destruct (is_dots (de_name e) || is_prefix (bs "usb") (de_name e)); [apply IH|].
      destruct (de_ino e) as [ino|]; [|apply IH]. destruct (de_link e) as [link|]; [|apply IH].
      cbn [app exr]. assert (Nat.ltb (length (distinct [] l0)) 40 = true) as -> by (apply Nat.ltb_lt, H).
      cbn [existsb]. change (u_name (de_name e, int_of ino, link)) with (de_name e).
      rewrite parse_uuid_spec. unfold overflows at 1. rewrite <- Nat.ltb_antisym || idtac.
      replace (Nat.leb (others (cstr (de_name e))) (length (hex_digits (cstr (de_name e))) mod 2))
        with (negb (Nat.ltb (length (hex_digits (cstr (de_name e))) mod 2) (others (cstr (de_name e))))) by (rewrite Nat.ltb_antisym, negb_involutive; reflexivity).
      destruct (Nat.ltb _ (others _)); [|reflexivity]. cbn [rbind negb orb].
      set (x := (de_name e, int_of ino, link)).
      rewrite int_of_wrap. change (int_of ino) with (u_id x).
      assert (Ex : (if existsb (fun x0 => Z.eqb (dk_id x0) (u_id x)) (map base (distinct [] l0)) then map base (distinct [] l0)
         else map base (distinct [] l0) ++
              [{| dk_id := u_id x; dk_device := fit MAX_PATH_UNIX (base_name (firstn (MAX_PATH_UNIX - 1) link));
                 dk_sn := serial_of (cstr (de_name e)); dk_sn_init := true; dk_label := None; dk_label_init := false; dk_preferred := false |}])
         = map base (distinct [] (l0 ++ [x]))).
      { rewrite distinct_snoc, map_app. cbn [existsb orb]. 
        assert (existsb (fun x0 => Z.eqb (dk_id x0) (u_id x)) (map base (distinct [] l0)) = existsb (fun y => Z.eqb (u_id y) (u_id x)) (distinct [] l0)) as ->.
        { generalize (distinct [] l0). intros l. induction l as [|y l IHl]; [reflexivity|]. cbn [map existsb]. rewrite IHl. reflexivity. }
        destruct (existsb _ (distinct [] l0)); [rewrite app_nil_r; reflexivity|]. f_equal. cbn [map]. f_equal. unfold base, base_name, fit. rewrite after_last_eq. reflexivity. }
      rewrite Ex. rewrite IH. rewrite <- app_assoc. reflexivity.
Qed.

Lemma dev_infos_eq env :
  get_disk_infos_dev env =
  let entries := examined (usables (match de_by_uuid env with Some es => es | None => [] end)) in
  if existsb (fun x => overflows (u_name x)) entries then Undef UbWrite
  else Ok (match entries with [] => FUNC_RET_NOT_AVAIL | _ => FUNC_RET_OK end, map (uuid_disk env) (distinct [] entries), insert_all (map pair_of entries) []).
Proof.
  unfold get_disk_infos_dev. cbv zeta. rewrite examined_exr. set (es := match de_by_uuid env with Some es => es | None => [] end).
  replace (match de_by_uuid env with None => Ok ([], []) | Some es => dev_loop es [] [] end) with (dev_loop es [] []) by (unfold es; destruct (de_by_uuid env); reflexivity).
  pose proof (dev_loop_eq es [] []) as E. cbn [map distinct app] in E. rewrite E; clear E. destruct (existsb _ _); [reflexivity|]. cbn [rbind].
  set (l := exr [] (usables es)). rewrite read_labels_eq.
  - rewrite base_labels. destruct l as [|x l]; [reflexivity|]. cbn [distinct existsb map]. reflexivity.
  - rewrite map_map. apply (distinct_nodup_aux [] l).
Qed.

(** ** the blkid cache *)
Lemma find_map {A B} (f : A -> B) p l : find p (map f l) = option_map f (find (fun x => p (f x)) l).
Proof. induction l as [|x l IH]; [reflexivity|]. cbn. destruct (p (f x)); [reflexivity|exact IH]. Qed.
Lemma find_here_find n s : find_here n s = find (fun p => starts_with n (skipn p s)) (seq 0 (S (length s))).
Proof.
  induction s as [|c s IH].
  - cbn [find_here seq find skipn length]. change is_prefix with starts_with. destruct (starts_with n []); reflexivity.
  - cbn [find_here length]. change (seq 0 (S (S (length s)))) with (0 :: seq 1 (S (length s))). cbn [find skipn].
    change is_prefix with starts_with. destruct (starts_with n (c :: s)); [reflexivity|]. rewrite IH, <- seq_shift, find_map. reflexivity.
Qed.

Lemma before_first_eq c t : before_first c t = match find_here [c] t with Some j => firstn j t | None => t end.
Proof.
  unfold before_first. induction t as [|x t IH]; [reflexivity|]. cbn [span find_here is_prefix]. rewrite andb_true_r, (Ascii.eqb_sym c x).
  destruct (Ascii.eqb x c); [reflexivity|]. cbn [negb]. destruct (span (fun x0 => negb (Ascii.eqb x0 c)) t) as [a b]. cbn [fst] in *. rewrite IH.
  destruct (find_here [c] t); reflexivity.
Qed.

Lemma value_eq s attr : get_attribute s attr = value attr s.
Proof.
  unfold get_attribute, value. cbv zeta. set (full := attr ++ bs "=""").
  assert (G : forall p, p <= length s -> (match str_find (bs """") s p with Some endpos => substr s p (endpos - p) | None => substr s p (length s) end)
     = Ok (before_first """" (skipn p s))).
  { intros p Hp. rewrite str_find_at by exact Hp. rewrite before_first_eq. change (bs """") with [""""%char]. 
    destruct (find_here [""""%char] (skipn p s)) as [j|]; cbn [option_map]; rewrite substr_ok by exact Hp.
    - replace (p + j - p) with j by lia. reflexivity.
    - rewrite firstn_all2; [reflexivity|]. rewrite skipn_length. lia. }
  rewrite (str_find_at full s 0) by lia. cbn [skipn]. rewrite find_here_find.
  destruct (find (fun p => starts_with full (skipn p s)) (seq 0 (S (length s)))) as [p|] eqn:E; cbn [option_map Nat.add].
  - rewrite G; [reflexivity|]. rewrite <- find_here_find in E. destruct (find_here_some _ _ _ E) as [a [b [[-> _] <-]]]. rewrite !app_length. lia.
  - assert (Hl : length full - 1 = length attr + 1) by (unfold full; rewrite app_length; cbn [bs length list_ascii_of_string]; lia).
    rewrite Hl. destruct (Nat.ltb_spec (length s) (length attr + 1)) as [H|H]; [|apply G, H].
    unfold str_find. destruct (Nat.ltb_spec (length s) (length attr + 1)); [|lia]. unfold substr. destruct (Nat.ltb_spec (length s) (length attr + 1)); [reflexivity|lia].
Qed.

Lemma all_ok_cons {A} (x : res A) l : all_ok (x :: l) = (v <-- x ;; vs <-- all_ok l ;; Ok (v :: vs)).
Proof. reflexivity. Qed.

Definition tags_from (content : bytes) (from : nat) : list nat :=
  filter (fun p => starts_with tag (skipn p content)) (seq from (length content - from)).
Lemma tag_find_aux content n p : p + n = length content ->
  find (fun q => starts_with tag (skipn q content)) (seq p (S n)) =
  match filter (fun q => starts_with tag (skipn q content)) (seq p n) with [] => None | q :: _ => Some q end.
Proof.
  revert p; induction n as [|n IH]; intros p Hp.
  - cbn [seq find filter]. rewrite skipn_all2 by lia. reflexivity.
  - change (seq p (S (S n))) with (p :: seq (S p) (S n)). change (seq p (S n)) with (p :: seq (S p) n). cbn [find filter].
    destruct (starts_with tag (skipn p content)); [reflexivity|]. apply IH. lia.
Qed.
Lemma tag_find content p : p <= length content -> str_find tag content p = match tags_from content p with [] => None | q :: _ => Some q end.
Proof.
  intros Hp. rewrite str_find_at by exact Hp. rewrite find_here_find, skipn_length. unfold tags_from. rewrite <- tag_find_aux by lia.
  generalize (S (length content - p)). intros n.
  assert (G : forall n k, option_map (fun i => p + i) (find (fun q => starts_with tag (skipn q (skipn p content))) (seq k n)) = find (fun q => starts_with tag (skipn q content)) (seq (p + k) n)).
  { clear. intros n. induction n as [|n IH]; intros k; [reflexivity|]. cbn [seq find]. rewrite skipn_skipn'. destruct (starts_with tag _); [reflexivity|].
    rewrite IH. rewrite Nat.add_succ_r. reflexivity. }
  rewrite G, Nat.add_0_r. reflexivity.
Qed.
Lemma tags_next content p q r : tags_from content p = q :: r -> p <= q < length content /\ r = tags_from content (S q).
Proof.
  unfold tags_from. remember (length content - p) as n eqn:En. revert p En; induction n as [|n IH]; intros p En; [discriminate|].
  cbn [seq filter]. destruct (starts_with tag (skipn p content)).
  - intros [= <- <-]. split; [lia|]. replace (length content - S p) with n by lia. reflexivity.
  - intros H. apply IH in H; [|lia]. destruct H as [A B]. split; [lia|exact B].
Qed.

Definition windows_from (content : bytes) (p : nat) : list bytes :=
  map (fun q => firstn (snd q) (skipn (fst q) content)) (combine (p :: map S (tags_from content p)) (tags_from content p)).
Definition found_from (content : bytes) (p k : nat) : res (list (bytes * disk)) :=
  all_ok (map (fun q => blkid_disk (fst q) (snd q)) (combine (seq k (length (windows_from content p))) (windows_from content p))).

Lemma windows_next content p q r : tags_from content p = q :: r -> windows_from content p = firstn q (skipn p content) :: windows_from content (S q).
Proof.
  intros H. destruct (tags_next _ _ _ _ H) as [_ ->]. unfold windows_from. rewrite H. cbn [map combine fst snd]. reflexivity.
Qed.

Lemma blkid_loop_eq fuel content p k out m : p <= length content -> length content - p < fuel ->
  parse_blkid_loop fuel content p (Z.of_nat k) out m =
  (found <-- found_from content p k ;; Ok (out ++ map snd found, insert_all (map (fun x => (fst x, dk_id (snd x))) found) m)).
Proof.
  revert p k out m; induction fuel as [|fuel IH]; intros p k out m Hp Hf; [lia|].
  cbn [parse_blkid_loop]. change (bs "</device>") with tag. rewrite tag_find by exact Hp. unfold found_from.
  destruct (tags_from content p) as [|q r] eqn:Et.
  - unfold windows_from. rewrite Et. cbn. rewrite app_nil_r. reflexivity.
  - rewrite (windows_next _ _ _ _ Et). destruct (tags_next _ _ _ _ Et) as [Hq _]. rewrite substr_ok by exact Hp. cbn [rbind length seq combine map fst snd].
    rewrite all_ok_cons. set (cur := firstn q (skipn p content)).
    assert (Ed : substr cur (match find_last (fun c => Ascii.eqb c ">"%char) cur with Some i => i + 1 | None => 0 end) (length cur) = Ok (after_last ">" cur)).
    { rewrite after_last_eq. destruct (find_last _ cur) as [i|] eqn:E; rewrite substr_ok.
      - rewrite firstn_all2; [reflexivity|]. rewrite skipn_length. lia.
      - apply find_last_lt in E. lia.
      - cbn [skipn]. rewrite firstn_all. reflexivity.
      - lia. }
    rewrite Ed. cbn [rbind]. rewrite !value_eq. unfold blkid_disk at 1.
    destruct (value (bs "PARTLABEL") cur) as [label| | |]; cbn [rbind]; try reflexivity.
    destruct (value (bs "UUID") cur) as [uuid| | |]; cbn [rbind]; try reflexivity.
    rewrite parse_uuid_spec. unfold overflows. rewrite (Nat.ltb_antisym (others (cstr uuid))).
    destruct (Nat.leb (others (cstr uuid)) _); cbn [negb rbind]; [reflexivity|].
    destruct (value (bs "TYPE") cur) as [type| | |]; cbn [rbind]; try reflexivity.
    replace (Z.of_nat k + 1)%Z with (Z.of_nat (S k)) by lia. rewrite Nat.add_1_r. rewrite IH by lia. unfold found_from.
    destruct (all_ok _) as [found| | |]; cbn [rbind]; try reflexivity. cbn [map snd fst]. rewrite <- app_assoc. reflexivity.
Qed.

Lemma all_ok_ids ws k found : all_ok (map (fun q => blkid_disk (fst q) (snd q)) (combine (seq k (length ws)) ws)) = Ok found ->
  map dk_id (map snd found) = map Z.of_nat (seq k (length ws)).
Proof.
  revert k found; induction ws as [|w ws IH]; intros k found; cbn [length seq combine map fst snd]; [intros [= <-]; reflexivity|].
  rewrite all_ok_cons. intros H. apply rbind_ok in H as [[u d] [Ed H]]. apply rbind_ok in H as [vs [Ev H]]. injection H as <-.
  cbn [map snd]. rewrite (IH _ _ Ev). f_equal. unfold blkid_disk in Ed.
  apply rbind_ok in Ed as [? [_ Ed]]. apply rbind_ok in Ed as [? [_ Ed]]. destruct (overflows _); [discriminate|].
  apply rbind_ok in Ed as [? [_ Ed]]. injection Ed as _ <-. reflexivity.
Qed.
Lemma nat_ids_nodup k n : NoDup (map Z.of_nat (seq k n)).
Proof. apply FinFun.Injective_map_NoDup; [intros a b; lia|apply seq_NoDup]. Qed.

Lemma first_some_eq l : first_some l = match flat_map (fun c => match c with Some s => [s] | None => [] end) l with [] => None | c :: _ => Some c end.
Proof. induction l as [|[c|] l IH]; cbn; [reflexivity|reflexivity|exact IH]. Qed.

Theorem listing_eq env : get_disk_infos env = disks_of env.
Proof.
  unfold get_disk_infos, disks_of. rewrite dev_infos_eq. cbv zeta. set (entries := examined _).
  destruct entries as [|x l] eqn:El.
  - cbn [existsb rbind map distinct]. rewrite first_some_eq. destruct (flat_map _ (de_blkid env)) as [|content ?]; [reflexivity|].
    unfold parse_blkid. change 0%Z with (Z.of_nat 0). rewrite blkid_loop_eq by lia. unfold found_from.
    replace (windows_from content 0) with (windows content) by (unfold windows, windows_from, tags, tags_from; rewrite Nat.sub_0_r; reflexivity).
    destruct (all_ok _) as [found| | |] eqn:Ef; cbn [rbind]; try reflexivity. cbn [app].
    rewrite (preferences_eq env _ (map (fun x => (fst x, dk_id (snd x))) found)); [reflexivity| |].
    + rewrite (all_ok_ids _ _ _ Ef). apply nat_ids_nodup.
    + intros u. rewrite insert_all_find. reflexivity.
  - rewrite <- El. destruct (existsb _ entries); [reflexivity|]. cbn [rbind]. rewrite El at 1.
    rewrite (preferences_eq env _ (map pair_of entries)); [reflexivity| |].
    + rewrite map_map. apply (distinct_nodup_aux [] entries).
    + intros u. rewrite insert_all_find, <- El. reflexivity.
Qed.
