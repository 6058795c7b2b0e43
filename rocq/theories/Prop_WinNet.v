(** Properties C66 and C67: the network adapters of a Windows machine. *)
From Verif Require Import Base P_Base Network WinNetwork Spec_WinNet P_WinNet.
From Coq Require Import Lia Permutation Sorted.

(** C66: an address in dotted decimal becomes its four bytes. Any other text: the first
    four groups of digits modulo 256, undefined if a further group is not empty; a text
    without end is never accepted. *)
Theorem C66_dotted : forall (text rest : bytes) (ip : ipv4), dotted text ip -> translate (text ++ NUL :: rest) = Ok ip.
Proof. intros text rest ip H. apply translate_dotted, H. Qed.
Print Assumptions C66_dotted.
Theorem C66_any_text : forall text rest : bytes, ~ In NUL text ->
  exists first more, text = grouped first more /\ groups_ok first more /\
    (Forall (fun g => snd g = []) (skipn 3 more) ->
       translate (text ++ NUL :: rest) =
       Ok (Ip (low_byte (number (group first more 0))) (low_byte (number (group first more 1)))
              (low_byte (number (group first more 2))) (low_byte (number (group first more 3))))) /\
    (Exists (fun g => snd g <> []) (skipn 3 more) -> translate (text ++ NUL :: rest) = Undef UbWrite).
Proof.
  intros text rest H. destruct (grouped_exists text H) as [d0 [more [G E]]]. exists d0, more. split; [exact E|]. split; [exact G|]. subst text. rewrite translate_groups by exact G. split; intros F.
  - replace (forallb _ (skipn 3 more)) with true; [reflexivity|]. symmetry. apply forallb_forall. intros p Hp. rewrite Forall_forall in F. rewrite (F p Hp). reflexivity.
  - replace (forallb _ (skipn 3 more)) with false; [reflexivity|]. symmetry. apply not_true_iff_false. rewrite forallb_forall. intros X. apply Exists_exists in F as [p [Ip Np]]. specialize (X p Ip). destruct (snd p); [congruence|discriminate].
Qed.
Print Assumptions C66_any_text.
Theorem C66_unterminated : forall text : bytes, ~ In NUL text -> exists u, translate text = Undef u.
Proof. intros text H. apply unterminated, H. Qed.
Print Assumptions C66_unterminated.
Example C66_case : dotted (bs "192.168.1.10") (Ip "192" "168" "001" "010") /\ translate (bs "192.168.1.10" ++ repeat NUL 4) = Ok (Ip "192" "168" "001" "010") /\
  translate (bs "300.1.2.3" ++ [NUL]) = Ok (Ip "044" "001" "002" "003") /\ translate (bs "1.2.3.4.5" ++ [NUL]) = Undef UbWrite.
Proof.
  split; [|repeat split; vm_compute; reflexivity].
  exists (bs "192"), (bs "168"), (bs "1"), (bs "10").
  repeat split; try discriminate; try (vm_compute; reflexivity); repeat constructor; unfold digit; vm_compute; lia.
Qed.

(** C67: which adapters, with what, and in which order. *)
Theorem C67_adapters : forall (sort : list os_adapter -> list os_adapter) (w : win_net) (l : list win_adapter),
  std_sort cmp sort -> delivers w l -> Forall (fun a => exists ip, sound a ip) l ->
  (filter usable l = [] -> win_adapter_infos sort w = Ok (FUNC_RET_NOT_AVAIL, [])) /\
  (filter usable l <> [] -> exists cards out, win_adapter_infos sort w = Ok (FUNC_RET_OK, out) /\
     Forall2 card (filter usable l) cards /\ Permutation out cards /\ StronglySorted ranked_before out).
Proof.
  intros sort w l Hs [Ha [a [r [El Hd]]]] Hl. destruct (walk_spec l Hl) as [cards [E F]].
  assert (W : win_adapter_infos sort w = adapters_found sort l).
  { unfold win_adapter_infos. rewrite Ha. destruct Hd as [->|[-> [-> ->]]]; subst l; reflexivity. }
  rewrite W. unfold adapters_found. rewrite E. cbn [rbind]. split; intros H.
  - rewrite H in F. inversion F. reflexivity.
  - destruct cards as [|c cards]; [inversion F as [X|]; congruence|]. destruct (Hs (c :: cards)) as [P T]. do 2 eexists. split; [reflexivity|]. split; [exact F|]. split; [exact P|].
    clear -T. induction T as [|o l T IH Fo]; constructor; [exact IH|]. eapply Forall_impl; [|exact Fo]. cbn beta. intros p. apply ranked_score.
Qed.
Print Assumptions C67_adapters.
(** the comparison is one std::sort can work with *)
Theorem C67_comparison : strict_weak_order cmp.
Proof. exact cmp_order. Qed.
Print Assumptions C67_comparison.
(** adapters of different rank come out in one order, however they are enumerated and sorted *)
Theorem C67_enumeration_order : forall (sort sort' : list os_adapter -> list os_adapter) (w w' : win_net) (l l' : list win_adapter),
  std_sort cmp sort -> std_sort cmp sort' -> delivers w l -> delivers w' l' -> Permutation l l' ->
  Forall (fun a => exists ip, sound a ip) l ->
  ForallOrdPairs (fun a b => forall k, rank (description a) k -> ~ rank (description b) k) (filter usable l) ->
  win_adapter_infos sort w = win_adapter_infos sort' w'.
Proof.
  intros sort sort' w w' l l' Hs Hs' [Ha [a [r [El Hd]]]] [Ha' [a' [r' [El' Hd']]]] P Hl Hr. destruct (walk_spec l Hl) as [cards [E F]].
  destruct (walk_perm _ _ P _ E) as [cards' [E' P']].
  assert (W : win_adapter_infos sort w = adapters_found sort l).
  { unfold win_adapter_infos. rewrite Ha. destruct Hd as [->|[-> [-> ->]]]; subst l; reflexivity. }
  assert (W' : win_adapter_infos sort' w' = adapters_found sort' l').
  { unfold win_adapter_infos. rewrite Ha'. destruct Hd' as [->|[-> [-> ->]]]; subst l'; reflexivity. }
  rewrite W, W'. unfold adapters_found. rewrite E, E'. cbn [rbind].
  destruct cards as [|c cards]; [apply Permutation_nil in P'; subst; reflexivity|]. destruct cards' as [|c' cards']; [apply Permutation_sym, Permutation_nil in P'; discriminate|].
  do 2 f_equal. destruct (Hs (c :: cards)) as [P1 T1], (Hs' (c' :: cards')) as [P2 T2].
  eapply sorted_unique; [|exact T1|exact T2|].
  - rewrite P1, P2. exact P'.
  - intros x y Hx Hy R1 R2. apply (different_ranks _ _ F Hr); try (eapply Permutation_in; [exact P1|assumption]); assumption.
Qed.
Print Assumptions C67_enumeration_order.
(** failures of the system *)
Theorem C67_failures : forall (sort : list os_adapter -> list os_adapter) (w : win_net),
  (wn_alloc1 w = false -> win_adapter_infos sort w = Ok (FUNC_RET_ERROR, [])) /\
  (wn_alloc1 w = true -> wn_first w = GaOverflow ->
     (wn_alloc2 w = false \/ wn_second w = GaOverflow -> win_adapter_infos sort w = Ok (FUNC_RET_BUFFER_TOO_SMALL, [])) /\
     (wn_alloc2 w = true -> wn_second w = GaError -> win_adapter_infos sort w = Ok (FUNC_RET_ERROR, []))).
Proof.
  intros sort w. unfold win_adapter_infos. split; [intros ->; reflexivity|]. intros -> ->. split.
  - intros [->| ->]; [reflexivity|]. destruct (wn_alloc2 w); reflexivity.
  - intros -> ->. reflexivity.
Qed.
Print Assumptions C67_failures.
(** a sort for the examples *)
Fixpoint insert (x : os_adapter) (l : list os_adapter) : list os_adapter :=
  match l with [] => [x] | y :: r => if cmp y x then y :: insert x r else x :: y :: r end.
Definition by_rank (l : list os_adapter) : list os_adapter := fold_right insert [] l.
Lemma insert_perm x l : Permutation (insert x l) (x :: l).
Proof. induction l as [|y l IH]; cbn; [reflexivity|]. destruct (cmp y x); [rewrite IH; apply perm_swap|reflexivity]. Qed.
Lemma by_rank_sorts : std_sort cmp by_rank.
Proof.
  intros l. induction l as [|x l [P IH]]; [split; [reflexivity|constructor]|]. cbn. split; [rewrite insert_perm; apply perm_skip, P|].
  clear P. fold (by_rank l). induction (by_rank l) as [|y r IH2]; [repeat constructor|]. apply StronglySorted_inv in IH as [T F]. cbn. destruct (cmp y x) eqn:E.
  - constructor; [apply IH2, T|]. rewrite Forall_forall in *. intros z Hz. apply (Permutation_in _ (insert_perm x r)) in Hz as [<-|Hz]; [unfold cmp in *; lia|apply F, Hz].
  - constructor; [constructor; assumption|]. constructor; [exact E|]. rewrite Forall_forall in *. intros z Hz. specialize (F z Hz). unfold cmp in *. lia.
Qed.

(** Finding: an error of the first call other than the overflow - such as the one for a
    machine without adapters - is not noticed; the uninitialised buffer is used. *)
Theorem C67_error_reported_refuted : ~ (forall sort w, std_sort cmp sort -> wn_first w = GaError -> exists r out, win_adapter_infos sort w = Ok (r, out) /\ r <> FUNC_RET_OK).
Proof.
  intros H. destruct (H by_rank {| wn_alloc1 := true; wn_first := GaError; wn_alloc2 := true; wn_second := GaError |}) as [r [out [E _]]]; [exact by_rank_sorts|reflexivity|discriminate E].
Qed.
Print Assumptions C67_error_reported_refuted.

Definition an_adapter (descr : string) (m : list nat) (ip : string) : win_adapter :=
  {| wa_ethernet := true; wa_description := bs descr ++ [NUL]; wa_addr_len := 6; wa_address := map ascii_of_nat m ++ [NUL; NUL]; wa_ip := bs ip ++ repeat NUL (16 - length (bs ip)) |}.
Definition two_adapters : list win_adapter :=
  [an_adapter "TAP VPN Adapter" [2;0;0;0;0;1] "10.8.0.6"; an_adapter "Loopback" [0;0;0;0;0;0] "127.0.0.1"; an_adapter "Intel(R) Ethernet" [0;27;33;1;2;3] "192.168.1.10"].
Definition net_of (l : list win_adapter) : win_net :=
  {| wn_alloc1 := true; wn_first := GaOverflow; wn_alloc2 := true; wn_second := match l with a :: r => GaOk a r | [] => GaError end |}.
Example C67_case : std_sort cmp by_rank /\ delivers (net_of two_adapters) two_adapters /\ Forall (fun a => exists ip, sound a ip) two_adapters /\
  length (filter usable two_adapters) = 2 /\
  ForallOrdPairs (fun a b => forall k, rank (description a) k -> ~ rank (description b) k) (filter usable two_adapters) /\
  win_adapter_infos by_rank (net_of two_adapters) =
    Ok (FUNC_RET_OK, [{| oa_description := bs "Intel(R) Ethernet"; oa_adapter := {| ad_mac := Mac "000" "027" "033" "001" "002" "003"; ad_ip := Ip "192" "168" "001" "010" |} |};
                      {| oa_description := bs "TAP VPN Adapter"; oa_adapter := {| ad_mac := Mac "002" "000" "000" "000" "000" "001"; ad_ip := Ip "010" "008" "000" "006" |} |}]).
Proof.
  split; [exact by_rank_sorts|]. split. { split; [reflexivity|]. do 2 eexists. split; [reflexivity|]. right. repeat split. }
  split. { unfold two_adapters. repeat apply Forall_cons; try apply Forall_nil.
    - exists (Ip "010" "008" "000" "006"). split; [reflexivity|]. exists (bs "10.8.0.6"), (repeat NUL 7). split; [reflexivity|]. exists (bs "10"), (bs "8"), (bs "0"), (bs "6").
      repeat split; try discriminate; try (vm_compute; reflexivity); repeat constructor; unfold digit; vm_compute; lia.
    - exists (Ip "127" "000" "000" "001"). split; [reflexivity|]. exists (bs "127.0.0.1"), (repeat NUL 6). split; [reflexivity|]. exists (bs "127"), (bs "0"), (bs "0"), (bs "1").
      repeat split; try discriminate; try (vm_compute; reflexivity); repeat constructor; unfold digit; vm_compute; lia.
    - exists (Ip "192" "168" "001" "010"). split; [reflexivity|]. exists (bs "192.168.1.10"), (repeat NUL 3). split; [reflexivity|]. exists (bs "192"), (bs "168"), (bs "1"), (bs "10").
      repeat split; try discriminate; try (vm_compute; reflexivity); repeat constructor; unfold digit; vm_compute; lia. }
  split; [vm_compute; reflexivity|]. split; [|vm_compute; reflexivity].
  repeat constructor. intros k H1 H2. apply rank_score in H1, H2. rewrite <- H1 in H2. vm_compute in H2. discriminate.
Qed.
