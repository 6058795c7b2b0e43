(** C109: license files that change while they are read. *)
From Coq Require Import Lia.
From Verif Require Import Base CTypes StringUtils Dates Base64 HwId Registry Ini Network Disks ExecEnv Strategies Locate Licensecc AcquireIo.
From Verif Require Import P_Base Spec_Hw Spec_Ini Spec_Acquire P_Io Prop_Acquire FileSteps Spec_FileSteps P_FileSteps Ex_Acquire.

(** *** One reading, whatever happens to the file meanwhile: as many bytes as it had (4096 at most)
    when its size was asked for, right after it was opened. They are read from front to back, each
    at an instant after that, and a byte that is not found is NUL: then an error occurred or the
    file was shorter at an instant after all bytes before it were read. *)
Theorem C109_text d at_ j path f j' text : read_steps d at_ j path = (Some f, j') -> get_file_contents (Some f) MAX_LICENSE_DATA = Ok text ->
  exists n when, k_path d (at_ j) path = Some n /\ length text = Nat.min (length (k_data d (at_ (S j)) n)) 4096 /\
    (forall a b, a <= b -> when a <= when b) /\
    forall i c, nth_error text i = Some c -> S j < when i < j' /\
      (nth_error (k_data d (at_ (when i)) n) i = Some c \/
       (c = NUL /\ (k_most d (at_ (when i)) = None \/ length (k_data d (at_ (when i)) n) <= i))).
Proof.
  intros H G. apply read_found in H as (n & got & K & -> & D). pose proof (deliver_next _ _ _ _ _ _ _ _ _ D) as NX. apply deliver_bytes in D as (D1 & (when & W1 & W2 & W3) & D3); [|lia].
  rewrite contents_padded in G by exact D1. injection G as <-. set (size := length (k_data d (at_ (S j)) n)) in *.
  exists n, (fun i => if i <? length got then when i else j' - 1). split; [exact K|]. split; [rewrite app_length, repeat_length, <- max_data; lia|]. split.
  - intros a b AB. destruct (Nat.ltb_spec a (length got)), (Nat.ltb_spec b (length got)); try lia; [apply W1, AB|]. destruct (W3 a ltac:(lia)). lia.
  - intros i c E. destruct (Nat.ltb_spec i (length got)) as [X|X].
    + destruct (W3 i X) as [A B]. specialize (W2 i). cbn [Nat.add] in B. rewrite nth_error_app1 in E by exact X. rewrite B. split; [lia|left; exact E].
    + rewrite nth_error_app2 in E by exact X. assert (Y : i - length got < Nat.min size MAX_LICENSE_DATA - length got) by (rewrite <- (repeat_length NUL (Nat.min size MAX_LICENSE_DATA - length got)); apply nth_error_Some; congruence).
      apply nth_error_In, repeat_spec in E. subst c. destruct (D3 ltac:(lia)) as [A B]. split; [lia|right]. split; [reflexivity|]. cbn [Nat.add] in B. destruct B as [B|B]; [left; exact B|right; lia].
Qed.
Print Assumptions C109_text.

(** A file that is only appended to while it is read (or is left alone, or is replaced by another
    one under its name): the text is what it held when its size was asked for, the first 4096 bytes. *)
Theorem C109_grows d at_ j path f j' text n : read_steps d at_ j path = (Some f, j') -> get_file_contents (Some f) MAX_LICENSE_DATA = Ok text ->
  k_path d (at_ j) path = Some n -> (forall a b, a < b -> at_ a < at_ b) -> only_grows d n (at_ (S j)) (at_ j') -> no_errors d ->
  text = firstn 4096 (k_data d (at_ (S j)) n).
Proof.
  intros H G K M O NE. destruct (C109_text d at_ j path f j' text H G) as (n' & when & K' & L & W1 & W2). rewrite K in K'. injection K' as <-.
  assert (EL : length text = length (firstn 4096 (k_data d (at_ (S j)) n))) by (rewrite L, firstn_length; lia).
  apply (nth_ext _ _ NUL NUL EL). intros i Hi. assert (Q : exists c, nth_error text i = Some c) by (destruct (nth_error text i) eqn:Q; [eauto|apply nth_error_None in Q; lia]). destruct Q as [c Q].
  assert (LI : i < length (k_data d (at_ (S j)) n) /\ i < 4096) by lia. rewrite (nth_error_nth _ _ _ Q). symmetry. apply nth_error_nth. rewrite nth_firstn by lia.
  destruct (W2 i c Q) as [[A B] C]. assert (AT : at_ (S j) < at_ (when i)) by (apply M; lia). assert (AT' : at_ (when i) < at_ j') by (apply M; lia). destruct (O (at_ (S j)) (at_ (when i)) ltac:(lia) ltac:(lia) ltac:(lia)) as [more E]. rewrite E in C.
  destruct C as [C|[_ [C|C]]]; [|destruct (NE _ C)|rewrite app_length in C; lia]. rewrite nth_error_app1 in C by lia. exact C.
Qed.
Print Assumptions C109_grows.

(** *** A call whose readings are made step by step ends as a call of [acquire_license] does that
    finds, at each of its accesses, what the surroundings held at some instant of the call; a file
    that it reads gives a torn text. So every claim about all surroundings holds for torn readings. *)
Definition ending {A} (r : res (A * nat)) : res A := '(a, _) <-- r ;; Ok a.
Theorem C109_atomic w d at_ c hint out j : exists w' when, when 0 = j /\ (forall a b, a < b -> when a < when b) /\ same_fixed w w' /\
  (forall i, w_clock w' i = w_clock w (at_ (when i)) /\ w_machine w' i = w_machine w (at_ (when i))) /\
  (forall i p, w_good w' i p = true <-> k_path d (at_ (when i)) p <> None) /\
  (forall i p text, supplies w' i (SFile p) text -> torn d at_ (when i) (when (S i)) (cstr p) text) /\
  ending (acquire_steps w d at_ c hint out j) = ending (acquire_license w' c hint out 0) /\
  (forall a j', acquire_steps w d at_ c hint out j = Ok (a, j') -> exists t', acquire_license w' c hint out 0 = Ok (a, t') /\ j' = when t').
Proof.
  destruct (acquire_run w d at_ c hint out j) as (s & rd & S0 & SM & SR & E). exists (seen_steps w d at_ s rd), s. split; [exact S0|]. split; [apply steps_mono, SM|]. split; [apply seen_fixed|].
  split; [intros i; split; reflexivity|]. split; [|split; [|split]].
  - intros i p. cbn [w_good seen_steps]. unfold can_open. destruct (k_path d (at_ (s i)) p); split; congruence.
  - intros i p text H. inversion H as [p' f F| | |]; subst. cbn [w_file seen_steps] in F. destruct (rd i) as [q|] eqn:R; [|discriminate]. destruct (beqb q (cstr p)) eqn:Q; [|discriminate]. apply beqb_eq in Q. subst q.
    destruct (read_steps d at_ (s i) (cstr p)) as [o e] eqn:RS. cbn [fst] in F. subst o. eapply read_torn; [exact RS|lia|]. rewrite <- (SR i _ R), RS. cbn. lia.
  - unfold same_end in E. unfold ending. destruct (acquire_steps w d at_ c hint out j) as [[a x]| | |], (acquire_license _ c hint out 0) as [[a' y]| | |]; cbn; try contradiction; try congruence. destruct E as [-> _]. reflexivity.
  - intros a j' H. rewrite H in E. unfold same_end in E. destruct (acquire_license _ c hint out 0) as [[a' y]| | |]; try contradiction. destruct E as [-> ->]. eauto.
Qed.
Print Assumptions C109_atomic.

Lemma torn_wider d at_ a b a' b' p text : torn d at_ a b p text -> a' <= a -> b <= b' -> torn d at_ a' b' p text.
Proof. intros (n & k & when & H1 & H2 & H3 & H4 & H5 & H6) A B. exists n, k, when. split; [lia|]. split; [lia|]. split; [exact H3|]. split; [exact H4|]. split; [exact H5|]. intros i c E. destruct (H6 i c E) as (X & Y & Z). split; [exact X|]. split; [lia|exact Z]. Qed.
Lemma fixed_sources w w' hint : same_fixed w w' -> sources w' hint = sources w hint.
Proof. destruct w, w'. unfold same_fixed. cbn. intros (-> & -> & -> & -> & -> & -> & -> & -> & -> & ->). reflexivity. Qed.
Lemma fixed_feature w w' f : same_fixed w w' -> feature_of w' f = feature_of w f.
Proof. destruct w, w'. unfold same_fixed. cbn. intros (-> & -> & -> & -> & -> & -> & -> & -> & -> & ->). reflexivity. Qed.
Lemma fixed_valid w w' feature mg es now m : same_fixed w w' -> valid_license w' feature mg es now m <-> valid_license w feature mg es now m.
Proof. destruct w, w'. unfold same_fixed. cbn. intros (-> & -> & -> & -> & -> & -> & -> & -> & -> & ->). reflexivity. Qed.

(** *** Soundness: LICENSE_OK means that a text that was read, torn or not, is a valid license. *)
Theorem C109_accept_sound w d at_ c hint out j out' j' : (forall i, order_ok (w_machine w i)) ->
  acquire_steps w d at_ c hint out j = Ok ((LICENSE_OK, out'), j') ->
  let feature := feature_of w (option_map ci_feature c) in
  exists s text k k', In s (sources w hint) /\ found d at_ j j' s /\ gives w d at_ j j' s text /\ j <= k < j' /\ j <= k' < j' /\
    valid_license w feature (magic_of (option_map ci_magic c)) (section_entries text feature) (w_clock w (at_ k)) (w_machine w (at_ k')).
Proof.
  intros O H. cbv zeta. destruct (C109_atomic w d at_ c hint out j) as (w' & when & W0 & WM & F & CM & GD & TX & _ & EN). destruct (EN _ _ H) as (t' & H' & ->). assert (WI : forall i, i < t' -> when i < when t') by (intros; apply WM; assumption). assert (WJ : forall i, j <= when i) by (intros [|i]; [lia|specialize (WM 0 (S i) ltac:(lia)); lia]).
  apply C01_accept_sound in H'; [|intros i; rewrite (proj2 (CM i)); apply O]. destruct H' as (s & text & i & k & IS & P & G & HI & HK & V). rewrite (fixed_sources w w' hint F) in IS. rewrite (fixed_feature w w' _ F), (fixed_valid w w' _ _ _ _ _ F), (proj1 (CM i)), (proj2 (CM k)) in V.
  exists s, text, (when i), (when k). split; [exact IS|]. split; [|split; [|split; [|split; [|exact V]]]].
  - destruct s; cbn [found present listed] in *; try exact I; destruct P as (a & A & B); apply GD in B; exists (when a); (split; [apply WJ|]; split; [apply WI; lia|exact B]).
  - destruct s; cbn [gives given] in *; try (inversion G; subst; constructor; assumption). destruct G as (a & A & B). apply TX in B. eapply torn_wider; [exact B|apply WJ|]. destruct (Nat.eq_dec (S a) t') as [<-|N]; [lia|]. specialize (WM (S a) t' ltac:(lia)). lia.
  - split; [apply WJ|apply WI; lia].
  - split; [apply WJ|apply WI; lia].
Qed.
Print Assumptions C109_accept_sound.

(** A file that is being written: what is read is a beginning of it. *)
Theorem C109_prefix d at_ j j' path text : (forall a b, a < b -> at_ a < at_ b) -> torn d at_ j j' path text ->
  (forall n, only_grows d n (at_ j) (at_ j')) -> exists n k, j <= k < j' /\ k_path d (at_ k) path = Some n /\ text = firstn (length text) (k_data d (at_ j') n).
Proof.
  intros M (n & k & when & H1 & H2 & H3 & H4 & H5 & H6) G. exists n, k. split; [lia|]. split; [exact H3|].
  assert (X : forall i c, nth_error text i = Some c -> nth_error (k_data d (at_ j') n) i = Some c).
  { intros i c E. destruct (H6 i c E) as (A & B & C). assert (A1 : at_ j < at_ (when i)) by (apply M; lia). assert (A2 : at_ (when i) < at_ j') by (apply M; lia). destruct (G n (at_ (when i)) (at_ j') ltac:(lia) ltac:(lia) ltac:(lia)) as [more ->]. rewrite nth_error_app1; [exact C|]. apply nth_error_Some. congruence. }
  clear -X. revert X. generalize (k_data d (at_ j') n). induction text as [|c text IH]; intros l X; [reflexivity|]. pose proof (X 0 c eq_refl) as Y. destruct l as [|c' l]; [discriminate|]. injection Y as ->. cbn [length firstn]. f_equal. apply IH. intros i x E. apply (X (S i) x E).
Qed.
Print Assumptions C109_prefix.

(** *** A license file may be replaced while calls run, if that is done by rename: if all along the
    path leads to a file that holds a license which is valid, the call accepts it. *)
Theorem C109_replace_safe w d at_ c hint out j code out' j' p : (forall i, order_ok (w_machine w i)) -> (forall a b, a < b -> at_ a < at_ b) ->
  acquire_steps w d at_ c hint out j = Ok ((code, out'), j') -> never_written d (at_ j) (at_ j') -> no_errors d ->
  let feature := feature_of w (option_map ci_feature c) in
  In (SFile p) (sources w hint) ->
  (forall k, j <= k <= j' -> exists n, k_path d (at_ k) (cstr p) = Some n /\
     forall k1 k2, j <= k1 <= j' -> j <= k2 <= j' ->
       valid_license w feature (magic_of (option_map ci_magic c)) (section_entries (firstn 4096 (k_data d (at_ k) n)) feature) (w_clock w (at_ k1)) (w_machine w (at_ k2))) ->
  code = LICENSE_OK.
Proof.
  intros O M H NW NE. cbv zeta. intros IS V. destruct (acquire_run w d at_ c hint out j) as (s & rd & S0 & SM & SR & E). rewrite H in E. unfold same_end in E. set (w' := seen_steps w d at_ s rd) in *. destruct (acquire_license w' c hint out 0) as [[a t']| | |] eqn:H'; try contradiction. destruct E as [<- EJ]. assert (RG : forall i, i <= t' -> j <= s i <= j') by (intros i L; subst j'; rewrite <- S0; split; [destruct i as [|i]; [lia|]; pose proof (steps_mono s SM 0 (S i) ltac:(lia)); lia|]; destruct (Nat.eq_dec i t') as [->|N]; [lia|]; pose proof (steps_mono s SM i t' ltac:(lia)); lia).
  pose proof (seen_fixed w d at_ s rd) as F. fold w' in F. apply (C02_valid_accepted w' c hint out 0 code out' t' (SFile p)); [intros i; apply O|exact H'|rewrite (fixed_sources w w' hint F); exact IS| |].
  - intros i L. cbn [listed w_good w' seen_steps]. unfold can_open. destruct (V (s i) (RG i ltac:(lia))) as (n & K & _). rewrite K. reflexivity.
  - intros text i k (x & LX & G) LI LK. clear S0 EJ. rewrite (fixed_feature w w' _ F), (fixed_valid w w' _ _ _ _ _ F). inversion G as [p' f FF| | |]; subst. cbn [w_file w' seen_steps] in FF. destruct (rd x) as [q|] eqn:RX; [|discriminate]. destruct (beqb q (cstr p)) eqn:QP; [|discriminate]. apply beqb_eq in QP. subst q.
    destruct (read_steps d at_ (s x) (cstr p)) as [o e] eqn:RS. cbn [fst] in FF. subst o. destruct (V (s x) (RG x ltac:(lia))) as (n & K & VV). assert (EE : e = s (S x)) by (rewrite <- (SR x _ RX), RS; reflexivity). pose proof (RG (S x) ltac:(lia)) as RE.
    assert (T : firstn (N.to_nat (N.min (f_size f) 4096)) (f_data f) = firstn 4096 (k_data d (at_ (s x)) n)); [|rewrite T; apply VV; [apply (RG i); lia|apply (RG k); lia]].
    pose proof (read_found _ _ _ _ _ _ RS) as (n' & got & K' & EF & D). rewrite K in K'. injection K' as <-.
    assert (NL : forall a b, a <= b -> at_ a <= at_ b) by (intros a b L; destruct (Nat.eq_dec a b) as [->|N]; [lia|]; specialize (M a b ltac:(lia)); lia).
    pose proof (read_next d at_ (s x) (cstr p)) as RN. rewrite RS in RN. cbn [snd] in RN. pose proof (deliver_next _ _ _ _ _ _ _ _ _ D) as DN. pose proof (NL j (s x) ltac:(pose proof (RG x ltac:(lia)); lia)). pose proof (NL (s x) (S (s x)) ltac:(lia)). pose proof (NL (S (s x)) e ltac:(lia)). pose proof (NL e j' ltac:(lia)).
    assert (OG : only_grows d n (at_ (S (s x))) (at_ e)) by (intros t1 t2 L1 L2 L3; exists []; rewrite app_nil_r; apply NW; lia).
    pose proof (grows_full d at_ n _ (S (s x)) got e _ D M OG NE eq_refl ltac:(lia)) as GF. assert (D1 : length got <= Nat.min (length (k_data d (at_ (S (s x))) n)) MAX_LICENSE_DATA) by lia.
    rewrite EF. cbn [f_size f_data]. rewrite text_of_file by exact D1. rewrite (NW n (at_ (s x)) (at_ (S (s x)))) by lia. rewrite EF in RS. apply (C109_grows d at_ (s x) (cstr p) _ e got n RS); try assumption.
    rewrite contents_padded by exact D1. rewrite GF, Nat.sub_diag, app_nil_r. reflexivity.
Qed.
Print Assumptions C109_replace_safe.

(** concrete: the license near the executable is a file of its own before the instant [at1], and
    another file after; or one file, written in two steps (emptied, then filled with the new text).
    Reads deliver 40 bytes. *)
Definition near_path : bytes := bs "/opt/demo.lic".
Definition renamed (at1 : nat) : disk :=
  {| k_path := fun t p => if beqb p near_path then Some (if t <? at1 then 1 else 2) else None;
     k_data := fun _ n => if n =? 1 then free_license else good_license; k_most := fun _ => Some 40 |}.
Definition rewritten (at1 at2 : nat) : disk :=
  {| k_path := fun t p => if beqb p near_path then Some 1 else None;
     k_data := fun t _ => if t <? at1 then free_license else if t <? at2 then [] else good_license; k_most := fun _ => Some 40 |}.
Definition demo_steps (d : disk) : res event_type := code_of (acquire_steps (demo true false NOW [] []) d (fun i => i) (Some (asking "demo")) None None 0).
Example C109_case :
  map (fun a => demo_steps (renamed a)) [0; 1; 2; 3; 4; 5; 6; 7; 8] = repeat (Ok LICENSE_OK) 9 /\
  (* in place, at any instant of the reading *)
  demo_steps (rewritten 20 20) = Ok LICENSE_OK /\ demo_steps (rewritten 0 0) = Ok LICENSE_OK /\
  demo_steps (rewritten 1 9) = Ok PRODUCT_NOT_LICENSED /\ demo_steps (rewritten 3 9) = Ok PRODUCT_NOT_LICENSED /\
  demo_steps (rewritten 4 4) = Ok LICENSE_MALFORMED /\ demo_steps (rewritten 5 5) = Ok LICENSE_OK.
Proof. vm_compute. repeat split. Qed.
