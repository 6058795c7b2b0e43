(** The OpenSSL signature verifier call by call (C74). *)
From Verif Require Import Base Network Dates Registry HwId Ini Disks ExecEnv Strategies Locate Licensecc Trace Spec_Resources OpenSsl.
From Verif Require Import Ex_Acquire.
From Coq Require Import Lia.

Ltac hold := repeat (apply holds_acquire; [cbn; intuition discriminate|]).
Ltac acq := apply holds_acquire; [cbn; intuition discriminate|].
Ltac rel a r := apply (holds_release a r).
Ltac settle :=
  repeat first [ apply holds_nil | acq
               | rel (@nil ossl_object) OKeyBio | rel (@nil ossl_object) ORsa | rel (@nil ossl_object) OPkey | rel (@nil ossl_object) OB64
               | rel (@nil ossl_object) OEncoded | rel (@nil ossl_object) OCtx
               | rel [ORsa] OKeyBio | rel [OB64] OEncoded
               | rel [OPkey] ORsa | rel [OCtx; OPkey] ORsa | rel [OCtx] OPkey ].

(** The objects the call leaves behind: the RSA key when it could not be put into a key
    object, and nothing else. *)
Theorem C74_released o text sig r :
  fst (openssl_verify o text sig) = Ok r ->
  leaves (snd (openssl_verify o text sig))
         (if os_key_bio o && os_key o && negb (os_pkey o && os_assign o) then [ORsa] else []).
Proof.
  unfold openssl_verify, bio_read, free_resources, leaves. destruct (os_read o sig) as [ret data].
  destruct (os_key_bio o), (os_key o); cbn [andb negb]; try (intros _; cbn; settle; fail).
  destruct (os_pkey o), (os_assign o), (os_b64 o), (os_encoded o); cbn [andb negb orb].
  all: try (destruct ((ret <? 0)%Z || (512 <=? ret)%Z)); try (destruct ((Z.of_nat (length sig) <? 0)%Z || (512 <=? Z.of_nat (length sig))%Z)).
  all: try (cbn; discriminate).
  all: destruct (os_ctx o); [|intros _; cbn; settle; fail].
  all: destruct (os_init o); [|intros _; cbn; settle; fail].
  all: cbn [negb]; try (destruct (os_update o text); [|intros _; cbn; settle; fail]).
  all: intros _; cbn; settle.
Qed.
Print Assumptions C74_released.
(** with the key objects there, everything is released, on every path that returns *)
Theorem C74_all_released o text sig r :
  os_pkey o = true -> os_assign o = true -> fst (openssl_verify o text sig) = Ok r -> all_released (snd (openssl_verify o text sig)).
Proof. intros H1 H2 H3. pose proof (C74_released o text sig r H3) as C. rewrite H1, H2, andb_false_r in C. exact C. Qed.
Print Assumptions C74_all_released.
(** refuted otherwise *)
Theorem C74_leak_refuted o text sig r :
  os_key_bio o = true -> os_key o = true -> os_pkey o = false -> fst (openssl_verify o text sig) = Ok r ->
  r = FUNC_RET_ERROR /\ leaves (snd (openssl_verify o text sig)) [ORsa].
Proof.
  intros H1 H2 H3 H4. split.
  - revert H4. unfold openssl_verify. rewrite H1, H2, H3. cbn [andb negb]. destruct (bio_read o sig) as [ret data]. unfold tbind, tlift, twhen, tlog, tret, free_resources.
    destruct (os_b64 o || os_encoded o); cbn [fst]; destruct (os_b64 o), (os_encoded o); cbn [fst]; try discriminate; destruct (_ || _); cbn [fst]; try discriminate; destruct (os_ctx o); cbn; congruence.
  - pose proof (C74_released o text sig r H4) as C. rewrite H1, H2, H3 in C. exact C.
Qed.
Print Assumptions C74_leak_refuted.

(** the signature the verification is given: decoded, or the text as it is when there was
    no memory for the decoder, or nothing when there was none for the source *)
Definition obtained (o : openssl) (sig : bytes) (n : Z) (data : bytes) : Prop :=
  (os_b64 o = true /\ os_encoded o = true /\ os_read o sig = (n, data)) \/
  (os_b64 o = false /\ os_encoded o = true /\ n = Z.of_nat (length sig) /\ data = sig) \/
  (os_b64 o = true /\ os_encoded o = false /\ n = 0%Z /\ data = []).
Lemma obtained_read o sig n data : obtained o sig n data <-> (os_b64 o || os_encoded o = true /\ bio_read o sig = (n, data)).
Proof.
  unfold obtained, bio_read. destruct (os_b64 o), (os_encoded o); cbn [orb]; split; intros H.
  all: repeat match goal with H : _ /\ _ |- _ => destruct H | H : _ \/ _ |- _ => destruct H end; try discriminate; subst; auto 10.
  all: match goal with H : (_, _) = (_, _) |- _ => injection H as <- <- end; auto 10.
Qed.
(** Accepted exactly if the key was read and the digest verified, over this text, with
    that signature. *)
Theorem C74_fails_closed o text sig :
  fst (openssl_verify o text sig) = Ok FUNC_RET_OK <->
  os_key_bio o = true /\ os_key o = true /\ os_pkey o = true /\ os_assign o = true /\ os_ctx o = true /\ os_init o = true /\
  os_update o text = true /\
  exists n data, obtained o sig n data /\ (0 <= n < 512)%Z /\ os_final o text (firstn (Z.to_nat n) data) = true.
Proof.
  assert (X : (exists n data, obtained o sig n data /\ (0 <= n < 512)%Z /\ os_final o text (firstn (Z.to_nat n) data) = true) <->
              (os_b64 o || os_encoded o = true /\ (0 <= fst (bio_read o sig) < 512)%Z /\ os_final o text (firstn (Z.to_nat (fst (bio_read o sig))) (snd (bio_read o sig))) = true)).
  { split.
    - intros [n [data [H1 H2]]]. apply obtained_read in H1 as [H1 ->]. auto.
    - intros [H1 H2]. exists (fst (bio_read o sig)), (snd (bio_read o sig)). split; [|exact H2]. apply obtained_read. split; [exact H1|]. destruct (bio_read o sig); reflexivity. }
  rewrite X. clear X. unfold openssl_verify, free_resources. destruct (bio_read o sig) as [ret data]. cbn [fst snd].
  destruct (os_key_bio o), (os_key o); cbn [andb negb]; try (split; [cbn; discriminate|intros H; decompose [and] H; discriminate]).
  assert (B : (ret <? 0)%Z || (512 <=? ret)%Z = false <-> (0 <= ret < 512)%Z).
  { rewrite orb_false_iff, Z.ltb_ge, Z.leb_gt. reflexivity. }
  destruct (os_b64 o || os_encoded o) eqn:EO.
  2:{ split; [|intros H; decompose [and] H; discriminate]. destruct (os_pkey o), (os_b64 o), (os_encoded o); cbn; discriminate. }
  destruct ((ret <? 0)%Z || (512 <=? ret)%Z).
  { split; [|intros H; exfalso; assert (Q : true = false) by (apply B; tauto); discriminate]. destruct (os_pkey o), (os_b64 o), (os_encoded o); cbn; discriminate. }
  assert (B' : (0 <= ret < 512)%Z) by (apply B; reflexivity). clear B.
  destruct (os_ctx o); cbn [negb]. 2:{ split; [|intros H; decompose [and] H; discriminate]. destruct (os_pkey o), (os_assign o), (os_b64 o), (os_encoded o); cbn; discriminate. }
  destruct (os_pkey o); cbn [andb negb]. 2:{ split; [|intros H; decompose [and] H; discriminate]. destruct (os_b64 o), (os_encoded o); cbn; discriminate. }
  destruct (os_assign o); cbn [andb negb]. 2:{ split; [|intros H; decompose [and] H; discriminate]. destruct (os_b64 o), (os_encoded o); cbn; discriminate. }
  destruct (os_init o); cbn [negb]. 2:{ split; [|intros H; decompose [and] H; discriminate]. destruct (os_b64 o), (os_encoded o); cbn; discriminate. }
  destruct (os_update o text); cbn [negb]. 2:{ split; [|intros H; decompose [and] H; discriminate]. destruct (os_b64 o), (os_encoded o); cbn; discriminate. }
  destruct (os_final o text (firstn (Z.to_nat ret) data)).
  - split; [intros _; auto 15|]. intros _. destruct (os_b64 o), (os_encoded o); reflexivity.
  - split; [|intros H; decompose [and] H; discriminate]. destruct (os_b64 o), (os_encoded o); cbn; discriminate.
Qed.
Print Assumptions C74_fails_closed.

(** The call as the rest of the model has it: with memory for every object. *)
Definition plentiful (w : world) : openssl :=
  {| os_key_bio := true; os_key := w_key_ok w; os_pkey := true; os_assign := true; os_b64 := true; os_encoded := true;
     os_read := w_bio w; os_ctx := true; os_init := true; os_update := fun _ => true; os_final := w_verify w |}.
Theorem C74_same w text sig :
  fst (openssl_verify (plentiful w) text sig) =
  (ok <-- os_verify_signature w text sig ;; Ok (if ok : bool then FUNC_RET_OK else FUNC_RET_ERROR)).
Proof.
  unfold openssl_verify, os_verify_signature, bio_read, free_resources, plentiful. cbn [os_key_bio os_key os_pkey os_assign os_b64 os_encoded os_read os_ctx os_init os_update os_final andb negb orb].
  destruct (w_key_ok w); cbn [negb]; [|reflexivity]. destruct (w_bio w sig) as [ret data]. destruct (_ || _); [reflexivity|]. cbn. reflexivity.
Qed.
Print Assumptions C74_same.

(** the demonstration world of Ex_Acquire: the signature is the text *)
Definition poor : openssl :=
  {| os_key_bio := true; os_key := true; os_pkey := false; os_assign := true; os_b64 := true; os_encoded := true;
     os_read := fun s => (Z.of_nat (length s), s); os_ctx := true; os_init := true; os_update := fun _ => true; os_final := fun a b => beqb a b |}.
Theorem C74_nonempty :
  openssl_verify (plentiful (demo false false 0%Z [] [])) (bs "TEST") (bs "TEST") =
    (Ok FUNC_RET_OK, [Acquired OKeyBio; Acquired ORsa; Released OKeyBio; Acquired OPkey; Acquired OB64; Acquired OEncoded;
                      Released OEncoded; Released OB64; Acquired OCtx; Released ORsa; Released OPkey; Released OCtx]) /\
  fst (openssl_verify (plentiful (demo false false 0%Z [] [])) (bs "TEST") (bs "OTHER")) = Ok FUNC_RET_ERROR /\
  fst (openssl_verify (plentiful (demo false false 0%Z [] [])) (bs "TEST") (repeat "A"%char 600)) = Undef UbWrite /\
  openssl_verify poor (bs "TEST") (bs "TEST") =
    (Ok FUNC_RET_ERROR, [Acquired OKeyBio; Acquired ORsa; Released OKeyBio; Acquired OB64; Acquired OEncoded;
                         Released OEncoded; Released OB64; Acquired OCtx; Released OCtx]).
Proof. repeat split; vm_compute; reflexivity. Qed.
Print Assumptions C74_nonempty.
