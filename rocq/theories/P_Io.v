(** The program of AcquireIo.v, run alone, is acquire_license; its accesses. *)
From Verif Require Import Base CTypes StringUtils Dates Doubles Base64 HwId Registry Ini Network Disks ExecEnv Strategies Locate Licensecc AcquireIo.
From Verif Require Import P_Base.
From Coq Require Import Lia.

(** what does not change during a call *)
Definition same_fixed (w w' : world) : Prop :=
  w_project w = w_project w' /\ w_magic w = w_magic w' /\ w_near_module w = w_near_module w' /\ w_with_env w = w_with_env w' /\
  w_module w = w_module w' /\ w_getenv w = w_getenv w' /\ w_mktime w = w_mktime w' /\ w_bio w = w_bio w' /\ w_key_ok w = w_key_ok w' /\ w_verify w = w_verify w'.
(** the program depends on nothing else: what changes it sees through its accesses only *)
Lemma io_fixed w w' : same_fixed w w' -> io_acquire_license w = io_acquire_license w'.
Proof.
  destruct w, w'. unfold same_fixed. cbn. intros [-> [-> [-> [-> [-> [-> [-> [-> [-> ->]]]]]]]]]. reflexivity.
Qed.

Lemma mbind_ext {A B} (m m' : M A) (k k' : A -> M B) t : m t = m' t -> (forall a u, m' t = Ok (a, u) -> k a u = k' a u) -> mbind m k t = mbind m' k' t.
Proof. unfold mbind. intros -> H. destruct (m' t) as [[a u]| | |] eqn:E; try reflexivity. apply H; reflexivity. Qed.
Lemma run_bind {A B} w (m : io A) (k : A -> io B) t : io_run w (ibind m k) t = mbind (io_run w m) (fun a => io_run w (k a)) t.
Proof. revert t. induction m as [r|p c IH|p c IH|c IH|c IH]; intros t; cbn [ibind io_run]; [|unfold mbind in *; apply IH..]. unfold mbind. destruct r; reflexivity. Qed.
Lemma run_step {A B} w (m : io A) (k : A -> io B) (m' : M A) (k' : A -> M B) t : io_run w m t = m' t ->
  (forall a u, m' t = Ok (a, u) -> io_run w (k a) u = k' a u) -> io_run w (ibind m k) t = mbind m' k' t.
Proof. intros H K. rewrite run_bind. apply mbind_ext; assumption. Qed.
Lemma accesses_bind {A B} w (m : io A) (k : A -> io B) t :
  io_accesses w (ibind m k) t = io_accesses w m t ++ match io_run w m t with Ok (a, u) => io_accesses w (k a) u | _ => [] end.
Proof.
  revert t. induction m as [r|p c IH|p c IH|c IH|c IH]; intros t; cbn [ibind io_run io_accesses app]; [destruct r; reflexivity|..]; rewrite IH; reflexivity.
Qed.
(** every access takes one instant *)
Lemma run_count {A} w (m : io A) t a u : io_run w m t = Ok (a, u) -> u = t + length (io_accesses w m t).
Proof.
  revert t. induction m as [r|p c IH|p c IH|c IH|c IH]; intros t H; cbn [io_run io_accesses length] in *; try (apply IH in H; lia). apply rbind_ok in H as [x [_ [= _ <-]]]. lia.
Qed.
Ltac step := first [reflexivity|apply run_step; [try reflexivity|intros ? ? _]].

Lemma run_filter w l x r t : io_run w (io_filter_existing_files l x r) t = filter_existing_files w l x r t.
Proof.
  revert r t. induction l as [|p l IH]; intros r t; [reflexivity|]. cbn [io_filter_existing_files filter_existing_files]. do 3 step. apply run_step; [apply IH|]. intros [fs r3] u3 _. reflexivity.
Qed.
Lemma run_locations w l r t : io_run w (io_license_locations w l r) t = license_locations w l r t.
Proof.
  destruct l as [| | |loc]; cbn [io_license_locations license_locations].
  - destruct (get_module_name w) as [f|]; [|reflexivity]. cbv zeta. step. destruct a; repeat step.
  - destruct (env_set w LICENSE_LOCATION_VAR); [apply run_filter|repeat step].
  - destruct (env_set w LICENSE_DATA_VAR) as [v|]; [|repeat step]. step. destruct (identify_format v); repeat step.
  - destruct (loc_data loc) as [|c d]; [reflexivity|]. destruct (Ascii.eqb c NUL); [reflexivity|]. step. destruct (loc_type loc =? 0)%Z.
    + step. apply run_filter.
    + destruct (_ || _)%bool; reflexivity.
Qed.
Lemma run_content w l id t : io_run w (io_license_content w l id) t = retrieve_license_content w l id t.
Proof.
  destruct l as [| | |loc]; cbn [io_license_content retrieve_license_content]; cbv zeta; repeat step.
  - destruct (w_getenv w LICENSE_LOCATION_VAR) as [v|]; [|reflexivity]. destruct (env_set w LICENSE_DATA_VAR) as [d|]; [|reflexivity]. destruct (identify_format d); reflexivity.
  - destruct (beqb id EXTERNAL_NAME); [|repeat step]. step. destruct (loc_type loc =? 2)%Z; reflexivity.
Qed.
Lemma run_location w l f id a t : io_run w (io_read_location w l f id a) t = read_location w l f id a t.
Proof.
  destruct a as [r out]. unfold io_read_location, read_location. cbv zeta. apply run_step; [apply run_content|]. intros text u _. step. destruct (_ <=? 0)%Z; [repeat step|]. step.
  destruct (get_value _ _ _); [|repeat step]. destruct (_ =? 200)%Z; repeat step.
Qed.
Lemma run_all w l f ids a t : io_run w (io_read_all w l f ids a) t = read_all w l f ids a t.
Proof.
  revert a t. induction ids as [|i ids IH]; intros a t; [reflexivity|]. cbn [io_read_all read_all]. apply run_step; [apply run_location|]. intros b u _. apply IH.
Qed.
Lemma run_locators w f ls a t : io_run w (io_read_locators w f ls a) t = read_locators w ls f a t.
Proof.
  revert a t. induction ls as [|l ls IH]; intros a t; [reflexivity|]. destruct a as [r out]. cbn [io_read_locators read_locators]. apply run_step; [apply run_locations|]. intros [ids r1] u _. apply run_step; [apply run_all|]. intros b v _. apply IH.
Qed.
Lemma run_licenses w hint f t : io_run w (io_read_licenses w hint f) t = read_licenses w hint f t.
Proof.
  unfold io_read_licenses, read_licenses. destruct (get_active_strategies w hint) as [|l ls].
  - apply run_step; [reflexivity|]. intros r u _. apply run_step; [reflexivity|]. intros [r1 b] v _. reflexivity.
  - apply run_step; [apply run_locators|]. intros [r out] u _. destruct out; [|reflexivity]. apply run_step; [reflexivity|]. intros [r1 b] v _. reflexivity.
Qed.
Lemma run_info w l t : io_run w (io_license_info w l) t = to_license_info w l t.
Proof. unfold io_license_info, to_license_info. cbv zeta. destruct (sm_get PARAM_EXPIRY_DATE (fl_limits l)); repeat step. Qed.
Lemma run_limits w l r t : io_run w (io_verify_limits w l r) t = verify_limits w l r t.
Proof.
  unfold io_verify_limits, verify_limits. cbv zeta. apply run_step; [destruct (N.eqb _ _); reflexivity|]. intros r1 u1 _. step. apply run_step.
  { destruct (N.eqb _ _); [|reflexivity]. destruct (sm_get PARAM_EXPIRY_DATE (fl_limits l)); [|reflexivity]. step. destruct (_ <? _)%Z; repeat step. }
  intros [v2 r2] u2 _. apply run_step.
  { destruct v2; [|reflexivity]. destruct (sm_get PARAM_BEGIN_DATE (fl_limits l)); [|reflexivity]. step. destruct (_ <? _)%Z; repeat step. }
  intros [v3 r3] u3 _. destruct v3; [|reflexivity]. destruct (sm_get PARAM_CLIENT_SIGNATURE (fl_limits l)); repeat step.
Qed.
Lemma run_verify w mg ls r ok bad t : io_run w (io_verify_all w mg ls r ok bad) t = verify_all w mg ls r ok bad t.
Proof.
  revert r ok bad t. induction ls as [|l ls IH]; intros r ok bad t; [reflexivity|]. cbn [io_verify_all verify_all]. cbv zeta. step. destruct a as [s r1]. apply run_step; [apply run_info|]. intros info v _. destruct s; [|apply IH].
  apply run_step; [apply run_limits|]. intros [b r2] u2 _. destruct b; apply IH.
Qed.
(** Run alone, the program is acquire_license. *)
Lemma run_acquire w c hint out t : io_run w (io_acquire_license w c hint out) t = acquire_license w c hint out t.
Proof.
  unfold io_acquire_license, acquire_license. step. apply run_step; [apply run_licenses|]. intros [er ls] u1 _. destruct ls as [|l ls].
  - apply run_step; [reflexivity|]. intros [er2 b] v _. repeat step.
  - apply run_step; [apply run_verify|]. intros [[er2 ok] bad] u2 _. cbv zeta. destruct ok as [|i ok].
    + apply run_step; [reflexivity|]. intros [er3 b] v _. repeat step.
    + destruct (turn_errors_into_warnings er2). reflexivity.
Qed.
