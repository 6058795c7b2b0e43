(** Property C44: dates. *)
From Verif Require Import Base CTypes Dates P_Base Spec_Dates P_Dates P_DateText.

(** YYYYMMDD, YYYY-MM-DD and YYYY/MM/DD in digits are accepted and mean local
    midnight of that date *)
Theorem C44_plain : forall (mktime : Z -> Z -> Z -> Z) (y m d : bytes), all_digits y -> all_digits m -> all_digits d ->
  length y = 4 -> length m = 2 -> length d = 2 ->
  seconds_from_epoch mktime (y ++ m ++ d) = Ok (mktime (decimal y) (decimal m) (decimal d)).
Proof. intros. unfold seconds_from_epoch. rewrite parse_plain by assumption. reflexivity. Qed.
Print Assumptions C44_plain.

Theorem C44_separated : forall (mktime : Z -> Z -> Z -> Z) (sep : ascii) (y m d : bytes), sep = "-"%char \/ sep = "/"%char ->
  all_digits y -> all_digits m -> all_digits d -> length y = 4 -> length m = 2 -> length d = 2 ->
  seconds_from_epoch mktime (y ++ sep :: m ++ sep :: d) = Ok (mktime (decimal y) (decimal m) (decimal d)).
Proof. intros. unfold seconds_from_epoch. rewrite parse_sep by assumption. reflexivity. Qed.
Print Assumptions C44_separated.

(** The texts accepted, exactly, and the date each gives. *)
Theorem C44_accepted_iff : forall (mktime : Z -> Z -> Z -> Z) (s : bytes) (t : Z),
  seconds_from_epoch mktime s = Ok t <-> exists y m d, date_text s y m d /\ t = mktime y m d.
Proof. exact seconds_iff. Qed.
Print Assumptions C44_accepted_iff.
Theorem C44_rejected_iff : forall (mktime : Z -> Z -> Z -> Z) (s : bytes),
  seconds_from_epoch mktime s = Throw ExInvalidArg <-> (forall y m d, ~ date_text s y m d).
Proof. intros. symmetry. apply seconds_none. Qed.
Print Assumptions C44_rejected_iff.
Theorem C44_one_date : forall (s : bytes) (y m d y' m' d' : Z), date_text s y m d -> date_text s y' m' d' -> y = y' /\ m = m' /\ d = d'.
Proof. exact date_fun. Qed.
Print Assumptions C44_one_date.

(** any other length is rejected, and rejection is always invalid_argument *)
Theorem C44_length : forall (mktime : Z -> Z -> Z -> Z) (s : bytes), length s <> 8 -> length s <> 10 -> seconds_from_epoch mktime s = Throw ExInvalidArg.
Proof. intros. unfold seconds_from_epoch. rewrite parse_length by assumption. reflexivity. Qed.
Print Assumptions C44_length.

Theorem C44_outcome : forall (mktime : Z -> Z -> Z -> Z) (s : bytes),
  seconds_from_epoch mktime s = Throw ExInvalidArg \/ exists y m d, seconds_from_epoch mktime s = Ok (mktime y m d).
Proof.
  intros mktime s. unfold seconds_from_epoch. destruct (parse_outcome s) as [->|[[[y m] d] ->]]; cbn [rbind]; [auto|]. right. eauto.
Qed.
Print Assumptions C44_outcome.

(** later dates give later instants: in UTC the instants count the days of the
    Gregorian calendar from 1970-01-01 *)
Theorem C44_calendar : (mktime_utc 1970 1 1 = 0)%Z /\
  forall a b, next_day a b -> let '(y, m, d) := a in let '(y', m', d') := b in (mktime_utc y' m' d' = mktime_utc y m d + 86400)%Z.
Proof. split; [reflexivity|exact utc_next]. Qed.
Print Assumptions C44_calendar.

Theorem C44_monotone : forall y m d y' m' d' : Z, valid_date y m d -> valid_date y' m' d' -> earlier (y, m, d) (y', m', d') ->
  (mktime_utc y m d < mktime_utc y' m' d')%Z.
Proof. exact utc_mono. Qed.
Print Assumptions C44_monotone.

Example C44_case : seconds_from_epoch mktime_utc (bs "20240229") = Ok 1709164800%Z /\ seconds_from_epoch mktime_utc (bs "2024-03-01") = Ok (1709164800 + 86400)%Z /\
  seconds_from_epoch mktime_utc (bs "2024/03/01") = Ok (1709164800 + 86400)%Z /\ next_day (2024, 2, 29)%Z (2024, 3, 1)%Z /\ valid_date 2024 2 29.
Proof.
  repeat split; try (vm_compute; reflexivity).
  - apply (nd_month 2024 2 29); [|lia]. apply ml_29. unfold leap. vm_compute. split; [reflexivity|]. left. discriminate.
  - exists 29%Z. split; [|lia]. apply ml_29. unfold leap. vm_compute. split; [reflexivity|]. left. discriminate.
Qed.

(** The code accepts more than that: blanks and signs in place of digits, and
    months and days that do not exist. *)
Definition only_dates : Prop := forall (s : bytes) (t : Z), seconds_from_epoch mktime_utc s = Ok t ->
  exists y m d, valid_date y m d /\ t = mktime_utc y m d /\
    (forall c, In c s -> isdigit c = true \/ c = "-"%char \/ c = "/"%char).
Theorem C44_only_dates_refuted : ~ only_dates.
Proof.
  intros H. destruct (H (bs "2050 1 1") (mktime_utc 2050 1 1) eq_refl) as [y [m [d [_ [_ Hc]]]]].
  destruct (Hc " "%char) as [X|[X|X]]; [cbn; tauto|discriminate..].
Qed.
Print Assumptions C44_only_dates_refuted.
Example C44_month_13 : seconds_from_epoch mktime_utc (bs "2050-13-45") = seconds_from_epoch mktime_utc (bs "2051-02-14").
Proof. vm_compute. reflexivity. Qed.
