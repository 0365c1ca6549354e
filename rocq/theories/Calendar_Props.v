(** Property theorems C01-C03 (calendar).  Statements use only the functions of the
    code ([julday], [isleap], [dayofweek], [julian], [djulian]) and [Calendar_Spec]. *)
From Coq Require Import ZArith QArith String Lia.
From Verif Require Import Calendar_Model Calendar_Spec Calendar_Proofs.
Local Open Scope Z_scope.

(** C01: the day number of the date n days later is n larger (the calendar has no gaps
    or jumps), for every valid date of every year. *)
Theorem C01_julday_counts_days : forall (t : date) (n : nat), Valid t ->
  Valid (After n t) /\
  exists k, julday t = Some k /\ julday (After n t) = Some (k + Z.of_nat n).
Proof.
  exact (fun t n V => conj (after_valid n t V)
    (match julday_some t V with ex_intro _ k H => ex_intro _ k (conj H (julday_after n t k V H)) end)).
Qed.
Print Assumptions C01_julday_counts_days.

(** C01: chronological order is the order of day numbers. *)
Theorem C01_julday_order : forall s t a b, Valid s -> Valid t ->
  julday s = Some a -> julday t = Some b -> Before s t -> a < b.
Proof. exact (fun s t a b Vs Vt Js Jt B => julday_before s t a b Vs Vt B Js Jt). Qed.
Print Assumptions C01_julday_order.

(** C01: different dates have different numbers. *)
Theorem C01_julday_injective : forall s t n, Valid s -> Valid t ->
  julday s = Some n -> julday t = Some n -> s = t.
Proof. exact julday_inj. Qed.
Print Assumptions C01_julday_injective.

(** C01: anchor, and refusal of year zero. *)
Theorem C01_julday_anchor : julday (mkdate 2000 1 1) = Some 2451545 /\
  forall m d, julday (mkdate 0 m d) = None.
Proof. exact (conj eq_refl (fun m d => eq_refl)). Qed.
Print Assumptions C01_julday_anchor.

(** The hypotheses are met by a leap day, by the calendar switch and by 1 BC. *)
Example C01_nonvacuous :
  Valid (mkdate 2000 2 29) /\ Valid (mkdate 1582 10 4) /\ Valid (mkdate (-1) 12 31) /\
  After 1 (mkdate 1582 10 4) = mkdate 1582 10 15 /\
  After 1 (mkdate (-1) 12 31) = mkdate 1 1 1 /\
  After 2 (mkdate 1900 2 27) = mkdate 1900 3 1 /\
  After 3 (mkdate 2000 2 27) = mkdate 2000 3 1.
Proof. repeat split; try (vm_compute; congruence). all: cbn; intros [? [? ?]]; discriminate || lia. Qed.

(** C02: leap years follow the Gregorian rule ... *)
Theorem C02_isleap_rule : forall y, isleap y = 1 <->
  (y mod 4 = 0 /\ y mod 100 <> 0) \/ y mod 400 = 0.
Proof. exact isleap_rule. Qed.
Print Assumptions C02_isleap_rule.

(** ... the answer is always 0 or 1 ... *)
Theorem C02_isleap_01 : forall y, isleap y = 0 \/ isleap y = 1.
Proof. exact isleap_01. Qed.
Print Assumptions C02_isleap_01.

(** ... and agree with the day numbers of consecutive 1 Januaries. *)
Theorem C02_isleap_year_length : forall y a b, 1582 < y ->
  julday (mkdate y 1 1) = Some a -> julday (mkdate (y + 1) 1 1) = Some b ->
  b - a = 365 + isleap y.
Proof. exact (fun y a b H => year_length y H a b). Qed.
Print Assumptions C02_isleap_year_length.

(** C02: weekdays at midnight advance by one modulo 7 (0 = Sunday), from a correct
    anchor (1 January 2000 was a Saturday), for all dates with nonnegative day number. *)
Theorem C02_weekday_advances : forall t j, Valid t ->
  julday_jt t 0 0 0 = Some j -> (0 <= j)%Q ->
  exists j', julday_jt (Next_day t) 0 0 0 = Some j' /\
    dayofweek j' = (dayofweek j + 1) mod 7.
Proof. exact weekday_advances. Qed.
Print Assumptions C02_weekday_advances.

Theorem C02_weekday_anchor : exists j,
  julday_jt (mkdate 2000 1 1) 0 0 0 = Some j /\ dayofweek j = 6.
Proof. exact weekday_anchor. Qed.
Print Assumptions C02_weekday_anchor.

(** C02, refuted part: the weekday of a date is not a function of the date: from noon
    on, the day number with its time of day is reported as the next weekday. *)
Theorem C02_weekday_of_date_refuted : exists t h j0 j1,
  Valid t /\ 0 <= h < 24 /\
  julday_jt t 0 0 0 = Some j0 /\ julday_jt t h 0 0 = Some j1 /\
  dayofweek j0 <> dayofweek j1.
Proof. exact weekday_afternoon. Qed.
Print Assumptions C02_weekday_of_date_refuted.

(** C03: the day-of-year of the n-th day of a clock year (counting from 0) is n+1.
    The date [After n (First_day c y)] ranges over all days of the clock year that
    starts in year y, up to the start of the next.  Excluded: the clock years whose
    reference date would lie in year 0 (see the refutation below). *)
Theorem C03_day_of_year : forall c y n, Is_clock c -> y <> 0 ->
  (c = "calendar"%string -> y <> 1) -> (c <> "calendar"%string -> y <> -1) ->
  Before (After n (First_day c y)) (First_day c (Next_year y)) ->
  julian c (After n (First_day c y)) = Ok (Z.of_nat n + 1).
Proof. exact julian_clock. Qed.
Print Assumptions C03_day_of_year.

Example C03_nonvacuous :
  Before (After 100 (First_day "water" 1999)) (First_day "water" (Next_year 1999)) /\
  After 100 (First_day "water" 1999) = mkdate 2000 1 9 /\
  julian "water" (mkdate 2000 1 9) = Ok 101.
Proof. vm_compute. repeat split. right. split; [reflexivity|left; reflexivity]. Qed.

(** C03 for the fractional query: the same day plus the time of day. *)
Theorem C03_fractional_day_of_year : forall c y n h mi s, Is_clock c ->
  c <> "spring"%string -> y <> 0 ->
  (c = "calendar"%string -> y <> 1) -> (c <> "calendar"%string -> y <> -1) ->
  Before (After n (First_day c y)) (First_day c (Next_year y)) ->
  exists q, djulian c (After n (First_day c y)) h mi s = Ok q /\
    (q == inject_Z (Z.of_nat n + 1) +
          (inject_Z h / 24 + inject_Z mi / 1440 + inject_Z s / 86400))%Q.
Proof. exact djulian_clock. Qed.
Print Assumptions C03_fractional_day_of_year.

(** C03, refuted parts: for dates of year 1 the code uses an uninitialised reference
    day number, and the fractional query stops the program for the spring clock that
    the integer query accepts. *)
Theorem C03_year_one_refuted : exists t, Valid t /\ julian "calendar" t = UB.
Proof. exact year_one_ub. Qed.
Print Assumptions C03_year_one_refuted.

Theorem C03_fractional_spring_refuted : exists t k,
  Valid t /\ julian "spring" t = Ok k /\ djulian "spring" t 0 0 0 = Exit.
Proof. exact spring_exit. Qed.
Print Assumptions C03_fractional_spring_refuted.
