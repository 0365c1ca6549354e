(** C123: dates of TSPROC. *)
From Coq Require Import ZArith Bool Lia ZifyBool.
From Verif Require Import Tsdate_Model Tsdate_Spec.
Local Open Scope Z_scope.

(** March as first month: month number from 1 to 12 and the year, from -4900, in which it lies. *)
Definition mm (t : date) : Z := if mo t <? 3 then mo t + 10 else mo t - 2.
Definition yy (t : date) : Z := if mo t <? 3 then yr t + 4899 else yr t + 4900.

Lemma months m : 1 <= m <= 12 -> m = 1 \/ m = 2 \/ m = 3 \/ m = 4 \/ m = 5 \/ m = 6 \/ m = 7 \/ m = 8 \/ m = 9 \/ m = 10 \/ m = 11 \/ m = 12.
Proof. lia. Qed.
Ltac by_month H := destruct (months _ H) as [E | [E | [E | [E | [E | [E | [E | [E | [E | [E | [E | E]]]]]]]]]]].

Lemma julian_form t : 1 <= yr t -> 1 <= mo t <= 12 ->
  julian_day t = da t - 31 + 36525 * (yy t / 100) + 1461 * (yy t mod 100) / 4 - 3 * (yy t / 100) / 4 + 367 * mm t / 12 - 68569.
Proof.
  intros Y M. unfold julian_day, mm, yy. destruct t as [y m d]. cbn [yr mo da] in *.
  assert (Q : Z.quot (m - 14) 12 = if m <? 3 then -1 else 0) by (by_month M; rewrite E; reflexivity).
  rewrite Q. destruct (m <? 3) eqn:L.
  - rewrite !Z.quot_div_nonneg by (try apply Z.quot_pos; lia).
    replace (y + 4900 + -1) with (y + 4899) by lia. replace (m - 2 - -1 * 12) with (m + 10) by lia.
    pose proof (Z.div_mod (y + 4899) 100 ltac:(lia)) as D. pose proof (Z.mod_pos_bound (y + 4899) 100 ltac:(lia)) as B.
    set (n := (y + 4899) / 100) in *. set (r := (y + 4899) mod 100) in *.
    replace (1461 * (y + 4800 + -1)) with (1461 * r + (36525 * n - 36525) * 4) by lia. rewrite Z.div_add by lia.
    rewrite (Z.quot_div_nonneg (y + 4899)) by lia. fold n. rewrite Z.quot_div_nonneg by (subst n; try apply Z.mul_nonneg_nonneg; try apply Z.div_pos; lia). lia.
  - rewrite !Z.quot_div_nonneg by (try apply Z.quot_pos; lia).
    replace (y + 4900 + 0) with (y + 4900) by lia. replace (m - 2 - 0 * 12) with (m - 2) by lia.
    pose proof (Z.div_mod (y + 4900) 100 ltac:(lia)) as D. pose proof (Z.mod_pos_bound (y + 4900) 100 ltac:(lia)) as B.
    set (n := (y + 4900) / 100) in *. set (r := (y + 4900) mod 100) in *.
    replace (1461 * (y + 4800 + 0)) with (1461 * r + (36525 * n - 36525) * 4) by lia. rewrite Z.div_add by lia.
    rewrite (Z.quot_div_nonneg (y + 4900)) by lia. fold n. rewrite Z.quot_div_nonneg by (subst n; try apply Z.mul_nonneg_nonneg; try apply Z.div_pos; lia). lia.
Qed.

(** The last February day of a year counted from March. *)
Lemma leap_form n r y : y = 100 * n + r - 4899 -> 0 <= r < 100 ->
  Leap y = true -> r mod 4 = 3 /\ (r = 99 -> n mod 4 = 0).
Proof.
  unfold Leap. intros -> R L. Ltac Zify.zify_post_hook ::= Z.to_euclidean_division_equations. lia.
Qed.
Lemma round t : Valid t -> gregorian_date (julian_day t) = t.
Proof.
  intros (Y & M & D). pose proof (julian_form t Y M) as J.
  assert (N0 : 0 <= yy t) by (unfold yy; destruct (mo t <? 3); lia).
  pose proof (Z.div_mod (yy t) 100 ltac:(lia)) as DM. pose proof (Z.mod_pos_bound (yy t) 100 ltac:(lia)) as R.
  assert (NN : 0 <= yy t / 100) by (apply Z.div_pos; lia).
  set (n := yy t / 100) in *. set (r := yy t mod 100) in *.
  (* the days before the month, and the bound of the day *)
  assert (MM : 1 <= mm t <= 12) by (unfold mm; destruct (mo t <? 3) eqn:E; lia).
  assert (LAST : mm t = 12 -> da t <= 28 \/ (da t <= 29 /\ r mod 4 = 3 /\ (r = 99 -> n mod 4 = 0))).
  { intros E. assert (M2 : mo t = 2) by (unfold mm in E; destruct (mo t <? 3) eqn:F; lia).
    unfold Days in D. rewrite M2 in D. change (2 =? 2) with true in D. cbn match in D. destruct (Leap (yr t)) eqn:L; [right | left; lia].
    split; [lia|]. apply (leap_form n r (yr t)); [|exact R | exact L]. unfold yy in DM. rewrite M2 in DM. change (2 <? 3) with true in DM. cbn match in DM. lia. }
  assert (CUR : 1 <= da t /\ (mm t < 12 -> 367 * mm t / 12 + da t <= 367 * (mm t + 1) / 12)).
  { split; [lia|]. clear -M D. unfold mm, Days in *. by_month M; rewrite E in *; cbn [Z.ltb Z.eqb Z.compare Pos.compare Pos.compare_cont Pos.eqb orb] in *; cbn match in *; try (destruct (Leap (yr t))); clear E M; lia. }
  set (f := 367 * mm t / 12) in *.
  assert (L1 : julian_day t + 68569 = 36525 * n - 3 * n / 4 + (1461 * r / 4 + f + da t - 31)) by lia.
  unfold gregorian_date. rewrite L1.
  assert (F : 30 <= f <= 367) by (unfold f; clear -MM; by_month MM; rewrite E; lia).
  assert (UP : f + da t - 31 <= 365 /\ (f + da t - 31 = 365 -> r mod 4 = 3 /\ (r = 99 -> n mod 4 = 0))).
  { destruct (Z.eq_dec (mm t) 12) as [E | E].
    - assert (f = 367) by (unfold f; rewrite E; reflexivity). destruct (LAST E) as [X | (X & Y1 & Y2)]; lia.
    - assert (B : 367 * (mm t + 1) / 12 <= 367) by (apply Z.div_le_upper_bound; lia). destruct CUR as [_ C]. specialize (C ltac:(lia)).
      split; lia. }
  set (a := f + da t - 31) in *. assert (A0 : 0 <= a).
  { destruct CUR as [C _]. unfold a. lia. }
  assert (C1 : 36525 * n - 3 * n / 4 = (146097 * n + 3) / 4).
  { replace (146097 * n + 3) with (36524 * n * 4 + (n + 3)) by lia. rewrite Z.div_add_l by lia.
    lia. }
  assert (N : Z.quot (4 * (36525 * n - 3 * n / 4 + (1461 * r / 4 + f + da t - 31))) 146097 = n).
  { replace (1461 * r / 4 + f + da t - 31) with (1461 * r / 4 + a) by (unfold a; lia).
    assert (B : 0 <= 1461 * r / 4 + a /\ 1461 * r / 4 + a <= 36524 /\ (1461 * r / 4 + a = 36524 -> n mod 4 = 0)).
    { clear -R UP A0. lia. }
    rewrite Z.quot_div_nonneg; [|rewrite C1; clear -NN B; lia | lia].
    symmetry. apply (Z.div_unique _ _ _ (4 * (36525 * n - 3 * n / 4 + (1461 * r / 4 + a)) - 146097 * n)); [left|lia].
    rewrite C1. clear -NN B. lia. }
  rewrite N. rewrite (Z.quot_div_nonneg (146097 * n + 3)) by lia. rewrite <- C1.
  replace (36525 * n - 3 * n / 4 + (1461 * r / 4 + f + da t - 31) - (36525 * n - 3 * n / 4)) with (1461 * r / 4 + a) by (unfold a; lia).
  assert (I : Z.quot (4000 * (1461 * r / 4 + a + 1)) 1461001 = r).
  { rewrite Z.quot_div_nonneg; [|clear -R A0; lia | lia]. clear -R A0 UP. lia. }
  rewrite I. rewrite (Z.quot_div_nonneg (1461 * r)) by lia.
  replace (1461 * r / 4 + a - 1461 * r / 4 + 31) with (f + da t) by (unfold a; lia).
  assert (JJ : Z.quot (80 * (f + da t)) 2447 = mm t /\ f + da t - Z.quot (2447 * mm t) 80 = da t).
  { rewrite !Z.quot_div_nonneg by (clear -F MM CUR; lia). destruct CUR as [C1' C2].
    assert (LT : mm t = 12 -> da t <= 29) by (clear -LAST; intros H; destruct (LAST H); lia).
    unfold f in *. clear -MM C1' C2 LT. by_month MM; rewrite E in *; clear E; lia. }
  destruct JJ as [-> ->]. rewrite (Z.quot_div_nonneg (mm t)) by lia.
  destruct t as [y m d]. cbn [yr mo da] in *. unfold mm, yy in *. cbn [yr mo da] in *.
  clearbody n r. clear -DM M. by_month M; subst m; cbn [Z.ltb Z.compare Pos.compare Pos.compare_cont] in *; f_equal; lia.
Qed.

Lemma leap_same y : 1 <= y -> leap y = Leap y.
Proof. intros Y. unfold leap, Leap. rewrite !Z.rem_mod_nonneg by lia. replace (y =? 0) with false by lia. now rewrite andb_true_r. Qed.

Lemma next_valid t : Valid t -> Valid (Next t).
Proof.
  intros (Y & M & D). unfold Next. destruct (da t <? Days (yr t) (mo t)) eqn:E; [split; [exact Y | split; [exact M | cbn [yr mo da]; lia]]|].
  destruct (mo t <? 12) eqn:F; split; cbn [yr mo da]; try lia; (split; [lia|]).
  - unfold Days. destruct (mo t + 1 =? 2); [destruct (Leap (yr t)); lia|]. destruct ((mo t + 1 =? 4) || (mo t + 1 =? 6) || (mo t + 1 =? 9) || (mo t + 1 =? 11)); lia.
  - cbn. lia.
Qed.
Lemma after_valid n t : Valid t -> Valid (After n t).
Proof. intros V. induction n as [|n IH]; [exact V | now apply next_valid]. Qed.
Lemma leap_year y : Leap y = (((y mod 4 =? 0) && negb (y mod 100 =? 0)) || (y mod 400 =? 0)).
Proof. reflexivity. Qed.

Lemma next_julian t : Valid t -> julian_day (Next t) = julian_day t + 1.
Proof.
  intros V. pose proof (next_valid t V) as (Y' & M' & _). destruct V as (Y & M & D).
  rewrite (julian_form t Y M), (julian_form (Next t) Y' M'). clear Y' M'. unfold Next.
  destruct (da t <? Days (yr t) (mo t)) eqn:E; [unfold mm, yy; cbn [yr mo da]; lia|].
  assert (DE : da t = Days (yr t) (mo t)) by lia. rewrite DE. clear D E DE. destruct t as [y m d]. cbn [yr mo da] in *.
  by_month M; subst m; unfold mm, yy, Days; cbn [Z.ltb Z.eqb Z.compare Pos.compare Pos.compare_cont Pos.eqb orb yr mo da Z.add Pos.add Pos.succ]; cbn match; try lia.
  - destruct (Leap y) eqn:L; unfold Leap in L; lia.
Qed.
Lemma after_julian n t : Valid t -> julian_day (After n t) = julian_day t + Z.of_nat n.
Proof.
  intros V. induction n as [|n IH]; [cbn [After]; lia|]. cbn [After]. rewrite next_julian by now apply after_valid. lia.
Qed.

(** C123: the number of days from a date to the one n days later is n, and back it is -n; the date n days later is found, and n days
    earlier the first one. *)
Theorem C123_days : forall n t, Valid t ->
  Valid (After n t) /\ numdays t (After n t) = Z.of_nat n /\ numdays (After n t) t = - Z.of_nat n /\
  newdate (Z.of_nat n) t = After n t /\ newdate (- Z.of_nat n) (After n t) = t.
Proof.
  intros n t V. pose proof (after_valid n t V) as V'. pose proof (after_julian n t V) as J. unfold numdays, newdate.
  split; [exact V'|]. split; [lia|]. split; [lia|]. split.
  - rewrite <- J. now apply round.
  - replace (julian_day (After n t) + - Z.of_nat n) with (julian_day t) by lia. now apply round.
Qed.
Print Assumptions C123_days.

(** C123: a date is found again from its number, different dates have different numbers, and every number from that of 1 January of the
    year 1 on is that of a date. *)
Theorem C123_numbers : forall t, Valid t ->
  gregorian_date (julian_day t) = t /\
  (forall s, Valid s -> julian_day s = julian_day t -> s = t) /\
  (forall j, 1721426 <= j -> Valid (gregorian_date j) /\ julian_day (gregorian_date j) = j).
Proof.
  intros t V. split; [now apply round|]. split.
  - intros s S E. rewrite <- (round s S), <- (round t V), E. reflexivity.
  - intros j J. assert (V1 : Valid (mkdate 1 1 1)) by (unfold Valid; cbn; lia).
    assert (J1 : julian_day (mkdate 1 1 1) = 1721426) by reflexivity.
    pose proof (after_julian (Z.to_nat (j - 1721426)) _ V1) as A. pose proof (after_valid (Z.to_nat (j - 1721426)) _ V1) as V2.
    rewrite J1 in A. replace (1721426 + Z.of_nat (Z.to_nat (j - 1721426))) with j in A by lia.
    rewrite <- A. rewrite round by exact V2. auto.
Qed.
Print Assumptions C123_numbers.

Lemma next_before t : Valid t -> Before t (Next t).
Proof.
  intros (Y & M & D). unfold Before, Next. destruct (da t <? Days (yr t) (mo t)) eqn:E; [cbn; right; lia|].
  destruct (mo t <? 12) eqn:F; cbn [yr mo da]; [right | left]; lia.
Qed.
Lemma before_trans a b c : Before a b -> Before b c -> Before a c.
Proof. unfold Before. lia. Qed.

(** C123: the order of dates is that of their numbers. *)
Theorem C123_order : forall s t, Valid s -> Valid t -> (Before s t <-> julian_day s < julian_day t).
Proof.
  assert (A : forall n t, Valid t -> Before t (After (S n) t)).
  { induction n as [|n IH]; intros t V; [now apply next_before|]. apply (before_trans _ (After (S n) t)); [now apply IH|].
    change (After (S (S n)) t) with (Next (After (S n) t)). now apply next_before, after_valid. }
  assert (B : forall s t, Valid s -> Valid t -> julian_day s < julian_day t -> Before s t).
  { intros s t Vs Vt L. pose proof (after_julian (Z.to_nat (julian_day t - julian_day s)) s Vs) as J.
    pose proof (after_valid (Z.to_nat (julian_day t - julian_day s)) s Vs) as V.
    assert (E : After (Z.to_nat (julian_day t - julian_day s)) s = t) by (apply (proj1 (proj2 (C123_numbers t Vt))); [exact V | lia]).
    rewrite <- E. replace (Z.to_nat (julian_day t - julian_day s)) with (S (Z.to_nat (julian_day t - julian_day s - 1))) by lia. now apply A. }
  intros s t Vs Vt. split; [|now apply B]. intros H. destruct (Z.lt_trichotomy (julian_day s) (julian_day t)) as [L | [E | G]]; [exact L | exfalso | exfalso].
  - assert (s = t) by (apply (proj1 (proj2 (C123_numbers t Vt))); [exact Vs | exact E]). subst t. unfold Before in H. lia.
  - pose proof (B t s Vt Vs G) as K. unfold Before in *. lia.
Qed.
Print Assumptions C123_order.

(** C123: leap years and the number of days of a year, and the number of a day within its year, are those of the calendar. *)
Theorem C123_years : forall t, Valid t ->
  leap (yr t) = Leap (yr t) /\
  num_days_in_year (yr t) = (if Leap (yr t) then 366 else 365) /\
  1 <= day_of_year (julian_day t) <= num_days_in_year (yr t) /\
  (mo t = 1 -> day_of_year (julian_day t) = da t) /\
  (forall s, Valid s -> yr s = yr t -> (Before s t <-> day_of_year (julian_day s) < day_of_year (julian_day t))).
Proof.
  intros t V. pose proof V as (Y & M & D). split; [now apply leap_same|].
  assert (V1 : Valid (mkdate (yr t) 1 1)) by (unfold Valid; cbn [yr mo da]; cbn [Days Z.eqb orb]; split; [exact Y | split; [lia | cbn; lia]]).
  assert (V2 : Valid (mkdate (yr t) 12 31)) by (unfold Valid; cbn [yr mo da]; split; [exact Y | split; [lia | cbn; lia]]).
  split; [|split; [|split]].
  - unfold num_days_in_year. rewrite !julian_form by (cbn [yr mo]; lia). unfold mm, yy. cbn [yr mo da Z.ltb Z.compare Pos.compare Pos.compare_cont].
    destruct (Leap (yr t)) eqn:L; unfold Leap in L; lia.
  - unfold day_of_year, num_days_in_year. rewrite round by exact V.
    assert (A : ~ julian_day t < julian_day (mkdate (yr t) 1 1)).
    { intros H. apply (proj2 (C123_order _ _ V V1)) in H. unfold Before in H. cbn [yr mo da] in H. lia. }
    assert (B : ~ julian_day (mkdate (yr t) 12 31) < julian_day t).
    { intros H. apply (proj2 (C123_order _ _ V2 V)) in H. unfold Before in H. cbn [yr mo da] in H.
      assert (mo t = 12) by lia. rewrite H0 in *. cbn in D. lia. }
    lia.
  - intros E. unfold day_of_year. rewrite round by exact V. rewrite !julian_form by (cbn [yr mo]; lia). unfold mm, yy. cbn [yr mo da]. rewrite E. lia.
  - intros s Vs E. unfold day_of_year. rewrite !round by assumption. rewrite E. rewrite (C123_order s t Vs V). lia.
Qed.
Print Assumptions C123_years.

(** Days from 1 October to the first of a month of a leap year. *)
Definition Since_october (m : Z) : Z :=
  match m with
  | 10 => 0 | 11 => 31 | 12 => 61 | 1 => 92 | 2 => 123 | 3 => 152 | 4 => 183 | 5 => 213 | 6 => 244 | 7 => 274 | 8 => 305 | _ => 336
  end.
(** C123: the water year runs from 1 October to 30 September and has the number of the year in which it ends; the number of a day in it
    depends on month and day only, whether the year is leap or not. *)
Theorem C123_water_year : forall t, Valid t -> 2 <= yr t ->
  water_year_and_day (julian_day t) = ((if 10 <=? mo t then yr t + 1 else yr t), Since_october (mo t) + da t - 1).
Proof.
  intros t V Y2. pose proof V as (Y & M & D). unfold water_year_and_day. rewrite round by exact V.
  assert (L : leap (yr t) = Leap (yr t)) by now apply leap_same.
  assert (J : forall y, 1 <= y -> julian_day (mkdate y 10 1) = 1 - 31 + 36525 * ((y + 4900) / 100) + 1461 * ((y + 4900) mod 100) / 4 - 3 * ((y + 4900) / 100) / 4 + 244 - 68569).
  { intros y Hy. rewrite julian_form by (cbn [yr mo]; lia). unfold mm, yy. cbn [yr mo da Z.ltb Z.compare Pos.compare Pos.compare_cont]. reflexivity. }
  pose proof (julian_form t Y M) as F. destruct t as [y m d]. cbn [yr mo da] in *. rewrite L.
  rewrite F, (J y Y), (J (y - 1) ltac:(lia)). clear F J V L. unfold mm, yy. cbn [yr mo da]. unfold Days in D.
  by_month M; subst m; cbn [Z.ltb Z.leb Z.eqb Z.compare Pos.compare Pos.compare_cont Pos.eqb orb andb Since_october] in *; cbn match in *;
    f_equal.
  all: try (destruct (Leap y) eqn:L; unfold Leap in L; cbn [negb]; try rewrite andb_false_r; try rewrite andb_true_r;
    repeat match goal with |- context [if ?b then _ else _] => destruct b eqn:? end; lia).
Qed.
Print Assumptions C123_water_year.

(** C123: seconds of a day. *)
Theorem C123_seconds : forall h m s, numsecs 0 0 0 h m s = 3600 * h + 60 * m + s /\
  (0 <= h <= 23 -> 0 <= m <= 59 -> 0 <= s <= 59 -> 0 <= numsecs 0 0 0 h m s < 86400) /\
  (forall h' m' s', numsecs h m s h' m' s' = numsecs 0 0 0 h' m' s' - numsecs 0 0 0 h m s).
Proof. intros h m s. unfold numsecs. repeat split; intros; lia. Qed.
Print Assumptions C123_seconds.

Example C123_example : newdate 1 (mkdate 2000 2 28) = mkdate 2000 2 29 /\ newdate 1 (mkdate 1900 2 28) = mkdate 1900 3 1 /\
  numdays (mkdate 1970 1 1) (mkdate 2000 1 1) = 10957 /\ julian_day (mkdate 2000 1 1) = 2451545.
Proof. repeat split; reflexivity. Qed.
