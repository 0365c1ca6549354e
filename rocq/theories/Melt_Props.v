(** C119: snowmelt in one six-hour period. *)
From Coq Require Import QArith ZArith List Bool Lqa Lia.
Import ListNotations.
From Verif Require Import Qx Snow_Model Melt_Spec.
Local Open Scope Q_scope.

Definition deficit (r : Q * Q * Q * Q) : Q := fst (fst (fst r)).
Definition index (r : Q * Q * Q * Q) : Q := snd (fst (fst r)).
Definition melted (r : Q * Q * Q * Q) : Q := snd (fst r).
Definition evaporated (r : Q * Q * Q * Q) : Q := snd r.

(** C119: with no more rain than the threshold the melt is the melt factor for each degree
    above the base temperature, plus the heat of the rain. *)
Theorem C119_dry : forall expf p tair tindex ratio mf rain rainm evp istep,
  rain <= mr_rfmin p ->
  exists above, floored (tair - mr_mbase p) above /\
    melted (meltrate expf p tair tindex ratio mf rain rainm evp istep) == mf * above + rainm.
Proof.
  intros. unfold meltrate, melted. rewrite (qle_true _ _ H). cbn [fst snd].
  destruct (qlt (tair - mr_mbase p) 0) eqn:E; qprop.
  - exists 0. split; [right; split; lra|lra].
  - exists (tair - mr_mbase p). split; [left; split; lra|lra].
Qed.
Print Assumptions C119_dry.

(** C119: with more rain it is the energy budget of the period, never negative. *)
Theorem C119_rain : forall expf p tair tindex ratio mf rain rainm evp istep,
  mr_rfmin p < rain ->
  floored (energy expf (mr_sbci p) (mr_uadj p) (mr_pa p) rainm tair)
          (melted (meltrate expf p tair tindex ratio mf rain rainm evp istep)).
Proof.
  intros. unfold meltrate, melted. rewrite (qle_false _ _ H). cbv zeta. cbn [fst snd].
  unfold energy, saturated.
  set (e := expf _). unfold floored.
  assert (X : mr_sbci p *
     ((tair + 273) * (1 # 100) * ((tair + 273) * (1 # 100)) * ((tair + 273) * (1 # 100)) *
      ((tair + 273) * (1 # 100)) - (5555 # 100)) +
     (85 # 10) * ((90 # 100) * (274890000 * e) - (611 # 100)) * mr_uadj p +
     (85 # 10) * (57 # 100000) * mr_pa p * mr_uadj p * tair + rainm ==
     mr_sbci p * (Qpower ((tair + 273) / 100) 4 - (5555 # 100)) +
     (85 # 10) * mr_uadj p * ((9 # 10) * (274890000 * e) - (611 # 100) +
                              (57 # 100000) * mr_pa p * tair) + rainm).
  { assert (P : Qpower ((tair + 273) / 100) 4 ==
       (tair + 273) * (1 # 100) * ((tair + 273) * (1 # 100)) * ((tair + 273) * (1 # 100)) *
      ((tair + 273) * (1 # 100))).
    { change (Qpower ((tair + 273) / 100) 4) with (Qpower_positive ((tair + 273) / 100) 4).
      cbn [Qpower_positive pow_pos]. unfold Qdiv.
      change (/ 100) with (1 # 100). ring. }
    rewrite P. ring. }
  match goal with |- context [qlt ?m 0] => destruct (qlt m 0) eqn:E; qprop end.
  - right. split; [rewrite <- X; lra|reflexivity].
  - left. split; [rewrite <- X; exact E|exact X].
Qed.
Print Assumptions C119_rain.

(** C119: a dry period at or below the base temperature melts nothing. *)
Theorem C119_cold : forall expf p tair tindex ratio mf evp istep,
  0 <= mr_rfmin p -> tair <= mr_mbase p ->
  melted (meltrate expf p tair tindex ratio mf 0 0 evp istep) == 0.
Proof.
  intros expf p tair tindex ratio mf evp istep H H0.
  destruct (C119_dry expf p tair tindex ratio mf 0 0 evp istep H) as (a & [[A B]|[A B]] & M);
  rewrite M, B; [assert (tair - mr_mbase p == 0) as -> by lra|]; ring.
Qed.
Print Assumptions C119_cold.

(** C119: without rain, warmer air never melts less. *)
Theorem C119_warmer : forall expf p t1 t2 tindex ratio mf evp istep,
  0 <= mr_rfmin p -> 0 <= mf -> t1 <= t2 ->
  melted (meltrate expf p t1 tindex ratio mf 0 0 evp istep) <=
  melted (meltrate expf p t2 tindex ratio mf 0 0 evp istep).
Proof.
  intros expf p t1 t2 tindex ratio mf evp istep H H0 H1.
  destruct (C119_dry expf p t1 tindex ratio mf 0 0 evp istep H) as (a & F & ->).
  destruct (C119_dry expf p t2 tindex ratio mf 0 0 evp istep H) as (b & G & ->).
  assert (a <= b) by (destruct F as [[? F]|[? F]], G as [[? G]|[? G]]; lra).
  assert (mf * a <= mf * b) by (rewrite !(Qmult_comm mf); now apply Qmult_le_compat_r).
  lra.
Qed.
Print Assumptions C119_warmer.

(** C119: the heat deficit changes by the scaled negative melt factor for each degree between
    the temperature index of the snow and its surface, which is the air's temperature or
    zero if that is warmer. *)
Theorem C119_deficit : forall expf p tair tindex ratio mf rain rainm evp istep,
  exists below, floored (- tair) below /\
    deficit (meltrate expf p tair tindex ratio mf rain rainm evp istep) ==
      ratio * mr_nmf p * (tindex + below).
Proof.
  intros. exists (- (if qlt 0 tair then 0 else tair)). split.
  - unfold floored. destruct (qlt 0 tair) eqn:E; qprop; [right|left]; split; lra.
  - unfold meltrate, deficit. destruct (qle rain (mr_rfmin p)); cbn [fst snd]; ring.
Qed.
Print Assumptions C119_deficit.

(** C119: so air colder than the index adds to the deficit and warmer air takes from it. *)
Theorem C119_deficit_sign : forall expf p tair tindex ratio mf rain rainm evp istep,
  0 < ratio * mr_nmf p -> tindex <= 0 ->
  let d := deficit (meltrate expf p tair tindex ratio mf rain rainm evp istep) in
  (0 < d <-> tair < tindex) /\ (tair == tindex -> d == 0) /\ (d < 0 -> tindex < tair).
Proof.
  intros expf p tair tindex ratio mf rain rainm evp istep H H0 d.
  destruct (C119_deficit expf p tair tindex ratio mf rain rainm evp istep) as (b & F & D).
  fold d in D. set (k := ratio * mr_nmf p) in *. rewrite D. split; [|split].
  - split; intros A.
    + assert (0 < tindex + b).
      { apply Qnot_le_lt. intros C. assert (k * (tindex + b) <= k * 0)
          by (rewrite !(Qmult_comm k); apply Qmult_le_compat_r; lra). lra. }
      destruct F as [[? F]|[? F]]; lra.
    + assert (0 < tindex + b) by (destruct F as [[? F]|[? F]]; lra).
      assert (0 * (tindex + b) < k * (tindex + b)) by (apply Qmult_lt_compat_r; lra). lra.
  - intros A. assert (tindex + b == 0) as -> by (destruct F as [[? F]|[? F]]; lra). ring.
  - intros A. assert (tindex + b < 0).
    { apply Qnot_le_lt. intros C. assert (0 <= k * (tindex + b))
        by (apply Qmult_le_0_compat; lra). lra. }
    destruct F as [[? F]|[? F]]; lra.
Qed.
Print Assumptions C119_deficit_sign.

(** C119: the temperature index moves towards the air's temperature by the fraction TSPM of
    their distance, and does not overshoot. *)
Theorem C119_index : forall expf p tair tindex ratio mf rain rainm evp istep,
  let i := index (meltrate expf p tair tindex ratio mf rain rainm evp istep) in
  i - tindex == mr_tspm p * (tair - tindex) /\
  (0 <= mr_tspm p <= 1 -> between tindex tair i).
Proof.
  intros. assert (E : i == tindex + mr_tspm p * (tair - tindex)).
  { unfold i, meltrate, index. destruct (qle rain (mr_rfmin p)); reflexivity. }
  split; [rewrite E; ring|]. intros [A B]. unfold between.
  destruct (Qlt_le_dec tair tindex) as [L|L]; [right|left]; rewrite E.
  - assert (0 <= mr_tspm p * (tindex - tair)) by (apply Qmult_le_0_compat; lra).
    assert (0 <= (1 - mr_tspm p) * (tindex - tair)) by (apply Qmult_le_0_compat; lra).
    split; lra.
  - assert (0 <= mr_tspm p * (tair - tindex)) by (apply Qmult_le_0_compat; lra).
    assert (0 <= (1 - mr_tspm p) * (tair - tindex)) by (apply Qmult_le_0_compat; lra).
    split; lra.
Qed.
Print Assumptions C119_index.

(** C119: half of the daily sublimation leaves in each of the two day-time periods that are
    not rainy; otherwise nothing does. *)
Theorem C119_sublimation : forall expf p tair tindex ratio mf rain rainm istep,
  let e := evaporated (meltrate expf p tair tindex ratio mf rain rainm 0 istep) in
  (rain <= mr_rfmin p -> istep = 2%Z \/ istep = 3%Z -> e + e == mr_subr p) /\
  (mr_rfmin p < rain \/ (istep <= 1)%Z \/ (4 <= istep)%Z -> e == 0).
Proof.
  intros. unfold e, meltrate, evaporated. split.
  - intros R Hs. rewrite (qle_true _ _ R). cbn [snd].
    destruct Hs as [-> | ->]; cbn; ring.
  - intros Hs. destruct (qle rain (mr_rfmin p)) eqn:R; cbn [snd]; [|reflexivity].
    qprop. destruct Hs as [Hs|Hs]; [lra|].
    destruct (1 <? istep)%Z eqn:A, (istep <? 4)%Z eqn:B; cbn; try reflexivity; lia.
Qed.
Print Assumptions C119_sublimation.

(** C119: the four temperatures of a day.  On a day like the one before, with a minimum below
    the maximum, each is between the day's extremes, and morning is the coldest period and
    afternoon the warmest. *)
Theorem C119_periods : forall tmn tmx,
  tmn <= tmx ->
  exists a b c d, t6hr tmn tmx tmx = [a; b; c; d] /\
    tmn <= a /\ a <= d /\ d <= b /\ b <= c /\ c <= tmx.
Proof.
  intros. unfold t6hr. do 4 eexists. split; [reflexivity|]. repeat split; lra.
Qed.
Print Assumptions C119_periods.

(** C119: in general the first depends on yesterday's maximum, the last two on a night as
    much warmer as yesterday's maximum was than today's. *)
Theorem C119_period_values : forall tmn tmx tmxpre,
  exists a b c d, t6hr tmn tmx tmxpre = [a; b; c; d] /\
    20 * a == 19 * tmn + tmxpre /\
    5 * b == 2 * tmn + 3 * tmx /\
    40 * c == 35 * tmx + 3 * tmn + 2 * tmxpre /\
    100 * d == 67 * tmn - 34 * tmx + 67 * tmxpre.
Proof.
  intros. unfold t6hr. do 4 eexists. split; [reflexivity|]. repeat split; lra.
Qed.
Print Assumptions C119_period_values.

(** C50: below 54 degrees of latitude the melt factor swings with the sine of the season, as
    far above the mean of its extremes as below. *)
Theorem C50_south : forall sinf idn alat mfmax mfmin,
  alat < 54 ->
  2 * fst (meltfact sinf idn alat mfmax mfmin) ==
    (mfmax + mfmin) + (mfmax - mfmin) * sinf (inject_Z idn * 2 * (31416 # 10000) / 366).
Proof.
  intros. unfold meltfact. cbv zeta. rewrite (qlt_true _ _ H). cbn [fst]. ring.
Qed.
Print Assumptions C50_south.

(** C50: farther north the swing of the same sine, counted from the minimum, is scaled by how
    far the day is from mid-winter (day 275 of a year of 366 that starts in spring): nothing
    within 48 percent of the half-year, all of it beyond 70 percent, linear in between. *)
Theorem C50_north : forall sinf idn alat mfmax mfmin,
  54 <= alat -> (0 <= idn <= 366)%Z ->
  exists far part,
    183 * far == inject_Z (Z.min (Z.abs (idn - 275)) (366 - Z.abs (idn - 275))) /\
    (far <= 48 # 100 -> part == 0) /\ (70 # 100 <= far -> part == 1) /\
    (48 # 100 <= far <= 70 # 100 -> (22 # 100) * part == far - (48 # 100)) /\
    2 * (fst (meltfact sinf idn alat mfmax mfmin) - mfmin) ==
      (mfmax - mfmin) * part * (1 + sinf (inject_Z idn * 2 * (31416 # 10000) / 366)).
Proof.
  intros. unfold meltfact. cbv zeta. rewrite (qlt_false _ _ H). cbn [fst].
  set (s := sinf _).
  set (x := if (275 <=? idn)%Z then _ else _).
  exists x. exists (if qle x (48 # 100) then 0
    else if qle (70 # 100) x then 1 else (x - (48 # 100)) / ((70 # 100) - (48 # 100))).
  split; [|split; [|split; [|split]]].
  - unfold x. destruct (275 <=? idn)%Z eqn:A; [|destruct (92 <=? idn)%Z eqn:B].
    + replace (Z.min _ _) with (idn + -275)%Z by lia. rewrite inject_Z_plus.
      change (inject_Z (-275)) with (-275 # 1). field.
    + replace (Z.min _ _) with (275 + - idn)%Z by lia. rewrite inject_Z_plus, inject_Z_opp.
      change (inject_Z 275) with (275 # 1). field.
    + replace (Z.min _ _) with (91 + idn)%Z by lia. rewrite inject_Z_plus.
      change (inject_Z 91) with (91 # 1). field.
  - intros L. now rewrite (qle_true _ _ L).
  - intros L. rewrite (qle_true _ _ L), qle_false by lra. reflexivity.
  - intros [L M]. destruct (qle x (48 # 100)) eqn:A; qprop; [lra|].
    destruct (qle (70 # 100) x) eqn:B; qprop; [lra|]. field.
  - ring.
Qed.
Print Assumptions C50_north.

(** A mild rainy period and a dry one. *)
Example C119_case :
  let p := {| mr_mbase := 0; mr_nmf := 1 # 10; mr_tspm := 1 # 2; mr_rfmin := 1; mr_sbci := 1;
              mr_uadj := 1 # 10; mr_pa := 1000; mr_subr := 1 |} in
  let e := fun _ : Q => 1 # 30000000 in
  0 < melted (meltrate e p 5 (-(2)) 1 2 10 1 0 2) /\
  melted (meltrate e p 5 (-(2)) 1 2 0 0 0 2) == 10 /\
  index (meltrate e p 5 (-(2)) 1 2 0 0 0 2) == 3 # 2 /\
  deficit (meltrate e p (-(4)) (-(2)) 1 2 0 0 0 2) == 2 # 10.
Proof. vm_compute. repeat split; reflexivity. Qed.
