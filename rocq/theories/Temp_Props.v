(** C80-C83: air temperatures of hillslopes, reaction temperatures, the season of transpiration, potential evaporation. *)
From Coq Require Import QArith Qround ZArith Bool List Lia Lqa.
From Verif Require Import Qx Calendar_Model Calendar_Spec Temp_Model Temp_Spec Temp_Proofs.
Import ListNotations.
Local Open Scope Q_scope.

(** ** C80 *)
(** The unit of the data does not matter with steps of a day or more: the same temperatures given in degrees Fahrenheit give the same in both units. *)
Theorem C80_units : forall dt mx mn r r', 24 <= dt ->
  let c := station_c dt mx mn r in let f := station_f dt (32 + mx * 9 / 5) (32 + mn * 9 / 5) r' in
  s_max f == s_max c /\ s_min f == s_min c /\ s_temp f == s_temp c /\ f_max f == f_max c /\ f_min f == f_min c /\ f_temp f == f_temp c /\ s_temp c == (mx + mn) / 2.
Proof. intros dt mx mn r r' D. unfold station_c, station_f. rewrite qlt_false by exact D. cbn [s_max s_min s_temp f_max f_min f_temp]. do 6 (split; [field|]). field. Qed.
Print Assumptions C80_units.
(** Finding: with steps shorter than a day the temperature that is read is not used in the other unit.  With data in degrees Fahrenheit (temp_units = 0)
    tsta_temp_c is the mean of the day's highest and lowest temperature whatever tsta_temp_f is, so all hourly temperatures of hillslopes are those of
    the day; with data in degrees Celsius the same holds for tsta_temp_f. *)
Theorem C80_hourly_refuted : forall dt mx mn read, dt < 24 ->
  (s_temp (station_f dt mx mn read) == ((mx + mn) / 2 - 32) * 5 / 9 /\ f_temp (station_f dt mx mn read) = read /\ (~ read == (mx + mn) / 2 -> ~ s_temp (station_f dt mx mn read) == (read - 32) * 5 / 9)) /\
  (f_temp (station_c dt mx mn read) == 32 + (mx + mn) / 2 * 9 / 5 /\ s_temp (station_c dt mx mn read) = read).
Proof.
  intros dt mx mn read D. unfold station_c, station_f. rewrite qlt_true by exact D. cbn [s_temp f_temp].
  assert (E : ((mx - 32) / (18 # 10) + (mn - 32) / (18 # 10)) / 2 == ((mx + mn) / 2 - 32) * 5 / 9) by field.
  split; [split; [exact E|]; split; [reflexivity|]|split; [field|reflexivity]].
  intros N X. rewrite E in X. apply N. set (m := (mx + mn) / 2) in *. unfold Qdiv in X. change (/ 9) with (1 # 9) in X. lra.
Qed.
Print Assumptions C80_hourly_refuted.
(** Every step of a run uses the lapse rates of its own month: the hillslope's temperatures are the station's, less the month's lapse rate times the height in
    thousands above the station, plus the hillslope's adjustment, whatever the date the run starts on and however many steps a day has. *)
Theorem C80_lapse : forall p c0 d0 s0 l, follow d0 (map fst l) ->
  forall i d s a, nth_error ((d0, s0) :: l) i = Some (d, s) -> nth_error (airs p 1 c0 ((d0, s0) :: l)) i = Some a ->
    a_max a == s_max s - max_lapse p (dm d) * elfac p + max_adj p /\
    a_min a == s_min s - min_lapse p (dm d) * elfac p + min_adj p /\
    a_temp a == s_temp s - (max_lapse p (dm d) + min_lapse p (dm d)) / 2 * elfac p + (max_adj p + min_adj p) / 2 /\
    (s_temp s == (s_max s + s_min s) / 2 -> a_temp a == (a_max a + a_min a) / 2) /\
    af_max a == 32 + a_max a * 9 / 5 /\ af_min a == 32 + a_min a * 9 / 5 /\ af_temp a == 32 + a_temp a * 9 / 5.
Proof.
  intros p c0 d0 s0 l F i d s a L A. rewrite (airs_run p c0 d0 s0 l F i d s a L A). unfold air_of, correction, to_f. cbn [a_max a_min a_temp af_max af_min af_temp cx cn cc].
  split; [ring|]. split; [ring|]. split; [field|]. split; [intros E; rewrite E; field|]. split; [field|]. split; field.
Qed.
Print Assumptions C80_lapse.
Theorem C80_every_step : forall p n c l, length (airs p n c l) = length l.
Proof. intros p n c l. revert n c. induction l as [|[d s] l IH]; intros n c; [reflexivity|]. cbn [airs length]. rewrite IH. reflexivity. Qed.
Print Assumptions C80_every_step.
(** Finding: nothing keeps a hillslope's highest temperature of the day at or above its lowest: with the two lapse rates (or adjustments) different it is below
    on every day whose range at the station is less than the difference of the two corrections. *)
Theorem C80_order_refuted : forall p c0 d0 s0 l, follow d0 (map fst l) ->
  forall i d s a, nth_error ((d0, s0) :: l) i = Some (d, s) -> nth_error (airs p 1 c0 ((d0, s0) :: l)) i = Some a ->
    (a_max a < a_min a <-> s_max s - s_min s < (max_lapse p (dm d) - min_lapse p (dm d)) * elfac p - (max_adj p - min_adj p)).
Proof.
  intros p c0 d0 s0 l F i d s a L A. destruct (C80_lapse p c0 d0 s0 l F i d s a L A) as (E1 & E2 & _). rewrite E1, E2.
  set (x := max_lapse p (dm d)). set (y := min_lapse p (dm d)). set (e := elfac p). assert (R : (x - y) * e == x * e - y * e) by ring. rewrite R. split; intros; lra.
Qed.
Print Assumptions C80_order_refuted.
Theorem C80_basin : forall areas temps lo hi, length areas = length temps -> Forall (fun a => 0 <= a) areas -> 0 < qsum areas -> Forall (fun t => lo <= t <= hi) temps ->
  lo <= basin_mean (qsum areas) areas temps <= hi.
Proof.
  intros areas temps lo hi L A P T. destruct (mean_bounds areas temps lo hi L A T) as [B1 B2]. unfold basin_mean. split; [apply Qle_shift_div_l|apply Qle_shift_div_r]; assumption.
Qed.
Print Assumptions C80_basin.
Definition lapse_case : slope := mkSlope (fun m => if (m =? 1)%Z then 6 else 8) (fun m => if (m =? 1)%Z then 2 else 3) 1 0 (1 # 2).
Definition lapse_steps : list (date * station) := map (fun d => (d, station_c 24 3 1 0)) [mkdate 2001 1 31; mkdate 2001 1 31; mkdate 2001 2 1; mkdate 2001 2 2].
Example lapse_meets : follow (mkdate 2001 1 31) (tl (map fst lapse_steps)).
Proof. cbn. unfold Next_day. cbn. tauto. Qed.
Example lapse_run : map (fun a => (Qred (a_max a), Qred (a_min a))) (airs lapse_case 1 (mkCorr 0 0 0) lapse_steps) = [(-3, -1 # 2); (-3, -1 # 2); (-5, -3 # 2); (-5, -3 # 2)]
  /\ s_max (station_c 24 3 1 0) = 3 /\ Qred (basin_mean (qsum [1; 3]) [1; 3] [4; 8]) = 7.
Proof. repeat split; vm_compute; reflexivity. Qed.

(** ** C81 *)
(** The reaction temperature of every step is the mean over the last [days] days of the chosen temperature, plus the adjustment; days before the start of the run
    count as 0 degrees (see the finding below). *)
Theorem C81_average : forall days adj k l, 1 <= days -> whole_or_far days -> (1 <= k <= 3)%Z ->
  exists o, reactions_run days adj k l = Some o /\ length o = length l /\
    forall i x, nth_error o i = Some x -> x == in_window days (rev (map (named k) (firstn (S i) l))) / days + adj.
Proof.
  intros days adj k l D W K. destruct (reactions_length days adj k K l (repeat 0 (columns days))) as (o & E & L). exists o. split; [exact E|]. split; [exact L|].
  intros i x X. rewrite (reactions_all days adj k l o _ D W E (stats_named k K l) i x X). rewrite firstn_map. reflexivity.
Qed.
Print Assumptions C81_average.
(** Once the run is as long as the window the reaction temperature is between the lowest and the highest temperature chosen. *)
Theorem C81_bounds : forall days adj k l o lo hi, 1 <= days -> whole_or_far days -> (1 <= k <= 3)%Z -> reactions_run days adj k l = Some o -> Forall (fun a => lo <= named k a <= hi) l ->
  forall i x, nth_error o i = Some x -> days <= inject_Z (Z.of_nat (S i)) -> lo + adj <= x <= hi + adj.
Proof.
  intros days adj k l o lo hi D W K E F i x X N. destruct (C81_average days adj k l D W K) as (o' & E' & L & A). rewrite E in E'. injection E' as <-. rewrite (A i x X).
  assert (IL : (i < length l)%nat) by (rewrite <- L; apply nth_error_Some; congruence).
  destruct (window_bounds (rev (map (named k) (firstn (S i) l))) days lo hi ltac:(lra)) as [B1 B2].
  - rewrite rev_length, map_length, firstn_length. replace (Nat.min (S i) (length l)) with (S i) by lia. exact N.
  - apply Forall_rev. apply Forall_map. rewrite Forall_forall in *. intros a H. apply F. rewrite <- (firstn_skipn (S i) l). apply in_or_app. left. exact H.
  - assert (P : 0 < days) by lra. split; [assert (lo <= in_window days (rev (map (named k) (firstn (S i) l))) / days) by (apply Qle_shift_div_l; assumption); lra|assert (in_window days (rev (map (named k) (firstn (S i) l))) / days <= hi) by (apply Qle_shift_div_r; assumption); lra].
Qed.
Print Assumptions C81_bounds.
(** Finding: until the run is as long as the window, days before it count as 0 degrees C: at a constant temperature t the reaction temperature of step n is t * n / days,
    not t, so that with a window of a year the soil warms up from freezing during the first year of every run. *)
Theorem C81_start_refuted : forall days adj k l t, 1 <= days -> whole_or_far days -> (1 <= k <= 3)%Z -> Forall (fun a => named k a = t) l ->
  exists o, reactions_run days adj k l = Some o /\ forall i x, nth_error o i = Some x -> inject_Z (Z.of_nat (S i)) <= days -> x == t * inject_Z (Z.of_nat (S i)) / days + adj.
Proof.
  intros days adj k l t D W K F. destruct (C81_average days adj k l D W K) as (o & E & L & A). exists o. split; [exact E|]. intros i x X N. rewrite (A i x X).
  assert (IL : (i < length l)%nat) by (rewrite <- L; apply nth_error_Some; congruence).
  assert (R : map (named k) (firstn (S i) l) = repeat t (S i)).
  { assert (G : forall l, Forall (fun a => named k a = t) l -> map (named k) l = repeat t (length l)) by (clear; induction l as [|a l IH]; intros F; [reflexivity|]; inversion F; subst; cbn; rewrite IH by assumption; reflexivity).
    rewrite G; [rewrite firstn_length; replace (Nat.min (S i) (length l)) with (S i) by lia; reflexivity|]. rewrite Forall_forall in *. intros a H. apply F. rewrite <- (firstn_skipn (S i) l). apply in_or_app. left. exact H. }
  rewrite R. assert (RR : rev (repeat t (S i)) = repeat t (S i)).
  { generalize (S i). clear. induction n as [|n IH]; [reflexivity|]. cbn [repeat rev]. rewrite IH. apply repeat_snoc. }
  rewrite RR, window_constant by exact N. reflexivity.
Qed.
Print Assumptions C81_start_refuted.
(** A statistic other than 1, 2 and 3 ends the run at its first step. *)
Theorem C81_statistic : forall days adj k l, (k < 1 \/ 3 < k)%Z -> l <> [] -> reactions_run days adj k l = None.
Proof. intros days adj k [|a l] K N; [congruence|]. unfold reactions_run. cbn [reactions]. unfold statistic. replace (k =? 1)%Z with false by lia. replace (k =? 2)%Z with false by lia. replace (k =? 3)%Z with false by lia. reflexivity. Qed.
Print Assumptions C81_statistic.
Definition warm_airs : list air := map (fun t => mkAir t t t t t t) [10; 20; 30; 40].
Example window_meets : 1 <= 5 # 2 /\ whole_or_far (5 # 2) /\ whole_or_far 3 /\ option_map (map Qred) (reactions_run (5 # 2) 1 2 warm_airs) = Some [5; 13; 23; 33] /\ Qred (in_window (5 # 2) [40; 30; 20; 10]) = 80
  /\ option_map (map Qred) (reactions_run 4 0 1 (repeat (mkAir 14 12 13 0 0 0) 4)) = Some [3; 6; 9; 12].
Proof. unfold whole_or_far. split; [lra|]. split; [right; reflexivity|]. split; [left; reflexivity|]. repeat split; vm_compute; reflexivity. Qed.

(** ** C82 *)
(** When the run starts transpiration is on exactly when the date is after the 10th of the first month of the season or in a month between its first and last month,
    going round the year. *)
Theorem C82_start : forall p d, (1 <= p_beg p <= 12)%Z -> (1 <= p_end p <= 12)%Z -> (1 <= dm d <= 12)%Z ->
  (s_on (season_start p d) = true <-> ((dm d = p_beg p /\ 10 < dd d)%Z \/ between_months (p_beg p) (p_end p) (dm d))) /\
  (s_check (season_start p d) = true <-> (dm d = p_beg p /\ dd d <= 10)%Z) /\ s_sum (season_start p d) = 0.
Proof.
  intros p d B E M. split; [apply start_on; assumption|]. unfold season_start. destruct (dm d =? p_beg p)%Z eqn:X.
  - destruct (10 <? dd d)%Z eqn:Y; cbn [s_check s_sum]; split; try reflexivity; split; intros H; try discriminate; lia.
  - destruct (0 <? p_end p - p_beg p)%Z; cbn [s_check s_sum]; split; try reflexivity; split; intros H; try discriminate; lia.
Qed.
Print Assumptions C82_start.
(** A year: transpiration stays off until the first day of the season's first month; from then the highest temperatures above zero are added, and from the second of these days on it is
    on exactly when their sum exceeds the plant's index. *)
Theorem C82_opening : forall p pre d t mid, Forall (fun x => ~ first_of (p_beg p) (fst x)) pre -> first_of (p_beg p) d -> mid <> [] ->
  Forall (fun x => ~ first_of (p_beg p) (fst x) /\ ~ first_of (p_end p) (fst x)) mid ->
  season_days p pre rest = rest /\ s_on (season_days p (pre ++ [(d, t)]) rest) = false /\
  (s_on (season_days p (pre ++ (d, t) :: mid) rest) = true <-> p_tmax p < warmth (t :: map snd mid)).
Proof.
  intros p pre d t mid F O N G. assert (Q1 : season_days p pre rest = rest) by (apply quiet; [reflexivity|]; eapply Forall_impl; [|exact F]; intros x H; split; [exact H|discriminate]).
  split; [exact Q1|]. rewrite !season_app, Q1. unfold season_days. cbn [fold_left fst snd]. rewrite open_day by exact O. split; [reflexivity|].
  fold (season_days p mid (mkSeason false true (warmed 0 t))). destruct (checking p mid (mkSeason false true (warmed 0 t)) eq_refl G N) as [A B]. cbn [s_sum s_on] in *. pose proof (warmth_cons t (map snd mid)) as W.
  split; intros H; [|destruct A as (q & -> & _); [lra|reflexivity]].
  destruct (Qlt_le_dec (p_tmax p) (warmth (t :: map snd mid))) as [Y|Y]; [exact Y|]. destruct B as [B _]; [lra|]. congruence.
Qed.
Print Assumptions C82_opening.
(** If the index was exceeded, transpiration ends on the first day of the last month, and the plant is at rest until the next season, in the state it started from: so the
    two theorems hold of every year of a run. *)
Theorem C82_closing : forall p d t mid d' t' post, p_beg p <> p_end p -> first_of (p_beg p) d -> mid <> [] ->
  Forall (fun x => ~ first_of (p_beg p) (fst x) /\ ~ first_of (p_end p) (fst x)) mid -> p_tmax p < warmth (t :: map snd mid) -> first_of (p_end p) d' ->
  Forall (fun x => ~ first_of (p_beg p) (fst x)) post ->
  season_days p ((d, t) :: mid ++ (d', t') :: post) rest = rest.
Proof.
  intros p d t mid d' t' post NE O N G W C F. change ((d, t) :: mid ++ (d', t') :: post) with ([(d, t)] ++ mid ++ [(d', t')] ++ post). rewrite !season_app. unfold season_days at 4. cbn [fold_left fst snd]. rewrite open_day by exact O.
  destruct (checking p mid (mkSeason false true (warmed 0 t)) eq_refl G N) as [A _]. cbn [s_sum] in A. rewrite warmth_cons in W. destruct (A W) as (q & E & _).
  assert (E0 : season_days p mid (mkSeason false true (warmed 0 t)) = mkSeason true false 0) by (apply checking_zero; [reflexivity|exact G|rewrite E; reflexivity]).
  rewrite E0. unfold season_days at 2. cbn [fold_left fst snd]. rewrite close_day by assumption. apply quiet; [reflexivity|]. eapply Forall_impl; [|exact F]. intros x H. split; [exact H|discriminate].
Qed.
Print Assumptions C82_closing.
(** Finding: if the sum has not exceeded the index by the first day of the last month, that day does not end the wait: temperatures are added on, whatever the dates, and transpiration
    begins out of season and stays on until the first day of the last month of the next year. *)
Theorem C82_late_refuted : forall p d t l x post, first_of (p_beg p) d -> warmth (t :: map snd l) <= p_tmax p -> p_tmax p < warmth (t :: map snd (l ++ [x])) ->
  Forall (fun y => ~ first_of (p_beg p) (fst y) /\ ~ first_of (p_end p) (fst y)) post ->
  s_on (season_days p ((d, t) :: l) rest) = false /\ s_on (season_days p ((d, t) :: l ++ x :: post) rest) = true.
Proof.
  intros p d t l [dx tx] post O A B F. change ((d, t) :: l ++ (dx, tx) :: post) with (((d, t) :: l) ++ [(dx, tx)] ++ post). rewrite !season_app.
  assert (E : season_days p ((d, t) :: l) rest = season_days p l (mkSeason false true (warmed 0 t))) by (unfold season_days; cbn [fold_left fst snd]; rewrite open_day by exact O; reflexivity).
  rewrite E. rewrite warmth_cons in A. destruct (checking_any p l (mkSeason false true (warmed 0 t)) eq_refl) as (C1 & C2 & C3); cbn [s_sum s_on] in *; [exact A|]. split; [exact C1|].
  rewrite map_app in B. cbn [map snd] in B. change (t :: map snd l ++ [tx]) with ((t :: map snd l) ++ [tx]) in B. rewrite warmth_app, warmth_cons in B.
  set (s := season_days p l (mkSeason false true (warmed 0 t))) in *. assert (E1 : season_days p [(dx, tx)] s = mkSeason true false 0).
  { unfold season_days. cbn [fold_left fst snd]. unfold season_day. rewrite C2. pose proof (warmed_is (s_sum s) tx) as W. unfold warmth in B at 2. cbn [map qsum] in B. rewrite qlt_true by lra. reflexivity. }
  rewrite E1, quiet; [reflexivity|reflexivity|]. eapply Forall_impl; [|exact F]. cbn. tauto.
Qed.
Print Assumptions C82_late_refuted.
(** Finding: with the same first and last month transpiration, once on, never ends. *)
Theorem C82_same_month_refuted : forall p l s, p_beg p = p_end p -> s_on s = true -> s_on (season_days p l s) = true.
Proof.
  intros p l s E. revert s. unfold season_days. induction l as [|[d t] l IH]; intros s O; [exact O|]. cbn [fold_left fst snd]. apply IH. unfold season_day.
  destruct (s_check s); [destruct (qlt _ _); [reflexivity|exact O]|]. destruct (dd d =? 1)%Z; [|exact O]. rewrite <- E. destruct (dm d =? p_beg p)%Z; [exact O|]. rewrite andb_false_r. exact O.
Qed.
Print Assumptions C82_same_month_refuted.
Definition pine : plant := mkPlant 4 10 50.
Definition spring : list (date * Q) := [(mkdate 2001 4 2, 30); (mkdate 2001 4 3, -5); (mkdate 2001 4 4, 15)].
Example season_meets : first_of (p_beg pine) (mkdate 2001 4 1) /\ first_of (p_end pine) (mkdate 2001 10 1) /\ Forall (fun x => ~ first_of (p_beg pine) (fst x) /\ ~ first_of (p_end pine) (fst x)) spring
  /\ p_tmax pine < warmth (10 :: map snd spring) /\ s_on (season_days pine ((mkdate 2001 4 1, 10) :: spring) rest) = true /\ s_on (season_days pine ((mkdate 2001 4 1, 1) :: spring) rest) = false
  /\ s_on (season_days pine ((mkdate 2001 4 1, 1) :: spring ++ [(mkdate 2001 10 1, 3); (mkdate 2001 11 20, 6); (mkdate 2001 12 24, -20)]) rest) = true
  /\ between_months 10 4 1 /\ ~ between_months 10 4 6.
Proof. unfold first_of, between_months. repeat split; try (vm_compute; reflexivity); try (repeat constructor; cbn; lia); cbn; lia. Qed.

(** ** C83 *)
(** The steps of a day add up to the day's potential evaporation, which the conditions of its first step fix. *)
Theorem C83_day : forall expf coef epan p dt x l s, e_lday s <> dd (e_date x) -> Forall (fun y => e_date y = e_date x) l -> dt < 24 -> dt * inject_Z (Z.of_nat (S (length l))) == 24 ->
  let '(s', qs) := pet_run expf coef epan p dt (x :: l) s in
  qsum qs == own expf coef epan x /\ length qs = S (length l) /\ Forall (fun q => q == dt / 24 * own expf coef epan x) qs /\
  e_season s' = season_day p (e_date x) (e_max x) (e_season s) /\ e_lday s' = dd (e_date x).
Proof.
  intros expf coef epan p dt x l s N F D T. cbn [pet_run]. unfold pet_step. replace (e_lday s =? dd (e_date x))%Z with false by lia. set (s1 := mkPs _ _ _).
  rewrite (same_day expf coef epan p dt (e_date x) l s1 eq_refl F). rewrite qlt_true by exact D. change (e_daily s1) with (own expf coef epan x). set (o := own expf coef epan x).
  assert (QS : forall (l : list pet_in), qsum (map (fun _ => dt / 24 * o) l) == inject_Z (Z.of_nat (length l)) * (dt / 24 * o)).
  { clear. induction l as [|y l IH]; [cbn [map qsum length]; change (inject_Z (Z.of_nat 0)) with 0; ring|]. cbn [map qsum length]. rewrite IH, Nat2Z.inj_succ. unfold Z.succ. rewrite inject_Z_plus. change (inject_Z 1) with 1. ring. }
  split; [|split; [cbn; rewrite map_length; reflexivity|split; [|split; reflexivity]]].
  - change (dt / 24 * o :: map (fun _ : pet_in => dt / 24 * o) l) with (map (fun _ : pet_in => dt / 24 * o) (x :: l)). rewrite QS. cbn [length]. set (m := inject_Z _) in *.
    assert (R : m * (dt / 24 * o) == (dt * m) / 24 * o) by field. rewrite R, T. field.
  - constructor; [reflexivity|]. apply Forall_map. apply Forall_forall. reflexivity.
Qed.
Print Assumptions C83_day.
(** With steps of a day or more every step has its own value and the season advances by every day once. *)
Theorem C83_daily : forall expf coef epan p dt d l, 24 <= dt -> Valid d -> match l with [] => False | x :: r => e_date x = d /\ daily d (map e_date r) end ->
  exists s' qs, pet_run expf coef epan p dt l (pet_start p d) = (s', qs) /\ e_season s' = season_days p (map (fun x => (e_date x, e_max x)) l) (season_start p d) /\ Forall2 (fun x q => q == own expf coef epan x) l qs.
Proof.
  intros expf coef epan p dt d [|x l] D V H; [contradiction|]. destruct H as [H1 H2]. cbn [pet_run]. unfold pet_step. cbn [pet_start e_lday]. assert (Z0 : (0 =? dd (e_date x))%Z = false) by (rewrite H1; destruct V as (_ & _ & V & _); lia). rewrite Z0.
  set (s1 := mkPs _ _ _). destruct (own_days expf coef epan p dt D l d s1 V) as (s' & qs & E & S1 & F); [unfold s1; cbn; congruence|exact H2|]. rewrite E. eexists s', _. split; [reflexivity|]. split; [exact S1|].
  constructor; [|exact F]. rewrite qlt_false by exact D. unfold s1. cbn [e_daily]. unfold own. ring.
Qed.
Print Assumptions C83_daily.
(** A pan's evaporation is used as it is unless it is the missing value -999; otherwise Hamon's formula, which is not negative above -237.3 degrees. *)
Theorem C83_pan : forall expf e coef epan sun avg, (~ e == -999 -> daily_potet expf (Some e) coef epan sun avg = e) /\ (e == -999 -> daily_potet expf (Some e) coef epan sun avg = daily_potet expf None coef epan sun avg).
Proof. intros expf e coef epan sun avg. unfold daily_potet. split; intros H; [rewrite qeq_false by exact H; reflexivity|]. destruct (qeq e (-999)) eqn:X; [reflexivity|]. qprop. contradiction. Qed.
Print Assumptions C83_pan.
Theorem C83_nonneg : forall expf coef epan sun avg, (forall x, 0 <= expf x) -> 0 <= coef -> 0 < epan -> - (2373 # 10) < avg -> 0 <= daily_potet expf None coef epan sun avg.
Proof.
  intros expf coef epan sun avg X C E T. unfold daily_potet, hamon. cbv zeta. apply Qle_shift_div_l; [exact E|]. rewrite Qmult_0_l.
  set (v := expf _). assert (V : 0 <= v) by apply X. clearbody v. assert (SS : 0 <= sun * sun) by nra.
  assert (M : 0 <= (2167 # 10) * ((6108 # 1000) * v) / (avg + (2732 # 10))) by (apply Qle_shift_div_l; lra).
  set (w := _ / _) in *. assert (CS : 0 <= coef * (sun * sun)) by (apply Qmult_le_0_compat; assumption). assert (R : coef * sun * sun * w == coef * (sun * sun) * w) by ring. rewrite R. apply Qmult_le_0_compat; assumption.
Qed.
Print Assumptions C83_nonneg.
Definition pet_case : list pet_in := map (fun t => mkPet (mkdate 2001 5 3) 1 t t (Some t)) [8; 9; 10; 11].
Example pet_meets : map Qred (snd (pet_run (fun _ => 1) (fun _ => 1) (fun _ => 1) pine 6 pet_case (pet_start pine (mkdate 2001 5 3)))) = [2; 2; 2; 2] /\ (6 * inject_Z (Z.of_nat (length pet_case)) == 24).
Proof. split; vm_compute; reflexivity. Qed.
