(** C42: rain and snow partition of precipitation and irrigation. *)
From Coq Require Import QArith ZArith Bool List Lia Lqa.
From Verif Require Import Qx Precip_Model Precip_Spec Precip_Proofs.
Import ListNotations.
Local Open Scope Q_scope.

(** Precipitation: for all temperatures, thresholds, adjustments and depths, rain and snow are not
    negative and add up, the rain fraction is the fraction, weather decides the kind, and the
    adjustment applied is that of the kind. *)
Theorem C42_precipitation : forall w rain_adj snow_adj ppt,
  sensible w -> 0 <= rain_adj -> 0 <= snow_adj -> 0 <= ppt ->
  let '(total, s) := ppt_mru w rain_adj snow_adj ppt in
  split_ok total s /\ (0 < ppt -> kind_ok w s /\ flag_ok w s) /\
  total == (if qeq ppt 0 then 0 else if qle (tmax w) (allsnow w) then ppt * snow_adj
            else if pptmix s then ppt * (rain_part w * rain_adj + (1 - rain_part w) * snow_adj)
            else ppt * rain_adj).
Proof. exact ppt_ok. Qed.
Print Assumptions C42_precipitation.

(** Precipitation and irrigation together, for any number of hillslopes: each deposition is the
    sum of its sources, is split into rain and snow, and the fractions of the sources add up to
    one; basin totals are the area weighted sums. *)
Theorem C42_deposition : forall next_ nint irrig_ext first ms r,
  Forall mru_ok ms -> (forall k, 0 <= irrig_ext k) ->
  (nint <> 0%Z \/ Forall (fun m => sat_was m == 0 /\ hyd_was m == 0) ms) ->
  irrrun next_ nint irrig_ext first ms = Some r ->
  Forall2 (fun m o =>
    dep o == m_ppt m + ext o + sat o + hyd o /\ 0 <= ext o /\ 0 <= sat o /\ 0 <= hyd o /\
    out_dep o == dep o /\ rain (out_split o) + snow (out_split o) == dep o /\
    (0 < dep o -> amounts_ok (dep o) (out_split o) /\ kind_ok (m_weather m) (out_split o) /\
       m_ppt m / dep o + frac_ext o + frac_sat o + frac_hyd o == 1 /\
       frac_ext o == ext o / dep o /\ frac_sat o == sat o / dep o /\ frac_hyd o == hyd o / dep o))
    ms (outs r) /\
  basin_dep r == weighted out_dep ms (outs r) /\ basin_ext r == weighted ext ms (outs r) /\
  basin_sat r == weighted sat ms (outs r) /\ basin_hyd r == weighted hyd ms (outs r).
Proof.
  intros ne ni ie first ms r F IE K. apply loop_ok; [exact F | | exact IE].
  destruct K as [K | K]; [apply Forall_forall; intros; left; exact K | eapply Forall_impl; [|exact K]; intros m X; right; exact X].
Qed.
Print Assumptions C42_deposition.

(** The step is refused exactly for negative schedules and sources. *)
Theorem C42_refusal : forall next_ nint irrig_ext first ms,
  (exists r, irrrun next_ nint irrig_ext first ms = Some r) <->
  Forall (fun m => (next_ = 0 \/ 0 <= sched_ext m) /\
                   (nint = 0 \/ sched_int m = 0 \/ (0 < sched_int m /\ 0 <= int_src m)))%Z ms.
Proof. exact loop_some. Qed.
Print Assumptions C42_refusal.

(** Each hillslope receives the water of its own schedules: external irrigation from its external
    schedule, internal from the ground or from its stream segment. *)
Theorem C42_sources : forall next_ nint irrig_ext nexts m o, nint <> 0%Z ->
  irr_mru next_ nint irrig_ext nexts m = Some o ->
  ((next_ = 0 \/ sched_ext m = 0)%Z -> ext o = 0) /\
  (next_ <> 0%Z -> (0 < sched_ext m)%Z -> ext o = irrig_ext (sched_ext m)) /\
  (sched_int m = 0%Z -> sat o = 0 /\ hyd o = 0) /\
  ((0 < sched_int m)%Z -> int_src m = 0%Z -> sat o = fst nexts /\ hyd o = 0) /\
  ((0 < sched_int m)%Z -> (0 < int_src m)%Z -> sat o = 0 /\ hyd o = snd nexts).
Proof.
  intros ne ni ie nx m o N H. pose proof (irr_mru_int _ _ _ _ _ _ H) as I.
  assert (E : ext_mru ne ie m = Some (ext o)).
  { unfold irr_mru in H. destruct (ext_mru ne ie m); [|discriminate]. destruct (int_mru ni nx m) as [[s h]|]; [|discriminate].
    injection H as <-. destruct (qeq _ _); reflexivity. }
  destruct (ext_mru_cases _ _ _ _ E) as [[E1 E2] | (E1 & E2 & E3)];
  destruct (int_mru_cases _ _ _ _ _ N I) as [(A & B & C) | [((A & A') & B & C) | ((A & A') & B & C)]];
  (split; [intros; try assumption; lia|]; split; [intros; try assumption; lia|];
   split; [intros; try (split; assumption); lia|]; split; intros; try (split; assumption); lia).
Qed.
Print Assumptions C42_sources.

(** After the first step the volume taken from each segment is what its hillslopes receive ... *)
Theorem C42_segments : forall next_ nint irrig_ext ms seg r, nint <> 0%Z -> (0 < seg)%Z ->
  irrrun next_ nint irrig_ext false ms = Some r -> hyd_seg r seg == fed_by ms (outs r) seg.
Proof. intros. rewrite (seg_fed next_ nint irrig_ext false ms seg) by assumption. ring. Qed.
Print Assumptions C42_segments.

Definition mixed : weather := {| tmax := 4; tmin := 0; allsnow := 2; allrain := 10; adjmix := 1 |}.
Definition dry : split := {| rain := 0; snow := 0; prmx := - (1 # 10); pptmix := false; newsnow := 0 |}.
Definition field_ (ppt : Q) (s : split) (was : Q) : mru :=
  {| m_weather := mixed; m_ppt := ppt; m_dep := ppt; m_split := s; sched_ext := 1; sched_int := 1; int_src := 2;
     int_init := 1; sat_next := 0; hyd_next := 1; sat_was := was; hyd_was := 0; area := 1; area_frac := 1 |}.

(** ... but on the first step it is counted twice: once when the amounts for the first day are set, and once when they are applied.
    irrig_web.F:418-420, 466-468. *)
Theorem C42_first_step_refuted : forall next_ nint irrig_ext ms seg r, nint <> 0%Z -> (0 < seg)%Z ->
  irrrun next_ nint irrig_ext true ms = Some r -> hyd_seg r seg == 2 * fed_by ms (outs r) seg.
Proof. intros. rewrite (seg_fed next_ nint irrig_ext true ms seg) by assumption. reflexivity. Qed.
Print Assumptions C42_first_step_refuted.
Example C42_first_step_example : exists r, irrrun 0 1 (fun _ => 0) true [field_ 0 dry 0] = Some r /\ Forall mru_ok [field_ 0 dry 0] /\ 0 < fed_by [field_ 0 dry 0] (outs r) 2.
Proof.
  eexists. split; [reflexivity|]. split; [|vm_compute; reflexivity]. constructor; [|constructor]. unfold mru_ok, sensible. cbn. repeat split; lra.
Qed.

(** Without internal irrigation in the simulation, whatever memory holds is deposited. *)
Theorem C42_uninitialised_refuted : exists ms r, irrrun 0 0 (fun _ => 0) false ms = Some r /\
  Forall mru_ok ms /\ Forall (fun m => m_ppt m == 0) ms /\ ~ basin_dep r == 0.
Proof.
  exists [field_ 0 dry 7]. eexists. split; [reflexivity|]. split; [|split].
  - constructor; [|constructor]. unfold mru_ok, sensible. cbn. repeat split; lra.
  - constructor; [reflexivity | constructor].
  - vm_compute. discriminate.
Qed.
Print Assumptions C42_uninitialised_refuted.

(** On a day of rain and snow everything becomes snow: the rain part is assigned to prmx, which irrig_web.F 52 declares as an integer, and its
    fraction is dropped.  irrig_web.F:540-568. *)
Theorem C42_mixed_refuted : forall w rain_adj snow_adj ppt, sensible w -> mixed_day w -> 0 < rain_part w < 1 -> 0 < rain_adj -> 0 < snow_adj -> 0 < ppt ->
  let '(total, s) := ppt_mru w rain_adj snow_adj ppt in
  0 < rain s /\ rain s < total /\ rain (irr_split w total s) == 0 /\ snow (irr_split w total s) == total.
Proof.
  intros w ra sa ppt SW M [P1 P2] RA SA PP. pose proof M as (M1 & M2 & M3). unfold ppt_mru. rewrite (qeq_false ppt 0) by lra. rewrite (qle_false (tmax w)) by lra. rewrite (qlt_false (allsnow w) (tmin w)) by lra.
  rewrite (qle_false (allrain w)) by lra. cbn [orb]. rewrite (qlt_false 1 (rain_part w)) by lra. cbn [rain snow].
  assert (A : 0 < rain_part w * ppt * ra) by (apply Qmult_lt_0_compat; [apply Qmult_lt_0_compat|]; assumption).
  assert (B : 0 < (1 - rain_part w) * ppt * sa) by (apply Qmult_lt_0_compat; [apply Qmult_lt_0_compat; lra|assumption]).
  split; [exact A|]. split; [lra|]. rewrite mixed_split by assumption. cbn [rain snow]. split; ring.
Qed.
Print Assumptions C42_mixed_refuted.
(** On other days the split made by the precipitation module is kept if there is no irrigation. *)
Theorem C42_unmixed : forall w rain_adj snow_adj ppt, sensible w -> ~ mixed_day w -> 0 < rain_adj -> 0 < snow_adj -> 0 < ppt ->
  let '(total, s) := ppt_mru w rain_adj snow_adj ppt in rain (irr_split w total s) == rain s /\ snow (irr_split w total s) == snow s.
Proof.
  intros w ra sa ppt SW M RA SA PP. unfold ppt_mru, irr_split. rewrite (qeq_false ppt 0) by lra.
  destruct (qle (tmax w) (allsnow w)) eqn:E1; [cbn [rain snow]; split; reflexivity|].
  destruct (qlt (allsnow w) (tmin w) || qle (allrain w) (tmax w)) eqn:E2; [cbn [rain snow]; split; reflexivity|].
  exfalso. apply M. apply orb_false_iff in E2. destruct E2 as [E2 E3]. qprop. repeat split; lra.
Qed.
Print Assumptions C42_unmixed.
(** The flag for new snow that is left after this step is 1065353216, the bits of 1.0, and the rain part of a day of rain is less than 1e-44:
    irrig_web.F 51-52 declares the two variables with each other's type. *)
Theorem C42_flags_refuted : forall w d old, 0 < d ->
  (tmax w <= allsnow w -> newsnow (irr_split w d old) = 1065353216%Z) /\
  (allsnow w < tmax w -> allsnow w < tmin w \/ allrain w <= tmax w -> 0 < prmx (irr_split w d old) /\ prmx (irr_split w d old) < 1 # (10 ^ 44)).
Proof.
  intros w d old D. unfold irr_split. split; intros A.
  - rewrite (qle_true _ _ A). reflexivity.
  - intros B. rewrite (qle_false _ _ A). replace (qlt (allsnow w) (tmin w) || qle (allrain w) (tmax w)) with true by (symmetry; apply orb_true_iff; destruct B; [left; apply qlt_true|right; apply qle_true]; assumption).
    cbn [prmx]. rewrite (qlt_true _ _ D). vm_compute. split; reflexivity.
Qed.
Print Assumptions C42_flags_refuted.
(** The schedules of internal irrigation have no effect: on every day a hillslope receives the amount given for the first day.  The arrays with the
    amounts decided for the next step belong to the modules that decide, and are not copied (irrig_web.F:317-318, 352-356, 240). *)
Theorem C42_schedule_refuted : forall next_ nint ms nexts days os, nint <> 0%Z -> length nexts = length ms -> same_hillslopes ms days ->
  irr_days next_ nint true nexts days = Some os ->
  forall k r i m y, nth_error os k = Some r -> nth_error ms i = Some m -> nth_error (outs r) i = Some y -> (0 < sched_int m)%Z -> sat y + hyd y == int_init m.
Proof. exact days_first. Qed.
Print Assumptions C42_schedule_refuted.
Example C42_days_example : let m := field_ 0 dry 0 in
  match irr_days 0 1 true [(5, 6)] [(fun _ => 0, [m]); (fun _ => 0, [field_ 3 dry 0]); (fun _ => 0, [m])] with
  | Some os => map (fun r => map (fun y => Qred (sat y + hyd y)) (outs r)) os = [[1]; [1]; [1]] | None => False end.
Proof. vm_compute. reflexivity. Qed.

Example C42_example :
  let '(total, s) := ppt_mru mixed 1 2 4 in
  sensible mixed /\ Qred total = 6 /\ Qred (rain s) = 2 /\ Qred (snow s) = 4 /\ pptmix s = true /\
  exists r, irrrun 1 1 (fun _ => 2) false [field_ total s 0] = Some r /\ Forall mru_ok [field_ total s 0] /\
            Qred (basin_dep r) = 9.
Proof.
  cbv beta iota zeta delta [ppt_mru]. cbn - [irrrun]. split; [split; cbn; lra|]. do 4 (split; [reflexivity|]).
  eexists. split; [reflexivity|]. split; [|reflexivity].
  constructor; [|constructor]. unfold mru_ok, sensible. split; [cbn; lra|]. split; [vm_compute; discriminate|].
  split; [intros H; vm_compute in H; discriminate|]. cbn; lra.
Qed.
