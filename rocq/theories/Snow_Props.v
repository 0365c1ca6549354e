(** Snow properties C46, C47, C48, C50 and C51. *)
From Coq Require Import QArith ZArith List Lqa.
Import ListNotations.
From Verif Require Import CStr_Model Qx Snow_Model Snow_Spec Snow_Proofs.
Local Open Scope Q_scope.

(** C46: melt and rain are fully accounted, the heat deficit stays between zero and 0.33 of
    the frozen water, nothing becomes negative, and liquid water stays within the holding
    capacity if it was within it before. *)
Theorem C46_heat_water : forall melt rain cnhs cnhspx wcplw we neghs liqw tindex,
  0 <= melt -> 0 <= rain -> 0 <= wcplw -> 0 <= we -> 0 <= liqw ->
  let h := heatwatr melt rain cnhs cnhspx wcplw we neghs liqw tindex in
  h_we h + h_liqw h + h_excess h == we + liqw + melt + rain /\
  0 <= h_neghs h /\ h_neghs h <= (33 # 100) * h_we h /\
  0 <= h_excess h /\ 0 <= h_liqw h /\ we <= h_we h /\
  h_tindex h <= 0 /\
  (liqw <= wcplw * we -> h_liqw h <= wcplw * h_we h).
Proof. exact heatwatr_ok. Qed.
Print Assumptions C46_heat_water.

Definition half : Q -> Q := fun _ => 1 # 2.
Definition two : Q -> Q := fun _ => 2.
Example half_exp_ok : exp_ok half.
Proof. intros t _. unfold half. split; discriminate. Qed.
Example half_sin_ok : sin_ok half.
Proof. intros t. unfold half. split; discriminate. Qed.
Example two_pow_nonneg : pow_nonneg two.
Proof. intros t _. discriminate. Qed.
Example two_pow_pos : pow_pos two.
Proof. intros t _. reflexivity. Qed.

(** Example: 20 mm of rain on a pack of 100 mm at holding capacity 5. *)
Example C46_example :
  let h := heatwatr 4 20 0 0 (5 # 100) 100 3 2 (-(1)) in
  h_excess h == 17 + (85 # 100) /\ h_we h == 103 /\ h_liqw h == 5 + (15 # 100).
Proof. vm_compute. repeat split; reflexivity. Qed.

(** Parameters and states used as witnesses. *)
Definition ex_adc : list Q :=
  [5#100; 24#100; 40#100; 53#100; 65#100; 75#100; 82#100; 88#100; 93#100; 98#100; 1].
Definition ex_mr : meltrate_par :=
  {| mr_mbase := 0; mr_nmf := 1 # 10; mr_tspm := 1 # 10; mr_rfmin := 15 # 10;
     mr_sbci := 1 # 100; mr_uadj := 1 # 10; mr_pa := 900; mr_subr := 2 |}.
Definition ex_par : snow_par :=
  {| sp_mr := ex_mr; sp_rnorsno := 0; sp_sfnew := 9; sp_wcplw := 5 # 100; sp_sit := 200;
     sp_mf := 1; sp_ratio := 1; sp_adc := ex_adc; sp_itpx := 6%Z |}.
Definition ex_pack : pack :=
  {| p_we := 100; p_liqw := 5; p_neghs := 30; p_tindex := -(2);
     p_cover := {| c_accmax := 105; c_sb := 105; c_sbws := 105; c_aesc := 1; c_sbaesc := 1 |};
     p_storage := 0; p_lagro := [0; 0]; p_gm := 0 |}.
Example ex_par_ok : par_ok ex_par.
Proof. unfold par_ok; simpl. repeat split; discriminate || reflexivity. Qed.
Example ex_pack_ok : pack_ok ex_pack.
Proof.
  unfold pack_ok; simpl. do 7 (split; [discriminate|]).
  split; [repeat constructor; discriminate|]. split; [discriminate|].
  intros [H|H]; discriminate.
Qed.

(** C46, the holding-capacity part over a whole interval is false: sublimation shrinks the
    pack while a pack with a heat deficit keeps its liquid water, so a pack that starts
    within its holding capacity ends above it. *)
Theorem C46_holding_capacity_refuted :
  exists expf pow03 pow13 sp i2 pxi tair s s' o,
    exp_ok expf /\ pow_nonneg pow03 /\ pow_pos pow13 /\ par_ok sp /\ pack_ok s /\
    p_liqw s <= sp_wcplw sp * p_we s /\
    snow_pass expf pow03 pow13 sp i2 pxi tair s = Ret (s', o) /\
    sp_wcplw sp * p_we s' < p_liqw s'.
Proof.
  exists half, two, two, ex_par, 2%Z, 0, (-(1)), ex_pack.
  eexists. eexists. split; [exact half_exp_ok|]. split; [exact two_pow_nonneg|].
  split; [exact two_pow_pos|]. split; [exact ex_par_ok|]. split; [exact ex_pack_ok|].
  split; [discriminate|]. split; [vm_compute; reflexivity|]. reflexivity.
Qed.
Print Assumptions C46_holding_capacity_refuted.

(** C47: routing conserves water and keeps every store nonnegative, for every time step
    length [it] (hours) and every lag array long enough for the largest lag of 5.33 hours. *)
Theorem C47_route : forall expf pow03 pow13 it excess we aesc storge exlag,
  exp_ok expf -> pow_nonneg pow03 -> pow_pos pow13 -> (1 <= it)%Z ->
  (533 # 100) < inject_Z (it * (Z.of_nat (length exlag) - 1)) ->
  0 <= excess -> 0 < we -> 0 <= storge -> Forall (fun x => 0 <= x) exlag ->
  0 < aesc \/ (excess == 0 /\ storge == 0 /\ Forall (fun x => x == 0) exlag) ->
  exists packro storge' exlag',
    route expf pow03 pow13 it excess we aesc storge exlag = Ret (packro, storge', exlag') /\
    packro + storge' + qsum exlag' == excess + storge + qsum exlag /\
    0 <= packro /\ 0 <= storge' /\ Forall (fun x => 0 <= x) exlag' /\
    length exlag' = length exlag.
Proof. exact route_ok. Qed.
Print Assumptions C47_route.

Example C47_example : exists packro storge' exlag',
  route half two two 6 5 50 1 (1 # 2) [1; 0] = Ret (packro, storge', exlag') /\
  packro + storge' + qsum exlag' == 6 + (1 # 2) /\ 0 < storge' /\ 0 < qsum exlag'.
Proof. eexists. eexists. eexists. split; [vm_compute; reflexivity|]. vm_compute. auto. Qed.

(** C47 fails with a lag array of one element, which is the declared default of the
    dimension nexlag (call_modules_webmod.F 404): whenever the excess is lagged the routine
    accesses an element outside the array. *)
Theorem C47_one_lag_refuted : forall expf pow03 pow13 it excess we aesc storge x1,
  exp_ok expf -> pow_nonneg pow03 -> (1 <= it)%Z -> (1 # 10) <= excess -> 1 <= we ->
  route expf pow03 pow13 it excess we aesc storge [x1] = UB.
Proof. exact route_one_lag. Qed.
Print Assumptions C47_one_lag_refuted.

(** C48: the extent is between 0.05 and 1, it is 1 when the water content reaches the
    seasonal maximum or the index of full cover, and on the depletion curve it is the
    piecewise linear reading of the curve (hence at an in-range position), clamped.  There is
    no out-of-range access in any state. *)
Theorem C48_cover : forall adc we liqw sit c,
  length adc = 11%nat -> 0 <= we + liqw ->
  exists c', aesnow adc we liqw sit c = Ret c' /\
    (5 # 100) <= c_aesc c' /\ c_aesc c' <= 1 /\
    c_accmax c' == (if qlt (c_accmax c) (we + liqw) then we + liqw else c_accmax c) /\
    (c_accmax c <= we + liqw \/ sit <= we + liqw -> c_aesc c' == 1) /\
    (we + liqw < c_accmax c -> we + liqw < sit -> we + liqw <= c_sb c ->
       exists v, curve_value adc ((we + liqw) / qmin (c_accmax c) sit) v /\
                 c_aesc c' = aes_clamp v).
Proof. exact aesnow_ok. Qed.
Print Assumptions C48_cover.

Example C48_example : exists c',
  aesnow ex_adc 30 3 200
    {| c_accmax := 100; c_sb := 90; c_sbws := 90; c_aesc := 1; c_sbaesc := 1 |} = Ret c' /\
  c_aesc c' == (53 # 100) + (12 # 100) * (3 # 10).
Proof. eexists. split; [vm_compute; reflexivity|]. reflexivity. Qed.

(** C50: the melt factor is between its configured limits for every day number and every
    latitude, and the ratio is the factor divided by the maximum. *)
Theorem C50_melt_factor : forall sinf idn alat mfmax mfmin,
  sin_ok sinf -> mfmin <= mfmax -> 0 < mfmax ->
  let '(mf, ratio) := meltfact sinf idn alat mfmax mfmin in
  mfmin <= mf <= mfmax /\ ratio * mfmax == mf.
Proof.
  intros. pose proof (meltfact_range sinf idn alat mfmax mfmin H H0).
  pose proof (meltfact_ratio sinf idn alat mfmax mfmin H H0 H1).
  destruct (meltfact sinf idn alat mfmax mfmin); auto.
Qed.
Print Assumptions C50_melt_factor.

Example C50_example :
  fst (meltfact half 100 60 2 (1 # 2)) == (1 # 2) + (3 # 4) * (3 # 2) /\
  fst (meltfact half 100 45 2 (1 # 2)) == (3 # 8) + (5 # 4).
Proof. vm_compute. auto. Qed.

(** C51: over any sequence of days, whatever the temperatures, precipitation equals what
    leaves the pack (melt water outflow, rain on bare soil, sublimation) plus the change of
    all water held by the pack; every term stays nonnegative, the heat deficit stays within
    its limit and no array is accessed out of range. *)
Theorem C51_snow_balance : forall expf pow03 pow13,
  exp_ok expf -> pow_nonneg pow03 -> pow_pos pow13 ->
  forall days tmxpre s, (2 <= length (p_lagro s))%nat ->
  Forall day_ok days -> pack_ok s ->
  exists s' os, snow_run expf pow03 pow13 days tmxpre s = Ret (s', os) /\
    pack_ok s' /\ Forall out_ok os /\
    pack_water s' + qsum (List.map out_water os)
      == pack_water s + qsum (List.map day_precip days).
Proof. exact snow_run_ok. Qed.
Print Assumptions C51_snow_balance.

(** C51 for one interval of any length. *)
Theorem C51_snow_interval : forall expf pow03 pow13 sp i2 pxi tair s,
  exp_ok expf -> pow_nonneg pow03 -> pow_pos pow13 -> par_ok sp ->
  (533 # 100) < inject_Z (sp_itpx sp * (Z.of_nat (length (p_lagro s)) - 1)) ->
  0 <= pxi -> pack_ok s ->
  exists s' o, snow_pass expf pow03 pow13 sp i2 pxi tair s = Ret (s', o) /\
    pack_ok s' /\ out_ok o /\
    pack_water s' + out_water o == pack_water s + pxi /\
    length (p_lagro s') = length (p_lagro s).
Proof. exact snow_pass_ok. Qed.
Print Assumptions C51_snow_interval.

(** A concrete cold day with snow. *)
Definition ex_days : list (snow_par * Q * Q * Q * Q) :=
  [(ex_par, 1, 12, -(10), -(2))].
Example C51_example :
  Forall day_ok ex_days /\
  (match snow_run half two two ex_days (-(1)) ex_pack with
   | Ret (s', os) => qlt 1 (qsum (List.map out_water os)) && qlt 100 (pack_water s')
   | _ => false end = true).
Proof.
  split; [|vm_compute; reflexivity].
  repeat constructor; simpl; try discriminate.
Qed.
(** C51, the daily ground melt is not applied at a fixed rate: with partial snow cover every
    interval multiplies the remaining intervals' ground melt by the cover fraction. *)
Theorem C51_ground_melt_refuted :
  exists expf pow03 pow13 sp i2 pxi tair s s' o,
    exp_ok expf /\ pow_nonneg pow03 /\ pow_pos pow13 /\ par_ok sp /\ pack_ok s /\
    snow_pass expf pow03 pow13 sp i2 pxi tair s = Ret (s', o) /\ p_gm s' < p_gm s.
Proof.
  exists half, two, two, ex_par, 1%Z, 0, (-(1)),
    {| p_we := 50; p_liqw := 1; p_neghs := 1; p_tindex := -(2);
       p_cover := {| c_accmax := 105; c_sb := 80; c_sbws := 80; c_aesc := 1 # 2; c_sbaesc := 1 # 2 |};
       p_storage := 0; p_lagro := [0; 0]; p_gm := 1 |}.
  eexists. eexists. split; [exact half_exp_ok|]. split; [exact two_pow_nonneg|].
  split; [exact two_pow_pos|]. split; [exact ex_par_ok|].
  split.
  { unfold pack_ok; simpl. do 7 (split; [discriminate|]).
    split; [repeat constructor; discriminate|]. split; [discriminate|].
    intros [H|H]; discriminate. }
  split; [vm_compute; reflexivity|]. reflexivity.
Qed.
Print Assumptions C51_ground_melt_refuted.
