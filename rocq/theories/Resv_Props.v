(** Properties of the mixing reservoirs (C68-C71). *)
From Coq Require Import QArith Qabs ZArith List Bool Lqa Lia.
From Verif Require Import Qx Hill_Model Hill_Spec Hill_Proofs Hill_Props Resv_Model Resv_Spec Resv_Proofs Resv2_Proofs.
Import ListNotations.
Local Open Scope Q_scope.

(** ** A unit and a day, for the examples *)
Definition rv_m : mru := mkMru 1 (1 # 2) 0 [0; 1 # 2; 1 # 2] [false; false; true].
Definition rv_infil : Q := (95 # 100) * (127 # 5000) - (3 # 1000).
Definition rv_bin : binflux := mkBinflux (1 # 1000) 0 (2 # 1000) (1 # 1000) rv_infil (1 # 10000).
Definition rv_day : day := mkDay (9 # 10) 0 0 (1 # 10) 1 (95 # 100) true 0 (95 # 100) 0 0 0 (1 # 1000) (1 # 1000) 0 (2 # 1000) (1 # 500) 0 0 0 0 [rv_bin; rv_bin; rv_bin].
Definition rv_soil : soil := mkSoil 0 (1 # 50) (1 # 10) (1 # 4) (1 # 5) 1 (1 # 10) 10 (2 # 5) 1 (-1) (-2) [1; 1; 1].
Definition rv_v : vols := vols_start (1 # 100) rv_m false rv_soil.
Lemma rv_ok : unit_ok (1 # 100) rv_m /\ consistent rv_m rv_day rv_v /\ clear_fall (1 # 100) rv_m rv_day.
Proof.
  split; [vm_compute; repeat split; discriminate|]. split.
  - constructor; try (vm_compute; repeat split; try reflexivity; discriminate). vm_compute. repeat constructor; discriminate.
  - split; right; vm_compute; discriminate.
Qed.

(** ** C68: the reservoirs of a unit hold what the unit received less what it gave *)
(** In each step, and exactly when the throughfall is not so small that it is dropped. *)
Theorem C68_step : forall can_depth m d v v' o, unit_ok can_depth m -> consistent m d v -> unit_volumes can_depth m d v = Some (v', o) ->
  exists lost, held v' == held v + r_in (o_mru o) - r_out (o_mru o) - r_et (o_mru o) + lost /\ - (1 # 1000) <= lost <= 1 # 1000 /\ (clear_fall can_depth m d -> lost == 0).
Proof.
  intros can_depth m d v v' o U C E. destruct (held_diff _ _ _ _ _ _ U C E) as (lost & A & B & K). exists lost. split; [|auto].
  apply unit_inv in E. destruct E as (can & th & drop & take & oh & f & E). cbn zeta in E. destruct E as (_ & _ & _ & _ & _ & _ & _ & _ & _ & _ & _ & _ & _ & _ & _ & _ & _ & _ & _ & _ & _ & _ & _ & VM & _).
  rewrite VM in A. lra.
Qed.
Print Assumptions C68_step.
(** What the unit receives: all deposition, and ground water; what it gives: losses, pumped water, and what runs to the stream. *)
Theorem C68_fluxes : forall can_depth m d v v' o, unit_volumes can_depth m d v = Some (v', o) ->
  r_in (o_mru o) == (d_ppt d + d_irrsat d + d_irrhyd d + d_irrext d) * per_inch m + (d_gw1 d + d_gw2 d) * per_meter m /\
  r_out (o_mru o) == d_loss d * per_meter m + d_irrsat d * per_inch m + o_hill o /\
  v_mru v' == v_mru v + r_in (o_mru o) - r_out (o_mru o) - r_et (o_mru o).
Proof.
  intros can_depth m d v v' o E. apply unit_inv in E. destruct E as (can & th & drop & take & oh & f & E). cbn zeta in E. destruct E as (_ & _ & _ & _ & _ & _ & _ & _ & _ & _ & _ & _ & _ & _ & _ & _ & _ & _ & _ & _ & A & B & _ & K & _). auto.
Qed.
Print Assumptions C68_fluxes.
(** What evaporates and what runs to the stream are the flows of the other modules. *)
Theorem C68_flows : forall can_depth m d v v' o, unit_ok can_depth m -> consistent m d v -> clear_fall can_depth m d -> unit_volumes can_depth m d v = Some (v', o) ->
  r_et (o_mru o) == (d_evap d + d_snowevap d) * per_inch m + d_sae d * per_meter m /\
  o_hill o == (d_qof d + weigh (acfs (areas m)) (map b_qdf (d_bins d)) + d_qb d + d_qpref d) * per_meter m.
Proof. intros. eapply flows_out; eassumption. Qed.
Print Assumptions C68_flows.
(** Over any number of days from the start. *)
Theorem C68_run : forall can_depth m leaves p ds v' os, unit_ok can_depth m ->
  days_ok can_depth m ds (vols_start can_depth m leaves p) -> unit_days can_depth m ds (vols_start can_depth m leaves p) = Some (v', os) ->
  Qabs (held v' - v_mru v') <= inject_Z (Z.of_nat (length ds)) * (1 # 1000) /\
  (Forall (clear_fall can_depth m) ds -> held v' == v_mru v').
Proof.
  intros can_depth m leaves p ds v' os U K E. destruct (days_held _ _ U _ _ _ _ K E) as (lost & A & [B1 B2] & L).
  assert (S0 : held (vols_start can_depth m leaves p) - v_mru (vols_start can_depth m leaves p) == 0) by (unfold held, vols_start; cbn [v_can v_snow v_oh v_uz v_qdf v_sat v_mru]; ring).
  rewrite S0 in A. assert (A' : held v' - v_mru v' == lost) by lra. split; [rewrite A'; apply Qabs_Qle_condition; lra|]. intros F. specialize (L F). lra.
Qed.
Print Assumptions C68_run.
(** No drop is lost or counted twice between the sources: precipitation and irrigation go to canopy, snow, O-horizon, unsaturated
    and saturated zone; so do throughfall (leaf fall aside) and snowmelt. *)
Theorem C68_sources : forall can_depth m d v v' o, unit_ok can_depth m -> consistent m d v -> clear_fall can_depth m d -> unit_volumes can_depth m d v = Some (v', o) ->
  0 <= d_ppt d -> 0 <= d_irrsat d -> 0 <= d_irrhyd d -> 0 <= d_irrext d ->
  (forall s, In s [Ppt; Irrsat; Irrhyd; Irrext] -> r_src (o_can o) s + r_src (o_snow o) s + surface_split o s == deposited d s * per_inch m) /\
  r_src (o_snow o) Thru + surface_split o Thru == throughfall m d + leaf_fall can_depth m d v /\
  surface_split o Melt == d_melt d * per_inch m.
Proof. intros can_depth m d v v' o U C K E P1 P2 P3 P4. eapply all_sources; eassumption. Qed.
Print Assumptions C68_sources.
Example C68_example : unit_ok (1 # 100) rv_m /\ consistent rv_m rv_day rv_v /\ clear_fall (1 # 100) rv_m rv_day /\
  match unit_volumes (1 # 100) rv_m rv_day rv_v with Some (v', o) => 0 < surface_split o Ppt /\ 0 < r_src (o_can o) Irrext /\ ~ held v' == held rv_v | None => False end.
Proof. destruct rv_ok as (A & B & C). split; [exact A|]. split; [exact B|]. split; [exact C|]. vm_compute. repeat split; discriminate. Qed.
Definition tn_m : mru := mkMru 1 1 1 [0; 1] [false; true].
Definition tn_day (qv : Q) : day := mkDay (1 # 100000000) 0 0 0 (1 # 100000000) (1 # 100000000) true 0 (1 # 100000000) 0 0 0 0 0 0 qv 0 0 0 0 0
  [mkBinflux 0 0 0 0 ((1 # 100000000) * (127 # 5000) - qv) 0; mkBinflux 0 0 0 0 ((1 # 100000000) * (127 # 5000) - qv) 0].
Definition tn_soil : soil := mkSoil 0 0 0 0 0 1 0 10 (2 # 5) 1 0 0 [1; 1].
Definition dr_m : mru := mkMru 1 (1 # 2) (1 # 2) [0; 1] [false; true].
Definition dr_in : Q := ((1 # 2) + (1 # 100000000)) * (127 # 5000).
Definition dr_day : day := mkDay 1 0 0 0 1 ((1 # 2) + (1 # 100000000)) true 0 ((1 # 2) + (1 # 100000000)) 0 0 0 0 0 0 0 0 0 0 0 0 [mkBinflux 0 0 0 0 dr_in 0; mkBinflux 0 0 0 0 dr_in 0].
(** Throughfall of less than a litre is dropped from the canopy's outflow (webmod_res.F 2627-2628), so the reservoirs no longer add
    up to the total of the unit. *)
Theorem C68_dropped_refuted : exists can_depth m d v v' o, unit_ok can_depth m /\ consistent m d v /\ held v == v_mru v /\
  unit_volumes can_depth m d v = Some (v', o) /\ ~ held v' == v_mru v'.
Proof.
  destruct (unit_volumes 0 dr_m dr_day (vols_start 0 dr_m true tn_soil)) as [[v' o]|] eqn:E; [|vm_compute in E; discriminate].
  exists 0, dr_m, dr_day, (vols_start 0 dr_m true tn_soil), v', o. split; [vm_compute; repeat split; discriminate|]. split; [|split; [reflexivity|split; [exact E|]]].
  - constructor; try (vm_compute; repeat split; try reflexivity; discriminate). vm_compute. repeat constructor; discriminate.
  - vm_compute in E. injection E as <- <-. vm_compute. discriminate.
Qed.
Print Assumptions C68_dropped_refuted.
(** When such throughfall is all that reaches the ground and some of it bypasses the soil, the share of the bypass is a division by
    zero (webmod_res.F 2894-2898; the comment there takes v_surfdep2 to be positive). *)
Theorem C68_division_refuted : exists can_depth m d v, unit_ok can_depth m /\ consistent m d v /\ unit_volumes can_depth m d v = None.
Proof.
  exists 0, tn_m, (tn_day (1 # 100000000000)), (vols_start 0 tn_m true tn_soil). split; [vm_compute; repeat split; discriminate|]. split; [|vm_compute; reflexivity].
  constructor; try (vm_compute; repeat split; try reflexivity; discriminate). vm_compute. repeat constructor; discriminate.
Qed.
Print Assumptions C68_division_refuted.

(** ** C69: what the volumes are after any number of days *)
(** The composite of the bins is their sum, the bins along the stream and the others make up all; the O-horizon holds its water and, in
    winter, that of the leaves; direct-flow and drain reservoirs keep theirs; the hillslope keeps nothing. *)
Theorem C69_run : forall can_depth m leaves p ds v' os, length (rip m) = length (areas m) -> length (so_depths p) = length (areas m) -> Forall (shaped m) ds ->
  unit_days can_depth m ds (vols_start can_depth m leaves p) = Some (v', os) ->
  v_on v' = last (map d_leaves ds) leaves /\
  v_gen v' == qsum (v_uz v') /\ v_rip v' + v_up v' == v_gen v' /\ v_rip v' == only (rip m) true (v_uz v') /\
  v_oh v' == so_oh_depth p * per_meter m + (if v_on v' then 0 else can_depth * (cov_sum m - cov_win m) * per_meter m) /\
  v_qdf v' == so_wp p * so_root p * so_qdffrac p * per_meter m /\ v_pref v' == so_por p * (so_zmax p - so_zmin p) * per_meter m /\ v_hill v' == 0.
Proof.
  intros can_depth m leaves p ds v' os LR LP F E. assert (LV : length (v_uz (vols_start can_depth m leaves p)) = length (areas m)) by (cbn [vols_start v_uz]; rewrite map_length, combine_length, acfs_length; lia).
  destruct (keep_days _ _ LR _ _ _ _ F LV E) as (A1 & A2 & A3 & A4 & A5 & A6 & A7 & A8 & A9). cbn [vols_start v_on v_gen v_uz v_rip v_up v_oh v_qdf v_pref v_hill] in *.
  assert (B3 : v_gen v' == qsum (v_uz v')) by lra. assert (B4 : v_rip v' == only (rip m) true (v_uz v')) by lra. assert (B5 : v_up v' == only (rip m) false (v_uz v')) by lra.
  split; [exact A2|]. split; [exact B3|]. split; [rewrite B4, B5, B3; apply only_sum; lia|]. split; [exact B4|]. unfold per_meter in *. unfold can_ohoriz, a_million in *.
  split; [|split; [rewrite A7; ring|split; [rewrite A8; ring|exact A9]]]. destruct (v_on v'), leaves; lra.
Qed.
Print Assumptions C69_run.
Example C69_example : length (rip rv_m) = length (areas rv_m) /\ length (so_depths rv_soil) = length (areas rv_m) /\ Forall (shaped rv_m) [rv_day] /\
  match unit_days (1 # 100) rv_m [rv_day] rv_v with Some (v', _) => v_on v' = true /\ v_on rv_v = false /\ ~ v_gen v' == v_gen rv_v | None => False end.
Proof. split; [reflexivity|]. split; [reflexivity|]. split; [repeat constructor|]. vm_compute. repeat split; discriminate. Qed.
(** At the start the reservoirs hold the depths of water that the parameters give; the leaves that are not on the trees lie on the ground. *)
Theorem C69_start : forall can_depth m leaves p, let v := vols_start can_depth m leaves p in
  v_can v == leaf_water can_depth m leaves /\ v_snow v == so_wei p * per_inch m /\
  v_can v + v_oh v == leaf_water can_depth m true + so_oh_depth p * per_meter m /\
  v_qdf v == so_wp p * so_root p * so_qdffrac p * per_meter m /\
  v_sat v == (so_rock p * so_por p - so_sbar0 p - (so_fc p - so_0 p) * so_root p) * per_meter m /\
  (forall i dep a, nth_error (so_depths p) i = Some dep -> nth_error (acfs (areas m)) i = Some a -> exists x, nth_error (v_uz v) i = Some x /\ x == dep * a * per_meter m) /\
  held v == v_mru v.
Proof.
  intros can_depth m leaves p. unfold held, vols_start, leaf_water, per_inch, per_meter, can_ohoriz, a_million, inch2m. cbn [v_can v_snow v_oh v_qdf v_sat v_uz v_mru].
  split; [destruct leaves; ring|]. split; [ring|]. split; [destruct leaves; ring|]. split; [ring|]. split; [ring|]. split; [|ring].
  intros i dep a D A. rewrite nth_error_map, (combine_nth _ _ _ _ _ D A). eexists. split; [reflexivity|]. cbn [fst snd]. ring.
Qed.
(** The canopy holds the water of its leaves and what it intercepted and did not evaporate. *)
Theorem C69_canopy : forall can_depth m d v v' o, unit_ok can_depth m -> consistent m d v -> clear_fall can_depth m d -> unit_volumes can_depth m d v = Some (v', o) ->
  v_can v' - leaf_water can_depth m (v_on v') == v_can v - leaf_water can_depth m (v_on v) + (d_dep d - d_net d - d_evap d) * per_inch m.
Proof. exact canopy_step. Qed.
Print Assumptions C69_start.
Print Assumptions C69_canopy.
(** The snowpack is the water equivalent of the snow module, and the reservoir's own books agree with it. *)
Theorem C69_snow : forall can_depth m d v v' o, unit_ok can_depth m -> consistent m d v -> clear_fall can_depth m d -> unit_volumes can_depth m d v = Some (v', o) ->
  v_snow v' == d_pack d * per_inch m /\ v_snow v' == v_snow v + r_in (o_snow o) - r_out (o_snow o) - r_et (o_snow o).
Proof. exact snow_books. Qed.
Print Assumptions C69_snow.

(** ** C70: the basin *)
(** Units and stream together hold what the basin is said to hold, plus all that was diverted from streams or leaked from them. *)
Theorem C70_balance : forall can_depth ms drs days b b' os, basin_fits ms drs b -> in_basin b == bs_vol b -> Forall (fun x => length (fst (fst x)) = length ms) days ->
  basin_days can_depth ms drs days b = Some (b', os) ->
  in_basin b' == bs_vol b' + qsum (map (fun x => qsum (snd (fst x)) + qsum (snd x)) days).
Proof. intros can_depth ms drs days b b' os F Z L E. destruct (basin_run _ _ _ _ _ _ _ F L E) as [_ H]. lra. Qed.
Print Assumptions C70_balance.
Theorem C70_closed : forall can_depth l stream drs days b' os, basin_fits (map (fun x => fst (fst x)) l) drs (basin_start can_depth l stream) -> Forall (fun x => length (fst (fst x)) = length l /\ qsum (snd (fst x)) == 0 /\ qsum (snd x) == 0) days ->
  basin_days can_depth (map (fun x => fst (fst x)) l) drs days (basin_start can_depth l stream) = Some (b', os) -> bs_vol b' == in_basin b'.
Proof.
  intros can_depth l stream drs days b' os F L E. assert (L1 : Forall (fun x => length (fst (fst x)) = length (map (fun x => fst (fst x)) l)) days) by (eapply Forall_impl; [|exact L]; intros x (A & _); rewrite map_length; exact A).
  destruct (basin_run _ _ _ _ _ _ _ F L1 E) as [_ H]. assert (Z : qsum (map (fun x => qsum (snd (fst x)) + qsum (snd x)) days) == 0) by (clear - L; induction L as [|x days (_ & A & B) L IH]; cbn [map qsum]; [reflexivity|rewrite A, B, IH; ring]).
  rewrite Z in H. unfold in_basin at 2 in H. cbn [basin_start bs_units bs_stream bs_vol] in H. lra.
Qed.
Print Assumptions C70_closed.
(** Water diverted from a stream or lost from it is taken from the volume of the basin but not from the segments: the statements that
    did that are commented out (webmod_res.F 3439-3451).  The same water is counted as diverted and flows on to the outlet. *)
Theorem C70_diverted_refuted : forall can_depth ms drs days b b' os, basin_fits ms drs b -> in_basin b == bs_vol b -> Forall (fun x => length (fst (fst x)) = length ms) days ->
  basin_days can_depth ms drs days b = Some (b', os) ->
  0 < qsum (map (fun x => qsum (snd (fst x)) + qsum (snd x)) days) -> bs_vol b' < in_basin b'.
Proof. intros can_depth ms drs days b b' os F Z L E P. destruct (basin_run _ _ _ _ _ _ _ F L E) as [_ H]. lra. Qed.
Print Assumptions C70_diverted_refuted.
Definition rv_dr : drainage := mkDrain [3 # 4; 1 # 4] 1.
Definition rv_b : basin_state := basin_start (1 # 100) [(rv_m, false, rv_soil)] [100; 50].
Example C70_example : basin_fits [rv_m] [rv_dr] rv_b /\ in_basin rv_b == bs_vol rv_b /\
  match basin_days (1 # 100) [rv_m] [rv_dr] [([rv_day], [10; 0], [0; 5])] rv_b with Some (b', [o]) => 0 < bo_discharge o /\ in_basin b' == bs_vol b' + 15 | _ => False end.
Proof. split; [repeat split; repeat constructor; discriminate|]. split; [reflexivity|]. vm_compute. repeat split. Qed.
(** Initial volumes of the segments: the depths of [q] are over the whole basin (route_clark.F 651 adds Q0DT * chan_area_frac), but each
    is multiplied with the area of its channel (webmod_res.F 1619-1624).  With two channels water is missing from the start. *)
Theorem C70_start_refuted : forall c1 c2 q1 q2, 0 < c1 -> 0 < c2 -> 0 <= q1 -> 0 <= q2 -> 0 < q1 + q2 ->
  qsum (stream_start (c1 + c2) [c1; c2] [[q1; q2]] [0]) < (q1 + q2) * (c1 + c2) * 1000000.
Proof.
  intros c1 c2 q1 q2 C1 C2 Q1 Q2 P. unfold stream_start, a_million. cbn [combine map qsum fst snd]. assert (0 <= q1 * c2) by (apply Qmult_le_0_compat; lra). assert (0 <= q2 * c1) by (apply Qmult_le_0_compat; lra).
  assert (S : 0 < q1 * c2 + q2 * c1).
  { destruct (Qlt_le_dec 0 q1) as [X|X]; [assert (0 < q1 * c2) by (apply Qmult_lt_0_compat; assumption); lra|assert (0 < q2 * c1) by (apply Qmult_lt_0_compat; lra); lra]. }
  lra.
Qed.
Print Assumptions C70_start_refuted.
Theorem C70_start_one : forall area qs losses, length losses = length qs ->
  qsum (stream_start area [area] (map (fun q => [q]) qs) losses) == (qsum qs + qsum losses) * area * 1000000.
Proof.
  intros area qs. unfold stream_start, a_million. induction qs as [|q qs IH]; intros [|x losses] L; try discriminate; [cbn; ring|]. injection L as L. cbn [map combine qsum fst snd] in *. rewrite (IH losses L). ring.
Qed.
Print Assumptions C70_start_one.

(** ** C71: together with the hillslope model *)
(** Whatever the weather, the unit's reservoirs add up to its total, and the reservoir of each topographic bin holds the depth of water
    that the hillslope model reports (which drops up to 1e-7 m in a step). *)
Theorem C71_joint : forall expf logf pow10 can_depth m u dt p sr0 sbar0 leaves ds s' v' os,
  unit_ok can_depth m -> areas m = ac u -> length (rip m) = length (areas m) -> areas_ok (ac u) -> length (st u) = length (ac u) -> fractions_ok u -> 0 < dt -> (forall x, 0 <= pow10 x) -> Forall (fun k => 0 <= snd k) (ksat u) ->
  0 <= sr0 <= srmax u -> so_depths p = map uz_depth (bins (start u sr0 sbar0)) ->
  joint_ok expf logf pow10 can_depth m u dt 1 ds (start u sr0 sbar0) (vols_start can_depth m leaves p) ->
  joint_days expf logf pow10 can_depth m u dt 1 ds (start u sr0 sbar0) (vols_start can_depth m leaves p) = Some (s', v', os) ->
  held v' == v_mru v' /\ tracks m (inject_Z (Z.of_nat (length ds))) s' v'.
Proof.
  intros expf logf pow10 can_depth m u dt p sr0 sbar0 leaves ds s' v' os U EA LR AR LS FR D PW KS SR SD K E. destruct (start_stored u sr0 sbar0 AR LS) as [FI _].
  assert (LB : length (bins (start u sr0 sbar0)) = length (ac u)) by exact (proj2 FI).
  assert (LV : length (v_uz (vols_start can_depth m leaves p)) = length (areas m)) by (cbn [vols_start v_uz]; rewrite map_length, combine_length, acfs_length, SD, map_length, LB, EA; lia).
  assert (T0 : tracks m 0 (start u sr0 sbar0) (vols_start can_depth m leaves p)).
  { intros i a b x A N B X. cbn [vols_start v_uz] in X. rewrite nth_error_map in X. rewrite (combine_nth (so_depths p) (acfs (areas m)) i (uz_depth b) a) in X; [|rewrite SD, nth_error_map, B; reflexivity|exact A].
    cbn [option_map fst snd] in X. injection X as <-. unfold per_meter, a_million. split; lra. }
  destruct (joint_run _ _ _ _ _ _ _ U EA AR FR D PW KS _ _ _ _ _ _ _ _ FI ltac:(cbn [start infs]; apply map_length) ltac:(unfold bounded; cbn [start bins]; apply Forall_map; apply Forall_forall; intros x _; cbn [start_bin srz suz]; split; [exact SR|lra]) (start_depth u sr0 sbar0) LR LV T0 K E) as [R1 R2].
  split.
  - assert (S0 : held (vols_start can_depth m leaves p) - v_mru (vols_start can_depth m leaves p) == 0) by (unfold held, vols_start; cbn [v_can v_snow v_oh v_uz v_qdf v_sat v_mru]; ring). lra.
  - intros i a b x A N B X. destruct (R1 i a b x A N B X) as [Q1 Q2]. split; [exact Q1|]. setoid_replace (inject_Z (Z.of_nat (length ds))) with (0 + inject_Z (Z.of_nat (length ds))) by ring. exact Q2.
Qed.
Print Assumptions C71_joint.
(** The saturated reservoir gains what the hillslope's deficit loses, but for the water that moves between the zones when the water table
    rises or falls past the bins. *)
Theorem C71_saturated : forall expf logf pow10 can_depth m u dt p sr0 sbar0 leaves ds s' v' os,
  unit_ok can_depth m -> areas m = ac u -> length (rip m) = length (areas m) -> areas_ok (ac u) -> length (st u) = length (ac u) -> fractions_ok u -> 0 < dt -> (forall x, 0 <= pow10 x) -> Forall (fun k => 0 <= snd k) (ksat u) ->
  0 <= sr0 <= srmax u -> so_depths p = map uz_depth (bins (start u sr0 sbar0)) ->
  joint_ok expf logf pow10 can_depth m u dt 1 ds (start u sr0 sbar0) (vols_start can_depth m leaves p) ->
  joint_days expf logf pow10 can_depth m u dt 1 ds (start u sr0 sbar0) (vols_start can_depth m leaves p) = Some (s', v', os) ->
  v_sat v' == v_sat (vols_start can_depth m leaves p) + (sbar0 - sbar s' + qsum (map (fun x => weigh (acfs (ac u)) (map l_uz2sat (f_local (fst x)))) os)) * per_meter m.
Proof.
  intros expf logf pow10 can_depth m u dt p sr0 sbar0 leaves ds s' v' os U EA LR AR LS FR D PW KS SR SD K E. destruct (start_stored u sr0 sbar0 AR LS) as [FI _].
  assert (LB : length (bins (start u sr0 sbar0)) = length (ac u)) by exact (proj2 FI).
  assert (LV : length (v_uz (vols_start can_depth m leaves p)) = length (areas m)) by (cbn [vols_start v_uz]; rewrite map_length, combine_length, acfs_length, SD, map_length, LB, EA; lia).
  destruct (joint_sat _ _ _ _ _ _ _ U EA AR FR D PW KS _ _ _ _ _ _ _ FI ltac:(cbn [start infs]; apply map_length) ltac:(unfold bounded; cbn [start bins]; apply Forall_map; apply Forall_forall; intros x _; cbn [start_bin srz suz]; split; [exact SR|lra]) LR LV K E) as [R1 R2].
  cbn [start sbar] in R1. lra.
Qed.
Print Assumptions C71_saturated.
(** Each day the unit sends to the stream the depth of water that the hillslope model says leaves it. *)
Theorem C71_outflow : forall expf logf pow10 can_depth m u dt p sr0 sbar0 leaves ds s' v' os,
  unit_ok can_depth m -> areas m = ac u -> length (rip m) = length (areas m) -> areas_ok (ac u) -> length (st u) = length (ac u) -> fractions_ok u -> 0 < dt -> (forall x, 0 <= pow10 x) -> Forall (fun k => 0 <= snd k) (ksat u) ->
  0 <= sr0 <= srmax u -> so_depths p = map uz_depth (bins (start u sr0 sbar0)) ->
  joint_ok expf logf pow10 can_depth m u dt 1 ds (start u sr0 sbar0) (vols_start can_depth m leaves p) ->
  joint_days expf logf pow10 can_depth m u dt 1 ds (start u sr0 sbar0) (vols_start can_depth m leaves p) = Some (s', v', os) ->
  Forall (fun x => o_hill (snd x) == f_qout (fst x) * per_meter m) os.
Proof.
  intros expf logf pow10 can_depth m u dt p sr0 sbar0 leaves ds s' v' os U EA LR AR LS FR D PW KS SR SD K E. destruct (start_stored u sr0 sbar0 AR LS) as [FI _].
  assert (LB : length (bins (start u sr0 sbar0)) = length (ac u)) by exact (proj2 FI).
  assert (LV : length (v_uz (vols_start can_depth m leaves p)) = length (areas m)) by (cbn [vols_start v_uz]; rewrite map_length, combine_length, acfs_length, SD, map_length, LB, EA; lia).
  destruct (joint_sat _ _ _ _ _ _ _ U EA AR FR D PW KS _ _ _ _ _ _ _ FI ltac:(cbn [start infs]; apply map_length) ltac:(unfold bounded; cbn [start bins]; apply Forall_map; apply Forall_forall; intros x _; cbn [start_bin srz suz]; split; [exact SR|lra]) LR LV K E) as [R1 R2].
  exact R2.
Qed.
Print Assumptions C71_outflow.
Definition rv_u : Hill_Model.unit := ex_unit 0 (1 # 10).
Definition rv_m2 : mru := mkMru 1 (1 # 2) 0 (ac rv_u) [false; false; true].
Definition rv_soil2 : soil := mkSoil 0 (1 # 50) (1 # 10) (1 # 4) (1 # 5) 1 (1 # 10) 10 (2 # 5) 1 (-1) (-2) (map uz_depth (bins (start rv_u (1 # 100) (1 # 10)))).
Example C71_example : unit_ok (1 # 100) rv_m2 /\ joint_ok one one one (1 # 100) rv_m2 rv_u 1 1 [(rv_day, 1 # 10)] (start rv_u (1 # 100) (1 # 10)) (vols_start (1 # 100) rv_m2 false rv_soil2) /\
  match joint_days one one one (1 # 100) rv_m2 rv_u 1 1 [(rv_day, 1 # 10)] (start rv_u (1 # 100) (1 # 10)) (vols_start (1 # 100) rv_m2 false rv_soil2) with
  | Some (_, v', [(f, o)]) => 0 < f_quz f /\ 0 < r_src (o_sat o) Uz /\ ~ v_sat v' == v_sat (vols_start (1 # 100) rv_m2 false rv_soil2) | _ => False end.
Proof.
  split; [vm_compute; repeat split; discriminate|]. split; [|vm_compute; repeat split; discriminate].
  cbn [joint_ok]. split; [constructor; vm_compute; repeat split; try reflexivity; discriminate|]. split; [split; right; vm_compute; discriminate|].
  intros s' f E. split; [|intros; exact I]. refine (C61_no_excess _ _ _ _ _ _ _ _ _ _ _ _ E); [reflexivity|vm_compute; discriminate].
Qed.
