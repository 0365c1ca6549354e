(** What the reservoirs should do (C68-C71). *)
From Coq Require Import QArith Qabs ZArith List Bool.
From Verif Require Import Qx Hill_Model Hill_Spec Resv_Model.
Import ListNotations.
Local Open Scope Q_scope.

(** An inch of water on a unit, in m3; a meter of water on a unit. *)
Definition per_inch (m : mru) : Q := area m * 1000000 * (127 # 5000).
Definition per_meter (m : mru) : Q := area m * 1000000.
Definition cover (m : mru) (d : day) : Q := if d_leaves d then cov_sum m else cov_win m.
(** Water in the reservoirs of a unit.  That of the drains is part of the saturated zone. *)
Definition held (v : vols) : Q := v_can v + v_snow v + v_oh v + qsum (v_uz v) + v_qdf v + v_sat v.

Definition unit_ok (can_depth : Q) (m : mru) : Prop := 0 <= area m /\ 0 <= cov_win m /\ cov_win m <= cov_sum m /\ cov_sum m <= 1 /\ 0 <= can_depth.
(** Through the leaves. *)
Definition throughfall (m : mru) (d : day) : Q := (d_net d - d_dep d * (1 - cover m d)) * per_inch m.
Definition weigh (acs : list Q) (xs : list Q) : Q := qsum (map (fun p => fst p * snd p) (combine acs xs)).
(** The fluxes of a day fit together: deposition is the sum of its parts; what passes the canopy comes out below it; the snowpack
    and the soil share it; the pack and the hillslope keep their own books. *)
Record consistent (m : mru) (d : day) (v : vols) : Prop := {
  c_dep : d_dep d == d_ppt d + d_irrsat d + d_irrhyd d + d_irrext d /\ 0 <= d_dep d;
  c_net : d_dep d * (1 - cover m d) <= d_net d;
  c_soil : 0 <= d_psoil d <= d_net d;
  c_melt : 0 <= d_melt d;
  c_pack : d_pack d * per_inch m == v_snow v + (d_net d - d_psoil d - d_snowevap d - d_melt d) * per_inch m;
  c_bare : v_snow v == 0 -> d_net d == 0 -> d_melt d == 0 /\ d_snowevap d == 0;
  c_lengths : length (d_bins d) = length (areas m) /\ length (v_uz v) = length (areas m);
  c_sae : 0 <= d_sae d /\ weigh (acfs (areas m)) (map b_ea (d_bins d)) == d_sae d;
  c_run : 0 <= d_qof d <= (d_melt d + d_psoil d) * (127 # 5000) /\ 0 <= d_qvpref d;
  c_infil : weigh (acfs (areas m)) (map b_infil (d_bins d)) == (d_melt d + d_psoil d) * (127 # 5000) - d_qof d - d_qvpref d;
  c_each : Forall (fun p => 0 <= fst p * snd p) (combine (acfs (areas m)) (map b_infil (d_bins d)))
}.
(** Throughfall that is not lost by rounding: none, or a litre at least. *)
Definition clear_fall (can_depth : Q) (m : mru) (d : day) : Prop :=
  (throughfall m d == 0 \/ 1 # 1000 <= throughfall m d) /\ (cov_sum m == cov_win m \/ 1 # 1000 <= can_depth * (cov_sum m - cov_win m) * per_meter m).
(** Where water on the ground can come from. *)
Definition surface_source (s : source) : Prop := In s [Ppt; Irrsat; Irrhyd; Irrext; Thru; Melt].
(** What the O-horizon, the unsaturated and the saturated zone get from a source. *)
Definition surface_split (o : unit_out) (s : source) : Q := r_src (o_oh o) s + qsum (map (fun u => r_src (u_res u) s) (o_uz o)) + r_src (o_sat o) s.
(** A day with its leaf fall. *)
Definition leaf_fall (can_depth : Q) (m : mru) (d : day) (v : vols) : Q := if negb (d_leaves d) && v_on v then can_depth * (cov_sum m - cov_win m) * per_meter m else 0.
Definition deposited (d : day) (s : source) : Q := match s with Ppt => d_ppt d | Irrsat => d_irrsat d | Irrhyd => d_irrhyd d | Irrext => d_irrext d | _ => 0 end.
(** Each day of a run is consistent. *)
Fixpoint days_ok (can_depth : Q) (m : mru) (ds : list day) (v : vols) : Prop :=
  match ds with
  | [] => True
  | d :: ds => consistent m d v /\ forall v' o, unit_volumes can_depth m d v = Some (v', o) -> days_ok can_depth m ds v'
  end.
(** The water a canopy holds besides what it intercepts. *)
Definition leaf_water (can_depth : Q) (m : mru) (leaves : bool) : Q := can_depth * (if leaves then cov_sum m else cov_win m) * per_meter m.
(** The segments that a unit drains to share all of its channel. *)
Definition drains (n : nat) (dr : drainage) : Prop := length (dr_fill dr) = n /\ ~ dr_frac dr == 0 /\ qsum (dr_fill dr) == dr_frac dr.
Definition in_basin (b : basin_state) : Q := qsum (map v_mru (bs_units b)) + qsum (bs_stream b).
Definition basin_fits (ms : list mru) (drs : list drainage) (b : basin_state) : Prop := length (bs_units b) = length ms /\ length drs = length ms /\ Forall (drains (length (bs_stream b))) drs.
Definition shaped (m : mru) (d : day) : Prop := length (d_bins d) = length (areas m).
(** ** With the hillslope model *)
(** The part of [consistent] that concerns canopy and snow. *)
Record above_ground (m : mru) (d : day) (v : vols) : Prop := {
  a_dep : d_dep d == d_ppt d + d_irrsat d + d_irrhyd d + d_irrext d /\ 0 <= d_dep d;
  a_net : d_dep d * (1 - cover m d) <= d_net d;
  a_soil : 0 <= d_psoil d <= d_net d;
  a_melt : 0 <= d_melt d;
  a_pack : d_pack d * per_inch m == v_snow v + (d_net d - d_psoil d - d_snowevap d - d_melt d) * per_inch m;
  a_bare : v_snow v == 0 -> d_net d == 0 -> d_melt d == 0 /\ d_snowevap d == 0
}.
(** Every day of a joint run; no more water runs off than reaches the ground (C61_no_excess). *)
Fixpoint joint_ok (expf logf pow10 : Q -> Q) (can_depth : Q) (m : mru) (u : Hill_Model.unit) (dt : Q) (nstep : Z) (ds : list (day * Q)) (s : store) (v : vols) : Prop :=
  match ds with
  | [] => True
  | (d, pet) :: ds =>
      above_ground m d v /\ clear_fall can_depth m d /\
      forall s' f, unit_step expf logf pow10 u dt nstep (weather_of d pet) s = Some (s', f) ->
        f_rex f <= f_surf f /\
        forall v' o, unit_volumes can_depth m (with_flows d f) v = Some (v', o) -> joint_ok expf logf pow10 can_depth m u dt (nstep + 1) ds s' v'
  end.
(** The reservoir of each bin holds the depth that the hillslope model reports, but for what that drops as too small. *)
Definition tracks (m : mru) (n : Q) (s : store) (v : vols) : Prop :=
  forall i a b x, nth_error (acfs (areas m)) i = Some a -> ~ a == 0 -> nth_error (bins s) i = Some b -> nth_error (v_uz v) i = Some x ->
  uz_depth b * a * per_meter m <= x /\ x <= (uz_depth b + n * tiny) * a * per_meter m.
