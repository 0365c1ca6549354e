(** The volumes of the mixing reservoirs: webmod_res.F, webrinit 1405-1640 (volumes) and webrrun 2330-3465.  REAL and DOUBLE
    PRECISION are exact rationals.  The fluxes that the run function gets from the other modules are arguments.  Accumulators
    that a loop increases from zero are written as sums.  Reports to files and the variables that only serve them are not
    modelled, nor are impervious areas (commented out in the code). *)
From Coq Require Import QArith Qabs ZArith List Bool.
From Verif Require Import Qx Hill_Model.
Import ListNotations.
Local Open Scope Q_scope.

(** ** Data *)
Definition a_million : Q := 1000000.
(** A model response unit: mru_area, covden_sum, covden_win, ac, riparian; c_can_depth is a parameter of the basin. *)
Record mru := mkMru { area : Q; cov_sum : Q; cov_win : Q; areas : list Q; rip : list bool }.
(** Fluxes of a topographic bin in a step, in m: sae_local, srzwet, quz_local, qdf_local, uz_infil, uz2sat. *)
Record binflux := mkBinflux { b_ea : Q; b_wet : Q; b_quz : Q; b_qdf : Q; b_infil : Q; b_uz2sat : Q }.
(** Fluxes of a unit in a step: inches down to d_pack, then m. *)
Record day := mkDay {
  d_ppt : Q; d_irrsat : Q; d_irrhyd : Q; d_irrext : Q;        (* mru_ppt, irrig_..._mru (0 without irrigation, 2543-2554) *)
  d_dep : Q; d_net : Q; d_leaves : bool; d_evap : Q;          (* mru_dep, net_dep, transp_on, intcp_evap *)
  d_psoil : Q; d_melt : Q; d_snowevap : Q; d_pack : Q;        (* psoilmru, snowmelt, snow_evap, pkwater_equiv *)
  d_sae : Q; d_qof : Q; d_rex : Q; d_qvpref : Q; d_qb : Q; d_qpref : Q; d_loss : Q; d_gw1 : Q; d_gw2 : Q;
  d_bins : list binflux }.
(** The sources of a reservoir, the indices of vmix_xxx: 5, 8 to 13, 15, 17 to 21. *)
Inductive source := Ppt | Thru | Melt | Ohoriz | Uz | Qdf | Sat | Satpref | Irrsat | Irrhyd | Irrext | Gw1 | Gw2.
(** A reservoir in a step: indices 1 (start), 2 (in), 3 (out), 4 (end), 6 (evaporation), and the sources. *)
Record res := mkRes { r_start : Q; r_in : Q; r_out : Q; r_end : Q; r_et : Q; r_src : source -> Q }.
Definition none (_ : source) : Q := 0.
(** The volumes of a unit between steps. *)
Record vols := mkVols { v_on : bool (* web_transp_on *); v_can : Q; v_snow : Q; v_oh : Q; v_uz : list Q; v_gen : Q; v_rip : Q; v_up : Q;
                        v_qdf : Q; v_sat : Q; v_pref : Q; v_hill : Q; v_mru : Q }.

(** ** The start, 1425-1607 *)
Definition can_ohoriz (can_depth : Q) (m : mru) : Q := can_depth * (cov_sum m - cov_win m) * area m * a_million.        (* 1451-1453 *)
Definition only (l : list bool) (want : bool) (xs : list Q) : Q :=
  qsum (map (fun p => if Bool.eqb (fst p) want then snd p else 0) (combine l xs)).
Record soil := mkSoil { so_wei : Q; so_oh_depth : Q; so_wp : Q; so_fc : Q; so_0 : Q; so_root : Q; so_qdffrac : Q; so_rock : Q; so_por : Q;
                        so_sbar0 : Q; so_zmax : Q; so_zmin : Q; so_depths : list Q (* uz_depth *) }.
Definition vols_start (can_depth : Q) (m : mru) (leaves : bool) (p : soil) : vols :=
  let a := area m * a_million in
  let can := can_depth * (if leaves then cov_sum m else cov_win m) * a in
  let snow := so_wei p * a * inch2m in
  let oh := so_oh_depth p * a + (if leaves then 0 else can_ohoriz can_depth m) in
  let uz := map (fun x => fst x * snd x * a) (combine (so_depths p) (acfs (areas m))) in
  let qdf := so_wp p * so_root p * so_qdffrac p * a in
  let sr0 := (so_fc p - so_0 p) * so_root p in
  let sat := (so_rock p * so_por p - so_sbar0 p - sr0) * a in
  mkVols leaves can snow oh uz (qsum uz) (only (rip m) true uz) (only (rip m) false uz) qdf sat
         (so_por p * (so_zmax p - so_zmin p) * a) 0 (can + snow + oh + qsum uz + qdf + sat).

(** ** A step of a unit, 2455-3341 *)
Definition tiny_flow (x : Q) : Q := if qlt (Qabs x) (1 # 1000) then 0 else x.                                              (* 2627-2628 *)
(** Canopy, 2528-2678.  Result: the reservoir, v_thruf, what the O-horizon gets (leaves off), what it gives (leaves on). *)
Definition canopy (can_depth : Q) (m : mru) (d : day) (v : vols) : res * Q * Q * Q :=
  let k := area m * a_million * inch2m in
  let cov := if d_leaves d then cov_sum m else cov_win m in
  let off := negb (d_leaves d) && v_on v in
  let on := d_leaves d && negb (v_on v) in
  let rate := if off then 0 else if d_leaves d then 7 # 10 else 1 # 10 in
  let drop := if off then can_ohoriz can_depth m else 0 in
  let take := if on then can_ohoriz can_depth m else 0 in
  let out := (d_net d - d_dep d * (1 - cov)) * k + drop in
  let thruf := tiny_flow (out - drop) in
  let out := tiny_flow out in
  let transp := if qeq thruf 0 then d_sae d * rate * cov * (area m * a_million) else 0 in
  let et := d_evap d * k + transp in
  let src s := match s with
    | Ppt => d_ppt d * k * cov | Irrsat => d_irrsat d * k * cov | Irrhyd => d_irrhyd d * k * cov | Irrext => d_irrext d * k * cov
    | Ohoriz => take | Uz => transp | _ => 0 end in
  let inn := src Ppt + src Irrsat + src Irrhyd + src Irrext + src Ohoriz + src Uz in
  let out := if qlt out 0 then 0 else out in
  (mkRes (v_can v) inn out (v_can v + inn - out - et) et src, thruf, drop, take).
(** Share of the snowpack, 2720-2742. *)
Definition no_snow (d : day) (v : vols) : bool := qeq (v_snow v) 0 && qeq (d_net d) 0.
Definition snow_share (d : day) (v : vols) : Q := if no_snow d v then 0 else if qlt 0 (d_net d) then 1 - d_psoil d / d_net d else 0.
(** Snowpack, 2720-2795. *)
Definition snowpack (m : mru) (d : day) (v : vols) (thruf : Q) : res :=
  let k := area m * a_million * inch2m in
  let cov := if d_leaves d then cov_sum m else cov_win m in
  if no_snow d v then mkRes (v_snow v) 0 0 0 0 none else
  let f := snow_share d v in
  let src s := match s with
    | Ppt => d_ppt d * k * (1 - cov) * f | Irrsat => d_irrsat d * k * (1 - cov) * f | Irrhyd => d_irrhyd d * k * (1 - cov) * f
    | Irrext => d_irrext d * k * (1 - cov) * f | Thru => thruf * f | _ => 0 end in
  mkRes (v_snow v) (src Ppt + src Irrsat + src Irrhyd + src Irrext + src Thru) (d_melt d * k) (d_pack d * k) (d_snowevap d * k) src.
(** What reaches the ground, by source, 2799-2815. *)
Definition ground (m : mru) (d : day) (v : vols) (thruf : Q) (s : source) : Q :=
  let k := area m * a_million * inch2m in
  let cov := if d_leaves d then cov_sum m else cov_win m in
  let f := snow_share d v in
  match s with
  | Ppt => d_ppt d * k * (1 - cov) * (1 - f) | Irrext => d_irrext d * k * (1 - cov) * (1 - f) | Irrsat => d_irrsat d * k * (1 - cov) * (1 - f)
  | Irrhyd => d_irrhyd d * k * (1 - cov) * (1 - f) | Thru => thruf * (1 - f) | Melt => d_melt d * k | _ => 0 end.
Definition six (g : source -> Q) : Q := g Ppt + g Irrext + g Irrsat + g Irrhyd + g Thru + g Melt.
(** O-horizon, 2817-2858; [None]: division by zero. *)
Definition o_horizon (m : mru) (d : day) (v : vols) (g : source -> Q) (drop take : Q) : option res :=
  if qlt 0 (d_qof d) then
    if qeq (d_melt d + d_psoil d) 0 then None else
    let f := d_qof d / (d_melt d + d_psoil d) / inch2m in
    let src s := match s with Thru => drop + g Thru * f | Ppt => g Ppt * f | Irrext => g Irrext * f | Irrsat => g Irrsat * f | Irrhyd => g Irrhyd * f | Melt => g Melt * f | _ => 0 end in
    let inn := six src in
    let out := take + src Ppt + src Irrext + src Irrsat + src Irrhyd + src Melt + g Thru * f in
    Some (mkRes (v_oh v) inn out (v_oh v + inn - out) 0 src)
  else Some (mkRes (v_oh v) drop take (v_oh v + drop - take) 0 (fun s => match s with Thru => drop | _ => 0 end)).
(** A topographic bin, 2925-3146: the reservoir, and what goes to the canopy, to the saturated zone and to direct flow. *)
Record binres := mkBinres { u_res : res; u_2can : Q; u_2sat : Q; u_2qdf : Q }.
Definition uz_bin (m : mru) (d : day) (g : source -> Q) (rate cov transp : Q) (acf start : Q) (b : binflux) : binres :=
  let a := acf * area m * a_million in
  let can := if qlt 0 transp then rate * b_ea b * cov * a else 0 in
  let infil := b_infil b * a in
  let surf := six g in
  let wet := b_wet b * a + (if qlt (b_uz2sat b) 0 then - (b_uz2sat b * a) else 0) in
  let src s := match s with
    | Sat => wet
    | Ppt => if qlt 0 infil && qlt 0 surf then infil * g Ppt / surf else 0 | Irrsat => if qlt 0 infil && qlt 0 surf then infil * g Irrsat / surf else 0
    | Irrhyd => if qlt 0 infil && qlt 0 surf then infil * g Irrhyd / surf else 0 | Irrext => if qlt 0 infil && qlt 0 surf then infil * g Irrext / surf else 0
    | Thru => if qlt 0 infil && qlt 0 surf then infil * g Thru / surf else 0 | Melt => if qlt 0 infil && qlt 0 surf then infil * g Melt / surf else 0
    | _ => 0 end in
  let inn := six src + src Sat in
  let engulfed := if qlt 0 (b_uz2sat b) then b_uz2sat b * a else 0 in
  let rech := b_quz b * a in
  let out := can + rech + b_qdf b * a + engulfed in
  let et := b_ea b * a - can in
  mkBinres (mkRes start inn out (start + inn - out - et) et src) can (rech + engulfed) (b_qdf b * a).
Fixpoint uz_bins (m : mru) (d : day) (g : source -> Q) (rate cov transp : Q) (acs starts : list Q) (bs : list binflux) : list binres :=
  match acs, starts, bs with
  | a :: acs, s :: starts, b :: bs => uz_bin m d g rate cov transp a s b :: uz_bins m d g rate cov transp acs starts bs
  | _, _, _ => []
  end.
(** Composites, 3186-3192: all bins, those along the stream, the others. *)
Definition composite (start inn out et : Q) : Q := start + inn - out - et.
(** Bypass of the unsaturated zone, 2893-2904: dep_ratio * bypass_frac; [None]: division by zero. *)
Definition bypass (m : mru) (d : day) (g : source -> Q) : option Q :=
  let a := area m * a_million in
  if qlt 0 (d_qvpref d) then
    let surf := six g in
    let surf2 := surf - d_rex d * a in
    if qeq surf 0 || qeq surf2 0 then None else Some (surf2 / surf * (d_qvpref d * a / surf2))
  else Some 0.
(** Saturated zone, 3131-3140 and 3212-3283. *)
Definition saturated (m : mru) (d : day) (v : vols) (g : source -> Q) (f recharge to_uz : Q) : res :=
  let a := area m * a_million in
  let src s := match s with
    | Ppt => g Ppt * f | Irrsat => g Irrsat * f | Irrhyd => g Irrhyd * f | Irrext => g Irrext * f | Thru => g Thru * f | Melt => g Melt * f
    | Uz => recharge | Gw1 => d_gw1 d * a | Gw2 => d_gw2 d * a | _ => 0 end in
  let inn := six src + src Uz + src Gw1 + src Gw2 in
  let out := to_uz + d_qpref d * a + d_qb d * a + d_loss d * a + d_irrsat d * a * inch2m in
  mkRes (v_sat v) inn out (v_sat v + inn - out) 0 src.

Record unit_out := mkOut { o_can : res; o_snow : res; o_oh : res; o_uz : list binres; o_sat : res; o_hill : Q (* vmix_hill(3) *);
                           o_mru : res; o_thruf : Q; o_surf : Q }.
Definition unit_volumes (can_depth : Q) (m : mru) (d : day) (v : vols) : option (vols * unit_out) :=
  let a := area m * a_million in
  let k := a * inch2m in
  let cov := if d_leaves d then cov_sum m else cov_win m in
  let rate := if negb (d_leaves d) && v_on v then 0 else if d_leaves d then 7 # 10 else 1 # 10 in
  let '(can, thruf, drop, take) := canopy can_depth m d v in
  let snow := snowpack m d v thruf in
  let g := ground m d v thruf in
  match o_horizon m d v g drop take, bypass m d g with
  | Some oh, Some f =>
      let us := uz_bins m d g rate cov (r_src can Uz) (acfs (areas m)) (v_uz v) (d_bins d) in
      let ins := map (fun u => r_in (u_res u)) us in
      let outs := map (fun u => r_out (u_res u)) us in
      let ets := map (fun u => r_et (u_res u)) us in
      let qdf := qsum (map u_2qdf us) in
      let sat := saturated m d v g f (qsum (map u_2sat us)) (qsum (map (fun u => r_src (u_res u) Sat) us)) in
      let pref := d_qpref d * a in                                                                         (* 3286-3297 *)
      let hill := (r_out oh - take) + qdf + d_qb d * a + 0 + pref in                                       (* 3309-3327 *)
      let src s := match s with
        | Ppt => d_ppt d * k | Irrsat => d_irrsat d * k | Irrhyd => d_irrhyd d * k | Irrext => d_irrext d * k | Gw1 => r_src sat Gw1 | Gw2 => r_src sat Gw2 | _ => 0 end in
      let inn := src Ppt + src Irrsat + src Irrhyd + src Irrext + src Gw1 + src Gw2 in                      (* 2555-2572, 3233-3242 *)
      let out := d_loss d * a + d_irrsat d * k + hill in                                                   (* 3264, 3331 *)
      let et := r_et can + r_et snow + qsum ets in
      let tot := mkRes (v_mru v) inn out (v_mru v + inn - out - et) et src in
      Some (mkVols (d_leaves d) (r_end can) (r_end snow) (r_end oh) (map (fun u => r_end (u_res u)) us)
              (composite (v_gen v) (qsum ins) (qsum outs) (qsum ets))
              (composite (v_rip v) (only (rip m) true ins) (only (rip m) true outs) (only (rip m) true ets))
              (composite (v_up v) (only (rip m) false ins) (only (rip m) false outs) (only (rip m) false ets))
              (v_qdf v + qdf - qdf) (r_end sat) (v_pref v + pref - pref) (v_hill v + hill - hill) (r_end tot),
            mkOut can snow oh us sat hill tot thruf (six g))
  | _, _ => None
  end.

(** ** The basin, 3424-3465.  A unit drains to the segments of its channel: the column of ar_fill and the area of the channel as a
    fraction of the basin. *)
Record drainage := mkDrain { dr_fill : list Q; dr_frac : Q }.
Record basin_state := mkBasin { bs_units : list vols; bs_stream : list Q; bs_vol : Q }.
Fixpoint add_lists (a b : list Q) : list Q := match a, b with x :: a, y :: b => (x + y) :: add_lists a b | _, _ => a end.
Fixpoint units_step (can_depth : Q) (ms : list mru) (ds : list day) (vs : list vols) : option (list (vols * unit_out)) :=
  match ms, ds, vs with
  | m :: ms, d :: ds, v :: vs =>
      match unit_volumes can_depth m d v, units_step can_depth ms ds vs with Some x, Some l => Some (x :: l) | _, _ => None end
  | _, _, _ => Some []
  end.
(** vmix_hillexp, 3428-3430; the division is by zero only for a channel without area. *)
Definition exports (dr : drainage) (hill : Q) : list Q := map (fun x => hill * x / dr_frac dr) (dr_fill dr).
Fixpoint fill_stream (stream : list Q) (drs : list drainage) (hills : list Q) : list Q :=
  match drs, hills with dr :: drs, h :: hills => fill_stream (add_lists stream (exports dr h)) drs hills | _, _ => stream end.
(** Shift by one segment, 3458-3462. *)
Definition shift_stream (l : list Q) : list Q := match l with [] => [] | _ :: r => r ++ [0] end.
Record basin_out := mkBout { bo_in : Q; bo_out : Q; bo_et : Q; bo_units : list unit_out; bo_discharge : Q }.
(** [divert]: irrig_hyd_seg; [leak]: vmix_chan_loss, both in m3 per segment. *)
Definition basin_volumes (can_depth : Q) (ms : list mru) (drs : list drainage) (ds : list day) (divert leak : list Q) (b : basin_state) : option (basin_state * basin_out) :=
  match units_step can_depth ms ds (bs_units b) with
  | None => None
  | Some l =>
      let us := map snd l in
      let stream := fill_stream (bs_stream b) drs (map o_hill us) in
      let inn := qsum (map (fun u => r_in (o_mru u)) us) in
      let et := qsum (map (fun u => r_et (o_mru u)) us) in
      let discharge := hd 0 stream in
      let out := qsum (map (fun u => r_out (o_mru u) - o_hill u) us) + qsum leak + qsum divert + discharge in
      Some (mkBasin (map fst l) (shift_stream stream) (bs_vol b + inn - out - et), mkBout inn out et us discharge)
  end.
(** Streams at the start, 1619-1631: depths q in each channel times the area of that channel, and the largest loss. *)
Definition stream_start (basin_area : Q) (chan_area : list Q) (q : list (list Q)) (maxloss : list Q) : list Q :=
  map (fun p => qsum (map (fun x => fst x * snd x * a_million) (combine (fst p) chan_area)) + snd p * basin_area * a_million) (combine q maxloss).
Definition basin_start (can_depth : Q) (l : list (mru * bool * soil)) (stream : list Q) : basin_state :=
  let us := map (fun x => let '(m, leaves, p) := x in vols_start can_depth m leaves p) l in
  mkBasin us stream (qsum (map v_mru us) + qsum stream).
(** Runs. *)
Fixpoint unit_days (can_depth : Q) (m : mru) (ds : list day) (v : vols) : option (vols * list unit_out) :=
  match ds with
  | [] => Some (v, [])
  | d :: ds => match unit_volumes can_depth m d v with
               | None => None
               | Some (v', o) => match unit_days can_depth m ds v' with None => None | Some (v'', os) => Some (v'', o :: os) end
               end
  end.
Fixpoint basin_days (can_depth : Q) (ms : list mru) (drs : list drainage) (days : list (list day * list Q * list Q)) (b : basin_state) : option (basin_state * list basin_out) :=
  match days with
  | [] => Some (b, [])
  | (ds, divert, leak) :: days =>
      match basin_volumes can_depth ms drs ds divert leak b with
      | None => None
      | Some (b', o) => match basin_days can_depth ms drs days b' with None => None | Some (b'', os) => Some (b'', o :: os) end
      end
  end.
(** ** With the hillslope model: the fluxes that webrrun reads from topmod_chem (the getvar calls at 2110-2300), and what that module
    reads from the same sources. *)
Definition weather_of (d : day) (pet : Q) : weather := mkWeather pet (d_evap d) (d_snowevap d) (d_melt d) (d_psoil d) (d_leaves d) (d_gw1 d) (d_gw2 d) (d_irrsat d).
Definition bin_flux (l : local) : binflux := mkBinflux (l_ea l) (l_wet l) (l_quz l) (l_qdf l) (l_infil l) (l_uz2sat l).
Definition with_flows (d : day) (f : flows) : day :=
  mkDay (d_ppt d) (d_irrsat d) (d_irrhyd d) (d_irrext d) (d_dep d) (d_net d) (d_leaves d) (d_evap d) (d_psoil d) (d_melt d) (d_snowevap d) (d_pack d)
        (f_ea f) (f_qof f) (f_rex f) (f_qvpref f) (f_qb f) (f_qpref f) (f_loss f) (d_gw1 d) (d_gw2 d) (map bin_flux (f_local f)).
Fixpoint joint_days (expf logf pow10 : Q -> Q) (can_depth : Q) (m : mru) (u : Hill_Model.unit) (dt : Q) (nstep : Z) (ds : list (day * Q)) (s : store) (v : vols)
  : option (store * vols * list (flows * unit_out)) :=
  match ds with
  | [] => Some (s, v, [])
  | (d, pet) :: ds =>
      match unit_step expf logf pow10 u dt nstep (weather_of d pet) s with
      | None => None
      | Some (s', f) =>
          match unit_volumes can_depth m (with_flows d f) v with
          | None => None
          | Some (v', o) => match joint_days expf logf pow10 can_depth m u dt (nstep + 1) ds s' v' with None => None | Some (s'', v'', os) => Some (s'', v'', (f, o) :: os) end
          end
      end
  end.
