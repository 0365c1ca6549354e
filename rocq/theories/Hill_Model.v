(** Hillslope hydrology (TOPMODEL): webmod.d/src/topmod_chem.F, topminit 1594-2016 (the parts that set up areas, parameters
    and stores) and topmrun 2041-3030.  REAL is an exact rational; EXP, DLOG, SQRT and powers of ten are arguments.
    A division by zero gives the (unused) value 0, except in the drainage of the unsaturated zone, where the code relies on
    the infinity; theorems ask for nonzero divisors.  Not modelled: printing, the basin averages that are not flows, the
    storm and period flags. *)
From Coq Require Import QArith Qabs ZArith List Bool.
From Verif Require Import Qx Infil_Model.
Import ListNotations.
Local Open Scope Q_scope.

(** Areas of the topographic bins: half of the area of a bin and of the next, 2376-2380, 2789-2793. *)
Fixpoint acfs (ac : list Q) : list Q :=
  match ac with [] => [] | a :: r => match r with [] => [(1 # 2) * a] | b :: _ => (1 # 2) * (a + b) :: acfs r end end.

(** Parameters of one model response unit (MRU), after topminit. *)
Record unit := mkUnit {
  infex : bool; ksat : list (Q * Q) (* XK and xkarea *); u_hf : Q; u_dth : Q; szm : Q; tl : Q; szq : Q; t_decay : Z;
  pmacro : Q; pmac_sat : Q; qdffrac : Q; td : Q; srmax : Q; covden_sum : Q; covden_win : Q; ac : list Q; st : list Q;
  rock_depth : Q; root_depth : Q; theta_fc : Q; theta_wp : Q; s_drain : Q; gw_loss_k : Q; qpref_max : Q; z_min : Q; z_max : Q }.
(** 203-205. *)
Definition ack : list Q := [233 # 1000000; 5978 # 1000000; 60597 # 1000000; 241730 # 1000000; 382924 # 1000000; 241730 # 1000000;
                            60597 # 1000000; 5978 # 1000000; 233 # 1000000].
(** SRMAX and SR0, S_DRAIN, QPREF_MAX, 1776, 1903, 1908, 1975. *)
Definition srmax_of (fc wp root : Q) : Q := (fc - wp) * root.
Definition sr0_of (fc th0 root : Q) : Q := (fc - th0) * root.
Definition drain_of (porosity fc : Q) : Q := porosity - fc.
Definition qpref_max_of (zmax zmin k : Q) : Q := (zmax - zmin) * k * 36.

(** What reaches the unit in a step: 2269-2277 from the other modules, 2691-2705, irrig_sat_mru. *)
Record weather := mkWeather { potet : Q; intcp_evap : Q; snow_evap : Q; snowmelt : Q; psoil : Q; transp_on : bool; gw_in1 : Q; gw_in2 : Q; irrig_sat : Q }.
Definition inch2m : Q := 127 # 5000.
Definition evap_demand (w : weather) : Q :=                                                                   (* 2269-2273 *)
  let ep := (potet w - intcp_evap w - snow_evap w) * inch2m in if qlt ep 0 then 0 else ep.
Definition surfdep (w : weather) : Q := (snowmelt w + psoil w) * inch2m.                                       (* 2276-2277 *)

(** ** Infiltration excess, 2280-2342.  Result: states of the conductivity bins, REX, afx. *)
Definition inf_zero : inf_state := {| irof := false; cumf := 0; const := 0; tp := 0 |}.
Definition infil_bin (expf logf : Q -> Q) (u : unit) (dt : Q) (nstep : Z) (p : Q) (k : Q * Q) (s : inf_state) : inf_state * Q :=
  let '(s', df) := expinf expf logf {| xk0 := fst k; hf := u_hf u; dth := u_dth u; Infil_Model.szm := szm u |} nstep (p / dt) dt s in
  if qlt (Qabs (p - df)) (1 # 100000000) then ({| irof := false; cumf := 0; const := const s'; tp := tp s' |}, p) else (s', df).
Fixpoint excess_loop (expf logf : Q -> Q) (u : unit) (dt : Q) (nstep : Z) (p : Q) (ks : list (Q * Q)) (ss : list inf_state) (rex afx : Q) : list inf_state * Q * Q :=
  match ks, ss with
  | k :: ks, s :: ss =>
      if qlt 0 p then
        let '(s', df) := infil_bin expf logf u dt nstep p k s in
        let '(r, rex, afx) := excess_loop expf logf u dt nstep p ks ss (rex + (p - df) * snd k) (if irof s' then afx + snd k else afx) in
        (s' :: r, rex, afx)
      else let '(r, rex, afx) := excess_loop expf logf u dt nstep p ks ss 0 afx in (inf_zero :: r, rex, afx)
  | _, _ => (ss, rex, afx)
  end.

(** ** One topographic bin *)
Record bin := mkBin { srz : Q; suz : Q; z_local : Q; uz_depth : Q }.
Record local := mkLocal { l_ex : Q; l_wet : Q; l_quz : Q; l_qdf : Q; l_ea : Q; l_infil : Q; l_uz2sat : Q }.

(** Local storage deficit, 2400-2404, 2795-2799. *)
Definition deficit (u : unit) (sbar st : Q) : Q :=
  if Z.eqb (t_decay u) 0 then sbar + szm u * (tl u - st) else szm u - st * (szm u - sbar) / tl u.
(** Recharge of a bin that is already saturated, 2428-2433: UZ, SD, SUZ, testuz. *)
Definition saturate (sd suz : Q) : Q * Q * Q * bool := if qle sd suz then (suz, sd - suz, 0, true) else (0, sd, suz, false).
(** Wetting of the root zone from below, 2435-2452: SRZWET, SRZ, SD. *)
Definition wet_root (sd srz : Q) : Q * Q * Q :=
  if qlt sd 0 then if qle srz (Qabs sd) then (srz, 0, 0) else (Qabs sd, srz - Qabs sd, 0) else (0, srz, sd).
(** Root zone, 2456-2465: SRZ and SUZ. *)
Definition root_zone (srz suz p2rz qv2suz : Q) : Q * Q :=
  let srz := srz - p2rz in
  let '(srz, suz) := if qlt srz 0 then (0, suz - srz) else (srz, suz) in (srz, suz + qv2suz).
(** Saturation excess, 2468-2473: EX and SUZ. *)
Definition sat_excess (sd suz : Q) : Q * Q := if qlt sd suz then (suz - sd, sd) else (0, suz).
(** Drainage, 2484-2499: UZ and SUZ; [None]: the program stops (double recharge). *)
Definition drain (dt td sd suz uz : Q) (testuz : bool) : option (Q * Q) :=
  if qlt 0 suz then
    let u := if qlt 0 sd then if qeq td 0 then suz (* infinity *) else suz * dt / (sd * td) else suz in
    let u := if qle suz u then suz else u in
    let suz := suz - u in
    let suz := if qlt suz (1 # 10000000) then 0 else suz in
    if testuz then None else Some (u, suz)
  else Some (uz, suz).
(** Evapotranspiration, 2512-2536. *)
Definition transpire (u : unit) (ep : Q) (transp : bool) (srz : Q) : Q :=
  let ea := ep * (1 - srz / srmax u) in
  let ea := if qlt (srmax u - srz) ea then srmax u - srz else ea in
  if qlt (1 # 100) (srz / srmax u) then if transp then ea * covden_sum u else ea * (1 # 10) * covden_win u else ea.

(** A bin in the first loop, 2382-2551.  The local results of a bin without area (2383: skipped) are taken as 0. *)
Definition bin_step (u : unit) (dt sbar ep : Q) (transp : bool) (p2rz qv2suz p acf st : Q) (b : bin) : option (bin * local * bool) :=
  if qeq acf 0 then Some (b, mkLocal 0 0 0 0 0 0 0, false) else
  let '(uz, sd, suz1, testuz) := saturate (deficit u sbar st) (suz b) in
  let '(wet, srz1, sd) := wet_root sd (srz b) in
  let '(srz2, suz2) := root_zone srz1 suz1 p2rz qv2suz in
  let '(ex, suz3) := sat_excess sd suz2 in
  match drain dt (td u) sd suz3 uz testuz with
  | None => None
  | Some (uz, suz4) =>
      let ea := transpire u ep transp srz2 in
      Some (mkBin (srz2 + ea) suz4 (z_local b) (uz_depth b),
            mkLocal ex wet (uz * (1 - qdffrac u)) (uz * qdffrac u) ea (p - ex) 0, qlt sd suz2)
  end.

(** Sums over the bins: QOF, qwet, QUZ, qdf, sae, ACM. *)
Record totals := mkTotals { t_qof : Q; t_wet : Q; t_quz : Q; t_qdf : Q; t_ea : Q; t_acm : Q }.
Definition no_flow : totals := mkTotals 0 0 0 0 0 0.
Definition tally (t : totals) (acf : Q) (l : local) (saturated : bool) : totals :=
  mkTotals (t_qof t + l_ex l * acf) (t_wet t + l_wet l * acf) (t_quz t + l_quz l * acf) (t_qdf t + l_qdf l * acf) (t_ea t + l_ea l * acf)
           (if saturated then t_acm t + acf else t_acm t).
Fixpoint bins_step (u : unit) (dt sbar ep : Q) (transp : bool) (p2rz qv2suz p : Q) (acs sts : list Q) (bs : list bin) (t : totals) : option (list bin * list local * totals) :=
  match acs, sts, bs with
  | acf :: acs, st :: sts, b :: bs =>
      match bin_step u dt sbar ep transp p2rz qv2suz p acf st b with
      | None => None
      | Some (b', l, sat) =>
          match bins_step u dt sbar ep transp p2rz qv2suz p acs sts bs (tally t acf l sat) with
          | None => None | Some (bs', ls, t') => Some (b' :: bs', l :: ls, t')
          end
      end
  | _, _, _ => Some ([], [], t)
  end.

(** ** The saturated zone *)
(** Loss to deep ground water, 2633-2640. *)
Definition gw_loss (pow10 : Q -> Q) (u : unit) (dt z_wt : Q) : Q :=
  let head := rock_depth u + z_wt in
  if qlt 0 head && qlt (gw_loss_k u) 11 then head * pow10 (- gw_loss_k u) * 36 * dt else 0.
(** Base flow, 2719-2731. *)
Definition base_flow (expf : Q -> Q) (u : unit) (sbar : Q) : Q :=
  let r := 1 - sbar / szm u in
  let qb := if Z.eqb (t_decay u) 0 then szq u * expf (- sbar / szm u) else if Z.eqb (t_decay u) 1 then szq u * (r * r) else szq u * r in
  if qlt qb (1 # 100000) then 0 else qb.
(** Preferential flow (tile drains), 2737-2761; [recharge] is what 2738-2740 add to the water table. *)
Definition tile_flow (u : unit) (dt z_wt recharge : Q) : Q :=
  let z := z_wt + recharge / s_drain u in
  let q := if qle z (z_min u) || qlt (qpref_max u) (1 # 1000000000000) then 0
           else if qle (z_max u) z then qpref_max u * dt
           else (z - z_min u) / (z_max u - z_min u) * qpref_max u in
  let cap := (z - z_min u) * s_drain u - recharge in
  if qlt cap q && qlt 0 cap then cap else q.
(** 2773-2777. *)
Definition adjust_base (u : unit) (qb qpref : Q) : Q :=
  if qlt 0 (qpref_max u) then let qb := qb - qpref * (qpref / qpref_max u) in if qlt qb (1 # 100000) then 1 # 100000 else qb else qb.

(** ** The water table after the step, 2786-2856 *)
Definition table_depth (u : unit) (sbar st : Q) : Q := let sd := deficit u sbar st in let sd := if qlt sd 0 then 0 else sd in - sd / s_drain u.
Definition depth_of (u : unit) (srz suz z : Q) : Q :=                                                         (* 2807-2817 *)
  if qle (- root_depth u) z then srmax u - srz + theta_wp u * root_depth u + suz
  else srmax u - srz + theta_wp u * root_depth u + suz - (root_depth u + z) * theta_fc u.
Definition uz_to_sat (u : unit) (z z' : Q) : Q :=                                                             (* 2837-2854 *)
  if qle (- root_depth u) z' then if qle (- root_depth u) z then 0 else (- root_depth u - z) * theta_fc u
  else if qle (- root_depth u) z then (root_depth u + z') * theta_fc u else (z' - z) * theta_fc u.
Fixpoint settle (u : unit) (sbar : Q) (acs sts : list Q) (bs : list bin) (ls : list local) : list bin * list local * Q :=
  match acs, sts, bs, ls with
  | acf :: acs, st :: sts, b :: bs, l :: ls =>
      let z := table_depth u sbar st in
      let '(bs', ls', zw) := settle u sbar acs sts bs ls in
      let b' := mkBin (srz b) (suz b) z (if qeq acf 0 then 0 else depth_of u (srz b) (suz b) z) in
      let l' := mkLocal (l_ex l) (l_wet l) (l_quz l) (l_qdf l) (l_ea l) (l_infil l) (if qeq acf 0 then 0 else uz_to_sat u (z_local b) z) in
      (b' :: bs', l' :: ls', z * acf + zw)
  | _, _, _, _ => ([], [], 0)
  end.

(** ** A step of one unit *)
Record store := mkStore { sbar : Q; z_wt : Q; bins : list bin; infs : list inf_state }.
Record flows := mkFlows { f_surf : Q; f_rex : Q; f_qofs : Q; f_qof : Q; f_infil : Q; f_quz : Q; f_qdf : Q; f_wet : Q; f_ea : Q; f_qvpref : Q;
                          f_qb : Q; f_qpref : Q; f_loss : Q; f_qout : Q; f_acm : Q; f_afx : Q; f_local : list local }.
Definition unit_step (expf logf pow10 : Q -> Q) (u : unit) (dt : Q) (nstep : Z) (w : weather) (s : store) : option (store * flows) :=
  let ep := evap_demand w in
  let p := surfdep w in
  let '(infs', rex, afx) := if infex u then excess_loop expf logf u dt nstep p (ksat u) (infs s) 0 0 else (infs s, 0, 0) in
  let p := p - rex in                                                                                           (* 2341 *)
  let p2rz := p * (1 - pmacro u) in                                                                             (* 2362-2367 *)
  let qv2suz := p * (1 - pmac_sat u) * pmacro u in
  let qvpref := p * pmac_sat u * pmacro u in
  let p := p - qvpref in
  match bins_step u dt (sbar s) ep (transp_on w) p2rz qv2suz p (acfs (ac u)) (st u) (bins s) no_flow with
  | None => None
  | Some (bs, ls, t) =>
      let qof := t_qof t + rex in                                                                               (* 2606-2607 *)
      let loss := gw_loss pow10 u dt (z_wt s) in
      let qb := base_flow expf u (sbar s) in
      let irrig := irrig_sat w * inch2m in
      let recharge := t_quz t - qb - t_wet t + qvpref - irrig + gw_in1 w + gw_in2 w - loss in
      let qpref := tile_flow u dt (z_wt s) recharge in
      let qb := adjust_base u qb qpref in
      let sbar' := sbar s - t_quz t - qvpref + qb + t_wet t + qpref + irrig - gw_in1 w - gw_in2 w + loss in        (* 2779-2781 *)
      let '(bs, ls, zw) := settle u sbar' (acfs (ac u)) (st u) bs ls in
      Some (mkStore sbar' zw bs infs',
            mkFlows (surfdep w) rex (t_qof t) qof (surfdep w - qof - qvpref) (t_quz t) (t_qdf t) (t_wet t) (t_ea t) qvpref qb qpref loss
                    (qb + qof + t_qdf t + qpref) (t_acm t) afx ls)
  end.

(** topminit 1908-1995: the stores at the start. *)
Definition start_bin (u : unit) (sr0 sbar0 st : Q) : bin := let z := table_depth u sbar0 st in mkBin sr0 0 z (depth_of u sr0 0 z).
Definition start (u : unit) (sr0 sbar0 : Q) : store :=
  mkStore sbar0 (- sbar0 / s_drain u) (map (start_bin u sr0 sbar0) (st u)) (map (fun _ => inf_zero) (ksat u)).

(** Steps one after the other, with the sums of 2275, 2532 and 2862-2876 that the final balance uses. *)
Record sums := mkSums { s_p : Q; s_gw : Q; s_ea : Q; s_q : Q; s_loss : Q }.
Fixpoint unit_run (expf logf pow10 : Q -> Q) (u : unit) (dt : Q) (nstep : Z) (ws : list weather) (s : store) (a : sums) : option (store * sums * list flows) :=
  match ws with
  | [] => Some (s, a, [])
  | w :: ws =>
      match unit_step expf logf pow10 u dt nstep w s with
      | None => None
      | Some (s', f) =>
          let a' := mkSums (s_p a + f_surf f) (s_gw a + gw_in1 w + gw_in2 w) (s_ea a + f_ea f) (s_q a + f_qout f) (s_loss a + f_loss f) in
          match unit_run expf logf pow10 u dt (nstep + 1) ws s' a' with None => None | Some (s'', a'', fs) => Some (s'', a'', f :: fs) end
      end
  end.
(** Over the bins: SUMRZ and SUMUZ, 2985-2995. *)
Fixpoint weighted (g : bin -> Q) (acs : list Q) (bs : list bin) : Q :=
  match acs, bs with a :: acs, b :: bs => g b * a + weighted g acs bs | _, _ => 0 end.
(** BAL at the start, 1995, and at the end, 2997-2999; [rock] is s_rock_depth * s_porosity. *)
Definition bal_start (rock sbar0 sr0 : Q) : Q := rock - sbar0 - sr0.
Definition bal_end (u : unit) (rock bal : Q) (s : store) (a : sums) : Q :=
  bal + sbar s + s_p a + s_gw a - s_ea a - s_q a + weighted srz (acfs (ac u)) (bins s) - weighted suz (acfs (ac u)) (bins s) - s_loss a - rock.

(** Irrigation asked of the saturated zone for the next step, 2643-2687. *)
Definition irrigation_next (sqrtf : Q -> Q) (sbar sbar_max irrig_int_max area dt asked : Q) : Q :=
  let n := sbar / sbar_max in
  let n := if qlt 1 n then 1 else n in
  let most := sqrtf (1 - n * n) * irrig_int_max * (227125 # 1000000) / area / 1000000 / inch2m * dt in
  if qle asked most then asked else most.

(** Basin sums, 2900-2935: area fraction times the value of each unit. *)
Definition basin (g : flows -> Q) (l : list (Q * flows)) : Q := qsum (map (fun p => g (snd p) * fst p) l).
