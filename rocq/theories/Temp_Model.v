(** Air temperatures: webmod.d/src/obs_webmod.F obsrun 385-417, temp_1sta_prms.F t1init 441-455 and t1run 470-615; season of transpiration and
    potential evaporation: potet_hamon_prms.F petinit 258-281 and petrun 292-402.  REAL is exact rationals.  Not modelled: getvar and readvar
    calls (their results are arguments), prints. *)
From Coq Require Import QArith Qround ZArith Bool List.
From Verif Require Import Qx Calendar_Model.
Import ListNotations.
Local Open Scope Q_scope.

(** ** Stations.  tsta_max_c, tsta_min_c, tsta_temp_c, tsta_max_f, tsta_min_f, tsta_temp_f *)
Record station := mkStation { s_max : Q; s_min : Q; s_temp : Q; f_max : Q; f_min : Q; f_temp : Q }.
(** 385-400: the data are in degrees Celsius; with steps below 24 hours tsta_temp_c is read. *)
Definition station_c (dt mx mn read : Q) : station :=
  let fx := mx * (18 # 10) + 32 in let fn := mn * (18 # 10) + 32 in
  mkStation mx mn (if qlt dt 24 then read else (mx + mn) / 2) fx fn ((fx + fn) / 2).
(** 401-416: the data are in degrees Fahrenheit; with steps below 24 hours tsta_temp_f is read. *)
Definition station_f (dt fx fn read : Q) : station :=
  let mx := (fx - 32) / (18 # 10) in let mn := (fn - 32) / (18 # 10) in
  mkStation mx mn ((mx + mn) / 2) fx fn (if qlt dt 24 then read else (fx + fn) / 2).

(** ** Hillslopes.  tmax_lapse(mo), tmin_lapse(mo), elfac, tmax_adj, tmin_adj *)
Record slope := mkSlope { max_lapse : Z -> Q; min_lapse : Z -> Q; elfac : Q; max_adj : Q; min_adj : Q }.
(** t1init 452-455. *)
Definition elevation_factor (mru_elev tsta_elev : Q) : Q := (mru_elev - tsta_elev) / 1000.
(** tcrx, tcrn, tcr; 501-507. *)
Record corr := mkCorr { cx : Q; cn : Q; cc : Q }.
Definition correction (p : slope) (mo : Z) : corr :=
  let x := max_lapse p mo * elfac p - max_adj p in let n := min_lapse p mo * elfac p - min_adj p in mkCorr x n ((x + n) / 2).
Definition update (p : slope) (nstep : Z) (d : date) (c : corr) : corr := if (nstep =? 1)%Z || (dd d =? 1)%Z then correction p (dm d) else c.
(** 510-513, 597-599: tmax_c, tmin_c, temp_c and the same in degrees Fahrenheit. *)
Record air := mkAir { a_max : Q; a_min : Q; a_temp : Q; af_max : Q; af_min : Q; af_temp : Q }.
Definition to_f (c : Q) : Q := c * (18 # 10) + 32.
Definition air_of (s : station) (c : corr) : air :=
  let x := s_max s - cx c in let n := s_min s - cn c in let t := s_temp s - cc c in mkAir x n t (to_f x) (to_f n) (to_f t).
(** One hillslope over the steps of a run: the date and the station's temperatures of each. *)
Fixpoint airs (p : slope) (nstep : Z) (c : corr) (l : list (date * station)) : list air :=
  match l with [] => [] | (d, s) :: r => let c := update p nstep d c in air_of s c :: airs p (nstep + 1) c r end.
(** 594-596, 608-610: basin_tmax_c and the others. *)
Definition basin_mean (basin_area : Q) (areas temps : list Q) : Q := qsum (map (fun x => snd x * fst x) (combine areas temps)) / basin_area.

(** ** Reaction temperatures, 517-540 (and 542-565, 567-590).  [arr] is one row of trxn_c_array_oh; trxn_c_array_oh has ceiling(days) columns, 441-446,
    and starts with zeros, 447-449. *)
Definition columns (days : Q) : nat := Z.to_nat (Qceiling days).
Definition nearzero : Q := 1 # 10000000000.
(** 517-527: trxn_ohoriz_stat; [None] ends the run. *)
Definition statistic (k : Z) (a : air) : option Q :=
  if (k =? 1)%Z then Some (a_min a) else if (k =? 2)%Z then Some (a_temp a) else if (k =? 3)%Z then Some (a_max a) else None.
Definition set_first (t : Q) (arr : list Q) : list Q := match arr with [] => [] | _ :: r => t :: r end.
(** 528-540. *)
Definition reaction (days adj : Q) (arr : list Q) : Q :=
  let sum := qsum arr in
  let frac := inject_Z (Qceiling days) - days in
  let sum := if qlt nearzero frac then sum - frac * last arr 0 else sum in
  sum / days + adj.
(** 604-606: cshift(array, -1, 2). *)
Definition cshift (arr : list Q) : list Q := match arr with [] => [] | _ => last arr 0 :: removelast arr end.
Fixpoint reactions (days adj : Q) (k : Z) (arr : list Q) (l : list air) : option (list Q) :=
  match l with
  | [] => Some []
  | a :: r => match statistic k a with
              | Some t => let arr := set_first t arr in
                          match reactions days adj k (cshift arr) r with Some o => Some (reaction days adj arr :: o) | None => None end
              | None => None
              end
  end.
Definition reactions_run (days adj : Q) (k : Z) (l : list air) : option (list Q) := reactions days adj k (repeat 0 (columns days)) l.

(** ** The season of transpiration.  transp_on, transp_check, tmax_sum *)
Record season := mkSeason { s_on : bool; s_check : bool; s_sum : Q }.
(** transp_beg, transp_end, transp_tmax_c. *)
Record plant := mkPlant { p_beg : Z; p_end : Z; p_tmax : Q }.
(** petinit 258-279. *)
Definition season_start (p : plant) (d : date) : season :=
  if (dm d =? p_beg p)%Z then (if (10 <? dd d)%Z then mkSeason true false 0 else mkSeason false true 0)
  else if (0 <? p_end p - p_beg p)%Z then mkSeason ((p_beg p <? dm d)%Z && (dm d <? p_end p)%Z) false 0
  else mkSeason (((p_beg p <? dm d)%Z && (dm d <=? 12)%Z) || ((1 <=? dm d)%Z && (dm d <? p_end p)%Z)) false 0.
(** petrun 326-359, on the first step of a day. *)
Definition warmed (s t : Q) : Q := if qlt 0 t then s + t else s.
Definition season_day (p : plant) (d : date) (tmax : Q) (s : season) : season :=
  if s_check s then
    let sum := warmed (s_sum s) tmax in
    if qlt (p_tmax p) sum then mkSeason true false 0 else mkSeason (s_on s) true sum
  else if (dd d =? 1)%Z then
    if (dm d =? p_beg p)%Z then mkSeason (s_on s) true (warmed (s_sum s) tmax)
    else if s_on s && (dm d =? p_end p)%Z then mkSeason false false (s_sum s) else s
  else s.
Definition season_days (p : plant) (l : list (date * Q)) (s : season) : season := fold_left (fun s x => season_day p (fst x) (snd x) s) l s.

(** ** Potential evaporation *)
(** 370-384; [pan] is the pan's evaporation, if the simulation has pans. *)
Definition hamon (expf : Q -> Q) (hamon_coef epan_coef dyl tavg : Q) : Q :=
  let vpsat := (6108 # 1000) * expf ((1726939 # 100000) * tavg / (tavg + (2373 # 10))) in
  let vdsat := (2167 # 10) * vpsat / (tavg + (2732 # 10)) in
  hamon_coef * dyl * dyl * vdsat / epan_coef.
Definition daily_potet (expf : Q -> Q) (pan : option Q) (hamon_coef epan_coef dyl tavg : Q) : Q :=
  match pan with
  | Some e => if qeq e (-999) then hamon expf hamon_coef epan_coef dyl tavg else e
  | None => hamon expf hamon_coef epan_coef dyl tavg
  end.
(** petrun for one hillslope over the steps of a run: lday, daily_potet and transp_on are kept; 319-399.  A step is its date, the hours of sun, the
    average and the highest temperature, and the pan. *)
Record pet_in := mkPet { e_date : date; e_sun : Q; e_avg : Q; e_max : Q; e_pan : option Q }.
Record pet_state := mkPs { e_lday : Z; e_daily : Q; e_season : season }.
Definition pet_step (expf : Q -> Q) (coef epan : Z -> Q) (p : plant) (dt : Q) (x : pet_in) (s : pet_state) : pet_state * Q :=
  let s := if (e_lday s =? dd (e_date x))%Z then s
           else mkPs (dd (e_date x)) (daily_potet expf (e_pan x) (coef (dm (e_date x))) (epan (dm (e_date x))) (e_sun x) (e_avg x)) (season_day p (e_date x) (e_max x) (e_season s)) in
  (s, (if qlt dt 24 then dt / 24 else 1) * e_daily s).
Fixpoint pet_run (expf : Q -> Q) (coef epan : Z -> Q) (p : plant) (dt : Q) (l : list pet_in) (s : pet_state) : pet_state * list Q :=
  match l with [] => (s, []) | x :: r => let '(s, q) := pet_step expf coef epan p dt x s in let '(s, qs) := pet_run expf coef epan p dt r s in (s, q :: qs) end.
Definition pet_start (p : plant) (d : date) : pet_state := mkPs 0 0 (season_start p d).
