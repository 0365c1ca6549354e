(** Solar radiation: webmod.d/src/ccsolrad_web.F csolinit 330-348, csolrun 360-548; soltab_prms.F stinit 216-292 (hours of sun).  REAL is exact rationals;
    Cnt and Sper hold whole numbers and are Z.  Not modelled: getvar and getparam calls (their results are arguments), the trigonometric formulas
    of stinit (the hour angles are arguments) and func3. *)
From Coq Require Import QArith ZArith Bool String List.
From Verif Require Import Qx Calendar_Model.
Import ListNotations.
Local Open Scope Q_scope.

(** ** The place in the table of the year *)
(** Lp, 271-272; only Lp(5) changes. *)
Definition Lp (lp5 : Z) : list Z := [19; 13; 15; 13; lp5; 14; 14; 15; 14; 15; 14; 21; 20; 15; 14; 15; 15; 14; 15; 14; 14; 14; 14; 18]%Z.
(** sday, 388. *)
Definition sday : list Z := [356; 10; 23; 38; 51; 66; 80; 94; 109; 123; 138; 152; 173]%Z.
Definition item (l : list Z) (i : Z) : Z := nth (Z.to_nat (i - 1)) l 0%Z.
(** Nper, Lsv, Cnt, Sper, Kck, Lp(5). *)
Record place := mkPlace { nper : Z; lsv : Z; cnt : Z; sper : Z; kck : bool; lp5 : Z }.
(** csolinit 337-343. *)
Definition place0 : place := mkPlace 1 1 0 0 false 15.
(** 435-440: jkeep and Nper when the loop is left, or after its last pass. *)
Fixpoint search (jsol j np : Z) (l : list Z) : Z * Z :=
  match l with
  | [] => ((j - 1)%Z, np)
  | x :: r => let np := (np + x)%Z in if (jsol <? np)%Z then (j, np) else search jsol (j + 1) np r
  end.
(** What is done with the table: new values for the period and taken as they are, new values and interpolated, or the old values interpolated. *)
Inductive use := Direct (ip jp : Z) | Fresh (ip jp : Z) | Old.
(** 467-478, the days of the table at both ends of the period. *)
Definition ends (lsv : Z) : Z * Z :=
  let k := (13 - lsv)%Z in
  let '(ip, jp) := if (k <? 0)%Z then (13 + k, 13 + k - 1)%Z else if (k =? 0)%Z then (13, 12)%Z else (13 - k, 13 - k + 1)%Z in
  (item sday ip, item sday jp).
(** 426-447 on the first step; [leap] is isleap(k) /= 0. *)
Definition first_place (leap : bool) (jsol : Z) : place :=
  let l5 := if leap then 16%Z else 15%Z in
  let '(ls, np) := search jsol 1 1 (Lp l5) in
  let sp := item (Lp l5) ls in
  let c := (np - jsol)%Z in
  let ct := (sp - c)%Z in
  mkPlace np ls ct sp (negb (ct <=? 0)%Z) l5.
(** 467-503: after the period is known. *)
Definition settle (p : place) : place * use :=
  let '(ip, jp) := ends (lsv p) in
  if kck p then (mkPlace (nper p) (lsv p) (cnt p) (sper p) false (lp5 p), Fresh ip jp)
  else (mkPlace (nper p) (lsv p) 1 (sper p) (kck p) (lp5 p), Direct ip jp).
(** 448-465 on other steps; [leap] is isleap(myr + 1) /= 0. *)
Definition next_place (leap : bool) (jsol : Z) (p : place) : place * use :=
  if negb (nper p =? jsol)%Z then (p, Old)
  else if (lsv p =? 24)%Z then (mkPlace 1 0 (cnt p) (sper p) (kck p) (if leap then 16%Z else 15%Z), Old)
  else let ls := (lsv p + 1)%Z in settle (mkPlace (nper p + item (Lp (lp5 p)) ls) ls (cnt p) (item (Lp (lp5 p)) ls) (kck p) (lp5 p)).
(** 424-465: [mo_k] of 429-430 is the year whose leap day matters on the first step. *)
Definition locate (nstep jsol myr : Z) (p : place) : place * use :=
  if (nstep =? 1)%Z then settle (first_place (negb (isleap (if (jsol <? 11)%Z then myr + 1 else myr) =? 0)%Z) jsol)
  else next_place (negb (isleap (myr + 1) =? 0)%Z) jsol p.
(** One column of mru_soltab (or sunhrs_soltab) with Psv, Ssv and Drad; 482-521. *)
Record sun := mkSun { s_place : place; psv : Q; ssv : Q; drad : Q }.
Definition interpolate (tab : Z -> Q) (u : use) (s : sun) (p : place) : sun :=
  match u with
  | Direct ip jp => mkSun p (tab ip) (tab jp - tab ip) (tab ip)
  | Fresh ip jp => let q := tab ip in let w := tab jp - q in mkSun (mkPlace (nper p) (lsv p) (cnt p + 1) (sper p) (kck p) (lp5 p)) q w (q + inject_Z (cnt p) / inject_Z (sper p) * w)
  | Old => mkSun (mkPlace (nper p) (lsv p) (cnt p + 1) (sper p) (kck p) (lp5 p)) (psv s) (ssv s) (psv s + inject_Z (cnt p) / inject_Z (sper p) * ssv s)
  end.
(** csolrun as far as Drad; Lday, 394-396.  [None]: julian fails. *)
Definition sun_step (tab : Z -> Q) (nstep : Z) (d : date) (s : Z * sun) : option (Z * sun) :=
  if (fst s =? dd d)%Z then Some s
  else match julian "solar" d with
       | Ok jsol => let '(p, u) := locate nstep jsol (dy d) (s_place (snd s)) in Some (dd d, interpolate tab u (snd s) p)
       | _ => None
       end.
Fixpoint sun_steps (tab : Z -> Q) (nstep : Z) (l : list date) (s : Z * sun) : option (list Q) :=
  match l with
  | [] => Some []
  | d :: r => match sun_step tab nstep d s with
              | Some s => match sun_steps tab (nstep + 1) r s with Some o => Some (drad (snd s) :: o) | None => None end
              | None => None
              end
  end.
(** csolinit. *)
Definition sun0 : Z * sun := (0%Z, mkSun place0 0 0 0).
Definition sun_run (tab : Z -> Q) (l : list date) : option (list Q) := sun_steps tab 1 l sun0.

(** ** Observed or estimated radiation, 523-546 *)
Definition tiny : Q := 1 # 1000000000000000000000000000000.
(** ccov_slope(mo), ccov_intcp(mo), ppt_rad_adj(mo), radj_sppt, radj_wppt, crad_coef, radmax; [pw x] is x**crad_exp. *)
Record sky := mkSky { k_slope : Q; k_intcp : Q; k_ppt : Q; k_sppt : Q; k_wppt : Q; k_coef : Q; k_radmax : Q }.
Definition cover (k : sky) (tmax tmin : Q) : Q :=
  let c := k_slope k * (tmax - tmin) + k_intcp k in
  let c := if qlt c tiny then 0 else c in if qlt 1 c then 1 else c.
Definition orad (pw : Q -> Q) (k : sky) (mo : Z) (ckrad tmax tmin ppt horad : Q) : Q :=
  if qlt ckrad tiny || qlt 10000 ckrad then
    let adj := if qlt (k_ppt k) ppt then (if (4 <? mo)%Z && (mo <? 10)%Z then k_sppt k else k_wppt k) else 1 in
    let r := k_coef k + (1 - k_coef k) * pw (1 - cover k tmax tmin) in
    let r := if qlt (k_radmax k) r then k_radmax k else r in
    r * adj * horad
  else ckrad.
(** 544-546, with Drad(1) for horad; [None]: Drad(1) is zero, the quotient is not a number. *)
Definition swrads (obs : Q) (drads cossl : list Q) : option (list Q) :=
  match drads with
  | [] => Some []
  | h :: _ => if qeq h 0 then None else Some (map (fun x => fst x / h * obs / snd x) (combine drads cossl))
  end.

(** ** Hours of sun of a slope, stinit 247-287: [ta] the half day of the equivalent slope, [tb] that of level ground, [l2] the shift of noon *)
Definition pi_ : Q := 314159 # 100000.
Definition two_pi : Q := 628318 # 100000.
Definition qmin2 (a b : Q) : Q := if qlt b a then b else a.
Definition qmax2 (a b : Q) : Q := if qlt a b then b else a.
Definition half_day (acos tx : Q) : Q := if qlt tx (-1) then pi_ else if qlt 1 tx then 0 else acos.
Definition sun_hours (flat : bool) (ta tb l2 : Q) : Q :=
  let t7 := ta - l2 in let t6 := - ta - l2 in let t1 := tb in let t0 := - tb in
  let t3 := qmin2 t7 t1 in let t2 := qmax2 t6 t0 in
  if flat then (t1 - t0) * (38197 # 10000) / 12
  else
    let '(t2, t3) := if qle t2 t3 then (t2, t3) else (0, 0) in
    let t6 := t6 + two_pi in
    if qlt t6 t1 then (t3 - t2 + t1 - t6) * (38197 # 10000) / 12
    else let t7 := t7 - two_pi in
         if qlt t0 t7 then (t3 - t2 + t7 - t0) * (38197 # 10000) / 12
         else (t3 - t2) * (38197 # 10000) / 12.
