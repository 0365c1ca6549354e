(** Canopy interception, webmod.d/src/intcp_prms.F. *)
From Coq Require Import QArith ZArith List Bool.
From Verif Require Import Qx.
Local Open Scope Q_scope.

(** intercept, intcp_prms.F 558-577.  Result: (INTCP_STOR, NET_PRECIP); INTCP_ON becomes 1. *)
Definition intercept (precip stor_max cov stor : Q) : Q * Q :=
  let avail := stor_max - stor in
  let '(stor', thrufall) :=
    if qlt avail precip then (stor_max, precip - avail) else (stor + precip, 0) in
  (stor', precip * (1 - cov) + thrufall * cov).

(** Parameters of one hillslope. *)
Record canopy := {
  cov_type : Z; covden_sum : Q; covden_win : Q;
  srain : Q; wrain : Q; snowcap : Q }.
(** Inputs of one hillslope and time step. [dtlong] is dt >= 24 (469). *)
Record weather := {
  rain : Q; snow : Q; pkwater : Q; transp : bool; potet : Q; dtlong : bool;
  basin_dep : Q; temp_c : Q; swrad : Q }.
(** Variables kept between steps. *)
Record cstate := { stor : Q; on : bool; tr : bool; evap0 : Q }.
(** Published results. *)
Record cout := { net_rain : Q; net_snow : Q; net_dep : Q; evap : Q }.

(** The cover density in effect, e.g. intcp_prms.F 423-428, 446-447, 518-519. *)
Definition cover_of (c : canopy) (t : bool) : Q := if t then covden_sum c else covden_win c.

(** intcp_prms.F 394-415: season change. Result: (stor, intcp_evap). *)
Definition season (c : canopy) (t : bool) (s : cstate) : Q * Q :=
  if negb t && tr s then
    (stor s, if qlt 0 (stor s) then stor s * (covden_sum c - covden_win c) else evap0 s)
  else if t && negb (tr s) then
    (if qlt 0 (stor s) then
       if qeq (covden_sum c) 0 then 0 else stor s * (covden_win c / covden_sum c)
     else stor s, evap0 s)
  else (stor s, 0).

(** Results of the rain and snow parts: storage, net precipitation, intcp_on, cov. *)
Definition rain_part (c : canopy) (w : weather) (st : Q) (o : bool) : Q * Q * bool * Q :=
  if qlt 0 (rain w) then                                               (* 419-440 *)
    if (1 <? cov_type c)%Z || ((cov_type c =? 1)%Z && qeq (pkwater w) 0) then
      let cov := cover_of c (transp w) in
      let cap := if transp w then srain c else wrain c in
      let '(st', net) := intercept (rain w) cap cov st in
      (st', net, true, cov)
    else (0, rain w, false, 0)
  else (st, 0, o, 0).
Definition snow_part (c : canopy) (w : weather) (st : Q) (o : bool) (cov : Q) : Q * Q * bool * Q :=
  if qlt 0 (snow w) then                                               (* 443-459 *)
    if (1 <? cov_type c)%Z then
      let cov := cover_of c (transp w) in
      let '(st', net) := intercept (snow w) (snowcap c) cov st in
      (st', net, true, cov)
    else (0, snow w, false, 0)
  else (st, 0, o, cov).

(** One hillslope of the 1000 loop of intrun, intcp_prms.F 383-538.  [fourth] is x**4 (487). *)
Definition canopy_step (c : canopy) (w : weather) (s : cstate) : cstate * cout :=
  let '(st0, ev0) := season c (transp w) s in
  let '(st1, nrain, on1, cov1) := rain_part c w st0 (on s) in
  let '(st2, nsnow, on2, cov2) := snow_part c w st1 on1 cov1 in
  let ndep := nrain + nsnow in                                         (* 461 *)
  let form := qlt 0 (snow w) in                                        (* 390, 420, 444 *)
  let fin st o ev cov nsnow ndep :=
    ({| stor := st; on := o; tr := transp w; evap0 := cov * ev |},
     {| net_rain := nrain; net_snow := nsnow; net_dep := ndep; evap := cov * ev |}) in
  if on2 then
    if negb (dtlong w) && qlt 0 (rain w + snow w) then fin st2 on2 0 cov2 nsnow ndep (* 469 *)
    else if form then
      if qle (basin_dep w) 0 then
        let cov := cover_of c (transp w) in
        if qle 0 (temp_c w) then
          let ta := temp_c w + (27316 # 100) in
          let tc := (585 # 10000000000) * (ta * ta * ta * ta) in
          let bal := swrad w * (19 # 100) + tc * (1 - cov) * (85 # 100) + cov * tc in
          if qlt 0 bal then
            let xmlt := bal / (2032 # 10) in
            let z := st2 - xmlt in
            let '(st3, xlos, on3) :=
              if qlt 0 z then (z, xmlt, true) else (0, st2, false) in
            let d := potet w - xlos in
            if qlt d 0 then fin st3 on3 (potet w) cov (- d * cov) (- d * cov)
            else fin st3 on3 xlos cov nsnow ndep
          else fin st2 on2 0 cov nsnow ndep
        else fin st2 on2 0 cov nsnow ndep
      else fin st2 on2 0 cov2 nsnow ndep
    else
      let cov := cover_of c (transp w) in                              (* 517-529 *)
      let d := potet w - st2 in
      if qlt d 0 then fin (- d) true (potet w) cov nsnow ndep
      else fin 0 false st2 cov nsnow ndep
  else fin st2 on2 ev0 cov2 nsnow ndep.

(** A sequence of time steps of one hillslope. *)
Fixpoint canopy_run (c : canopy) (ws : list weather) (s : cstate) : cstate * list cout :=
  match ws with
  | nil => (s, nil)
  | cons w r => let '(s', o) := canopy_step c w s in
                let '(s'', os) := canopy_run c r s' in (s'', cons o os)
  end.
