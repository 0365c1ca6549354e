(** Snow accumulation and melt, webmod.d/src/nwsmelt_topg.F.
    REAL is modelled by exact rationals [Q]; SIN, EXP and the real powers are arguments
    ([sinf], [expf], [pow03] for x**0.3, [pow13] for x**1.3). *)
From Coq Require Import QArith Qround ZArith List Bool.
Import ListNotations.
From Verif Require Import CStr_Model Qx.
Local Open Scope Q_scope.

(** MELTFACT, nwsmelt_topg.F 1260-1306.  Result: (MF, RATIO). *)
Definition meltfact (sinf : Q -> Q) (idn : Z) (alat mfmax mfmin : Q) : Q * Q :=
  let diff := mfmax - mfmin in
  let dayn := inject_Z idn in
  let s := sinf (dayn * 2 * (31416 # 10000) / 366) in
  let mf :=
    if qlt alat 54 then s * diff * (1 # 2) + (mfmax + mfmin) * (1 # 2)      (* 120 *)
    else
      let x := if (275 <=? idn)%Z then (dayn - 275) / (458 - 275)          (* 102 *)
               else if (92 <=? idn)%Z then (275 - dayn) / (275 - 92)       (* 101 *)
               else (91 + dayn) / 183 in
      let xx := s * (1 # 2) + (1 # 2) in                                   (* 105 *)
      let adjmf := if qle x (48 # 100) then 0                              (* 111 *)
                   else if qle (70 # 100) x then 1                         (* 112 *)
                   else (x - (48 # 100)) / ((70 # 100) - (48 # 100)) in
      (xx * adjmf) * diff + mfmin in                                       (* 110 *)
  (mf, mf / mfmax).                                                        (* 125 *)

(** MELTRATE, nwsmelt_topg.F 1308-1368.  Inputs that the routine changes: TINDEX, EVP.
    Result: (CNHS, TINDEX, MELT, EVP).  NMINDEX and NMRATE are local in effect. *)
Record meltrate_par := {
  mr_mbase : Q; mr_nmf : Q; mr_tspm : Q; mr_rfmin : Q; mr_sbci : Q; mr_uadj : Q;
  mr_pa : Q; mr_subr : Q }.
Definition meltrate (expf : Q -> Q) (p : meltrate_par)
    (tair tindex ratio mf rain rainm evp : Q) (istep : Z) : Q * Q * Q * Q :=
  let tmx := if qlt (tair - mr_mbase p) 0 then 0 else tair - mr_mbase p in
  let tsur := if qlt 0 tair then 0 else tair in
  let nmindex := tindex - tsur in
  let nmrate := ratio * mr_nmf p in
  let cnhs := nmrate * nmindex in
  let tindex' := tindex + mr_tspm p * (tair - tindex) in
  if qle rain (mr_rfmin p) then
    (cnhs, tindex', mf * tmx + rainm,
     if (1 <? istep)%Z && (istep <? 4)%Z then mr_subr p * (1 # 2) else evp)
  else
    let ea := (90 # 100) * (274890000 * expf (- (427863 # 100) / (tair + (242792 # 1000)))) in
    let tak := (tair + 273) * (1 # 100) in
    let tak4 := tak * tak * tak * tak in
    let qn := mr_sbci p * (tak4 - (5555 # 100)) in
    let qe := (85 # 10) * (ea - (611 # 100)) * mr_uadj p in
    let qh := (85 # 10) * (57 # 100000) * mr_pa p * mr_uadj p * tair in
    let melt := qn + qe + qh + rainm in
    (cnhs, tindex', if qlt melt 0 then 0 else melt, evp).

(** A Fortran array with lower bound 1; an access outside it is UB. *)
Definition aget (a : list Q) (i : Z) : outcome Q :=
  if (1 <=? i)%Z then
    match nth_error a (Z.to_nat (i - 1)) with Some v => Ret v | None => UB end
  else UB.
Fixpoint set_nth (a : list Q) (n : nat) (v : Q) : option (list Q) :=
  match a, n with
  | [], _ => None
  | _ :: r, O => Some (v :: r)
  | x :: r, S m => match set_nth r m v with Some r' => Some (x :: r') | None => None end
  end.
Definition aset (a : list Q) (i : Z) (v : Q) : outcome (list Q) :=
  if (1 <=? i)%Z then
    match set_nth a (Z.to_nat (i - 1)) v with Some a' => Ret a' | None => UB end
  else UB.

(** ROUTE, nwsmelt_topg.F 1405-1417: the DO 110 loop, [k] iterations left, index [i]. *)
Fixpoint route_lag (expf : Q -> Q) (it : Z) (cl we excess fn : Q) (k : nat) (i : Z)
    (exlag : list Q) : outcome (list Q) :=
  match k with
  | O => Ret exlag
  | S k' =>
      let fit := inject_Z it in
      let fi := inject_Z i in
      let term0 := cl * we * fn / (excess * (fi - (1 # 2))) in
      let term := if qlt 150 term0 then 150 else term0 in
      let flag := (533 # 100) * (1 - expf (- term)) in
      let l2 := trunc ((flag + fit) / fit + 1) in
      let l1 := (l2 - 1)%Z in
      let endl1 := inject_Z (l1 * it) in
      let por2 := (flag + fit - endl1) / fit in
      let por1 := 1 - por2 in
      do x2 <- aget exlag l2;
      do e2 <- aset exlag l2 (x2 + por2 * excess / fn);
      do x1 <- aget e2 l1;
      do e1 <- aset e2 l1 (x1 + por1 * excess / fn);
      route_lag expf it cl we excess fn k' (i + 1)%Z e1
  end.

(** ROUTE, nwsmelt_topg.F 1445-1449: the DO 170 loop.  Result: (PACKRO, STORGE). *)
Fixpoint route_atten (r1 el : Q) (k : nat) (packro storge : Q) : Q * Q :=
  match k with
  | O => (packro, storge)
  | S k' => let os := (storge + el) * r1 in
            route_atten r1 el k' (packro + os) (storge + el - os)
  end.

(** ROUTE, nwsmelt_topg.F 1438-1453: label 160.  A zero divisor, which gives an infinity or
    NaN in the code, is modelled as UB. *)
Definition route_160 (expf pow13 : Q -> Q) (it : Z) (we aesc storge : Q)
    (exlag : list Q) : outcome (Q * Q) :=
  do x1 <- aget exlag 1;
  let el := x1 / inject_Z it in
  let els := el / ((254 # 10) * aesc) in
  let wes := we / ((254 # 10) * aesc) in
  if qeq aesc 0 || qeq (pow13 wes) 0 then UB else
  let term0 := 500 * els / pow13 wes in
  let term := if qlt 150 term0 then 150 else term0 in
  let r1 := 1 / (5 * expf (- term) + 1) in
  let '(packro, storge) := route_atten r1 el (Z.to_nat it) 0 storge in
  if qlt (1 # 1000) storge then Ret (packro, storge)
  else Ret (packro + storge, 0).

(** ROUTE, nwsmelt_topg.F 1426-1453: labels 150 and 160.  Result: (PACKRO, STORGE). *)
Definition route_150 (expf pow13 : Q -> Q) (it : Z) (we aesc storge : Q)
    (exlag : list Q) : outcome (Q * Q) :=
  do x1 <- aget exlag 1;
  if qeq (storge + x1) 0 then Ret (0, storge)
  else if qle (1 # 10) (storge + x1) then route_160 expf pow13 it we aesc storge exlag
  else Ret (storge + x1, 0).

(** ROUTE, nwsmelt_topg.F 1456-1460: label 190, shift of the lag array. *)
Definition route_190 (exlag : list Q) : list Q :=
  match exlag with [] => [] | _ :: r => r ++ [0] end.

(** ROUTE, nwsmelt_topg.F 1371-1463.  NEXLAG is the length of [exlag].
    Result: (PACKRO, STORGE, EXLAG). *)
Definition route (expf pow03 pow13 : Q -> Q) (it : Z) (excess we aesc storge : Q)
    (exlag : list Q) : outcome (Q * Q * list Q) :=
  let cl := (3 # 100) * inject_Z it / 6 in
  do x1 <- aget exlag 1;
  let prior := storge + x1 in
  if qeq excess 0 && qeq prior 0 then Ret (0, storge, route_190 exlag)
  else if qeq excess 0 && qle (1 # 10) prior then
    do ps <- route_160 expf pow13 it we aesc storge exlag;
    let '(packro, storge') := ps in
    Ret (packro, storge', route_190 exlag)
  else
    do exlag' <-
      (if qlt excess (1 # 10) || qlt we 1 then aset exlag 1 (x1 + excess)    (* 120 *)
       else
         let n0 := trunc (pow03 (excess * 4) + (1 # 2)) in
         let n := if (n0 =? 0)%Z then 1%Z else n0 in
         route_lag expf it cl we excess (inject_Z n) (Z.to_nat n) 1 exlag);
    do ps <- route_150 expf pow13 it we aesc storge exlag';
    let '(packro, storge') := ps in
    Ret (packro, storge', route_190 exlag').

(** AESNOW, nwsmelt_topg.F 1465-1524.  [adc] is the column ADC(1:11,ICRVE).
    Result: (ACCMAX, SB, SBWS, AESC, SBAESC). *)
Record cover := { c_accmax : Q; c_sb : Q; c_sbws : Q; c_aesc : Q; c_sbaesc : Q }.
Definition aes_clamp (a : Q) : Q :=                                          (* 204 *)
  let a := if qlt a (5 # 100) then 5 # 100 else a in
  if qlt 1 a then 1 else a.
Definition aesnow (adc : list Q) (we liqw sit : Q) (c : cover) : outcome cover :=
  let twe := we + liqw in
  let accmax := if qlt (c_accmax c) twe then twe else c_accmax c in
  let ai := if qlt sit accmax then sit else accmax in
  if qle ai twe then                                                         (* 202 *)
    Ret {| c_accmax := accmax; c_sb := twe; c_sbws := twe;
           c_aesc := aes_clamp 1; c_sbaesc := c_sbaesc c |}
  else if qle twe (c_sb c) then                                              (* 201 *)
    let r := twe / ai * 10 + 1 in
    let n := trunc r in
    let r' := r - inject_Z n in
    do a0 <- aget adc n;
    do a1 <- aget adc (n + 1);
    let aesc := a0 + (a1 - a0) * r' in
    Ret {| c_accmax := accmax; c_sb := twe + (127 # 100); c_sbws := twe;
           c_aesc := aes_clamp aesc; c_sbaesc := aesc |}
  else if qle (c_sbws c) twe then                                            (* 203 *)
    Ret {| c_accmax := accmax; c_sb := c_sb c; c_sbws := c_sbws c;
           c_aesc := aes_clamp 1; c_sbaesc := c_sbaesc c |}
  else
    let aesc := c_sbaesc c +
                (1 - c_sbaesc c) * ((twe - c_sb c) / (c_sbws c - c_sb c)) in
    Ret {| c_accmax := accmax; c_sb := twe + (127 # 100); c_sbws := twe;
           c_aesc := aes_clamp aesc; c_sbaesc := aesc |}.

(** HEATWATR, nwsmelt_topg.F 1527-1585.  Result: (WE, LIQW, NEGHS, EXCESS, TINDEX). *)
Record heat := { h_we : Q; h_liqw : Q; h_neghs : Q; h_excess : Q; h_tindex : Q }.
Definition heatwatr (melt rain cnhs cnhspx wcplw we neghs liqw tindex : Q) : heat :=
  let water := melt + rain in
  let ht := cnhs + cnhspx in
  let liqwmx := wcplw * we in
  let n1 := neghs + ht in
  let n2 := if qlt n1 0 then 0 else n1 in
  let n3 := if qlt ((33 # 100) * we) n2 then (33 # 100) * we else n2 in
  let '(we', liqw', neghs', excess) :=
    if qlt (water + liqw) (liqwmx + n3 + wcplw * n3) then
      if qlt water n3 then (we + water, liqw, n3 - water, 0)                 (* 231 *)
      else (we + n3, liqw + water - n3, 0, 0)                                (* 230 *)
    else (we + n3, liqwmx + wcplw * n3, 0,
          water + liqw - liqwmx - n3 - wcplw * n3) in
  let t1 := if qlt 0 tindex then 0 else tindex in
  let t2 := if qeq neghs' 0 then 0 else t1 in
  {| h_we := we'; h_liqw := liqw'; h_neghs := neghs'; h_excess := excess;
     h_tindex := t2 |}.

(** State of one hillslope's pack inside the 900 loop of nwsmrun. *)
Record pack := {
  p_we : Q; p_liqw : Q; p_neghs : Q; p_tindex : Q; p_cover : cover;
  p_storage : Q; p_lagro : list Q;
  p_gm : Q  (* ground melt per interval; scaled in place by line 1021 *) }.

(** Constants of a hillslope and day used in the 900 loop. *)
Record snow_par := {
  sp_mr : meltrate_par; sp_rnorsno : Q; sp_sfnew : Q; sp_wcplw : Q; sp_sit : Q;
  sp_mf : Q; sp_ratio : Q; sp_adc : list Q; sp_itpx : Z }.

(** What one pass of the loop adds to SNOWMELT, PSOILMRU and SNOW_EVAP (mm). *)
Record snow_out := { o_packro : Q; o_soil : Q; o_evap : Q; o_nosnow : bool }.

(** nwsmelt_topg.F 1089-1108: label 300, the pack is gone.  The lag array is emptied into
    PACKRO and every pack variable is reset (AESNOW is then skipped, 1134). *)
Definition snow_gone (s : pack) (gmro melt rain soil evap : Q) : pack * snow_out :=
  ({| p_we := 0; p_liqw := 0; p_neghs := 0; p_tindex := 0;
      p_cover := {| c_accmax := 0; c_sb := 0; c_sbws := 0; c_aesc := 0; c_sbaesc := 0 |};
      p_storage := 0; p_lagro := List.map (fun _ => 0) (p_lagro s); p_gm := p_gm s |},
   {| o_packro := gmro + melt + qsum (p_lagro s) + p_storage s + rain;
      o_soil := soil; o_evap := evap; o_nosnow := true |}).

(** One pass I2 of the 900 loop of nwsmrun, nwsmelt_topg.F 893-1145: precipitation [pxi]
    (mm), air temperature [tair].  Daily accounting variables that are not read back
    (DSFALL, DRAIN, DQNET, QNET) are left out; the outputs are in mm (the division by 25.4
    of 1113-1115 is left out). *)
Definition snow_pass (expf pow03 pow13 : Q -> Q) (sp : snow_par) (i2 : Z)
    (pxi tair : Q) (s : pack) : outcome (pack * snow_out) :=
  let c := p_cover s in
  (* 921-957: precipitation; [inl] continues at 120, [inr] goes to 300 *)
  let snowfall := negb (qeq pxi 0) && qle tair (sp_rnorsno sp) in
  let rainfall := negb (qeq pxi 0) && negb (qle tair (sp_rnorsno sp)) in
  if rainfall && qeq (p_we s) 0 then Ret (snow_gone s 0 0 0 pxi 0)           (* 953-956 *)
  else
  let ts := if qlt 0 tair then 0 else tair in
  let we := if snowfall then p_we s + pxi else p_we s in
  let accmax := if snowfall && qle (3 * c_sb c) (we + p_liqw s)
                then we + p_liqw s else c_accmax c in
  let sbws := if snowfall then p_we s + p_liqw s + (75 # 100) * pxi else c_sbws c in
  let cnhspx := if snowfall then - ts * pxi / 160 else 0 in
  let tindex := if snowfall && qlt (sp_sfnew sp) pxi then ts else p_tindex s in
  let tr := if qlt tair 0 then 0 else tair in
  let rainm := if rainfall then (125 # 10000) * pxi * tr else 0 in
  let rain := if rainfall then pxi else 0 in
  let pxi' := if rainfall then pxi else 0 in
  let gm := p_gm s in
  if qle we gm then Ret (snow_gone s (we + p_liqw s) 0 0 pxi' 0)             (* 971-976 *)
  else
  let gmwlos := gm / we * p_liqw s in
  let gmro := gm + gmwlos in
  let '(cnhs, tindex, melt, evap) :=
    meltrate expf (sp_mr sp) tair tindex (sp_ratio sp) (sp_mf sp) rain rainm 0 i2 in
  let aesc := c_aesc c in
  (* 1020-1032 *)
  let part := qlt aesc 1 in
  let gm := if part then gm * aesc else gm in
  let gmro := if part then gmro * aesc else gmro in
  let gmwlos := if part then gmwlos * aesc else gmwlos in
  let melt := if part then melt * aesc else melt in
  let cnhs := if part then cnhs * aesc else cnhs in
  let evap := if part then evap * aesc else evap in
  let pxsoil := if part then rain * (1 - aesc) else 0 in
  let rain := if part then rain - pxsoil else rain in
  let we := we - gm in
  let liqw := p_liqw s - gmwlos in
  let cnhs := if qlt (cnhs + p_neghs s) 0 then - (1) * p_neghs s else cnhs in
  let s1 := {| p_we := we; p_liqw := liqw; p_neghs := p_neghs s; p_tindex := tindex;
               p_cover := c; p_storage := p_storage s; p_lagro := p_lagro s;
               p_gm := gm |} in
  if qle we melt then Ret (snow_gone s1 gmro (we + liqw) rain pxsoil 0)      (* 1043-1047 *)
  else
  let we := we - melt in
  if qle we evap then Ret (snow_gone s1 gmro (melt + we + liqw) rain pxsoil 0) (* 1058-1062 *)
  else
  let we := we - evap in
  let h := heatwatr melt rain cnhs cnhspx (sp_wcplw sp) we (p_neghs s) liqw tindex in
  do r <- route expf pow03 pow13 (sp_itpx sp) (h_excess h) (h_we h) aesc (p_storage s)
                (p_lagro s);
  let '(packro, storage, lagro) := r in
  do c' <- aesnow (sp_adc sp) (h_we h) (h_liqw h) (sp_sit sp)
             {| c_accmax := accmax; c_sb := c_sb c; c_sbws := sbws; c_aesc := aesc;
                c_sbaesc := c_sbaesc c |};
  Ret ({| p_we := h_we h; p_liqw := h_liqw h; p_neghs := h_neghs h;
          p_tindex := h_tindex h; p_cover := c'; p_storage := storage;
          p_lagro := lagro; p_gm := gm |},
       {| o_packro := packro + gmro; o_soil := pxsoil; o_evap := evap;
          o_nosnow := false |}).

(** The 900 loop: nwsmelt_topg.F 893-1145, passes I2, I2+1, ... over the given list of
    (precipitation, temperature).  Result: final pack and the list of outputs. *)
Fixpoint snow_loop (expf pow03 pow13 : Q -> Q) (sp : snow_par) (i2 : Z)
    (inp : list (Q * Q)) (s : pack) : outcome (pack * list snow_out) :=
  match inp with
  | [] => Ret (s, [])
  | (pxi, tair) :: r =>
      do so <- snow_pass expf pow03 pow13 sp i2 pxi tair s;
      let '(s', o) := so in
      do rest <- snow_loop expf pow03 pow13 sp (i2 + 1)%Z r s';
      let '(s'', os) := rest in
      Ret (s'', o :: os)
  end.

(** nwsmelt_topg.F 835-840: the four 6-hour temperatures from the day's minimum and maximum
    and yesterday's maximum. *)
Definition t6hr (tmn tmx tmxpre : Q) : list Q :=
  let tmnpst := tmn - tmx + tmxpre in
  [ (95 # 100) * tmn + (5 # 100) * tmxpre;
    (40 # 100) * tmn + (60 # 100) * tmx;
    (925 # 1000) * tmx + (25 # 1000) * tmn + (5 # 100) * tmnpst;
    (33 # 100) * tmx + (67 # 100) * tmnpst ].

(** One day of one hillslope, nwsmelt_topg.F 781-784 and 793-1145: the day is skipped when
    there is neither frozen water nor precipitation, otherwise the loop runs over the four
    6-hour intervals with a quarter of the day's precipitation (mm) and of the daily ground
    melt [daygm] (mm).  The conversions inch <-> mm of the carry-over variables are left out.
    (On a skipped day the published water equivalent is set to 0 at 782.) *)
Definition snow_day (expf pow03 pow13 : Q -> Q) (sp : snow_par) (daygm pmru tmn tmx tmxpre : Q)
    (s : pack) : outcome (pack * list snow_out) :=
  if qeq (p_we s) 0 && qeq pmru 0 then Ret (s, [])
  else
    let s0 := {| p_we := p_we s; p_liqw := p_liqw s; p_neghs := p_neghs s;
                 p_tindex := p_tindex s; p_cover := p_cover s;
                 p_storage := p_storage s; p_lagro := p_lagro s; p_gm := daygm / 4 |} in
    snow_loop expf pow03 pow13 sp 1
      (List.map (fun t => (pmru / 4, t)) (t6hr tmn tmx tmxpre)) s0.

(** A sequence of days of one hillslope: nwsmrun called once per day, with the carry-over of
    nwsmelt_topg.F 815-830 / 1169-1177 and yesterday's maximum temperature (816, 842).
    A day is (parameters, daily ground melt, precipitation, minimum, maximum). *)
Fixpoint snow_run (expf pow03 pow13 : Q -> Q) (days : list (snow_par * Q * Q * Q * Q))
    (tmxpre : Q) (s : pack) : outcome (pack * list snow_out) :=
  match days with
  | [] => Ret (s, [])
  | (sp, daygm, pmru, tmn, tmx) :: r =>
      do so <- snow_day expf pow03 pow13 sp daygm pmru tmn tmx tmxpre s;
      let '(s', os) := so in
      do rest <- snow_run expf pow03 pow13 r tmx s';
      let '(s'', os') := rest in
      Ret (s'', os ++ os')
  end.
