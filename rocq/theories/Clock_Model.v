(** The end-of-period clock: webmod.d/src/io.F iorun 320-415, and its readers: route_clark.F
    816-846, topmod_chem.F 2110-2140, webmod_res.F 2116-2146, phreeq_mms.F90 6610-6640 and
    web_sum.F 1496-1540.
    Double precision is exact rationals; the single precision constant 1.1 is 11/10. *)
From Coq Require Import QArith ZArith Bool List String.
From Verif Require Import Qx Calendar_Model.
Import ListNotations.
Local Open Scope Z_scope.

(** Saved variables step1, yrdays and modays(2), io.F 28 and 50. *)
Record clock := { step1 : bool; yrdays : Z; feb : Z }.
(** io.F 52 and step1 at the start: yrdays has no initial value but is set on the first step. *)
Definition clock0 : clock := {| step1 := true; yrdays := 0; feb := 28 |}.

(** data modays, io.F 52. *)
Definition modays (c : clock) (mo : Z) : Z :=
  if mo =? 2 then feb c
  else nth (Z.to_nat (mo - 1)) [31; 28; 31; 30; 31; 30; 31; 31; 30; 31; 30; 31] 0.

Record flags := { f_storm : bool; f_day : bool; f_month : bool; f_year : bool; f_run : bool }.
Definition iflag (b : bool) : Z := if b then 1 else 0.
(** io.F 410. *)
Definition encode (f : flags) : Z :=
  iflag (f_run f) * 16 + iflag (f_year f) * 8 + iflag (f_month f) * 4 + iflag (f_day f) * 2
  + iflag (f_storm f).

(** io.F 354-363. *)
Definition wind (c : clock) (year cday : Z) : clock :=
  if step1 c || (cday =? 1) then
    if isleap year =? 1 then {| step1 := false; yrdays := 366; feb := 29 |}
    else {| step1 := false; yrdays := 365; feb := 28 |}
  else c.
(** io.F 365-377. *)
Definition end_of_day (jday timestep : Q) : bool :=
  let stepcheck := ((11 # 10) * timestep / 24 + jday)%Q in
  if qle 24 timestep then true else trunc jday <? trunc stepcheck.
(** io.F 386-405. *)
Definition set_flags (c : clock) (mo day wyday : Z) (jday endjday timestep : Q) : flags :=
  let end_dy := end_of_day jday timestep in
  if qle endjday jday then
    {| f_storm := true; f_day := true; f_month := true; f_year := true; f_run := true |}
  else if (wyday =? yrdays c) && end_dy then
    {| f_storm := false; f_day := end_dy; f_month := true; f_year := true; f_run := false |}
  else if (day =? modays c mo) && end_dy then
    {| f_storm := false; f_day := end_dy; f_month := true; f_year := false; f_run := false |}
  else {| f_storm := false; f_day := end_dy; f_month := false; f_year := false; f_run := false |}.

(** The time of a step: date and time of day, and the length of the step in hours. *)
Record moment := { on : date; hour : Z; minute : Z; second : Z; step_hours : Q }.

(** iorun, 320-415: the new saved state and endper.  [None]: the calendar functions stop. *)
Definition iorun (endjday : Q) (c : clock) (m : moment) : option (clock * Z) :=
  match julian "water" (on m), julian "calendar" (on m),
        djulian "absolute" (on m) (hour m) (minute m) (second m) with
  | Ok wyday, Ok cday, Ok jday =>
      let c' := wind c (dy (on m)) cday in
      Some (c', encode (set_flags c' (dm (on m)) (dd (on m)) wyday jday endjday (step_hours m)))
  | _, _, _ => None
  end.
Fixpoint iorun_all (endjday : Q) (c : clock) (ms : list moment) : option (list Z) :=
  match ms with
  | [] => Some []
  | m :: r => match iorun endjday c m with
              | Some (c', e) => match iorun_all endjday c' r with Some l => Some (e :: l) | None => None end
              | None => None
              end
  end.

(** route_clark.F 816-846; the four other readers have the same statements. *)
Definition decode (endper : Z) : flags :=
  let storm := negb (endper =? 0) && negb (Z.rem endper 2 =? 0) in
  let e1 := if storm then endper - 1 else endper in
  if e1 =? 0 then {| f_storm := storm; f_day := false; f_month := false; f_year := false; f_run := false |}
  else let e2 := e1 - 2 in
    if e2 =? 0 then {| f_storm := storm; f_day := true; f_month := false; f_year := false; f_run := false |}
    else let e3 := e2 - 4 in
      if e3 =? 0 then {| f_storm := storm; f_day := true; f_month := true; f_year := false; f_run := false |}
      else let e4 := e3 - 8 in
        {| f_storm := storm; f_day := true; f_month := true; f_year := true; f_run := negb (e4 =? 0) |}.
