(** Model of the calendar code of mmf_c.  Dates are triples (year, month, day)
    of unbounded integers; years before Christ are negative, there is no year 0. *)
From Coq Require Import ZArith QArith String Bool.
Local Open Scope Z_scope.

(** /repo/mmf_c/src/defs.h, struct DATETIME (year, month, day, hour, min, sec, jd, jt):
    the calendar part. *)
Record date := mkdate { dy : Z; dm : Z; dd : Z }.

(** /repo/mmf_c/src/julday.c:15 (IGREG). *)
Definition IGREG : Z := 15 + 31 * (10 + 12 * 1582).

(** /repo/mmf_c/src/julday.c:26-64 (julday), the value stored in datetime->jd;
    [None] is the "there is no year zero" return, which leaves jd untouched.
    Simplification: floor(365.25*jy) and floor(30.6001*jm) are written as the exact
    integer floors of 1461*jy/4 and 306001*jm/10000; (int)(0.01*jy) and (int)(0.25*ja)
    as C truncating divisions.  long is unbounded. *)
Definition julday (t : date) : option Z :=
  let iyyy0 := dy t in
  let mm := dm t in
  let id := dd t in
  if iyyy0 =? 0 then None
  else
    let iyyy := if iyyy0 <? 0 then iyyy0 + 1 else iyyy0 in
    let jy := if 2 <? mm then iyyy else iyyy - 1 in
    let jm := if 2 <? mm then mm + 1 else mm + 13 in
    let jul := 1461 * jy / 4 + 306001 * jm / 10000 + id + 1720995 in
    if IGREG <=? id + 31 * (mm + 12 * iyyy) then
      let ja := Z.quot jy 100 in
      Some (jul + (2 - ja + Z.quot ja 4))
    else Some jul.

(** /repo/mmf_c/src/julday.c:59-61: datetime->jt, the day number with the time of day
    as a fraction.  Exact rationals instead of doubles. *)
Definition time_of_day (hour min sec : Z) : Q :=
  ((hour # 24) + (min # 1440) + (sec # 86400))%Q.

Definition julday_jt (t : date) (hour min sec : Z) : option Q :=
  match julday t with
  | None => None
  | Some jd => Some (inject_Z jd + time_of_day hour min sec)%Q
  end.

(** /repo/mmf_c/src/julconvert.c:101-130 (isleap).  modf(x/n) == 0 is exact divisibility. *)
Definition isleap (year : Z) : Z :=
  if negb (Z.rem year 4 =? 0) then 0
  else if (Z.rem year 4 =? 0) && negb (Z.rem year 100 =? 0) then 1
  else if negb (Z.rem year 400 =? 0) then 0
  else 1.

(** /repo/mmf_c/src/julconvert.c:78-81 (dayofweek): (int)(j + 0.5 + 1) % 7 for a
    day number j given as an exact rational; the cast truncates (j is positive here). *)
Definition dayofweek (j : Q) : Z :=
  let x := (j + (1 # 2) + 1)%Q in
  Z.rem (Z.quot (Qnum x) (Zpos (Qden x))) 7.

(** Outcomes of the day-of-year queries: [UB] is the use of the uninitialised
    reftime.jd after julday refused the reference date; [Exit] is exit(1). *)
Inductive outcome (A : Type) : Type :=
| Ok (a : A)
| UB
| Exit.
Arguments Ok {A} _. Arguments UB {A}. Arguments Exit {A}.

(** /repo/mmf_c/src/timing.c:244-269: reference date selected by the "type" argument.
    [None] stands for an unknown type. *)
Definition reftime (type : string) (t : date) : option date :=
  if String.eqb type "calendar" then Some (mkdate (dy t - 1) 12 31)
  else if String.eqb type "solar" then
    if (dm t =? 12) && (21 <? dd t) then Some (mkdate (dy t) 12 21)
    else Some (mkdate (dy t - 1) 12 21)
  else if String.eqb type "spring" then
    if (3 <? dm t) || ((dm t =? 3) && (20 <? dd t)) then Some (mkdate (dy t) 3 20)
    else Some (mkdate (dy t - 1) 3 20)
  else if String.eqb type "water" then
    if 9 <? dm t then Some (mkdate (dy t) 9 30)
    else Some (mkdate (dy t - 1) 9 30)
  else None.

(** /repo/mmf_c/src/timing.c:220-292 (julian), after the selection of the time named
    by "when" (start, end or now). *)
Definition julian (type : string) (t : date) : outcome Z :=
  match reftime type t with
  | Some r =>
      match julday t, julday r with
      | Some a, Some b => Ok (a - b)
      | _, _ => UB
      end
  | None =>
      if String.eqb type "absolute" then
        match julday t with Some a => Ok a | None => UB end
      else Exit
  end.

(** /repo/mmf_c/src/timing.c:435-452: the reference date of djulian; as [reftime]
    but without the "spring" clock. *)
Definition dreftime (type : string) (t : date) : option date :=
  if String.eqb type "spring" then None else reftime type t.

(** /repo/mmf_c/src/timing.c:411-475 (djulian): day of year with the time of day. *)
Definition djulian (type : string) (t : date) (hour min sec : Z) : outcome Q :=
  match dreftime type t with
  | Some r =>
      match julday_jt t hour min sec, julday_jt r 0 0 0 with
      | Some a, Some b => Ok (a - b)%Q
      | _, _ => UB
      end
  | None =>
      if String.eqb type "absolute" then
        match julday_jt t hour min sec with Some a => Ok a | None => UB end
      else Exit
  end.
