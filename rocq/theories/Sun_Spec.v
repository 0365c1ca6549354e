(** Specification for C84-C86: the year's table of the sun, intervals of time. *)
From Coq Require Import QArith ZArith Bool List.
From Verif Require Import Qx Calendar_Model Calendar_Spec Temp_Spec Sun_Model.
Import ListNotations.
Local Open Scope Q_scope.

(** Days of the year with a value in the table and the number of days to the next of them, from 22 December on; the half year after midsummer has the
    values of the days with the same height of the sun before it. *)
Definition knots (leap : bool) : list (Z * Z) :=
  [(356, 19); (10, 13); (23, 15); (38, 13); (51, if leap then 16 else 15); (66, 14); (80, 14); (94, 15); (109, 14); (123, 15); (138, 14); (152, 21);
   (173, 20); (152, 15); (138, 14); (123, 15); (109, 15); (94, 14); (80, 15); (66, 14); (51, 14); (38, 14); (23, 14); (10, 18)]%Z.
(** Where [x] days after the first knot is: the knot before, the knot after (the last is the first again), days since, days between. *)
Fixpoint spot (x : Z) (l : list (Z * Z)) : option (Z * Z * Z * Z) :=
  match l with
  | [] => if (x =? 0)%Z then Some (356, 356, 0, 1)%Z else None
  | (a, n) :: r => if (x <? n)%Z then Some (a, match r with (b, _) :: _ => b | [] => 356%Z end, x, n) else spot (x - n) r
  end.
(** The straight line between the two knots. *)
Definition curve (tab : Z -> Q) (leap : bool) (day : Z) : option Q :=
  match spot (day - 1) (knots leap) with Some (a, b, x, n) => Some (tab a + inject_Z x / inject_Z n * (tab b - tab a)) | None => None end.
(** The calendar year that holds most of the year from 22 December to 21 December around a date. *)
Definition solar_year (d : date) : Z := if ((dm d =? 12) && (21 <? dd d))%Z then (dy d + 1)%Z else dy d.
Definition leap_year (y : Z) : bool := (((y mod 4 =? 0) && negb (y mod 100 =? 0)) || (y mod 400 =? 0))%Z.
(** Length of the time common to two intervals. *)
Definition common (a b c d : Q) : Q := let x := (if qlt b d then b else d) - (if qlt a c then c else a) in if qlt x 0 then 0 else x.
