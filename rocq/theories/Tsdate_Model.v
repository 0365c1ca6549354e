(** Dates of TSPROC, tsproc-trunk/tsproc-master/src/tsp_utilities.F90: leap 451-464, newdate 635-662, numdays 1241-1271, day_of_year 1924-1940,
    julian_day 1964-1998, num_days_in_year 2066-2076, gregorian_date 2244-2290, water_year_and_day 2296-2322.  Integers do not overflow
    (in 32 bits they do for years beyond 1.4 million); [quot] and [rem] are the truncating division and remainder of Fortran.  The
    optional origin is 0 where it is left out. *)
From Coq Require Import ZArith Bool.
Local Open Scope Z_scope.

Record date := mkdate { yr : Z; mo : Z; da : Z }.

(** 451-464 *)
Definition leap (y : Z) : bool :=
  ((Z.rem y 4 =? 0) && negb (Z.rem y 100 =? 0)) || ((Z.rem y 400 =? 0) && negb (y =? 0)).

(** 1964-1998, products and quotients from left to right *)
Definition julian_day (t : date) : Z :=
  let i := yr t in let j := mo t in let k := da t in
  k - 32075 + Z.quot (1461 * (i + 4800 + Z.quot (j - 14) 12)) 4
  + Z.quot (367 * (j - 2 - Z.quot (j - 14) 12 * 12)) 12
  - Z.quot (3 * Z.quot (i + 4900 + Z.quot (j - 14) 12) 100) 4.

(** 2244-2290 *)
Definition gregorian_date (jd : Z) : date :=
  let l := jd + 68569 in
  let n := Z.quot (4 * l) 146097 in
  let l := l - Z.quot (146097 * n + 3) 4 in
  let i := Z.quot (4000 * (l + 1)) 1461001 in
  let l := l - Z.quot (1461 * i) 4 + 31 in
  let j := Z.quot (80 * l) 2447 in
  let k := l - Z.quot (2447 * j) 80 in
  let l := Z.quot j 11 in
  let j := j + 2 - 12 * l in
  let i := 100 * (n - 49) + i + l in
  mkdate i j k.

(** 635-662 *)
Definition newdate (ndays : Z) (t : date) : date := gregorian_date (julian_day t + ndays).
(** 1241-1271 *)
Definition numdays (r t : date) : Z := julian_day t - julian_day r.
(** 1333-1345 *)
Definition numsecs (h1 m1 s1 h2 m2 s2 : Z) : Z := (h2 - h1) * 3600 + (m2 - m1) * 60 + s2 - s1.
(** 1924-1940 *)
Definition day_of_year (jd : Z) : Z := jd - julian_day (mkdate (yr (gregorian_date jd)) 1 1) + 1.
(** 2066-2076 *)
Definition num_days_in_year (y : Z) : Z := julian_day (mkdate y 12 31) - julian_day (mkdate y 1 1) + 1.
(** 2296-2322: the water year and the day of it *)
Definition water_year_and_day (jd : Z) : Z * Z :=
  let t := gregorian_date jd in
  let '(wy, origin) := if 10 <=? mo t then (yr t + 1, julian_day (mkdate (yr t) 10 1))
                       else (yr t, julian_day (mkdate (yr t - 1) 10 1)) in
  let day := if (mo t =? 2) && (da t =? 29) then 151
             else let d := julian_day t - origin in
                  if (151 <=? d) && negb (leap (yr t)) then d + 1 else d in
  (wy, day).
