(** Periods made from a series, tsproc-trunk/tsproc-master/src/tsp_utilities.F90: make_date_list 2104-2213.  The lowest of no numbers is the
    largest integer of 32 bits, the highest the smallest, as the compiler has it. *)
From Coq Require Import List ZArith Bool Arith.
From Verif Require Import Tsdate_Model.
Import ListNotations.
Local Open Scope Z_scope.

(** tsp_utilities.F90 2165, 2191: minval with a mask *)
Definition minval (l : list Z) : Z := fold_right Z.min 2147483647 l.
(** 2168, 2194: maxval with a mask *)
Definition maxval (l : list Z) : Z := fold_right Z.max (-2147483648) l.
(** 2135-2140 with the masks of 2157-2195 *)
Definition in_year (y : Z) (d : Z) : bool := yr (gregorian_date d) =? y.
Definition in_month (y m : Z) (d : Z) : bool := (yr (gregorian_date d) =? y) && (mo (gregorian_date d) =? m).
(** 2155, 2180-2181: the numbers of a DO loop *)
Definition range (a b : Z) : list Z := map (fun k => a + Z.of_nat k) (seq 0 (Z.to_nat (b - a + 1))).

(** 2157-2169 *)
Definition one_year (dates : list Z) (y : Z) : list (Z * Z) :=
  if (length (filter (in_year y) dates) <? 350)%nat then []
  else [(minval (filter (in_month y 1) dates), maxval (filter (in_month y 12) dates))].
(** 2183-2195 *)
Definition one_month (dates : list Z) (ym : Z * Z) : list (Z * Z) :=
  let l := filter (in_month (fst ym) (snd ym)) dates in
  if (length l <? 25)%nat then [] else [(minval l, maxval l)].
(** 2125-2133: years from that of the first sample to that of the last; [None] without samples *)
Definition years (dates : list Z) : option (list Z) :=
  match dates with
  | [] => None
  | d :: r => Some (range (yr (gregorian_date d)) (yr (gregorian_date (last r d))))
  end.
(** 2180-2181: the loops over years and months *)
Definition months (ys : list Z) : list (Z * Z) := flat_map (fun y => map (fun m => (y, m)) (range 1 12)) ys.
(** 2148-2171, 2207-2212: list type ANNUAL *)
Definition annual (dates : list Z) : option (list (Z * Z)) := option_map (flat_map (one_year dates)) (years dates).
(** 2173-2198, 2207-2212: list type MONTHLY *)
Definition monthly (dates : list Z) : option (list (Z * Z)) := option_map (fun ys => flat_map (one_month dates) (months ys)) (years dates).
