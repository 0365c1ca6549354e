(** What the canopy properties mean. *)
From Coq Require Import QArith ZArith List.
From Verif Require Import Qx Canopy_Model.
Local Open Scope Q_scope.

(** Parameters and inputs in range.  The basin deposition is positive when a hillslope gets
    snow (it is an area average). *)
Definition canopy_ok (c : canopy) : Prop :=
  0 <= covden_sum c <= 1 /\ 0 <= covden_win c <= 1 /\
  0 <= srain c /\ 0 <= wrain c /\ 0 <= snowcap c.
Definition weather_ok (w : weather) : Prop :=
  0 <= rain w /\ 0 <= snow w /\ 0 <= potet w /\ (0 < snow w -> 0 < basin_dep w).

(** Water on the canopy per unit area: storage weighted by the cover density of the season. *)
Definition canopy_water (c : canopy) (s : cstate) : Q :=
  (if tr s then covden_sum c else covden_win c) * stor s.

(** The season does not change in a way that loses water: no leaf fall with water stored,
    no leaf growth on a bare canopy with water stored. *)
Definition season_kept (c : canopy) (w : weather) (s : cstate) : Prop :=
  tr s = transp w \/ covden_sum c == covden_win c /\ ~ covden_sum c == 0 \/ stor s == 0 \/
  (tr s = false /\ transp w = true /\ ~ covden_sum c == 0).

(** Cover types for which no stored water is discarded in the step. *)
Definition type_kept (c : canopy) (w : weather) (s : cstate) : Prop :=
  (1 < cov_type c)%Z \/
  (stor s == 0 /\ (cov_type c <> 1%Z \/ rain w == 0 \/ snow w == 0)).
