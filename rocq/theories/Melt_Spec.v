(** What the snow report says about the melt of one six-hour period: a degree-day rule when
    there is little or no rain, an energy budget when it rains. *)
From Coq Require Import QArith ZArith.
Local Open Scope Q_scope.

(** [m] is the larger of [x] and zero. *)
Definition floored (x m : Q) : Prop := (0 <= x /\ m == x) \/ (x <= 0 /\ m == 0).

(** Vapour pressure (mb) of saturated air at [t] degrees, from an exponential function. *)
Definition saturated (expf : Q -> Q) (t : Q) : Q :=
  274890000 * expf (- (427863 # 100) / (t + (242792 # 1000))).

(** Energy (mm of melt) that a rainy period at [t] degrees brings to the snow: long-wave
    exchange with a surface at zero degrees, condensation from air at 90 percent humidity and
    sensible heat, both by the wind function, and the heat of the rain. *)
Definition energy (expf : Q -> Q) (stefan wind pressure heat_of_rain t : Q) : Q :=
  stefan * (Qpower ((t + 273) / 100) 4 - (5555 # 100)) +
  (85 # 10) * wind * ((9 # 10) * saturated expf t - (611 # 100)
                      + (57 # 100000) * pressure * t) +
  heat_of_rain.

(** [x] lies between [a] and [b], in either order. *)
Definition between (a b x : Q) : Prop := (a <= x /\ x <= b) \/ (b <= x /\ x <= a).
