(** Specification for C80-C83: dates of a run, running means, the months of a season. *)
From Coq Require Import QArith ZArith Bool List.
From Verif Require Import Qx Calendar_Model Calendar_Spec Temp_Model.
Import ListNotations.
Local Open Scope Q_scope.

(** The steps of a run: each is on the day of the step before or on the next day. *)
Fixpoint follow (d : date) (l : list date) : Prop := match l with [] => True | e :: r => (e = d \/ e = Next_day d) /\ follow e r end.
(** One step per day. *)
Fixpoint daily (d : date) (l : list date) : Prop := match l with [] => True | e :: r => e = Next_day d /\ daily e r end.
(** The sum of the latest temperatures that fit in a window of [room] days, the latest first; of the oldest one only the part that fits. *)
Fixpoint in_window (room : Q) (latest : list Q) : Q :=
  match latest with [] => 0 | t :: r => (if qle 1 room then 1 else if qle 0 room then room else 0) * t + in_window (room - 1) r end.
Definition whole_or_far (days : Q) : Prop := days == inject_Z (Qround.Qceiling days) \/ nearzero < inject_Z (Qround.Qceiling days) - days.
Definition first_of (m : Z) (d : date) : Prop := dd d = 1%Z /\ dm d = m.
Definition warmth (l : list Q) : Q := qsum (map (fun t => if qlt 0 t then t else 0) l).
Definition rest : season := mkSeason false false 0.
(** Months after the month [b] and before the month [e], going round the year. *)
Definition between_months (b e m : Z) : Prop := (0 < (m - b) mod 12 /\ (m - b) mod 12 < (if b =? e then 12 else (e - b) mod 12))%Z.
(** The temperature a statistic names: 1 the lowest, 2 the average, 3 the highest of the day. *)
Definition named (k : Z) (a : air) : Q := if (k =? 1)%Z then a_min a else if (k =? 2)%Z then a_temp a else a_max a.
(** The potential evaporation of a day with the conditions of the step [x]. *)
Definition own (expf : Q -> Q) (coef epan : Z -> Q) (x : pet_in) : Q := daily_potet expf (e_pan x) (coef (dm (e_date x))) (epan (dm (e_date x))) (e_sun x) (e_avg x).
