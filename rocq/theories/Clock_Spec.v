(** What the end-of-period flags should say. *)
From Coq Require Import QArith ZArith Bool List.
From Verif Require Import Calendar_Model Calendar_Spec Clock_Model.
Import ListNotations.
Local Open Scope Z_scope.

(** A moment of the modern calendar. *)
Definition proper (m : moment) : Prop :=
  Valid (on m) /\ 1583 < dy (on m) /\ 0 <= hour m < 24 /\ 0 <= minute m < 60 /\ 0 <= second m < 60.
(** The absolute time of a moment, in days. *)
Definition instant (m : moment) (x : Q) : Prop :=
  exists n, julday (on m) = Some n /\ (x == inject_Z n + time_of_day (hour m) (minute m) (second m))%Q.

(** [m] is in the last step of its day: the day is over within a step and a tenth. *)
Definition closes_day (m : moment) : Prop :=
  (24 <= step_hours m \/
   1 <= time_of_day (hour m) (minute m) (second m) + (11 # 10) * step_hours m / 24)%Q.
Definition last_of_month (t : date) : Prop := dd t = Days_in_month (dy t) (dm t).
(** Water years end on 30 September. *)
Definition last_of_year (t : date) : Prop := dm t = 9 /\ dd t = 30.

(** A run that enters no year except through its first day. *)
Fixpoint enters_by_january (ts : list moment) : Prop :=
  match ts with
  | a :: (b :: _) as r =>
      (dy (on a) = dy (on b) \/ (dm (on b) = 1 /\ dd (on b) = 1)) /\ enters_by_january r
  | _ => True
  end.

(** The flags of a moment. *)
Definition flags_right (endjday : Q) (m : moment) (f : flags) : Prop :=
  exists x, instant m x /\
  (f_run f = true <-> (endjday <= x)%Q) /\
  (f_storm f = true <-> (endjday <= x)%Q) /\
  (f_day f = true <-> closes_day m \/ (endjday <= x)%Q) /\
  (f_month f = true <-> (last_of_month (on m) /\ closes_day m) \/ (endjday <= x)%Q) /\
  (f_year f = true <-> (last_of_year (on m) /\ closes_day m) \/ (endjday <= x)%Q).
