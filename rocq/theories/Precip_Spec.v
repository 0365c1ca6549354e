(** What partitioning deposition into rain and snow should do. *)
From Coq Require Import QArith ZArith Bool List.
From Verif Require Import Qx Precip_Model.
Import ListNotations.
Local Open Scope Q_scope.

Definition sensible (w : weather) : Prop := tmin w <= tmax w /\ 0 <= adjmix w.

(** [total] is split correctly. *)
Definition split_ok (total : Q) (s : split) : Prop :=
  rain s + snow s == total /\ 0 <= rain s /\ 0 <= snow s /\
  (0 < total -> 0 <= prmx s /\ prmx s <= 1 /\ rain s == prmx s * total).

(** Nothing is lost. *)
Definition amounts_ok (total : Q) (s : split) : Prop := rain s + snow s == total /\ 0 <= rain s /\ 0 <= snow s.
(** The kind of weather decides: cold days are all snow, warm ones all rain. *)
Definition kind_ok (w : weather) (s : split) : Prop :=
  (tmax w <= allsnow w -> rain s == 0) /\
  (allsnow w < tmax w -> allsnow w < tmin w \/ allrain w <= tmax w -> snow s == 0) /\
  (pptmix s = true -> tmin w <= allsnow w /\ allsnow w < tmax w /\ tmax w < allrain w).
(** The flag for new snow. *)
Definition flag_ok (w : weather) (s : split) : Prop := (tmax w <= allsnow w -> newsnow s = 1%Z) /\ (0 < snow s -> newsnow s = 1%Z) /\ (allsnow w < tmin w -> newsnow s = 0%Z).
(** Days on which rain and snow fall, by their temperatures. *)
Definition mixed_day (w : weather) : Prop := tmin w <= allsnow w /\ allsnow w < tmax w /\ tmax w < allrain w.

Definition mru_ok (m : mru) : Prop :=
  sensible (m_weather m) /\ 0 <= m_ppt m /\
  (m_ppt m == 0 -> m_dep m == 0 /\ rain (m_split m) == 0 /\ snow (m_split m) == 0) /\
  0 <= sat_next m /\ 0 <= hyd_next m /\ 0 <= int_init m.

(** Water in cubic meters delivered to the MRUs fed by [seg]. *)
Definition fed_by (ms : list mru) (os : list mru_out) (seg : Z) : Q :=
  qsum (map (fun p => if (int_src (fst p) =? seg)%Z
                      then hyd (snd p) * (254 # 10000) * area (fst p) * 1000000 else 0) (combine ms os)).
Definition weighted (f : mru_out -> Q) (ms : list mru) (os : list mru_out) : Q :=
  qsum (map (fun p => f (snd p) * area_frac (fst p)) (combine ms os)).
(** Days of the same hillslopes: their parameters do not change. *)
Definition params (m : mru) : Z * Z * Z * Q := (sched_ext m, sched_int m, int_src m, int_init m).
Definition same_hillslopes (ms : list mru) (days : list ((Z -> Q) * list mru)) : Prop := Forall (fun d => map params (snd d) = map params ms) days.
