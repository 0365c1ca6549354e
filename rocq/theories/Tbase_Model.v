(** Interpolation of a time series to other times in TSPROC: time_interp_s, tsproc-trunk/tsproc-master/src/tsp_command_processors.F90 918-1191,
    without EXTRAP and DIRECTION, as TIME_BASE calls it (tsp_time_series_processors.F90 5521-5528).  Values are exact rationals, days and
    seconds unbounded integers; samples are those of [Vol_Model].  Casting to single precision is left out. *)
From Coq Require Import List ZArith QArith Qabs Bool Arith.
From Verif Require Import Qx Vol_Model.
Import ListNotations.
Local Open Scope Q_scope.

(** Entry [i] of the arrays, from 1. *)
Definition entry (l : list sample) (i : nat) : option sample := match i with O => None | S k => nth_error l k end.
(** 1024 and others: time from one moment to another in days *)
Definition time_to (d1 s1 d2 s2 : Z) : Q := inject_Z (d2 - d1) + inject_Z (s2 - s1) * (1 # 86400).
(** 1041-1043: first entry from [i] on that is not before the time; one past the last if there is none *)
Fixpoint search (fuel : nat) (l : list sample) (i : nat) (d s : Z) : nat :=
  match fuel with
  | O => i
  | S f => match entry l i with
           | None => i
           | Some x => if qle 0 (time_to d s (days x) (secs x)) then i else search f l (S i) d s
           end
  end.
(** 1008-1015 *)
Definition clamp (nbore istart : nat) : nat := let i := if (istart <? 1)%nat then 1%nat else istart in if (nbore - 1 <? i)%nat then (nbore - 1)%nat else i.

Definition low : Q := inject_Z (- 10 ^ 38).
Definition before_first : Q := inject_Z (-81 * 10 ^ 36).
Definition after_last : Q := inject_Z (-91 * 10 ^ 36).
Definition too_far : Q := inject_Z (-71 * 10 ^ 36).
Definition missing_value : Q := inject_Z (-11 * 10 ^ 37).

(** 1041-1191: more samples than one.  The value, or [None] for ifail = 1, and the place to start from next time. *)
Definition interp_many (l : list sample) (d s : Z) (rnear rconst : Q) (startindex : nat) : option Q * nat :=
  let i := search (S (length l)) l (clamp (length l) startindex) d s in
  match entry l i with
  | None =>
      match entry l (length l) with
      | None => (None, 0%nat)
      | Some x => (Some (if qle (time_to (days x) (secs x) d s) rconst then flow x else after_last), i)
      end
  | Some x =>
      let diff := time_to d s (days x) (secs x) in
      if (i =? 1)%nat then (Some (if qle diff rconst then flow x else before_first), i)
      else match entry l (i - 1) with
           | None => (None, 0%nat)
           | Some p =>
               let dentime := time_to (days p) (secs p) (days x) (secs x) in
               if qle dentime 0 then (None, 0%nat)
               else
                 let diff1 := dentime - diff in
                 let v := if qlt rnear diff1 && qlt rnear diff then too_far else flow p + (flow x - flow p) / dentime * diff1 in
                 let v := if qlt (flow x) low then (if qle diff1 rconst then flow p else missing_value)
                          else if qlt (flow p) low then (if qle diff rconst then flow x else missing_value)
                          else v in
                 (Some v, i)
           end
  end.
(** 1019-1031 for one sample *)
Definition interp (l : list sample) (d s : Z) (rnear rconst : Q) (startindex : nat) : option Q * nat :=
  match l with
  | [x] =>
      let diff := time_to (days x) (secs x) d s in
      (Some (if qle (Qabs diff) rconst then flow x else if qlt 0 diff then after_last else before_first), startindex)
  | _ => interp_many l d s rnear rconst startindex
  end.

(** 5523-5528 *)
Fixpoint on_base (l : list sample) (base : list (Z * Z)) (istart : nat) : list (option Q) :=
  match base with
  | [] => []
  | (d, s) :: r => let (v, istart) := interp l d s (inject_Z (10 ^ 20)) 0 istart in v :: on_base l r istart
  end.
Definition time_base (l : list sample) (base : list (Z * Z)) : list (option Q) := on_base l base 0.
