(** The Gregorian calendar, independently of the code. *)
From Coq Require Import ZArith Bool.
From Verif Require Import Tsdate_Model.
Local Open Scope Z_scope.

Definition Leap (y : Z) : bool := ((y mod 4 =? 0) && negb (y mod 100 =? 0)) || (y mod 400 =? 0).
Definition Days (y m : Z) : Z :=
  if m =? 2 then (if Leap y then 29 else 28)
  else if (m =? 4) || (m =? 6) || (m =? 9) || (m =? 11) then 30 else 31.
(** A date of the years 1 and later. *)
Definition Valid (t : date) : Prop := 1 <= yr t /\ 1 <= mo t <= 12 /\ 1 <= da t <= Days (yr t) (mo t).
Definition Next (t : date) : date :=
  if da t <? Days (yr t) (mo t) then mkdate (yr t) (mo t) (da t + 1)
  else if mo t <? 12 then mkdate (yr t) (mo t + 1) 1 else mkdate (yr t + 1) 1 1.
Fixpoint After (n : nat) (t : date) : date := match n with O => t | S k => Next (After k t) end.
Definition Before (a b : date) : Prop :=
  yr a < yr b \/ (yr a = yr b /\ (mo a < mo b \/ (mo a = mo b /\ da a < da b))).
