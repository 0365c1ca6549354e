(** What a calendar is, independently of the code: valid dates, the next day,
    chronological order. *)
From Coq Require Import ZArith String Bool.
From Verif Require Import Calendar_Model.
Local Open Scope Z_scope.

(** Leap years of the historical calendar: every fourth year in the Julian calendar
    (year -1 is followed by year 1, so 1 BC, 5 BC, ... are leap), and the Gregorian rule
    after 1582. *)
Definition Leap (y : Z) : bool :=
  if y <? 0 then (y + 1) mod 4 =? 0
  else if y <=? 1582 then y mod 4 =? 0
  else ((y mod 4 =? 0) && negb (y mod 100 =? 0)) || (y mod 400 =? 0).

Definition Days_in_month (y m : Z) : Z :=
  if m =? 2 then (if Leap y then 29 else 28)
  else if (m =? 4) || (m =? 6) || (m =? 9) || (m =? 11) then 30
  else 31.

(** A date that exists: no year 0, and 5-14 October 1582 were skipped. *)
Definition Valid (t : date) : Prop :=
  dy t <> 0 /\ 1 <= dm t <= 12 /\ 1 <= dd t <= Days_in_month (dy t) (dm t) /\
  ~ (dy t = 1582 /\ dm t = 10 /\ 5 <= dd t <= 14).

Definition Next_year (y : Z) : Z := if y =? -1 then 1 else y + 1.

Definition Next_day (t : date) : date :=
  if (dy t =? 1582) && (dm t =? 10) && (dd t =? 4) then mkdate 1582 10 15
  else if dd t <? Days_in_month (dy t) (dm t) then mkdate (dy t) (dm t) (dd t + 1)
  else if dm t <? 12 then mkdate (dy t) (dm t + 1) 1
  else mkdate (Next_year (dy t)) 1 1.

(** [After n t]: the date n days after t. *)
Fixpoint After (n : nat) (t : date) : date :=
  match n with O => t | S k => Next_day (After k t) end.

(** Chronological order. *)
Definition Before (a b : date) : Prop :=
  dy a < dy b \/ (dy a = dy b /\ (dm a < dm b \/ (dm a = dm b /\ dd a < dd b))).

(** First day of the year counted by each clock. *)
Definition First_day (clock : string) (y : Z) : date :=
  if String.eqb clock "calendar" then mkdate y 1 1
  else if String.eqb clock "solar" then mkdate y 12 22
  else if String.eqb clock "spring" then mkdate y 3 21
  else mkdate y 10 1.

Definition Is_clock (clock : string) : Prop :=
  clock = "calendar"%string \/ clock = "solar"%string \/
  clock = "spring"%string \/ clock = "water"%string.
