(** Days in months, independently of the code. *)
From Coq Require Import List ZArith Permutation Sorted.
From Verif Require Import Tsdate_Model Tsdate_Spec.
Import ListNotations.
Local Open Scope Z_scope.

(** Day number [d] is a day of the month. *)
Definition Falls (y m d : Z) : Prop := exists k, Valid (mkdate y m k) /\ julian_day (mkdate y m k) = d.
(** Exactly [n] of the dates are as described. *)
Definition Number (P : Z -> Prop) (dates : list Z) (n : nat) : Prop :=
  exists these others, Permutation dates (these ++ others) /\ Forall P these /\ Forall (fun d => ~ P d) others /\ length these = n.
Definition First (P : Z -> Prop) (dates : list Z) (f : Z) : Prop := In f dates /\ P f /\ forall d, In d dates -> P d -> f <= d.
Definition Last (P : Z -> Prop) (dates : list Z) (t : Z) : Prop := In t dates /\ P t /\ forall d, In d dates -> P d -> d <= t.
(** Day numbers from the year 1 on, in 32 bits, that do not go back. *)
Definition Record_of (dates : list Z) : Prop := StronglySorted Z.le dates /\ Forall (fun d => 1721426 <= d <= 2147483647) dates.
