(** Order of numbers, independently of the code. *)
From Coq Require Import List ZArith QArith Permutation.
Import ListNotations.
Local Open Scope Q_scope.

(** [s] is the data from the lowest to the highest. *)
Definition Arranged (data s : list Q) : Prop :=
  Permutation data s /\ forall i j x y, (i <= j)%nat -> nth_error s i = Some x -> nth_error s j = Some y -> x <= y.
(** Number [k] of the arranged numbers, from 1. *)
Definition Nth_lowest (s : list Q) (k : nat) (x : Q) : Prop := (1 <= k)%nat /\ nth_error s (k - 1) = Some x.
(** At least half of the data are as described. *)
Definition Half (data : list Q) (P : Q -> Prop) : Prop := exists part rest, Permutation data (part ++ rest) /\ Forall P part /\ (length data <= 2 * length part)%nat.
