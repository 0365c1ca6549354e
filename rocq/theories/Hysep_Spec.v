(** What base flow by intervals is. *)
From Coq Require Import List ZArith QArith.
Import ListNotations.
Local Open Scope Q_scope.

(** The flow of day [i], from 1. *)
Definition Flow (dis : list Q) (i : nat) (q : Q) : Prop := (1 <= i)%nat /\ nth_error dis (i - 1) = Some q.
(** [v] is the lowest flow of the days in [P], or 100000 if all are higher. *)
Definition Lowest (dis : list Q) (P : nat -> Prop) (v : Q) : Prop :=
  v <= 100000 /\ (forall j q, P j -> Flow dis j q -> v <= q) /\
  (v = 100000 \/ exists j, P j /\ Flow dis j v).
(** No value is missing. *)
Definition Complete (dis : list Q) : Prop := Forall (fun q => 0 <= q) dis.
