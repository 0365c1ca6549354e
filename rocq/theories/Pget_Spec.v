(** Where a table parameter should arrive, independent of the code. *)
From Coq Require Import List ZArith Bool.
Import ListNotations.

(** Stride of the caller's table of [room] elements: the current number of rows when the array has the current
    shape, the maximal one when it has the maximal shape, else the current one. *)
Definition stride (val1 max1 val2 max2 room : nat) : nat :=
  if Nat.eqb room (val1 * val2) then val1 else if Nat.eqb room (max1 * max2) then max1 else val1.
(** [out] is [old] with element (i,j) of the table (of [w] bytes, stored with [val1] rows) at i + stride * j. *)
Definition delivered (w val1 val2 str : nat) (table old out : list Z) : Prop :=
  length out = length old /\
  (forall i j b, i < val1 -> j < val2 -> b < w -> nth_error out (w * (i + str * j) + b) = nth_error table (w * (i + val1 * j) + b)) /\
  (forall p, (forall i j b, i < val1 -> j < val2 -> b < w -> p <> w * (i + str * j) + b) -> nth_error out p = nth_error old p).
(** Integers of 4 bytes stored one after the other, lowest byte first. *)
Fixpoint number (b : list Z) : Z := match b with [] => 0%Z | x :: r => (x + 256 * number r)%Z end.
Definition integer_at (k : nat) (b : list Z) : Z := number (firstn 4 (skipn (4 * k) b)).
