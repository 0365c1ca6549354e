(** Laws of flow that a hillslope follows, without reference to the model of the program. *)
From Coq Require Import QArith ZArith List.
Import ListNotations.
Local Open Scope Q_scope.

(** Base flow at a mean deficit [d] under the three laws for how transmissivity decreases with
    depth: 0 exponential, 1 parabolic, 2 linear.  [q0] is the flow of saturated ground and [m]
    the scale of the deficit (for 1 and 2: the largest deficit). *)
Definition base_law (expf : Q -> Q) (law : Z) (q0 m d q : Q) : Prop :=
  (law = 0%Z -> q == q0 * expf (- d / m)) /\
  (law = 1%Z -> m * m * q == q0 * ((m - d) * (m - d))) /\
  (law = 2%Z -> m * q == q0 * (m - d)).

(** Flows of less than a hundredth of a millimeter are taken as none. *)
Definition cut (q r : Q) : Prop := (q < 1 # 100000 /\ r == 0) \/ (1 # 100000 <= q /\ r == q).

(** Sum of [g] over classes, by their shares of the area. *)
Fixpoint mean (g : Q -> Q) (shares classes : list Q) : Q :=
  match shares, classes with
  | a :: shares, x :: classes => a * g x + mean g shares classes
  | _, _ => 0
  end.
