(** Reading a time series between its samples, independently of the code. *)
From Coq Require Import List ZArith QArith.
From Verif Require Import Vol_Model Vol_Spec.
Import ListNotations.
Local Open Scope Q_scope.

(** A number that stands for no value. *)
Definition Missing (q : Q) : Prop := q < - inject_Z (10 ^ 38).
(** The value at the moment [t]: that of the sample taken then, or on the line between the samples before and after; missing if one of these is. *)
Definition Reading (l : list sample) (t : Z) (v : Q) : Prop :=
  (forall a, In a l -> When a = t -> (Missing (flow a) -> Missing v) /\ (~ Missing (flow a) -> v == flow a)) /\
  (forall pre a b post, l = pre ++ a :: b :: post -> (When a < t < When b)%Z ->
     (Missing (flow a) \/ Missing (flow b) -> Missing v) /\ (~ Missing (flow a) -> ~ Missing (flow b) -> v == Line a b t)).
(** Times that do not go back. *)
Fixpoint Forward (base : list (Z * Z)) : Prop :=
  match base with
  | (d, s) :: ((d', s') :: _) as r => (Moment d s <= Moment d' s')%Z /\ Forward r
  | _ => True
  end.
