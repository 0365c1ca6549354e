(** Volumes under a line through samples of flow, independently of the code. *)
From Coq Require Import List ZArith QArith.
From Verif Require Import Vol_Model.
Import ListNotations.
Local Open Scope Q_scope.

(** Seconds since day 0. *)
Definition Moment (d s : Z) : Z := (86400 * d + s)%Z.
Definition When (s : sample) : Z := Moment (days s) (secs s).
(** Samples with times of day, each later than the one before. *)
Fixpoint In_order (l : list sample) : Prop :=
  match l with
  | a :: (b :: _) as r => (0 <= secs a < 86400)%Z /\ (When a < When b)%Z /\ In_order r
  | [a] => (0 <= secs a < 86400)%Z
  | [] => True
  end.
(** A time of day within the record. *)
Definition Covered (l : list sample) (d s : Z) : Prop :=
  (0 <= s < 86400)%Z /\ exists a b, In a l /\ In b l /\ (When a <= Moment d s <= When b)%Z.
(** Flow on the straight line from one sample to another. *)
Definition Line (a b : sample) (t : Z) : Q :=
  flow a + (flow b - flow a) * inject_Z (t - When a) / inject_Z (When b - When a).
