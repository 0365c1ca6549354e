(** What the properties on TRANSPORT say, apart from the model. *)
From Coq Require Import ZArith QArith Bool List Arith.
From Verif Require Import Trans_Model.
Import ListNotations.

(** A column that a user may give. *)
Definition proper (p : column) : Prop :=
  (1 <= cells p)%nat /\ (0 <= diffc p)%Q /\ (0 <= timest p)%Q /\
  forall i, (1 <= i <= cells p)%nat -> (0 < len (data p i) /\ 0 <= disp (data p i))%Q.

(** All cells have some dispersivity, or there is no flow. *)
Definition dispersive (p : column) : Prop :=
  dir p = No_flow \/ forall i, (1 <= i <= cells p)%nat -> (0 < disp (data p i))%Q.
Definition same_lengths (p : column) : Prop :=
  forall i j, (1 <= i <= cells p)%nat -> (1 <= j <= cells p)%nat -> (len (data p i) == len (data p j))%Q.

(** The factors of cell [i]. *)
Definition low (fs : list (Q * Q)) (i : nat) : Q := fst (nth (i - 1) fs (0, 0)%Q).
Definition high (fs : list (Q * Q)) (i : nat) : Q := snd (nth (i - 1) fs (0, 0)%Q).

(** What cell [i] gives to the next is what the next gets, and the other way. *)
Definition balanced (n : nat) (fs : list (Q * Q)) : Prop :=
  forall i, (1 <= i < n)%nat -> (high fs i == low fs (i + 1))%Q.

(** The sum over the cells 1 to [n]. *)
Fixpoint total (c : nat -> Q) (n : nat) : Q := match n with O => 0%Q | S k => (total c k + c (S k))%Q end.

Definition within (lo hi : Q) (n : nat) (c : nat -> Q) : Prop :=
  forall i, (i <= S n)%nat -> (lo <= c i /\ c i <= hi)%Q.

(** -correct_disp: one part per cell more for each flux end, when there is flow. *)
Definition correction (p : column) : Q :=
  let extra b := match b with Flux => (1 / of_nat (cells p))%Q | _ => 0%Q end in
  if correct p then match dir p with No_flow => 1%Q | _ => (1 + extra (first p) + extra (last p))%Q end else 1%Q.

(** How much cell [i] exchanges with its neighbour [j] in a time step, as a part
    of itself: dispersion with the harmonic mean of dispersivities, and
    diffusion over the distance between the middles of the cells. *)
Definition exchange (p : column) (i j : nat) : Q :=
  let a := data p i in
  let b := data p j in
  let dispersion := match dir p with No_flow => 0%Q | _ => (2 / (len a / disp a + len b / disp b))%Q end in
  (correction p * (dispersion + diffc p * timest p / (len a * ((len a + len b) / 2))))%Q.
(** The same with a constant solution at the end. *)
Definition exchange_end (p : column) (b : bound) (i : nat) : Q :=
  match b with
  | Constant =>
    let a := data p i in
    (match dir p with No_flow => 0 | _ => disp a / len a end + diffc p * timest p / (len a * (len a / 2)))%Q
  | _ => 0%Q
  end.

(** -correct_disp for heat: the part is divided by the number of mixes of the
    solutions. *)
Definition heat_correction (p : column) (nmix : Z) : Q :=
  let extra b := match b with Flux => (1 / (of_nat (cells p) * inject_Z (Z.max 1 nmix)))%Q | _ => 0%Q end in
  if correct p then match dir p with No_flow => 1%Q | _ => (1 + extra (first p) + extra (last p))%Q end else 1%Q.
