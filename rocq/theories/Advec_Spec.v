(** What the properties on ADVECTION say, apart from the model. *)

From Coq Require Import List ZArith QArith Bool.
From Verif Require Import Steps_Model Advec_Model.
Import ListNotations.
Local Open Scope Z_scope.

(** The solutions after all of them moved one cell on: cell j of 1 ... n has
    what cell j-1 had. *)
Definition moved {A} (n : nat) (m : Z -> option A) (j : Z) : option A :=
  if (1 <=? j) && (j <=? Z.of_nat n) then m (j - 1) else m j.

(** What cell [i] reacts with in a shift from [w] to [w']: the moved
    solutions; but a MIX that names a cell two or more before cell [i] finds
    the solution with which that cell ends the shift. *)
Definition sees {A R} (rd : reading R) (n : nat) (w w' : world A R) (i : Z) : source A :=
  match mix_of rd (reac w i) with
  | Some ns => Mixed (map (fun a => if (1 <=? a) && (a <=? i - 2) then sols w' a
                                    else moved n (sols w) a)
                          (filter (Z.leb 0) ns))
  | None => Own (moved n (sols w) i)
  end.

(** One shift takes [w] to [w']. *)
Definition shifted {A R} (rd : reading R) (react : reactor A R) (n : nat) (step : Z)
    (w w' : world A R) : Prop :=
  (forall i, 1 <= i <= Z.of_nat n ->
     let '(s, r) := react step i (sees rd n w w' i) (reac w i) in
     sols w' i = Some s /\ reac w' i = r) /\
  (forall j, j <> -2 -> ~ (1 <= j <= Z.of_nat n) -> sols w' j = sols w j) /\
  (forall j, ~ (1 <= j <= Z.of_nat n) -> reac w' j = reac w j).

(** The output of one shift that ends in [w']: the cells wanted, in order,
    with the solution and the entities they end with; none unless the number
    of the shift is a multiple of the frequency. *)
Definition printed {A R} (n : nat) (modulus : Z) (cells : Z -> bool) (step : Z)
    (w' : world A R) : list (line A R) :=
  if step mod modulus =? 0 then
    flat_map (fun i => match sols w' i with
                       | Some s => if cells i then [(step, i, s, reac w' i)] else []
                       | None => []
                       end) (from_ 1 n)
  else [].

(** [k] shifts from shift [step] on, with their output. *)
Inductive shifts_to {A R} (rd : reading R) (react : reactor A R) (n : nat) (modulus : Z)
    (cells : Z -> bool) : Z -> nat -> world A R -> world A R -> list (line A R) -> Prop :=
| shifts_none : forall step w, shifts_to rd react n modulus cells step O w w []
| shifts_more : forall step k w w1 w2 out,
    shifted rd react n step w w1 ->
    shifts_to rd react n modulus cells (step + 1) k w1 w2 out ->
    shifts_to rd react n modulus cells step (S k) w w2
      (printed n modulus cells step w1 ++ out).

(** The amount of something in the cells 1 ... n, in solution and in the other
    entities. *)
Fixpoint content {A R} (q : A -> Q) (qr : R -> Q) (w : world A R) (n : nat) : Q :=
  match n with
  | O => 0
  | S m => content q qr w m
           + (match sols w (Z.of_nat n) with Some s => q s | None => 0 end)
           + qr (reac w (Z.of_nat n))
  end%Q.

(** Solutions 0 ... n are defined. *)
Definition filled {A R} (n : nat) (w : world A R) : Prop :=
  forall j, 0 <= j <= Z.of_nat n -> sols w j <> None.
