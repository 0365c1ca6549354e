(** What the caller should find in the array. *)
From Coq Require Import ZArith QArith Bool List.
From Verif Require Import Qx Tally_Model.
Import ListNotations.
Local Open Scope Z_scope.

(** The value of cell (j, i): the final amounts for the two solution columns, the change per fill
    factor for the reactants, and in the additional last row the moles of reactant. *)
Definition cell (t : table) (fill : Q) (i j : Z) (x : Q) : Prop :=
  exists c, nth_error (columns t) (Z.to_nat i) = Some c /\
    x = if j =? rows t then (moles c / fill)%Q
        else if i <? 2 then tot1 c j else ((tot1 c j - tot0 c j) / fill)%Q.
(** The cells of the table: [rows] rows and the additional one. *)
Definition inside (t : table) (i j : Z) : Prop := 0 <= i < Z.of_nat (length (columns t)) /\ 0 <= j <= rows t.
(** Fortran array a(row_dim, ncol), column-major, numbered from 0. *)
Definition position (row_dim i j : Z) : Z := i * row_dim + j.

(** The first row whose master belongs to primary p. *)
Fixpoint row_of (heads : list (option Z)) (p : Z) : option nat :=
  match heads with
  | [] => None
  | Some q :: r => if p =? q then Some O else option_map S (row_of r p)
  | None :: r => option_map S (row_of r p)
  end.
(** Total amount of primary p in the element list. *)
Definition amount (l : list elt) (p : Z) : Q :=
  qsum (map coef (filter (fun e => counts e && (primary e =? p)) l)).
