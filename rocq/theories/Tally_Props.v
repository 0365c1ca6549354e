(** C33: transfer of the reaction table to the caller's array. *)
From Coq Require Import ZArith QArith Bool List Lia.
From Verif Require Import Qx Tally_Model Tally_Spec Tally_Proofs.
Import ListNotations.
Local Open Scope Z_scope.

(** Every cell of the table (and of the row of moles) is written exactly once, at its column-major
    position, inside the caller's array of (row_dim+1) by col_dim numbers. *)
Theorem C33_once : forall t rd cd fill,
  0 <= rows t <= rd -> (2 <= length (columns t))%nat -> Z.of_nat (length (columns t)) <= cd ->
  exists l, store t rd cd fill = Written l /\ NoDup (map fst l) /\
    (forall k, In k (map fst l) <-> exists i j, inside t i j /\ k = position (rd + 1) i j) /\
    (forall k, In k (map fst l) -> 0 <= k < (rd + 1) * cd).
Proof. exact stored_once. Qed.
Print Assumptions C33_once.
(** The array afterwards: the cell values, and everything else as before. *)
Theorem C33_array : forall t rd cd fill a,
  0 <= rows t <= rd -> (2 <= length (columns t))%nat -> Z.of_nat (length (columns t)) <= cd ->
  exists l, store t rd cd fill = Written l /\
    (forall i j, inside t i j -> cell t fill i j (assign a l (position (rd + 1) i j))) /\
    (forall k, (forall i j, inside t i j -> k <> position (rd + 1) i j) -> assign a l k = a k).
Proof. exact stored_array. Qed.
Print Assumptions C33_array.
(** No table, or an array that is too small by more than one row or by a column: nothing is written. *)
Theorem C33_refused : forall t rd cd fill,
  columns t = [] \/ (0 <= rd /\ rows t > rd + 1) \/ (0 <= cd /\ Z.of_nat (length (columns t)) > cd) ->
  store t rd cd fill = Refused.
Proof. exact store_refused. Qed.
Print Assumptions C33_refused.
(** Refuted: with one row missing the array is accepted, the row of moles overwrites the next column
    and runs past the end. *)
Theorem C33_one_short_refuted : exists t rd cd l, rows t > rd /\ store t rd cd 1%Q = Written l /\
  (exists k x, In (k, x) l /\ k >= (rd + 1) * cd) /\
  ~ cell t 1%Q 1 0 (assign (fun _ => 0%Q) l (position (rd + 1) 1 0)).
Proof. exact one_short. Qed.
Print Assumptions C33_one_short_refuted.
(** Refuted: negative dimensions are accepted (signed and unsigned are compared). *)
Theorem C33_negative_refuted : exists t l k x, store t (-5) (-1) 1%Q = Written l /\ In (k, x) l /\ k < 0.
Proof. exact negative_dim. Qed.
Print Assumptions C33_negative_refuted.
(** Headings exist exactly for the rows and columns of the table; the dimensions are those counts. *)
Theorem C33_headings : forall t n,
  0 <= rows t < 2 ^ 63 -> Z.of_nat (length (columns t)) < 2 ^ 63 -> - 2 ^ 31 <= n < 2 ^ 31 -> columns t <> [] ->
  (row_ok t n = true <-> 0 <= n < rows t) /\ (column_ok t n = true <-> 0 <= n < Z.of_nat (length (columns t))).
Proof. exact headings. Qed.
Print Assumptions C33_headings.
(** Before a mix the table is cleared. *)
Theorem C33_cleared : forall t, rows (zero t) = rows t /\ length (columns (zero t)) = length (columns t) /\
  forall i c j, nth_error (columns (zero t)) i = Some c -> 0 <= j < rows t ->
    tot0 c j = 0%Q /\ tot1 c j = 0%Q /\ tot2 c j = 0%Q /\ moles c = 0%Q.
Proof. exact zero_ok. Qed.
Print Assumptions C33_cleared.
(** The amounts of a reactant: each element in the row of its primary species, 0 elsewhere, if no
    two entries have the same primary species. *)
Theorem C33_elements : forall heads l,
  (forall p, In p (map primary (filter counts l)) -> row_of heads p <> None) -> NoDup (map primary (filter counts l)) ->
  exists row, elements_to_row heads l = Some row /\ length row = length heads /\
    forall p n, row_of heads p = Some n -> exists x, nth_error row n = Some x /\ (x == amount l p)%Q.
Proof. exact elements_ok. Qed.
Print Assumptions C33_elements.
(** Refuted: two redox states of one element in a formula: only the last one is counted. *)
Theorem C33_elements_refuted : exists heads l row, elements_to_row heads l = Some row /\
  nth_error row 0 = Some 1%Q /\ row_of heads 26 = Some O /\ (amount l 26 == 3)%Q.
Proof. exact elements_lost. Qed.
Print Assumptions C33_elements_refuted.

Definition tcol (a b m : Q) := mkCol (fun _ => a) (fun _ => b) (fun _ => 0%Q) m.
Definition t0 := mkT 2 [tcol 1 2 0; tcol 3 4 0; tcol 5 9 7].
Example C33_ex : exists l, store t0 2 3 2%Q = Written l /\
  map (assign (fun _ => (-1)%Q) l) [0; 1; 2; 3; 4; 5; 6; 7; 8; 9] =
  [2; 2; 0 / 2; 4; 4; 0 / 2; (9 - 5) / 2; (9 - 5) / 2; 7 / 2; -1]%Q.
Proof. eexists. split; reflexivity. Qed.
Example C33_ex2 : elements_to_row [None; Some 6; Some 20] [mkElt 20 true 1%Q; mkElt 1 false 2%Q; mkElt 6 true 3%Q] = Some [0; 3; 1]%Q.
Proof. reflexivity. Qed.
