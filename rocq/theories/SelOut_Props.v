(** C23: the selected-output table is what its writes say. *)
From Coq Require Import String ZArith QArith Bool List.
From Verif Require Import SelOut_Model SelOut_Spec SelOut_Proofs.
Import ListNotations.
Local Open Scope string_scope.
Local Open Scope list_scope.
Local Open Scope Z_scope.

(** Any history of writes, row ends and clears is accepted; the table then has one column per
    distinct heading in order of first use, row 0 shows the headings, row r the last value written
    for each heading in the r-th finished row, and a bad row or column gives its own code. *)
Theorem C23_table : forall h, exists t, run empty h = Some t /\
  NoDup (heads h) /\ headings t = heads h /\
  col_count t = Z.of_nat (List.length (heads h)) /\
  row_count t = (if Nat.eqb (List.length (heads h)) 0 then 0 else 1 + Z.of_nat (List.length (rows h))) /\
  (forall c k, nth_error (heads h) c = Some k -> get t 0 (Z.of_nat c) = Some (VR_OK, VString k)) /\
  (forall r c row k, nth_error (rows h) r = Some row -> nth_error (heads h) c = Some k ->
     get t (Z.of_nat r + 1) (Z.of_nat c) = Some (VR_OK, last_write row k)) /\
  (forall r c, r < 0 \/ row_count t <= r -> get t r c = Some (VR_INVALIDROW, VError VR_INVALIDROW)) /\
  (forall r c, 0 <= r < row_count t -> c < 0 \/ col_count t <= c -> get t r c = Some (VR_INVALIDCOL, VError VR_INVALIDCOL)).
Proof. exact table_ok. Qed.
Print Assumptions C23_table.

(** Appending a serialized row to any table is the same as writing that row's cells, column by
    column, and ending the row. *)
Theorem C23_append : forall h t r row, run empty h = Some t -> nth_error (rows h) r = Some row ->
  exists a, serialize t r = Some a /\
    forall t2, deserialize t2 a = run t2 (map (fun k => Push k (last_write row k)) (heads h) ++ [End]).
Proof. exact serialize_ok. Qed.
Print Assumptions C23_append.

(** Into an empty table: same headings, one row, same cells. *)
Theorem C23_row_copy : forall h t r row, run empty h = Some t -> nth_error (rows h) r = Some row ->
  exists a t', serialize t r = Some a /\ deserialize empty a = Some t' /\
    row_count t' = 2 /\ col_count t' = col_count t /\
    (forall c, 0 <= c < col_count t -> get t' 0 c = get t 0 c) /\
    (forall c, 0 <= c < col_count t -> get t' 1 c = get t (Z.of_nat r + 1) c).
Proof. exact row_copy. Qed.
Print Assumptions C23_row_copy.

(** The numeric copy lists the finished rows column by column, with the inactive value for cells
    that are not numbers. *)
Theorem C23_numeric : forall inactive h t, run empty h = Some t ->
  doublize inactive t = Some (Z.of_nat (List.length (rows h)), Z.of_nat (List.length (heads h)),
    flat_map (fun k => map (fun row => match last_write row k with
                                       | VLong n => inject_Z n | VDouble x => x | _ => inactive end) (rows h)) (heads h)).
Proof. exact doublize_ok. Qed.
Print Assumptions C23_numeric.

Definition h_ex : list event :=
  [Push "old" (VLong 9); End; Clear; End; Push "pH" (VDouble 7); Push "n" (VLong 1); Push "pH" (VDouble 8); End;
   Push "Ca" (VString "none"); End; Push "n" (VLong 2)].
Example C23_ex : heads h_ex = ["pH"; "n"; "Ca"] /\ List.length (rows h_ex) = 2%nat /\
  exists t, run empty h_ex = Some t /\ row_count t = 3 /\ get t 1 0 = Some (VR_OK, VDouble 8) /\
    get t 1 2 = Some (VR_OK, VEmpty) /\ get t 2 2 = Some (VR_OK, VString "none") /\ get t 3 1 = Some (VR_INVALIDROW, VError (-4)).
Proof. vm_compute. split; [reflexivity|]. split; [reflexivity|]. eexists. repeat split. Qed.
