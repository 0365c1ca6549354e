(** Property theorems C04 (dimension registry). *)
From Coq Require Import String List ZArith Lia.
From Verif Require Import CStr_Model Dim_Model Dim_Spec Dim_Proofs.
Import ListNotations.
Local Open Scope string_scope.
Local Open Scope list_scope.
Local Open Scope Z_scope.

(** C04: every history of declarations is executed without undefined behaviour, and then
    a query answers the value of the first legal declaration of that name, -1 for a name
    without one.  ([start_calls] is the declaration of "one" made at start-up.) *)
Theorem C04_getdim : forall h, exists db codes, run_dims h = Ret (db, codes) /\
  (forall n c, First n (start_calls ++ h) c -> getdim db n = c_value c) /\
  (forall n, Never n (start_calls ++ h) -> getdim db n = -1).
Proof. exact run_dims_getdim. Qed.
Print Assumptions C04_getdim.

(** C04: call number i returns 0 exactly when its size is legal and no earlier call
    legally declared the name, and 1 otherwise. *)
Theorem C04_codes : forall h, exists db codes, run_dims h = Ret (db, 0 :: codes) /\
  length codes = length h /\
  forall i c, nth_error h i = Some c ->
      (nth_error codes i = Some 0 /\ Never (c_name c) (start_calls ++ firstn i h) /\ Legal c) \/
      (nth_error codes i = Some 1 /\ ~ (Never (c_name c) (start_calls ++ firstn i h) /\ Legal c)).
Proof. exact run_dims_codes. Qed.
Print Assumptions C04_codes.

(** C04: a refused declaration changes nothing (for [decldim]). *)
Theorem C04_refused_unchanged : forall h db codes n v m, run_dims h = Ret (db, codes) ->
  forall db' code, decldim db n v m = Ret (db', code) -> code <> 0 -> db' = db.
Proof. exact run_dims_refused. Qed.
Print Assumptions C04_refused_unchanged.

(** C04: the registry is strictly sorted by name, hence without duplicates. *)
Theorem C04_sorted : forall h db codes, run_dims h = Ret (db, codes) ->
  forall i j a b, (i < j)%nat -> nth_error db i = Some a -> nth_error db j = Some b ->
  String.compare (d_name a) (d_name b) = Lt.
Proof. exact run_dims_sorted. Qed.
Print Assumptions C04_sorted.

(** C04, fixed dimensions, the part that holds: when the new name sorts after all declared
    names, [declfix] marks the new dimension and leaves every other one as it was.  Missing:
    all other names (see the refutations). *)
Theorem C04_declfix_partial : forall h db codes n v m, run_dims h = Ret (db, codes) ->
  Never n (start_calls ++ h) -> 0 <= v <= m ->
  (forall d, In d db -> String.compare (d_name d) n = Lt) ->
  exists db', declfix db n v m = Ret (db', 0) /\
    dim_addr db' n = Some (mkdim n v m true) /\
    forall k, k <> n -> dim_addr db' k = dim_addr db k.
Proof. exact run_dims_fix. Qed.
Print Assumptions C04_declfix_partial.

(** C04, refuted: the program's own first fixed declaration ('five', 5, 5) leaves 'five'
    not fixed and marks 'one' as fixed. *)
Theorem C04_declfix_refuted : exists db,
  run_dims [mkcall true "five" 5 5] = Ret (db, [0; 0]) /\
  dim_addr db "five" = Some (mkdim "five" 5 5 false) /\
  dim_addr db "one" = Some (mkdim "one" 1 1 true).
Proof. exact declfix_five. Qed.
Print Assumptions C04_declfix_refuted.

(** C04, refuted: a refused fixed declaration does change the registry. *)
Theorem C04_declfix_refused_refuted : exists db,
  run_dims [mkcall true "one" 7 7] = Ret (db, [0; 1]) /\
  dim_addr db_one "one" = Some (mkdim "one" 1 1 false) /\
  dim_addr db "one" = Some (mkdim "one" 1 1 true).
Proof. exact declfix_refused. Qed.
Print Assumptions C04_declfix_refused_refuted.

(** Non-vacuity: a history with duplicates, illegal sizes and unsorted names. *)
Example C04_nonvacuous :
  let h := [mkcall false "nmru" 3 500; mkcall false "nac" (-1) 50; mkcall false "nac" 9 50;
            mkcall false "nmru" 7 500; mkcall false "nhydro" 101 100] in
  (exists db, run_dims h = Ret (db, [0; 0; 1; 0; 1; 1]) /\ getdim db "nmru" = 3 /\
     getdim db "nac" = 9 /\ getdim db "nhydro" = -1 /\ map d_name db = ["nac"; "nmru"; "one"]) /\
  First "nac" (start_calls ++ h) (mkcall false "nac" 9 50) /\ Never "nhydro" (start_calls ++ h).
Proof.
  cbv zeta. split; [eexists; split; [vm_compute; reflexivity|]; vm_compute; auto|]. split.
  - exists [mkcall false "one" 1 1; mkcall false "nmru" 3 500; mkcall false "nac" (-1) 50],
      [mkcall false "nmru" 7 500; mkcall false "nhydro" 101 100].
    repeat split; cbn; try lia. intros c' [<-|[<-|[<-|[]]]] E; try discriminate E.
    intros [A _]; cbn in A; lia.
  - intros c I E. cbn in I. repeat destruct I as [<-|I]; try discriminate E; try tauto.
    intros [_ B]; cbn in B; lia.
Qed.

Example C04_declfix_nonvacuous : exists db codes,
  run_dims [mkcall false "nac" 9 50] = Ret (db, codes) /\
  forall d, In d db -> String.compare (d_name d) "zones" = Lt.
Proof.
  eexists _, _; split; [vm_compute; reflexivity|].
  intros d [<-|[<-|[]]]; reflexivity.
Qed.
