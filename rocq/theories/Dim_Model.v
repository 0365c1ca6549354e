(** Dimension data base of the C framework. *)
From Coq Require Import String List ZArith Bool.
From Verif Require Import CStr_Model Sort_Model.
Import ListNotations.
Local Open Scope string_scope.
Local Open Scope list_scope.
Local Open Scope Z_scope.

(** [DIMEN] of mmf_c/src/structs.h: name, value, max and the [fixed] mark.  The
    description, names, notes, files, format and column width are not modelled. *)
Record dim := mkdim { d_name : string; d_value : Z; d_max : Z; d_fixed : bool }.

(** [dim_db]: the list of pointers to dimensions in array order. *)
Definition dimdb := list dim.

(** mmf_c/src/dim_addr.c:49-60: linear search by name. *)
Fixpoint dim_addr (db : dimdb) (name : string) : option dim :=
  match db with
  | [] => None
  | d :: r => if strcmp_zero (d_name d) name then Some d else dim_addr r name
  end.

(** mmf_c/src/sort_dims.c:34-49. *)
Definition dim_gt (a b : dim) : outcome bool := Ret (strcmp_pos (d_name a) (d_name b)).
Definition sort_dims (db : dimdb) : outcome dimdb := bubble_sort dim_gt db.

(** mmf_c/src/decldim.c:137-201.  Returns the new data base and the return code;
    messages are not modelled; [ADD_to_list] is append (see List_Model, C21). *)
Definition decldim (db : dimdb) (name : string) (value max : Z) : outcome (dimdb * Z) :=
  match dim_addr db name with
  | Some _ => Ret (db, 1)
  | None =>
      if value <? 0 then Ret (db, 1)
      else if value >? max then Ret (db, 1)
      else do db' <- sort_dims (db ++ [mkdim name value max false]); Ret (db', 0)
  end.

(** [dim_db->itm[dim_db->count - 1]->fixed = TRUE] (decldim.c:214); an empty data base
    would be read at position -1. *)
Fixpoint fix_last (db : dimdb) : outcome dimdb :=
  match db with
  | [] => UB
  | [d] => Ret [mkdim (d_name d) (d_value d) (d_max d) true]
  | d :: r => do r' <- fix_last r; Ret (d :: r')
  end.

(** mmf_c/src/decldim.c:210-217. *)
Definition declfix (db : dimdb) (name : string) (value max : Z) : outcome (dimdb * Z) :=
  do (db1, ret) <- decldim db name value max;
  do db2 <- fix_last db1;
  Ret (db2, ret).

(** mmf_c/src/getdim.c:78-101. *)
Definition getdim (db : dimdb) (name : string) : Z :=
  match dim_addr db name with None => -1 | Some d => d_value d end.

(** One declaration call: [fx] tells [declfix] from [decldim]. *)
Record dimcall := mkcall { c_fix : bool; c_name : string; c_value : Z; c_max : Z }.

Definition do_call (db : dimdb) (c : dimcall) : outcome (dimdb * Z) :=
  (if c_fix c then declfix else decldim) db (c_name c) (c_value c) (c_max c).

(** A history of calls: final data base and the list of return codes. *)
Fixpoint run_calls (db : dimdb) (h : list dimcall) : outcome (dimdb * list Z) :=
  match h with
  | [] => Ret (db, [])
  | c :: r =>
      do (db1, code) <- do_call db c;
      do (db2, codes) <- run_calls db1 r;
      Ret (db2, code :: codes)
  end.

(** mmf_c/src/alloc_space.c: the data base starts with dimension "one". *)
Definition start_calls : list dimcall := [mkcall false "one" 1 1].
Definition run_dims (h : list dimcall) : outcome (dimdb * list Z) :=
  run_calls [] (start_calls ++ h).
