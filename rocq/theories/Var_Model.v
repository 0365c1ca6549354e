(** Public variable data base of the C framework. *)
From Coq Require Import String List ZArith Bool Arith.
From Verif Require Import CStr_Model Sort_Model Dim_Model.
Import ListNotations.
Local Open Scope string_scope.
Local Open Scope list_scope.

(** [PUBVAR] of mmf_c/src/structs.h (key = name; help and units not modelled); the
    dimension pointers are represented by the dimension names, the data pointer by a
    number. *)
Inductive vtype := M_LONG | M_FLOAT | M_DOUBLE.
Record pubvar := mkvar {
  v_key : string; v_module : string; v_dims : list string; v_size : Z; v_type : vtype;
  v_value : Z; v_private : bool }.

(** [Mvarbase]: [None] is an allocated entry whose [key] pointer has not been set. *)
Record vardb := mkvardb { vars : list (option pubvar); max_vars : nat }.

(** [strcmp(vars[i]->key, key)]: undefined out of bounds or for an unset key. *)
Definition keycmp (db : list (option pubvar)) (i : nat) (key : string) : outcome comparison :=
  match nth_error db i with
  | Some (Some v) => Ret (String.compare (v_key v) key)
  | _ => UB
  end.
Definition entry (db : list (option pubvar)) (i : nat) : outcome (option pubvar) :=
  match nth_error db i with Some (Some v) => Ret (Some v) | _ => UB end.

(** The bisection loop, mmf_c/src/var_addr.c:75-94.  [fuel] bounds the number of turns
    (each turn shrinks [high - low]); running out of it is [Exit], proved unreachable. *)
Fixpoint bisect (fuel : nat) (db : list (option pubvar)) (key : string) (low high : nat)
  : outcome (option pubvar) :=
  match fuel with
  | O => Exit
  | S f =>
      if Nat.eqb low high then Ret None
      else
        let mid := ((low + high) / 2)%nat in
        do midcomp <- keycmp db mid key;
        match midcomp with
        | Eq => entry db mid
        | c =>
            if (Nat.eqb mid low || Nat.eqb mid high)%bool then Ret None
            else match c with Lt => bisect f db key mid high | _ => bisect f db key low mid end
        end
  end.

(** mmf_c/src/var_addr.c:36-100. *)
Definition var_addr (db : list (option pubvar)) (key : string) : outcome (option pubvar) :=
  match db with
  | [] => Ret None
  | _ =>
      let high := (length db - 1)%nat in
      do lowcomp <- keycmp db 0 key;
      match lowcomp with
      | Eq => entry db 0
      | Gt => Ret None
      | Lt =>
          do highcomp <- keycmp db high key;
          match highcomp with
          | Eq => entry db high
          | Lt => Ret None
          | Gt => bisect (length db) db key 0 high
          end
      end
  end.

(** mmf_c/src/sort_vars.c:40-75. *)
Definition var_gt (a b : option pubvar) : outcome bool :=
  match a, b with
  | Some x, Some y => Ret (strcmp_pos (v_key x) (v_key y))
  | _, _ => UB
  end.
Definition sort_vars (db : list (option pubvar)) : outcome (list (option pubvar)) :=
  bubble_sort var_gt db.

(** Type names, mmf_c/src/declvar.c:189-196; for any other name the local [var_type] is
    read uninitialised at line 202. *)
Definition type_of_name (s : string) : outcome vtype :=
  if (strcmp_zero s "integer" || strcmp_zero s "long")%bool then Ret M_LONG
  else if (strcmp_zero s "real" || strcmp_zero s "float")%bool then Ret M_FLOAT
  else if (strcmp_zero s "double precision" || strcmp_zero s "double")%bool then Ret M_DOUBLE
  else UB.

(** Room for one more entry, declvar.c:159-163 (the urealloc is assumed to succeed), and
    the store [vars[Mnvars-1] = var] (223-228), undefined past the end of the block. *)
Definition room (db : vardb) : vardb :=
  if (max_vars db - 1 <=? length (vars db))%nat
  then mkvardb (vars db) (max_vars db + 100) else db.
Definition push (db : vardb) (v : option pubvar) : outcome vardb :=
  if (length (vars db) <? max_vars db)%nat
  then Ret (mkvardb (vars db ++ [v]) (max_vars db)) else UB.

(** Dimension lookup, declvar.c:258-272: the values of all dimensions, or [None] when one
    is not declared. *)
Fixpoint dim_values (dims : dimdb) (toks : list string) : option (list Z) :=
  match toks with
  | [] => Some []
  | t :: r =>
      match dim_addr dims t with
      | None => None
      | Some d => match dim_values dims r with None => None | Some l => Some (d_value d :: l) end
      end
  end.
(** declvar.c:280-286. *)
Definition prod (l : list Z) : Z := fold_left Z.mul l 1%Z.

(** mmf_c/src/declvar.c:144-330 ([print_mode] as argument; debug output not modelled). *)
Definition declvar (print_mode : bool) (dims : dimdb) (db : vardb)
  (module name dimen : string) (maxsize : Z) (type : string) (value : Z)
  : outcome (vardb * Z) :=
  let db := room db in
  do found <- var_addr (vars db) name;
  match found with
  | Some _ => Ret (db, if print_mode then 0 else 1)%Z
  | None =>
      do t <- type_of_name type;
      let toks := strtok is_comma dimen in
      if (3 <? length toks)%nat then (do db' <- push db None; Ret (db', 1%Z))
      else match dim_values dims toks with
      | None => do db' <- push db None; Ret (db', 1%Z)
      | Some vals =>
          let size := prod vals in
          if (size >? maxsize)%Z then (do db' <- push db None; Ret (db', 1%Z))
          else
            do db' <- push db (Some (mkvar name module toks size t value false));
            do s <- sort_vars (vars db');
            Ret (mkvardb s (max_vars db'), 0%Z)
      end
  end.

(** mmf_c/src/declvar.c:388-488: private variables.  ([ndimen] is left unset there; it is
    not read by the functions modelled here.) *)
Definition declpri (db : vardb) (name : string) (size : Z) (type : string) (value : Z)
  : outcome (vardb * Z) :=
  let db := room db in
  do found <- var_addr (vars db) name;
  match found with
  | Some _ => Ret (db, 1%Z)
  | None =>
      do t <- type_of_name type;
      do db' <- push db (Some (mkvar name "" [] size t value true));
      do s <- sort_vars (vars db');
      Ret (mkvardb s (max_vars db'), 0%Z)
  end.

(** One call.  [k_dims] is the dimension data base at the time of the call. *)
Inductive varcall :=
| CallVar (dims : dimdb) (module name dimen : string) (maxsize : Z) (type : string) (value : Z)
| CallPri (name : string) (size : Z) (type : string) (value : Z).

Definition do_varcall (pm : bool) (db : vardb) (c : varcall) : outcome (vardb * Z) :=
  match c with
  | CallVar dims m n d x t v => declvar pm dims db m n d x t v
  | CallPri n s t v => declpri db n s t v
  end.

Fixpoint run_varcalls (pm : bool) (db : vardb) (h : list varcall) : outcome (vardb * list Z) :=
  match h with
  | [] => Ret (db, [])
  | c :: r =>
      do (db1, code) <- do_varcall pm db c;
      do (db2, codes) <- run_varcalls pm db1 r;
      Ret (db2, code :: codes)
  end.

(** mmf_c/src/alloc_space.c: max_vars = 500, Mnvars = 0. *)
Definition run_vars (pm : bool) (h : list varcall) : outcome (vardb * list Z) :=
  run_varcalls pm (mkvardb [] 500) h.
