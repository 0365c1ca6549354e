(** Variable exchange between modules: mmf_c/src/getvar.c and putvar.c.  Memory is modelled in bytes; a copy
    outside of a block is undefined ([UB]).  The variable found under the name is an argument.  On the
    platform modelled int and float have 4 bytes, long and double 8.  Dimension values are natural numbers. *)
From Coq Require Import String Ascii List ZArith Bool.
From Verif Require Import CStr_Model.
Import ListNotations.
Local Open Scope string_scope.
Local Open Scope list_scope.

Definition bytes := list Z.
(** C library memcpy of [n] bytes between two blocks. *)
Definition memcpy (dst : bytes) (d : nat) (src : bytes) (s : nat) (n : nat) : outcome bytes :=
  if Nat.leb (d + n) (List.length dst) && Nat.leb (s + n) (List.length src)
  then Ret (firstn d dst ++ firstn n (skipn s src) ++ skipn (d + n) dst) else UB.

Inductive vtype := TLong | TFloat | TDouble.
(** sizeof of what is copied (getvar.c 186, 191, 196) and of what the pointers advance by (217-229). *)
Definition csize (t : vtype) : nat := match t with TLong => 4 | TFloat => 4 | TDouble => 8 end.
Definition psize (t : vtype) : nat := match t with TLong => 8 | TFloat => 4 | TDouble => 8 end.
Record dimen := mkDim { value : nat; max : nat }.
Record pubvar := mkVar { v_type : vtype; v_size : nat; v_dims : list dimen; v_mem : bytes }.

(** getvar.c 136-141, putvar.c 142-149: an unknown type leaves the variable uninitialised. *)
Definition known_type (t : string) : bool :=
  existsb (String.eqb t) ["integer"; "long"; "real"; "float"; "double precision"; "double"].
(** The loop over the rows (getvar.c 214-231, putvar.c 225-246). *)
Fixpoint rows (k : nat) (dst : bytes) (d : nat) (src : bytes) (s : nat) (copy step : nat) : outcome bytes :=
  match k with
  | O => Ret dst
  | S k => do dst' <- memcpy dst d src s copy; rows k dst' (d + step) src (s + step) copy step
  end.
(** getvar.c 107-235: return value and the caller's array. *)
Definition getvar (name : string) (var : option pubvar) (maxsize : nat) (type : string) (out : bytes) : outcome (Z * bytes) :=
  if negb (Nat.ltb (String.length name) 128) then UB
  else if negb (known_type type) then UB
  else
    match var with
    | None => Ret (1%Z, out)
    | Some v =>
        if Nat.ltb maxsize (v_size v) then Ret (1%Z, out)
        else
          match v_dims v with
          | [_] => do r <- memcpy out 0 (v_mem v) 0 (v_size v * csize (v_type v)); Ret (0%Z, r)
          | [d1; d2] =>
              let n1 := value d1 in
              let n2 := value d2 in
              let n1 := if negb (Nat.eqb (n1 * n2) maxsize) then max d1 else n1 in
              let n1 := if Nat.ltb maxsize (n1 * n2) then value d1 else n1 in
              do r <- rows n2 out 0 (v_mem v) 0 (n1 * csize (v_type v)) (n1 * psize (v_type v));
              Ret (0%Z, r)
          | _ => Ret (0%Z, out)
          end
    end.
(** putvar.c 118-257: return value and the storage of the variable. *)
Definition putvar (name : string) (var : option pubvar) (maxsize : nat) (type : string) (inp : bytes) : outcome (Z * option bytes) :=
  if negb (Nat.ltb (String.length name) 128) then UB
  else if negb (known_type type) then UB
  else
    match var with
    | None => Ret (1%Z, None)
    | Some v =>
        if Nat.ltb maxsize (v_size v) then Ret (1%Z, Some (v_mem v))
        else
          match v_dims v with
          | [_] => do r <- memcpy (v_mem v) 0 inp 0 (v_size v * csize (v_type v)); Ret (0%Z, Some r)
          | [d1; d2] =>
              let n1 := max d1 in
              let n2 := value d2 in
              let n1 := if Nat.ltb maxsize (n1 * n2) then value d1 else n1 in
              do r <- rows n2 (v_mem v) 0 inp 0 (n1 * csize (v_type v)) (n1 * psize (v_type v));
              Ret (0%Z, Some r)
          | _ => Ret (0%Z, Some (v_mem v))
          end
    end.
Definition with_mem (v : pubvar) (m : bytes) : pubvar := mkVar (v_type v) (v_size v) (v_dims v) m.
