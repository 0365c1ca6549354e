(** Delivery of parameters to modules: mmf_c/src/getparam.c, with the two ways integer values are stored
    (read_params.c 783 and load_param.c 141-171).  Memory in bytes as in Xchg_Model.  The parameter found under
    the name is an argument; messages are not modelled. *)
From Coq Require Import String Ascii List ZArith Bool.
From Verif Require Import CStr_Model Xchg_Model.
Import ListNotations.
Local Open Scope string_scope.
Local Open Scope list_scope.
Local Open Scope Z_scope.

Record param := mkParam { p_type : vtype; p_size : nat; p_dims : list dimen; p_mem : bytes }.

(** Rows of [copy] bytes; the destination advances by [dstep], the source by [copy] (297-315). *)
Fixpoint spread (k : nat) (dst : bytes) (d : nat) (dstep : nat) (src : bytes) (s : nat) (copy : nat) : outcome bytes :=
  match k with
  | O => Ret dst
  | S k => do dst' <- memcpy dst d src s copy; spread k dst' (d + dstep) dstep src (s + copy) copy
  end.
(** 276-293: the stride; the first condition compares the truth value of an equality with maxsize. *)
Definition nrow (d1 d2 : dimen) (maxsize : Z) : nat :=
  let max12 := Z.of_nat (max d1 * max d2) in
  let val12 := Z.of_nat (value d1 * value d2) in
  if (if max12 =? val12 then 1 else 0) =? maxsize then value d1
  else if val12 =? maxsize then value d1
  else if max12 =? maxsize then max d1
  else value d1.
(** 244-321: the caller's array; with a single or no dimension dimen[1] does not exist. *)
Definition paramcopy (p : param) (pval : bytes) (maxsize : Z) : outcome bytes :=
  let w := csize (p_type p) in
  match p_dims p with
  | [_] => memcpy pval 0 (p_mem p) 0 (p_size p * w)
  | d1 :: d2 :: _ => spread (value d2) pval 0 (nrow d1 d2 maxsize * w) (p_mem p) 0 (value d1 * w)
  | [] => UB
  end.
(** 148-235: return value and the caller's array. *)
Definition getparam (found : option param) (maxsize : Z) (type : string) (pval : bytes) : outcome (Z * bytes) :=
  if negb (known_type type) then UB
  else
    match found with
    | None => Ret (1, pval)
    | Some p =>
        if Z.of_nat (p_size p) >? maxsize then Ret (1, pval)
        else do r <- paramcopy p pval maxsize; Ret (0, r)
    end.
(** 69-85: the arrays registered by the modules, all refreshed; the return value is always 0. *)
Fixpoint refresh (p : param) (refs : list bytes) : outcome (list bytes) :=
  match refs with
  | [] => Ret []
  | r :: refs => do r' <- paramcopy p r (-1); do refs' <- refresh p refs; Ret (r' :: refs')
  end.
Definition updateparam (found : option param) (refs : list bytes) : outcome (list bytes) :=
  match found with None => Ret refs | Some p => refresh p refs end.

(** Little-endian bytes of an integer of [n] bytes, and back. *)
Fixpoint to_bytes (n : nat) (v : Z) : bytes :=
  match n with O => [] | S n => v mod 256 :: to_bytes n (v / 256) end.
(** read_params.c 783: value [i] stored as an int; load_param.c 141-171: as a long. *)
Definition put_int (mem : bytes) (i : nat) (v : Z) : outcome bytes := memcpy mem (4 * i) (to_bytes 4 v) 0 4.
Definition put_long (mem : bytes) (i : nat) (v : Z) : outcome bytes := memcpy mem (8 * i) (to_bytes 8 v) 0 8.
Fixpoint put_all (put : bytes -> nat -> Z -> outcome bytes) (mem : bytes) (i : nat) (l : list Z) : outcome bytes :=
  match l with [] => Ret mem | v :: l => do mem' <- put mem i v; put_all put mem' (S i) l end.
