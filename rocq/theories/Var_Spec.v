(** What a variable registry is, in terms of the history of calls. *)
From Coq Require Import String List ZArith Bool.
From Verif Require Import CStr_Model Dim_Model Var_Model.
Import ListNotations.
Local Open Scope string_scope.
Local Open Scope list_scope.
Local Open Scope Z_scope.

Definition call_name (c : varcall) : string :=
  match c with CallVar _ _ n _ _ _ _ => n | CallPri n _ _ _ => n end.

(** Fortran and C names of the three element types. *)
Inductive TypeName : string -> vtype -> Prop :=
| TN1 : TypeName "integer" M_LONG | TN2 : TypeName "long" M_LONG
| TN3 : TypeName "real" M_FLOAT | TN4 : TypeName "float" M_FLOAT
| TN5 : TypeName "double precision" M_DOUBLE | TN6 : TypeName "double" M_DOUBLE.

(** [Size dims toks n]: each of the named dimensions is declared and [n] is the product
    of their values. *)
Inductive Size (dims : dimdb) : list string -> Z -> Prop :=
| Size0 : Size dims [] 1
| SizeS : forall t r d n, dim_addr dims t = Some d -> Size dims r n ->
    Size dims (t :: r) (d_value d * n).

(** [Makes c v]: call [c], if not a duplicate, is correct and declares descriptor [v]. *)
Inductive Makes : varcall -> pubvar -> Prop :=
| MakesVar : forall dims m n d x t v ty size,
    TypeName t ty -> (length (strtok is_comma d) <= 3)%nat ->
    Size dims (strtok is_comma d) size -> size <= x ->
    Makes (CallVar dims m n d x t v) (mkvar n m (strtok is_comma d) size ty v false)
| MakesPri : forall n s t v ty, TypeName t ty ->
    Makes (CallPri n s t v) (mkvar n "" [] s ty v true).

(** The first call with name [n] in the history. *)
Definition FirstVar (n : string) (h : list varcall) (c : varcall) : Prop :=
  exists h1 h2, h = h1 ++ c :: h2 /\ call_name c = n /\
    forall c', In c' h1 -> call_name c' <> n.
