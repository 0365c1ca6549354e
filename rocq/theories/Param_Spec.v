(** Specification of value strings, bounds and the parameter registry. *)
From Coq Require Import String Ascii List ZArith QArith Bool.
From Verif Require Import CStr_Model CNum_Model Dim_Model Var_Model Var_Spec Param_Model.
Import ListNotations.
Local Open Scope string_scope.
Local Open Scope list_scope.
Local Open Scope Z_scope.

Definition HasStar (s : string) : Prop := exists a b, s = (a ++ String "*" b)%string.

(** [Item t n v]: token [t] stands for [n] copies of [v]. *)
Inductive Item {V} (conv : string -> option V) : string -> Z -> V -> Prop :=
| Plain : forall s v, ~ HasStar s -> conv s = Some v -> Item conv s 1 v
| Times : forall cnt w n v, ~ HasStar w -> strtol cnt = (n, "") -> 0 < n -> conv w = Some v ->
    Item conv (cnt ++ String "*" w)%string n v.

(** The sequence of values a token list stands for. *)
Inductive Expand {V} (conv : string -> option V) : list string -> list V -> Prop :=
| ExpandNil : Expand conv [] []
| ExpandCons : forall t r n v L, Item conv t n v -> Expand conv r L ->
    Expand conv (t :: r) (repeat v (Z.to_nat n) ++ L).

(** [l] is the first [size] elements of the endless repetition of [L]. *)
Definition Cyclic {V} (L : list V) (size : Z) (l : list V) : Prop :=
  Z.of_nat (length l) = size /\
  forall i, (i < length l)%nat -> nth_error l i = nth_error L (i mod length L).

(** Technical limits: tokens fit the token buffer and counts do not overflow [long]. *)
Definition Fits {V} (conv : string -> option V) (size : Z) (toks : list string) : Prop :=
  (forall t, In t toks -> (String.length t < 128)%nat) /\
  (forall t n v, In t toks -> Item conv t n v -> size + n <= 9223372036854775807).

(** Element-wise bounds. *)
Definition Within (mins vals maxs : list Q) : Prop :=
  length mins = length vals /\ length maxs = length vals /\
  forall i mn v mx, nth_error mins i = Some mn -> nth_error vals i = Some v ->
    nth_error maxs i = Some mx -> (mn <= v <= mx)%Q.

(** [s] decodes to the array [l] of [size] elements of type [t]. *)
Definition Decodes (strtod : vtype -> string -> option Q) (t : vtype) (size : Z) (s : string)
  (l : list Q) : Prop := str_to_vals (conv strtod t) s size = Ret (Some l).

Definition LegalType (s : string) : Prop := exists ty, TypeName s ty.

(** Descriptor [p] is what call [c], returning [code], declares. *)
Definition Comes (strtod : vtype -> string -> option Q) (p : param) (c : paramcall) (code : Z) : Prop :=
  p_key p = q_name c /\ p_module p = q_module c /\ TypeName (q_type c) (p_type p) /\
  (code = 0 -> p_dimen p = Some (strtok is_comma (q_dimen c)) /\
    exists sz, Size (q_dims c) (strtok is_comma (q_dimen c)) sz /\
      p_size p = (if sz =? 0 then 1 else sz) /\
      (0 <= p_size p -> exists a, p_data p = Some a /\ a_value a = a_def a /\
        Z.of_nat (length (a_value a)) = p_size p /\ Within (a_min a) (a_value a) (a_max a) /\
        Decodes strtod (p_type p) (p_size p) (q_value c) (a_value a))).
