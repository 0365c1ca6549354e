(** C strings and the outcome type shared by the models of the C framework.
    A C string is a Coq [string] (the terminating NUL is implicit, so the string itself
    never contains it). *)
From Coq Require Import String Ascii List ZArith Bool.
Import ListNotations.
Local Open Scope string_scope.

(** Outcome of a piece of C code: a value, undefined behaviour (out-of-bounds access,
    NULL dereference, use of uninitialised storage), or [exit]. *)
Inductive outcome (A : Type) : Type :=
| Ret (a : A)
| UB
| Exit.
Arguments Ret {A} a.
Arguments UB {A}.
Arguments Exit {A}.

Definition bind {A B} (m : outcome A) (f : A -> outcome B) : outcome B :=
  match m with Ret a => f a | UB => UB | Exit => Exit end.
Notation "'do' x <- m ; k" := (bind m (fun x => k))
  (at level 200, x pattern, m at level 100, k at level 200, right associativity).

(** C library [strcmp(a,b) > 0] and [== 0]: lexicographic order on unsigned character
    codes (used by mmf_c/src/sort_dims.c:42, dim_addr.c:56, var_addr.c:56-78). *)
Definition strcmp_pos (a b : string) : bool :=
  match String.compare a b with Gt => true | _ => false end.
Definition strcmp_neg (a b : string) : bool :=
  match String.compare a b with Lt => true | _ => false end.
Definition strcmp_zero (a b : string) : bool := String.eqb a b.

(** C library [strtok]: the list of maximal nonempty runs of characters that are not
    delimiters, in order (used e.g. by mmf_c/src/declvar.c:238-243, str_to_vals.c:87). *)
Fixpoint strtok_from (delim : ascii -> bool) (cur : string) (s : string) : list string :=
  match s with
  | EmptyString => if String.eqb cur "" then [] else [cur]
  | String c r =>
      if delim c then
        if String.eqb cur "" then strtok_from delim "" r
        else cur :: strtok_from delim "" r
      else strtok_from delim (cur ++ String c "") r
  end.
Definition strtok (delim : ascii -> bool) (s : string) : list string :=
  strtok_from delim "" s.

Definition is_comma (c : ascii) : bool := Ascii.eqb c ",".
