(** std::map<std::string, A> as the list of its entries in iteration order (strcmp order of the
    keys, std::string comparison being the same for strings without NUL). *)
From Coq Require Import String Ascii List Bool.
Import ListNotations.
Local Open Scope string_scope.
Local Open Scope list_scope.

Section Map.
Context {A : Type}.
Definition smap := list (string * A).
(** find. *)
Fixpoint mfind (m : smap) (k : string) : option A :=
  match m with
  | [] => None
  | (n, x) :: r => if String.eqb n k then Some x else mfind r k
  end.
(** operator[] followed by an assignment. *)
Fixpoint mset (m : smap) (k : string) (x : A) : smap :=
  match m with
  | [] => [(k, x)]
  | (n, y) :: r =>
      match String.compare k n with
      | Eq => (n, x) :: r
      | Lt => (k, x) :: (n, y) :: r
      | Gt => (n, y) :: mset r k x
      end
  end.
(** erase of the key. *)
Fixpoint merase (m : smap) (k : string) : smap :=
  match m with
  | [] => []
  | (n, x) :: r => if String.eqb n k then r else (n, x) :: merase r k
  end.
End Map.
Arguments smap A : clear implicits.
