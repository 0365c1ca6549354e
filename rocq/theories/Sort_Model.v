(** The bubble sort used for the dimension, variable and parameter data bases. *)
From Coq Require Import List Arith.
From Verif Require Import CStr_Model.
Import ListNotations.

Section Sort.
Context {A : Type}.
(** [strcmp(x->key, y->key) > 0]; [UB] when a key is uninitialised. *)
Variable gt : A -> A -> outcome bool.

(** Inner loop [for (j = 0; j <= i; j++)] with [n = i+1] adjacent pairs:
    mmf_c/src/sort_dims.c:41-47, sort_vars.c:55-65, sort_params.c:77-83.
    The array is a list; the pair at position j is its current front. *)
Fixpoint bubble_pass (n : nat) (l : list A) : outcome (list A) :=
  match n, l with
  | S n', a :: b :: r =>
      do g <- gt a b;
      if g : bool
      then do r' <- bubble_pass n' (a :: r); Ret (b :: r')
      else do r' <- bubble_pass n' (b :: r); Ret (a :: r')
  | O, _ => Ret l
  | S _, _ => UB (* read past the end of the array *)
  end.

(** Outer loop [for (i = count-2; i >= 0; i--)]; [k = i+1]:
    mmf_c/src/sort_dims.c:40, sort_vars.c:53, sort_params.c:76. *)
Fixpoint bubble_from (k : nat) (l : list A) : outcome (list A) :=
  match k with
  | O => Ret l
  | S k' => do l' <- bubble_pass k l; bubble_from k' l'
  end.

(** mmf_c/src/sort_dims.c:34-49, sort_vars.c:40-75, sort_params.c:76-84. *)
Definition bubble_sort (l : list A) : outcome (list A) := bubble_from (length l - 1) l.

End Sort.
