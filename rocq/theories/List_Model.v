(** Growable lists of the C framework. *)
From Coq Require Import List ZArith Arith.
From Verif Require Import CStr_Model.
Import ListNotations.

Section L.
Context {A : Type}.

(** [LIST] of mmf_c/src/structs.h: [itm] is the allocated block ([None] = cell not yet
    written), [size] and [count] as in the structure; name, type, out and user_data are not
    modelled. *)
Record clist := mklist { l_itm : list (option A); l_size : nat; l_count : nat }.

(** mmf_c/src/build_lists.c:59-81.  Allocation is assumed to succeed. *)
Definition ALLOC_list (size : nat) : clist := mklist (repeat None size) size 0.

(** [realloc]: the common prefix is kept, new cells are unset. *)
Definition realloc (b : list (option A)) (n : nat) : list (option A) :=
  firstn n b ++ repeat None (n - length b).

(** mmf_c/src/build_lists.c:112-115. *)
Definition RESIZE_list (l : clist) (new_size : nat) : clist :=
  mklist (realloc (l_itm l) new_size) new_size (l_count l).

(** A store to cell [i] of a block: undefined outside the block. *)
Fixpoint store (b : list (option A)) (i : nat) (x : A) : outcome (list (option A)) :=
  match b, i with
  | [], _ => UB
  | _ :: r, O => Ret (Some x :: r)
  | c :: r, S i' => do r' <- store r i' x; Ret (c :: r')
  end.

(** mmf_c/src/build_lists.c:124-129. *)
Definition ADD_to_list (l : clist) (x : A) : outcome clist :=
  let l1 := if l_size l <=? l_count l then RESIZE_list l (l_size l + 100) else l in
  do b <- store (l_itm l1) (l_count l1) x;
  Ret (mklist b (l_size l1) (S (l_count l1))).

Fixpoint add_all (l : clist) (xs : list A) : outcome clist :=
  match xs with
  | [] => Ret l
  | x :: r => do l' <- ADD_to_list l x; add_all l' r
  end.

(** [list->itm[i]]: undefined outside the block or for an unset cell. *)
Definition item (l : clist) (i : nat) : outcome A :=
  match nth_error (l_itm l) i with Some (Some x) => Ret x | _ => UB end.
End L.
Arguments clist : clear implicits.
