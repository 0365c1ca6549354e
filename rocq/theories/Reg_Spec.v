(** Instances as the history of the calls made with their id. *)
From Coq Require Import String ZArith Bool List.
From Verif Require Import SelOut_Model Inst_Model Reg_Model.
Import ListNotations.
Local Open Scope Z_scope.

(** Objects are numbered in the order of creation.  What is known about number [i] after [h]: its
    class and the operations made on it, or None if it does not exist (any more). *)
Definition made (h : list call) : nat := List.length (filter (fun c => match c with Create _ true => true | _ => false end) h).
Fixpoint follow (h : list call) (i : Z) (count : Z) (st : option (kind * list op)) : option (kind * list op) :=
  match h with
  | [] => st
  | Create k true :: r => follow r i (count + 1) (if count =? i then Some (k, []) else st)
  | Create _ false :: r => follow r i count st
  | Destroy j :: r => follow r i count (if j =? i then None else st)
  | DestroyMms j :: r =>
      follow r i count (if j =? i then match st with Some (Mms, _) => None | _ => st end else st)
  | Use j p :: r =>
      follow r i count (if j =? i then match st with Some (k, l) => Some (k, l ++ [p]) | None => None end else st)
  end.
Definition object (h : list call) (i : Z) : option (kind * list op) := follow h i 0 None.
(** Ids fit in an int while fewer than 2^31 objects have been made. *)
Definition few (h : list call) : Prop := Z.of_nat (made h) < 2 ^ 31.
(** Ids passed by the caller are ints. *)
Definition is_int (n : Z) : Prop := - 2 ^ 31 <= n < 2 ^ 31.
Definition int_ids (c : call) : Prop := match c with Create _ _ => True | Destroy n | DestroyMms n | Use n _ => is_int n end.
