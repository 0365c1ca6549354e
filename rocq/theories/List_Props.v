(** Property theorem C21 (growable lists). *)
From Coq Require Import List Arith.
From Verif Require Import CStr_Model List_Model List_Proofs.
Import ListNotations.

(** C21: appending any items to a list of any initial capacity never writes outside the
    allocated block ([Ret], not [UB]), counts the items, and position i holds the i-th
    appended item; the recorded size is the size of the block. *)
Theorem C21_growable : forall (A : Type) (n : nat) (xs : list A), exists l,
  add_all (ALLOC_list n) xs = Ret l /\
  l_count l = length xs /\ l_count l <= l_size l /\ length (l_itm l) = l_size l /\
  forall i, i < length xs -> exists x, nth_error xs i = Some x /\ item l i = Ret x.
Proof. exact @growable. Qed.
Print Assumptions C21_growable.

(** Non-vacuity: a list of capacity 2 grows past its capacity. *)
Example C21_nonvacuous : exists l, add_all (ALLOC_list 2) [7; 8; 9] = Ret l /\
  l_size l = 102 /\ item l 0 = Ret 7 /\ item l 2 = Ret 9 /\ item l 3 = UB.
Proof. eexists; split; [vm_compute; reflexivity|]. vm_compute; auto. Qed.
