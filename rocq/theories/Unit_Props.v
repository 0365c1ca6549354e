(** C43: file unit allocation. *)
From Coq Require Import ZArith List.
Import ListNotations.
From Verif Require Import Unit_Model Unit_Proofs.
Local Open Scope Z_scope.

(** After every history of requests, opens and closes (by anyone, of any unit), the search
    ends, and the unit handed out next is not open, is different from every unit handed out
    before and is at least 100. *)
Theorem C43_fresh_unit : forall ops,
  exists s, run init ops = Some s /\ NoDup (given s) /\
    exists u s', step s Request = Some s' /\ given s' = u :: given s /\
      opened s' = opened s /\ ~ In u (opened s) /\ ~ In u (given s) /\ 100 <= u.
Proof. exact unit_history. Qed.
Print Assumptions C43_fresh_unit.

Example C43_example :
  option_map given (run init [Request; OpenU 100; OpenU 101; OpenU 102; Request; CloseU 100; Request])
  = Some [104; 103; 100].
Proof. reflexivity. Qed.
