(** Allocation of Fortran file units, webmod.d/src/my_newunit.F. *)
From Coq Require Import ZArith List Bool.
Import ListNotations.
Local Open Scope Z_scope.

(** INQUIRE(UNIT=u, OPENED=isopen): the units currently connected are a list. *)
Definition is_open (opened : list Z) (u : Z) : bool := existsb (Z.eqb u) opened.

(** my_newunit.F 7-12, the DO WHILE loop with at most [fuel] turns; [None] means the loop
    has not ended within them.  Result: (unit, new value of the saved variable next).
    INTEGER overflow of [next] is not modelled. *)
Fixpoint newunit_loop (fuel : nat) (opened : list Z) (next : Z) : option (Z * Z) :=
  match fuel with
  | O => None
  | S f => if is_open opened next then newunit_loop f opened (next + 1)
           else Some (next, next + 1)
  end.

(** my_newunit.F 2-13.  One more turn than there are open units is enough (proved). *)
Definition my_newunit (opened : list Z) (next : Z) : option (Z * Z) :=
  newunit_loop (S (length opened)) opened next.

(** Histories: requests for a unit, and units being opened and closed by the program
    (OPEN and CLOSE statements all over webmod.d/src). *)
Inductive op := Request | OpenU (u : Z) | CloseU (u : Z).

Record state := { next : Z; opened : list Z; given : list Z (* newest first *) }.
(** my_newunit.F 4: next starts at 100. *)
Definition init : state := {| next := 100; opened := []; given := [] |}.

Definition step (s : state) (o : op) : option state :=
  match o with
  | Request =>
      match my_newunit (opened s) (next s) with
      | Some (u, n) => Some {| next := n; opened := opened s; given := u :: given s |}
      | None => None
      end
  | OpenU u => Some {| next := next s; opened := u :: opened s; given := given s |}
  | CloseU u => Some {| next := next s; opened := filter (fun v => negb (v =? u)) (opened s);
                        given := given s |}
  end.
Fixpoint run (s : state) (ops : list op) : option state :=
  match ops with
  | [] => Some s
  | o :: r => match step s o with Some s' => run s' r | None => None end
  end.
