(** ADVECTION: the solutions of a column are moved one cell down at each shift
    and react with what the cells hold.

    IPhreeqcMMS/IPhreeqc/src/phreeqcpp:
      advection.cpp   advection          18-140
      read.cpp        read_advection     7600-7826 (frequency and flags)
      kinetics.cpp    set_advection      2403-2560
      mainsubs.cpp    saver              937-1020
      Phreeqc.h       Rxn_copy           1952-1969

    The reaction of one cell (set_initial_moles, set_advection and
    run_reactions) is a function argument; it sees the solution of the cell, or
    the solutions that the MIX of the cell names, and all other entities with
    the number of the cell as one value. *)

From Coq Require Import List ZArith QArith Bool.
From Verif Require Import Steps_Model.
Import ListNotations.
Local Open Scope Z_scope.

(** What a cell reacts with: its own solution, or a mixture of numbered
    solutions (kinetics.cpp 2422-2446). *)
Inductive source (S : Type) := Own (s : option S) | Mixed (ss : list (option S)).
Arguments Own {S}. Arguments Mixed {S}.

(** Solutions by number, and for each number the other entities. *)
Record world (S R : Type) := mkWorld { sols : Z -> option S; reac : Z -> R }.
Arguments mkWorld {S R}. Arguments sols {S R}. Arguments reac {S R}.

(** [m[n] = v]. *)
Definition set_at {A} (m : Z -> A) (n : Z) (v : A) : Z -> A :=
  fun j => if j =? n then v else m j.

(** Phreeqc.h 1952-1969: Rxn_copy on the solutions. *)
Definition sol_copy {S} (m : Z -> option S) (i j : Z) : Z -> option S :=
  match m i with
  | Some v => set_at m j (Some v)
  | None => m
  end.

(** advection.cpp 92-96: from the last cell to the first, the solution of the
    cell before is copied. *)
Definition advect {S} (n : nat) (m : Z -> option S) : Z -> option S :=
  fold_left (fun m i => sol_copy m (i - 1) i) (rev (from_ 1 n)) m.

(** What the code asks of the entities of a cell: the numbers in its MIX, if
    it has one, and whether it has KINETICS. *)
Record reading (R : Type) := mkReading { mix_of : R -> option (list Z); has_kin : R -> bool }.
Arguments mkReading {R}. Arguments mix_of {R}. Arguments has_kin {R}.

(** kinetics.cpp 2422-2446: the solutions that the cell sees. A MIX names
    solutions with numbers from 0 on. *)
Definition source_of {S R} (rd : reading R) (w : world S R) (i : Z) : source S :=
  match mix_of rd (reac w i) with
  | Some ns => Mixed (map (sols w) (filter (Z.leb 0) ns))
  | None => Own (sols w i)
  end.

(** The reaction of one cell: shift, cell, source, entities; it gives the new
    solution and the new entities. *)
Definition reactor (S R : Type) := Z -> Z -> source S -> R -> S * R.

(** A line of output: shift, cell, solution, entities. *)
Definition line (S R : Type) := (Z * Z * S * R)%type.

(** advection.cpp 117-118: whether the cell is punched at this shift. *)
Definition wanted (modulus : Z) (flags : Z -> bool) (step i : Z) : bool :=
  (Z.rem step modulus =? 0) && flags (i - 1).

(** advection.cpp 100-131: one cell of one shift. The solution of the cell
    before goes from number -2 to its place only now, and then the result is
    saved as number -2. *)
Definition one_cell {S R} (rd : reading R) (react : reactor S R) (modulus : Z)
    (flags : Z -> bool) (step : Z) (a : world S R * list (line S R)) (i : Z)
  : world S R * list (line S R) :=
  let '(w, out) := a in
  let '(s, r) := react step i (source_of rd w i) (reac w i) in
  let out' := if wanted modulus flags step i then out ++ [(step, i, s, r)] else out in
  let m1 := if 1 <? i then sol_copy (sols w) (-2) (i - 1) else sols w in
  (mkWorld (set_at m1 (-2) (Some s)) (set_at (reac w) i r), out').

(** advection.cpp 73-135: one shift of [n] cells. *)
Definition one_shift {S R} (rd : reading R) (react : reactor S R) (n : nat) (modulus : Z)
    (flags : Z -> bool) (a : world S R * list (line S R)) (step : Z)
  : world S R * list (line S R) :=
  let '(w, out) := a in
  let w1 := mkWorld (advect n (sols w)) (reac w) in
  let '(w2, out2) := fold_left (one_cell rd react modulus flags step) (from_ 1 n) (w1, out) in
  (mkWorld (sol_copy (sols w2) (-2) (Z.of_nat n)) (reac w2), out2).

(** How ADVECTION ends: with input errors, or with the column, the output and
    the time that was added. *)
Inductive ending (S R : Type) :=
| Refused
| Column (w : world S R) (out : list (line S R)) (time : Q).
Arguments Refused {S R}. Arguments Column {S R}.

(** advection.cpp 31-67: all solutions 0 ... n must be defined, and a time step
    when a cell has kinetics. *)
Definition accepted {S R} (rd : reading R) (n : nat) (kin : Q) (w : world S R) : bool :=
  forallb (fun i => match sols w i with Some _ => true | None => false end) (from_ 0 (n + 1))
  && negb (Qle_bool kin 0 && existsb (fun i => has_kin rd (reac w i)) (from_ 1 n)).

(** advection.cpp 18-140. *)
Definition advection {S R} (rd : reading R) (react : reactor S R) (n shifts : nat)
    (kin : Q) (modulus : Z) (flags : Z -> bool) (w : world S R) : ending S R :=
  if accepted rd n kin w then
    let '(w', out) := fold_left (one_shift rd react n modulus flags) (from_ 1 shifts) (w, []) in
    Column w' out (inject_Z (Z.of_nat shifts) * kin)
  else Refused.

(** read.cpp 7696-7707: the frequency of output, 1000 in place of one that is not
    positive. *)
Definition frequency (given : Z) : Z := if given <=? 0 then 1000 else given.

(** read.cpp 7767-7795: the flags of the cells, index 0 for cell 1, from the list
    of cells of -punch_cells; numbers out of range are left out, and without a
    list all cells are wanted. *)
Definition cell_flags (n : Z) (cells : list Z) : Z -> bool :=
  match cells with
  | [] => fun _ => true
  | _ :: _ =>
    fold_left (fun f c => if (n <? c) || (c <? 1) then f else set_at f (c - 1) true)
      cells (fun _ => false)
  end.
