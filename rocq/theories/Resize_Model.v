(** Changing the value of a dimension: mmf_c/src/reset_dim.c.  Arrays are lists of cells; a cell that has been
    allocated and not written holds [None].  Dimension values are natural numbers (the negative values
    which read_dims.c lets through are not modelled); dimensions are identified by name instead of address. *)
From Coq Require Import String List ZArith Bool.
From Verif Require Import CStr_Model.
Import ListNotations.
Local Open Scope string_scope.
Local Open Scope list_scope.

Definition cells := list (option Z).
Record dim := mkDimen { d_value : nat; d_names : option (list (option string)); d_notes : option (list (option string)) }.
Definition dims := string -> dim.
Record param := mkPar { p_dims : list string; p_size : nat; p_value : cells; p_min : cells; p_max : cells;
                        p_desc : list (option string); p_bound : option string }.
Record var := mkPub { v_dims : list string; v_size : nat; v_private : bool }.
Record store := mkStore { s_dims : dims; s_params : list param; s_vars : list var }.

(** for (i = 0; i < n; i++) *)
Fixpoint for_ {A} (n : nat) (f : nat -> A -> outcome A) (a : A) : outcome A :=
  match n with O => Ret a | S n => do a <- for_ n f a; f n a end.
Definition get (l : cells) (i : Z) : outcome (option Z) :=
  if (i <? 0)%Z then UB else match nth_error l (Z.to_nat i) with None => UB | Some v => Ret v end.
Definition put (l : cells) (i : nat) (v : option Z) : outcome cells :=
  if Nat.ltb i (length l) then Ret (firstn i l ++ v :: skipn (S i) l) else UB.
Definition product (l : list nat) : nat := fold_left Nat.mul l 1.
Definition values (ds : dims) (l : list string) : list nat := map (fun n => d_value (ds n)) l.

(** 346-370: one of the three arrays; iold is nold - 1, also when nold is 0. *)
Definition repack (nframes nnew nold blocksize size_new : nat) (prev : cells) : outcome cells :=
  for_ nframes (fun iframe => for_ nnew (fun inew => for_ blocksize (fun j new =>
    let iold := if Nat.ltb inew nold then Z.of_nat inew else (Z.of_nat nold - 1)%Z in
    do v <- get prev (Z.of_nat j + iold * Z.of_nat blocksize + Z.of_nat iframe * (Z.of_nat blocksize * Z.of_nat nold));
    put new (j + inew * blocksize + iframe * (blocksize * nnew)) v)))
    (repeat None size_new).
(** 256-390; the old arrays are not freed.  realloc keeps the descriptions. *)
Definition resize_param (ds : dims) (p : param) (dimen_num nold nnew size_new : nat) : outcome param :=
  let nframes := product (skipn (S dimen_num) (values ds (p_dims p))) in
  let blocksize := product (firstn dimen_num (values ds (p_dims p))) in
  let desc := firstn size_new (p_desc p) ++ repeat None (size_new - p_size p) in
  do v <- repack nframes nnew nold blocksize size_new (p_value p);
  do lo <- repack nframes nnew nold blocksize size_new (p_min p);
  do hi <- repack nframes nnew nold blocksize size_new (p_max p);
  Ret (mkPar (p_dims p) (p_size p) v lo hi desc (p_bound p)).
(** The last position of the dimension in the list (167-173, 222-228). *)
Fixpoint last_use (d : string) (l : list string) (i : nat) (acc : option nat) : option nat :=
  match l with [] => acc | x :: l => last_use d l (S i) (if String.eqb d x then Some i else acc) end.
(** 161-191: one parameter. *)
Definition reset_param (ds : dims) (d : string) (nold nnew : nat) (p : param) : outcome param :=
  let size_new := product (values ds (p_dims p)) in
  match last_use d (p_dims p) 0 None with
  | None => Ret p
  | Some k =>
      let size_new := if Nat.eqb size_new 0 then 1 else size_new in
      do q <- resize_param ds p k nold nnew size_new;
      Ret (mkPar (p_dims q) size_new (p_value q) (p_min q) (p_max q) (p_desc q) (p_bound q))
  end.
(** 199-218: parameters bounded by the dimension. *)
Definition clamp (n : nat) (j : nat) (vm : cells * cells) : outcome (cells * cells) :=
  let (v, m) := vm in
  do m' <- put m j (Some (Z.of_nat n));
  do x <- get v (Z.of_nat j);
  match x with
  | None => UB
  | Some x => if (x >? Z.of_nat n)%Z then do v' <- put v j (Some (Z.of_nat n)); Ret (v', m') else Ret (v, m')
  end.
Definition rebound (d : string) (n : nat) (p : param) : outcome param :=
  match p_bound p with
  | Some b =>
      if String.eqb b d then
        do vm <- for_ (p_size p) (clamp n) (p_value p, p_max p);
        Ret (mkPar (p_dims p) (p_size p) (fst vm) (p_min p) (snd vm) (p_desc p) (p_bound p))
      else Ret p
  | None => Ret p
  end.
Fixpoint each {A} (f : A -> outcome A) (l : list A) : outcome (list A) :=
  match l with [] => Ret [] | x :: l => do y <- f x; do r <- each f l; Ret (y :: r) end.
(** 220-244 *)
Definition reset_var (ds : dims) (d : string) (v : var) : var :=
  if v_private v then v
  else match last_use d (v_dims v) 0 None with
       | None => v
       | Some _ => mkPub (v_dims v) (product (values ds (v_dims v))) (v_private v)
       end.
(** 115-154: the names of the indices; the entries set to NULL when shrinking are beyond those kept. *)
Definition relabel (nold nnew : nat) (l : option (list (option string))) : option (list (option string)) :=
  if Nat.ltb nold nnew then option_map (fun l => l ++ repeat None (nnew - nold)) l
  else if Nat.eqb nnew 0 then None else option_map (firstn nnew) l.
(** 92-246 *)
Definition reset_dim (s : store) (d : string) (nnew : nat) : outcome store :=
  let old := s_dims s d in
  let nold := d_value old in
  if Nat.eqb nnew nold then Ret s
  else
    let new := mkDimen nnew (relabel nold nnew (d_names old)) (relabel nold nnew (d_notes old)) in
    let ds := fun x => if String.eqb x d then new else s_dims s x in
    do ps <- each (reset_param ds d nold nnew) (s_params s);
    do ps <- each (rebound d nnew) ps;
    Ret (mkStore ds ps (map (reset_var ds d) (s_vars s))).
Fixpoint resets (s : store) (l : list (string * nat)) : outcome store :=
  match l with [] => Ret s | (d, n) :: l => do s <- reset_dim s d n; resets s l end.
