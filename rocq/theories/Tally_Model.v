(** The reaction table handed to the Fortran side: IPhreeqcMMS/IPhreeqc/src/phreeqcpp/tally.cpp
    store_tally_table 169-240, diff_tally_table 363-388, zero_tally_table 343-360,
    get_tally_table_rows_columns 243-259, the range tests of get_tally_table_row_heading 262-287 and
    get_tally_table_column_heading 290-317, and elt_list_to_tally_table 702-743.  Doubles are exact
    rationals; the fill factor is assumed not zero by the theorems.  Not modelled:
    build_tally_table, fill_tally_table. *)
From Coq Require Import ZArith QArith Bool List.
From Verif Require Import Qx.
Import ListNotations.
Local Open Scope Z_scope.

(** tally_table[i]: total[0], total[1], total[2] and moles. *)
Record column := mkCol { tot0 : Z -> Q; tot1 : Z -> Q; tot2 : Z -> Q; moles : Q }.
(** count_tally_table_rows and the columns. *)
Record table := mkT { rows : Z; columns : list column }.

(** Comparison of a size_t with an int: the int becomes unsigned (Phreeqc.h 1811-1812). *)
Definition unsigned (n : Z) : Z := if n <? 0 then n + 2 ^ 64 else n.

Fixpoint upto (n : nat) : list Z := match n with O => [] | S k => upto k ++ [Z.of_nat k] end.
Definition zseq (n : Z) : list Z := upto (Z.to_nat n).

(** 363-388. *)
Definition diff (t : table) : table :=
  mkT (rows t) (map (fun c => mkCol (tot0 c) (tot1 c)
    (fun j => if (0 <=? j) && (j <? rows t) then (tot1 c j - tot0 c j)%Q else tot2 c j) (moles c)) (columns t)).
(** 343-360. *)
Definition zero (t : table) : table :=
  mkT (rows t) (map (fun c =>
    let z f := fun j => if (0 <=? j) && (j <? rows t) then 0%Q else f j in
    mkCol (z (tot0 c)) (z (tot1 c)) (z (tot2 c)) 0%Q) (columns t)).

(** Columns with their numbers, from k. *)
Fixpoint number (k : Z) (l : list column) : list (Z * column) :=
  match l with [] => [] | c :: r => (k, c) :: number (k + 1) r end.

(** The writes of one row-wise loop into column i. *)
Definition write_rows (row_dim i : Z) (n : Z) (f : Z -> Q) : list (Z * Q) :=
  map (fun j => (i * row_dim + j, f j)) (zseq n).

Inductive stored :=
| Refused                       (* ERROR, nothing written *)
| Written (l : list (Z * Q))    (* OK: the assignments to l_array, in order *)
| Undefined.                    (* tally_table[1] does not exist *)

(** 169-240. *)
Definition store (t : table) (row_dim_in col_dim : Z) (fill : Q) : stored :=
  let row_dim := row_dim_in + 1 in
  match columns t with
  | [] => Refused
  | c0 :: rest =>
      if rows t >? unsigned row_dim then Refused
      else if Z.of_nat (length (columns t)) >? unsigned col_dim then Refused
      else
        match rest with
        | [] => Undefined
        | c1 :: _ =>
            let t' := diff t in
            Written (
              write_rows row_dim 0 (rows t) (tot1 c0) ++
              write_rows row_dim 1 (rows t) (tot1 c1) ++
              flat_map (fun p => write_rows row_dim (fst p) (rows t) (fun j => (tot2 (snd p) j / fill)%Q))
                (number 2 (skipn 2 (columns t'))) ++
              map (fun p => (fst p * row_dim + rows t, (moles (snd p) / fill)%Q))
                (number 0 (columns t')))
        end
  end.
(** The caller's array after the writes. *)
Definition assign (a : Z -> Q) (l : list (Z * Q)) : Z -> Q :=
  fold_left (fun a p => fun k => if k =? fst p then snd p else a k) l a.

(** 243-259 and the tests at 277 and 306. *)
Definition dimensions (t : table) : option (Z * Z) :=
  match columns t with [] => None | _ => Some (rows t, Z.of_nat (length (columns t))) end.
Definition row_ok (t : table) (row : Z) : bool :=
  match columns t with [] => false | _ => negb (unsigned row >=? rows t) end.
Definition column_ok (t : table) (col : Z) : bool :=
  match columns t with [] => false | _ => negb (unsigned col >=? Z.of_nat (length (columns t))) end.

(** An entry of elt_list: number of its primary master species, coefficient; [counts] is false for
    H, O and species that are not aqueous (716-723). *)
Record elt := mkElt { primary : Z; counts : bool; coef : Q }.
(** 702-743: [heads]: the primary of the master of each row (None: no master).  None: STOP. *)
Definition fits (p : Z) (h : option Z) : bool := match h with Some q => p =? q | None => false end.
Fixpoint put_elt (heads : list (option Z)) (p : Z) (c : Q) (row : list Q) : option (list Q) :=
  match heads, row with
  | h :: hs, x :: xs => if fits p h then Some (c :: xs)
                        else match put_elt hs p c xs with Some o => Some (x :: o) | None => None end
  | _, _ => None
  end.
Fixpoint put_elts (heads : list (option Z)) (l : list elt) (row : list Q) : option (list Q) :=
  match l with
  | [] => Some row
  | e :: r => if counts e then
                match put_elt heads (primary e) (coef e) row with
                | Some row' => put_elts heads r row'
                | None => None
                end
              else put_elts heads r row
  end.
Definition elements_to_row (heads : list (option Z)) (l : list elt) : option (list Q) :=
  put_elts heads l (map (fun _ => 0%Q) heads).
