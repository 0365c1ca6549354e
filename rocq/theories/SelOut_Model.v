(** The selected-output table: IPhreeqcMMS/IPhreeqc/src/CSelectedOutput.cpp.  Values are copied
    (Variant_Model, C29).  Assertions are taken as switched off. *)
From Coq Require Import String Ascii ZArith QArith Bool List.
From Verif Require Import Map_Model.
Import ListNotations.
Local Open Scope string_scope.
Local Open Scope list_scope.
Local Open Scope Z_scope.

Inductive val := VEmpty | VError (code : Z) | VLong (n : Z) | VDouble (x : Q) | VString (s : string).
Definition VR_OK : Z := 0.
Definition VR_INVALIDROW : Z := -4.
Definition VR_INVALIDCOL : Z := -5.

(** m_nRowCount, m_vecVarHeadings, m_arrayVar (by column), m_mapHeadingToCol. *)
Record table := mkT { nrow : nat; headings : list string; cols : list (list val); colmap : smap nat }.
(** 27-31 and 37-43. *)
Definition empty : table := mkT 0 [] [] [].
(** vector::resize. *)
Definition resize (l : list val) (n : nat) : list val := firstn n l ++ repeat VEmpty (n - List.length l).
Fixpoint replace_nth {A} (l : list A) (n : nat) (x : A) : list A :=
  match l, n with
  | [], _ => []
  | _ :: r, O => x :: r
  | y :: r, S k => y :: replace_nth r k x
  end.
(** 45-60. *)
Definition col_count (t : table) : Z := Z.of_nat (List.length (headings t)).
Definition row_count (t : table) : Z := if 0 <? col_count t then Z.of_nat (nrow t) + 1 else 0.
(** 126-174; None: access outside a vector. *)
Definition push (t : table) (k : string) (v : val) : option table :=
  match mfind (colmap t) k with
  | None =>
      let col := if Nat.eqb (nrow t) 0 then [] else resize [] (nrow t) in
      Some (mkT (nrow t) (headings t ++ [k]) (cols t ++ [col ++ [v]]) (mset (colmap t) k (List.length (colmap t))))
  | Some c =>
      match nth_error (cols t) c with
      | None => None
      | Some col =>
          if Nat.eqb (List.length col) (nrow t) then
            Some (mkT (nrow t) (headings t) (replace_nth (cols t) c (col ++ [v])) (colmap t))
          else if Nat.ltb (nrow t) (List.length col) then
            Some (mkT (nrow t) (headings t) (replace_nth (cols t) c (replace_nth col (nrow t) v)) (colmap t))
          else None
      end
  end.
(** 100-124. *)
Definition end_row (t : table) : table :=
  if 0 <? col_count t then
    let n := S (nrow t) in
    mkT n (headings t)
      (map (fun col => if Nat.ltb (List.length col) n then resize col n else col) (firstn (List.length (headings t)) (cols t))
       ++ skipn (List.length (headings t)) (cols t))
      (colmap t)
  else t.
(** 70-97: result code and value; None: access outside a vector. *)
Definition get (t : table) (row col : Z) : option (Z * val) :=
  if (row >=? row_count t) || (row <? 0) then Some (VR_INVALIDROW, VError VR_INVALIDROW)
  else if (col >=? col_count t) || (col <? 0) then Some (VR_INVALIDCOL, VError VR_INVALIDCOL)
  else if negb (row =? 0) then
    match nth_error (cols t) (Z.to_nat col) with
    | None => None
    | Some c => match nth_error c (Z.to_nat (row - 1)) with None => None | Some v => Some (VR_OK, v) end
    end
  else match nth_error (headings t) (Z.to_nat col) with None => None | Some h => Some (VR_OK, VString h) end.

Inductive event := Push (k : string) (v : val) | End | Clear.
Definition step (t : table) (e : event) : option table :=
  match e with Push k v => push t k v | End => Some (end_row t) | Clear => Some empty end.
Fixpoint run (t : table) (h : list event) : option table :=
  match h with [] => Some t | e :: r => match step t e with Some t' => run t' r | None => None end end.

(** 247-300: types, longs, doubles, strings. *)
Record coded := mkC { types : list Z; longs : list Z; doubles : list Q; strings : string }.
Definition slen (s : string) : Z := Z.of_nat (String.length s).
Definition put_heading (a : coded) (h : string) : coded :=
  mkC (types a) (longs a ++ [slen h]) (doubles a) (strings a ++ h).
Definition put_cell (a : coded) (v : val) : coded :=
  match v with
  | VEmpty => mkC (types a ++ [0]) (longs a) (doubles a) (strings a)
  | VError c => mkC (types a ++ [1]) (longs a ++ [c]) (doubles a) (strings a)
  | VLong n => mkC (types a ++ [2]) (longs a ++ [n]) (doubles a) (strings a)
  | VDouble x => mkC (types a ++ [3]) (longs a) (doubles a ++ [x]) (strings a)
  | VString s => mkC (types a ++ [4]) (longs a ++ [slen s]) (doubles a) (strings a ++ s)
  end.
(** The cells of row [r] (counted from 0 without headings). *)
Fixpoint row_cells (cs : list (list val)) (r : nat) : option (list val) :=
  match cs with
  | [] => Some []
  | c :: rest => match nth_error c r, row_cells rest r with Some v, Some l => Some (v :: l) | _, _ => None end
  end.
Definition serialize (t : table) (r : nat) : option coded :=
  match row_cells (firstn (List.length (headings t)) (cols t)) r with
  | None => None
  | Some l =>
      Some (fold_left put_cell l
        (fold_left put_heading (headings t) (mkC [] [1; Z.of_nat (List.length (headings t))] [] "")))
  end.
(** 301-362; the running indices are modelled by the rest of each vector. *)
Definition take (s : string) (n : Z) : string := substring 0 (Z.to_nat n) s.
Definition drop (s : string) (n : Z) : string := substring (Z.to_nat n) (String.length s - Z.to_nat n) s.
Fixpoint get_headings (n : nat) (a : coded) : option (list string * coded) :=
  match n with
  | O => Some ([], a)
  | S k =>
      match longs a with
      | [] => None
      | l :: ls =>
          match get_headings k (mkC (types a) ls (doubles a) (drop (strings a) l)) with
          | None => None
          | Some (hs, a') => Some (take (strings a) l :: hs, a')
          end
      end
  end.
Definition get_cell (a : coded) : option (option val * coded) :=
  match types a with
  | [] => None
  | ty :: ts =>
      if ty =? 0 then Some (Some VEmpty, mkC ts (longs a) (doubles a) (strings a))
      else if ty =? 1 then
        match longs a with [] => None | c :: ls => Some (Some (VError c), mkC ts ls (doubles a) (strings a)) end
      else if ty =? 2 then
        match longs a with [] => None | n :: ls => Some (Some (VLong n), mkC ts ls (doubles a) (strings a)) end
      else if ty =? 3 then
        match doubles a with [] => None | x :: ds => Some (Some (VDouble x), mkC ts (longs a) ds (strings a)) end
      else if ty =? 4 then
        match longs a with
        | [] => None
        | l :: ls => Some (Some (VString (take (strings a) l)), mkC ts ls (doubles a) (drop (strings a) l))
        end
      else Some (None, mkC ts (longs a) (doubles a) (strings a))
  end.
(** The inner loop over rows of one column. *)
Fixpoint get_rows (t : table) (h : string) (n : nat) (a : coded) : option (table * coded) :=
  match n with
  | O => Some (t, a)
  | S k =>
      match get_cell a with
      | None => None
      | Some (None, a') => get_rows t h k a'
      | Some (Some v, a') => match push t h v with None => None | Some t' => get_rows t' h k a' end
      end
  end.
Fixpoint get_columns (t : table) (hs : list string) (nrows : nat) (a : coded) : option table :=
  match hs with
  | [] => Some t
  | h :: r => match get_rows t h nrows a with None => None | Some (t', a') => get_columns t' r nrows a' end
  end.
Definition deserialize (t : table) (a : coded) : option table :=
  match longs a with
  | nrows :: ncols :: ls =>
      match get_headings (Z.to_nat ncols) (mkC (types a) ls (doubles a) (strings a)) with
      | None => None
      | Some (hs, a') => match get_columns t hs (Z.to_nat nrows) a' with None => None | Some t' => Some (end_row t') end
      end
  | _ => None
  end.

(** 363-401: INACTIVE_CELL_VALUE is the float 1e30; [inactive] stands for it. *)
Definition numeric (inactive : Q) (v : val) : Q :=
  match v with VLong n => inject_Z n | VDouble x => x | _ => inactive end.
Definition doublize (inactive : Q) (t : table) : option (Z * Z * list Q) :=
  let ncol := List.length (headings t) in
  let cs := firstn ncol (cols t) in
  if forallb (fun c => Nat.leb (nrow t) (List.length c)) cs && Nat.leb ncol (List.length (cols t)) then
    Some (Z.of_nat (nrow t), Z.of_nat ncol, flat_map (fun c => map (numeric inactive) (firstn (nrow t) c)) cs)
  else None.
