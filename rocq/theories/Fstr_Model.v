(** Strings across the Fortran boundary: IPhreeqcMMS/IPhreeqc/src/fwrap.cpp, IPhreeqc_interface_F.cpp,
    IPhreeqc_interface.F90, pp_sys.cpp.  A memory block is the list of its characters; access outside of a
    block is undefined ([UB]).  malloc is assumed to succeed. *)
From Coq Require Import Ascii List ZArith Bool.
From Verif Require Import CStr_Model.
Import ListNotations.
Local Open Scope Z_scope.

Definition block := list ascii.
Definition NUL : ascii := "000"%char.
Definition blank : ascii := " "%char.
Fixpoint store (b : block) (i : nat) (c : ascii) : outcome block :=
  match b, i with
  | [], _ => UB
  | _ :: r, O => Ret (c :: r)
  | x :: r, S i => do r' <- store r i c; Ret (x :: r')
  end.
Definition load (b : block) (i : nat) : outcome ascii :=
  match nth_error b i with Some c => Ret c | None => UB end.
(** C library strlen. *)
Fixpoint strlen (b : block) : outcome nat :=
  match b with
  | [] => UB
  | c :: r => if Ascii.eqb c NUL then Ret O else do n <- strlen r; Ret (S n)
  end.
(** C library isgraph in the C locale: codes 33 to 126 (a plain char above 127 is passed as a negative
    number, for which glibc also answers no). *)
Definition isgraph (c : ascii) : bool := (33 <=? Z.of_nat (nat_of_ascii c)) && (Z.of_nat (nat_of_ascii c) <=? 126).

(** fwrap.cpp 34-35 and IPhreeqc_interface_F.cpp 36-37: the copying loop, with [todo] = len - sofar;
    returns the block, the position and the number of characters still to fill. *)
Fixpoint copy_chars (dest src : block) (i : nat) (todo : nat) : outcome (block * nat * nat) :=
  match todo with
  | O => Ret (dest, i, O)
  | S todo' =>
      do c <- load src i;
      if Ascii.eqb c NUL then Ret (dest, i, todo)
      else do dest' <- store dest i c; copy_chars dest' src (S i) todo'
  end.
(** fwrap.cpp 37-38 and IPhreeqc_interface_F.cpp 39-40: the padding loop. *)
Fixpoint pad_blanks (dest : block) (i : nat) (todo : nat) : outcome block :=
  match todo with
  | O => Ret dest
  | S todo' => do dest' <- store dest i blank; pad_blanks dest' (S i) todo'
  end.
(** fwrap.cpp 29-39; [len] is unsigned. *)
Definition padfstring (dest src : block) (len : nat) : outcome block :=
  do r <- copy_chars dest src O len;
  match r with (dest, i, todo) => pad_blanks dest i todo end.
(** IPhreeqc_interface_F.cpp 30-42: also returns the new value of the length.  (The last increment of
    the counter overflows when the length is INT_MAX; this is not modelled.) *)
Definition padfstring_len (dest src : block) (len : Z) : outcome (block * Z) :=
  do c_len <- strlen src;
  do r <- copy_chars dest src O (Z.to_nat len);
  match r with (dest, i, todo) => do dest <- pad_blanks dest i todo; Ret (dest, Z.of_nat c_len) end.

(** fwrap.cpp 19: the loop from the last character down; returns i + 1. *)
Fixpoint last_graph (s : block) (k : nat) : outcome nat :=
  match k with
  | O => Ret O
  | S i => do c <- load s i; if negb (isgraph c) then last_graph s i else Ret k
  end.
Fixpoint memcpy (src : block) (i n : nat) : outcome block :=
  match n with
  | O => Ret []
  | S n => do c <- load src i; do r <- memcpy src (S i) n; Ret (c :: r)
  end.
(** fwrap.cpp 12-27: the allocated block. *)
Definition f2cstring (fstring : block) (len : nat) : outcome block :=
  do k <- last_graph fstring len;
  do t <- memcpy fstring O k;
  Ret (t ++ [NUL]).

(** Fortran trim, used in trim(line)//C_NULL_CHAR (IPhreeqc_interface.F90 37, 55, 73, 773, 791 ...):
    the Fortran variable is the whole block. *)
Fixpoint trim (s : block) : block :=
  match s with
  | [] => []
  | c :: r => match trim r with
              | [] => if Ascii.eqb c blank then [] else [c]
              | t => c :: t
              end
  end.
Definition to_c (s : block) : block := trim s ++ [NUL].

(** The value of a cell of the selected output as delivered by GetSelectedOutputValue; the text that snprintf
    writes for a number is given.  A string is the block behind its pointer. *)
Inductive cell := CEmpty | CError | CLong (n : Z) (text : block) | CDouble (x : Z) (text : block) | CString (b : block).
Definition TT_EMPTY : Z := 0.
Definition TT_ERROR : Z := 1.
Definition TT_DOUBLE : Z := 3.
Definition TT_STRING : Z := 4.
(** IPhreeqc_interface_F.cpp 301-340: vtype, dvalue when it is written, svalue, svalue_length. *)
Definition get_value_F (v : cell) (svalue : block) (svalue_length : Z) : outcome (Z * option Z * block * Z) :=
  match v with
  | CEmpty => Ret (TT_EMPTY, None, svalue, svalue_length)
  | CError => Ret (TT_ERROR, None, svalue, svalue_length)
  | CLong n t => do r <- padfstring_len svalue (t ++ [NUL]) svalue_length; Ret (TT_DOUBLE, Some n, fst r, snd r)
  | CDouble x t => do r <- padfstring_len svalue (t ++ [NUL]) svalue_length; Ret (TT_DOUBLE, Some x, fst r, snd r)
  | CString b => do r <- padfstring_len svalue b svalue_length; Ret (TT_STRING, None, fst r, snd r)
  end.
(** IPhreeqc_interface.F90 675-703: the Fortran variable svalue is the whole block; the last component
    is the optional argument slength. *)
Definition get_value (v : cell) (svalue : block) : outcome (Z * option Z * block * Z) :=
  let sz_fortran := Z.of_nat (length svalue) in
  do r <- get_value_F v svalue sz_fortran;
  match r with
  | (vtype, dvalue, svalue, sz) => Ret (vtype, dvalue, svalue, if sz <? sz_fortran then sz else sz_fortran)
  end.

(** C library strncpy: exactly [n] characters are written, the rest NUL. *)
Fixpoint strncpy (dest src : block) (i n : nat) (ended : bool) : outcome block :=
  match n with
  | O => Ret dest
  | S n =>
      if ended then do dest' <- store dest i NUL; strncpy dest' src (S i) n true
      else do c <- load src i; do dest' <- store dest i c; strncpy dest' src (S i) n (Ascii.eqb c NUL)
  end.
(** IPhreeqc.cpp 495-535 (GetSelectedOutputValue2): the characters. *)
Definition get_value2 (v : cell) (svalue : block) (svalue_length : nat) : outcome block :=
  match v with
  | CEmpty | CError => Ret svalue
  | CLong _ t | CDouble _ t => strncpy svalue (t ++ [NUL]) O svalue_length false
  | CString b => strncpy svalue b O svalue_length false
  end.

(** pp_sys.cpp 88-99: the loop over i from [k] - 1 down; the last '.' and the last '/'.
    (The index is an int: paths longer than 2^31 characters are not modelled.) *)
Fixpoint find_marks (cpath : block) (k : nat) (dot : nat) : outcome (nat * option nat) :=
  match k with
  | O => Ret (dot, None)
  | S i =>
      do c <- load cpath i;
      let dot := if Ascii.eqb c "."%char && Nat.eqb dot 0 then i else dot in
      if Ascii.eqb c "/"%char then Ret (dot, Some i) else find_marks cpath i dot
  end.
Record parts := mkParts { drive : block; dir : block; name : block; ext : block }.
Record lens := mkLens { path_len : nat; drive_len : nat; dir_len : nat; name_len : nat; ext_len : nat }.
(** pp_sys.cpp 59-137 (splitpathpp): the four variables and the result. *)
Definition splitpath (path : block) (p : parts) (n : lens) : outcome (parts * nat) :=
  do drive' <- padfstring (drive p) [NUL] (drive_len n);
  do cpath <- f2cstring path (path_len n);
  do plen <- strlen cpath;
  if Nat.eqb plen 0 then
    do ext' <- padfstring (ext p) [NUL] (ext_len n);
    do name' <- padfstring (name p) [NUL] (name_len n);
    do dir' <- padfstring (dir p) [NUL] (dir_len n);
    Ret (mkParts drive' dir' name' ext', O)
  else
    do marks <- find_marks cpath plen O;
    let dot := fst marks in
    do r <- (if Nat.eqb dot 0 then
               do ext' <- padfstring (ext p) [NUL] (ext_len n); Ret (ext', cpath)
             else
               do ext' <- padfstring (ext p) (skipn dot cpath) (ext_len n);
               do cpath' <- store cpath dot NUL; Ret (ext', cpath'));
    match r with
    | (ext', cpath) =>
        match snd marks with
        | Some slash =>
            do q <- (if negb (Nat.eqb slash (plen - 1)) then
                       do name' <- padfstring (name p) (skipn (S slash) cpath) (name_len n);
                       do cpath' <- store cpath (S slash) NUL; Ret (name', cpath')
                     else
                       do name' <- padfstring (name p) [NUL] (name_len n); Ret (name', cpath));
            do dir' <- padfstring (dir p) (snd q) (dir_len n);
            do l <- strlen dir'; Ret (mkParts drive' dir' (fst q) ext', l)
        | None =>
            do name' <- padfstring (name p) cpath (name_len n);
            do dir' <- padfstring (dir p) [NUL] (name_len n);          (* 131: the length of the name *)
            do l <- strlen dir'; Ret (mkParts drive' dir' name' ext', l)
        end
    end.
