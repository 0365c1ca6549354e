(** Element totals: IPhreeqcMMS/IPhreeqc/src/phreeqcpp/NameDouble.cxx, class cxxNameDouble (a
    std::map from names to doubles), and the word numbering of Dictionary.cpp.  Doubles are exact
    rationals.  Not modelled: dump_xml, dump_raw, read_raw, the logarithmic operations
    (add_log_activities, Multiply_activities_redox), sort_second. *)
From Coq Require Import String Ascii ZArith QArith Bool List.
From Verif Require Import Qx Map_Model.
Import ListNotations.
Local Open Scope string_scope.
Local Open Scope list_scope.
Local Open Scope Z_scope.

Definition nd := smap Q.

(** find("(") and substr(0, pos). *)
Fixpoint has_paren (s : string) : bool :=
  match s with EmptyString => false | String c r => Ascii.eqb c "(" || has_paren r end.
Fixpoint cut (s : string) : string :=
  match s with EmptyString => "" | String c r => if Ascii.eqb c "(" then "" else String c (cut r) end.
(** All characters but the last one. *)
Fixpoint but_last (s : string) : string :=
  match s with
  | EmptyString => ""
  | String c EmptyString => ""
  | String c r => String c (but_last r)
  end.

(** 200-221. *)
Definition add_extensive (m addee : nd) (f : Q) : nd :=
  if qeq f 0 then m
  else fold_left (fun m p =>
    match mfind m (fst p) with
    | Some x => mset m (fst p) (x + snd p * f)%Q
    | None => mset m (fst p) (snd p * f)%Q
    end) addee m.
(** 222-243 (the assertion of non-negative factors is left out). *)
Definition add_intensive (m addee : nd) (f1 f2 : Q) : nd :=
  fold_left (fun m p =>
    match mfind m (fst p) with
    | Some x => mset m (fst p) (f1 * x + f2 * snd p)%Q
    | None => mset m (fst p) (f2 * snd p)%Q
    end) addee m.
(** 402-420 (the name is assumed to be shorter than MAX_LENGTH). *)
Definition add (m : nd) (k : string) (total : Q) : nd :=
  match mfind m k with
  | Some x => mset m k (x + total)%Q
  | None => mset m k total
  end.
(** 421-432. *)
Definition multiply (m : nd) (f : Q) : nd := map (fun p => (fst p, (snd p * f)%Q)) m.
(** 50-71; [moles] is type == ND_ELT_MOLES. *)
Definition scaled (moles : bool) (old : nd) (f : Q) : nd :=
  fold_left (fun m p =>
    if moles then if qlt 0 (snd p * f)%Q then mset m (fst p) (snd p * f)%Q else m
    else mset m (fst p) (snd p * f)%Q) old [].
(** 84-106; [None]: name == NULL. *)
Definition from_coefs (l : list (option string * Q)) : nd :=
  fold_left (fun m p =>
    match fst p with
    | None => m
    | Some k => match mfind m k with
                | None => mset m k (snd p)
                | Some x => mset m k (x + snd p)%Q
                end
    end) l [].
(** 379-401. *)
Definition total_element (m : nd) (e : string) : Q :=
  fold_left (fun d p => if String.eqb (cut (fst p)) e then (d + snd p)%Q else d) m 0%Q.

(** The element name of an entry in 283-300 and 314-331. *)
Definition ename (s : string) : string :=
  if Nat.ltb (String.length s) 4 then s else if has_paren s then cut s else s.
(** 278-306. *)
Definition new_totals (m : nd) : nd :=
  fold_left (fun t p =>
    let e := ename (fst p) in
    if String.eqb e "H" || String.eqb e "O" || String.eqb e "Charge" then t else mset t e 0%Q) m [].
(** 308-347: the loop over both maps. *)
Fixpoint sum_into (old : nd) : nd -> nd :=
  match old with
  | [] => fun new => new
  | (n, x) :: ro =>
      fix inner (new : nd) : nd :=
        match new with
        | [] => []
        | (e, y) :: rn =>
            match String.compare e (ename n) with
            | Lt => (e, y) :: inner rn
            | Eq => sum_into ro ((e, (y + x)%Q) :: rn)
            | Gt => sum_into ro ((e, y) :: rn)
            end
        end
  end.
(** 268-349. *)
Definition simplify_redox (m : nd) : nd := sum_into m (new_totals m).

(** 433-495.  Line 452 takes pos - 1 characters (all of them when pos = 0). *)
Definition shortened (n : string) : string :=
  if String.eqb (cut n) "" then n else but_last (cut n).
Definition merge_redox (m source : nd) : nd :=
  fold_left (fun m p =>
    if has_paren (fst p) then mset (merase m (shortened (fst p))) (fst p) (snd p)
    else mset (filter (fun q => negb (String.prefix (fst p ++ "(") (fst q))) m) (fst p) (snd p)) source m.

(** ** Dictionary.cpp: the map, the vector of words and the text (as its lines). *)
Record dictionary := mkD { numbers : smap Z; words : list string; oss : list string }.
Definition empty_dictionary : dictionary := mkD [] [] [].
(** 28-41. *)
Definition find_word (d : dictionary) (s : string) : dictionary * Z :=
  match mfind (numbers d) s with
  | Some n => (d, n)
  | None =>
      let i := Z.of_nat (List.length (numbers d)) in
      (mkD (mset (numbers d) s i) (words d ++ [s]) (oss d ++ [s]), i)
  end.
(** The text of the ostringstream. *)
Definition newline : ascii := "010".
Fixpoint text (l : list string) : string :=
  match l with [] => "" | s :: r => s ++ String newline (text r) end.
(** 15-23: getline(str, 256) until it fails: at the end of the text, or at a line of more than 255
    characters.  [cur] is what has been read of the current line. *)
Fixpoint get_lines (cur : string) (s : string) : list string :=
  match s with
  | EmptyString => if String.eqb cur "" then [] else [cur]
  | String c r => if Ascii.eqb c newline then cur :: get_lines "" r
                  else if Nat.leb 255 (String.length cur) then []
                  else get_lines (cur ++ String c "") r
  end.
Definition dictionary_of (s : string) : dictionary :=
  fold_left (fun d w => fst (find_word d w)) (get_lines "" s) empty_dictionary.

(** NameDouble.cxx 510-521. *)
Definition serialize (d : dictionary) (m : nd) (ints : list Z) (doubles : list Q) : dictionary * list Z * list Q :=
  fold_left (fun a p =>
    let '(d, ints, doubles) := a in
    let (d', n) := find_word d (fst p) in (d', ints ++ [n], doubles ++ [snd p]))
    m (d, ints ++ [Z.of_nat (List.length m)], doubles).
(** v[i]; None outside the vector. *)
Definition at_ {A} (l : list A) (i : Z) : option A := if i <? 0 then None else nth_error l (Z.to_nat i).
(** 522-537; None: an access outside a vector. *)
Fixpoint deserialize_loop (d : dictionary) (ints : list Z) (doubles : list Q) (count : nat) (ii dd : Z) (m : nd)
  : option (nd * Z * Z) :=
  match count with
  | O => Some (m, ii, dd)
  | S c =>
      match at_ ints ii with
      | None => None
      | Some n =>
          match at_ (words d) n with
          | None => None
          | Some s =>
              if String.eqb s "" then deserialize_loop d ints doubles c (ii + 1) dd m
              else match at_ doubles dd with
                   | None => None
                   | Some x => deserialize_loop d ints doubles c (ii + 1) (dd + 1) (mset m s x)
                   end
          end
      end
  end.
Definition deserialize (d : dictionary) (ints : list Z) (doubles : list Q) (ii dd : Z) : option (nd * Z * Z) :=
  match at_ ints ii with
  | None => None
  | Some count => deserialize_loop d ints doubles (Z.to_nat count) (ii + 1) dd []
  end.
