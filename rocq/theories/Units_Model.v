(** Units of concentration: IPhreeqcMMS/IPhreeqc/src/phreeqcpp read.cpp
    check_units 8286-8441, read_solution 5366-5383 and 5573-5602 (units of the
    solution and of its elements); prep.cpp convert_units 1782-1975;
    utilities.cpp replace 668-679; Utils.cxx squeeze_white 115-132.

    Reals are rationals. Weights of formulas (compute_gfw) and of elements
    (master species) are arguments, and so is the mass of H+ and OH- that the
    sum of solutes starts with (1802-1818). Messages are not modelled. *)
From Coq Require Import String Ascii ZArith QArith Bool List.
From Verif Require Import Inp_Model.
Import ListNotations.
Local Open Scope string_scope.
Local Open Scope list_scope.
Local Open Scope Z_scope.

(** Utils.cxx 115-132. *)
Fixpoint squeeze (s : string) : string :=
  match s with "" => "" | String c r => if isspace c then squeeze r else String c (squeeze r) end.

(** utilities.cpp 668-679: the first place is replaced. *)
Definition replace1 (a b s : string) : string :=
  match replace_first a b s with Some t => t | None => s end.

(** The text up to the end of the first place of [a]; [None] when there is none. *)
Fixpoint upto (a s : string) : option string :=
  if prefix a s then Some a
  else match s with "" => None | String c r => option_map (String c) (upto a r) end.

(** strstr. *)
Definition contains (a s : string) : bool := match upto a s with Some _ => true | None => false end.

(** read.cpp 8334-8348. *)
Definition replacements : list (string * string) :=
  [("milli", "m"); ("micro", "u"); ("grams", "g"); ("gram", "g"); ("moles", "Mol"); ("mole", "Mol"); ("mol", "Mol");
   ("liter", "l"); ("kgh", "kgw"); ("ppt", "g/kgs"); ("ppm", "mg/kgs"); ("ppb", "ug/kgs");
   ("equivalents", "eq"); ("equivalent", "eq"); ("equiv", "eq")].
Definition rewritten (s : string) : string :=
  fold_left (fun t r => replace1 (fst r) (snd r) t) replacements (lower (squeeze s)).

(** 8350-8362. *)
Definition cut (s : string) : string :=
  match upto "/l" s with
  | Some t => t
  | None => match upto "/kgs" s with
            | Some t => t
            | None => match upto "/kgw" s with Some t => t | None => s end
            end
  end.

(** 8303-8331. *)
Definition units : list string :=
  ["Mol/l"; "mMol/l"; "uMol/l"; "g/l"; "mg/l"; "ug/l"; "Mol/kgs"; "mMol/kgs"; "uMol/kgs"; "g/kgs"; "mg/kgs"; "ug/kgs";
   "Mol/kgw"; "mMol/kgw"; "uMol/kgw"; "g/kgw"; "mg/kgw"; "ug/kgw"; "eq/l"; "meq/l"; "ueq/l"; "eq/kgs"; "meq/kgs"; "ueq/kgs";
   "eq/kgw"; "meq/kgw"; "ueq/kgw"].

(** check_units without the check of compatibility: the standard form. *)
Definition check_units (s : string) : option string :=
  let t := cut (rewritten s) in if existsb (String.eqb t) units then Some t else None.

(** 8394-8441 for a standard form [t]. *)
Definition compatible (alkalinity : bool) (default t : string) : option string :=
  let t := if alkalinity && contains "Mol" t then replace1 "Mol" "eq" t else t in
  if negb alkalinity && contains "eq" t then None
  else if contains "/l" default && contains "/l" t then Some t
  else if contains "/kgs" default && contains "/kgs" t then Some t
  else if contains "/kgw" default && contains "/kgw" t then Some t
  else None.

(** * read_solution *)

(** 5366-5383: -units; [None] is an input error. *)
Definition solution_units (token : string) : option string := check_units token.

(** 5573-5602: the units of an element, [own] as given with it; [None] is an
    input error. *)
Definition element_units (default : string) (alkalinity : bool) (own : option string) : option string :=
  match own with
  | None => Some default
  | Some s => match check_units s with Some t => compatible alkalinity default t | None => None end
  end.

(** * convert_units *)

(** An element of a solution: description, concentration, units, weight as
    given, and the formula after "as". *)
Record comp := mkComp { name : string; conc : Q; cunits : string; gfw : Q; as_ : option string }.

(** Weights of formulas and of master species; minor isotopes. *)
Record weights := mkW { formula : string -> option Q; master : string -> option Q; minor : string -> bool }.

(** 1846-1894: the weight, and the number of errors; [None]: the element is left
    out (1891). *)
Definition weight (w : weights) (c : comp) : option Q * Z :=
  if negb (Qle_bool (gfw c) 0) then (Some (gfw c), 0)
  else match as_ c with
       | Some f =>
         let '(g, e) := match formula w f with Some g => (g, 0) | None => (gfw c, 1) end in
         (Some (if String.eqb (name c) "Alkalinity" && String.eqb f "CaCO3" then (g / 2)%Q else g), e)
       | None =>
         match master w (fst (copy_token2 (name c))) with
         | Some g => (Some g, 0)
         | None => (None, 1)
         end
       end.

Definition totals := string -> option Q.
Definition put (t : totals) (n : string) (x : Q) : totals := fun m => if String.eqb m n then Some x else t m.

(** 1898-1915: kilograms of solution instead of litres, milli and micro. *)
Definition scaled (default : string) (density : Q) (c : comp) : Q :=
  let m := if contains "/l" default then (conc c * (1 / density))%Q else conc c in
  match cunits c with
  | String k _ => if Ascii.eqb k "m" then (m * (1 # 1000))%Q else if Ascii.eqb k "u" then (m * (1 # 1000000))%Q else m
  | "" => m
  end.

(** 1918-1928: the grams of solute. *)
Definition grams (u : string) (moles g : Q) : Q :=
  if contains "g/kgs" u || contains "g/l" u then moles
  else if contains "Mol/kgs" u || contains "Mol/l" u || contains "eq/l" u then (moles * g)%Q
  else 0%Q.

(** 1932-1935. *)
Definition in_moles (u : string) (moles g : Q) : Q :=
  if contains "g/" u && negb (Qeq_bool g 0) then (moles / g)%Q else moles.

(** One turn of 1822-1937; the totals, the sum of solutes and the errors. *)
Definition one_comp (w : weights) (default : string) (density : Q) (a : totals * Q * Z) (c : comp) : totals * Q * Z :=
  let '(t, sum, errors) := a in
  if minor w (name c) then a
  else
    let t := put t (name c) 0 in
    if String.eqb (name c) "H(1)" || String.eqb (name c) "E" || Qle_bool (conc c) 0 then (t, sum, errors)
    else
      let '(g, e) := weight w c in
      match g with
      | None => (t, sum, errors + e)
      | Some g =>
        let moles := scaled default density c in
        (put t (name c) (in_moles (cunits c) moles g), (sum + grams (cunits c) moles g)%Q, errors + e)
      end.

(** 1941-1970. [iterated] is kgw_kgs from the second turn of the search for the
    density on. The answer: totals and errors. *)
Definition convert (w : weights) (default : string) (density water hoh : Q) (iterated : option Q) (old : totals) (cs : list comp)
  : totals * Z :=
  let '(t, sum, errors) := fold_left (one_comp w default density) cs (old, hoh, 0) in
  let '(t, errors) :=
    if contains "kgs" default || contains "/l" default then
      let fraction := match iterated with Some x => x | None => (1 - (1 # 1000) * sum)%Q end in
      ((fun n => option_map (fun x => x / fraction)%Q (t n)), if Qle_bool fraction 0 then errors + 1 else errors)
    else (t, errors) in
  ((fun n => option_map (fun x => x * water)%Q (t n)), errors).
