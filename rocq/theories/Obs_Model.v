(** Chemical observations: webmod.d/src/obs_chem.F obsc_init 394-676, obsc_run
    681-850, parsechemobs 910-1020, phreeq_id 1024-1049, unit_id 1053-1073,
    LENGTH 1078-1090, PARSE 1094-1104, and the loop over the sources of
    phreeq_mms.F90 phreeqmms_run 6677-6735.

    Character variables are strings; a variable of n characters holds strings
    fitted to n with blanks. LENGTH also compares with '\f' and '\r', which are
    constants of two characters and never equal one; this is left out. The
    numbers of the data lines are given as rationals, dates among them; a
    field that is no number is [None]. Not modelled: the other forms of
    list-directed input (repeat counts, empty fields, slashes), messages, the
    names of the isotopes. *)
From Coq Require Import String Ascii ZArith QArith Bool List.
From Verif Require Import Qx.
Import ListNotations.
Local Open Scope string_scope.
Local Open Scope list_scope.
Local Open Scope Z_scope.

(** * Character variables *)

Definition is_blank (c : ascii) : bool := Ascii.eqb c " ".
Fixpoint blanks (n : nat) : string := match n with O => "" | S n => String " " (blanks n) end.

(** Assignment to a variable of [n] characters. *)
Definition fit (n : nat) (s : string) : string := (substring 0 n s ++ blanks (n - String.length s))%string.

(** obs_chem.F 1078-1090, LENGTH: the position of the last character that is
    not a blank. *)
Fixpoint flen (s : string) : nat :=
  match s with
  | "" => O
  | String c r => match flen r with O => if is_blank c then O else 1%nat | S k => S (S k) end
  end.

(** obs_chem.F 1094-1104, PARSE: from the second character on, the first that
    is [del] ends the word; the answer has 12 characters. *)
Fixpoint upto (del : ascii) (s : string) : string :=
  match s with "" => "" | String c r => if Ascii.eqb c del then "" else String c (upto del r) end.
Definition parse (s : string) (del : ascii) : string :=
  match s with "" => blanks 12 | String c r => fit 12 (String c (upto del r)) end.

(** a(1:length(a)) .eq. b(1:length(b)). *)
Definition same (a b : string) : bool := String.eqb (substring 0 (flen a) a) (substring 0 (flen b) b).

(** * The line of species and units *)

(** A row of the species table (used fields): spec, M2mg, M2meq. *)
Record species := mkSp { spec : string; mg : Q; meq : Q }.

(** obs_chem.F 1024-1049, phreeq_id. *)
Fixpoint species_from (i : Z) (tbl : list species) (s : string) : Z :=
  match tbl with
  | [] => -99
  | e :: r => if same s (spec e) then i else species_from (i + 1) r s
  end.
Definition phreeq_id (tbl : list species) (s : string) : Z := species_from 1 tbl s.

(** unit_lut, 163-166. *)
Definition unit_lut : list string :=
  map (fit 12) ["mg/L"; "meq/L"; "uconc1"; "uconc2"; "uconc3"; "mmol/L"; "mol/L"; "permil"].

(** obs_chem.F 1053-1073, unit_id. The loop looks at a ninth element before it
    gives up: [beyond] is what memory holds after the table. *)
Fixpoint unit_from (i : Z) (tbl : list string) (s : string) : Z :=
  match tbl with
  | [] => -99
  | u :: r =>
    let id := if same s u then i else 0 in
    let id := if 8 <? i then -99 else id in
    if id =? 0 then unit_from (i + 1) r s else id
  end.
Definition unit_id (beyond : string) (s : string) : Z := unit_from 1 (unit_lut ++ [beyond]) s.

(** obs_chem.F 972-988, loop 60: species and units in turn; a species without
    unit leaves elem_units unset. [acc] is in reverse. *)
Fixpoint parse_columns (fuel : nat) (buf : string) (buf_len tot : nat) (matched : bool)
  (acc : list (string * option string)) : list (string * option string) :=
  if (tot <? buf_len)%nat then
    match fuel with
    | O => rev acc
    | S fuel =>
      let word := parse (fit 1000 (substring tot (buf_len - tot) buf)) " " in
      let tot' := (tot + flen word + 1)%nat in
      if matched then parse_columns fuel buf buf_len tot' false ((word, None) :: acc)
      else parse_columns fuel buf buf_len tot' true
             (match acc with (e, _) :: r => (e, Some word) :: r | [] => [] end)
    end
  else rev acc.

Inductive parsed := TooMany | Header (tph : bool) (columns : list (string * option string)).

(** parsechemobs 938-990. elem and elem_units have MAXSOLOBS = 100 elements
    (fmodules.inc 53). *)
Definition parse_header (buf : string) : parsed :=
  let buf_len := flen buf in
  let rembuf := fit 1000 (substring 0 buf_len buf) in
  let tempc := parse rembuf " " in
  let tot := (flen tempc + 1)%nat in
  let rembuf := fit 1000 (substring tot (buf_len - tot) buf) in
  let ph := parse rembuf " " in
  let tot := (tot + flen ph + 1)%nat in
  let columns := parse_columns (S buf_len) buf buf_len tot true [] in
  if (100 <? length columns)%nat then TooMany
  else Header (same tempc "tempc" && same ph "pH") columns.

(** parsechemobs 1003-1018: the codes of a column, and for a solute the last
    column with its species. *)
Definition codes (tbl : list species) (beyond : string) (c : string * option string) : Z * option Z :=
  (phreeq_id tbl (fst c), option_map (unit_id beyond) (snd c)).
Fixpoint valid_from (i : Z) (cols : list (Z * Z)) (phq : Z) (v : Z) : Z :=
  match cols with
  | [] => v
  | (s, _) :: r => valid_from (i + 1) r phq (if s =? phq then i else v)
  end.
Definition validobs (cols : list (Z * Z)) (phq : Z) : Z := valid_from 1 cols phq 0.

(** * obsc_init *)

Inductive init_end :=
| Unreadable   (* it reads outside an array or an unset variable *)
| Stopped      (* the run is stopped, with a message *)
| Constant     (* chemdat_flag = 0: constant concentrations *)
| Ready (columns : list (Z * Z)) (valid : list Z).

Fixpoint all_some {A B} (l : list (A * option B)) : option (list (A * B)) :=
  match l with
  | [] => Some []
  | (a, Some b) :: r => match all_some r with Some r => Some ((a, b) :: r) | None => None end
  | (_, None) :: _ => None
  end.

(** obs_chem.F 574-590, loop 1200: a column that stops the run. *)
Definition bad_column (tbl : list species) (c : Z * Z) : bool :=
  (fst c =? -99) || (snd c =? -99) ||
  match nth_error tbl (Z.to_nat (fst c - 1)) with
  | Some e => qlt (meq e) 1 && (snd c =? 2)
  | None => false
  end.

(** obs_chem.F 496-604. [file]: the lines after the one that announces species
    and units, when the file exists; [names]: the names of the solutes. The
    row of each solute is used (504) before it is known to exist (592-599). *)
Definition obsc_init (tbl : list species) (beyond : string) (names : list string) (ppt : Z)
  (file : option string) : init_end :=
  let ids := map (phreeq_id tbl) names in
  if existsb (fun k => k =? -99) ids then Unreadable else
  match file with
  | None => Constant
  | Some line =>
    if ppt =? 0 then Constant else
    match parse_header (fit 1000 line) with
    | TooMany => Unreadable
    | Header tph columns =>
      match all_some (map (codes tbl beyond) columns) with
      | None => Unreadable
      | Some cols =>
        if negb tph then Stopped
        else if existsb (bad_column tbl) cols then Stopped
        else Ready cols (map (validobs cols) ids)
      end
    end
  end.

(** * obsc_run *)

Definition token := option Q.

(** The fields of one line, while [n] numbers are wanted: the numbers and
    whether it came upon a field that is none. *)
Fixpoint scan (n : nat) (l : list token) : list Q * bool :=
  match n, l with
  | O, _ => ([], false)
  | S _, [] => ([], false)
  | S _, None :: _ => ([], true)
  | S n, Some q :: r => let '(a, b) := scan n r in (q :: a, b)
  end.

Inductive read_end := Eof | Bad (got : list Q) (rest : list (list token)) | Full (got : list Q) (rest : list (list token)).

(** The list-directed read of [n] numbers from unit 15: it goes on to further lines for them, and a
    later read starts with a new line. At a field that is no number the
    numbers before it have been stored, the others not (gfortran). *)
Fixpoint read_items (n : nat) (lines : list (list token)) (got : list Q) : read_end :=
  match lines with
  | [] => Eof
  | l :: r =>
    let '(a, bad) := scan (n - length got) l in
    let got := got ++ a in
    if bad then Bad got r
    else if (n <=? length got)%nat then Full got r else read_items n r got
  end.

Definition date_eqb (now items : list Q) : bool :=
  Nat.eqb (length now) 6 && forallb (fun p => qeq (fst p) (snd p)) (combine now (firstn 6 items)).

(** obs_chem.F 755-771, loop 12: on to the line of the first day; these reads
    have no iostat, an error ends the program. *)
Fixpoint search (fuel n : nat) (now items : list Q) (rest : list (list token)) : option (list Q * list (list token)) :=
  if date_eqb now items then Some (items, rest)
  else match fuel with
       | O => None
       | S fuel => match read_items n rest [] with Full items rest => search fuel n now items rest | _ => None end
       end.

(** step1, chemdat (by rows), and the lines left. *)
Record reader := mkRd { first : bool; chemdat : list Q; rest : list (list token) }.

Inductive day_end := Aborted | Unset | Read (r : reader).

(** obs_chem.F 749-790. Without all its fields, the record leaves chemdat as it
    was from there on; iostat is only looked at for the end of the file. *)
Definition read_day (n : nat) (now : list Q) (s : reader) : day_end :=
  let go items rest :=
    match (if first s then search (length rest) n now items rest
           else if date_eqb now items then Some (items, rest) else None) with
    | Some (items, rest) => Read (mkRd false (skipn 6 items) rest)
    | None => Aborted
    end in
  match read_items n (rest s) [] with
  | Eof => Aborted
  | Bad got r => if (length got <? 6)%nat then Unset else go (got ++ skipn (length got - 6) (chemdat s)) r
  | Full got r => go got r
  end.

(** Parameters of the conversion. *)
Record setup := mkSet { tbl : list species; conv : list Q; columns : list (Z * Z); valid : list Z;
  ppt_chem : Z; chem_ext : Z; nchem_ext : nat; nchemobs : nat }.

Definition ratio (x y : Q) : option Q := if qeq y 0 then None else Some (x / y)%Q.

(** obs_chem.F 823-845; [None]: no number (division by zero), or an element
    outside its array. *)
Definition convert (u : setup) (c : Z * Z) (x : Q) : option Q :=
  if qle 0 x then
    if snd c =? 1 then match nth_error (tbl u) (Z.to_nat (fst c - 1)) with Some e => ratio x (mg e) | None => None end
    else if snd c =? 2 then match nth_error (tbl u) (Z.to_nat (fst c - 1)) with Some e => ratio x (meq e) | None => None end
    else if snd c <=? 5 then match nth_error (conv u) (Z.to_nat (snd c - 3)) with Some f => ratio x f | None => None end
    else if snd c =? 6 then ratio x 1000
    else Some x
  else Some x.

(** Temperature, pH and concentrations in the order of the solutes. *)
Record water := mkWat { temp : Q; ph : Q; conc : list (option Q) }.

Definition cell (u : setup) (m : list Q) (row : nat) (j : nat) : option Q :=
  nth_error m (row * (length (columns u) + 2) + j).

(** One row of chemdat (from 0); [None] outside of it. Loop 100: solutes
    without a column keep the zero of 736-746. *)
Definition row_conc (u : setup) (m : list Q) (row : nat) (v : Z) : option (option Q) :=
  if v =? 0 then Some (Some 0%Q)
  else match cell u m row (Z.to_nat v + 1), nth_error (columns u) (Z.to_nat (v - 1)) with
       | Some x, Some c => Some (convert u c x)
       | _, _ => None
       end.
Fixpoint all {A} (l : list (option A)) : option (list A) :=
  match l with
  | [] => Some []
  | Some a :: r => match all r with Some r => Some (a :: r) | None => None end
  | None :: _ => None
  end.

Record inputs := mkIn { precip : water; ext : list water; obs : list water }.

(** nchemdep_obs and nchemdat_obs, 450-451. *)
Definition nchemdep_obs (u : setup) : nat := (nchem_ext u * Z.to_nat (chem_ext u) + Z.to_nat (ppt_chem u))%nat.
Definition nchemdat_obs (u : setup) : nat := (nchemdep_obs u + nchemobs u)%nat.

(** Temperature and pH of row [row], 795-809. *)
Definition row_tp (u : setup) (m : list Q) (row : nat) : option (Q * Q) :=
  if (row <? nchemdat_obs u)%nat then
    match cell u m row 0, cell u m row 1 with Some t, Some p => Some (t, p) | _, _ => None end
  else None.
(** The concentrations the loop 100 gives to a source: those of its row, or the
    zeros of 736-746. *)
Definition source (u : setup) (m : list Q) (tp : option (Q * Q)) (row : option nat) : option water :=
  match tp, (match row with Some k => all (map (row_conc u m k) (valid u)) | None => Some (map (fun _ => Some 0%Q) (valid u)) end) with
  | Some (t, p), Some c => Some (mkWat t p c)
  | _, _ => None
  end.

(** obs_chem.F 709-850 for what was read. *)
Definition day_inputs (u : setup) (m : list Q) : option inputs :=
  let ppt := Z.to_nat (ppt_chem u) in
  let p := source u m (if ppt_chem u =? 1 then row_tp u m 0 else Some (25%Q, 7%Q)) (if ppt_chem u =? 1 then Some O else None) in
  let e := all (map (fun i => source u m (row_tp u m (i + ppt))
                       (if (i + ppt <? nchemdep_obs u)%nat then Some (i + ppt)%nat else None)) (seq 0 (nchem_ext u))) in
  let o := all (map (fun j => source u m (row_tp u m (nchemdep_obs u + j)) (Some (nchemdep_obs u + j)%nat)) (seq 0 (nchemobs u))) in
  match p, e, o with Some p, Some e, Some o => Some (mkIn p e o) | _, _, _ => None end.

(** The size of a record: 754. *)
Definition items (u : setup) : nat := (6 + nchemdat_obs u * (length (columns u) + 2))%nat.

(** Steps one after the other, while they are good. *)
Fixpoint days (u : setup) (s : reader) (nows : list (list Q)) : option (list (option inputs)) :=
  match nows with
  | [] => Some []
  | now :: r =>
    match read_day (items u) now s with
    | Read s => match days u s r with Some l => Some (day_inputs u (chemdat s) :: l) | None => None end
    | _ => None
    end
  end.

(** * The sources of a step *)

Inductive from := FromPrecip | FromExt (k : Z) | FromObs (k : Z).
Inductive deed := Create (index : Z) (f : from) | Record (index : Z) (f : from).

(** phreeq_mms.F90 6681-6735, the loop 482 for one [ib]; [index] is the place
    among the chemical inputs. *)
Definition deed_of (chem_ext nchem_ext : Z) (ib : Z) : deed :=
  let nchemdep := 1 + nchem_ext in
  let ibindx := if (1 <? ib) && (chem_ext =? 0) then ib + nchem_ext else ib in
  let f := if ib =? 1 then FromPrecip
           else if ib - 1 <=? nchem_ext * chem_ext then FromExt (ib - 1)
           else FromObs (ibindx - nchemdep) in
  if ib <=? nchemdep then Create ibindx f else Record ibindx f.
(** 6677-6681: ib from 2 - ppt_chem to nchemdat_obs - ppt_chem + 1. *)
Definition deeds (ppt chem_ext nchem_ext nchemobs : Z) : list deed :=
  let dat := ppt + chem_ext * nchem_ext + nchemobs in
  map (fun k => deed_of chem_ext nchem_ext (2 - ppt + Z.of_nat k)) (seq 0 (Z.to_nat dat)).
