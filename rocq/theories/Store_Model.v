(** The numbered reactants of the geochemical engine and the blocks COPY, DELETE and DUMP:
    IPhreeqcMMS/IPhreeqc/src/phreeqcpp/StorageBinList.cpp, dumper.cpp, ReadClass.cxx (dump_entities, delete_entities,
    dump_ostream), the templates Rxn_... of Phreeqc.h, read_copy of read.cpp and copy_entities and do_mixes of mainsubs.cpp.
    What a reactant contains is an argument.  A line of a block is its option (none when the line has none) and its
    tokens; how CParser::get_option finds the option is not modelled.  Messages and files are not modelled. *)
From Coq Require Import String Ascii List ZArith QArith Bool.
From Verif Require Import CStr_Model CNum_Model.
Import ListNotations.
Local Open Scope string_scope.
Local Open Scope list_scope.
Local Open Scope Z_scope.

Definition INT_MAX : Z := 2147483647.
Definition INT_MIN : Z := -2147483648.
Definition is_int (x : Z) : bool := (INT_MIN <=? x) && (x <=? INT_MAX).

(** std::set<int> as the list of its elements in order: insert. *)
Fixpoint zins (x : Z) (l : list Z) : list Z :=
  match l with
  | [] => [x]
  | y :: r => if x <? y then x :: l else if x =? y then l else y :: zins x r
  end.
(** [n] numbers from [a] on. *)
Fixpoint zrange (a : Z) (n : nat) : list Z := match n with O => [] | S n => a :: zrange (a + 1) n end.

(** std::map<int, T> as the list of its entries in order: find, operator[] with assignment, erase. *)
Section Zmap.
Context {A : Type}.
Definition zmap := list (Z * A).
Fixpoint zfind (m : zmap) (k : Z) : option A :=
  match m with [] => None | (n, x) :: r => if n =? k then Some x else zfind r k end.
Fixpoint zset (m : zmap) (k : Z) (x : A) : zmap :=
  match m with
  | [] => [(k, x)]
  | (n, y) :: r => if k <? n then (k, x) :: m else if k =? n then (n, x) :: r else (n, y) :: zset r k x
  end.
Fixpoint zerase (m : zmap) (k : Z) : zmap :=
  match m with [] => [] | (n, x) :: r => if n =? k then r else (n, x) :: zerase r k end.
End Zmap.
Arguments zmap A : clear implicits.

(** StorageBinListItem (StorageBinList.h 10-26). *)
Record item := mkItem { defined : bool; numbers : list Z }.
Definition no_item : item := mkItem false [].

(** find("--") and replace(pos, 2, " &"), StorageBinList.cpp 53-56. *)
Fixpoint dashes (s : string) : string :=
  match s with
  | String a (String b r as t) => if Ascii.eqb a "-" && Ascii.eqb b "-" then String " " (String "&" r) else String a (dashes t)
  | _ => s
  end.
(** std::replace of characters. *)
Fixpoint swap_char (x y : ascii) (s : string) : string :=
  match s with EmptyString => "" | String c r => String (if Ascii.eqb c x then y else c) (swap_char x y r) end.
(** Lines 57-58: from the second character on. *)
Definition respell (s : string) : string :=
  match dashes s with EmptyString => "" | String c r => String c (swap_char "&" "-" (swap_char "-" " " r)) end.
(** istringstream >> int: fails without digits and outside of int. *)
Definition scan (s : string) : option (Z * string) :=
  let (v, e) := strtol_raw s in if Nat.ltb (String.length e) (String.length s) && is_int v then Some (v, e) else None.
(** Augment(std::string), 46-93.  The loop over a range that ends with the largest int does not end (i++ overflows). *)
Definition augment (it : item) (tok : string) : outcome item :=
  if String.eqb tok "" then Ret (mkItem true (numbers it)) else
  match scan (respell tok) with
  | None => Ret (mkItem true (numbers it))
  | Some (i, rest) =>
      match scan rest with
      | None => Ret (mkItem true (zins i (numbers it)))
      | Some (j, _) =>
          if i =? j then Ret (mkItem true (zins i (numbers it)))
          else if Z.max i j =? INT_MAX then UB
          else Ret (mkItem true (fold_left (fun l x => zins x l) (zrange (Z.min i j) (Z.to_nat (Z.max i j - Z.min i j + 1))) (numbers it)))
      end
  end.
(** Augment(int), 94-100. *)
Definition augment_int (it : item) (i : Z) : item :=
  if defined it && match numbers it with [] => true | _ => false end then it else mkItem true (zins i (numbers it)).

(** The kinds, in the order of dump_ostream (ReadClass.cxx 853-1096). *)
Inductive kind := Solution | Pp | Exchange | Surface | Ss | Gas | Kinetics | Mix | Reaction | Temperature | Pressure.
Definition kinds : list kind := [Solution; Pp; Exchange; Surface; Ss; Gas; Kinetics; Mix; Reaction; Temperature; Pressure].
Definition kind_eqb (a b : kind) : bool :=
  match a, b with
  | Solution, Solution | Pp, Pp | Exchange, Exchange | Surface, Surface | Ss, Ss | Gas, Gas | Kinetics, Kinetics
  | Mix, Mix | Reaction, Reaction | Temperature, Temperature | Pressure, Pressure => true
  | _, _ => false
  end.
(** StorageBinList: the items, and the one of the cells. *)
Record binlist := mkBin { items : kind -> item; cell : item }.
Definition no_bin : binlist := mkBin (fun _ => no_item) no_item.
Definition set_item (b : binlist) (k : kind) (it : item) : binlist :=
  mkBin (fun x => if kind_eqb x k then it else items b x) (cell b).
(** SetAll 137-146. *)
Definition set_all (tf : bool) (b : binlist) : binlist := mkBin (fun _ => mkItem tf []) (cell b).
(** TransferAll 324-336. *)
Definition transfer_all (source : item) (b : binlist) : binlist :=
  mkBin (fun k => fold_left augment_int (numbers source) (items b k)) (cell b).

(** CParser::token_type, common/Parser.cxx 550-575: digits, '.' and '-' begin a number. *)
Definition is_number (tok : string) : bool :=
  match tok with
  | EmptyString => false
  | String c _ => match digit c with Some _ => true | None => Ascii.eqb c "." || Ascii.eqb c "-" end
  end.
(** 223-246: a token that is not a number ends the line with a message; the end of the line is an empty token. *)
Fixpoint read_tokens (it : item) (toks : list string) : outcome item :=
  match toks with
  | [] => augment it ""
  | t :: toks => if is_number t then do it <- augment it t; read_tokens it toks else Ret it
  end.
(** The options of DELETE, 338-358. *)
Inductive option_of_delete := OKind (k : kind) | OAll | OCells | OUnknown.
Definition line_of (O : Type) : Type := option O * list string.
(** 155-307: a line without option goes on with the last one.  [false] after an unknown option, which ends the block. *)
Fixpoint delete_lines (ls : list (line_of option_of_delete)) (saved : option option_of_delete) (b : binlist) : outcome (binlist * bool) :=
  match ls with
  | [] => Ret (b, true)
  | (o, toks) :: ls =>
      let o := match o with None => saved | _ => o end in
      match o with
      | None | Some OUnknown => Ret (b, false)
      | Some OAll => delete_lines ls o (set_all true b)
      | Some OCells => do it <- read_tokens (cell b) toks; delete_lines ls o (mkBin (items b) it)
      | Some (OKind k) => do it <- read_tokens (items b k) toks; delete_lines ls o (set_item b k it)
      end
  end.
(** Read, 148-322. *)
Definition read_delete (b : binlist) (ls : list (line_of option_of_delete)) : outcome (binlist * bool) :=
  do r <- delete_lines ls None (mkBin (items b) no_item);
  let (b, ok) := r in
  Ret (if defined (cell b) then match numbers (cell b) with [] => set_all true b | _ => transfer_all (cell b) b end else b, ok).

(** dumper::Read, dumper.cpp 41-205: the options -file and -append (opt 0 and 1) leave the selection of the last block;
    any other first clears it.  A token that is not a number is skipped with a message. *)
Inductive option_of_dump := DFile | DAppend | DAll | DCells | DKind (k : kind) | DUnknown.
Fixpoint dump_tokens (it : item) (toks : list string) : outcome item :=
  match toks with
  | [] => augment it ""
  | t :: toks => if is_number t then do it <- augment it t; dump_tokens it toks else dump_tokens it toks
  end.
Fixpoint dump_lines (ls : list (line_of option_of_dump)) (saved : option option_of_dump) (cleared : bool) (b : binlist) : outcome (binlist * bool) :=
  match ls with
  | [] => Ret (b, true)
  | (o, toks) :: ls =>
      let o := match o with None => saved | _ => o end in
      let b' := if cleared then b else set_all false b in
      match o with
      | None | Some DUnknown => Ret (b, false)
      | Some DFile | Some DAppend => dump_lines ls o cleared b
      | Some DAll => dump_lines ls o true (set_all true b')
      | Some DCells => do it <- dump_tokens no_item toks; dump_lines ls o true (transfer_all it b')
      | Some (DKind k) => do it <- dump_tokens (items b' k) toks; dump_lines ls o true (set_item b' k it)
      end
  end.
Definition read_dump (b : binlist) (ls : list (line_of option_of_dump)) : outcome (binlist * bool) := dump_lines ls None false b.

Section Store.
Context {B : Type}.
(** A reactant: its numbers and what it contains. *)
Record entity := mkEntity { n_user : Z; n_user_end : Z; body : B }.
Definition store := kind -> zmap entity.
Definition set_map (s : store) (k : kind) (m : zmap entity) : store := fun x => if kind_eqb x k then m else s x.

(** Rxn_next_user_number, Phreeqc.h 1941-1950: the last key plus one. *)
Fixpoint last_key (m : zmap entity) : option Z := match m with [] => None | [(k, _)] => Some k | _ :: r => last_key r end.
Definition next_user_number (m : zmap entity) : Z := match last_key m with None => 0 | Some k => k + 1 end.
(** Rxn_copy, 1952-1969. *)
Definition renumber (e : entity) (j : Z) : entity := mkEntity j j (body e).
Definition rxn_copy (m : zmap entity) (i j : Z) : zmap entity :=
  match zfind m i with Some e => zset m j (renumber e j) | None => m end.
(** Rxn_copies, 1971-1987: each copy is made from the one before. *)
Definition rxn_copies (m : zmap entity) (i j : Z) : zmap entity :=
  if j <=? i then m else
  match zfind m i with
  | None => m
  | Some e => fst (fold_left (fun (a : zmap entity * entity) x => let c := renumber (snd a) x in (zset (fst a) x c, c)) (zrange (i + 1) (Z.to_nat (j - i))) (m, e))
  end.

(** A COPY block for one kind: source and first and last target (class copier, global_structures.h 312-321). *)
Definition instr : Type := Z * Z * Z.
(** int to size_t and size_t to int. *)
Definition size_of (x : Z) : Z := x mod 2 ^ 64.
Definition int_of (x : Z) : Z := let y := x mod 2 ^ 32 in if y <? 2 ^ 31 then y else y - 2 ^ 32.
(** One instruction of copy_entities, mainsubs.cpp 1873-1884 and so on: the counter is a size_t, so the loop does not
    end ([None]) when the last target is -1. *)
Definition copy_one (m : zmap entity) (c : instr) : option (zmap entity) :=
  match c with (n, s, e) =>
    match zfind m n with
    | None => Some m
    | Some _ =>
        if e =? -1 then None else
        Some (fold_left (fun m i => if i =? size_of n then m else rxn_copy m n (int_of i)) (zrange (size_of s) (Z.to_nat (size_of e - size_of s + 1))) m)
    end
  end.
Fixpoint copy_kind (m : zmap entity) (cs : list instr) : option (zmap entity) :=
  match cs with [] => Some m | c :: cs => match copy_one m c with None => None | Some m => copy_kind m cs end end.
(** The kinds are copied in the order solution, pp_assemblage, reaction, mix, exchange, surface, temperature, pressure,
    gas_phase, kinetics, ss_assemblage (1872-2027); they are independent. *)
Definition copy_order : list kind := [Solution; Pp; Reaction; Mix; Exchange; Surface; Temperature; Pressure; Gas; Kinetics; Ss].
Fixpoint copy_entities (ks : list kind) (cs : kind -> list instr) (s : store) : option store :=
  match ks with
  | [] => Some s
  | k :: ks => match copy_kind (s k) (cs k) with None => None | Some m => copy_entities ks cs (set_map s k m) end
  end.

(** read_copy, read.cpp 9940-10060.  The first token is the keyword; [CCell] is a word that begins with "cell".
    [None]: refused with a message.  sscanf leaves an unset variable unset when there is no number. *)
Inductive copy_of := CKind (k : kind) | CCell | COther.
Fixpoint first_dash (s : string) : string :=
  match s with EmptyString => "" | String c r => if Ascii.eqb c "-" then String " " r else String c (first_dash r) end.
Definition read_copy (w : copy_of) (src tgt : string) (cs : kind -> list instr) : outcome (option (kind -> list instr)) :=
  if negb (is_number src) then Ret None else
  match scan src with
  | None => UB
  | Some (n, _) =>
      if negb (is_number tgt) then Ret None else
      match scan (match tgt with EmptyString => "" | String c r => String c (first_dash r) end) with
      | None => UB
      | Some (s, rest) =>
          let e := match scan rest with Some (e, _) => e | None => s end in
          match w with
          | COther => Ret None
          | CCell => Ret (Some (fun k => cs k ++ [(n, s, e)]))
          | CKind k => Ret (Some (fun x => if kind_eqb x k then cs x ++ [(n, s, e)] else cs x))
          end
      end
  end.

(** delete_entities, ReadClass.cxx 265-463. *)
Definition delete_kind (m : zmap entity) (it : item) : zmap entity :=
  if defined it then match numbers it with [] => [] | l => fold_left zerase l m end else m.
Definition delete_entities (b : binlist) (s : store) : store * binlist :=
  if existsb (fun k => defined (items b k)) kinds
  then (fun k => delete_kind (s k) (items b k), set_all false b) else (s, b).

(** Rxn_dump_raw (Phreeqc.h 1894-1907) and dump_ostream: what is dumped, in order. *)
Definition dump_kind (m : zmap entity) (it : item) : list entity :=
  if defined it then
    match numbers it with
    | [] => map snd (filter (fun x => (0 <=? fst x) && (0 <=? n_user (snd x))) m)
    | l => flat_map (fun i => match zfind m i with Some e => if 0 <=? n_user e then [e] else [] | None => [] end) l
    end
  else [].
Definition dump_ostream (b : binlist) (s : store) : list (kind * entity) := flat_map (fun k => map (pair k) (dump_kind (s k) (items b k))) kinds.
(** dump_entities 230-262, with pr.dump on: the state holds whether a dump is due and the selection. *)
Definition dump_entities (st : bool * binlist) (s : store) : list (kind * entity) * (bool * binlist) :=
  if fst st then (dump_ostream (snd st) s, (false, snd st)) else ([], st).

(** Rxn_mix, Phreeqc.h 2086-2097: the mixtures in the order of their numbers.  [blend] is the constructor of the mixed
    reactant, which looks up its parts in the map. *)
Record mixture := mkMixture { x_user : Z; x_end : Z; x_parts : list (Z * Q) }.
Variable blend : (Z -> option entity) -> list (Z * Q) -> B.
Definition rxn_mix (mixes : zmap mixture) (m : zmap entity) : zmap entity :=
  fold_left (fun m (x : Z * mixture) => let x := snd x in
    rxn_copies (zset m (x_user x) (mkEntity (x_user x) (x_user x) (blend (zfind m) (x_parts x)))) (x_user x) (x_end x)) mixes m.
End Store.
Arguments entity B : clear implicits.
Arguments store B : clear implicits.
