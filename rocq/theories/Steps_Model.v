(** Batch reactions in steps: how the amounts of a REACTION, the times of a
    KINETICS block and the levels of REACTION_TEMPERATURE and
    REACTION_PRESSURE are read, which of them each step uses, and how the
    loop over the steps moves the entities of a calculation.

    IPhreeqcMMS/IPhreeqc/src/phreeqcpp:
      read.cpp        read_reaction            4387-4478
                      read_reaction_steps      4532-4656
                      read_kinetics, -steps    2130-2209, 2334-2348
      common/Utils.cxx convert_time            136-177
      Reaction.cxx    Get_reaction_steps       268-275
      step.cpp        add_reaction             891-1020
      Temperature.cxx Temperature_for_step     331-383
      Pressure.cxx    Pressure_for_step        323-375
      cxxKinetics.cxx Get_reaction_steps, Current_step  476-542
      mainsubs.cpp    set_use 106-330, reactions 775-935, saver 937-1020,
                      copy_use 1604-1738
      kinetics.cpp    set_reaction             1810-1972
      Phreeqc.h       Rxn_find, Rxn_copy, Rxn_copies  1928-1985

    Reals are exact rationals.  The chemistry itself (run_reactions) is a
    function argument. *)

From Coq Require Import String Ascii List ZArith QArith Bool.
Import ListNotations.
Local Open Scope string_scope.
Local Open Scope list_scope.
Local Open Scope Z_scope.

(** * Amounts, times and levels *)

(** The three fields that REACTION, KINETICS, REACTION_TEMPERATURE and
    REACTION_PRESSURE have in common: the numbers listed, whether they are to
    be taken in equal increments, and the number of increments
    (Reaction.h, cxxKinetics.h, Temperature.h, Pressure.h). *)
Record sched := mkSched { s_list : list Q; s_equal : bool; s_count : Z }.

(** Number of numbers listed, as an int. *)
Definition len (s : sched) : Z := Z.of_nat (length (s_list s)).

(** Reaction.cxx 268-275, cxxKinetics.cxx 476-484, Temperature.cxx 377-383,
    Pressure.cxx 367-375: the number of steps of one block. *)
Definition steps_of (s : sched) : Z :=
  if s_equal s then s_count s else len s.

(** [v[k-1]] for 1 <= k <= size; outside it the C++ would read outside the
    vector, which no caller does. *)
Definition at_ (s : sched) (k : Z) : Q := nth (Z.to_nat (k - 1)) (s_list s) 0%Q.

(** step.cpp 910-972: the amount of reaction of step [k], before the units.
    [inc] is INCREMENTAL_REACTIONS. *)
Definition rxn_amount (inc : bool) (s : sched) (k : Z) : Q :=
  match s_list s with
  | [] => 0%Q
  | _ :: _ =>
    if negb inc then
      if negb (s_equal s) then
        if len s <? k then at_ s (len s) else at_ s k
      else
        if steps_of s <? k then at_ s 1
        else at_ s 1 * inject_Z k / inject_Z (steps_of s)
    else
      if negb (s_equal s) then
        if steps_of s <? k then at_ s (steps_of s) else at_ s k
      else
        if steps_of s <? k then 0%Q
        else at_ s 1 / inject_Z (steps_of s)
  end.

(** step.cpp 974-989: the factor for the first letter of the units. *)
Definition unit_factor (c : ascii) : Q :=
  if Ascii.eqb c "m" then (1 # 1000)%Q
  else if Ascii.eqb c "u" then (1 # 1000000)%Q
  else if Ascii.eqb c "n" then (1 # 1000000000)%Q
  else 1%Q.

(** A REACTION block: its amounts and the first letter of its units. *)
Record rxn := mkRxn { x_sched : sched; x_unit : ascii }.

(** step.cpp 907-1018: what step [k] adds to the total of an element of
    which one mole of reaction contains [coef]. *)
Definition rxn_add (inc : bool) (x : rxn) (k : Z) (fraction coef : Q) : Q :=
  coef * (rxn_amount inc (x_sched x) k * unit_factor (x_unit x)) * fraction.

(** cxxKinetics.cxx 485-542: the time over which step [k] integrates. *)
Definition kin_time (inc : bool) (s : sched) (k : Z) : Q :=
  match s_list s with
  | [] => 1%Q
  | _ :: _ =>
    if negb inc then
      if negb (s_equal s) then
        if len s <? k then at_ s (len s) else at_ s k
      else
        if s_count s <? k then at_ s 1
        else inject_Z k * at_ s 1 / inject_Z (s_count s)
    else
      if negb (s_equal s) then
        if len s <? k then at_ s (len s) else at_ s k
      else
        if s_count s <? k then 0%Q
        else at_ s 1 / inject_Z (s_count s)
  end.

(** Temperature.cxx 331-376 and Pressure.cxx 323-366, which are the same
    code: the level of step [k].  The error message about a number of levels
    other than two does not stop the calculation and is not modelled. *)
Definition level (s : sched) (k : Z) : Q :=
  match s_list s with
  | [] => 1%Q
  | _ :: _ =>
    if s_equal s then
      if s_count s <? k then at_ s 2
      else
        let denom := if s_count s <=? 1 then 1 else s_count s - 1 in
        at_ s 1 + (at_ s 2 - at_ s 1) * inject_Z (k - 1) / inject_Z denom
    else
      if len s <? k then at_ s (len s) else at_ s k
  end.

(** * Reading the lines *)

(** A token of an input line.  [Times n v] is a token [n*v]; [TimesBad] holds
    a star but not in that form; [Num q i] is a number, with the int that
    %d would read from its text ([None] for a text such as ".5");
    [Word w] is a token that starts with a letter. *)
Inductive tok :=
| Times (n : Z) (v : Q)
| TimesBad
| Num (q : Q) (i : option Z)
| Word (w : string).

(** sscanf(token, "%d", &i). *)
Definition int_of (t : tok) : option Z :=
  match t with
  | Times n _ => Some n
  | TimesBad => None
  | Num _ i => i
  | Word _ => None
  end.

(** read.cpp 4550-4596: the loop over the increments.  It gives the numbers
    with those read so far before them, the number of errors, and what is
    left from the first token that is no number. *)
Fixpoint read_incs (ts : list tok) (acc : list Q) (errs : nat)
  : list Q * nat * list tok :=
  match ts with
  | [] => (acc, errs, [])
  | Times n v :: r => read_incs r (acc ++ repeat v (Z.to_nat n)) errs
  | TimesBad :: r => read_incs r acc (S errs)
  | Num q _ :: r => read_incs r (acc ++ [q]) errs
  | Word _ :: _ => (acc, errs, ts)
  end.

(** What check_units finds in a word: no unit, a unit in moles with the first
    letter of its standard form, or another unit (read.cpp 4598-4616). *)
Inductive ucheck := NotUnit | Moles (first : ascii) | NotMoles.

(** read.cpp 4633-4648: the first token that is an int is the number of
    increments, which must be positive. *)
Fixpoint find_count (ts : list tok) : option Z :=
  match ts with
  | [] => None
  | t :: r =>
    match int_of t with
    | Some i => if 0 <? i then Some i else None
    | None => find_count r
    end
  end.

(** read.cpp 4622-4655: the part on equal increments. *)
Definition read_equal (ts : list tok) (x : rxn) (errs : nat) : rxn * nat :=
  if negb (steps_of (x_sched x) =? 1) then (x, S errs)
  else match find_count ts with
       | Some n => (mkRxn (mkSched (s_list (x_sched x)) true n) (x_unit x), errs)
       | None => (x, S errs)
       end.

(** read.cpp 4532-4656: one line with amounts of reaction. [units] is
    check_units. *)
Definition read_rxn_line (units : string -> ucheck) (ts : list tok) (x : rxn)
    (errs : nat) : rxn * nat :=
  let s := x_sched x in
  let '(l, errs1, rest) := read_incs ts (s_list s) errs in
  let x1 := mkRxn (mkSched l (s_equal s) (s_count s)) (x_unit x) in
  match rest with
  | [] => (x1, errs1)
  | t :: r =>
    match (match t with Word w => units w | _ => NotUnit end) with
    | NotMoles => (x1, S errs1)
    | Moles c =>
      let x2 := mkRxn (x_sched x1) c in
      match r with
      | [] => (x2, errs1)
      | _ :: _ => read_equal r x2 errs1
      end
    | NotUnit => read_equal rest x1 errs1
    end
  end.

(** Reaction.cxx, the constructor: no steps, units "Mol". *)
Definition new_rxn : rxn := mkRxn (mkSched [] false 0) "M".

(** read.cpp 4419-4472: the lines with amounts in turn, then one mole by
    default.  Lines with reactants are not modelled. *)
Definition read_rxn (units : string -> ucheck) (lines : list (list tok)) : rxn * nat :=
  let '(x, errs) :=
    fold_left (fun a ts => read_rxn_line units ts (fst a) (snd a)) lines (new_rxn, O) in
  let s := x_sched x in
  let l := match s_list s with [] => [1%Q] | l => l end in
  let n := if s_equal s && (s_count s =? 0) then 1 else s_count s in
  (mkRxn (mkSched l (s_equal s) n) (x_unit x), errs).

(** ctype.h tolower on one character. *)
Definition low (c : ascii) : ascii :=
  let n := nat_of_ascii c in
  if (Nat.leb 65 n && Nat.leb n 90)%bool then ascii_of_nat (n + 32) else c.

(** The first letter of a word, in lower case. *)
Definition first_low (w : string) : option ascii :=
  match w with
  | EmptyString => None
  | String c _ => Some (low c)
  end.

(** common/Utils.cxx 136-157, with seconds as output: the seconds in one unit
    of time; any letter but m, h, d and y stands for seconds. *)
Definition unit_seconds (w : string) : Q :=
  match first_low w with
  | Some c =>
    if Ascii.eqb c "m" then 60%Q
    else if Ascii.eqb c "h" then 3600%Q
    else if Ascii.eqb c "d" then (3600 * 24)%Q
    else if Ascii.eqb c "y" then (3600 * 24 * (36525 # 100))%Q
    else 1%Q
  | None => 1%Q
  end.

(** State while the line of time steps is read: [k_seek] while the number of
    increments is looked for, [k_stop] after an error that ends the line. *)
Record kread := mkKread
  { k_sched : sched; k_units : option string; k_errs : nat; k_seek : bool; k_stop : bool }.

(** read.cpp 2137-2207: one token of "-steps".  A word that starts with an i
    announces the number of increments, any other word is the unit of time. *)
Definition kin_token (k : kread) (t : tok) : kread :=
  let s := k_sched k in
  if k_stop k then k
  else if k_seek k then
    match int_of t with
    | Some i => mkKread (mkSched (s_list s) (s_equal s) (Z.abs i)) (k_units k) (k_errs k) false false
    | None => k
    end
  else
    match t with
    | Times n v =>
      mkKread (mkSched (s_list s ++ repeat v (Z.to_nat n)) (s_equal s) (s_count s))
              (k_units k) (k_errs k) false false
    | TimesBad => mkKread s (k_units k) (S (k_errs k)) false false
    | Num q _ =>
      mkKread (mkSched (s_list s ++ [q]) (s_equal s) (s_count s)) (k_units k) (k_errs k) false false
    | Word w =>
      match first_low w with
      | Some c =>
        if Ascii.eqb c "i" then
          if negb (len s =? 1) then mkKread s (k_units k) (S (k_errs k)) false true
          else mkKread (mkSched (s_list s) true (s_count s)) (k_units k) (k_errs k) true false
        else mkKread s (Some w) (k_errs k) false false
      | None => mkKread s (Some w) (k_errs k) false false
      end
    end.

(** read.cpp 2130-2209 and 2334-2348: one "-steps" line read into an empty
    block, then the default of one second or the conversion to seconds. *)
Definition read_kin (ts : list tok) : sched * nat :=
  let k := fold_left kin_token ts (mkKread (mkSched [] false 0) None O false false) in
  let s := k_sched k in
  let l := match s_list s with
           | [] => [1%Q]
           | l => match k_units k with
                  | Some u => map (fun q => q * unit_seconds u)%Q l
                  | None => l
                  end
           end in
  (mkSched l (s_equal s) (s_count s), k_errs k).

(** * The loop over the steps *)

(** The kinds of entities of a batch reaction. *)
Inductive kind :=
| KMix | KSol | KPp | KRxn | KEx | KKin | KSurf | KTemp | KPres | KGas | KSs.

(** Whether two kinds are the same. *)
Definition kind_eqb (a b : kind) : bool :=
  match a, b with
  | KMix, KMix | KSol, KSol | KPp, KPp | KRxn, KRxn | KEx, KEx | KKin, KKin
  | KSurf, KSurf | KTemp, KTemp | KPres, KPres | KGas, KGas | KSs, KSs => true
  | _, _ => false
  end.

(** The maps Rxn_solution_map, Rxn_exchange_map, ...: by kind and number. *)
Definition store (V : Type) := kind -> Z -> option V.

(** [m[n] = v] in the map of kind [k]. *)
Definition put {V} (st : store V) (k : kind) (n : Z) (v : V) : store V :=
  fun k' n' => if kind_eqb k' k && (n' =? n) then Some v else st k' n'.

(** Phreeqc.h 1952-1969: Rxn_copy. *)
Definition rxn_copy {V} (st : store V) (k : kind) (i j : Z) : store V :=
  match st k i with
  | Some v => put st k j v
  | None => st
  end.

(** [i, i+1, ..., i+n-1]. *)
Fixpoint from_ (i : Z) (n : nat) : list Z :=
  match n with
  | O => []
  | S m => i :: from_ (i + 1) m
  end.

(** Copies of number [n] to n+1 ... e (mainsubs.cpp 955-958 and the like;
    Phreeqc.h 1971-1985 copies each from the one before, to the same effect). *)
Definition rxn_copies {V} (st : store V) (k : kind) (n e : Z) : store V :=
  fold_left (fun st j => rxn_copy st k n j) (from_ (n + 1) (Z.to_nat (e - n))) st.

(** Structure use: the number in use of each kind, if any. *)
Definition use := kind -> option Z.

(** Structure save: the range of numbers to save to, of each kind, if any. *)
Definition save := kind -> option (Z * Z).

(** The order in which copy_use takes the kinds (mainsubs.cpp 1604-1738). *)
Definition copied : list kind :=
  [KMix; KSol; KPp; KRxn; KEx; KKin; KSurf; KTemp; KPres; KGas; KSs].

(** mainsubs.cpp 1604-1738: what is in use is copied to number [i]. *)
Definition copy_use {V} (u : use) (i : Z) (st : store V) : store V :=
  fold_left (fun st k => match u k with
                         | Some n => rxn_copy st k n i
                         | None => st
                         end) copied st.

(** mainsubs.cpp 1604-1738: what the same function sets in save. *)
Definition save_use (u : use) (i : Z) : save :=
  fun k => match k with
           | KSol => Some (i, i)
           | KMix | KTemp | KPres => None
           | _ => match u k with Some _ => Some (i, i) | None => None end
           end.

(** The results of one step, the entities that saver can store: [None] where
    the calculation holds none (xexchange_save and the others return at once
    then, mainsubs.cpp 1034, 1118, 1175, 1218, 1444). *)
Definition results (V : Type) := kind -> option V.

(** mainsubs.cpp 950-1000: the kinds that are saved from the results. *)
Definition saved : list kind := [KSol; KPp; KEx; KSurf; KGas; KSs].

(** mainsubs.cpp 937-1020 while state is REACTION. *)
Definition saver {V} (u : use) (sv : save) (res : results V) (st : store V) : store V :=
  let st1 :=
    fold_left (fun st k => match sv k with
                           | Some (n, e) =>
                             let st' := match res k with
                                        | Some v => put st k n v
                                        | None => st
                                        end in
                             rxn_copies st' k n e
                           | None => st
                           end) saved st in
  match sv KKin, u KKin with
  | Some (n, e), Some _ =>
    fold_left (fun st j => rxn_copy st KKin (-2) j) (from_ n (Z.to_nat (e - n + 1))) st1
  | _, _ => st1
  end.

(** The order in which set_use looks for what is in use (mainsubs.cpp
    150-325). *)
Definition looked_for : list kind :=
  [KSol; KMix; KPp; KRxn; KEx; KKin; KSurf; KTemp; KPres; KGas; KSs].

(** Whether a kind is in use. *)
Definition in_use (u : use) (k : kind) : bool :=
  match u k with Some _ => true | None => false end.

(** mainsubs.cpp 134-147: there is something to react, and a solution or a
    mixture. *)
Definition has_reaction (u : use) : bool :=
  existsb (in_use u) [KPp; KRxn; KMix; KEx; KKin; KSurf; KTemp; KPres; KGas; KSs]
  && (in_use u KSol || in_use u KMix).

(** mainsubs.cpp 150-325: the first entity in use that is not defined. *)
Definition missing {V} (u : use) (st : store V) : option (kind * Z) :=
  fold_left (fun a k => match a with
                        | Some _ => a
                        | None => match u k with
                                  | Some n => match st k n with
                                              | Some _ => None
                                              | None => Some (k, n)
                                              end
                                  | None => None
                                  end
                        end) looked_for None.

(** What a step can see: the entities numbered -2 of the kinds in use, in the
    order of [copied] (set_reaction, kinetics.cpp 1810-1972), and the solutions
    that the mixture names. *)
Record view (V : Type) := mkView { v_work : list (option V); v_sols : list (option V) }.
Arguments mkView {V}. Arguments v_work {V}. Arguments v_sols {V}.

(** kinetics.cpp 1823-1970: with a mixture in use and [mixing], the solution
    is not looked up; without, the mixture is not. [parts] reads the numbers
    of solutions in a MIX entity (add_mix, step.cpp); the numbers are those a
    user can give, from 0 on. *)
Definition look {V} (parts : V -> list Z) (u : use) (mixing : bool) (st : store V) : view V :=
  let mixed := mixing && in_use u KMix in
  mkView (map (fun k => match k with
                        | KMix => if mixed then st KMix (-2) else None
                        | KSol => if mixed then None else st KSol (-2)
                        | _ => if in_use u k then st k (-2) else None
                        end) copied)
         (match (if mixed then st KMix (-2) else None) with
          | Some m => map (st KSol) (filter (Z.leb 0) (parts m))
          | None => []
          end).

(** The calculation of one step: step number, time, the view; it gives the
    entities numbered -2 as it leaves them and the results. It stands for
    set_initial_moles(-2) and run_reactions(-2, ...). *)
Definition runner (V : Type) := Z -> Q -> view V -> (kind -> option V) * results V.

(** The entities numbered -2 as a step leaves them, for the kinds in use. *)
Definition leave {V} (u : use) (w : kind -> option V) (st : store V) : store V :=
  fun k n => if (n =? -2) && in_use u k
             then match w k with Some v => Some v | None => st k n end
             else st k n.

(** How the loop calls a step, and what it punches and prints: the step, its
    time, the time since the start, and the results. *)
Record row (V : Type) := mkRow { w_step : Z; w_time : Q; w_clock : Q; w_res : results V }.
Arguments mkRow {V}. Arguments w_step {V}. Arguments w_time {V}.
Arguments w_clock {V}. Arguments w_res {V}.

(** State between two steps: the store and rate_sim_time_start. *)
Record lstate (V : Type) := mkL { l_st : store V; l_start : Q; l_rows : list (row V) }.
Arguments mkL {V}. Arguments l_st {V}. Arguments l_start {V}. Arguments l_rows {V}.

(** mainsubs.cpp 842-893: step [i] of [count]. [times] reads the time steps
    of a KINETICS entity. *)
Definition one_step {V} (times : V -> sched) (parts : V -> list Z) (run : runner V) (inc : bool) (u : use)
    (count : Z) (l : lstate V) (i : Z) : lstate V :=
  let st0 := if (1 <? i) && negb inc then copy_use u (-2) (l_st l) else l_st l in
  let t := match u KKin, st0 KKin (-2) with
           | Some _, Some v => kin_time inc (times v) i
           | _, _ => 0%Q
           end in
  let mixing := negb inc || (i =? 1) in
  let '(w, res) := run i t (look parts u mixing st0) in
  let st1 := leave u w st0 in
  let start := if inc then (l_start l + t)%Q else l_start l in
  let clock := if inc then start else t in
  let st2 := if i <? count then saver u (save_use u (-2)) res st1 else st1 in
  mkL st2 start (l_rows l ++ [mkRow i t clock res]).

(** mainsubs.cpp 799-829: the number of steps. [amounts] reads the schedule
    of an entity. *)
Definition count_steps {V} (amounts : kind -> V -> sched) (u : use) (st : store V) : Z :=
  let at_least n k :=
    match u k with
    | Some m => match st k m with
                | Some v => Z.max n (steps_of (amounts k v))
                | None => n
                end
    | None => n
    end in
  fold_left at_least [KRxn; KKin; KTemp; KPres] 1.

(** How a batch reaction ends. *)
Inductive outcome (V : Type) :=
| Skipped                       (* nothing to react *)
| Missing (k : kind) (n : Z)    (* stops: entity not found *)
| Done (st : store V) (rows : list (row V)).
Arguments Skipped {V}. Arguments Missing {V}. Arguments Done {V}.

(** The results of the last step, which the final saver stores. *)
Definition last_res {V} (rows : list (row V)) : results V :=
  match rev rows with
  | r :: _ => w_res r
  | [] => fun _ => None
  end.

(** mainsubs.cpp 775-935: the batch reaction. [sv] is what SAVE asks for. *)
Definition reactions {V} (amounts : kind -> V -> sched) (parts : V -> list Z) (run : runner V) (inc : bool)
    (u : use) (sv : save) (st : store V) : outcome V :=
  if negb (has_reaction u) then Skipped
  else match missing u st with
  | Some (k, n) => Missing k n
  | None =>
    let count := count_steps amounts u st in
    let l := fold_left (one_step (amounts KKin) parts run inc u count)
               (from_ 1 (Z.to_nat count)) (mkL (copy_use u (-2) st) 0%Q []) in
    let st1 := match u KKin with
               | Some n => rxn_copy (l_st l) KKin (-2) n
               | None => l_st l
               end in
    Done (saver u sv (last_res (l_rows l)) st1) (l_rows l)
  end.
