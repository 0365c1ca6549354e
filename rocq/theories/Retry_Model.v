(** Convergence settings and repeated attempts: IPhreeqcMMS/IPhreeqc/src/phreeqcpp
    read.cpp read_debug 7830-7988 (KNOBS, the settings used here),
    get_true_false 8491-8515; kinetics.cpp set_and_run_wrapper 1135-1492;
    mainsubs.cpp 388-436 (the loop of an initial solution).

    Reals are rationals; itmax doubles without overflow. The calculation itself
    (set_and_run, model) is an argument. Not modelled: choosing what is in use
    (1165-1176), messages, what is printed and written to error.inp after the
    last failure, the unreachable branches with j == 14, settings of KNOBS that
    only switch messages. *)
From Coq Require Import String Ascii ZArith QArith Bool List.
From Verif Require Import Inp_Model.
Import ListNotations.
Local Open Scope string_scope.
Local Open Scope list_scope.
Local Open Scope Z_scope.

(** itmax, ineq_tol, step_size, pe_step_size, min_value, pp_column_scale,
    equi_delay, diagonal_scale, aqueous_only, negative_concentrations,
    always_full_pitzer. *)
Record knobs := mkKnobs { itmax : Z; tol : Q; step : Q; pe : Q; min_value : Q; column : Q; delay : Z;
  diag : bool; aqueous : Z; negative : bool; full : bool }.

(** * KNOBS *)

(** What the options of KNOBS set: the above, max_tries, pp_scale,
    convergence_tolerance and numerical_fixed_volume. [None]: a value that was
    never given (read.cpp 7948-7952 copies a local variable). *)
Record settings := mkSet { k : knobs; tries : Z; pp_scale : Q; conv_tol : option Q; fixed_volume : bool }.

(** The first number of a text, as %d and %lf read it; [None] when there is
    none. *)
Record number := mkNum { as_int : option Z; as_real : option Q }.

(** read.cpp 8491-8515 with TRUE as default. *)
Definition true_false (text : string) : bool :=
  match fst (copy_token2 text) with
  | String c _ => negb (Ascii.eqb c "F" || Ascii.eqb c "f")
  | "" => true
  end.

Definition or_old {A} (v : option A) (old : A) : A := match v with Some x => x | None => old end.

Definition set_itmax (s : knobs) v := mkKnobs v (tol s) (step s) (pe s) (min_value s) (column s) (delay s) (diag s) (aqueous s) (negative s) (full s).
Definition set_tol (s : knobs) v := mkKnobs (itmax s) v (step s) (pe s) (min_value s) (column s) (delay s) (diag s) (aqueous s) (negative s) (full s).
Definition set_step (s : knobs) v := mkKnobs (itmax s) (tol s) v (pe s) (min_value s) (column s) (delay s) (diag s) (aqueous s) (negative s) (full s).
Definition set_pe (s : knobs) v := mkKnobs (itmax s) (tol s) (step s) v (min_value s) (column s) (delay s) (diag s) (aqueous s) (negative s) (full s).
Definition set_min (s : knobs) v := mkKnobs (itmax s) (tol s) (step s) (pe s) v (column s) (delay s) (diag s) (aqueous s) (negative s) (full s).
Definition set_column (s : knobs) v := mkKnobs (itmax s) (tol s) (step s) (pe s) (min_value s) v (delay s) (diag s) (aqueous s) (negative s) (full s).
Definition set_delay (s : knobs) v := mkKnobs (itmax s) (tol s) (step s) (pe s) (min_value s) (column s) v (diag s) (aqueous s) (negative s) (full s).
Definition set_diag (s : knobs) v := mkKnobs (itmax s) (tol s) (step s) (pe s) (min_value s) (column s) (delay s) v (aqueous s) (negative s) (full s).
Definition set_aqueous (s : knobs) v := mkKnobs (itmax s) (tol s) (step s) (pe s) (min_value s) (column s) (delay s) (diag s) v (negative s) (full s).
Definition set_negative (s : knobs) v := mkKnobs (itmax s) (tol s) (step s) (pe s) (min_value s) (column s) (delay s) (diag s) (aqueous s) v (full s).
Definition set_full (s : knobs) v := mkKnobs (itmax s) (tol s) (step s) (pe s) (min_value s) (column s) (delay s) (diag s) (aqueous s) (negative s) v.

Definition set_k (s : settings) v := mkSet v (tries s) (pp_scale s) (conv_tol s) (fixed_volume s).

(** read.cpp 7840-7867: the names of the options. *)
Definition knob_names : list string :=
  ["iterations"; "tolerance"; "step_size"; "pe_step_size"; "scale_pure_phases"; "diagonal_scale"; "debug_model";
   "debug_prep"; "debug_set"; "debug_inverse"; "logfile"; "log_file"; "debug_diffuse_layer"; "delay_mass_water";
   "convergence_tolerance"; "numerical_derivatives"; "tries"; "try"; "numerical_fixed_volume";
   "force_numerical_fixed_volume"; "equi_delay"; "minimum_total"; "min_total"; "debug_mass_action"; "debug_mass_balance"].

(** read.cpp 7880-7984: one option with the text after it. *)
Definition read_knob (num : string -> number) (s : settings) (i : Z) (text : string) : settings :=
  let n := num text in
  if i =? 0 then set_k s (set_itmax (k s) (or_old (as_int n) (itmax (k s))))
  else if i =? 1 then set_k s (set_tol (k s) (or_old (as_real n) (tol (k s))))
  else if i =? 2 then set_k s (set_step (k s) (or_old (as_real n) (step (k s))))
  else if i =? 3 then set_k s (set_pe (k s) (or_old (as_real n) (pe (k s))))
  else if i =? 4 then mkSet (k s) (tries s) (or_old (as_real n) (pp_scale s)) (conv_tol s) (fixed_volume s)
  else if i =? 5 then set_k s (set_diag (k s) (true_false text))
  else if i =? 14 then mkSet (k s) (tries s) (pp_scale s) (as_real n) (fixed_volume s)
  else if (i =? 16) || (i =? 17) then mkSet (k s) (or_old (as_int n) (tries s)) (pp_scale s) (conv_tol s) (fixed_volume s)
  else if i =? 18 then mkSet (k s) (tries s) (pp_scale s) (conv_tol s) (true_false text)
  else if i =? 20 then set_k s (set_delay (k s) (or_old (as_int n) (delay (k s))))
  else s.

(** One line of a KNOBS block: the settings and the number of errors; an unknown
    option is counted by get_option and by read_debug. [None]: the buffer was
    overrun. *)
Definition read_line (num : string -> number) (keys : list string) (size : Z) (a : option (settings * Z)) (line : string)
  : option (settings * Z) :=
  match a with
  | None => None
  | Some (s, errors) =>
    match get_option size knob_names (kind_of keys line) line line with
    | Opt i text => Some (read_knob num s i text, errors)
    | BadOption => Some (s, errors + 2)
    | Other _ => Some (s, errors + 1)
    | Overrun => None
    end
  end.
Definition read_knobs (num : string -> number) (keys : list string) (size : Z) (s : settings) (lines : list string)
  : option (settings * Z) :=
  fold_left (read_line num keys size) lines (Some (s, 0)).

(** * set_and_run_wrapper *)

(** What set_and_run does: TRUE, FALSE, MASS_BALANCE, or it stops the run. *)
Inductive verdict := Converged | Failed | MassBalance | Thrown.

(** The entities that are restored before another attempt: equilibrium phases,
    solid solutions and kinetics in use. *)
Record ents (A : Type) := mkEnts { pp : option A; ss : option A; kin : option A }.
Arguments mkEnts {A}. Arguments pp {A}. Arguments ss {A}. Arguments kin {A}.

(** pitzer_model or sit_model; max_tries; whether kinetics in use has cvode. *)
Record model := mkModel { pitzer : bool; max_tries : Z; cvode : bool }.

Definition double (s : knobs) : knobs := set_itmax s (itmax s * 2).
Definition toggle (s : knobs) : knobs := set_diag s (negb (diag s)).

(** kinetics.cpp 1210-1362: the settings of attempt [j]; [None]: continue. *)
Definition adjust (m : model) (has_pp : bool) (j : Z) (s : knobs) : option knobs :=
  if j =? 1 then
    if Qle_bool (pe s) 5 && Qle_bool (step s) 10 then None else Some (set_pe (set_step (double s) 10) 5)
  else if j =? 2 then Some (set_tol (double s) (tol s / 10))
  else if j =? 3 then Some (set_tol (double s) (tol s * 10))
  else if j =? 4 then Some (toggle (double (set_full s true)))
  else if j =? 5 then Some (set_tol (toggle (double s)) (tol s / 10))
  else if j =? 6 then if pitzer m then None else Some (set_column (double s) (1 # 10000000000))
  else if j =? 7 then if pitzer m then None else Some (toggle (set_column (double s) (1 # 10000000000)))
  else if j =? 8 then if negb has_pp then None else Some (set_delay s (if 0 <? delay s then 0 else 1))
  else if j =? 9 then if pitzer m then None else Some (set_min (double s) (min_value s * 10))
  else if j =? 10 then if pitzer m then None else Some (set_aqueous s 5)
  else if j =? 11 then if pitzer m then None else Some (set_negative s true)
  else if j =? 12 then Some (set_tol (double s) (tol s / 100))
  else if j =? 13 then Some (set_tol (double s) (tol s / 1000))
  else Some s.

Definition restore {A} (saved cur : ents A) : ents A :=
  let r (a b : option A) := match a with Some _ => a | None => b end in
  mkEnts (r (pp saved) (pp cur)) (r (ss saved) (ss cur)) (r (kin saved) (kin cur)).

(** 1424-1435. *)
Definition reset (old : knobs) : knobs :=
  set_full (set_negative (set_aqueous old 0) false) false.

(** One attempt as it was made. *)
Record attempt (A : Type) := mkAtt { number_ : Z; with_ : knobs; from : ents A }.
Arguments mkAtt {A}. Arguments number_ {A}. Arguments with_ {A}. Arguments from {A}.

(** The loop 1207-1447 from [j] on, [n] turns: the attempts made, the verdict,
    the settings and the entities. *)
Fixpoint turns {A} (m : model) (eng : Z -> knobs -> ents A -> verdict * ents A) (old : knobs) (saved : ents A)
  (n : nat) (j : Z) (s : knobs) (e : ents A) : list (attempt A) * verdict * knobs * ents A :=
  match n with
  | O => ([], Failed, s, e)
  | S n =>
    match adjust m (match pp e with Some _ => true | None => false end) j s with
    | None => turns m eng old saved n (j + 1) s e
    | Some s' =>
      let e' := if 0 <? j then restore saved e else e in
      let a := mkAtt j s' e' in
      match eng j s' e' with
      | (Thrown, e'') => ([a], Thrown, s', e'')
      | (Failed, e'') =>
        let '(l, v, s'', f) := turns m eng old saved n (j + 1) (reset old) e'' in (a :: l, v, s'', f)
      | (v, e'') => ([a], v, reset old, e'')
      end
    end
  end.

(** How the call ends: with a verdict, or with the run stopped. *)
Inductive outcome := Ok_ | Mass | Stop_ | Thrown_.

Record result (A : Type) := mkRes { attempts : list (attempt A); ended : outcome; after : knobs; volume : bool; left_ : ents A }.
Arguments mkRes {A}. Arguments attempts {A}. Arguments ended {A}. Arguments after {A}. Arguments volume {A}. Arguments left_ {A}.

(** kinetics.cpp 1158-1492. [fv] is numerical_fixed_volume, which is cleared
    (1486) unless the run stops. *)
Definition wrapper {A} (m : model) (eng : Z -> knobs -> ents A -> verdict * ents A) (fv : bool) (s : knobs) (e : ents A) : result A :=
  let start := if pitzer m then set_full (set_diag s true) false else s in
  let max_try := if max_tries m <? 14 then max_tries m else 14 in
  let '(l, v, s', e') := turns m eng s e (Z.to_nat max_try) 0 start e in
  match v with
  | Converged => mkRes l Ok_ s' false e'
  | MassBalance => mkRes l Mass s' false e'
  | Thrown => mkRes l Thrown_ s' fv e'
  | Failed => if cvode m then mkRes l Mass s' false e' else mkRes l Stop_ s' fv e'
  end.

(** * The loop of an initial solution *)

(** mainsubs.cpp 391-436. [calc n s] is model() on turn [n]: whether it gives
    ERROR; [other n]: whether the density has changed, so that another turn is
    needed. [d] is the local variable diag, [c] count_iterations. The answer:
    the settings, and whether the run is stopped. *)
Fixpoint initial (fuel : nat) (calc : nat -> knobs -> bool) (other : nat -> bool) (turn_ : nat) (d : bool) (c : nat) (s : knobs)
  : option (knobs * bool) :=
  match fuel with
  | O => None
  | S fuel =>
    let s := set_diag (set_full s false) true in
    let s := if calc turn_ s then set_full (set_diag s true) true else s in
    if other turn_ then
      if Nat.ltb c 20 then initial fuel calc other (S turn_) (diag s) (S c) s
      else Some (s, true)
    else Some (set_diag s d, false)
  end.
Definition initial_solution (calc : nat -> knobs -> bool) (other : nat -> bool) (s : knobs) : option (knobs * bool) :=
  initial 22 calc other 0 (diag s) 0 s.
