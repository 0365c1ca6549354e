(** What the properties on convergence settings say, apart from the model. *)
From Coq Require Import String Ascii ZArith QArith Bool List.
From Verif Require Import Inp_Model Inp_Spec Retry_Model.
Import ListNotations.
Local Open Scope string_scope.
Local Open Scope list_scope.
Local Open Scope Z_scope.

(** [j] is one of [l]. *)
Definition one_of (j : Z) (l : list Z) : bool := existsb (Z.eqb j) l.

(** The settings of attempt [j], setting by setting: each attempt starts from
    the settings [u] of the user. *)
Definition planned (u : knobs) (j : Z) : knobs :=
  mkKnobs
    (if one_of j [1; 2; 3; 4; 5; 6; 7; 9; 12; 13] then itmax u * 2 else itmax u)
    (if one_of j [2; 5] then (tol u / 10)%Q else if j =? 3 then (tol u * 10)%Q
     else if j =? 12 then (tol u / 100)%Q else if j =? 13 then (tol u / 1000)%Q else tol u)
    (if j =? 1 then 10%Q else step u)
    (if j =? 1 then 5%Q else pe u)
    (if j =? 9 then (min_value u * 10)%Q else min_value u)
    (if one_of j [6; 7] then (1 # 10000000000)%Q else column u)
    (if j =? 8 then (if 0 <? delay u then 0 else 1) else delay u)
    (if one_of j [4; 5; 7] then negb (diag u) else diag u)
    (if j =? 10 then 5 else 0)
    (j =? 11)
    (j =? 4).

(** The first attempt: diagonal scaling with an activity model of Pitzer or SIT. *)
Definition first_planned (m : model) (u : knobs) : knobs :=
  if pitzer m then set_diag (planned u 0) true else planned u 0.

(** Whether an attempt is made at all. *)
Definition applies (m : model) (has_pp : bool) (u : knobs) (j : Z) : bool :=
  negb ((j =? 1) && Qle_bool (pe u) 5 && Qle_bool (step u) 10) &&
  negb (pitzer m && one_of j [6; 7; 9; 10; 11]) &&
  negb ((j =? 8) && negb has_pp).

(** All the attempts of a call, at most max_tries of the 14 numbers. *)
Definition plan (m : model) (has_pp : bool) (u : knobs) : list (Z * knobs) :=
  map (fun j => (j, if j =? 0 then first_planned m u else planned u j))
    (filter (applies m has_pp u) (map Z.of_nat (seq 0 (Z.to_nat (Z.min (max_tries m) 14))))).

(** The settings outside of a call. *)
Definition clean (u : knobs) : Prop := aqueous u = 0 /\ negative u = false /\ full u = false.

(** The calculation changes entities, but not which of them are in use. *)
Definition some {A} (o : option A) : bool := match o with Some _ => true | None => false end.
Definition steady {A} (eng : Z -> knobs -> ents A -> verdict * ents A) : Prop :=
  forall j s e, let e' := snd (eng j s e) in
    some (pp e') = some (pp e) /\ some (ss e') = some (ss e) /\ some (kin e') = some (kin e).

(** What came of an attempt. *)
Definition came_of {A} (eng : Z -> knobs -> ents A -> verdict * ents A) (a : attempt A) : verdict :=
  fst (eng (number_ a) (with_ a) (from a)).

(** * KNOBS *)

(** The settings that KNOBS gives, with their names. *)
Inductive knob := Iterations | Tolerance | Step_ | Pe_step | Scale_pure | Diagonal | Conv_tol | Tries | Try_ | Fixed_volume | Equi_delay.
Definition name_of (x : knob) : string :=
  match x with
  | Iterations => "iterations" | Tolerance => "tolerance" | Step_ => "step_size" | Pe_step => "pe_step_size"
  | Scale_pure => "scale_pure_phases" | Diagonal => "diagonal_scale" | Conv_tol => "convergence_tolerance"
  | Tries => "tries" | Try_ => "try" | Fixed_volume => "numerical_fixed_volume" | Equi_delay => "equi_delay"
  end.

(** The values, and where each is found; tries and try are the same setting. *)
Inductive value := Int (z : Z) | Real (q : Q) | Flag (b : bool).
Definition look (s : settings) (x : knob) : option value :=
  match x with
  | Iterations => Some (Int (itmax (k s))) | Tolerance => Some (Real (tol (k s))) | Step_ => Some (Real (step (k s)))
  | Pe_step => Some (Real (pe (k s))) | Scale_pure => Some (Real (pp_scale s)) | Diagonal => Some (Flag (diag (k s)))
  | Conv_tol => option_map Real (conv_tol s) | Tries => Some (Int (tries s)) | Try_ => Some (Int (tries s))
  | Fixed_volume => Some (Flag (fixed_volume s)) | Equi_delay => Some (Int (delay (k s)))
  end.
Definition same_knob (x y : knob) : bool :=
  match x, y with
  | Tries, Try_ | Try_, Tries => true
  | _, _ => String.eqb (name_of x) (name_of y)
  end.

(** What a text gives: a number for most, yes or no for two of them. *)
Definition given (num : string -> number) (x : knob) (text : string) : option value :=
  match x with
  | Iterations | Tries | Try_ | Equi_delay => option_map Int (as_int (num text))
  | Diagonal | Fixed_volume => Some (Flag (true_false text))
  | _ => option_map Real (as_real (num text))
  end.

(** A line of KNOBS: a minus, the name or its beginning, and a text. *)
Record request := mkReq { blanks : string; asked : knob; word : string; text : string }.
Definition line_of (r : request) : string := (blanks r ++ String "-" (word r) ++ text r)%string.
Definition formed (size : Z) (r : request) : Prop :=
  each isspace (blanks r) = true /\
  each (fun c => negb (isspace c || Ascii.eqb c semicolon)) (word r) = true /\
  (exists c v, word r = String c v /\ isalpha c = true) /\
  match text r with "" => True | String c _ => isspace c = true end /\
  (exists j, nth_error knob_names j = Some (name_of (asked r)) /\
     (exists t, name_of (asked r) = (lower (word r) ++ t)%string) /\
     forall j' n, (j' < j)%nat -> nth_error knob_names j' = Some n -> ~ exists t, n = (lower (word r) ++ t)%string) /\
  Z.of_nat (String.length (line_of r)) + 30 < size.
Definition good (num : string -> number) (size : Z) (r : request) : Prop :=
  formed size r /\ given num (asked r) (text r) <> None.

(** The last of the requests for a setting. *)
Fixpoint last_given (num : string -> number) (x : knob) (rs : list request) (old : option value) : option value :=
  match rs with
  | [] => old
  | r :: rest => last_given num x rest (if same_knob x (asked r) then given num (asked r) (text r) else old)
  end.
