(** What the properties on units say, apart from the model. *)
From Coq Require Import String Ascii ZArith QArith Bool List.
From Verif Require Import Inp_Model Inp_Spec Units_Model.
Import ListNotations.
Local Open Scope string_scope.
Local Open Scope list_scope.
Local Open Scope Z_scope.

(** A unit: a scale, what is counted, and in how much of what. *)
Inductive scale := One | Milli | Micro.
Inductive counted := Moles | Grams | Equivalents.
Inductive per := Litre | Solution | Water.
Record unit_ := mkUnit { scale_of : scale; counted_of : counted; per_of : per }.

(** The standard form. *)
Definition standard (u : unit_) : string :=
  (match scale_of u with One => "" | Milli => "m" | Micro => "u" end ++
   match counted_of u with Moles => "Mol" | Grams => "g" | Equivalents => "eq" end ++
   match per_of u with Litre => "/l" | Solution => "/kgs" | Water => "/kgw" end)%string.

(** The ways to write a unit, apart from capitals and blanks. *)
Definition scales : list (string * scale) := [("", One); ("m", Milli); ("milli", Milli); ("u", Micro); ("micro", Micro)].
Definition counts : list (string * counted) :=
  [("mol", Moles); ("mole", Moles); ("moles", Moles); ("g", Grams); ("gram", Grams); ("grams", Grams);
   ("eq", Equivalents); ("equiv", Equivalents); ("equivalent", Equivalents); ("equivalents", Equivalents)].
Definition pers : list (string * per) := [("/l", Litre); ("/liter", Litre); ("/kgs", Solution); ("/kgw", Water); ("/kgh", Water)].
Definition spelled : list (string * unit_) :=
  flat_map (fun a => flat_map (fun b => map (fun c => ((fst a ++ fst b ++ fst c)%string, mkUnit (snd a) (snd b) (snd c))) pers) counts) scales.
Definition parts : list (string * unit_) :=
  [("ppt", mkUnit One Grams Solution); ("ppm", mkUnit Milli Grams Solution); ("ppb", mkUnit Micro Grams Solution)].

(** [c] is in [s]. *)
Fixpoint has (c : ascii) (s : string) : bool :=
  match s with "" => false | String d r => Ascii.eqb c d || has c r end.

(** [s] starts with [c]. *)
Definition starts (c : ascii) (s : string) : bool := match s with "" => false | String d _ => Ascii.eqb c d end.

(** What [s] says without blanks and capitals. *)
Definition capital (c : ascii) : bool := (65 <=? N_of_ascii c)%N && (N_of_ascii c <=? 90)%N.
Definition small (c : ascii) : ascii := if capital c then ascii_of_N (N_of_ascii c + 32) else c.
Definition space (c : ascii) : bool := existsb (N.eqb (N_of_ascii c)) [9; 10; 11; 12; 13; 32]%N.
Definition plain (s : string) : string :=
  string_of_list_ascii (map small (filter (fun c => negb (space c)) (list_ascii_of_string s))).

(** The value of a scale. *)
Definition times (x : scale) : Q := match x with One => 1 | Milli => 1 # 1000 | Micro => 1 # 1000000 end.

(** Sums. *)
Definition total {A} (f : A -> Q) (l : list A) : Q := fold_right (fun a s => (f a + s)%Q) 0%Q l.

Definition amount (t : totals) (n : string) : Q := match t n with Some x => x | None => 0%Q end.

(** One word, as a name of an element or an element with its valence is. *)
Definition one_word (s : string) : bool :=
  negb (String.eqb s "") && each (fun c => negb (isspace c || Ascii.eqb c semicolon)) s.

(** The weight of an element: the one given with it, or that of the formula
    given with it, or that of the element itself. Alkalinity as CaCO3 weighs
    half a mole of it. *)
Inductive known (w : weights) (c : comp) : Q -> Prop :=
| Given : (0 < gfw c)%Q -> known w c (gfw c)
| Formula : forall f g, (gfw c <= 0)%Q -> as_ c = Some f -> formula w f = Some g ->
    name c <> "Alkalinity" \/ f <> "CaCO3" -> known w c g
| Calcite : forall g, (gfw c <= 0)%Q -> as_ c = Some "CaCO3" -> formula w "CaCO3" = Some g ->
    name c = "Alkalinity" -> known w c (g / 2)
| Element : forall g, (gfw c <= 0)%Q -> as_ c = None -> one_word (name c) = true -> master w (name c) = Some g -> known w c g.
Inductive unknown (w : weights) (c : comp) : Prop :=
| No_formula : forall f, (gfw c <= 0)%Q -> as_ c = Some f -> formula w f = None -> unknown w c
| No_element : (gfw c <= 0)%Q -> as_ c = None -> one_word (name c) = true -> master w (name c) = None -> unknown w c.

(** An element with its units, its weight and its concentration as a user
    means them. *)
Record meant := mkMeant { element : comp; in_units : unit_; weighs : Q }.
Definition means (w : weights) (x : meant) : Prop :=
  cunits (element x) = standard (in_units x) /\ known w (element x) (weighs x) /\ (0 < weighs x)%Q /\
  (0 < conc (element x))%Q /\ minor w (name (element x)) = false /\
  name (element x) <> "H(1)" /\ name (element x) <> "E".

(** How much of it there is, in what its unit counts; equivalents are counted
    as moles. *)
Definition has_amount (t : totals) (x : meant) : Q :=
  match counted_of (in_units x) with
  | Grams => (amount t (name (element x)) * weighs x)%Q
  | _ => amount t (name (element x))
  end.
Definition wanted (x : meant) : Q := (conc (element x) * times (scale_of (in_units x)))%Q.
