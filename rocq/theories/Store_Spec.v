(** What COPY, DELETE and DUMP blocks ask for (C54-C57). *)
From Coq Require Import String Ascii List ZArith QArith Bool Sorted.
From Verif Require Import Elem_Spec Data_Spec Store_Model.
Import ListNotations.
Local Open Scope string_scope.
Local Open Scope list_scope.
Local Open Scope Z_scope.

Definition an_int (x : Z) : Prop := -2147483648 <= x <= 2147483647.
(** A number or a range in a list of numbers: "7", "-2", "3-9", "-5--2"; the ends may be given in either order. *)
Inductive listing : string -> Z -> Z -> Prop :=
| li_one t a : int_text t a -> an_int a -> listing t a a
| li_range ta tb a b : int_text ta a -> int_text tb b -> an_int a -> an_int b -> a <> 2147483647 -> b <> 2147483647 ->
    listing (ta ++ "-" ++ tb) a b.
Definition between (a b x : Z) : Prop := a <= x <= b \/ b <= x <= a.
(** The numbers of a row of such texts. *)
Definition listed (toks : list string) (x : Z) : Prop := exists t a b, In t toks /\ listing t a b /\ between a b x.
Definition all_listings (toks : list string) : Prop := Forall (fun t => exists a b, listing t a b) toks.

(** A map is in order when its keys increase. *)
Definition keys_up {A} (m : zmap A) : Prop := StronglySorted Z.lt (map fst m).
(** The reactant with another number. *)
Definition numbered {B} (k : Z) (e : entity B) : entity B := mkEntity k k (body e).
(** After copying reactant [n] to [s] ... [e]. *)
Definition copied {B} (n s e : Z) (before after : Z -> option (entity B)) : Prop :=
  forall k, match before n with
            | Some x => (s <= k <= e -> k <> n -> after k = Some (numbered k x)) /\ (~ (s <= k <= e) \/ k = n -> after k = before k)
            | None => after k = before k
            end.
(** After carrying out copies one after the other. *)
Inductive copied_all {B} : list (Z * Z * Z) -> (Z -> option (entity B)) -> (Z -> option (entity B)) -> Prop :=
| ca_nil f g : (forall k, g k = f k) -> copied_all [] f g
| ca_cons n s e cs f g h : copied n s e f g -> copied_all cs g h -> copied_all ((n, s, e) :: cs) f h.
(** A range of targets: both ends not negative, or both below -1. *)
Definition target_range (s e : Z) : Prop := an_int s /\ an_int e /\ ((0 <= s /\ 0 <= e) \/ (s < 0 /\ e < -1)).

(** A line of a block without an option of its own goes on with the option before. *)
Fixpoint with_options {O} (saved : option O) (ls : list (option O * list string)) : list (option O * list string) :=
  match ls with
  | [] => []
  | (Some o, toks) :: ls => (Some o, toks) :: with_options (Some o) ls
  | (None, toks) :: ls => (saved, toks) :: with_options saved ls
  end.
(** A DELETE block of number lists, and what it names. *)
Definition delete_list (ls : list (line_of option_of_delete)) : Prop :=
  Forall (fun l => (fst l = Some OCells \/ exists k, fst l = Some (OKind k)) /\ snd l <> [] /\ all_listings (snd l)) (with_options None ls).
Definition delete_names (ls : list (line_of option_of_delete)) (k : kind) (x : Z) : Prop :=
  exists toks, (In (Some OCells, toks) (with_options None ls) \/ In (Some (OKind k), toks) (with_options None ls)) /\ listed toks x.
(** A DUMP block of number lists. *)
Definition dump_list (ls : list (line_of option_of_dump)) : Prop :=
  Forall (fun l => (fst l = Some DCells \/ exists k, fst l = Some (DKind k)) /\ snd l <> [] /\ all_listings (snd l)) (with_options None ls).
Definition dump_names (ls : list (line_of option_of_dump)) (k : kind) (x : Z) : Prop :=
  exists toks, (In (Some DCells, toks) (with_options None ls) \/ In (Some (DKind k), toks) (with_options None ls)) /\ listed toks x.
(** Nothing selected. *)
Definition unselected (b : binlist) : Prop := forall k, items b k = no_item.
(** Every reactant is stored under its own number. *)
Definition own_numbers {B} (s : store B) : Prop := forall k, Forall (fun x => n_user (snd x) = fst x) (s k).
(** The order in which the kinds are written by DUMP. *)
Definition dump_order : list kind := [Solution; Pp; Exchange; Surface; Ss; Gas; Kinetics; Mix; Reaction; Temperature; Pressure].
(** What DUMP writes: kind by kind, in increasing order, the chosen reactants with a number that is not negative. *)
Definition written {B} (chosen : kind -> Z -> bool) (s : store B) : list (kind * entity B) :=
  flat_map (fun k => map (fun x => (k, snd x)) (filter (fun x => chosen k (fst x) && (0 <=? fst x)) (s k))) dump_order.
