(** What formulas, charges and equations mean (C64-C67). *)
From Coq Require Import String Ascii List ZArith QArith Qabs Bool NArith Sorting.Permutation Sorting.Sorted.
From Verif Require Import CStr_Model CNum_Model Qx Chem_Model.
Import ListNotations.
Local Open Scope string_scope.
Local Open Scope list_scope.
Local Open Scope Z_scope.

Fixpoint chars (p : ascii -> bool) (s : string) : bool := match s with String c r => p c && chars p r | _ => true end.

(** ** Numbers: digits by place, after the point as well. *)
Definition weight (c : ascii) : Z := Z.of_N (N_of_ascii c) - 48.
Fixpoint whole (s : string) : Z := match s with String c r => weight c * 10 ^ Z.of_nat (String.length r) + whole r | _ => 0 end.
(** A number as written: digits, or digits, a point and digits; at least one digit, fewer than 256 characters. *)
Inductive numeral : string -> Q -> Prop :=
| num_none : numeral "" 1
| num_int a : a <> "" -> chars isdigit a = true -> (String.length a < 256)%nat -> numeral a (inject_Z (whole a))
| num_dec a b : (a ++ b)%string <> "" -> chars isdigit a = true -> chars isdigit b = true -> (String.length a + S (String.length b) < 256)%nat ->
    numeral (a ++ "." ++ b)%string (inject_Z (whole a) + inject_Z (whole b) / inject_Z (10 ^ Z.of_nat (String.length b)))%Q.

(** ** Formulas *)
Inductive part := Elt (name num : string) | Group (parts : list part) (num : string).
(** A capital letter, or something in brackets; then small letters and underscores. *)
Inductive element_name : string -> Prop :=
| name_plain c t : isupper c = true -> chars tail_char t = true -> element_name (String c t)
| name_bracket b t : b <> "" -> chars (fun c => negb (Ascii.eqb c "]")) b = true -> chars tail_char t = true -> element_name ("[" ++ b ++ "]" ++ t)%string.
Fixpoint show (p : part) : string :=
  match p with Elt n t => (n ++ t)%string | Group l t => ("(" ++ (fix go l := match l with [] => "" | x :: r => (show x ++ go r)%string end) l ++ ")" ++ t)%string end.
Fixpoint shows (l : list part) : string := match l with [] => "" | x :: r => (show x ++ shows r)%string end.
(** [meaning p e q]: [p] contains [q] of element [e]. *)
Inductive meaning : part -> string -> Q -> Prop :=
| mean_elt n t v e : element_name n -> numeral t v -> meaning (Elt n t) e (if String.eqb n e then v else 0)
| mean_group l t v e q : numeral t v -> meanings l e q -> meaning (Group l t) e (q * v)
with meanings : list part -> string -> Q -> Prop :=
| means_nil e : meanings [] e 0
| means_cons p l e q q' : meaning p e q -> meanings l e q' -> meanings (p :: l) e (q + q').
(** Well-formed: names and numbers as above. *)
Inductive well : part -> Prop :=
| well_elt n t v : element_name n -> numeral t v -> well (Elt n t)
| well_group l t v : Forall well l -> numeral t v -> well (Group l t).
(** What comes after a formula: nothing, or a charge. *)
Definition ends (s : string) : Prop := match s with EmptyString => True | String c _ => c = "+"%char \/ c = "-"%char end.
(** Amount of an element in a list. *)
Definition amount (e : string) (l : list (string * Q)) : Q := qsum (map (fun p => if String.eqb (fst p) e then snd p else 0%Q) l).
Fixpoint tally (c : ascii) (s : string) : Z := match s with String d r => (if Ascii.eqb c d then 1 else 0) + tally c r | _ => 0 end.

(** ** Sorting: any rearrangement in the order of strncmp. *)
Definition in_order (a b : string * Q) : Prop := String.compare (cut256 (fst a)) (cut256 (fst b)) <> Gt.
Definition sorts (f : list (string * Q) -> list (string * Q)) : Prop := forall l, Permutation l (f l) /\ StronglySorted in_order (f l).
Definition short_names (l : list (string * Q)) : Prop := Forall (fun p => (String.length (fst p) <= 256)%nat) l.

(** ** Charges *)
Fixpoint times (n : nat) (c : ascii) : string := match n with O => "" | S n => String c (times n c) end.
(** How a charge is written in the output: nothing, a sign, or a sign and a number of two or more without leading zero. *)
Inductive charge_text : string -> Z -> Prop :=
| ct_zero : charge_text "" 0
| ct_plus : charge_text "+" 1
| ct_minus : charge_text "-" (-1)
| ct_more s c d t : String d t = s -> isdigit d = true -> d <> "0"%char -> chars isdigit t = true -> 2 <= whole s <= 2147483647 -> (c = "+"%char \/ c = "-"%char) ->
    charge_text (String c s) (if Ascii.eqb c "-" then - whole s else whole s).

(** ** Equations *)
(** What a species is made of: a formula, a formula with a hydrate, or an electron. *)
Inductive body := Formula (l : list part) | Hydrate (l : list part) (num : string) (m : list part) | Electron.
Definition body_text (b : body) : string := match b with Formula l => shows l | Hydrate l t m => (shows l ++ ":" ++ t ++ shows m)%string | Electron => "e" end.
Definition good_body (b : body) : Prop :=
  match b with Formula l => l <> [] /\ Forall well l | Hydrate l t m => l <> [] /\ Forall well l /\ m <> [] /\ Forall well m /\ exists v, numeral t v | Electron => True end.
Inductive body_amount (e : string) : body -> Q -> Prop :=
| ba_formula l q : meanings l e q -> body_amount e (Formula l) q
| ba_hydrate l t v m q q' : meanings l e q -> numeral t v -> meanings m e q' -> body_amount e (Hydrate l t m) (q + v * q')
| ba_electron : body_amount e Electron (if String.eqb "e" e then 1 else 0).
(** A term: number, species and charge as written, and their meaning. *)
Record term := mkTerm { k_num : string; k_body : body; k_charge : string }.
Definition species_text (x : term) : string := (body_text (k_body x) ++ k_charge x)%string.
Definition term_text (x : term) : string := (k_num x ++ species_text x)%string.
Fixpoint side_text (l : list term) : string := match l with [] => "" | x :: r => (term_text x ++ match r with [] => "" | _ => "+" ++ side_text r end)%string end.
Definition good_term (x : term) (v : Q) (z : Z) : Prop :=
  numeral (k_num x) v /\ (String.length (k_num x) < 200)%nat /\ good_body (k_body x) /\ charge_text (k_charge x) z /\ (k_body x = Electron -> k_charge x = "-").
(** The characters an equation may contain, and white space, by their codes; [spaced s t]: [s] is [t] with white space put in anywhere. *)
Definition code (c : ascii) : Z := Z.of_N (N_of_ascii c).
Definition legal (c : ascii) : Prop := 97 <= code c <= 122 \/ 65 <= code c <= 90 \/ 48 <= code c <= 57 \/ In c ["+"; "-"; "="; "("; ")"; "["; "]"; "."; ":"; "_"]%char.
Definition white (c : ascii) : Prop := 9 <= code c <= 13 \/ code c = 32.
Inductive each (P : ascii -> Prop) : string -> Prop := each_nil : each P "" | each_cons c s : P c -> each P s -> each P (String c s).
Inductive spaced : string -> string -> Prop :=
| sp_nil : spaced "" ""
| sp_white c s t : white c -> spaced s t -> spaced (String c s) t
| sp_char c s t : ~ white c -> spaced s t -> spaced (String c s) (String c t).
(** Sums over a side: charge, and an element. *)
Inductive side_charge : list term -> Q -> Prop :=
| sc_nil : side_charge [] 0
| sc_cons x l v z q : good_term x v z -> side_charge l q -> side_charge (x :: l) (v * inject_Z z + q).
Inductive side_amount (e : string) : list term -> Q -> Prop :=
| sa_nil : side_amount e [] 0
| sa_cons x l v z a q : good_term x v z -> body_amount e (k_body x) a -> side_amount e l q -> side_amount e (x :: l) (v * a + q).
(** Names of elements no longer than the comparison of names looks at. *)
Definition short_body (b : body) : Prop := (String.length (body_text b) <= 256)%nat.

(** The two sides agree: the defining coefficient [v] is 1, and charges and amounts of every element but the electron balance. *)
Definition balanced (tol : Q) (l m : list term) (ql qm v : Q) : Prop :=
  (Qabs (v - 1) <= tol)%Q /\ (Qabs (qm - ql) <= tol)%Q /\ forall e al am, e <> "e" -> side_amount e l al -> side_amount e m am -> (Qabs (am - al) <= tol)%Q.

(** ** Reactions *)
Definition tokens (r : rxn) : list rtok := firstn (cnt r) (vec r).
Definition coef_of (n : string) (l : list rtok) : Q := qsum (map (fun t => if String.eqb (r_name t) n then r_coef t else 0%Q) l).
Definition named (n : string) (l : list rtok) : list rtok := filter (fun t => String.eqb (r_name t) n) l.
Definition r_order (a b : rtok) : Prop := String.compare (r_name a) (r_name b) <> Gt.
Definition rsorts (f : list rtok -> list rtok) : Prop := forall l, Permutation l (f l) /\ StronglySorted r_order (f l).
