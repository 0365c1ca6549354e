(** What the user means by the number of a keyword and by a list of numbers. *)
From Coq Require Import String Ascii List ZArith Bool.
From Verif Require Import Inp_Model Elem_Spec Pfile_Spec Hdr_Model.
Import ListNotations.
Local Open Scope string_scope.
Local Open Scope list_scope.
Local Open Scope Z_scope.

Fixpoint no_space (s : string) : Prop := match s with EmptyString => True | String c r => isspace c = false /\ no_space r end.
Definition word (s : string) : Prop := s <> "" /\ no_space s.

(** A description: nothing, or a text that does not begin with a blank. *)
Definition describes (d : string) : Prop := match d with EmptyString => True | String c _ => isspace c = false end.
(** The text after the number: blanks and the description. *)
Inductive tail : string -> string -> Prop :=
  | tail_none k : tail (blanks k) ""
  | tail_some k d : describes d -> d <> "" -> tail (blanks (S k) ++ d) d.

Definition int32 (v : Z) : Prop := -2147483648 <= v <= 2147483647.

(** One item of a list of numbers: its text and the numbers it stands for. *)
Inductive item : string -> list Z -> Prop :=
  | one s v : numeral s v -> 0 < v -> int32 v -> item s [v]
  | span s v t u : numeral s v -> numeral t u -> 0 < v -> v <= u -> int32 u -> item (s ++ "-" ++ t) (range v u).
(** Items with blanks before, between and after them. *)
Inductive items : string -> list Z -> Prop :=
  | no_items k : items (blanks k) []
  | last_item k s l : item s l -> items (blanks k ++ s) l
  | more_items k s l r m : item s l -> items (String " " r) m -> items (blanks k ++ s ++ String " " r) (l ++ m).
