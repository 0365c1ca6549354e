(** Element addressing, independent of the code. *)
From Coq Require Import String Ascii List ZArith Bool.
Import ListNotations.
Local Open Scope string_scope.
Local Open Scope list_scope.
Local Open Scope Z_scope.

(** [numeral s v]: the text is a nonempty row of decimal digits with value [v]. *)
Inductive numeral : string -> Z -> Prop :=
| num_digit d : (d <= 9)%nat -> numeral (String (ascii_of_nat (48 + d)) "") (Z.of_nat d)
| num_more s v d : numeral s v -> (d <= 9)%nat -> numeral (s ++ String (ascii_of_nat (48 + d)) "") (10 * v + Z.of_nat d).
(** [index_list s l]: the numbers of [l] written with commas between them. *)
Inductive index_list : string -> list Z -> Prop :=
| il_one s v : numeral s v -> index_list s [v]
| il_more s v r l : numeral s v -> index_list r l -> index_list (s ++ "," ++ r) (v :: l).
(** One index between 1 and its dimension for each dimension. *)
Definition in_range (idx dims : list Z) : Prop := Forall2 (fun i d => 1 <= i <= d) idx dims.
(** Column-major position: the first index runs fastest. *)
Fixpoint position (idx dims : list Z) : Z :=
  match idx, dims with
  | i :: idx, d :: dims => (i - 1) + d * position idx dims
  | _, _ => 0
  end.
Fixpoint total (dims : list Z) : Z := match dims with [] => 1 | d :: r => d * total r end.
(** Bytes of an element by type (1 long, 2 float, 3 double). *)
Definition width (ty : Z) : Z := if ty =? 2 then 4 else 8.
(** Every stretch of the text without a comma is shorter than 20 characters. *)
Definition short_words (s : string) : Prop :=
  forall a b c, s = (a ++ b ++ c)%string -> ~ In ","%char (list_ascii_of_string b) -> (String.length b < 20)%nat.
(** The code of the first number out of range: 4 below 1, 5 above the dimension, 0 for none. *)
Fixpoint verdict (idx dims : list Z) : Z :=
  match idx, dims with
  | i :: idx, d :: dims => if i <? 1 then 4 else if d <? i then 5 else verdict idx dims
  | _, _ => 0
  end.
