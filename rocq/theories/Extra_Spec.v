(** Letters and words regardless of case; saturated vapour of Hamon's formula. *)
From Coq Require Import Ascii String QArith Lia.
Local Open Scope Q_scope.

(** The same letter, or the two forms of one letter of the alphabet. *)
Definition same_letter (c d : ascii) : Prop :=
  c = d \/ exists k, (k < 26)%nat /\
    ((c = ascii_of_nat (65 + k) /\ d = ascii_of_nat (97 + k)) \/
     (d = ascii_of_nat (65 + k) /\ c = ascii_of_nat (97 + k))).
Inductive same_word : string -> string -> Prop :=
| SameEnd : same_word EmptyString EmptyString
| SameMore c d s t : same_letter c d -> same_word s t -> same_word (String c s) (String d t).

(** Density (g/m3) of saturated vapour at [t] degrees, by the exponential function. *)
Definition vapour (expf : Q -> Q) (t : Q) : Q :=
  (2167 # 10) * (6108 # 1000) * expf ((1726939 # 100000) * t / (t + (2373 # 10))) / (t + (2732 # 10)).
