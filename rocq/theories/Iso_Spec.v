(** What the properties on isotopes and humidity say, apart from the
    model. *)
From Coq Require Import String ZArith QArith Qabs Bool List.
From Verif Require Import Iso_Model.
Import ListNotations.
Local Open Scope string_scope.
Local Open Scope list_scope.

(** The isotopes that the model knows. *)
Definition known_isotope (x : isotope) : Prop := iname x = "D" \/ iname x = "[18O]".

(** Deltas of evaporated water and of the rest that agree with a law of
    Rayleigh, given the factor by which the ratio in the rest grows: the ratio
    (delta plus 1000 permil) of the rest is that of the water times the factor,
    and the isotope is neither made nor lost. *)
Definition rayleigh (factor evap vol before evaporated rest : Q) : Prop :=
  (rest + 1000 == (before + 1000) * factor)%Q /\
  (evap * evaporated + (vol - evap) * rest == vol * before)%Q.

(** The exponent: equilibrium and diffusive fractionation (Craig and Gordon). *)
Definition exponent (log_alpha ison isoth isofac rh largest : Q) : Q :=
  (isofac * (ln_10 * log_alpha + (1 - rh) * ison * isoth * largest))%Q.
Definition log_alpha (ph : phase) (x : isotope) : Q := match ph with Snow => log_ice x | _ => log_liquid x end.

(** What a power must satisfy: for a base of at most one, an exponent that is
    not positive gives at least one. *)
Definition power_law (pw : Q -> Q -> Q) : Prop :=
  forall b e, (0 < b)%Q -> (b <= 1)%Q -> (e <= 0)%Q -> (1 <= pw b e)%Q.

(** The derivative of a polynomial with the coefficients [cs], lowest first. *)
Fixpoint scaled (k : Z) (cs : list Q) : list Q :=
  match cs with [] => [] | c :: r => (inject_Z k * c)%Q :: scaled (k + 1) r end.
Definition derivative (cs : list Q) : list Q := scaled 1 (tl cs).
(** The value of a polynomial. *)
Fixpoint value (cs : list Q) (t : Q) : Q := match cs with [] => 0%Q | c :: r => (c + t * value r t)%Q end.
