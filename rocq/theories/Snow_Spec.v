(** What the snow properties mean. *)
From Coq Require Import QArith List.
From Verif Require Import Qx Snow_Model.
Import ListNotations.
Local Open Scope Q_scope.

(** Facts about the library functions. *)
Definition sin_ok (sinf : Q -> Q) := forall x, -(1) <= sinf x <= 1.
Definition exp_ok (expf : Q -> Q) := forall t, 0 <= t -> 0 <= expf (- t) <= 1.
Definition pow_nonneg (powf : Q -> Q) := forall x, 0 <= x -> 0 <= powf x.
Definition pow_pos (powf : Q -> Q) := forall x, 0 < x -> 0 < powf x.

(** All water held by a pack: frozen, liquid, stored and lagged. *)
Definition pack_water (s : pack) : Q :=
  p_we s + p_liqw s + p_storage s + qsum (p_lagro s).

(** Physically meaningful pack states. *)
Definition pack_ok (s : pack) : Prop :=
  0 <= p_we s /\ 0 <= p_liqw s /\
  0 <= p_neghs s /\ p_neghs s <= (33 # 100) * p_we s /\
  0 <= c_aesc (p_cover s) /\ c_aesc (p_cover s) <= 1 /\
  0 <= p_storage s /\ Forall (fun x => 0 <= x) (p_lagro s) /\ 0 <= p_gm s /\
  (p_we s == 0 \/ c_aesc (p_cover s) == 0 ->
   p_liqw s == 0 /\ p_storage s == 0 /\ Forall (fun x => x == 0) (p_lagro s)).

(** Water leaving a pack in one pass. *)
Definition out_water (o : snow_out) : Q := o_packro o + o_soil o + o_evap o.
Definition out_ok (o : snow_out) : Prop :=
  0 <= o_packro o /\ 0 <= o_soil o /\ 0 <= o_evap o.

(** Meaningful parameters. *)
Definition par_ok (sp : snow_par) : Prop :=
  0 <= sp_mf sp /\ 0 <= sp_wcplw sp /\ 0 <= mr_subr (sp_mr sp) /\
  length (sp_adc sp) = 11%nat /\ (1 <= sp_itpx sp)%Z.

(** Piecewise linear reading of an 11-point curve at the fraction [f] of its range. *)
Definition curve_value (adc : list Q) (f v : Q) : Prop :=
  exists k a b, (k <= 9)%nat /\ nth_error adc k = Some a /\ nth_error adc (S k) = Some b /\
    inject_Z (Z.of_nat k) <= 10 * f /\ 10 * f < inject_Z (Z.of_nat k) + 1 /\
    v == a + (b - a) * (10 * f - inject_Z (Z.of_nat k)).

(** Meaningful days: parameters in range, nonnegative precipitation and ground melt, 6-hour
    intervals. *)
Definition day_ok (d : snow_par * Q * Q * Q * Q) : Prop :=
  let '(sp, daygm, pmru, _, _) := d in
  par_ok sp /\ sp_itpx sp = 6%Z /\ 0 <= daygm /\ 0 <= pmru.
Definition day_precip (d : snow_par * Q * Q * Q * Q) : Q :=
  let '(_, _, pmru, _, _) := d in pmru.
