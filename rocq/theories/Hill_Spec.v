(** What the hillslope model should do (C60-C63). *)
From Coq Require Import QArith Qabs ZArith List Bool.
From Verif Require Import Qx Infil_Model Hill_Model.
Import ListNotations.
Local Open Scope Q_scope.

(** Areas as the model checks and needs them: the first is zero, none is negative, they add up to one. *)
Definition areas_ok (l : list Q) : Prop := hd 1 l == 0 /\ Forall (fun a => 0 <= a) l /\ qsum l == 1.
(** No divisor is zero. *)
Definition divisors_ok (u : unit) (dt : Q) : Prop := ~ srmax u == 0 /\ ~ s_drain u == 0 /\ ~ szm u == 0 /\ ~ tl u == 0 /\ ~ dt == 0.
Definition fits (u : unit) (s : store) : Prop := length (st u) = length (ac u) /\ length (bins s) = length (ac u).

(** Water in a unit, counted from saturation: storage of the unsaturated zone less the deficits of the root zone over the
    bins, less the mean deficit of the saturated zone. *)
Definition stored (u : unit) (s : store) : Q := qsum (map (fun p => fst p * (suz (snd p) - srz (snd p))) (combine (acfs (ac u)) (bins s))) - sbar s.
(** What comes in and what goes out in a step. *)
Definition inch : Q := 127 # 5000.   (* m *)
Definition inputs (w : weather) (f : flows) : Q := (snowmelt w + psoil w) * inch + gw_in1 w + gw_in2 w.
Definition outputs (w : weather) (f : flows) : Q := f_ea f + f_qout f + f_loss f + irrig_sat w * inch.
(** The least amount of water kept in a bin: 1e-7 m. *)
Definition tiny : Q := 1 # 10000000.
Definition pumped (ws : list weather) : Q := qsum (map (fun w => irrig_sat w * inch) ws).

(** Stores within bounds. *)
Definition bounded (u : unit) (s : store) : Prop := Forall (fun b => 0 <= srz b <= srmax u /\ 0 <= suz b) (bins s).
Definition fractions_ok (u : unit) : Prop :=
  0 <= pmacro u <= 1 /\ 0 <= pmac_sat u <= 1 /\ 0 <= qdffrac u <= 1 /\ 0 <= td u /\ 0 < srmax u /\ 0 <= covden_sum u <= 1 /\ 0 <= covden_win u <= 1.
Definition local_ok (ep : Q) (l : local) : Prop := 0 <= l_ex l /\ 0 <= l_wet l /\ 0 <= l_quz l /\ 0 <= l_qdf l /\ 0 <= l_ea l <= ep /\ 0 <= l_infil l.
(** Demand left for the soil. *)
Definition demand (w : weather) : Q := qmax 0 ((potet w - intcp_evap w - snow_evap w) * inch).
(** Flows within bounds: none negative, evapotranspiration within the demand. *)
Definition flows_ok (w : weather) (f : flows) : Prop :=
  0 <= f_rex f /\ 0 <= f_qofs f /\ 0 <= f_infil f /\ 0 <= f_quz f /\ 0 <= f_qdf f /\ 0 <= f_wet f /\ (0 <= f_ea f /\ f_ea f <= demand w) /\ 0 <= f_qvpref f /\
  0 <= f_qb f /\ 0 <= f_qpref f /\ 0 <= f_loss f /\ 0 <= f_qout f.

(** Water above the water table in a bin: root zone above wilting point and at it, drainable water, and field capacity
    below the roots. *)
Definition above (u : unit) (b : bin) : Q :=
  (srmax u - srz b) + theta_wp u * root_depth u + suz b + theta_fc u * qmax 0 (- z_local b - root_depth u).
(** Deficit of a bin from the mean deficit and its topographic index: exponential, or parabolic and linear. *)
Definition bin_deficit (u : unit) (mean index : Q) : Q :=
  if Z.eqb (t_decay u) 0 then mean + szm u * (tl u - index) else szm u - index / tl u * (szm u - mean).
Definition tables_ok (u : unit) (s : store) : Prop :=
  forall i a x b, nth_error (acfs (ac u)) i = Some a -> ~ a == 0 -> nth_error (st u) i = Some x -> nth_error (bins s) i = Some b ->
  z_local b * s_drain u == - qmax 0 (bin_deficit u (sbar s) x).
Definition depths_ok (u : unit) (s : store) : Prop :=
  forall i a b, nth_error (acfs (ac u)) i = Some a -> ~ a == 0 -> nth_error (bins s) i = Some b -> uz_depth b == above u b.
