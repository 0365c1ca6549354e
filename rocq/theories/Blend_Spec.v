(** What mixing should do (C58, C59). *)
From Coq Require Import String Ascii List ZArith QArith Bool Sorted.
From Verif Require Import Qx Map_Model Name_Model Name_Spec Store_Model Store_Spec Blend_Model.
Import ListNotations.
Local Open Scope string_scope.
Local Open Scope list_scope.
Local Open Scope Q_scope.

(** The parts of a mixture that exist, with their fractions. *)
Fixpoint parts {E} (entities : zmap E) (mix : mix_comps) : list (E * Q) :=
  match mix with
  | [] => []
  | (n, f) :: r => match zfind entities n with Some x => (x, f) :: parts entities r | None => parts entities r end
  end.
(** Sum over the parts of fraction times quantity. *)
Definition portion {E} (g : E -> Q) (l : list (E * Q)) : Q := qsum (map (fun p => snd p * g (fst p)) l).
(** The fraction given for a number in the lines of a mixture. *)
Definition given (lines : list (Z * Q)) (n : Z) : Q := qsum (map snd (filter (fun p => Z.eqb (fst p) n) lines)).
Definition fraction (m : mix_comps) (n : Z) : Q := match zfind m n with Some f => f | None => 0 end.

(** The quantities of a solution that add up, and those that are averaged. *)
Definition additive (g : solution -> Q) : Prop :=
  g = (fun s => total_h (sum s)) \/ g = (fun s => total_o (sum s)) \/ g = (fun s => cb (sum s)) \/ g = (fun s => mass_water (sum s)) \/
  g = (fun s => soln_vol (sum s)) \/ g = (fun s => total_alkalinity (sum s)) \/ exists k, g = (fun s => amount (totals s) k).
Definition averaged (g : solution -> Q) : Prop :=
  g = (fun s => tc (mean s)) \/ g = (fun s => ph (mean s)) \/ g = (fun s => pe (mean s)) \/ g = (fun s => mu (mean s)) \/ g = (fun s => ah2o (mean s)) \/
  g = (fun s => density (mean s)) \/ g = (fun s => viscosity (mean s)) \/ g = (fun s => viscos_0 (mean s)) \/ g = (fun s => patm (mean s)).
Definition water (s : solution) : Q := mass_water (sum s).
Definition proper_solution (s : solution) : Prop := proper (totals s).
(** Total amount of an isotope. *)
Definition isotope_total (s : solution) (k : string) : Q := match mfind (isotopes s) k with Some i => i_total i | None => 0 end.
Definition proper_isotopes (s : solution) : Prop := StronglySorted (fun a b => String.compare (fst a) (fst b) = Lt) (isotopes s).

(** The quantity [g] of the components called [k]. *)
Definition of_name {C} (key : C -> string) (g : C -> Q) (k : string) (l : list C) : Q := qsum (map g (filter (fun c => String.eqb (key c) k) l)).
(** Components stored under their names, in order, each once. *)
Definition proper_map {C} (key : C -> string) (m : smap C) : Prop :=
  StronglySorted (fun a b => String.compare (fst a) (fst b) = Lt) m /\ Forall (fun p => key (snd p) = fst p) m.
Definition comps_of {C} (m : smap C) : list C := map snd m.

(** Sound assemblages, and the quantities of their components that add up.  Names are not empty; the add formula of a phase
    depends on its name only. *)
Definition plain_phases (formula : string -> string) (x : pp) : Prop :=
  proper_map p_name (pp_comps x) /\ proper (pp_elements x) /\
  Forall (fun c => p_name c <> "" /\ p_formula c = formula (p_name c)) (comps_of (pp_comps x)).
Definition phase_quantity (g : pp_comp -> Q) : Prop := g = p_moles \/ g = p_delta \/ g = p_initial.
Definition plain_solids (x : smap ss) : Prop := proper_map ss_name x /\ Forall (fun s => ss_name s <> "") (comps_of x).
Definition solid_quantity (g : ss_comp -> Q) : Prop := g = c_moles \/ g = c_initial \/ g = c_delta.
(** Component [j] (in lower case) of the solid solution [k]. *)
Definition in_solid (g : ss_comp -> Q) (k j : string) (x : smap ss) : Q :=
  of_name ss_name (fun s => of_name (fun c => lower (c_name c)) g j (ss_comps s)) k (comps_of x).
Definition plain_exchange (x : list ex_comp) : Prop := Forall (fun c => e_formula c <> "" /\ proper (e_totals c)) x.
Definition exchange_quantity (g : ex_comp -> Q) : Prop := g = e_charge \/ exists el, g = (fun c => amount (e_totals c) el).
Definition plain_surface (x : surface) : Prop :=
  Forall (fun c => u_formula c <> "" /\ proper (u_totals c)) (su_comps x) /\ Forall (fun c => h_name c <> "" /\ proper (h_layer c)) (su_charges x).
Definition site_quantity (g : su_comp -> Q) : Prop := g = u_moles \/ g = u_charge \/ exists el, g = (fun c => amount (u_totals c) el).
Definition layer_quantity (g : su_charge -> Q) : Prop := g = h_grams \/ g = h_balance \/ g = h_water \/ exists el, g = (fun c => amount (h_layer c) el).
Definition plain_kinetics (x : list ki_comp) : Prop := Forall (fun c => k_rate c <> "") x.
Definition kinetic_quantity (g : ki_comp -> Q) : Prop := g = k_m \/ g = k_m0 \/ g = k_moles.
Definition plain_gas (t : bool) (x : gas) : Prop := g_type x = t /\ Forall (fun c => g_name c <> "") (g_comps x).
Definition gas_quantity (g : ga_comp -> Q) : Prop := g = g_moles \/ g = g_initial.
