(** Mixing of reactants: IPhreeqcMMS/IPhreeqc/src/phreeqcpp, the constructors from a mixture and the functions add and
    multiply of Solution.cxx, PPassemblage.cxx, SSassemblage.cxx, Exchange.cxx, Surface.cxx, cxxKinetics.cxx and
    GasPhase.cxx and of their components, and cxxMix::Add.  Doubles are exact rationals.  A division by zero (which gives
    NaN or infinity) is [None].  Not modelled: flags and descriptions, log activities (NameDouble::add_log_activities),
    the log maps of species, the asserts. *)
From Coq Require Import String Ascii List ZArith QArith Bool.
From Verif Require Import Qx CNum_Model Map_Model Name_Model Store_Model.
Import ListNotations.
Local Open Scope string_scope.
Local Open Scope list_scope.

(** cxxMix::Add, cxxMix.h 26-36. *)
Definition mix_comps := zmap Q.
Definition mix_add (m : mix_comps) (n : Z) (f : Q) : mix_comps :=
  match zfind m n with Some g => zset m n (g + f) | None => zset m n f end.
(** cxxMix::Multiply 37-44. *)
Definition mix_multiply (m : mix_comps) (f : Q) : mix_comps := map (fun p => (fst p, snd p * f)) m.

(** ** Solutions, Solution.cxx *)
(** What is averaged and what is added up in add, 1420-1441. *)
Record means := mkMeans { tc : Q; ph : Q; pe : Q; mu : Q; ah2o : Q; density : Q; viscosity : Q; viscos_0 : Q; patm : Q }.
Record sums := mkSums { total_h : Q; total_o : Q; cb : Q; mass_water : Q; soln_vol : Q; total_alkalinity : Q }.
(** cxxSolutionIsotope. *)
Record isotope := mkIso { i_total : Q; i_ratio : Q; i_unc : Q; i_unc_defined : bool }.
Record solution := mkSol { mean : means; sum : sums; totals : nd; gammas : nd; isotopes : smap isotope; species : zmap Q }.
(** zero, 1387-1410, and the constructor 107-126. *)
Definition zero_solution : solution := mkSol (mkMeans 0 0 0 0 0 1 1 1 1) (mkSums 0 0 0 0 0 0) [] [] [] [].
(** Add_isotopes, 1544-1573 (an isotope is stored under its name). *)
Definition add_isotopes (m old : smap isotope) (intensive extensive : Q) : smap isotope :=
  fold_left (fun m p =>
    match mfind m (fst p) with
    | Some i => mset m (fst p) (mkIso (i_total i + i_total (snd p) * extensive) (i_ratio i + i_ratio (snd p) * intensive)
                                      (i_unc i + i_unc (snd p) * intensive) (i_unc_defined i || i_unc_defined (snd p)))
    | None => mset m (fst p) (mkIso (i_total (snd p) * extensive) (i_ratio (snd p)) (i_unc (snd p)) (i_unc_defined (snd p)))
    end) old m.
(** 1446-1458. *)
Definition add_species (m old : zmap Q) (f1 f2 : Q) : zmap Q :=
  fold_left (fun m p =>
    match zfind m (fst p) with Some x => zset m (fst p) (x * f1 + snd p * f2) | None => zset m (fst p) (snd p) end) old m.
Definition weigh (f1 f2 : Q) (a b : means) : means :=
  mkMeans (f1 * tc a + f2 * tc b) (f1 * ph a + f2 * ph b) (f1 * pe a + f2 * pe b) (f1 * mu a + f2 * mu b)
          (f1 * ah2o a + f2 * ah2o b) (f1 * density a + f2 * density b) (f1 * viscosity a + f2 * viscosity b)
          (f1 * viscos_0 a + f2 * viscos_0 b) (f1 * patm a + f2 * patm b).
Definition gather (a b : sums) (e : Q) : sums :=
  mkSums (total_h a + total_h b * e) (total_o a + total_o b * e) (cb a + cb b * e) (mass_water a + mass_water b * e)
         (soln_vol a + soln_vol b * e) (total_alkalinity a + total_alkalinity b * e).
(** add, 1412-1484. *)
Definition add_solution (a b : solution) (e : Q) : option solution :=
  if qeq e 0 then Some a else
  let ext1 := mass_water (sum a) in
  let ext2 := mass_water (sum b) * e in
  if qeq (ext1 + ext2) 0 then None else
  let f1 := ext1 / (ext1 + ext2) in
  let f2 := ext2 / (ext1 + ext2) in
  Some (mkSol (weigh f1 f2 (mean a) (mean b)) (gather (sum a) (sum b) e) (add_extensive (totals a) (totals b) e)
              (add_intensive (gammas a) (gammas b) f1 f2) (add_isotopes (isotopes a) (isotopes b) f2 e)
              (add_species (species a) (species b) f1 f2)).
(** multiply, 1487-1502, and Multiply_isotopes 1575-1584. *)
Definition multiply_solution (a : solution) (e : Q) : solution :=
  if qeq e 0 || qeq e 1 then a else
  let s := sum a in
  mkSol (mean a) (mkSums (total_h s * e) (total_o s * e) (cb s * e) (mass_water s * e) (soln_vol s * e) (total_alkalinity s * e))
        (Name_Model.multiply (totals a) e) (gammas a)
        (map (fun p => (fst p, mkIso (i_total (snd p) * e) (i_ratio (snd p)) (i_unc (snd p)) (i_unc_defined (snd p)))) (isotopes a)) (species a).
(** 129-151: a solution that is not found is reported and left out. *)
Definition mix_solutions (sols : zmap solution) (mix : mix_comps) : option solution :=
  fold_left (fun a p =>
    match a with
    | None => None
    | Some a => match zfind sols (fst p) with None => Some a | Some b => add_solution a b (snd p) end
    end) mix (Some zero_solution).

(** ** Assemblages *)
(** Components kept in a vector: the first with the same name takes the addition, otherwise a scaled copy is appended
    (Exchange.cxx 325-349, Surface.cxx 600-643, cxxKinetics.cxx 423-450, SS.cxx 446-484). *)
Section Comps.
Context {C : Type}.
Variable key : C -> string.
Variable cadd : C -> C -> Q -> C.
Variable cmul : C -> Q -> C.
Fixpoint merge_comp (l : list C) (c : C) (e : Q) : list C :=
  match l with
  | [] => [cmul c e]
  | x :: r => if String.eqb (key x) (key c) then cadd x c e :: r else x :: merge_comp r c e
  end.
Definition add_comps (l addee : list C) (e : Q) : list C :=
  if qeq e 0 then l else fold_left (fun l c => merge_comp l c e) addee l.
(** Components kept in a map by name (PPassemblage.cxx 277-307, SSassemblage.cxx 219-245). *)
Definition merge_map (m : smap C) (c : C) (e : Q) : smap C :=
  match mfind m (key c) with Some x => mset m (key c) (cadd x c e) | None => mset m (key c) (cmul c e) end.
Definition add_map (m addee : smap C) (e : Q) : smap C :=
  if qeq e 0 then m else fold_left (fun m p => merge_map m (snd p) e) addee m.
End Comps.
(** The constructors from a mixture: what is not found is left out silently. *)
Definition mix_entities {E} (add : E -> E -> Q -> E) (zero : E) (entities : zmap E) (mix : mix_comps) : E :=
  fold_left (fun a p => match zfind entities (fst p) with None => a | Some b => add a b (snd p) end) mix zero.

(** The two weights by amount, with one half each when there is nothing (PPassemblageComp.cxx 353-364 and so on). *)
Definition weights (ext1 ext2 : Q) : Q * Q :=
  if negb (qeq (ext1 + ext2) 0) then (ext1 / (ext1 + ext2), ext2 / (ext1 + ext2)) else (1 # 2, 1 # 2).

(** Equilibrium phases, PPassemblageComp.cxx 343-394. *)
Record pp_comp := mkPp { p_name : string; p_formula : string; p_si : Q; p_si_org : Q; p_moles : Q; p_delta : Q; p_initial : Q }.
Definition pp_add (a b : pp_comp) (e : Q) : pp_comp :=
  if qeq e 0 || String.eqb (p_name b) "" then a else
  let (f1, f2) := weights (p_moles a) (p_moles b * e) in
  if negb (String.eqb (p_formula a) (p_formula b)) then a else
  mkPp (p_name a) (p_formula a) (p_si a * f1 + p_si b * f2) (p_si_org a * f1 + p_si_org b * f2)
       (p_moles a + p_moles b * e) (p_delta a + p_delta b * e) (p_initial a + p_initial b * e).
Definition pp_multiply (a : pp_comp) (e : Q) : pp_comp :=
  mkPp (p_name a) (p_formula a) (p_si a) (p_si_org a) (p_moles a * e) (p_delta a * e) (p_initial a * e).
(** PPassemblage.cxx 277-308: phases and the elements they use. *)
Record pp := mkPpa { pp_comps : smap pp_comp; pp_elements : nd }.
Definition pp_assemblage_add (a b : pp) (e : Q) : pp :=
  mkPpa (add_map p_name pp_add pp_multiply (pp_comps a) (pp_comps b) e) (add_extensive (pp_elements a) (pp_elements b) e).
Definition mix_pp : zmap pp -> mix_comps -> pp := mix_entities pp_assemblage_add (mkPpa [] []).

(** Solid solutions: SS.cxx 446-500, SScomp.cxx 239-245, SSassemblage.cxx 219-245.  Component names are compared
    without case. *)
Definition tolower (c : ascii) : ascii :=
  let n := nat_of_ascii c in if Nat.leb 65 n && Nat.leb n 90 then ascii_of_nat (n + 32) else c.
Fixpoint lower (s : string) : string := match s with EmptyString => "" | String c r => String (tolower c) (lower r) end.
Record ss_comp := mkSc { c_name : string; c_moles : Q; c_initial : Q; c_init : Q; c_delta : Q }.
Definition ss_comp_add (a b : ss_comp) (e : Q) : ss_comp :=
  mkSc (c_name a) (c_moles a + c_moles b * e) (c_initial a + c_initial b * e) (c_init a + c_init b * e) (c_delta a + c_delta b * e).
Definition ss_comp_multiply (a : ss_comp) (e : Q) : ss_comp := mkSc (c_name a) (c_moles a * e) (c_initial a * e) (c_init a) (c_delta a * e).
Record ss := mkSs { ss_name : string; ss_comps : list ss_comp }.
Definition ss_add (a b : ss) (e : Q) : ss :=
  if qeq e 0 || String.eqb (ss_name b) "" then a
  else mkSs (ss_name a) (add_comps (fun c => lower (c_name c)) ss_comp_add ss_comp_multiply (ss_comps a) (ss_comps b) e).
Definition ss_multiply (a : ss) (e : Q) : ss :=
  mkSs (ss_name a) (map (fun c => mkSc (c_name c) (c_moles c * e) (c_initial c * e) (c_init c * e) (c_delta c * e)) (ss_comps a)).
Definition ss_assemblage_add (a b : smap ss) (e : Q) : smap ss := add_map ss_name ss_add ss_multiply a b e.
Definition mix_ss : zmap (smap ss) -> mix_comps -> smap ss := mix_entities ss_assemblage_add [].

(** Exchangers: ExchComp.cxx 282-357.  [e_related] are the related phase and rate, [e_proportion] what they give. *)
Record ex_comp := mkEx { e_formula : string; e_totals : nd; e_la : Q; e_charge : Q; e_phase : string; e_rate : string; e_proportion : Q }.
Definition related (phase rate phase' rate' : string) (f1 f2 x y : Q) : Q :=
  if negb (String.eqb (lower phase) (lower phase')) then x else
  let x := if String.eqb phase "" then x else x * f1 + y * f2 in
  if negb (String.eqb (lower rate) (lower rate')) then x else
  if String.eqb rate "" then x else x * f1 + y * f2.
Definition ex_add (a b : ex_comp) (e : Q) : ex_comp :=
  if qeq e 0 || String.eqb (e_formula b) "" then a else
  mkEx (e_formula a) (add_extensive (e_totals a) (e_totals b) e) ((1 # 2) * e_la a + (1 # 2) * e_la b) (e_charge a + e_charge b * e)
       (e_phase a) (e_rate a) (related (e_phase a) (e_rate a) (e_phase b) (e_rate b) (1 # 2) (1 # 2) (e_proportion a) (e_proportion b)).
Definition ex_multiply (a : ex_comp) (e : Q) : ex_comp :=
  mkEx (e_formula a) (Name_Model.multiply (e_totals a) e) (e_la a) (e_charge a * e) (e_phase a) (e_rate a) (e_proportion a).
Definition exchange_add : list ex_comp -> list ex_comp -> Q -> list ex_comp := add_comps e_formula ex_add ex_multiply.
Definition mix_exchange : zmap (list ex_comp) -> mix_comps -> list ex_comp := mix_entities exchange_add [].

(** Surfaces: SurfaceComp.cxx 368-458 and SurfaceCharge.cxx 448-494. *)
Record su_comp := mkSu { u_formula : string; u_moles : Q; u_totals : nd; u_la : Q; u_charge : Q; u_phase : string; u_rate : string; u_proportion : Q }.
Definition su_add (a b : su_comp) (e : Q) : su_comp :=
  if qeq e 0 || String.eqb (u_formula b) "" then a else
  let (f1, f2) := weights (u_moles a) (u_moles b * e) in
  mkSu (u_formula a) (u_moles a + u_moles b * e) (add_extensive (u_totals a) (u_totals b) e) (f1 * u_la a + f2 * u_la b) (u_charge a + u_charge b * e)
       (u_phase a) (u_rate a) (related (u_phase a) (u_rate a) (u_phase b) (u_rate b) f1 f2 (u_proportion a) (u_proportion b)).
Definition su_multiply (a : su_comp) (e : Q) : su_comp :=
  mkSu (u_formula a) (u_moles a * e) (Name_Model.multiply (u_totals a) e) (u_la a) (u_charge a * e) (u_phase a) (u_rate a) (u_proportion a).
Record su_charge := mkCh { h_name : string; h_area : Q; h_grams : Q; h_balance : Q; h_water : Q; h_psi : Q; h_layer : nd }.
Definition ch_add (a b : su_charge) (e : Q) : su_charge :=
  if qeq e 0 || String.eqb (h_name a) "" && String.eqb (h_name b) "" then a else
  let (f1, f2) := weights (h_area a * h_grams a) (h_area b * h_grams b * e) in
  mkCh (h_name a) (f1 * h_area a + f2 * h_area b) (h_grams a + h_grams b * e) (h_balance a + h_balance b * e)
       (h_water a + h_water b * e) (h_psi a * f1 + h_psi b * f2) (add_extensive (h_layer a) (h_layer b) e).
Definition ch_multiply (a : su_charge) (e : Q) : su_charge :=
  mkCh (h_name a) (h_area a) (h_grams a * e) (h_balance a * e) (h_water a * e) (h_psi a) (Name_Model.multiply (h_layer a) e).
Record surface := mkSurf { su_comps : list su_comp; su_charges : list su_charge }.
Definition surface_add (a b : surface) (e : Q) : surface :=
  mkSurf (add_comps u_formula su_add su_multiply (su_comps a) (su_comps b) e) (add_comps h_name ch_add ch_multiply (su_charges a) (su_charges b) e).
Definition mix_surface : zmap surface -> mix_comps -> surface := mix_entities surface_add (mkSurf [] []).

(** Kinetics: KineticsComp.cxx 247-272. *)
Record ki_comp := mkKi { k_rate : string; k_m : Q; k_m0 : Q; k_moles : Q }.
Definition ki_add (a b : ki_comp) (e : Q) : ki_comp :=
  if qeq e 0 || String.eqb (k_rate b) "" then a else mkKi (k_rate a) (k_m a + k_m b * e) (k_m0 a + k_m0 b * e) (k_moles a + k_moles b * e).
Definition ki_multiply (a : ki_comp) (e : Q) : ki_comp := mkKi (k_rate a) (k_m a * e) (k_m0 a * e) (k_moles a * e).
Definition kinetics_add : list ki_comp -> list ki_comp -> Q -> list ki_comp := add_comps k_rate ki_add ki_multiply.
Definition mix_kinetics : zmap (list ki_comp) -> mix_comps -> list ki_comp := mix_entities kinetics_add [].

(** Gas phases: GasComp.cxx 187-229 and the constructor GasPhase.cxx 46-150. *)
Record ga_comp := mkGa { g_name : string; g_moles : Q; g_p_read : Q; g_initial : Q; g_p : Q; g_phi : Q; g_f : Q }.
Definition ga_add (a b : ga_comp) (e : Q) : ga_comp :=
  if qeq e 0 || String.eqb (g_name b) "" then a else
  let (f1, f2) := weights (g_moles a) (g_moles b * e) in
  mkGa (g_name a) (g_moles a + g_moles b * e) (g_p_read a * f1 + g_p_read b * f2) (g_initial a + g_initial b * e)
       (g_p a * f1 + g_p b * f2) (g_phi a * f1 + g_phi b * f2) (g_f a * f1 + g_f b * f2).
Definition ga_multiply (a : ga_comp) (e : Q) : ga_comp :=
  mkGa (g_name a) (g_moles a * e) (g_p_read a * e) (g_initial a * e) (g_p a) (g_phi a) (g_f a).
Record gas := mkGas { g_type : bool; g_total : Q; g_volume : Q; g_vm : Q; g_pressure : Q; g_comps : list ga_comp }.
(** The state of the loop: the first entity has been met, the new gas phase, its components by name; [true]: the types
    differ and the constructor has returned, without components. *)
Definition gas_step (entities : zmap gas) (whole : Q) (st : bool * gas * smap ga_comp * bool) (p : Z * Q) : bool * gas * smap ga_comp * bool :=
  match st with (first, g, comps, stopped) =>
    if stopped then st else
    match zfind entities (fst p) with
    | None => st
    | Some b =>
        let f := snd p in
        let part x := if qlt 0 whole then x * f / whole else 0 in
        if first then
          (false, mkGas (g_type b) (g_total b * f) (g_volume b * f) (part (g_vm b)) (if qlt 0 whole then g_pressure g + g_pressure b * f / whole else 0) [],
           fold_left (fun m c => merge_map g_name ga_add ga_multiply m c f) (g_comps b) comps, false)
        else if negb (eqb (g_type g) (g_type b)) then (first, g, comps, true)
        else
          (false, mkGas (g_type g) (g_total g + g_total b * f) (g_volume g + g_volume b * f) (g_vm g + part (g_vm b)) (g_pressure g + part (g_pressure b)) [],
           fold_left (fun m c => merge_map g_name ga_add ga_multiply m c f) (g_comps b) comps, false)
    end
  end.
Definition mix_gas (entities : zmap gas) (mix : mix_comps) : gas :=
  match fold_left (gas_step entities (qsum (map snd mix))) mix (true, mkGas true 0 0 0 0 [], [], false) with
  | (_, g, comps, stopped) => mkGas (g_type g) (g_total g) (g_volume g) (g_vm g) (g_pressure g) (if stopped then [] else map snd comps)
  end.
