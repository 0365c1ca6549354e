(** What a transfer of reactants has to keep (C72-C73). *)
From Coq Require Import String Ascii List ZArith QArith Bool Sorting.Sorted.
From Verif Require Import CStr_Model Pack_Model.
Import ListNotations.
Local Open Scope string_scope.
Local Open Scope list_scope.
Local Open Scope Z_scope.

(** Maps: keys strictly increasing, as in every std::map. *)
Definition increasing {K A} (cmp : K -> K -> comparison) (m : list (K * A)) : Prop := StronglySorted (fun a b => cmp (fst a) (fst b) = Lt) m.
(** A list of named amounts: no name is empty. *)
Definition names_ok (m : nd) : Prop := increasing String.compare m /\ Forall (fun e => fst e <> "") m.
(** The key under which a part is stored is its name. *)
Definition keyed {A} (name : A -> string) (m : list (string * A)) : Prop := increasing String.compare m /\ Forall (fun e => fst e = name (snd e)) m.

Definition solution_ok (x : solution) : Prop :=
  names_ok (sol_totals x) /\ names_ok (activities x) /\ names_ok (gammas x) /\ increasing String.compare (isotopes x) /\
  increasing Z.compare (species x) /\ increasing Z.compare (log_gammas x) /\ increasing Z.compare (log_molalities x).
Definition exchange_ok (x : exchange) : Prop := names_ok (ex_totals x) /\ Forall (fun c => names_ok (ec_totals c)) (ex_comps x).
Definition gas_ok (x : gas_phase) : Prop := names_ok (gp_totals x).
Definition kinetics_ok (x : kinetics) : Prop := names_ok (ki_totals x) /\ Forall (fun c => names_ok (kc_coef c) /\ names_ok (kc_reaction c)) (ki_comps x).
Definition pp_ok (x : pp) : Prop := names_ok (pp_elts x) /\ names_ok (pp_totals x) /\ keyed pc_name (pp_comps x) /\ Forall (fun e => names_ok (pc_totals (snd e))) (pp_comps x).
Definition ssa_ok (x : ssa) : Prop := names_ok (sa_totals x) /\ keyed ss_name (sa_sss x) /\ Forall (fun e => names_ok (ss_totals (snd e))) (sa_sss x).
Definition surface_ok (x : surface) : Prop :=
  names_ok (sf_totals x) /\ Forall (fun c => names_ok (su_totals c)) (sf_comps x) /\
  Forall (fun c => names_ok (ch_totals c) /\ increasing Qcompare (ch_g c) /\ increasing Z.compare (ch_species c)) (sf_charges x).

(** What is not sent: the end of the range of numbers and the description, and the fields named here. *)
Definition renumbered (blank : string) (k : numkey) : numkey := mkKey (n_user k) (n_user k) blank.
Definition sent_solution (x y : solution) : Prop :=
  y = mkSol (renumbered "  " (sol_key x)) (sol_new x) (patm x) (potV x) (tc x) (ph x) (pe x) (mu x) (ah2o x) (total_h x) (total_o x) (cb x) (mass_water x) (density x)
        (viscosity x) (viscos_0 y) (soln_vol x) (alkalinity x) (sol_totals x) (activities x) (gammas x) (isotopes x) (species x) (log_gammas x) (log_molalities x).
Definition sent_exchange (x y : exchange) : Prop := y = mkExch (renumbered " " (ex_key x)) (ex_comps x) (ex_pitzer x) (ex_new x) (ex_equil x) (ex_n x) (ex_totals x).
Definition sent_gas (x y : gas_phase) : Prop :=
  y = mkGas (renumbered " " (gp_key x)) (gp_volume_type x) (gp_total_p x) (gp_volume x) (gp_comps x) (gp_new x) (gp_equil x) (gp_n x) (gp_temp x) (gp_moles x) (gp_vm x) (gp_pr x) (gp_totals x).
Definition sent_kinetics (x y : kinetics) : Prop :=
  y = mkKin (renumbered " " (ki_key x)) (ki_comps x) (ki_steps x) (ki_count x) (ki_equal x) (ki_divide x) (ki_rk x) (ki_bad x) (ki_cvode x) (ki_csteps x) (ki_corder x) (ki_totals x).
Definition sent_pp (x y : pp) : Prop := y = mkPp (renumbered " " (pp_key x)) (pp_new x) (pp_comps x) (pp_elts x) (pp_totals x).
Definition sent_ssa (x y : ssa) : Prop := y = mkSsa (renumbered " " (sa_key x)) (sa_sss x) (sa_new x) (sa_totals x).
Definition sent_charge (c d : surf_charge) : Prop :=
  d = mkCh (ch_name c) (ch_area c) (ch_grams c) (ch_cb c) (ch_water c) (ch_visc c) (ch_free c) (ch_psi c) (ch_cap0 c) (ch_cap1 c) (ch_totals c) (ch_s0 c) (ch_s1 c) (ch_s2 c)
        (ch_sddl c) (ch_g c) (ch_mcd d) (ch_species c).
Definition sent_surface (x y : surface) : Prop :=
  y = mkSurf (renumbered " " (sf_key x)) (sf_comps x) (sf_charges y) (sf_new x) (sf_tidied x) (sf_type x) (sf_dl x) (sf_units x) (sf_counter x) (sf_thick x) (sf_debye x)
        (sf_visc x) (sf_calc y) (sf_limit x) (sf_correct x) (sf_transport x) (sf_totals x) (sf_equil x) (sf_n x) /\
  Forall2 sent_charge (sf_charges x) (sf_charges y).
Definition sent_steps (x y : steps) : Prop := y = mkSteps (renumbered " " (st_key x)) (st_values x) (st_count x) (st_equal x).

(** Reactants are stored under their own number. *)
Definition own_number {A} (key : A -> numkey) (ok : A -> Prop) (m : Z -> option A) : Prop := forall n x, m n = Some x -> n_user (key x) = n /\ ok x.
Definition system_ok (s : system) : Prop :=
  own_number sol_key solution_ok (solutions s) /\ own_number ex_key exchange_ok (exchanges s) /\ own_number gp_key gas_ok (gases s) /\
  own_number ki_key kinetics_ok (kinetic s) /\ own_number pp_key pp_ok (pps s) /\ own_number sa_key ssa_ok (ssas s) /\ own_number sf_key surface_ok (surfaces s) /\
  own_number st_key (fun _ => True) (temperatures s) /\ own_number st_key (fun _ => True) (pressures s).
(** A number in the range and present at the source arrives; every other entry of the target stays. *)
Definition moved {A} (sent : A -> A -> Prop) (first last : Z) (src old new : Z -> option A) : Prop :=
  forall n, match (if (first <=? n) && (n <=? last) then src n else None) with
            | Some x => exists y, new n = Some y /\ sent x y
            | None => new n = old n
            end.
Definition transferred (first last : Z) (with_t with_p : bool) (src old new : system) : Prop :=
  moved sent_solution first last (solutions src) (solutions old) (solutions new) /\ moved sent_exchange first last (exchanges src) (exchanges old) (exchanges new) /\
  moved sent_gas first last (gases src) (gases old) (gases new) /\ moved sent_kinetics first last (kinetic src) (kinetic old) (kinetic new) /\
  moved sent_pp first last (pps src) (pps old) (pps new) /\ moved sent_ssa first last (ssas src) (ssas old) (ssas new) /\
  moved sent_surface first last (surfaces src) (surfaces old) (surfaces new) /\
  moved sent_steps first last (if with_t then temperatures src else fun _ => None) (temperatures old) (temperatures new) /\
  moved sent_steps first last (if with_p then pressures src else fun _ => None) (pressures old) (pressures new).

(** Nothing stored under these numbers. *)
Definition clear (first last : Z) (s : system) : Prop := forall n, first <= n <= last ->
  solutions s n = None /\ exchanges s n = None /\ gases s n = None /\ kinetic s n = None /\ pps s n = None /\ ssas s n = None /\ surfaces s n = None /\ temperatures s n = None /\ pressures s n = None.

(** Words a text of lines can carry: no line break, at most 255 characters. *)
Fixpoint no_break (s : string) : Prop := match s with String c r => c <> ascii_of_nat 10 /\ no_break r | _ => True end.
Definition line_word (s : string) : Prop := no_break s /\ (String.length s <= 255)%nat.
