(** C58 (mixing solutions) and C59 (mixing assemblages). *)
From Coq Require Import String Ascii List ZArith QArith Bool Sorted Lia ZifyBool Lqa.
From Verif Require Import Qx Sort_Proofs Map_Model Map_Proofs Name_Model Name_Spec Name_Proofs Store_Model Store_Spec Store_Proofs Blend_Model Blend_Spec Blend_Proofs.
Import ListNotations.
Local Open Scope string_scope.
Local Open Scope list_scope.
Local Open Scope Q_scope.

(** ** C58 *)
(** The lines of a mixture: fractions given for the same number add up, and each number occurs once. *)
Theorem C58_lines : forall lines n,
  keys_up (fold_left (fun m p => mix_add m (fst p) (snd p)) lines []) /\
  fraction (fold_left (fun m p => mix_add m (fst p) (snd p)) lines []) n == given lines n.
Proof. intros lines n. split; [apply mix_lines_up; constructor|]. rewrite mix_lines. unfold fraction. cbn. ring. Qed.
Print Assumptions C58_lines.

(** Amounts of elements, hydrogen, oxygen, charge, water, volume and alkalinity add up exactly in proportion, whatever the
    fractions and however many solutions. *)
Theorem C58_sums : forall g sols mix s, additive g -> (forall n x, zfind sols n = Some x -> proper_solution x) ->
  mix_solutions sols mix = Some s -> g s == portion g (parts sols mix).
Proof.
  intros g sols mix s A P E. destruct (mix_from_sum g sols A P mix zero_solution s zero_proper E) as [X _]. rewrite X.
  assert (Z : g zero_solution == 0). { destruct A as [-> |[-> |[-> |[-> |[-> |[-> |[k ->]]]]]]]; reflexivity. } rewrite Z. ring.
Qed.
Print Assumptions C58_sums.
Theorem C58_isotopes : forall sols mix s k, (forall n x, zfind sols n = Some x -> proper_isotopes x) ->
  mix_solutions sols mix = Some s -> isotope_total s k == portion (fun x => isotope_total x k) (parts sols mix).
Proof.
  intros sols mix s k P E. assert (Z : proper_isotopes zero_solution) by constructor. destruct (mix_from_iso sols k P mix zero_solution s Z E) as [_ X]. rewrite X. unfold isotope_total at 1. cbn. ring.
Qed.
Print Assumptions C58_isotopes.

(** With water in every solution and no negative fraction the mixture exists. *)
Theorem C58_defined : forall sols mix, (forall n x, zfind sols n = Some x -> 0 < water x) -> (forall n f, In (n, f) mix -> 0 <= f) ->
  exists s, mix_solutions sols mix = Some s.
Proof. intros sols mix W F. apply (mix_from_some sols W mix zero_solution); [unfold water; cbn; lra|exact F]. Qed.
Print Assumptions C58_defined.

(** Temperature, pH, pe, ionic strength, activity of water, density, viscosity and pressure are averages weighted by water
    ... *)
Theorem C58_means : forall g sols mix s, averaged g -> mix_solutions sols mix = Some s ->
  g s * water s == portion (fun x => water x * g x) (parts sols mix).
Proof.
  intros g sols mix s A E. pose proof (mix_from_mean g sols A mix zero_solution s E) as X. rewrite X.
  assert (Z : g zero_solution * water zero_solution == 0). { unfold water. cbn [zero_solution sum mass_water]. ring. } rewrite Z. ring.
Qed.
Print Assumptions C58_means.
(** ... so they never leave the range of the solutions mixed. *)
Theorem C58_range : forall g sols mix s lo hi, averaged g ->
  (forall n x, zfind sols n = Some x -> proper_solution x /\ 0 < water x) -> (forall n f, In (n, f) mix -> 0 <= f) ->
  (exists x f, In (x, f) (parts sols mix) /\ 0 < f) -> (forall x f, In (x, f) (parts sols mix) -> lo <= g x <= hi) ->
  mix_solutions sols mix = Some s -> lo <= g s <= hi.
Proof.
  intros g sols mix s lo hi A P F (x0 & f0 & I0 & F0) B E.
  assert (W : water s == portion water (parts sols mix)).
  { apply (C58_sums (fun s => mass_water (sum s))); [right; right; right; left; reflexivity|intros n x Z; apply (P n x Z)|exact E]. }
  assert (FW : forall x f, In (x, f) (parts sols mix) -> 0 <= f /\ 0 < water x).
  { intros x f I. destruct (parts_in sols mix x f I) as (n & N1 & N2). split; [exact (F n f N1)|apply (P n x N2)]. }
  assert (WP : 0 < water s).
  { rewrite W. clear - I0 F0 FW. induction (parts sols mix) as [|[x f] l IH]; [destruct I0|]. rewrite portion_cons.
    assert (NN : 0 <= portion water l). { clear - FW. assert (Z : forall x f, In (x, f) l -> 0 <= f /\ 0 < water x) by (intros; apply FW; right; assumption). clear FW. induction l as [|[y q] l IH]; [rewrite portion_nil; lra|]. rewrite portion_cons. destruct (Z y q (or_introl eq_refl)) as [Z1 Z2]. assert (0 <= portion water l) by (apply IH; intros; apply Z; right; assumption). assert (0 <= q * water y) by (apply Qmult_le_0_compat; lra). lra. }
    destruct (FW x f (or_introl eq_refl)) as [Z1 Z2]. assert (Z3 : 0 <= f * water x) by (apply Qmult_le_0_compat; lra). destruct I0 as [I0|I0].
    - injection I0 as -> ->. assert (0 < f0 * water x0) by (apply Qmult_lt_0_compat; assumption). lra.
    - assert (0 < portion water l) by (apply IH; [exact I0|intros; apply FW; right; assumption]). lra. }
  pose proof (C58_means g sols mix s A E) as M. rewrite W in M.
  assert (LO : portion (fun x => water x * lo) (parts sols mix) <= portion (fun x => water x * g x) (parts sols mix)).
  { apply portion_le. intros x f I. destruct (FW x f I) as [Z1 Z2]. destruct (B x f I) as [B1 B2].
    assert (Z3 : 0 <= f * water x * (g x - lo)) by (apply Qmult_le_0_compat; [apply Qmult_le_0_compat|]; lra). lra. }
  assert (HI : portion (fun x => water x * g x) (parts sols mix) <= portion (fun x => water x * hi) (parts sols mix)).
  { apply portion_le. intros x f I. destruct (FW x f I) as [Z1 Z2]. destruct (B x f I) as [B1 B2].
    assert (Z3 : 0 <= f * water x * (hi - g x)) by (apply Qmult_le_0_compat; [apply Qmult_le_0_compat|]; lra). lra. }
  rewrite portion_scale in LO, HI. rewrite <- M in LO, HI. rewrite <- W in LO, HI.
  split; apply (Qmult_le_r _ _ (water s) WP); lra.
Qed.
Print Assumptions C58_range.
(** Scaling a solution scales the amounts and leaves the averages. *)
Theorem C58_multiply : forall s e, ~ e == 0 -> proper_solution s ->
  (forall g, additive g -> g (multiply_solution s e) == e * g s) /\ (forall g, averaged g -> g (multiply_solution s e) == g s) /\
  forall k, isotope_total (multiply_solution s e) k == e * isotope_total s k.
Proof.
  intros s e N P. unfold multiply_solution. apply qeq_false in N. rewrite N. cbn [orb]. destruct (qeq e 1) eqn:E1.
  - apply qeq_t in E1. split; [intros g _; rewrite E1; ring|]. split; [intros; reflexivity|]. intros k. rewrite E1. ring.
  - split; [|split].
    + intros g A. destruct A as [-> |[-> |[-> |[-> |[-> |[-> |[k ->]]]]]]]; cbn; try ring. apply (mul_all _ e k P).
    + intros g A. destruct A as [-> |[-> |[-> |[-> |[-> |[-> |[-> |[-> | ->]]]]]]]]; reflexivity.
    + intros k. unfold isotope_total. cbn [isotopes]. induction (isotopes s) as [|[n i] m IH]; [cbn; ring|]. cbn [map mfind fst snd]. destruct (String.eqb n k); [cbn; ring|exact IH].
Qed.
Print Assumptions C58_multiply.

Definition plain (w t : Q) (tot : nd) (iso : smap isotope) (sp : zmap Q) : solution :=
  mkSol (mkMeans t 7 4 0 1 1 1 1 1) (mkSums (111 * w) (55 * w) 0 w w 0) tot [] iso sp.
(** A solution of 1 kg at 10 degrees with 1 mol of Ca and one of 3 kg at 30 degrees with 2 mol of Ca and 4 of Cl. *)
Definition two_solutions : zmap solution := [(1%Z, plain 1 10 [("Ca", 1)] [] []); (2%Z, plain 3 30 [("Ca", 2); ("Cl", 4)] [] [])].
Lemma two_ok n x : zfind two_solutions n = Some x -> proper_solution x /\ proper_isotopes x /\ 0 < water x.
Proof.
  unfold two_solutions. cbn [zfind fst snd]. destruct (Z.eqb_spec 1 n) as [<-|]; [intros E; injection E as <-|]; [|destruct (Z.eqb_spec 2 n) as [<-|]; [intros E; injection E as <-|discriminate]];
    (split; [unfold proper_solution, proper, plain; cbn; repeat (constructor; cbn; auto)|split; [unfold proper_isotopes, plain; cbn; constructor|unfold water, plain; cbn; lra]]).
Qed.
Example C58_sums_met : exists s, mix_solutions two_solutions [(1%Z, 1 # 2); (2%Z, 1 # 2); (9%Z, 1)] = Some s /\
  amount (totals s) "Ca" == 3 # 2 /\ amount (totals s) "Cl" == 2 /\ water s == 2 /\ tc (mean s) == 25 /\ 10 <= tc (mean s) <= 30.
Proof.
  eexists. split; [vm_compute; reflexivity|]. split; [reflexivity|]. split; [reflexivity|]. split; [reflexivity|]. split; [reflexivity|]. split; discriminate.
Qed.
Example C58_range_met :
  (forall n x, zfind two_solutions n = Some x -> proper_solution x /\ 0 < water x) /\ (exists x f, In (x, f) (parts two_solutions [(1%Z, 1 # 2); (2%Z, 1 # 2)]) /\ 0 < f) /\
  (forall x f, In (x, f) (parts two_solutions [(1%Z, 1 # 2); (2%Z, 1 # 2)]) -> 10 <= tc (mean x) <= 30).
Proof.
  split; [intros n x F; destruct (two_ok n x F) as (A & _ & B); auto|]. split.
  - eexists. exists (1 # 2). split; [left; reflexivity|reflexivity].
  - intros x f I. cbn in I. destruct I as [I|[I|[]]]; injection I as <- <-; cbn; lra.
Qed.
Example C58_lines_met : fold_left (fun m p => mix_add m (fst p) (snd p)) [(2%Z, 1 # 4); (1%Z, 1 # 2); (2%Z, 1 # 4)] [] = [(1%Z, 1 # 2); (2%Z, (1 # 4) + (1 # 4))].
Proof. reflexivity. Qed.

(** The isotope ratios of a mixture are not averages: the ratio of the first solution is kept whole and that of the second
    is added with its weight, so mixing equal halves of two waters with the same ratio r gives 1.5 r. *)
Theorem C58_ratio_refuted : forall r, 0 < r ->
  let w := plain 1 10 [("O", 1)] [("18O", mkIso 1 r 0 false)] [] in
  exists s i, mix_solutions [(1%Z, w); (2%Z, w)] [(1%Z, 1 # 2); (2%Z, 1 # 2)] = Some s /\ mfind (isotopes s) "18O" = Some i /\ i_ratio i == (3 # 2) * r /\ ~ i_ratio i == r.
Proof.
  intros r R. cbn zeta. eexists. exists (mkIso (1 * (1 # 2) + 1 * (1 # 2)) (r + r * (1 * (1 # 2) / (0 + 1 * (1 # 2) + 1 * (1 # 2)))) (0 + 0 * (1 * (1 # 2) / (0 + 1 * (1 # 2) + 1 * (1 # 2)))) false).
  split; [reflexivity|]. split; [reflexivity|]. assert (X : r + r * (1 * (1 # 2) / (0 + 1 * (1 # 2) + 1 * (1 # 2))) == (3 # 2) * r) by field. cbn [i_ratio]. split; [exact X|rewrite X; lra].
Qed.
Print Assumptions C58_ratio_refuted.
(** A species that only the later solution has keeps its whole concentration in the mixture instead of being diluted. *)
Theorem C58_species_refuted : forall c, 0 < c ->
  exists s, mix_solutions [(1%Z, plain 1 10 [] [] []); (2%Z, plain 1 10 [] [] [(5%Z, c)])] [(1%Z, 1 # 2); (2%Z, 1 # 2)] = Some s /\ species s = [(5%Z, c)] /\ ~ c == (1 # 2) * 0 + (1 # 2) * c.
Proof. intros c C. eexists. split; [reflexivity|]. split; [reflexivity|]. lra. Qed.
Print Assumptions C58_species_refuted.
(** When the water cancels (or there is none) the weights divide by zero. *)
Theorem C58_cancel_refuted : forall sols n1 n2 s1 s2 f, zfind sols n1 = Some s1 -> zfind sols n2 = Some s2 -> water s1 == water s2 -> ~ f == 0 ->
  mix_solutions sols [(n1, f); (n2, - f)] = None.
Proof.
  intros sols n1 n2 s1 s2 f F1 F2 W N. unfold water in W. unfold mix_solutions. cbn [fold_left fst snd]. rewrite F1, F2.
  unfold add_solution at 1. apply qeq_false in N as N1. rewrite N1. cbn [zero_solution sum mass_water].
  destruct (qeq (0 + mass_water (sum s1) * f) 0) eqn:D; [reflexivity|]. unfold add_solution. assert (N2 : qeq (- f) 0 = false) by (apply qeq_false; lra). rewrite N2. cbn [gather sum mass_water].
  assert (Z : qeq (0 + mass_water (sum s1) * f + mass_water (sum s2) * - f) 0 = true) by (apply qeq_true; rewrite <- W; ring). rewrite Z. reflexivity.
Qed.
Print Assumptions C58_cancel_refuted.
(** A mixture with all fractions multiplied gives that much of everything that adds up. *)
Lemma portion_multiply {E} (g : E -> Q) (entities : zmap E) mix f : portion g (parts entities (mix_multiply mix f)) == f * portion g (parts entities mix).
Proof.
  unfold portion, mix_multiply. induction mix as [|[n x] mix IH]; [cbn; ring|]. cbn [map fst snd parts]. destruct (zfind entities n); [|exact IH].
  cbn [map qsum fst snd]. rewrite IH. ring.
Qed.
Theorem C58_multiply_mix : forall g sols mix f s t, additive g -> (forall n x, zfind sols n = Some x -> proper_solution x) ->
  mix_solutions sols mix = Some s -> mix_solutions sols (mix_multiply mix f) = Some t ->
  g t == f * g s /\ forall n, fraction (mix_multiply mix f) n == f * fraction mix n.
Proof.
  intros g sols mix f s t A P M N. split.
  - rewrite (C58_sums g sols _ t A P N), (C58_sums g sols mix s A P M). apply portion_multiply.
  - intros n. unfold fraction, mix_multiply. clear M N. induction mix as [|[k x] mix IH]; [cbn; ring|]. cbn [map fst snd zfind].
    destruct (Z.eqb k n); [ring | exact IH].
Qed.
Print Assumptions C58_multiply_mix.
(** Scaling by zero leaves the solution as it is. *)
Theorem C58_multiply_zero_refuted : forall s, multiply_solution s 0 = s.
Proof. intros s. reflexivity. Qed.
Print Assumptions C58_multiply_zero_refuted.

(** ** C59 *)
Theorem C59_phases : forall formula g entities mix, phase_quantity g -> (forall n x, zfind entities n = Some x -> plain_phases formula x) ->
  plain_phases formula (mix_pp entities mix) /\
  (forall k, of_name p_name g k (comps_of (pp_comps (mix_pp entities mix))) == portion (fun x => of_name p_name g k (comps_of (pp_comps x))) (parts entities mix)) /\
  forall k, amount (pp_elements (mix_pp entities mix)) k == portion (fun x => amount (pp_elements x) k) (parts entities mix).
Proof.
  intros formula g entities mix GQ PE. assert (Z : plain_phases formula (mkPpa [] [])) by (split; [split; constructor|split; constructor]).
  assert (X : forall G, G (mkPpa [] []) == 0 -> (forall a b e, plain_phases formula a -> plain_phases formula b -> G (pp_assemblage_add a b e) == G a + e * G b) ->
    plain_phases formula (mix_pp entities mix) /\ G (mix_pp entities mix) == portion G (parts entities mix)).
  { intros G GZ GA. apply mix_ok; auto. intros a b e A B. split; [apply (pp_step formula g a b e GQ A B)|apply GA; assumption]. }
  split; [apply (X (fun _ => 0)); [reflexivity|intros; ring]|]. split; intros k.
  - apply (X (fun x => of_name p_name g k (comps_of (pp_comps x)))); [reflexivity|]. intros a b e A B. apply (pp_step formula g a b e GQ A B).
  - apply (X (fun x => amount (pp_elements x) k)); [reflexivity|]. intros a b e A B. apply (pp_step formula g a b e GQ A B).
Qed.
Print Assumptions C59_phases.
Theorem C59_solid_solutions : forall g entities mix, solid_quantity g -> (forall n x, zfind entities n = Some x -> plain_solids x) ->
  plain_solids (mix_ss entities mix) /\ forall k j, in_solid g k j (mix_ss entities mix) == portion (in_solid g k j) (parts entities mix).
Proof.
  intros g entities mix GQ PE. assert (Z : plain_solids []) by (split; [split; constructor|constructor]).
  assert (X : forall k j, plain_solids (mix_ss entities mix) /\ in_solid g k j (mix_ss entities mix) == portion (in_solid g k j) (parts entities mix)).
  { intros k j. apply mix_ok; auto; [reflexivity|]. intros a b e A B. destruct (ss_step g j a b e GQ A B) as [S1 S2]. split; [exact S1|apply S2]. }
  split; [apply (X "" "")|]. intros k j. apply X.
Qed.
Print Assumptions C59_solid_solutions.
Theorem C59_exchange : forall g entities mix, exchange_quantity g -> (forall n x, zfind entities n = Some x -> plain_exchange x) ->
  plain_exchange (mix_exchange entities mix) /\
  forall k, of_name e_formula g k (mix_exchange entities mix) == portion (of_name e_formula g k) (parts entities mix).
Proof.
  intros g entities mix GQ PE. assert (Z : plain_exchange []) by constructor.
  assert (X : forall k, plain_exchange (mix_exchange entities mix) /\ of_name e_formula g k (mix_exchange entities mix) == portion (of_name e_formula g k) (parts entities mix)).
  { intros k. apply mix_ok; auto; [reflexivity|]. intros a b e A B. destruct (ex_step g a b e GQ A B) as [S1 S2]. split; [exact S1|apply S2]. }
  split; [apply (X "")|]. intros k. apply X.
Qed.
Print Assumptions C59_exchange.
Theorem C59_surface : forall g h entities mix, site_quantity g -> layer_quantity h -> (forall n x, zfind entities n = Some x -> plain_surface x) ->
  plain_surface (mix_surface entities mix) /\
  (forall k, of_name u_formula g k (su_comps (mix_surface entities mix)) == portion (fun x => of_name u_formula g k (su_comps x)) (parts entities mix)) /\
  forall k, of_name h_name h k (su_charges (mix_surface entities mix)) == portion (fun x => of_name h_name h k (su_charges x)) (parts entities mix).
Proof.
  intros g h entities mix GQ HQ PE. assert (Z : plain_surface (mkSurf [] [])) by (split; constructor).
  assert (X : forall G, G (mkSurf [] []) == 0 -> (forall a b e, plain_surface a -> plain_surface b -> G (surface_add a b e) == G a + e * G b) ->
    plain_surface (mix_surface entities mix) /\ G (mix_surface entities mix) == portion G (parts entities mix)).
  { intros G GZ GA. apply mix_ok; auto. intros a b e A B. split; [split; [apply (su_step g a b e GQ A B)|apply (ch_step h a b e HQ A B)]|apply GA; assumption]. }
  split; [apply (X (fun _ => 0)); [reflexivity|intros; ring]|]. split; intros k.
  - apply (X (fun x => of_name u_formula g k (su_comps x))); [reflexivity|]. intros a b e A B. apply (su_step g a b e GQ A B).
  - apply (X (fun x => of_name h_name h k (su_charges x))); [reflexivity|]. intros a b e A B. apply (ch_step h a b e HQ A B).
Qed.
Print Assumptions C59_surface.
Theorem C59_kinetics : forall g entities mix, kinetic_quantity g -> (forall n x, zfind entities n = Some x -> plain_kinetics x) ->
  plain_kinetics (mix_kinetics entities mix) /\
  forall k, of_name k_rate g k (mix_kinetics entities mix) == portion (of_name k_rate g k) (parts entities mix).
Proof.
  intros g entities mix GQ PE. assert (Z : plain_kinetics []) by constructor.
  assert (X : forall k, plain_kinetics (mix_kinetics entities mix) /\ of_name k_rate g k (mix_kinetics entities mix) == portion (of_name k_rate g k) (parts entities mix)).
  { intros k. apply mix_ok; auto; [reflexivity|]. intros a b e A B. destruct (ki_step g a b e GQ A B) as [S1 S2]. split; [exact S1|apply S2]. }
  split; [apply (X "")|]. intros k. apply X.
Qed.
Print Assumptions C59_kinetics.
(** Gas phases of one type: amounts and volume add up; the pressure is the average over all the fractions. *)
Theorem C59_gas : forall g t entities mix, gas_quantity g -> (forall n x, zfind entities n = Some x -> plain_gas t x) ->
  g_total (mix_gas entities mix) == portion g_total (parts entities mix) /\
  g_volume (mix_gas entities mix) == portion g_volume (parts entities mix) /\
  (forall k, of_name g_name g k (g_comps (mix_gas entities mix)) == portion (fun x => of_name g_name g k (g_comps x)) (parts entities mix)) /\
  (parts entities mix <> [] -> g_type (mix_gas entities mix) = t) /\
  (0 < qsum (map snd mix) -> g_pressure (mix_gas entities mix) * qsum (map snd mix) == portion g_pressure (parts entities mix)).
Proof.
  intros g t entities mix GQ PE.
  destruct (gas_fold g t entities (qsum (map snd mix)) GQ PE mix true no_gas []) as (f2 & h2 & c2 & R1 & R2 & R3 & R4 & R5 & R6 & R7 & R8 & R9); [reflexivity|discriminate|constructor|constructor|].
  assert (EM : mix_gas entities mix = mkGas (g_type h2) (g_total h2) (g_volume h2) (g_vm h2) (g_pressure h2) (map snd c2)).
  { unfold mix_gas. match goal with |- context [fold_left ?f mix ?st] => replace (fold_left f mix st) with (f2, h2, c2, false) by (symmetry; exact R1) end. reflexivity. }
  rewrite EM. cbn [g_total g_volume g_pressure g_comps g_type].
  split; [rewrite R6; cbn; ring|]. split; [rewrite R7; cbn; ring|]. split; [|split].
  - intros k. rewrite (of_at_gas g c2 k R2 R3), R9. unfold at_name. cbn [mfind]. ring.
  - intros N. apply R5, R4. right. exact N.
  - intros W. destruct (R8 W) as [R81 _]. rewrite R81. cbn. ring.
Qed.
Print Assumptions C59_gas.

(** Two assemblages of calcite and gypsum, two of exchangers, two surfaces. *)
Example C59_phases_met :
  let a := mkPpa [("Calcite", mkPp "Calcite" "" 0 0 2 0 0); ("Gypsum", mkPp "Gypsum" "" 0 0 1 0 0)] [("Ca", 3)] in
  let b := mkPpa [("Calcite", mkPp "Calcite" "" 0 0 4 0 0)] [("Ca", 4)] in
  let m := mix_pp [(1%Z, a); (2%Z, b)] [(1%Z, 1 # 2); (2%Z, 1 # 4)] in
  plain_phases (fun _ => "") a /\ plain_phases (fun _ => "") b /\ of_name p_name p_moles "Calcite" (comps_of (pp_comps m)) == 2 /\ amount (pp_elements m) "Ca" == 5 # 2.
Proof.
  cbn zeta. split; [|split; [|split; reflexivity]].
  - split; [split; repeat (constructor; cbn; auto)|]. split; [repeat (constructor; cbn; auto)|]. constructor; [split; [discriminate|reflexivity]|]. constructor; [split; [discriminate|reflexivity]|constructor].
  - split; [split; repeat (constructor; cbn; auto)|]. split; [repeat (constructor; cbn; auto)|]. constructor; [split; [discriminate|reflexivity]|constructor].
Qed.
Example C59_solid_solutions_met :
  let a := [("Carb", mkSs "Carb" [mkSc "Calcite" 2 0 0 0; mkSc "Magnesite" 1 0 0 0])] in
  let b := [("Carb", mkSs "Carb" [mkSc "CALCITE" 4 0 0 0])] in
  plain_solids a /\ plain_solids b /\ in_solid c_moles "Carb" "calcite" (mix_ss [(1%Z, a); (2%Z, b)] [(1%Z, 1 # 2); (2%Z, 1 # 4)]) == 2.
Proof.
  cbn zeta. split; [|split; [|reflexivity]]; (split; [split; repeat (constructor; cbn; auto)|constructor; [discriminate|constructor]]).
Qed.
Example C59_exchange_met :
  let a := [mkEx "X" [("Ca", 1); ("Na", 2)] 0 0 "" "" 0] in let b := [mkEx "X" [("Na", 4)] 0 1 "" "" 0; mkEx "Y" [("K", 1)] 0 0 "" "" 0] in
  plain_exchange a /\ plain_exchange b /\
  of_name e_formula (fun c => amount (e_totals c) "Na") "X" (mix_exchange [(1%Z, a); (2%Z, b)] [(1%Z, 1 # 2); (2%Z, 1 # 2)]) == 3 /\
  of_name e_formula (fun c => amount (e_totals c) "K") "Y" (mix_exchange [(1%Z, a); (2%Z, b)] [(1%Z, 1 # 2); (2%Z, 1 # 2)]) == 1 # 2.
Proof.
  cbn zeta. split; [|split; [|split; reflexivity]].
  - constructor; [split; [discriminate|repeat (constructor; cbn; auto)]|constructor].
  - constructor; [split; [discriminate|repeat (constructor; cbn; auto)]|constructor; [split; [discriminate|repeat (constructor; cbn; auto)]|constructor]].
Qed.
Example C59_surface_met :
  let a := mkSurf [mkSu "Hfo_w" 1 [("H", 1)] 0 0 "" "" 0] [mkCh "Hfo" 600 1 0 1 0 []] in
  let b := mkSurf [mkSu "Hfo_w" 3 [("H", 3)] 0 1 "" "" 0] [mkCh "Hfo" 600 2 1 1 0 [("Cl", 1)]] in
  let m := mix_surface [(1%Z, a); (2%Z, b)] [(1%Z, 1 # 2); (2%Z, 1 # 2)] in
  plain_surface a /\ plain_surface b /\ of_name u_formula u_moles "Hfo_w" (su_comps m) == 2 /\ of_name h_name h_grams "Hfo" (su_charges m) == 3 # 2.
Proof.
  cbn zeta. split; [|split; [|split; reflexivity]]; (split; constructor; [split; [discriminate|repeat (constructor; cbn; auto)]|constructor|split; [discriminate|repeat (constructor; cbn; auto)]|constructor]).
Qed.
Example C59_kinetics_met :
  let a := [mkKi "Pyrite" 1 1 0] in let b := [mkKi "Albite" 1 1 0; mkKi "Pyrite" 3 3 1] in
  plain_kinetics a /\ plain_kinetics b /\ of_name k_rate k_m "Pyrite" (mix_kinetics [(1%Z, a); (2%Z, b)] [(1%Z, 1 # 2); (2%Z, 1 # 2)]) == 2.
Proof. cbn zeta. split; [|split; [|reflexivity]]; repeat (constructor; try discriminate). Qed.
Example C59_gas_met :
  let a := mkGas true 2 1 0 1 [mkGa "CO2" 1 0 1 0 1 0; mkGa "O2" 1 0 1 0 1 0] in let b := mkGas true 4 3 0 3 [mkGa "CO2" 4 0 4 0 1 0] in
  let m := mix_gas [(1%Z, a); (2%Z, b)] [(1%Z, 1 # 2); (2%Z, 1 # 2)] in
  plain_gas true a /\ plain_gas true b /\ g_total m == 3 /\ of_name g_name g_moles "CO2" (g_comps m) == 5 # 2 /\ g_pressure m == 2.
Proof. cbn zeta. split; [|split; [|split; [|split]; reflexivity]]; (split; [reflexivity|repeat (constructor; try discriminate)]). Qed.

(** Phases with the same name but different add formulas: the amount in the later assemblage is lost (an error is counted,
    but the mixture is made). *)
Theorem C59_formula_refuted : forall name f1 f2 m1 m2, name <> "" -> f1 <> f2 -> 0 < m1 -> 0 < m2 ->
  let a := mkPpa [(name, mkPp name f1 0 0 m1 0 0)] [] in let b := mkPpa [(name, mkPp name f2 0 0 m2 0 0)] [] in
  of_name p_name p_moles name (comps_of (pp_comps (mix_pp [(1%Z, a); (2%Z, b)] [(1%Z, 1 # 2); (2%Z, 1 # 2)]))) == (1 # 2) * m1 /\
  ~ (1 # 2) * m1 == portion (fun x => of_name p_name p_moles name (comps_of (pp_comps x))) (parts [(1%Z, a); (2%Z, b)] [(1%Z, 1 # 2); (2%Z, 1 # 2)]).
Proof.
  intros name f1 f2 m1 m2 N F M1 M2. cbn zeta. split.
  - assert (PA : forall x y e, p_formula x <> p_formula y -> pp_add x y e = x).
    { intros x y e D. unfold pp_add. destruct (qeq e 0 || String.eqb (p_name y) ""); [reflexivity|]. destruct (weights (p_moles x) (p_moles y * e)). destruct (String.eqb_spec (p_formula x) (p_formula y)); [contradiction|reflexivity]. }
    set (x := mkPp name f1 0 0 (m1 * (1 # 2)) (0 * (1 # 2)) (0 * (1 # 2))).
    assert (EL : pp_comps (mix_pp [(1%Z, mkPpa [(name, mkPp name f1 0 0 m1 0 0)] []); (2%Z, mkPpa [(name, mkPp name f2 0 0 m2 0 0)] [])] [(1%Z, 1 # 2); (2%Z, 1 # 2)]) = [(name, x)]).
    { transitivity (merge_map p_name pp_add pp_multiply [(name, x)] (mkPp name f2 0 0 m2 0 0) (1 # 2)); [reflexivity|]. unfold merge_map. cbn [mfind mset p_name]. rewrite String.eqb_refl, scompare_refl. rewrite PA by exact F. reflexivity. }
    rewrite EL. unfold of_name, comps_of. cbn [map snd filter p_name x]. rewrite String.eqb_refl. cbn. ring.
  - unfold portion, of_name, comps_of. cbn [parts zfind fst snd Z.eqb Pos.eqb map filter pp_comps p_name]. rewrite String.eqb_refl. cbn. lra.
Qed.
Print Assumptions C59_formula_refuted.
(** The area of a mixed surface (area per gram times grams) is not conserved: the area per gram is weighted by area, not by
    mass, so 1 g of 1 m2/g and 1 g of 3 m2/g become 2 g of 2.5 m2/g, 5 m2 instead of 4. *)
Theorem C59_area_refuted : let a := mkSurf [] [mkCh "Hfo" 1 1 0 0 0 []] in let b := mkSurf [] [mkCh "Hfo" 3 1 0 0 0 []] in
  exists c, su_charges (mix_surface [(1%Z, a); (2%Z, b)] [(1%Z, 1); (2%Z, 1)]) = [c] /\ h_area c * h_grams c == 5 /\ ~ 5 == 1 * 1 + 3 * 1.
Proof. cbn zeta. eexists. split; [reflexivity|]. split; [reflexivity|discriminate]. Qed.
Print Assumptions C59_area_refuted.
(** A component of a solid solution that only the later assemblage has keeps its whole starting amount (init_moles), while
    its other amounts are scaled. *)
Theorem C59_init_moles_refuted : forall q, 0 < q ->
  let a := [("Carb", mkSs "Carb" [mkSc "Calcite" 1 1 1 0])] in let b := [("Carb", mkSs "Carb" [mkSc "Siderite" q q q 0])] in
  in_solid c_moles "Carb" "siderite" (mix_ss [(1%Z, a); (2%Z, b)] [(1%Z, 1 # 2); (2%Z, 1 # 2)]) == (1 # 2) * q /\
  in_solid c_init "Carb" "siderite" (mix_ss [(1%Z, a); (2%Z, b)] [(1%Z, 1 # 2); (2%Z, 1 # 2)]) == q /\ ~ q == (1 # 2) * q.
Proof.
  intros q Hq. cbn zeta. split; [change (q * (1 # 2) + 0 + 0 == (1 # 2) * q); ring|]. split; [change (q + 0 + 0 == q); ring|lra].
Qed.
Print Assumptions C59_init_moles_refuted.
(** Gas phases of different types: the mixture is left without any component, although its total of moles counts the
    first. *)
Theorem C59_gas_types_refuted : forall t a b f1 f2, g_type a = t -> g_type b = negb t ->
  g_comps (mix_gas [(1%Z, a); (2%Z, b)] [(1%Z, f1); (2%Z, f2)]) = [] /\ g_total (mix_gas [(1%Z, a); (2%Z, b)] [(1%Z, f1); (2%Z, f2)]) = g_total a * f1.
Proof.
  intros t a b f1 f2 T1 T2. unfold mix_gas. cbn [fold_left]. unfold gas_step at 2 4. cbn [fst snd zfind Z.eqb Pos.eqb]. unfold gas_step. cbn [fst snd zfind Z.eqb Pos.eqb g_type].
  rewrite T1, T2. destruct t; cbn; split; reflexivity.
Qed.
Print Assumptions C59_gas_types_refuted.
