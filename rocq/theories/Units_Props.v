(** Properties of units of concentration: C109 how units are written, C110 which
    units go together, C111 the amounts in a solution. *)
From Coq Require Import String Ascii ZArith QArith Qfield Bool List Lia ZifyBool Lqa.
From Verif Require Import Inp_Model Inp_Spec Inp_Proofs Inp_Props Units_Model Units_Spec Units_Proofs.
Import ListNotations.
Local Open Scope string_scope.
Local Open Scope list_scope.
Local Open Scope Z_scope.

(** * C109 *)

Lemma spelled_heads : forallb (fun x =>
  match head_of replacements (fst x) with
  | Some h => match cut_of h with Some u => String.eqb u (standard (snd x)) && existsb (String.eqb u) units | None => false end
  | None => false
  end) spelled = true.
Proof. vm_compute. reflexivity. Qed.

(** Each spelling of a unit, with any capitals and blanks, is taken for it; text
    after the unit makes no difference if it has no slash and no p and does not
    start with i. *)
Theorem C109_spelling : forall s h u t, In (h, u) spelled -> plain s = (h ++ t)%string ->
  has "/" t = false -> has "p" t = false -> starts "i" t = false ->
  check_units s = Some (standard u).
Proof.
  intros s h u t I' P T1 T2 T3. unfold check_units, rewritten. rewrite plain_is. rewrite P.
  pose proof spelled_heads as F. rewrite forallb_forall in F. specialize (F (h, u) I'). cbn [fst snd] in F.
  destruct (head_of replacements h) as [h'|] eqn:H; [|discriminate F].
  destruct (cut_of h') as [v|] eqn:C; [|discriminate F]. apply andb_true_iff in F. destruct F as [F1 F2].
  destruct (rewrite_head replacements h h' t replacements_good T1 T2 T3 H) as (t' & E & A & B). rewrite E.
  rewrite (cut_head h' t' v A B C), F2. apply String.eqb_eq in F1. rewrite F1. reflexivity.
Qed.
Print Assumptions C109_spelling.

(** Parts per thousand, million and billion are by weight. *)
Theorem C109_parts : forall s u, In (plain s, u) parts -> check_units s = Some (standard u).
Proof.
  intros s u I'. unfold check_units, rewritten. rewrite plain_is.
  assert (K : forallb (fun x => let t := cut (fold_left (fun t r => replace1 (fst r) (snd r) t) replacements (fst x)) in
    existsb (String.eqb t) units && String.eqb t (standard (snd x))) parts = true) by (vm_compute; reflexivity).
  rewrite forallb_forall in K. specialize (K _ I'). cbn [fst snd] in K. cbv zeta in K.
  apply andb_true_iff in K. destruct K as [K1 K2]. cbv zeta. rewrite K1. apply String.eqb_eq in K2. rewrite K2. reflexivity.
Qed.
Print Assumptions C109_parts.

(** What has no slash and no p is refused: each unit says in how much of what. *)
Theorem C109_refused : forall s, has "/" (plain s) = false -> has "p" (plain s) = false -> check_units s = None.
Proof.
  intros s A B. unfold check_units, rewritten. rewrite plain_is.
  assert (G : forall rs t, forallb harmless rs = true -> has "/" t = false -> has "p" t = false ->
    has "/" (fold_left (fun x r => replace1 (fst r) (snd r) x) rs t) = false).
  { induction rs as [|[a b] rs IH]; intros t F T1 T2; [exact T1|]. cbn [forallb] in F. apply andb_true_iff in F. destruct F as [F1 F2].
    cbn [fold_left fst snd]. unfold harmless in F1. cbn [fst snd] in F1. destruct (has "p" a) eqn:PA.
    - rewrite (replace_absent "p") by assumption. apply IH; assumption.
    - cbn [orb] in F1. rewrite negb_true_iff, !orb_false_iff in F1. destruct F1 as [[[H1 H2] H3] H4].
      apply IH; [exact F2 | |]; apply replace_has; assumption. }
  specialize (G replacements (plain s) eq_refl A B).
  set (r := fold_left _ _ _) in *. clearbody r.
  assert (C : cut r = r).
  { unfold cut. rewrite !(upto_absent "/") by (first [exact G | reflexivity]). reflexivity. }
  rewrite C. destruct (existsb (String.eqb r) units) eqn:E; [|reflexivity]. exfalso.
  apply existsb_exists in E. destruct E as (u & IU & E). apply String.eqb_eq in E. subst r.
  assert (K : forallb (has "/") units = true) by reflexivity. rewrite forallb_forall in K. specialize (K u IU). congruence.
Qed.
Print Assumptions C109_refused.

Definition all_units : list unit_ :=
  flat_map (fun a => flat_map (fun b => map (mkUnit a b) [Litre; Solution; Water]) [Moles; Grams; Equivalents]) [One; Milli; Micro].
Lemma units_standard : forallb (fun u => existsb (fun x => String.eqb u (standard x)) all_units) units = true.
Proof. vm_compute. reflexivity. Qed.
Lemma units_same : forallb (fun u => match check_units u with Some v => String.eqb v u | None => false end) units = true.
Proof. vm_compute. reflexivity. Qed.

Lemma listed : forall r t, (if existsb (String.eqb r) units then Some r else None) = Some t -> In t units.
Proof.
  intros r t H. destruct (existsb (String.eqb r) units) eqn:E; [|discriminate H]. assert (R : r = t) by congruence.
  apply existsb_exists in E. destruct E as (u & IU & E). apply String.eqb_eq in E. rewrite <- R, E. exact IU.
Qed.
Lemma check_eq : forall s, check_units s = (fun r => if existsb (String.eqb r) units then Some r else None) (cut (rewritten s)).
Proof. intros s. unfold check_units. reflexivity. Qed.
Lemma accepted : forall s t, check_units s = Some t -> In t units.
Proof. intros s t H. rewrite check_eq in H. exact (listed _ _ H). Qed.
Lemma listed_same : forall u, In u units -> check_units u = Some u.
Proof.
  intros u IU. pose proof units_same as K. rewrite forallb_forall in K. specialize (K u IU).
  destruct (check_units u) as [v|]; [|discriminate K]. apply String.eqb_eq in K. rewrite K. reflexivity.
Qed.
Lemma listed_standard : forall u, In u units -> exists x, u = standard x.
Proof.
  intros u IU. pose proof units_standard as K. rewrite forallb_forall in K. specialize (K u IU). apply existsb_exists in K.
  destruct K as (x & _ & K). apply String.eqb_eq in K. exists x. exact K.
Qed.

(** What is accepted has one of the 27 standard forms, and a standard form
    stands for itself. *)
Theorem C109_standard : forall s t, check_units s = Some t ->
  (exists u, t = standard u) /\ check_units t = Some t.
Proof.
  intros s t H. apply accepted in H. split; [apply listed_standard, H | apply listed_same, H].
Qed.
Print Assumptions C109_standard.

(** Units that only begin like one are not refused: mg/lb (per pound) is taken
    for mg/l, and ug/kgsoil for micrograms per kilogram of solution. *)
Theorem C109_longer_refuted : forall s t, has "/" t = false -> has "p" t = false -> starts "i" t = false ->
  (plain s = ("mg/lb" ++ t)%string -> check_units s = Some (standard (mkUnit Milli Grams Litre))) /\
  (plain s = ("ug/kgsoil" ++ t)%string -> check_units s = Some (standard (mkUnit Micro Grams Solution))).
Proof.
  intros s t T1 T2 T3. split; intros P.
  - refine (C109_spelling s "mg/l" _ ("b" ++ t) _ P T1 T2 eq_refl). apply (nth_error_In spelled 65). reflexivity.
  - refine (C109_spelling s "ug/kgs" _ ("oil" ++ t) _ P T1 T2 eq_refl). apply (nth_error_In spelled 167). reflexivity.
Qed.
Print Assumptions C109_longer_refuted.

Example C109_case :
  map check_units ["mg/L"; "MilliMoles / Liter"; "ppm"; "Mol/kgwater"; "ueq/kgs"; "umol/kgH2O"; "mol"; "mg/kg"; "mg/lb"]
  = [Some "mg/l"; Some "mMol/l"; Some "mg/kgs"; Some "Mol/kgw"; Some "ueq/kgs"; Some "uMol/kgw"; None; None; Some "mg/l"] /\
  In ("millimoles/liter", mkUnit Milli Moles Litre) spelled /\ plain "MilliMoles / Liter" = ("millimoles/liter" ++ "")%string /\
  plain "mg/lb" = ("mg/lb" ++ "")%string /\ In (plain "P P M", mkUnit Milli Grams Solution) parts.
Proof.
  split; [vm_compute; reflexivity|]. split; [apply (nth_error_In spelled 111); reflexivity|]. split; [reflexivity|]. split; [reflexivity|].
  right. left. reflexivity.
Qed.

(** * C110 *)

(** Units that are given with an element are accepted exactly if they are per the
    same quantity as those of the solution, and equivalents only for alkalinity.
    Moles of alkalinity are read as equivalents. *)
Theorem C110_compatible : forall alk u d s, check_units s = Some (standard u) ->
  element_units (standard d) alk (Some s) =
    if match per_of u, per_of d with Litre, Litre | Solution, Solution | Water, Water => true | _, _ => false end
       && (alk || match counted_of u with Equivalents => false | _ => true end)
    then Some (standard (mkUnit (scale_of u) (if alk then match counted_of u with Moles => Equivalents | x => x end else counted_of u) (per_of u)))
    else None.
Proof.
  intros alk u d s C. unfold element_units. rewrite C. destruct u as [[] [] []], d as [[] [] []], alk; reflexivity.
Qed.
Print Assumptions C110_compatible.

(** Units without an own one are those of the solution, and those are not
    checked: a solution in equivalents gives every element in equivalents, which
    is refused when it is written with the element. *)
Theorem C110_default_refuted : forall d s, check_units s = Some (standard d) -> counted_of d = Equivalents ->
  solution_units s = Some (standard d) /\ element_units (standard d) false None = Some (standard d) /\
  element_units (standard d) false (Some s) = None.
Proof.
  intros d s C E. split; [exact C|]. split; [reflexivity|]. rewrite (C110_compatible false d d s C), E. cbn [orb].
  rewrite andb_false_r. reflexivity.
Qed.
Print Assumptions C110_default_refuted.

Example C110_case :
  check_units "meq/L" = Some (standard (mkUnit Milli Equivalents Litre)) /\
  element_units "mMol/l" false (Some "mg/L") = Some "mg/l" /\ element_units "mMol/l" false (Some "mg/kgw") = None /\
  element_units "mMol/l" true (Some "mmol/l") = Some "meq/l" /\ element_units "mMol/l" false (Some "meq/l") = None.
Proof. vm_compute. repeat split. Qed.

(** * C111 *)

(** In a solution given per kilogram or per litre of solution, the amounts are
    those of a solution with the given concentrations: there is a mass of
    solution, made up of the water and of all the solutes, in which each element
    has its concentration by mass, or by volume with the given density. Without
    such a solution there is an error. *)
Theorem C111_solution : forall w d density water hoh old xs, per_of d <> Water -> (0 < density)%Q -> (0 < water)%Q ->
  Forall (means w) xs -> Forall (fun x => per_of (in_units x) = per_of d) xs -> NoDup (map (fun x => name (element x)) xs) ->
  (forall x, In x xs -> per_of d = Solution -> counted_of (in_units x) <> Equivalents) ->
  let r := convert w (standard d) density water hoh None old (map element xs) in
  (snd r = 0 -> exists mass, (0 < mass)%Q /\
     (1000 * mass == 1000 * water + total (fun x => amount (fst r) (name (element x)) * weighs x) xs + hoh * mass)%Q /\
     forall x, In x xs -> (has_amount (fst r) x == wanted x * match per_of d with Litre => mass / density | _ => mass end)%Q) /\
  (snd r <> 0 -> forall mass, (0 < mass)%Q -> forall amounts : meant -> Q,
     ~ ((1000 * mass == 1000 * water + total (fun x => amounts x * weighs x) xs + hoh * mass)%Q /\
        forall x, In x xs -> (match counted_of (in_units x) with Grams => amounts x * weighs x | _ => amounts x end ==
                              wanted x * match per_of d with Litre => mass / density | _ => mass end)%Q)).
Proof.
  intros w d density water hoh old xs ND DP WP F P N NE r.
  destruct (all_meant w d density xs old hoh 0 F N) as (t & s & E & S' & I1 & _).
  subst r. unfold convert. rewrite E, has_kgs, has_litre.
  assert (PL : (match per_of d with Solution => true | _ => false end || match per_of d with Litre => true | _ => false end)%bool = true)
    by (destruct (per_of d); [reflexivity | reflexivity | congruence]).
  rewrite PL. set (f := (1 - (1 # 1000) * s)%Q).
  set (k := match per_of d with Litre => (1 / density)%Q | _ => 1%Q end).
  assert (HX : forall x, In x xs -> (here d density x == wanted x * k)%Q).
  { intros x IX. unfold here, k. apply (scaled_is d density x w). rewrite Forall_forall in F. apply F, IX. }
  assert (GX : forall x, In x xs -> (grams_here d density x == match counted_of (in_units x) with Grams => here d density x | _ => here d density x * weighs x end)%Q).
  { intros x IX. unfold grams_here, counted_grams. rewrite Forall_forall in P. rewrite (P x IX). specialize (NE x IX).
    destruct (per_of d), (counted_of (in_units x)); try reflexivity; try congruence. exfalso. apply NE; reflexivity. }
  assert (MX : forall x, In x xs -> (moles_here d density x == match counted_of (in_units x) with Grams => here d density x / weighs x | _ => here d density x end)%Q).
  { intros x IX. unfold moles_here, in_moles. rewrite has_grams. unfold grams_unit. rewrite Forall_forall in F.
    destruct (F x IX) as (_ & _ & G & _).
    assert (Q0 : Qeq_bool (weighs x) 0 = false).
    { destruct (Qeq_bool (weighs x) 0) eqn:EQ; [|reflexivity]. apply Qeq_bool_iff in EQ. rewrite EQ in G. lra. }
    rewrite Q0. destruct (counted_of (in_units x)); reflexivity. }
  assert (WG : forall x, In x xs -> (0 < weighs x)%Q).
  { intros x IX. rewrite Forall_forall in F. apply (F x IX). }
  assert (KD : forall m : Q, (match per_of d with Litre => m / density | _ => m end == m * k)%Q).
  { intros m. unfold k. destruct (per_of d); field; lra. }
  cbn [fst snd]. destruct (Qle_bool f 0) eqn:QF.
  - split; [intros X; discriminate X|]. intros _ mass MP am [B C]. apply Qle_bool_iff in QF.
    assert (T : (total (fun x => am x * weighs x) xs == total (grams_here d density) xs * mass)%Q).
    { rewrite <- total_mul. apply total_ext. intros x IX. rewrite (GX x IX). specialize (C x IX). rewrite KD in C.
      destruct (counted_of (in_units x)).
      - rewrite C, (HX x IX). ring.
      - rewrite C, (HX x IX). ring.
      - rewrite C, (HX x IX). ring. }
    rewrite T in B. unfold f in QF. rewrite S' in QF. nra.
  - split; [|intros X; exfalso; apply X; reflexivity]. intros _.
    assert (FP : (0 < f)%Q).
    { destruct (Qlt_le_dec 0 f) as [L | L]; [exact L|]. apply Qle_bool_iff in L. congruence. }
    assert (AM : forall x, In x xs -> (amount (fun n => option_map (fun y => y * water)%Q (option_map (fun y => y / f)%Q (t n))) (name (element x)) == moles_here d density x / f * water)%Q).
    { intros x IX. unfold amount. rewrite (I1 x IX). reflexivity. }
    exists (water / f)%Q. split; [|split].
    + apply Qlt_shift_div_l; [exact FP|]. lra.
    + assert (T : (total (fun x => amount (fun n => option_map (fun y => y * water)%Q (option_map (fun y => y / f)%Q (t n))) (name (element x)) * weighs x) xs
                  == total (grams_here d density) xs * (water / f))%Q).
      { rewrite <- total_mul. apply total_ext. intros x IX. rewrite (AM x IX), (GX x IX), (MX x IX). specialize (WG x IX).
        destruct (counted_of (in_units x)); field; try (split; intros Z0; rewrite Z0 in *; lra); intros Z0; rewrite Z0 in *; lra. }
      rewrite T. assert (SF : (total (grams_here d density) xs == 1000 * (1 - f) - hoh)%Q) by (unfold f; rewrite S'; ring).
      rewrite SF. field. intros Z0. rewrite Z0 in FP. lra.
    + intros x IX. rewrite KD. unfold has_amount. specialize (WG x IX). specialize (AM x IX). pose proof (MX x IX) as M1. pose proof (HX x IX) as H1.
      destruct (counted_of (in_units x)); rewrite AM, M1, H1; field; try (split; intros Z0; rewrite Z0 in *; lra); intros Z0; rewrite Z0 in *; lra.
Qed.
Print Assumptions C111_solution.

(** Concentrations per kilogram of water give the amounts in the water there
    is. *)
Theorem C111_water : forall w d density water hoh iterated old xs, per_of d = Water ->
  Forall (means w) xs -> NoDup (map (fun x => name (element x)) xs) ->
  let r := convert w (standard d) density water hoh iterated old (map element xs) in
  snd r = 0 /\ forall x, In x xs -> (has_amount (fst r) x == wanted x * water)%Q.
Proof.
  intros w d density water hoh iterated old xs D F N r.
  destruct (all_meant w d density xs old hoh 0 F N) as (t & s & E & S' & I1 & _).
  subst r. unfold convert. rewrite E, has_kgs, has_litre, D. cbn [orb fst snd]. split; [reflexivity|].
  intros x IX. rewrite Forall_forall in F. destruct (F x IX) as (U & W & G & R).
  assert (HX : (here d density x == wanted x)%Q).
  { unfold here. rewrite (scaled_is d density x w) by (apply F, IX). rewrite D. ring. }
  unfold has_amount, amount. rewrite (I1 x IX). cbn [option_map]. unfold moles_here, in_moles. rewrite has_grams. unfold grams_unit.
  assert (Q0 : Qeq_bool (weighs x) 0 = false).
  { destruct (Qeq_bool (weighs x) 0) eqn:EQ; [|reflexivity]. apply Qeq_bool_iff in EQ. rewrite EQ in G. lra. }
  rewrite Q0. cbn [negb]. destruct (counted_of (in_units x)); cbn [andb]; rewrite HX; try ring.
  field. intros Z0. rewrite Z0 in G. lra.
Qed.
Print Assumptions C111_water.

(** In the later turns of the search for the density, the mass of solution is
    that of the turn before. *)
Theorem C111_iterated : forall w d density water hoh fraction old xs, per_of d <> Water -> (0 < fraction)%Q ->
  ~ (density == 0)%Q ->
  Forall (means w) xs -> NoDup (map (fun x => name (element x)) xs) ->
  let r := convert w (standard d) density water hoh (Some fraction) old (map element xs) in
  snd r = 0 /\ forall x, In x xs ->
    (has_amount (fst r) x == wanted x * match per_of d with Litre => water / fraction / density | _ => water / fraction end)%Q.
Proof.
  intros w d density water hoh fraction old xs D FP DN F N r.
  destruct (all_meant w d density xs old hoh 0 F N) as (t & s & E & S' & I1 & _).
  subst r. unfold convert. rewrite E, has_kgs, has_litre.
  assert (PL : (match per_of d with Solution => true | _ => false end || match per_of d with Litre => true | _ => false end)%bool = true)
    by (destruct (per_of d); [reflexivity | reflexivity | congruence]).
  rewrite PL. cbn [fst snd].
  assert (QF : Qle_bool fraction 0 = false).
  { destruct (Qle_bool fraction 0) eqn:EQ; [|reflexivity]. apply Qle_bool_iff in EQ. lra. }
  rewrite QF. split; [reflexivity|].
  intros x IX. rewrite Forall_forall in F. destruct (F x IX) as (U & W & G & R).
  pose proof (scaled_is d density x w (F x IX)) as HX. fold (here d density x) in HX.
  unfold has_amount, amount. rewrite (I1 x IX). cbn [option_map]. unfold moles_here, in_moles. rewrite has_grams. unfold grams_unit.
  assert (Q0 : Qeq_bool (weighs x) 0 = false).
  { destruct (Qeq_bool (weighs x) 0) eqn:EQ; [|reflexivity]. apply Qeq_bool_iff in EQ. rewrite EQ in G. lra. }
  assert (NG : ~ (weighs x == 0)%Q) by (intros Z0; rewrite Z0 in G; lra).
  assert (NF : ~ (fraction == 0)%Q) by (intros Z0; rewrite Z0 in FP; lra).
  rewrite Q0. cbn [negb]. destruct (counted_of (in_units x)), (per_of d); cbn [andb]; rewrite HX; field; auto.
Qed.
Print Assumptions C111_iterated.

(** An element with an unknown weight is reported. *)
Theorem C111_reported : forall w d density water hoh iterated old cs c, In c cs ->
  (0 < conc c)%Q -> minor w (name c) = false -> name c <> "H(1)" -> name c <> "E" -> unknown w c ->
  0 < snd (convert w d density water hoh iterated old cs).
Proof.
  intros w d density water hoh iterated old cs c IN C M N1 N2 U. unfold convert.
  assert (GE : forall cs t s e, e <= snd (fold_left (one_comp w d density) cs (t, s, e))).
  { clear. induction cs as [|c cs IH]; intros t s e; [cbn; lia|]. cbn [fold_left]. unfold one_comp at 2.
    destruct (minor w (name c)); [apply IH|].
    destruct (String.eqb (name c) "H(1)" || String.eqb (name c) "E" || Qle_bool (conc c) 0); [apply IH|].
    pose proof (weight_errors w c) as WE. destruct (weight w c) as [[g|] n]; cbn [snd] in WE;
      (eapply Z.le_trans; [|apply IH]); lia. }
  assert (GT : forall t s e, e < snd (fold_left (one_comp w d density) cs (t, s, e))).
  { induction cs as [|x cs IH]; intros t s e; [destruct IN|]. cbn [fold_left]. destruct IN as [-> | IN].
    - unfold one_comp at 2. rewrite M.
      replace (String.eqb (name c) "H(1)" || String.eqb (name c) "E" || Qle_bool (conc c) 0) with false.
      + pose proof (unknown_weight w c U) as WE. destruct (weight w c) as [[g|] n]; cbn [snd] in WE; subst n;
          (eapply Z.lt_le_trans; [|apply GE]); lia.
      + symmetry. apply String.eqb_neq in N1, N2. rewrite N1, N2.
        destruct (Qle_bool (conc c) 0) eqn:L; [|reflexivity]. apply Qle_bool_iff in L. lra.
    - unfold one_comp at 2. destruct (minor w (name x)); [apply IH, IN|].
      destruct (String.eqb (name x) "H(1)" || String.eqb (name x) "E" || Qle_bool (conc x) 0); [apply IH, IN|].
      pose proof (weight_errors w x) as WE. destruct (weight w x) as [[g|] n]; cbn [snd] in WE;
        (eapply Z.le_lt_trans; [|apply IH, IN]); lia. }
  specialize (GT old hoh 0). destruct (fold_left (one_comp w d density) cs (old, hoh, 0)) as [[t s] e]. cbn [snd] in GT.
  destruct (contains "kgs" d || contains "/l" d); cbn [snd]; [|exact GT].
  destruct (Qle_bool match iterated with Some x => x | None => (1 - (1 # 1000) * s)%Q end 0); lia.
Qed.
Print Assumptions C111_reported.

(** Minor isotopes are left to others: they change nothing. *)
Theorem C111_isotopes : forall w d density water hoh iterated old cs,
  convert w d density water hoh iterated old cs =
  convert w d density water hoh iterated old (filter (fun c => negb (minor w (name c))) cs).
Proof.
  intros w d density water hoh iterated old cs. unfold convert.
  assert (E : forall a, fold_left (one_comp w d density) cs a =
    fold_left (one_comp w d density) (filter (fun c => negb (minor w (name c))) cs) a); [|rewrite E; reflexivity].
  induction cs as [|c cs IH]; intros a; [reflexivity|]. cbn [fold_left filter].
  destruct (minor w (name c)) eqn:M; cbn [negb]; [|cbn [fold_left]; apply IH].
  rewrite <- IH. destruct a as [[t s] e]. unfold one_comp at 2. rewrite M. reflexivity.
Qed.
Print Assumptions C111_isotopes.

(** Alkalinity in equivalents per kilogram of solution is left out of the mass
    of the solution: there is then no mass of solution, made up of the water and
    the solute, that has the concentration. *)
Theorem C111_equivalents_refuted : forall w d density water hoh old x, per_of d = Solution -> (0 < water)%Q ->
  means w x -> per_of (in_units x) = Solution -> counted_of (in_units x) = Equivalents ->
  let r := convert w (standard d) density water hoh None old [element x] in
  snd r = 0 -> ~ exists mass, (0 < mass)%Q /\
     (1000 * mass == 1000 * water + amount (fst r) (name (element x)) * weighs x + hoh * mass)%Q /\
     (has_amount (fst r) x == wanted x * mass)%Q.
Proof.
  intros w d density water hoh old x D WP M P C r SN (mass & MP & B & A).
  assert (N1 : NoDup (map (fun x => name (element x)) [x])) by (repeat constructor; intros []).
  destruct (all_meant w d density [x] old hoh 0 (Forall_cons _ M (Forall_nil _)) N1) as (t & s & E & S' & I1 & _).
  subst r. cbn [map] in E. unfold convert in *. rewrite E, has_kgs, has_litre, D in *. cbn [orb fst snd] in *.
  set (f := (1 - (1 # 1000) * s)%Q) in *. destruct (Qle_bool f 0) eqn:QF; [discriminate SN|].
  assert (FP : (0 < f)%Q).
  { destruct (Qlt_le_dec 0 f) as [L | L]; [exact L|]. apply Qle_bool_iff in L. congruence. }
  assert (SH : (s == hoh)%Q).
  { rewrite S'. cbn [total fold_right]. unfold grams_here, counted_grams. rewrite P, C. ring. }
  pose proof (scaled_is d density x w M) as HX. fold (here d density x) in HX. rewrite D in HX.
  unfold has_amount in A. rewrite C in A. unfold amount in A, B. rewrite (I1 x (or_introl eq_refl)) in A, B. cbn [option_map] in A, B.
  unfold moles_here, in_moles in A, B. rewrite has_grams in A, B. unfold grams_unit in A, B. rewrite C in A, B. cbn [andb] in A, B.
  rewrite HX in A, B. destruct M as (_ & _ & G & CO & _).
  assert (WT : (0 < wanted x)%Q).
  { unfold wanted. assert (0 < times (scale_of (in_units x)))%Q by (destruct (scale_of (in_units x)); reflexivity). nra. }
  assert (NF : ~ (f == 0)%Q) by (intros Z0; rewrite Z0 in FP; lra).
  assert (MF : (mass == water / f)%Q).
  { apply (Qmult_inj_l _ _ (wanted x)); [intros Z0; rewrite Z0 in WT; lra|]. rewrite <- A. field. exact NF. }
  rewrite MF in B. assert (FS : (hoh == 1000 * (1 - f))%Q) by (unfold f; rewrite SH; ring). rewrite FS in B.
  assert (B2 : (wanted x * water * weighs x == 0)%Q).
  { assert (B3 : (1000 * (water / f) * f == (1000 * water + wanted x * 1 / f * water * weighs x + 1000 * (1 - f) * (water / f)) * f)%Q) by (rewrite B; reflexivity).
    assert (B4 : (1000 * (water / f) * f == 1000 * water)%Q) by (field; exact NF).
    assert (B5 : ((1000 * water + wanted x * 1 / f * water * weighs x + 1000 * (1 - f) * (water / f)) * f == 1000 * water + wanted x * water * weighs x)%Q) by (field; exact NF).
    rewrite B4, B5 in B3. lra. }
  assert (0 < wanted x * water)%Q by nra. assert (0 < wanted x * water * weighs x)%Q by nra. lra.
Qed.
Print Assumptions C111_equivalents_refuted.

(** An element in the equivalents of its solution gets as many moles: with
    calcium in meq/l there is twice as much of it as was meant. *)
Theorem C111_default_refuted : forall w a p density water hoh iterated old n c g f x,
  let u := standard (mkUnit a Equivalents p) in let v := standard (mkUnit a Moles p) in p <> Solution ->
  let r := convert w u density water hoh iterated old [mkComp n c u g f] in
  let r' := convert w v density water hoh iterated old [mkComp n c v g f] in
  snd r = snd r' /\ (fst r x = fst r' x).
Proof.
  intros w a p density water hoh iterated old n c g f x u v P r r'. subst r r' u v. unfold convert.
  cbn [fold_left]. unfold one_comp. cbn [name cunits conc].
  assert (WE : forall q, weight w (mkComp n c q g f) = weight w (mkComp n c "" g f)) by reflexivity.
  rewrite (WE (standard (mkUnit a Equivalents p))), (WE (standard (mkUnit a Moles p))), !has_litre, !has_kgs. cbn [per_of].
  destruct (minor w n); [destruct p; split; reflexivity|].
  destruct (String.eqb n "H(1)" || String.eqb n "E" || Qle_bool c 0); [destruct p; split; reflexivity|].
  destruct (weight w (mkComp n c "" g f)) as [[y|] e]; [|destruct p; split; reflexivity].
  destruct p, a; try congruence; split; reflexivity.
Qed.
Print Assumptions C111_default_refuted.

(** A negative concentration is not reported: the element is just missing. *)
Theorem C111_negative_refuted : forall w d density water hoh iterated old c, (conc c <= 0)%Q -> minor w (name c) = false ->
  let r := convert w d density water hoh iterated old [c] in
  (amount (fst r) (name c) == 0)%Q /\ (contains "kgs" d || contains "/l" d = false -> snd r = 0).
Proof.
  intros w d density water hoh iterated old c C M. unfold convert. cbn [fold_left]. unfold one_comp. rewrite M.
  apply Qle_bool_iff in C. rewrite C, orb_true_r.
  destruct (contains "kgs" d || contains "/l" d); cbn [fst snd]; unfold amount, put; rewrite String.eqb_refl; cbn [option_map].
  - split; [unfold Qdiv; ring|]. intros X. discriminate X.
  - split; [ring|]. reflexivity.
Qed.
Print Assumptions C111_negative_refuted.

Definition some_weights : weights :=
  mkW (fun f => if String.eqb f "CaCO3" then Some 100%Q else None) (fun m => if String.eqb m "Na" then Some 23%Q else Some 50%Q) (fun _ => false).
Definition some_elements : list meant :=
  [mkMeant (mkComp "Alkalinity" 200 "mg/l" 0 (Some "CaCO3")) (mkUnit Milli Grams Litre) (100 / 2);
   mkMeant (mkComp "Na" 46 "g/l" 0 None) (mkUnit One Grams Litre) 23;
   mkMeant (mkComp "Cl" 2 "Mol/l" (71 # 2) None) (mkUnit One Moles Litre) (71 # 2)].
Example C111_case :
  Forall (means some_weights) some_elements /\ NoDup (map (fun x => name (element x)) some_elements) /\
  (let r := convert some_weights "mMol/l" (11 # 10) 1 0 None (fun _ => None) (map element some_elements) in
   snd r = 0 /\ map (fun x => Qred (amount (fst r) (name (element x)))) some_elements = [10 # 2457; 5000 # 2457; 5000 # 2457]%Q) /\
  snd (convert some_weights "mMol/l" 1 1 0 None (fun _ => None) [mkComp "Na" 1000 "g/l" 0 None]) = 1 /\
  means some_weights (mkMeant (mkComp "Alkalinity" 2 "meq/kgs" 50 None) (mkUnit Milli Equivalents Solution) 50).
Proof.
  split; [|split; [|split; [vm_compute; split; reflexivity | split; [reflexivity|]]]].
  - apply Forall_cons; [|apply Forall_cons; [|apply Forall_cons; [|apply Forall_nil]]];
      (split; [reflexivity|]; split; [|repeat split; try discriminate]).
    + apply (Calcite some_weights (mkComp "Alkalinity" 200 "mg/l" 0 (Some "CaCO3")) 100); try reflexivity; discriminate.
    + apply (Element some_weights (mkComp "Na" 46 "g/l" 0 None) 23); try reflexivity; discriminate.
    + apply (Given some_weights (mkComp "Cl" 2 "Mol/l" (71 # 2) None)). reflexivity.
  - repeat constructor; cbn; intuition discriminate.
  - split; [reflexivity|]. split; [|repeat split; try discriminate].
    apply (Given some_weights (mkComp "Alkalinity" 2 "meq/kgs" 50 None)). reflexivity.
Qed.

(** A formula and an element that are not known. *)
Example C111_reported_case :
  unknown some_weights (mkComp "S(6)" 2 "mg/l" 0 (Some "SOx")) /\
  unknown (mkW (fun _ => None) (fun _ => None) (fun _ => false)) (mkComp "Xx" 2 "mg/l" 0 None) /\
  known some_weights (mkComp "Alkalinity" 2 "mg/l" 0 (Some "CaCO3")) (100 / 2).
Proof.
  split; [|split].
  - apply (No_formula _ _ "SOx"); try reflexivity; discriminate.
  - apply No_element; try reflexivity; discriminate.
  - apply Calcite; try reflexivity; discriminate.
Qed.
