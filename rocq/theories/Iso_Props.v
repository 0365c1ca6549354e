(** Properties of isotopes in evaporation (C114) and of humidity
    (C115). *)
From Coq Require Import String ZArith QArith Qabs Qround Qfield Bool List Lia ZifyBool Lqa.
From Verif Require Import Iso_Model Iso_Spec.
Import ListNotations.
Local Open Scope string_scope.
Local Open Scope list_scope.

(** * C114 *)

Lemma qle_false : forall a b, Qle_bool a b = false <-> (b < a)%Q.
Proof.
  intros a b. split.
  - intros H. destruct (Qlt_le_dec b a) as [L | L]; [exact L|]. apply Qle_bool_iff in L. congruence.
  - intros H. destruct (Qle_bool a b) eqn:E; [|reflexivity]. apply Qle_bool_iff in E. lra.
Qed.
Lemma known_bool : forall x, known_isotope x -> (String.eqb (iname x) "D" || String.eqb (iname x) "[18O]")%bool = true.
Proof. intros x [-> | ->]; reflexivity. Qed.

Lemma frac_of : forall ph evap vol, ph <> Transp -> (0 < vol)%Q -> (evap <= almost_one * vol)%Q -> (evap_frac ph evap vol == evap / vol)%Q.
Proof.
  intros ph evap vol P V L. unfold evap_frac.
  assert (D : (evap / vol <= almost_one)%Q) by (apply Qle_shift_div_r; assumption).
  destruct ph; try congruence.
  - replace (Qle_bool (1 # 10000) (Qabs (1 - evap / vol))) with true; [reflexivity|].
    symmetry. apply Qle_bool_iff. rewrite Qabs_pos; unfold almost_one in D; lra.
  - replace (Qle_bool (1 # 10000) (Qabs (1 - evap / vol))) with true; [reflexivity|].
    symmetry. apply Qle_bool_iff. rewrite Qabs_pos; unfold almost_one in D; lra.
Qed.

Lemma each_known : forall pw ph f ison isoth isofac rh evap xs, Forall known_isotope xs ->
  each_isotope pw ph f ison isoth isofac rh evap xs =
  (map (fun x => Delta (iname x) (fst (deltas pw ph f ison isoth isofac rh x))) xs,
   map (fun x => (fst (deltas pw ph f ison isoth isofac rh x) * evap)%Q) xs, true).
Proof.
  intros pw ph f ison isoth isofac rh evap xs F. induction F as [|x xs K F IH]; [reflexivity|].
  cbn [each_isotope map]. rewrite known_bool, IH by assumption. reflexivity.
Qed.

(** Evaporation and sublimation: solution 1 is given, for each isotope, the
    delta that leaves a rest after the law of Rayleigh, with nothing made or
    lost. *)
Theorem C114_rayleigh : forall pw moles ph evap vol ison isoth isofac rh temp xs,
  ph <> Transp -> (0 < evap)%Q -> (0 < vol)%Q -> (evap < almost_one * vol)%Q -> Forall known_isotope xs ->
  (forall a b c, (a == b)%Q -> pw a c = pw b c) ->
  exists evaporated, length evaporated = length xs /\
    fst (fst (fst (fractionate pw moles ph evap vol ison isoth isofac rh temp xs))) = 0%Z /\
    snd (fst (fst (fractionate pw moles ph evap vol ison isoth isofac rh temp xs))) =
      Solution1 :: map (fun xe => Delta (iname (fst xe)) (snd xe)) (combine xs evaporated) ++ [Temp temp; Ph7] /\
    forall x e, In (x, e) (combine xs evaporated) -> exists rest,
      rayleigh (pw (1 - evap / vol)%Q (exponent (log_alpha ph x) ison isoth isofac rh (largest x))) evap vol (delta x) e rest.
Proof.
  intros pw moles ph evap vol ison isoth isofac rh temp xs P E V L F PW.
  set (f := evap_frac ph evap vol).
  exists (map (fun x => fst (deltas pw ph f ison isoth isofac rh x)) xs).
  assert (FE : (f == evap / vol)%Q) by (apply frac_of; try assumption; lra).
  assert (NV : ~ (vol == 0)%Q) by lra. assert (NE : ~ (evap == 0)%Q) by lra.
  assert (FL : (f < almost_one)%Q) by (rewrite FE; apply Qlt_shift_div_r; assumption).
  split; [apply map_length|]. unfold fractionate. fold f. rewrite each_known by assumption. cbn [fst snd].
  split; [reflexivity|]. split.
  - f_equal. f_equal. clear. induction xs as [|x xs IH]; [reflexivity|]. cbn. rewrite IH. reflexivity.
  - intros x e I1.
    assert (X : e = fst (deltas pw ph f ison isoth isofac rh x)).
    { clear - I1. induction xs as [|y xs IH]; [destruct I1|]. cbn in I1. destruct I1 as [I1 | I1]; [congruence | apply IH, I1]. }
    subst e. unfold deltas.
    replace (negb (Qle_bool almost_one f) && match ph with Transp => false | _ => true end)%bool with true.
    2:{ symmetry. apply andb_true_iff. split; [apply negb_true_iff, qle_false, FL | destruct ph; [reflexivity..|congruence]]. }
    cbn [fst]. fold (log_alpha ph x).
    replace (isofac * (ln_10 * log_alpha ph x + (1 - rh) * ison * isoth * largest x))%Q
      with (exponent (log_alpha ph x) ison isoth isofac rh (largest x)) by reflexivity.
    rewrite (PW (1 - f)%Q (1 - evap / vol)%Q) by (rewrite FE; reflexivity).
    set (k := pw (1 - evap / vol)%Q (exponent (log_alpha ph x) ison isoth isofac rh (largest x))).
    exists ((delta x + 1000) * k - 1000)%Q. split; [ring|]. rewrite FE. field. split; assumption.
Qed.
Print Assumptions C114_rayleigh.

(** When light water evaporates more easily (the exponent is not positive), the
    evaporated water is not heavier than the water was. *)
Theorem C114_lighter : forall pw ph evap vol ison isoth isofac rh x, power_law pw ->
  ph <> Transp -> (0 < evap)%Q -> (0 < vol)%Q -> (evap < almost_one * vol)%Q ->
  (exponent (log_alpha ph x) ison isoth isofac rh (largest x) <= 0)%Q -> (-(1000) <= delta x)%Q ->
  (fst (deltas pw ph (evap_frac ph evap vol) ison isoth isofac rh x) <= delta x)%Q /\
  (delta x <= snd (deltas pw ph (evap_frac ph evap vol) ison isoth isofac rh x))%Q.
Proof.
  intros pw ph evap vol ison isoth isofac rh x PL P E V L EX D.
  set (f := evap_frac ph evap vol).
  assert (FE : (f == evap / vol)%Q) by (apply frac_of; try assumption; lra).
  assert (FL : (f < almost_one)%Q) by (rewrite FE; apply Qlt_shift_div_r; assumption).
  assert (FP : (0 < f)%Q) by (rewrite FE; apply Qlt_shift_div_l; lra).
  unfold deltas.
  replace (negb (Qle_bool almost_one f) && match ph with Transp => false | _ => true end)%bool with true.
  2:{ symmetry. apply andb_true_iff. split; [apply negb_true_iff, qle_false, FL | destruct ph; [reflexivity..|congruence]]. }
  cbn [fst snd]. fold (log_alpha ph x).
  change (isofac * (ln_10 * log_alpha ph x + (1 - rh) * ison * isoth * largest x))%Q
    with (exponent (log_alpha ph x) ison isoth isofac rh (largest x)).
  set (k := pw (1 - f)%Q _). assert (K : (1 <= k)%Q) by (apply PL; unfold almost_one in FL; lra).
  set (d0 := (delta x / 1000)%Q). assert (D0 : (delta x == d0 * 1000)%Q) by (unfold d0; field).
  assert (D1 : (0 <= d0 + 1)%Q) by lra.
  assert (R : (d0 <= (d0 + 1) * k - 1)%Q) by nra.
  set (rest := ((d0 + 1) * k - 1)%Q) in *. split; [|lra].
  rewrite D0. apply Qmult_le_compat_r; [|lra]. apply Qle_shift_div_r; [exact FP|].
  unfold almost_one in FL. nra.
Qed.
Print Assumptions C114_lighter.

(** Transpiration, and evaporation of all the water, take it as it is. *)
Theorem C114_unchanged : forall pw moles ph evap vol ison isoth isofac rh temp xs,
  ph = Transp \/ ((0 < vol)%Q /\ (almost_one * vol <= evap)%Q) -> Forall known_isotope xs ->
  exists evaporated,
    snd (fst (fst (fractionate pw moles ph evap vol ison isoth isofac rh temp xs))) =
      Solution1 :: map (fun xe => Delta (iname (fst xe)) (snd xe)) (combine xs evaporated) ++ [Temp temp; Ph7] /\
    Forall2 (fun x e => (e == delta x)%Q) xs evaporated.
Proof.
  intros pw moles ph evap vol ison isoth isofac rh temp xs H F.
  set (f := evap_frac ph evap vol). exists (map (fun x => fst (deltas pw ph f ison isoth isofac rh x)) xs).
  unfold fractionate. fold f. rewrite each_known by assumption. cbn [fst snd]. split.
  - f_equal. f_equal. clear. induction xs as [|x xs IH]; [reflexivity|]. cbn. rewrite IH. reflexivity.
  - assert (G : forall x, (fst (deltas pw ph f ison isoth isofac rh x) == delta x)%Q).
    { intros x. unfold deltas.
      replace (negb (Qle_bool almost_one f) && match ph with Transp => false | _ => true end)%bool with false.
      - cbn [fst]. field.
      - symmetry. apply andb_false_iff. destruct H as [-> | (V & H)]; [right; reflexivity|].
        left. apply negb_false_iff, Qle_bool_iff. subst f. unfold evap_frac.
        assert (D : (almost_one <= evap / vol)%Q) by (apply Qle_shift_div_l; assumption).
        destruct ph; try (destruct (Qle_bool (1 # 10000) (Qabs (1 - evap / vol))); [exact D | discriminate]).
        destruct (Qle_bool (1 # 10000) (Qabs (1 - 1))); discriminate. }
    clear - G. induction xs as [|x xs IH]; constructor; auto.
Qed.
Print Assumptions C114_unchanged.

(** The moles of each isotope that are taken from the reservoir are those in
    the evaporated water (the volume is in thousands of litres). *)
Theorem C114_moles : forall pw moles ph evap vol ison isoth isofac rh temp xs, Forall known_isotope xs ->
  let r := fractionate pw moles ph evap vol ison isoth isofac rh temp xs in
  Forall2 (fun x nm => fst nm = iname x /\
    (snd nm == - (moles (snd (fst (fst r))) (iname x) * (1000 * evap)))%Q) xs (snd r).
Proof.
  intros pw moles ph evap vol ison isoth isofac rh temp xs F. unfold fractionate. rewrite each_known by assumption.
  cbn [fst snd]. set (lines := Solution1 :: _). clearbody lines. clear F.
  induction xs as [|x xs IH]; constructor; [|exact IH]. cbn [fst snd]. split; [reflexivity | ring].
Qed.
Print Assumptions C114_moles.

(** Another isotope is refused. *)
Theorem C114_other : forall pw moles ph evap vol ison isoth isofac rh temp xs x, In x xs -> ~ known_isotope x ->
  fst (fst (fst (fractionate pw moles ph evap vol ison isoth isofac rh temp xs))) = 1%Z.
Proof.
  intros pw moles ph evap vol ison isoth isofac rh temp xs x I1 N. unfold fractionate.
  assert (G : snd (each_isotope pw ph (evap_frac ph evap vol) ison isoth isofac rh evap xs) = false).
  { induction xs as [|y xs IH]; [destruct I1|]. cbn [each_isotope].
    destruct (String.eqb_spec (iname y) "D") as [K | K], (String.eqb_spec (iname y) "[18O]") as [K' | K']; cbn [orb]; try reflexivity;
      (destruct I1 as [-> | I1]; [exfalso; apply N; red; tauto|]);
      specialize (IH I1); destruct (each_isotope pw ph (evap_frac ph evap vol) ison isoth isofac rh evap xs) as [[ls rs] ok]; exact IH. }
  destruct (each_isotope pw ph (evap_frac ph evap vol) ison isoth isofac rh evap xs) as [[ls rs] ok]. cbn [snd] in G. rewrite G. reflexivity.
Qed.
Print Assumptions C114_other.

(** In air that is more than saturated the diffusive part changes its sign:
    with no equilibrium fractionation, the evaporated water is the heavier one
    (the largest diffusive fractionation is negative). *)
Theorem C114_saturated_refuted : forall ison isoth isofac rh largest_, (0 < ison)%Q -> (0 < isoth)%Q -> (0 < isofac)%Q ->
  (largest_ < 0)%Q -> (1 < rh)%Q -> (0 < exponent 0 ison isoth isofac rh largest_)%Q.
Proof.
  intros ison isoth isofac rh l A B C D E. unfold exponent.
  assert (X : (0 < (rh - 1) * ison * isoth * (- l))%Q).
  { repeat apply Qmult_lt_0_compat; lra. }
  assert (Y : (isofac * (ln_10 * 0 + (1 - rh) * ison * isoth * l) == isofac * ((rh - 1) * ison * isoth * (- l)))%Q) by ring.
  rewrite Y. apply Qmult_lt_0_compat; assumption.
Qed.
Print Assumptions C114_saturated_refuted.

Definition some_isotopes : list isotope := [mkIso "D" (-(100)) (- (4 # 100)) (- (6 # 100)) (- (25 # 1000)); mkIso "[18O]" (-(14)) (- (5 # 1000)) (- (7 # 1000)) (- (28 # 1000))].
Definition some_power (b e : Q) : Q := (1 - e * (1 - b))%Q.
Example C114_case :
  power_law some_power /\ Forall known_isotope some_isotopes /\
  (exponent (log_alpha Water (mkIso "D" (-(100)) (- (4 # 100)) (- (6 # 100)) (- (25 # 1000)))) (1 # 2) 1 1 (1 # 2) (- (25 # 1000)) <= 0)%Q /\
  fst (fst (fst (fractionate some_power (fun _ _ => 1%Q) Water 1 4 (1 # 2) 1 1 (1 # 2) 12 some_isotopes))) = 0%Z.
Proof.
  split; [intros b e B1 B2 E; unfold some_power; nra|]. split; [constructor; [left; reflexivity | constructor; [right; reflexivity | constructor]]|]. split; [discriminate | reflexivity].
Qed.

(** * C115 *)

Lemma square_le : forall a y, (0 <= (y + a) * (y + a))%Q.
Proof. intros a y. destruct (Qlt_le_dec (y + a) 0); nra. Qed.

Lemma poly_cons : forall c cs t, poly (c :: cs) t = (c + t * poly cs t)%Q.
Proof. reflexivity. Qed.
Lemma poly_pos : forall cs t, (0 < t)%Q -> cs <> [] -> Forall (fun c => (0 < c)%Q) cs -> (0 < poly cs t)%Q.
Proof.
  induction cs as [|c cs IH]; intros t T N F; [congruence|]. inversion F; subst. rewrite poly_cons. destruct cs as [|d cs].
  - cbn [poly fold_right]. lra.
  - specialize (IH t T ltac:(discriminate) H2). assert (0 < t * poly (d :: cs) t)%Q by (apply Qmult_lt_0_compat; assumption). lra.
Qed.
Lemma poly_nonneg : forall cs t, (0 <= t)%Q -> Forall (fun c => (0 <= c)%Q) cs -> (0 <= poly cs t)%Q.
Proof.
  induction cs as [|c cs IH]; intros t T F; [apply Qle_refl|]. inversion F; subst. rewrite poly_cons. specialize (IH t T H2). nra.
Qed.
Lemma poly_mono : forall cs t u, (0 <= t)%Q -> (t <= u)%Q -> Forall (fun c => (0 <= c)%Q) cs -> (poly cs t <= poly cs u)%Q.
Proof.
  induction cs as [|c cs IH]; intros t u T U F; [apply Qle_refl|]. inversion F; subst. rewrite !poly_cons.
  specialize (IH t u T U H2). pose proof (poly_nonneg cs t T H2). nra.
Qed.

(** The saturated vapour pressure is positive at every temperature. *)
Theorem C115_positive : forall t, (0 < satvp t)%Q.
Proof.
  intros t. unfold satvp, es. apply Qlt_shift_div_l; [reflexivity|]. rewrite Qmult_0_l.
  destruct (Qle_bool t 0) eqn:T.
  - set (y := ((t + 50) / 50)%Q). assert (E : (t == 50 * y - 50)%Q) by (unfold y; field).
    unfold poly, ice_es. cbn [fold_right]. rewrite E. clear E T. clearbody y.
    assert (A : (0 < (158522899 # 4000000000) + (36880667 # 160000000) * y + (34154509 # 80000000) * (y * y))%Q) by (pose proof (square_le (36880667 # 136618036) y); nra).
    assert (B : (0 <= y * y * ((34154509 # 80000000) + (26723831 # 80000000) * y + (1 # 10) * (y * y)))%Q).
    { apply Qmult_le_0_compat; [nra|]. pose proof (square_le (26723831 # 16000000) y); nra. }
    assert (C : (0 <= y * y * (y * y) * ((121462647 # 32000000) + (-338838769 # 160000000) * y + (229853363 # 80000000) * (y * y)))%Q).
    { apply Qmult_le_0_compat; [apply Qmult_le_0_compat; nra|]. pose proof (square_le (-338838769 # 919413452) y); nra. }
    match type of A with (0 < ?a)%Q => match type of B with (0 <= ?b)%Q => match type of C with (0 <= ?c)%Q =>
      match goal with |- (0 < ?g)%Q => assert (E : (g == a + b + c)%Q) by ring; rewrite E; lra end end end end.
  - apply qle_false in T. apply poly_pos; [exact T | discriminate | repeat constructor].
Qed.
Print Assumptions C115_positive.

(** Above freezing, warmer air holds more vapour. *)
Theorem C115_increasing : forall t u, (0 < t)%Q -> (t < u)%Q -> (satvp t < satvp u)%Q.
Proof.
  intros t u T U. unfold satvp, es.
  assert (A : Qle_bool t 0 = false) by (apply qle_false; lra). assert (B : Qle_bool u 0 = false) by (apply qle_false; lra).
  rewrite A, B. apply Qmult_lt_r; [reflexivity|].
  unfold water_es at 1. unfold water_es. rewrite (poly_cons _ _ t), (poly_cons _ _ u).
  match goal with |- (_ + t * poly ?l t < _)%Q =>
    assert (P : (0 < poly l t)%Q) by (apply poly_pos; [exact T | discriminate | repeat constructor]);
    assert (M : (poly l t <= poly l u)%Q) by (apply poly_mono; [lra | lra | repeat constructor; discriminate]) end.
  nra.
Qed.
Print Assumptions C115_increasing.

(** The humidity of a unit is that of air with the vapour of the station, or
    with the measured specific humidity. *)
Theorem C115_vapour : forall rh station_t kpa q t, (0 <= q)%Q ->
  (humidity_station rh station_t t * satvp t == rh * satvp station_t)%Q /\
  (let e := humidity_specific kpa q t * satvp t in q * (kpa - (378 # 1000) * e) == (622 # 1000) * e)%Q.
Proof.
  intros rh st kpa q t Q0. pose proof (C115_positive t) as P. assert (N : ~ (satvp t == 0)%Q) by lra.
  unfold humidity_station, humidity_specific. split; [field; exact N|]. cbv zeta.
  set (sv := satvp t) in *. clearbody sv. assert (M : ~ ((622 # 1000) + (378 # 1000) * q == 0)%Q) by lra.
  field. split; [exact M | exact N].
Qed.
Print Assumptions C115_vapour.

(** Above freezing, a unit that is colder than a saturated station has a
    relative humidity above one: nothing limits it. *)
Theorem C115_limit_refuted : forall st t, (0 < t)%Q -> (t < st)%Q -> (1 < humidity_station 1 st t)%Q.
Proof.
  intros st t T L. pose proof (C115_positive t) as P. pose proof (C115_increasing t st T L) as M.
  unfold humidity_station. apply Qlt_shift_div_l; [exact P|]. lra.
Qed.
Print Assumptions C115_limit_refuted.

(** The two polynomials do not meet: air just above freezing holds less vapour
    than air at freezing. *)
Theorem C115_freezing_refuted : forall t, (0 < t)%Q -> (t <= 1 # 1000)%Q -> (satvp t < satvp 0)%Q.
Proof.
  intros t T L. apply Qle_lt_trans with (satvp (1 # 1000)); [|reflexivity].
  destruct (Qlt_le_dec t (1 # 1000)) as [H | H]; [apply Qlt_le_weak, C115_increasing; assumption|].
  assert (E : (t == 1 # 1000)%Q) by lra. unfold satvp, es.
  assert (A : Qle_bool t 0 = false) by (apply qle_false; exact T). rewrite A. cbn [Qle_bool].
  change (Qle_bool (1 # 1000) 0) with false. cbv iota. unfold poly, water_es. cbn [fold_right]. rewrite E. apply Qle_refl.
Qed.
Print Assumptions C115_freezing_refuted.

(** Far below freezing the polynomial for ice turns: colder air holds more. *)
Theorem C115_cold_refuted : (satvp (-(60)) < satvp (-(80)) /\ satvp (-(80)) < satvp (-(100)))%Q.
Proof. split; reflexivity. Qed.
Print Assumptions C115_cold_refuted.

Fixpoint minus (a b : list Q) : list Q :=
  match a, b with x :: a, y :: b => Qred (x - y) :: minus a b | [], b => map Qopp b | a, [] => a end.
Lemma minus_value : forall t a b, (value (minus a b) t == value a t - value b t)%Q.
Proof.
  intros t. induction a as [|x a IH]; intros b.
  - cbn [minus]. induction b as [|y b IH]; cbn [map value]; [ring|]. rewrite IH. cbn [value]. ring.
  - destruct b as [|y b]; cbn [minus value]; [ring|]. rewrite IH, Qred_correct. ring.
Qed.
Lemma value_bound : forall t m, (0 <= m)%Q -> (Qabs t <= m)%Q -> forall cs, (Qabs (value cs t) <= value (map Qabs cs) m)%Q.
Proof.
  intros t m M T. induction cs as [|c cs IH]; cbn [value map]; [discriminate|].
  eapply Qle_trans; [apply Qabs_triangle|]. rewrite Qabs_Qmult.
  apply Qplus_le_compat; [apply Qle_refl|].
  apply Qle_trans with (m * Qabs (value cs t))%Q.
  - apply Qmult_le_compat_r; [exact T | apply Qabs_nonneg].
  - rewrite !(Qmult_comm m). apply Qmult_le_compat_r; assumption.
Qed.
Lemma poly_value : forall cs t, poly cs t = value cs t.
Proof. induction cs as [|c cs IH]; intros t; [reflexivity|]. rewrite poly_cons, IH. reflexivity. Qed.

Fixpoint shifted (c : Q) (cs : list Q) : list Q :=
  match cs with
  | [] => []
  | a :: r => let q := shifted c r in minus (a :: q) (map (fun x => - (c * x))%Q q)
  end.
Lemma value_opp : forall c t q, (value (map (fun x => - (c * x))%Q q) t == - (c * value q t))%Q.
Proof. intros c t. induction q as [|x q IH]; cbn [map value]; [ring|]. rewrite IH. ring. Qed.
Lemma value_shifted : forall c h cs, (value (shifted c cs) h == value cs (c + h))%Q.
Proof.
  intros c h. induction cs as [|a cs IH]; [reflexivity|]. cbn [shifted]. cbv zeta.
  rewrite minus_value, value_opp. cbn [value]. rewrite IH. ring.
Qed.
Lemma value_wd : forall cs t u, (t == u)%Q -> (value cs t == value cs u)%Q.
Proof. induction cs as [|c cs IH]; intros t u E; cbn [value]; [reflexivity|]. rewrite (IH t u E), E. reflexivity. Qed.
Lemma value_red : forall cs t, (value (map Qred cs) t == value cs t)%Q.
Proof. induction cs as [|c cs IH]; intros t; cbn [value map]; [reflexivity|]. rewrite IH, Qred_correct. reflexivity. Qed.

Definition piece (bound : Q) (cs : list Q) (k : Z) : bool :=
  Qle_bool (value (map Qabs (map Qred (shifted (inject_Z k) cs))) (1 # 2)) bound.
Lemma piece_bound : forall bound cs t k, piece bound cs k = true -> (Qabs (t - inject_Z k) <= 1 # 2)%Q -> (Qabs (value cs t) <= bound)%Q.
Proof.
  intros bound cs t k P H. apply Qle_bool_iff in P. eapply Qle_trans; [|exact P].
  assert (E : (value cs t == value (map Qred (shifted (inject_Z k) cs)) (t - inject_Z k))%Q).
  { rewrite value_red, value_shifted. apply value_wd. ring. }
  rewrite (Qabs_wd _ _ E). apply value_bound; [discriminate | exact H].
Qed.
Fixpoint zrange (a : Z) (n : nat) : list Z := match n with O => [] | S n => a :: zrange (a + 1) n end.
Lemma zrange_in : forall n a k, (a <= k < a + Z.of_nat n)%Z -> In k (zrange a n).
Proof.
  induction n as [|n IH]; intros a k H; [lia|]. cbn [zrange]. destruct (Z.eq_dec a k) as [E | E]; [left; exact E|].
  right. apply IH. lia.
Qed.
Lemma nearest : forall t, exists k, (Qabs (t - inject_Z k) <= 1 # 2)%Q.
Proof.
  intros t. exists (Qround.Qfloor (t + (1 # 2))). pose proof (Qround.Qfloor_le (t + (1 # 2))) as A. pose proof (Qround.Qlt_floor (t + (1 # 2))) as B.
  rewrite inject_Z_plus in B. change (inject_Z 1) with 1%Q in B. apply Qabs_Qle_condition. split; lra.
Qed.
Lemma range_bound : forall bound cs lo n t, forallb (piece bound cs) (zrange lo n) = true ->
  (inject_Z lo <= t)%Q -> (t <= inject_Z (lo + Z.of_nat n - 1))%Q -> (Qabs (value cs t) <= bound)%Q.
Proof.
  intros bound cs lo n t F A B. destruct (nearest t) as (k & K). apply (piece_bound bound cs t k); [|exact K].
  rewrite forallb_forall in F. apply F, zrange_in. apply Qabs_Qle_condition in K. destruct K as [K1 K2].
  assert (X : (inject_Z lo < inject_Z (k + 1))%Q) by (rewrite inject_Z_plus; change (inject_Z 1) with 1%Q; lra).
  assert (Y : (inject_Z k < inject_Z (lo + Z.of_nat n))%Q).
  { replace (lo + Z.of_nat n - 1)%Z with (lo + Z.of_nat n + (-1))%Z in B by lia. rewrite inject_Z_plus in B. change (inject_Z (-1)) with (-(1))%Q in B. lra. }
  rewrite <- Zlt_Qlt in X. rewrite <- Zlt_Qlt in Y. lia.
Qed.

(** The slope that the wet bulb uses is the derivative of the saturated vapour
    pressure, between -50 and 40 degrees and within 0.00006 kPa per degree. *)
Theorem C115_slope : forall t, (-(50) <= t)%Q -> (t <= 40)%Q -> exists cs,
  (forall u, ((0 < t) <-> (0 < u))%Q -> (es u == value cs u / 10)%Q) /\
  (Qabs (slope t - value (derivative cs) t / 10) <= 6 # 100000)%Q.
Proof.
  intros t A B.
  assert (G : forall a b, (Qabs (value (minus a b) t) <= 6 # 10000)%Q -> (Qabs (value a t / 10 - value b t / 10) <= 6 # 100000)%Q).
  { intros a b V. pose proof (minus_value t a b) as E. rewrite (Qabs_wd _ _ E) in V.
    assert (E2 : (value a t / 10 - value b t / 10 == (value a t - value b t) * (1 # 10))%Q) by field.
    rewrite (Qabs_wd _ _ E2), Qabs_Qmult. change (Qabs (1 # 10)) with (1 # 10). lra. }
  unfold slope, es. destruct (Qle_bool t 0) eqn:T.
  - exists ice_es. split.
    + intros u U. apply Qle_bool_iff in T. replace (Qle_bool u 0) with true; [rewrite poly_value; reflexivity|].
      symmetry. apply Qle_bool_iff. destruct (Qlt_le_dec 0 u) as [H | H]; [apply U in H; lra | exact H].
    + rewrite poly_value. apply G. apply (range_bound _ _ (-50) 51); [vm_compute; reflexivity | exact A | apply Qle_bool_iff, T].
  - exists water_es. split.
    + intros u U. apply qle_false in T. apply U in T. apply qle_false in T. rewrite T, poly_value. reflexivity.
    + rewrite poly_value. apply G. apply (range_bound _ _ 0 41); [vm_compute; reflexivity | apply qle_false in T; apply Qlt_le_weak, T | exact B].
Qed.
Print Assumptions C115_slope.

(** What the wet bulb is: the last turn of a method of Newton whose vapour
    balance, at the temperature before, is met within a ten-thousandth of a
    degree. *)
Theorem C115_wet_bulb : forall n pres ta rh tw, wetbulb n pres ta rh = Some tw ->
  exists prev, (Qabs ((es prev - gamma pres prev * (ta - tw) - es ta * rh / 100) / (slope prev + gamma pres prev)) <= 1 # 10000)%Q.
Proof.
  intros n pres ta rh tw. unfold wetbulb. cbv zeta.
  set (emeas := (es ta * rh / 100)%Q). clearbody emeas.
  generalize (ta - (es ta - emeas) / (slope ta + gamma pres ta))%Q as w.
  generalize (gamma pres ta) as g. intros g w. generalize (emeas + (ta - w) * g)%Q as et. clear g. revert w.
  induction n as [|n IH]; intros w et H; [discriminate|]. cbn [wet_turns] in H. cbv zeta in H.
  destruct (Qle_bool _ _) eqn:K in H; [|exact (IH _ _ H)].
  assert (E : tw = (w - (es w - et) / (slope w + gamma pres w))%Q) by congruence. subst tw.
  exists w. apply Qle_bool_iff, K.
Qed.
Print Assumptions C115_wet_bulb.

Lemma poly_wd : forall cs t u, (t == u)%Q -> (poly cs t == poly cs u)%Q.
Proof. induction cs as [|c cs IH]; intros t u E; [reflexivity|]. rewrite !poly_cons, (IH t u E), E. reflexivity. Qed.
Lemma es_wd : forall t u, (t == u)%Q -> (es t == es u)%Q.
Proof. intros t u E. unfold es. rewrite (Qleb_comp t u E 0%Q 0%Q (Qeq_refl 0)). rewrite (poly_wd _ t u E). reflexivity. Qed.
Lemma slope_wd : forall t u, (t == u)%Q -> (slope t == slope u)%Q.
Proof. intros t u E. unfold slope. rewrite (Qleb_comp t u E 0%Q 0%Q (Qeq_refl 0)). rewrite (poly_wd _ t u E). reflexivity. Qed.

(** In saturated air the wet bulb shows the temperature of the air, at once. *)
Theorem C115_saturated : forall n pres ta, ~ (slope ta + gamma pres ta == 0)%Q ->
  exists tw, wetbulb (S n) pres ta 100 = Some tw /\ (tw == ta)%Q.
Proof.
  intros n pres ta N. unfold wetbulb. cbv zeta. cbn [wet_turns]. cbv zeta.
  set (emeas := (es ta * 100 / 100)%Q). assert (EM : (emeas == es ta)%Q) by (unfold emeas; field). clearbody emeas.
  set (w := (ta - (es ta - emeas) / (slope ta + gamma pres ta))%Q).
  assert (W : (w == ta)%Q) by (unfold w; rewrite EM; field; exact N). clearbody w.
  pose proof (es_wd w ta W) as E1. pose proof (slope_wd w ta W) as E2.
  assert (E3 : (gamma pres w == gamma pres ta)%Q) by (unfold gamma; rewrite W; reflexivity).
  set (et := (emeas + (ta - w) * gamma pres ta)%Q). assert (ET : (et == es ta)%Q) by (unfold et; rewrite W, EM; ring). clearbody et.
  set (tw := (w - (es w - et) / (slope w + gamma pres w))%Q).
  assert (TW : (tw == ta)%Q) by (unfold tw; rewrite E1, E2, E3, W, ET; field; exact N). clearbody tw.
  replace (Qle_bool _ _) with true; [exists tw; split; [reflexivity | exact TW]|].
  symmetry. apply Qle_bool_iff.
  assert (Z0 : ((es w - gamma pres w * (ta - tw) - emeas) / (slope w + gamma pres w) == 0)%Q).
  { rewrite E1, E2, E3, TW, EM. field. exact N. }
  rewrite (Qabs_wd _ _ Z0). discriminate.
Qed.
Print Assumptions C115_saturated.

(** Precipitation has the temperature of the wet bulb, and is not colder than
    freezing. *)
Theorem C115_precipitation : forall n pres tmax rh tw, wetbulb n pres tmax (rh * 100) = Some tw ->
  exists t, precipitation_temp n pres tmax rh = Some t /\ (0 <= t)%Q /\ (tw <= t)%Q /\ (t = tw \/ t = 0%Q).
Proof.
  intros n pres tmax rh tw H. unfold precipitation_temp. rewrite H. eexists. split; [reflexivity|].
  destruct (Qle_bool 0 tw) eqn:K.
  - apply Qle_bool_iff in K. repeat split; [exact K | apply Qle_refl | left; reflexivity].
  - apply qle_false in K. repeat split; [apply Qle_refl | apply Qlt_le_weak, K | right; reflexivity].
Qed.
Print Assumptions C115_precipitation.

(** Rain and snow get the wet bulb of the largest temperature with the humidity
    at the mean one, so of air with more vapour than there is (or less, below
    a colder maximum). *)
Theorem C115_mixed_refuted : forall rh st mean tmax, (0 < rh)%Q -> (0 < mean)%Q -> (mean < tmax)%Q ->
  (rh * satvp st < satvp tmax * (humidity_station rh st mean * 100) / 100)%Q.
Proof.
  intros rh st mean tmax R M L. pose proof (C115_positive mean) as P. pose proof (C115_increasing mean tmax M L) as I1.
  pose proof (C115_positive st) as P2. unfold humidity_station.
  set (a := satvp mean) in *. set (b := satvp tmax) in *. set (c := satvp st) in *. clearbody a b c.
  assert (E : (b * (rh * c / a * 100) / 100 == (b * (rh * c)) / a)%Q) by (field; lra). rewrite E.
  apply Qlt_shift_div_l; [exact P|]. assert (0 < rh * c)%Q by (apply Qmult_lt_0_compat; assumption). nra.
Qed.
Print Assumptions C115_mixed_refuted.

Example C115_case :
  (humidity_station (1 # 2) 20 10 < 1)%Q /\ (9 # 10 < humidity_station (1 # 2) 20 10)%Q /\
  (1 # 10 < humidity_specific 101 (5 # 1000) 10)%Q /\ exists tw, wetbulb 1 101 10 100 = Some tw /\ (tw == 10)%Q.
Proof. repeat split; try reflexivity. apply C115_saturated. intros H. vm_compute in H. discriminate. Qed.
