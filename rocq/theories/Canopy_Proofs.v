From Coq Require Import QArith ZArith List Bool Lqa Lia.
Import ListNotations.
From Verif Require Import Qx Canopy_Model Canopy_Spec.
Local Open Scope Q_scope.

Lemma intercept_ok precip stor_max cov st st' net :
  0 <= precip -> 0 <= stor_max -> 0 <= cov <= 1 -> 0 <= st ->
  intercept precip stor_max cov st = (st', net) ->
  net + cov * (st' - st) == precip /\ 0 <= st' /\ st' <= stor_max /\ 0 <= net /\
  (st <= stor_max -> st <= st' /\ net <= precip).
Proof.
  intros H1 H2 H3 H4 E. unfold intercept in E.
  destruct (qlt (stor_max - st) precip) eqn:E1; qprop; inversion E; subst.
  - split; [ring|]. split; [lra|]. split; [lra|]. split; [nra|]. intros. split; nra.
  - split; [ring|]. split; [lra|]. split; [lra|]. split; [nra|]. intros. split; nra.
Qed.

Lemma season_ok c w s st0 ev0 :
  canopy_ok c -> 0 <= stor s -> season c (transp w) s = (st0, ev0) ->
  0 <= st0 /\ (stor s == 0 -> st0 == 0) /\
  (season_kept c w s -> cover_of c (transp w) * st0 == canopy_water c s).
Proof.
  intros (C1 & C2 & _) Hs E. unfold season, season_kept, canopy_water, cover_of in *.
  destruct (transp w), (tr s); cbn [negb andb] in E; inversion E; subst; clear E.
  - split; [auto|]. split; [auto|]. reflexivity.
  - destruct (qlt 0 (stor s)) eqn:E1; qprop.
    + destruct (qeq (covden_sum c) 0) eqn:E2; qprop.
      * split; [lra|]. split; [lra|]. intros [H|[[H H']|[H|(_ & _ & H)]]]; try discriminate; try tauto.
        rewrite H. ring.
      * assert (P : 0 < covden_sum c) by lra.
        assert (0 <= covden_win c / covden_sum c) by (apply Qle_shift_div_l; lra).
        split; [nra|]. split; [intros; lra|]. intros _. field. auto.
    + split; [lra|]. split; [auto|]. intros _. assert (Z : stor s == 0) by lra.
      rewrite Z. ring.
  - split; [auto|]. split; [auto|]. intros [H|[[H _]|[H|(H & _)]]]; try discriminate.
    + rewrite H. ring.
    + rewrite H. ring.
  - split; [auto|]. split; [auto|]. reflexivity.
Qed.

Lemma rain_ok c w st o st' net o' cov :
  canopy_ok c -> weather_ok w -> 0 <= st ->
  rain_part c w st o = (st', net, o', cov) ->
  0 <= st' /\ 0 <= net /\
  ((1 < cov_type c)%Z \/ st == 0 -> net + cover_of c (transp w) * st' ==
     rain w + cover_of c (transp w) * st) /\
  (rain w == 0 -> st' = st /\ o' = o) /\
  (st == 0 -> cov_type c <> 1%Z -> ~ (1 < cov_type c)%Z -> st' == 0) /\
  (o' = o \/ cov = cover_of c (transp w) \/ o' = false) /\
  (o' = false -> cov = 0) /\ (cov = 0 \/ cov = cover_of c (transp w)).
Proof.
  intros Hc Hw Hs E. unfold rain_part in E.
  destruct Hc as (C1 & C2 & C3 & C4 & C5). destruct Hw as (W1 & W2 & W3 & W4).
  destruct (qlt 0 (rain w)) eqn:E1; qprop.
  - destruct ((1 <? cov_type c)%Z || _) eqn:E2.
    + destruct (intercept (rain w) (if transp w then srain c else wrain c)
                 (cover_of c (transp w)) st) as [a b] eqn:EI.
      inversion E; subst; clear E.
      apply intercept_ok in EI; auto; try (unfold cover_of; destruct (transp w); lra).
      destruct EI as (I1 & I2 & I3 & I4 & _).
      split; [auto|]. split; [auto|]. split; [intros; lra|]. split; [intros; lra|].
      split. { intros _ N1 N2. exfalso. apply orb_true_iff in E2 as [E2|E2].
               - apply Z.ltb_lt in E2; lia.
               - apply andb_true_iff in E2 as [E2 _]. apply Z.eqb_eq in E2; lia. }
      split; [auto|]. split; [discriminate|auto].
    + apply orb_false_iff in E2 as [E2 _]. apply Z.ltb_ge in E2.
      inversion E; subst; clear E.
      split; [lra|]. split; [lra|]. split.
      { intros [H|H]; [lia|]. rewrite H. ring. }
      split; [intros; lra|]. split; [reflexivity|]. split; [auto|]. split; [auto|auto].
  - inversion E; subst; clear E. split; [lra|]. split; [lra|]. split; [intros; lra|].
    split; [auto|]. split; [auto|]. split; [auto|]. auto.
Qed.

Lemma snow_ok c w st o cov st' net o' cov' :
  canopy_ok c -> weather_ok w -> 0 <= st ->
  snow_part c w st o cov = (st', net, o', cov') ->
  0 <= st' /\ 0 <= net /\
  ((1 < cov_type c)%Z \/ st == 0 \/ snow w == 0 -> net + cover_of c (transp w) * st' ==
     snow w + cover_of c (transp w) * st) /\
  ((o = false -> cov = 0) -> o' = false -> cov' = 0) /\
  (cov = 0 \/ cov = cover_of c (transp w) -> cov' = 0 \/ cov' = cover_of c (transp w)).
Proof.
  intros Hc Hw Hs E. unfold snow_part in E.
  destruct Hc as (C1 & C2 & C3 & C4 & C5). destruct Hw as (W1 & W2 & W3 & W4).
  destruct (qlt 0 (snow w)) eqn:E1; qprop.
  - destruct (1 <? cov_type c)%Z eqn:E2.
    + destruct (intercept (snow w) (snowcap c) (cover_of c (transp w)) st) as [a b] eqn:EI.
      inversion E; subst; clear E.
      apply intercept_ok in EI; auto; try (unfold cover_of; destruct (transp w); lra).
      destruct EI as (I1 & I2 & I3 & I4 & _).
      split; [auto|]. split; [auto|]. split; [intros; lra|].
      split; [discriminate|auto].
    + apply Z.ltb_ge in E2. inversion E; subst; clear E.
      split; [lra|]. split; [lra|]. split.
      { intros [H|[H|H]]; [lia|rewrite H; ring|lra]. }
      split; auto.
  - inversion E; subst; clear E. split; [lra|]. split; [lra|]. split; [intros; lra|].
    split; auto.
Qed.

Lemma canopy_step_ok c w s s' o :
  canopy_ok c -> weather_ok w -> 0 <= stor s ->
  canopy_step c w s = (s', o) ->
  0 <= stor s' /\ 0 <= net_rain o /\ 0 <= net_snow o /\
  net_dep o == net_rain o + net_snow o /\ tr s' = transp w /\
  (stor s' == 0 \/ on s' = true \/ on s' = on s) /\
  (season_kept c w s -> type_kept c w s ->
   net_dep o + evap o + canopy_water c s' == rain w + snow w + canopy_water c s) /\
  (on s = true \/ 0 < rain w \/ 0 < snow w -> 0 <= evap o).
Proof.
  intros Hc Hw Hs E. pose proof Hw as (W1 & W2 & W3 & W4).
  assert (Hcov : forall t, 0 <= cover_of c t <= 1)
    by (intros t; destruct Hc as (A & B & _); unfold cover_of; destruct t; auto).
  unfold canopy_step in E.
  destruct (season c (transp w) s) as [st0 ev0] eqn:ES.
  destruct (season_ok c w s st0 ev0 Hc Hs ES) as (S1 & S2 & S3).
  destruct (rain_part c w st0 (on s)) as [[[st1 nrain] on1] cov1] eqn:ER.
  destruct (rain_ok _ _ _ _ _ _ _ _ Hc Hw S1 ER) as (R1 & R2 & R3 & R4 & R5 & R6 & R7 & R8).
  destruct (snow_part c w st1 on1 cov1) as [[[st2 nsnow] on2] cov2] eqn:EN.
  destruct (snow_ok _ _ _ _ _ _ _ _ _ Hc Hw R1 EN) as (N1 & N2 & N3 & N4 & N5).
  specialize (N4 R7). specialize (N5 R8).
  assert (HB : season_kept c w s -> type_kept c w s ->
     nrain + nsnow + cover_of c (transp w) * st2 == rain w + snow w + canopy_water c s).
  { intros K1 K2. specialize (S3 K1).
    assert (T1 : (1 < cov_type c)%Z \/ st0 == 0) by (destruct K2 as [|[]]; auto).
    specialize (R3 T1).
    assert (T2 : (1 < cov_type c)%Z \/ st1 == 0 \/ snow w == 0).
    { destruct K2 as [K|[K [K'|[K'|K']]]]; auto.
      - destruct (Z_lt_dec 1 (cov_type c)); [auto|]. right; left.
        apply R5; auto.
      - destruct (R4 K') as [-> _]. auto. }
    specialize (N3 T2). lra. }
  specialize (Hcov (transp w)) as Hcv.
  assert (Hc2 : 0 <= cov2) by (destruct N5 as [-> | ->]; lra).
  cbv zeta in E.
  assert (FIN : forall st' o' ev cv,
     0 <= st' -> (st' == 0 \/ o' = true \/ o' = on s) ->
     ev * cv + cover_of c (transp w) * st' == cover_of c (transp w) * st2 ->
     (on s = true \/ 0 < rain w \/ 0 < snow w -> 0 <= ev * cv) ->
     ({| stor := st'; on := o'; tr := transp w; evap0 := cv * ev |},
      {| net_rain := nrain; net_snow := nsnow; net_dep := nrain + nsnow; evap := cv * ev |})
     = (s', o) ->
  0 <= stor s' /\ 0 <= net_rain o /\ 0 <= net_snow o /\
  net_dep o == net_rain o + net_snow o /\ tr s' = transp w /\
  (stor s' == 0 \/ on s' = true \/ on s' = on s) /\
  (season_kept c w s -> type_kept c w s ->
   net_dep o + evap o + canopy_water c s' == rain w + snow w + canopy_water c s) /\
  (on s = true \/ 0 < rain w \/ 0 < snow w -> 0 <= evap o)).
  { intros st' o' ev cv F1 F2 F3 F4 F. inversion F; subst; clear F.
    cbn [stor net_rain net_snow net_dep tr on evap].
    split; [auto|]. split; [auto|]. split; [auto|]. split; [reflexivity|]. split; [auto|].
    split; [auto|]. split.
    - intros K1 K2. rewrite <- (HB K1 K2). unfold canopy_water; cbn [tr stor].
      unfold cover_of in *. rewrite (Qmult_comm cv ev). lra.
    - intros K. rewrite Qmult_comm. auto. }
  destruct on2 eqn:Eon.
  - destruct (negb (dtlong w) && qlt 0 (rain w + snow w)).
    { eapply FIN; [| | | |exact E]; auto; try lra; try (intros; lra). }
    destruct (qlt 0 (snow w)) eqn:EF; qprop.
    + specialize (W4 EF). rewrite (qle_false (basin_dep w) 0) in E by lra.
      eapply FIN; [| | | |exact E]; auto; try lra; try (intros; lra).
    + destruct (qlt (potet w - st2) 0) eqn:ED; qprop.
      * eapply FIN; [| | | |exact E]; auto; try lra; try ring; try (intros; nra).
      * eapply FIN; [| | | |exact E]; auto; try lra; try ring; try (left; reflexivity); try (intros; nra).
  - specialize (N4 eq_refl). subst cov2.
    assert (X : on1 = false \/ st2 == 0).
    { unfold snow_part in EN. destruct (qlt 0 (snow w)).
      - destruct (1 <? cov_type c)%Z.
        + destruct (intercept _ _ _ _). discriminate.
        + inversion EN; subst. right; reflexivity.
      - inversion EN; subst. auto. }
    eapply FIN; [| | | |exact E]; auto; try lra.
    destruct X as [X|X]; [|auto].
    destruct (on s) eqn:Eo; [|auto].
    left. unfold rain_part in ER. destruct (qlt 0 (rain w)).
    + destruct ((1 <? cov_type c)%Z || _).
      * destruct (intercept (rain w) _ _ _). inversion ER; congruence.
      * inversion ER; subst. unfold snow_part in EN. destruct (qlt 0 (snow w)).
        -- destruct (1 <? cov_type c)%Z; [destruct (intercept _ _ _ _)|]; inversion EN; reflexivity.
        -- inversion EN; reflexivity.
    + inversion ER; congruence.
Qed.

Lemma canopy_run_ok c : canopy_ok c -> (1 < cov_type c)%Z ->
  covden_sum c == covden_win c -> ~ covden_sum c == 0 ->
  forall ws s, Forall weather_ok ws -> 0 <= stor s ->
  let '(s', os) := canopy_run c ws s in
  0 <= stor s' /\
  qsum (map net_dep os) + qsum (map evap os) + canopy_water c s'
  == qsum (map rain ws) + qsum (map snow ws) + canopy_water c s.
Proof.
  intros Hc Ht He Hn. induction ws as [|w ws IH]; intros s HF Hs; cbn [canopy_run].
  - cbn [map qsum]. split; [auto|ring].
  - inversion HF as [|? ? F1 F2]; subst.
    destruct (canopy_step c w s) as [s1 o] eqn:E.
    destruct (canopy_step_ok c w s s1 o Hc F1 Hs E) as (A & _ & _ & _ & _ & _ & B & _).
    specialize (IH s1 F2 A). destruct (canopy_run c ws s1) as [s2 os].
    destruct IH as [I1 I2]. split; [auto|]. cbn [map qsum].
    assert (K1 : season_kept c w s) by (unfold season_kept; auto).
    assert (K2 : type_kept c w s) by (unfold type_kept; auto).
    specialize (B K1 K2). lra.
Qed.
