From Coq Require Import QArith Qabs Qround ZArith List Bool Arith Sorted Morphisms Lia Lqa.
From Verif Require Import Qx Route_Model Route_Spec.
Import ListNotations.
Local Open Scope Q_scope.

(** Sums. *)
Lemma sum_ext n f g : (forall i, (1 <= i <= n)%nat -> f i == g i) -> sum_to n f == sum_to n g.
Proof.
  induction n as [|n IH]; cbn [sum_to]; intros H; [reflexivity|].
  rewrite (H (S n)) by lia. rewrite IH by (intros; apply H; lia). reflexivity.
Qed.
Lemma sum_plus n f g : sum_to n (fun i => f i + g i) == sum_to n f + sum_to n g.
Proof. induction n as [|n IH]; cbn [sum_to]; [ring|]. rewrite IH. ring. Qed.
Lemma sum_scale n f k : sum_to n (fun i => f i * k) == sum_to n f * k.
Proof. induction n as [|n IH]; cbn [sum_to]; [ring|]. rewrite IH. ring. Qed.
Lemma sum_zero n f : (forall i, (1 <= i <= n)%nat -> f i == 0) -> sum_to n f == 0.
Proof.
  induction n as [|n IH]; cbn [sum_to]; intros H; [reflexivity|].
  rewrite IH by (intros; apply H; lia). rewrite (H (S n)) by lia. ring.
Qed.
Lemma sum_swap n m (f : nat -> nat -> Q) :
  sum_to n (fun i => sum_to m (fun j => f i j)) == sum_to m (fun j => sum_to n (fun i => f i j)).
Proof.
  induction n as [|n IH]; cbn [sum_to].
  - symmetry. apply sum_zero. reflexivity.
  - rewrite IH, <- sum_plus. reflexivity.
Qed.
Lemma sum_nonneg n f : (forall i, (1 <= i <= n)%nat -> 0 <= f i) -> 0 <= sum_to n f.
Proof.
  induction n as [|n IH]; cbn [sum_to]; intros H; [lra|].
  pose proof (H (S n) ltac:(lia)). pose proof (IH (fun i Hi => H i ltac:(lia))). lra.
Qed.
Lemma sum_first n f : (1 <= n)%nat -> sum_to n f == f 1%nat + sum_to (n - 1) (fun i => f (S i)).
Proof.
  intros H. destruct n as [|n]; [lia|]. replace (S n - 1)%nat with n by lia. clear H.
  induction n as [|n IH]; [cbn [sum_to]; ring|].
  change (sum_to (S (S n)) f) with (sum_to (S n) f + f (S (S n))).
  rewrite IH. cbn [sum_to]. ring.
Qed.
Lemma sum_set n f k v : (1 <= k <= n)%nat -> sum_to n (set f k v) == sum_to n f - f k + v.
Proof.
  revert k; induction n as [|n IH]; intros k H; [lia|]. cbn [sum_to]. unfold set at 2.
  destruct (Nat.eqb (S n) k) eqn:E.
  - apply Nat.eqb_eq in E. subst k.
    rewrite (sum_ext n (set f (S n) v) f); [ring|].
    intros i Hi. unfold set. destruct (Nat.eqb i (S n)) eqn:E; [apply Nat.eqb_eq in E; lia | reflexivity].
  - apply Nat.eqb_neq in E. rewrite IH by lia. ring.
Qed.

(** top2clark *)
Lemma gather_sum n chan x nch : (forall i, (1 <= i <= n)%nat -> (1 <= chan i <= nch)%nat) ->
  sum_to nch (gather n chan x) == sum_to n x.
Proof.
  induction n as [|n IH]; intros H; cbn [gather sum_to].
  - apply sum_zero. reflexivity.
  - rewrite sum_set by (apply H; lia). rewrite IH by (intros; apply H; lia). ring.
Qed.
Lemma gather_each n chan x j :
  gather n chan x j == sum_to n (fun i => if Nat.eqb (chan i) j then x i else 0).
Proof.
  revert j; induction n as [|n IH]; intros j; cbn [gather sum_to]; [reflexivity|].
  unfold set. destruct (Nat.eqb j (chan (S n))) eqn:E.
  - apply Nat.eqb_eq in E. subst j. rewrite Nat.eqb_refl, IH. reflexivity.
  - rewrite IH. replace (Nat.eqb (chan (S n)) j) with false; [ring|].
    symmetry. apply Nat.eqb_neq. apply Nat.eqb_neq in E. auto.
Qed.

(** The histogram. *)
Definition incr (p q : Q * Q) : Prop := fst p < fst q /\ snd p <= snd q.

Lemma interp_spec rest : forall p x, Sorted incr (p :: rest) -> rest <> [] ->
  fst p <= x -> x <= fst (last rest (0, 0)) ->
  exists a, interpolate p rest x = Some a /\ snd p <= a /\
    (exists pre u v post, p :: rest = pre ++ u :: v :: post /\ fst u <= x <= fst v /\
      (a - snd u) * (fst v - fst u) == (snd v - snd u) * (x - fst u)) /\
    (x == fst (last rest (0, 0)) -> a == snd (last rest (0, 0))).
Proof.
  induction rest as [|(t, b) r IH]; intros p x HS HN Hp Hx; [congruence|].
  cbn [interpolate]. inversion HS as [|? ? HS1 HR]; subst. inversion HR as [|? ? HI]; subst.
  destruct HI as [I1 I2]. cbn [fst snd] in I1, I2.
  destruct (qle x t) eqn:E; qprop.
  - eexists. split; [reflexivity|].
    assert (D : 0 < t - fst p) by lra.
    assert (F : (snd p + (b - snd p) * (x - fst p) / (t - fst p) - snd p) * (t - fst p) == (b - snd p) * (x - fst p))
      by (field; lra).
    split; [|split].
    + assert (0 <= (b - snd p) * (x - fst p) / (t - fst p)).
      { apply Qle_shift_div_l; [assumption|]. rewrite Qmult_0_l. apply Qmult_le_0_compat; lra. }
      lra.
    + exists [], p, (t, b), r. split; [reflexivity|]. cbn [fst snd]. split; [lra | exact F].
    + destruct r as [|r0 r].
      * cbn [last fst snd]. intros EX. assert (x - fst p == t - fst p) by lra. 
        rewrite H. field. lra.
      * intros EX. exfalso.
        assert (G : forall l (p0 : Q * Q), Sorted incr (p0 :: l) -> l <> [] -> fst p0 < fst (last l (0, 0))).
        { clear. induction l as [|y l IH]; intros p0 S N; [congruence|].
          inversion S as [|? ? S1 R]; subst. inversion R as [|? ? I]; subst. destruct I as [I _].
          destruct l as [|z l]; [exact I|].
          change (last (y :: z :: l) (0, 0)) with (last (z :: l) (0, 0)).
          specialize (IH y S1 ltac:(congruence)). lra. }
        specialize (G (r0 :: r) (t, b) HS1 ltac:(congruence)).
        change (last ((t, b) :: r0 :: r) (0, 0)) with (last (r0 :: r) (0, 0)) in EX. cbn [fst] in G. lra.
  - destruct r as [|r0 r].
    { cbn [last fst] in Hx. lra. }
    change (last ((t, b) :: r0 :: r) (0, 0)) with (last (r0 :: r) (0, 0)) in *.
    destruct (IH (t, b) x HS1 ltac:(congruence) ltac:(cbn [fst]; lra) Hx) as (a & A1 & A2 & A3 & A4).
    exists a. split; [exact A1|]. cbn [snd] in A2. split; [lra|]. split; [|exact A4].
    destruct A3 as (pre & u & v & post & EX & EX1 & EX2). exists (p :: pre), u, v, post.
    split; [cbn [app]; f_equal; exact EX | split; assumption].
Qed.

Lemma interp_mono rest : forall p x y a b, Sorted incr (p :: rest) ->
  fst p <= x -> x <= y -> interpolate p rest x = Some a -> interpolate p rest y = Some b -> a <= b.
Proof.
  induction rest as [|(t, c) r IH]; intros p x y a b HS Hp Hxy Ea Eb; [discriminate|].
  cbn [interpolate] in Ea, Eb. inversion HS as [|? ? HS1 HR]; subst. inversion HR as [|? ? HI]; subst.
  destruct HI as [I1 I2]. cbn [fst snd] in I1, I2.
  assert (D : 0 < t - fst p) by lra.
  assert (L : forall z, fst p <= z -> z <= t -> snd p + (c - snd p) * (z - fst p) / (t - fst p) <= c).
  { intros z Hz1 Hz2. assert ((c - snd p) * (z - fst p) / (t - fst p) <= c - snd p); [|lra].
    apply Qle_shift_div_r; [assumption|].
    rewrite (Qmult_comm (c - snd p)), (Qmult_comm (c - snd p)). apply Qmult_le_compat_r; lra. }
  destruct (qle x t) eqn:E1, (qle y t) eqn:E2; qprop; try lra.
  - injection Ea as <-. injection Eb as <-.
    assert ((c - snd p) * (x - fst p) / (t - fst p) <= (c - snd p) * (y - fst p) / (t - fst p)); [|lra].
    apply Qle_shift_div_l; [assumption|].
    assert (Z : (c - snd p) * (x - fst p) / (t - fst p) * (t - fst p) == (c - snd p) * (x - fst p)) by (field; lra).
    rewrite Z. rewrite (Qmult_comm (c - snd p)), (Qmult_comm (c - snd p)). apply Qmult_le_compat_r; lra.
  - injection Ea as <-. specialize (L x Hp E1).
    destruct r as [|r0 r]; [discriminate|].
    assert (snd (t, c) <= b); [|cbn [snd] in *; lra].
    revert Eb. clear - HS1 E2. assert (fst (t, c) <= y) by (cbn [fst]; lra).
    revert HS1 H. generalize (t, c) as p0. generalize (r0 :: r) as l. clear.
    induction l as [|(t, c) r IH]; intros p HS Hp Eb; [discriminate|].
    cbn [interpolate] in Eb. inversion HS as [|? ? HS1 HR]; subst. inversion HR as [|? ? HI]; subst.
    destruct HI as [I1 I2]. cbn [fst snd] in I1, I2. destruct (qle y t) eqn:E; qprop.
    + injection Eb as <-. assert (0 <= (c - snd p) * (y - fst p) / (t - fst p)); [|lra].
      apply Qle_shift_div_l; [lra|]. rewrite Qmult_0_l. apply Qmult_le_0_compat; lra.
    + specialize (IH (t, c) HS1 ltac:(cbn [fst]; lra) Eb). cbn [snd] in IH. lra.
  - eapply (IH (t, c)); [exact HS1 | | exact Hxy | exact Ea | exact Eb]. cbn [fst]. lra.
Qed.

Definition scaled (chvdt : Q) (p' p : Q * Q) : Prop := fst p' == fst p / chvdt /\ snd p' = snd p.
Lemma travel_scaled chvdt d : 0 < chvdt -> Forall2 (scaled chvdt) (travel chvdt d) d.
Proof.
  intros C. destruct d as [|(d1, a1) r]; cbn [travel]; constructor.
  - split; reflexivity.
  - induction r as [|p r IH]; cbn [map]; constructor; [|exact IH].
    split; cbn [fst snd]; [field; lra | reflexivity].
Qed.
Lemma scaled_sorted chvdt l' l : 0 < chvdt -> Forall2 (scaled chvdt) l' l -> Sorted incr l -> Sorted incr l'.
Proof.
  intros C F. induction F as [|p' p l' l [R1 R2] F IH]; intros S; [constructor|].
  inversion S as [|? ? S1 HR]; subst. constructor; [exact (IH S1)|].
  inversion F as [|q' q t' t [T1 T2] F' EQ1 EQ2]; subst; constructor.
  inversion HR as [|? ? [I1 I2]]; subst. split; [|rewrite R2, T2; exact I2].
  rewrite R1, T1. apply Qlt_shift_div_l; [assumption|]. 
  assert (Z : fst p / chvdt * chvdt == fst p) by (field; lra). rewrite Z. exact I1.
Qed.
Lemma scaled_last chvdt l' l : Forall2 (scaled chvdt) l' l -> l <> [] -> scaled chvdt (last l' (0, 0)) (last l (0, 0)).
Proof.
  induction 1 as [|p' p l' l R F IH]; intros N; [congruence|].
  inversion F as [|q' q t' t R' F' EQ1 EQ2]; subst; [exact R|].
  change (last (p' :: q' :: t') (0, 0)) with (last (q' :: t') (0, 0)).
  change (last (p :: q :: t) (0, 0)) with (last (q :: t) (0, 0)). apply IH. congruence.
Qed.

Section Hist.
Variables (chvdt : Q) (d : list (Q * Q)).
Hypothesis C : 0 < chvdt.
Hypothesis G : good_curve d.
Let tch := travel chvdt d.

Lemma tch_shape : exists p rest, tch = p :: rest /\ rest <> [] /\ Sorted incr tch /\
  0 <= fst p /\ 0 <= snd p /\ fst p < last_time tch /\ snd (last rest (0, 0)) == 1 /\
  last_time tch = fst (last rest (0, 0)).
Proof.
  destruct G as (G1 & G2 & G3 & G4 & G5).
  pose proof (travel_scaled chvdt d C) as F. fold tch in F.
  assert (S : Sorted incr tch) by (eapply scaled_sorted; [exact C | exact F | exact G2]).
  destruct tch as [|p rest] eqn:T; [inversion F; subst; cbn [length] in G1; lia|].
  inversion F as [|p' p0 r' r [R1 R2] F' EQ1 EQ2]; subst.
  assert (N : r <> []) by (intros ->; cbn [length] in G1; lia).
  assert (N' : rest <> []) by (intros ->; inversion F'; subst; congruence).
  exists p, rest. split; [reflexivity|]. split; [exact N'|]. split; [exact S|].
  cbn [hd] in G3, G4.
  assert (L : last (p :: rest) (0, 0) = last rest (0, 0)) by (destruct rest; [congruence | reflexivity]).
  assert (L0 : last (p0 :: r) (0, 0) = last r (0, 0)) by (destruct r; [congruence | reflexivity]).
  split. { rewrite R1. apply Qle_shift_div_l; [assumption|]. lra. }
  split. { rewrite R2. assumption. }
  split.
  { unfold last_time. rewrite L. clear - S N'.
    revert p S. induction rest as [|y l IH]; intros p S; [congruence|].
    inversion S as [|? ? S1 R]; subst. inversion R as [|? ? I]; subst. destruct I as [I _].
    destruct l as [|z l]; [exact I|].
    change (last (y :: z :: l) (0, 0)) with (last (z :: l) (0, 0)).
    specialize (IH ltac:(congruence) y S1). lra. }
  split.
  - destruct (scaled_last chvdt rest r F' N) as [_ R3]. rewrite R3, <- L0. exact G5.
  - unfold last_time. rewrite L. reflexivity.
Qed.

Lemma total_bounds : inject_Z (n_total tch) >= last_time tch /\ inject_Z (n_total tch) < last_time tch + 1 /\
  inject_Z (n_delay tch) <= fst (hd (0, 0) tch) /\ fst (hd (0, 0) tch) < inject_Z (n_delay tch) + 1 /\
  (n_delay tch < n_total tch)%Z /\ (0 <= n_delay tch)%Z.
Proof.
  destruct tch_shape as (p & rest & T & N & S & P1 & P2 & P3 & P4 & P5).
  assert (H1 : inject_Z (n_total tch) >= last_time tch /\ inject_Z (n_total tch) < last_time tch + 1).
  { unfold n_total. rewrite trunc_floor by lra. pose proof (floor_bounds (last_time tch)) as [B1 B2].
    destruct (qlt _ _) eqn:E; qprop.
    - rewrite inject_Z_plus. change (inject_Z 1) with 1. split; [apply Qlt_le_weak; exact B2 | lra].
    - split; [exact E | lra]. }
  assert (H2 : inject_Z (n_delay tch) <= fst p /\ fst p < inject_Z (n_delay tch) + 1).
  { unfold n_delay. rewrite T. rewrite trunc_floor by exact P1. apply floor_bounds. }
  destruct H1 as [A1 A2], H2 as [A3 A4].
  assert (HD : hd (0, 0) tch = p) by (rewrite T; reflexivity). rewrite HD.
  split; [exact A1|]. split; [exact A2|].
  split; [exact A3|]. split; [exact A4|]. split.
  - rewrite Zlt_Qlt. lra.
  - unfold n_delay. rewrite T. rewrite trunc_floor by exact P1. apply floor_ge. exact P1.
Qed.

Lemma drained_spec time : fst (hd (0, 0) tch) <= inject_Z time ->
  exists a, drained tch time = Some a /\ 0 <= a /\ area_within d (inject_Z time * chvdt) a /\
    ((n_total tch <= time)%Z -> a == 1).
Proof.
  intros H. destruct tch_shape as (p & rest & T & N & S & P1 & P2 & P3 & P4 & P5).
  pose proof total_bounds as (B1 & B2 & _).
  pose proof (travel_scaled chvdt d C) as F. fold tch in F.
  assert (Nd : d <> []) by (intros ->; destruct G as [G1 _]; cbn [length] in G1; lia).
  destruct (scaled_last chvdt tch d F Nd) as [L1 _].
  assert (L2 : last_time tch * chvdt == fst (last d (0, 0))) by (unfold last_time; rewrite L1; field; lra).
  unfold drained. destruct (qlt (last_time tch) (inject_Z time)) eqn:E; qprop.
  - exists 1. split; [reflexivity|]. split; [lra|]. split; [|reflexivity].
    left. split; [|reflexivity]. rewrite <- L2. apply Qmult_lt_compat_r; assumption.
  - rewrite T. rewrite T in H. cbn [hd] in H. rewrite P5 in E. rewrite T in S.
    destruct (interp_spec rest p (inject_Z time) S N H E) as (a & A1 & A2 & A3 & A4).
    exists a. split; [exact A1|]. split; [lra|]. split.
    + right. destruct A3 as (pre & u & v & post & X & X1 & X2).
      rewrite T, X in F. apply Forall2_app_inv_l in F. destruct F as (pre0 & l0 & _ & F & ->).
      inversion F as [|? u0 ? l1 [U1 U2] F1]; subst. inversion F1 as [|? v0 ? l2 [V1 V2] F2]; subst.
      exists pre0, u0, v0, l2. split; [reflexivity|].
      assert (U3 : fst u * chvdt == fst u0) by (rewrite U1; field; lra).
      assert (V3 : fst v * chvdt == fst v0) by (rewrite V1; field; lra).
      split; [split|].
      * rewrite <- U3. apply Qmult_le_compat_r; lra.
      * rewrite <- V3. apply Qmult_le_compat_r; lra.
      * rewrite <- U3, <- V3, <- U2, <- V2.
        assert (Z1 : (a - snd u) * (fst v * chvdt - fst u * chvdt) == ((a - snd u) * (fst v - fst u)) * chvdt) by ring.
        rewrite Z1, X2. ring.
    + intros K. rewrite <- T in K. rewrite A4; [exact P4|].
      assert (inject_Z (n_total tch) <= inject_Z time) by (rewrite <- Zle_Qle; exact K).
      rewrite <- P5 in *. lra.
Qed.

Lemma drained_mono s t a b : fst (hd (0, 0) tch) <= inject_Z s -> (s <= t)%Z ->
  drained tch s = Some a -> drained tch t = Some b -> a <= b.
Proof.
  intros H L Ea Eb. destruct tch_shape as (p & rest & T & N & S & P1 & P2 & P3 & P4 & P5).
  assert (L' : inject_Z s <= inject_Z t) by (rewrite <- Zle_Qle; exact L).
  unfold drained in Ea, Eb.
  destruct (qlt (last_time tch) (inject_Z s)) eqn:E1, (qlt (last_time tch) (inject_Z t)) eqn:E2; qprop; try lra.
  - injection Ea as <-. injection Eb as <-. lra.
  - injection Eb as <-. rewrite T in H, Ea. cbn [hd] in H. rewrite P5 in E1.
    rewrite T in S. pose proof (interp_spec rest p (inject_Z s) S N H E1) as (a' & A1 & _ & A3 & A4).
    rewrite Ea in A1. injection A1 as <-.
    pose proof (interp_spec rest p (fst (last rest (0,0))) S N ltac:(rewrite <- P5; rewrite T in *; lra) ltac:(lra))
      as (b & B1 & _ & _ & B4).
    pose proof (interp_mono rest p _ _ a b S H E1 Ea B1). rewrite B4 in H0 by reflexivity. lra.
  - rewrite T in H, Ea, Eb, S. cbn [hd] in H. exact (interp_mono rest p _ _ a b S H L' Ea Eb).
Qed.

Lemma cumulated_spec n : forall time, fst (hd (0, 0) tch) <= inject_Z (time + 1) ->
  exists l, cumulated tch time n = Some l /\ length l = n /\
    forall k, (k < n)%nat -> drained tch (time + 1 + Z.of_nat k) = Some (nth k l 0).
Proof.
  induction n as [|n IH]; intros time H; cbn [cumulated].
  - exists []. split; [reflexivity|]. split; [reflexivity|]. intros; lia.
  - destruct (drained_spec (time + 1) H) as (a & A1 & _). rewrite A1.
    assert (H' : fst (hd (0, 0) tch) <= inject_Z (time + 1 + 1)).
    { assert (inject_Z (time + 1) <= inject_Z (time + 1 + 1)) by (rewrite <- Zle_Qle; lia). lra. }
    destruct (IH (time + 1)%Z H') as (l & L1 & L2 & L3). rewrite L1. exists (a :: l).
    split; [reflexivity|]. split; [cbn [length]; lia|].
    intros [|k] K; cbn [nth].
    + rewrite <- A1. f_equal. lia.
    + rewrite <- (L3 k) by lia. f_equal. lia.
Qed.

Lemma differences_spec frac l : forall a1, (forall k, (k < length l)%nat -> nth k (a1 :: l) 0 <= nth k l 0) ->
  0 <= frac ->
  length (differences frac a1 l) = length l /\
  Forall (fun x => 0 <= x) (differences frac a1 l) /\
  forall k, (k <= length l)%nat -> qsum (firstn k (differences frac a1 l)) == (nth k (a1 :: l) 0 - a1) * frac.
Proof.
  induction l as [|a2 r IH]; intros a1 M Hf; cbn [differences length].
  - split; [reflexivity|]. split; [constructor|]. intros k K. assert (k = O) by lia. subst. cbn. ring.
  - destruct (IH a2) as (I1 & I2 & I3).
    + intros k K. specialize (M (S k) ltac:(cbn [length]; lia)). exact M.
    + assumption.
    + split; [lia|]. split.
      * constructor; [|exact I2]. specialize (M O ltac:(cbn [length]; lia)). cbn [nth] in M.
        apply Qmult_le_0_compat; lra.
      * intros [|k] K; [cbn; ring|]. cbn [firstn qsum]. rewrite I3 by lia.
        change (nth (S k) (a1 :: a2 :: r) 0) with (nth k (a2 :: r) 0). ring.
Qed.

Lemma ordinates_spec frac : 0 <= frac ->
  exists l, ordinates chvdt frac d = Some l /\
    length l = Z.to_nat (n_total tch - n_delay tch) /\ (0 < length l)%nat /\
    Forall (fun x => 0 <= x) l /\ qsum l == frac /\
    forall k, (1 <= k <= length l)%nat -> exists a,
      area_within d ((inject_Z (n_delay tch) + inject_Z (Z.of_nat k)) * chvdt) a /\
      qsum (firstn k l) == frac * a.
Proof.
  intros Hf. pose proof total_bounds as (B1 & B2 & B3 & B4 & B5 & B6).
  unfold ordinates. fold tch.
  assert (H : fst (hd (0, 0) tch) <= inject_Z (n_delay tch + 1)).
  { rewrite inject_Z_plus. change (inject_Z 1) with 1. apply Qlt_le_weak. exact B4. }
  destruct (cumulated_spec (Z.to_nat (n_total tch - n_delay tch)) (n_delay tch) H) as (l & L1 & L2 & L3).
  rewrite L1. destruct l as [|a r]; [cbn [length] in L2; lia|].
  assert (St : forall k, (k < length (a :: r))%nat -> fst (hd (0, 0) tch) <= inject_Z (n_delay tch + 1 + Z.of_nat k)).
  { intros k K. assert (inject_Z (n_delay tch + 1) <= inject_Z (n_delay tch + 1 + Z.of_nat k)) by (rewrite <- Zle_Qle; lia). lra. }
  assert (M : forall k, (k < length r)%nat -> nth k (a :: r) 0 <= nth k r 0).
  { intros k K. change (nth k r 0) with (nth (S k) (a :: r) 0). cbn [length] in *.
    eapply (drained_mono (n_delay tch + 1 + Z.of_nat k) (n_delay tch + 1 + Z.of_nat (S k))); 
      [apply St; lia | lia | apply L3; lia | apply L3; lia]. }
  destruct (differences_spec frac r a M Hf) as (D1 & D2 & D3).
  exists (a * frac :: differences frac a r).
  split; [reflexivity|]. cbn [length]. rewrite D1. cbn [length] in L2. split; [exact L2|]. split; [lia|].
  assert (A0 : 0 <= a).
  { destruct (drained_spec (n_delay tch + 1) H) as (a' & A1 & A2 & _).
    pose proof (L3 O ltac:(lia)) as Z. cbn [nth] in Z. rewrite Z.add_0_r in Z. rewrite A1 in Z. injection Z as <-. exact A2. }
  split; [constructor; [apply Qmult_le_0_compat; lra | exact D2]|].
  assert (SUM : forall k, (1 <= k <= S (length r))%nat ->
    qsum (firstn k (a * frac :: differences frac a r)) == nth (k - 1) (a :: r) 0 * frac).
  { intros [|k] K; [lia|]. cbn [firstn qsum]. rewrite D3 by lia. replace (S k - 1)%nat with k by lia. ring. }
  split.
  - assert (E : qsum (a * frac :: differences frac a r) == qsum (firstn (S (length r)) (a * frac :: differences frac a r))).
    { rewrite firstn_all2; [reflexivity|]. cbn [length]. lia. }
    rewrite E, SUM by lia. replace (S (length r) - 1)%nat with (length r) by lia.
    pose proof (L3 (length r) ltac:(lia)) as Z.
    destruct (drained_spec (n_delay tch + 1 + Z.of_nat (length r)) (St (length r) ltac:(cbn [length]; lia))) as (a' & A1 & _ & _ & A4).
    assert (A5 : nth (length r) (a :: r) 0 = a') by congruence. rewrite A5, A4 by lia. ring.
  - intros k K. pose proof (L3 (k - 1)%nat ltac:(lia)) as Z.
    destruct (drained_spec (n_delay tch + 1 + Z.of_nat (k - 1)) (St (k - 1)%nat ltac:(cbn [length]; lia))) as (a' & A1 & _ & A3 & _).
    assert (A5 : nth (k - 1) (a :: r) 0 = a') by congruence. exists a'. split.
    + replace (n_delay tch + 1 + Z.of_nat (k - 1))%Z with (n_delay tch + Z.of_nat k)%Z in A3 by lia.
      rewrite inject_Z_plus in A3. exact A3.
    + rewrite SUM by lia. rewrite A5. ring.
Qed.
End Hist.

Lemma sum_fill_tail nd ar n : (n <= nd)%nat -> sum_to n (ar_fill nd ar) == 0.
Proof.
  intros H. apply sum_zero. intros i Hi. unfold ar_fill.
  replace (Nat.ltb nd i) with false by (symmetry; apply Nat.ltb_ge; lia). reflexivity.
Qed.
Lemma firstn_snoc (l : list Q) k : (k < length l)%nat -> firstn (S k) l = firstn k l ++ [nth k l 0].
Proof.
  revert k; induction l as [|x l IH]; intros k H; cbn [length] in H; [lia|].
  destruct k; [reflexivity|]. cbn [firstn nth app]. f_equal. apply IH. lia.
Qed.
Lemma sum_fill_mid nd ar k : (k <= length ar)%nat -> sum_to (nd + k) (ar_fill nd ar) == qsum (firstn k ar).
Proof.
  induction k as [|k IH]; intros H.
  - rewrite Nat.add_0_r, sum_fill_tail by lia. reflexivity.
  - rewrite Nat.add_succ_r. cbn [sum_to]. rewrite IH by lia.
    unfold ar_fill. replace (Nat.ltb nd (S (nd + k))) with true by (symmetry; apply Nat.ltb_lt; lia).
    replace (Nat.leb (S (nd + k)) (length ar + nd)) with true by (symmetry; apply Nat.leb_le; lia). cbn [andb].
    replace (S (nd + k) - nd - 1)%nat with k by lia.
    rewrite firstn_snoc, qsum_app by lia. cbn [qsum]. ring.
Qed.
Lemma fill_beyond nd ar i : (nd + length ar < i)%nat -> ar_fill nd ar i = 0.
Proof.
  intros H. unfold ar_fill. replace (Nat.leb i (length ar + nd)) with false by (symmetry; apply Nat.leb_gt; lia).
  rewrite andb_false_r. reflexivity.
Qed.
Lemma sum_fill nd ar n : (nd + length ar <= n)%nat -> sum_to n (ar_fill nd ar) == qsum ar.
Proof.
  intros H. replace n with (nd + length ar + (n - nd - length ar))%nat by lia.
  generalize (n - nd - length ar)%nat as m. induction m as [|m IH].
  - rewrite Nat.add_0_r, sum_fill_mid, firstn_all by lia. reflexivity.
  - rewrite Nat.add_succ_r. cbn [sum_to]. rewrite IH, fill_beyond by lia. ring.
Qed.
Lemma fill_nonneg nd ar i : Forall (fun x => 0 <= x) ar -> 0 <= ar_fill nd ar i.
Proof.
  intros F. unfold ar_fill. destruct (_ && _) eqn:E; [|lra].
  apply andb_prop in E. destruct E as [E1 E2]. apply Nat.ltb_lt in E1. apply Nat.leb_le in E2.
  rewrite Forall_forall in F. apply F. apply nth_In. lia.
Qed.

(** The shift. *)
Lemma shift_last n g : (1 <= n)%nat -> sum_to n (shift n g) == sum_to n g - g 1%nat.
Proof.
  intros H. rewrite (sum_first n g) by lia. destruct n as [|m]; [lia|].
  cbn [sum_to]. replace (S m - 1)%nat with m by lia.
  assert (K : (if Nat.ltb 1 (S m) then S m else 1%nat) = S m) by (destruct m; reflexivity).
  unfold shift at 2. rewrite K, Nat.eqb_refl.
  rewrite (sum_ext m (shift (S m) g) (fun i => g (S i))); [ring|].
  intros i Hi. unfold shift. rewrite K.
  replace (Nat.eqb i (S m)) with false by (symmetry; apply Nat.eqb_neq; lia).
  replace (Nat.ltb i (S m)) with true by (symmetry; apply Nat.ltb_lt; lia). reflexivity.
Qed.
Lemma shift_beyond n g j : (1 <= n)%nat -> (n < j)%nat -> shift n g j = g j.
Proof.
  intros H1 H2. unfold shift.
  assert (K : (if Nat.ltb 1 n then n else 1%nat) = n) by (destruct n as [|[|]]; [lia | reflexivity | reflexivity]).
  rewrite K. replace (Nat.eqb j n) with false by (symmetry; apply Nat.eqb_neq; lia).
  replace (Nat.ltb j n) with false by (symmetry; apply Nat.ltb_ge; lia). reflexivity.
Qed.
Lemma shift_sum n g m : (1 <= n <= m)%nat -> sum_to m (shift n g) == sum_to m g - g 1%nat.
Proof.
  intros H. replace m with (n + (m - n))%nat by lia. generalize (m - n)%nat as k.
  induction k as [|k IH].
  - rewrite Nat.add_0_r. apply shift_last. lia.
  - rewrite Nat.add_succ_r. cbn [sum_to]. rewrite IH, shift_beyond by lia. ring.
Qed.

Global Instance volume_comp c : Proper (Qeq ==> Qeq) (volume c).
Proof. intros a b H. unfold volume. rewrite H. reflexivity. Qed.

(** One step. *)
Section Step.
Variables (c : channels) (dt : Q) (ms : list demand) (qin : nat -> Q) (q : nat -> nat -> Q).
Hypothesis N : network_ok c.
Hypothesis Wq : wet c q.
Hypothesis Wi : rainy c qin.
Hypothesis Wm : Forall sane ms.

Lemma area_pos is : (1 <= is <= nchan c)%nat -> 0 < chan_area c is.
Proof.
  destruct N as [B H]. intros Hi. destruct (H is Hi) as (F & A & _). rewrite A.
  apply Qmult_lt_0_compat; assumption.
Qed.
Lemma fill_wet ir is : (1 <= is <= nchan c)%nat -> 0 <= fill_seg c qin q ir is.
Proof.
  intros Hi. unfold fill_seg. pose proof (Wq ir is Hi).
  destruct N as [_ H0]. destruct (H0 is Hi) as (_ & _ & _ & HH & _). specialize (HH ir).
  pose proof (area_pos is Hi) as P.
  assert (0 <= qin is / chan_area c is / a_million * hist c ir is); [|lra].
  apply Qmult_le_0_compat; [|exact HH].
  apply Qle_shift_div_l; [unfold a_million; lra|]. rewrite Qmult_0_l.
  apply Qle_shift_div_l; [exact P|]. rewrite Qmult_0_l. apply Wi. assumption.
Qed.
Lemma request_nonneg ir : 0 <= request ms ir.
Proof.
  unfold request. clear - Wm. induction Wm as [|m l [S1 S2] F IH]; cbn [map qsum]; [lra|].
  specialize (IH F). destruct (_ && _); [|lra].
  assert (0 <= scheduled m * inch2m * a_million * mru_km2 m); [|lra].
  apply Qmult_le_0_compat; [|exact S2]. unfold inch2m, a_million. lra.
Qed.

Let so := segment c qin q (request ms).
Let total ir := sum_to (nchan c) (fill_seg c qin q ir).
Lemma total_nonneg ir : 0 <= total ir.
Proof. apply sum_nonneg. intros. apply fill_wet. assumption. Qed.
Lemma leak_bounds ir : 0 <= leak c (total ir) ir /\ leak c (total ir) ir <= total ir.
Proof.
  unfold leak. pose proof (total_nonneg ir). repeat qif; qprop; split; lra.
Qed.
Lemma avail_nonneg ir : 0 <= (total ir - leak c (total ir) ir) * basin_area c * a_million.
Proof.
  destruct N as [B _]. pose proof (leak_bounds ir). unfold a_million.
  apply Qmult_le_0_compat; [|lra]. apply Qmult_le_0_compat; lra.
Qed.

Lemma segment_bounds ir :
  0 <= s_divert (so ir) /\ s_divert (so ir) <= request ms ir /\
  s_divert (so ir) <= volume c (total ir) - volume c (s_loss (so ir)) /\
  0 <= s_keep (so ir) /\ s_keep (so ir) <= 1 /\ 0 <= s_loss (so ir) /\ s_loss (so ir) <= total ir.
Proof.
  unfold so, segment. cbn [s_divert s_loss s_keep]. fold (total ir).
  pose proof (leak_bounds ir) as [L1 L2]. pose proof (avail_nonneg ir) as A. pose proof (request_nonneg ir) as R.
  assert (VV : volume c (total ir) - volume c (leak c (total ir) ir) == (total ir - leak c (total ir) ir) * basin_area c * a_million)
    by (unfold volume, a_million; ring).
  set (av := (total ir - leak c (total ir) ir) * basin_area c * a_million) in *. rewrite VV.
  set (g := if qlt av (request ms ir) then av else request ms ir).
  assert (Gb : 0 <= g /\ g <= request ms ir /\ g <= av) by (unfold g; qif; qprop; split; [lra|split; lra|lra|split; lra]).
  destruct Gb as (G1 & G2 & G3).
  split; [exact G1|]. split; [exact G2|]. split; [exact G3|].
  assert (K : 0 <= (if qlt 0 av then g / av else 0) /\ (if qlt 0 av then g / av else 0) <= 1).
  { qif; qprop; [|lra]. split.
    - apply Qle_shift_div_l; [assumption | lra].
    - apply Qle_shift_div_r; [assumption | lra]. }
  destruct K. split; [lra|]. split; [lra|]. split; [exact L1 | exact L2].
Qed.

Lemma segment_balance ir : maxloss c ir <= 0 ->
  volume c (total ir * s_keep (so ir)) + s_divert (so ir) == volume c (total ir).
Proof.
  intros ML. pose proof (avail_nonneg ir) as A. pose proof (request_nonneg ir) as R.
  assert (L : leak c (total ir) ir = 0) by (unfold leak; rewrite qlt_false by exact ML; reflexivity).
  unfold so, segment. cbn [s_divert s_loss s_keep]. fold (total ir). rewrite L in *.
  assert (VV : volume c (total ir) == (total ir - 0) * basin_area c * a_million) by (unfold volume, a_million; ring).
  set (av := (total ir - 0) * basin_area c * a_million) in *.
  set (g := if qlt av (request ms ir) then av else request ms ir).
  assert (E : volume c (total ir * (1 - (if qlt 0 av then g / av else 0))) ==
              volume c (total ir) * (1 - (if qlt 0 av then g / av else 0))) by (unfold volume; ring).
  rewrite E, VV. destruct (qlt 0 av) eqn:P; qprop.
  - field. lra.
  - assert (Z : av == 0) by lra. unfold g. destruct (qlt av (request ms ir)) eqn:E2; qprop; lra.
Qed.

Let o := route_step c dt ms qin q.
Let q1 ir is := if Nat.leb 1 ir && Nat.leb ir (segs c)
                then fill_seg c qin q ir is * s_keep (so ir) else q ir is.
Lemma q1_in ir is : (1 <= ir <= segs c)%nat -> q1 ir is = fill_seg c qin q ir is * s_keep (so ir).
Proof.
  intros H. unfold q1. replace (Nat.leb 1 ir) with true by (symmetry; apply Nat.leb_le; lia).
  replace (Nat.leb ir (segs c)) with true by (symmetry; apply Nat.leb_le; lia). reflexivity.
Qed.

Lemma out_sum : (1 <= segs c)%nat -> o_out o == sum_to (nchan c) (fun is => q1 1%nat is).
Proof.
  intros S. unfold o, route_step. cbn [o_out]. fold so. 
  destruct N as [B H].
  transitivity (sum_to (nchan c) (fun is => q1 1%nat is * basin_area c) / basin_area c).
  - apply Qmult_comp; [|reflexivity]. apply sum_ext. intros i Hi. destruct (H i Hi) as (F & A & _).
    change (if Nat.leb 1 1 && Nat.leb 1 (segs c) then fill_seg c qin q 1 i * s_keep (so 1%nat) else q 1%nat i)
      with (q1 1%nat i). rewrite A. field. lra.
  - rewrite (sum_scale (nchan c) (fun is => q1 1%nat is)). field. lra.
Qed.

Lemma wet_after : wet c (o_q o).
Proof.
  intros ir is Hi. unfold o, route_step. cbn [o_q]. fold so.
  assert (W1 : forall j, 0 <= q1 j is).
  { intros j. unfold q1. destruct (_ && _); [|apply Wq; assumption].
    apply Qmult_le_0_compat; [apply fill_wet; assumption | apply segment_bounds]. }
  unfold shift. destruct (Nat.eqb ir _); [lra|]. destruct (Nat.ltb ir _); apply W1.
Qed.

Lemma fill_sum : volume c (sum_to (segs c) total) == stored c q + entering c qin.
Proof.
  destruct N as [B H]. unfold stored, entering, volume.
  assert (X1 : sum_to (segs c) total == sum_to (nchan c) (fun j => sum_to (segs c) (fun i => fill_seg c qin q i j)))
    by (exact (sum_swap (segs c) (nchan c) (fun i j => fill_seg c qin q i j))).
  rewrite X1, (sum_swap (segs c) (nchan c) (fun i j => q i j)).
  assert (E : sum_to (nchan c) (fun j => sum_to (segs c) (fun i => fill_seg c qin q i j)) ==
     sum_to (nchan c) (fun j => sum_to (segs c) (fun i => q i j) + qin j * (1 / (basin_area c * 1000000)))).
  { apply sum_ext. intros j Hj. destruct (H j Hj) as (F & A & _ & _ & _ & S).
    unfold fill_seg. rewrite sum_plus.
    rewrite (sum_ext _ (fun i => qin j / chan_area c j / a_million * hist c i j)
                       (fun i => hist c i j * (qin j / chan_area c j / a_million))) by (intros; ring).
    rewrite sum_scale, S, A. unfold a_million. apply Qplus_comp; [reflexivity|]. field. split; lra. }
  rewrite E, sum_plus, (sum_scale (nchan c) qin). field. lra.
Qed.

Lemma step_balance : no_loss c -> (1 <= segs c)%nat ->
  stored c (o_q o) + volume c (o_out o) + diverted c o == stored c q + entering c qin.
Proof.
  intros NL SG. rewrite <- fill_sum, (out_sum SG). destruct N as [B H].
  assert (E1 : stored c (o_q o) + volume c (sum_to (nchan c) (fun is => q1 1%nat is)) ==
               volume c (sum_to (segs c) (fun ir => total ir * s_keep (so ir)))).
  { unfold stored, volume.
    assert (X2 : sum_to (segs c) (fun ir => sum_to (nchan c) (fun is => o_q o ir is)) ==
      sum_to (nchan c) (fun j => sum_to (segs c) (fun i => shift (delays c j) (fun k => q1 k j) i)))
      by exact (sum_swap (segs c) (nchan c) (fun i j => shift (delays c j) (fun k => q1 k j) i)).
    rewrite X2.
    assert (E2 : sum_to (nchan c) (fun j => sum_to (segs c) (fun i => shift (delays c j) (fun k => q1 k j) i)) ==
                 sum_to (nchan c) (fun j => sum_to (segs c) (fun i => q1 i j) + (q1 1%nat j) * (-(1)))).
    { apply sum_ext. intros j Hj. destruct (H j Hj) as (_ & _ & D & _).
      rewrite (shift_sum (delays c j) (fun k => q1 k j) (segs c) D). ring. }
    assert (E3 : sum_to (nchan c) (fun j => sum_to (segs c) (fun i => q1 i j)) ==
                 sum_to (segs c) (fun ir => total ir * s_keep (so ir))).
    { rewrite <- (sum_swap (segs c) (nchan c) (fun i j => q1 i j)). apply sum_ext. intros i Hi. unfold total.
      rewrite <- (sum_scale (nchan c) (fill_seg c qin q i)). apply sum_ext. intros j Hj. rewrite q1_in by lia. reflexivity. }
    rewrite E2, sum_plus, (sum_scale (nchan c) (fun j => q1 1%nat j)), E3. ring. }
  rewrite E1. unfold diverted, o, route_step. cbn [o_divert]. fold so.
  assert (E4 : forall n, volume c (sum_to n (fun ir => total ir * s_keep (so ir))) + sum_to n (fun ir => s_divert (so ir))
               == volume c (sum_to n total)).
  { induction n as [|n IH]; cbn [sum_to]; [unfold volume; ring|].
    assert (V : forall a b, volume c (a + b) == volume c a + volume c b) by (intros; unfold volume; ring).
    rewrite !V, <- IH, <- (segment_balance (S n)) by apply NL. ring. }
  apply E4.
Qed.
End Step.

Lemma run_balance c dt ins : network_ok c -> no_loss c -> (1 <= segs c)%nat ->
  Forall (fun i => Forall sane (fst i) /\ rainy c (snd i)) ins ->
  forall q, wet c q ->
  let '(q', os) := route_run c dt ins q in
  wet c q' /\ length os = length ins /\
  stored c q' + qsum (map (fun o => volume c (o_out o)) os) + qsum (map (diverted c) os)
  == stored c q + qsum (map (fun i => entering c (snd i)) ins).
Proof.
  intros N NL SG F. induction F as [|(ms, qin) ins [F1 F2] F IH]; intros q W; cbn [route_run].
  - split; [assumption|]. split; [reflexivity|]. cbn [map qsum]. ring.
  - cbn [fst snd] in F1, F2. pose proof (wet_after c dt ms qin q N W F2 F1) as W1.
    pose proof (step_balance c dt ms qin q N W F2 F1 NL SG) as B.
    specialize (IH _ W1). destruct (route_run c dt ins (o_q (route_step c dt ms qin q))) as [q' os].
    destruct IH as (I1 & I2 & I3). split; [assumption|]. split; [cbn [length]; lia|].
    cbn [map qsum snd]. lra.
Qed.

Lemma keep_plain c qin q ir : no_loss c -> s_keep (segment c qin q (request []) ir) == 1.
Proof.
  intros NL. unfold segment. cbn [s_keep]. unfold request. cbn [map qsum].
  set (av := (_ - _) * _ * _). destruct (qlt 0 av) eqn:E; [|ring]. qprop.
  rewrite (qlt_false av 0) by lra. field. lra.
Qed.

Lemma step_plain c dt qin q is j : network_ok c -> no_loss c -> in_length c q ->
  (1 <= is <= nchan c)%nat -> (1 <= j)%nat ->
  o_q (route_step c dt [] qin q) j is == q (S j) is + qin is / chan_area c is / 1000000 * hist c (S j) is.
Proof.
  intros [B N] NL L Hi Hj. destruct (N is Hi) as (F & A & D & H1 & H2 & S1).
  unfold route_step. cbn [o_q].
  set (q1 := fun (j0 : nat) => _). unfold shift.
  assert (K : (if Nat.ltb 1 (delays c is) then delays c is else 1%nat) = delays c is)
    by (destruct (delays c is) as [|[|]]; [lia | reflexivity | reflexivity]).
  rewrite K.
  assert (Q1 : forall k, (1 <= k)%nat -> q1 k == q k is + qin is / chan_area c is / 1000000 * hist c k is).
  { intros k Hk. unfold q1. destruct (Nat.leb k (segs c)) eqn:E.
    - replace (Nat.leb 1 k) with true by (symmetry; apply Nat.leb_le; lia). cbn [andb].
      rewrite keep_plain by assumption. unfold fill_seg, a_million. ring.
    - apply Nat.leb_gt in E. rewrite andb_false_r. rewrite (H2 k) by lia. ring. }
  destruct (Nat.eqb j (delays c is)) eqn:E1.
  - apply Nat.eqb_eq in E1. rewrite (H2 (S j)) by lia. rewrite (L is (S j)) by lia. ring.
  - apply Nat.eqb_neq in E1. destruct (Nat.ltb j (delays c is)) eqn:E2.
    + apply Q1. lia.
    + apply Nat.ltb_ge in E2. rewrite Q1 by lia. rewrite (H2 j), (H2 (S j)), (L is j), (L is (S j)) by lia. ring.
Qed.
Lemma in_length_step c dt qin q : network_ok c -> no_loss c -> in_length c q ->
  in_length c (o_q (route_step c dt [] qin q)).
Proof.
  intros N NL L is j Hi Hj. rewrite step_plain by (assumption || lia).
  destruct N as [B N]. destruct (N is Hi) as (F & A & D & H1 & H2 & S1).
  rewrite (H2 (S j)), (L is (S j)) by lia. ring.
Qed.

Definition plain (ins : list (nat -> Q)) : list (list demand * (nat -> Q)) := map (fun x => ([], x)) ins.
Lemma run_state c dt ins : network_ok c -> no_loss c -> forall q, in_length c q ->
  in_length c (fst (route_run c dt (plain ins) q)) /\
  forall is j, (1 <= is <= nchan c)%nat -> (1 <= j)%nat ->
  fst (route_run c dt (plain ins) q) j is == q (length ins + j)%nat is + response c is j ins.
Proof.
  intros N NL. induction ins as [|x r IH]; intros q L.
  - cbn [plain map route_run fst]. split; [assumption|]. intros. cbn [length response Nat.add]. ring.
  - cbn [plain map route_run]. fold (plain r).
    destruct (IH _ (in_length_step c dt x q N NL L)) as [I1 I2].
    destruct (route_run c dt (plain r) _) as [q' os]. cbn [fst] in *. split; [assumption|].
    intros is j Hi Hj. rewrite I2 by assumption. rewrite step_plain by (assumption || lia).
    cbn [response length Nat.add]. ring.
Qed.
Lemma response_snoc c is j ins x : response c is j (ins ++ [x]) ==
  response c is (S j) ins + x is / chan_area c is / 1000000 * hist c (S j) is.
Proof.
  induction ins as [|y r IH]; cbn [app response].
  - cbn [length Nat.add]. ring.
  - rewrite IH. cbn [length]. rewrite app_length. cbn [length].
    replace (S (length r + 1) + j)%nat with (S (length r) + S j)%nat by lia. ring.
Qed.
Lemma run_app c dt a b : forall q, route_run c dt (a ++ b) q =
  (let '(q1, o1) := route_run c dt a q in let '(q2, o2) := route_run c dt b q1 in (q2, o1 ++ o2)).
Proof.
  induction a as [|(m, x) a IH]; intros q; cbn [app route_run].
  - destruct (route_run c dt b q); reflexivity.
  - rewrite IH. destruct (route_run c dt a _) as [q1 o1]. destruct (route_run c dt b q1). reflexivity.
Qed.
Lemma run_len c dt ins : forall q, length (snd (route_run c dt ins q)) = length ins.
Proof.
  induction ins as [|(m, x) a IH]; intros q; cbn [route_run]; [reflexivity|].
  specialize (IH (o_q (route_step c dt m x q))). destruct (route_run c dt a _). cbn [snd length] in *. lia.
Qed.

Lemma run_out c dt ins x q d : network_ok c -> no_loss c -> (1 <= segs c)%nat -> in_length c q ->
  o_out (last (snd (route_run c dt (plain (ins ++ [x])) q)) d) ==
  sum_to (nchan c) (fun is => q (length ins + 1)%nat is + response c is 0 (ins ++ [x])).
Proof.
  intros N NL SG L. unfold plain. rewrite map_app. fold (plain ins). rewrite run_app.
  destruct (run_state c dt ins N NL q L) as [I1 I2].
  destruct (route_run c dt (plain ins) q) as [q1 o1]. cbn [fst map route_run snd] in *.
  rewrite last_last. rewrite (out_sum c dt [] x q1 N SG).
  apply sum_ext. intros is Hi. rewrite response_snoc.
  replace (Nat.leb 1 1 && Nat.leb 1 (segs c)) with true by (symmetry; apply andb_true_intro; split; apply Nat.leb_le; lia).
  rewrite keep_plain by assumption. unfold fill_seg, a_million. rewrite (I2 is 1%nat Hi ltac:(lia)). ring.
Qed.

(** Everything leaves within the number of segments. *)
Lemma response_quiet c is j ins : network_ok c -> (1 <= is <= nchan c)%nat -> 
  (forall a x b, ins = a ++ x :: b -> (length b + 1 + j <= segs c)%nat -> x is == 0) ->
  response c is j ins == 0.
Proof.
  intros N Hi. destruct N as [B N]. destruct (N is Hi) as (F & A & D & H1 & H2 & S1).
  induction ins as [|x r IH]; intros Q; cbn [response]; [reflexivity|].
  rewrite IH. 2: { intros a y b -> Hb. apply (Q (x :: a) y b); [reflexivity | assumption]. }
  destruct (Nat.le_gt_cases (length r + 1 + j) (segs c)) as [LE | GT].
  - rewrite (Q [] x r eq_refl LE). unfold Qdiv. ring.
  - rewrite (H2 (length (x :: r) + j)%nat) by (cbn [length]; lia). ring.
Qed.

Lemma run_empties c dt ins q : network_ok c -> no_loss c -> in_length c q ->
  (segs c <= length ins)%nat ->
  (forall a x b, ins = a ++ x :: b -> (length b < segs c)%nat -> forall is, x is == 0) ->
  stored c (fst (route_run c dt (plain ins) q)) == 0.
Proof.
  intros N NL L Len Quiet. destruct (run_state c dt ins N NL q L) as [_ I2].
  unfold stored, volume. rewrite sum_zero; [ring|]. intros ir Hir. apply sum_zero. intros is Hi.
  rewrite I2 by (assumption || lia). rewrite response_quiet; [| assumption | assumption |].
  - destruct N as [B N]. destruct (N is Hi) as (F & A & D & _). rewrite (L is (length ins + ir)%nat) by lia. ring.
  - intros a x b E Hb. apply (Quiet a x b E). lia.
Qed.

(** Water beyond a channel's own length never moves. *)
Lemma stuck_step c dt qin q is j : no_loss c -> (1 <= delays c is)%nat -> (delays c is < j <= segs c)%nat ->
  hist c j is == 0 -> o_q (route_step c dt [] qin q) j is == q j is.
Proof.
  intros NL D Hj H. unfold route_step. cbn [o_q]. rewrite shift_beyond by lia.
  replace (Nat.leb 1 j && Nat.leb j (segs c)) with true by (symmetry; apply andb_true_intro; split; apply Nat.leb_le; lia).
  rewrite keep_plain by assumption. unfold fill_seg. rewrite H. ring.
Qed.
Lemma stuck_run c dt ins is j : no_loss c -> (1 <= delays c is)%nat -> (delays c is < j <= segs c)%nat ->
  hist c j is == 0 -> forall q, fst (route_run c dt (plain ins) q) j is == q j is.
Proof.
  intros NL D Hj H. induction ins as [|x r IH]; intros q; cbn [plain map route_run]; [reflexivity|].
  fold (plain r). specialize (IH (o_q (route_step c dt [] x q))). destruct (route_run c dt (plain r) _).
  cbn [fst] in *. rewrite IH. apply stuck_step; assumption.
Qed.

(** ** What is diverted is what is applied, when it can be *)
Lemma applied_sum (dt k : Q) ms ir g : (1 <= ir)%nat ->
  Forall (can_apply dt) ms ->
  (forall m, src m = ir -> g m = k * next_depth dt m) ->
  qsum (map (fun p => if Nat.eqb (src (fst p)) ir then snd p * inch2m * 1000000 * mru_km2 (fst p) else 0)
    (combine ms (map g ms)))
  == k * request ms ir.
Proof.
  intros I F G. unfold request. induction F as [|m r Hm F IH]; cbn [map combine qsum fst snd].
  - ring.
  - rewrite IH. destruct (Nat.eqb (src m) ir) eqn:E.
    + apply Nat.eqb_eq in E. rewrite (G m E). assert (L : (0 < src m)%nat) by lia.
      unfold next_depth. rewrite (proj2 (Nat.ltb_lt _ _) L). cbn [andb].
      destruct (Hm L) as [B P]. fold inch2m in P. rewrite (qle_true _ _ P), B. unfold a_million. ring.
    + rewrite Bool.andb_false_r. ring.
Qed.

Lemma applied_step c dt ms qin q ir : network_ok c -> wet c q -> rainy c qin -> Forall sane ms ->
  (1 <= ir <= segs c)%nat -> Forall (can_apply dt) ms ->
  applied ms (o_next (route_step c dt ms qin q)) ir == o_divert (route_step c dt ms qin q) ir.
Proof.
  intros N W R SA I F. unfold applied, route_step. cbn [o_next o_divert].
  rewrite (applied_sum dt (s_reduce (segment c qin q (request ms) ir)) ms ir).
  - pose proof (avail_nonneg c qin q N W R ir) as A. unfold segment. cbn [s_reduce s_divert].
    destruct (qlt _ _) eqn:E; qprop; [|ring]. field. intros Z. rewrite Z in E.
    apply (Qlt_irrefl 0). eapply Qle_lt_trans; [exact A | exact E].
  - lia.
  - exact F.
  - intros m E. rewrite E. replace (Nat.ltb 0 ir) with true by (symmetry; apply Nat.ltb_lt; lia).
    replace (Nat.leb ir (segs c)) with true by (symmetry; apply Nat.leb_le; lia). reflexivity.
Qed.
