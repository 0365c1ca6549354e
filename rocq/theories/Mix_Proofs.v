From Coq Require Import ZArith QArith Qabs Qpower Qfield Bool List Lia Lqa.
From Coq Require Import ZifyBool.
From Verif Require Import Qx Mix_Model Mix_Spec.
Import ListNotations.
Local Open Scope Q_scope.

Lemma evap_iff r : evap (sols r) = true <-> evaporating r.
Proof.
  unfold evap, evaporating. rewrite existsb_exists. split.
  - intros ([n f] & I & E). cbn [fst snd] in E. apply andb_true_iff in E. destruct E as [E1 E2].
    apply Z.eqb_eq in E1. subst n. exists f. split; [exact I | apply qlt_t; exact E2].
  - intros (f & I & L). exists (1%Z, f). split; [exact I|]. cbn [fst snd]. rewrite qlt_true by exact L. reflexivity.
Qed.

Lemma h2o_sums_ok w l : (forall p, In p l -> water w (fst p) <> None) -> forall pos sum neg,
  exists pos' sum' neg', h2o_sums w l pos sum neg = Some (pos', sum', neg') /\
    pos' == pos + qsum (map (fun p => snd p * h2o w (fst p)) (filter (fun p => qle 0 (snd p)) l)) /\
    sum' == sum + qsum (map snd (filter (fun p => qle 0 (snd p)) l)) /\
    ((neg' = neg /\ forall p, In p l -> 0 <= snd p) \/ exists p, In p l /\ snd p < 0 /\ neg' = h2o w (fst p)).
Proof.
  induction l as [|[n f] r IH]; intros A pos sum neg; cbn [h2o_sums filter fst snd].
  - exists pos, sum, neg. cbn. split; [reflexivity|]. split; [ring|]. split; [ring|]. left. split; [reflexivity | contradiction].
  - pose proof (A (n, f) (or_introl eq_refl)) as W. cbn [fst] in W. destruct (water w n) as [h|] eqn:E; [|contradiction].
    assert (A' : forall p, In p r -> water w (fst p) <> None) by (intros p I; apply A; right; exact I).
    destruct (qle 0 f) eqn:F.
    + destruct (IH A' (pos + f * h) (sum + f) neg) as (p1 & s1 & n1 & E1 & P & S & N).
      exists p1, s1, n1. split; [exact E1|]. cbn [map qsum fst snd]. unfold h2o at 1. rewrite E.
      split; [rewrite P; ring|]. split; [rewrite S; ring|].
      destruct N as [[N1 N2] | (p & I & L & Nn)]; [left | right].
      * split; [exact N1|]. intros p [<-|I]; [apply qle_t; exact F | apply N2; exact I].
      * exists p. split; [right; exact I|]. split; assumption.
    + destruct (IH A' pos sum h) as (p1 & s1 & n1 & E1 & P & S & N).
      exists p1, s1, n1. split; [exact E1|]. split; [exact P|]. split; [exact S|]. right.
      destruct N as [[N1 N2] | (p & I & L & Nn)].
      * exists (n, f). split; [left; reflexivity|]. split; [apply qle_f; exact F|]. cbn [fst]. unfold h2o. rewrite E. exact N1.
      * exists p. split; [right; exact I|]. split; assumption.
Qed.

(** The factor. *)
Lemma factor_some w r : sound w r -> exists k, neg_factor w (sols r) = Some (Some k) /\
  (evaporating r -> exists p, In p (sols r) /\ snd p < 0 /\
     (0 < h2o w (fst p) -> k == Qabs (average w r / h2o w (fst p))) /\ (h2o w (fst p) <= 0 -> k = 1)).
Proof.
  intros [A B]. unfold neg_factor. destruct (evap (sols r)) eqn:E.
  2:{ exists 1. split; [reflexivity|]. intros V. apply evap_iff in V. congruence. }
  apply evap_iff in E. destruct (h2o_sums_ok w (sols r) A 0 0 0) as (pos & sum & neg & E1 & P & Su & N).
  rewrite E1. specialize (B E). unfold sum_added, added in B.
  assert (NZ : ~ sum == 0) by (rewrite Su; intros C; apply B; rewrite <- C; ring).
  destruct N as [[_ N] | (p & I & L & Nn)].
  { exfalso. destruct E as (f & I & L). specialize (N _ I). cbn in N. lra. }
  destruct (qlt 0 neg) eqn:G.
  - unfold qdivo. rewrite qeq_false by exact NZ. eexists. split; [reflexivity|]. intros _.
    exists p. split; [exact I|]. split; [exact L|]. apply qlt_t in G. split; [|rewrite <- Nn; lra].
    intros _. rewrite <- Nn. unfold average, water_added, sum_added, added.
    assert (X : pos / sum == qsum (map (fun p0 => snd p0 * h2o w (fst p0)) (filter (fun p0 => qle 0 (snd p0)) (sols r))) /
      qsum (map snd (filter (fun p0 => qle 0 (snd p0)) (sols r)))).
    { rewrite P, Su. rewrite !Qplus_0_l. reflexivity. }
    rewrite X. reflexivity.
  - exists 1. split; [reflexivity|]. intros _. exists p. split; [exact I|]. split; [exact L|]. apply qlt_f in G. rewrite Nn in G.
    split; [lra | reflexivity].
Qed.

Definition coef (r : request) (k : Q) (p : Z * Q) : Q :=
  snd p * (if evap (sols r) then if qlt (snd p) 0 then k else 1 else 1).
Lemma coef_plain r k p : (~ evaporating r \/ 0 <= snd p) -> coef r k p == snd p.
Proof.
  intros H. unfold coef. destruct (evap (sols r)) eqn:E; [|ring]. apply evap_iff in E.
  destruct H as [H|H]; [contradiction|]. rewrite qlt_false by exact H. ring.
Qed.
Lemma entries_coef r k : map (entry (evap (sols r)) (Some k)) (sols r) = map (fun p => Entry (fst p) (Some (coef r k p))) (sols r).
Proof.
  apply map_ext. intros p. unfold entry, coef. destruct (evap (sols r)); [|reflexivity]. destruct (qlt (snd p) 0); reflexivity.
Qed.

Section E.
Variable g : Q -> Q.
Variable react : list (kind * Z) -> vec -> vec.
Lemma engine_entries l : forall st s kept rest,
  engine g react st s kept (map (fun p => Entry (fst p) (snd p)) l ++ rest) =
  engine g react st (mkSim (mixes s ++ l) (uses s) (saves s) (keeps s) (copies s)) kept rest.
Proof.
  induction l as [|[n f] r IH]; intros st s kept rest; cbn [map app].
  - rewrite app_nil_r. destruct s; reflexivity.
  - cbn [engine fst snd]. rewrite IH. cbn [mixes uses saves keeps copies]. rewrite <- app_assoc. reflexivity.
Qed.
Lemma gather_ok st vv l : (forall p, In p l -> st (fst p) = Some (vv (fst p))) -> forall c : Z * Q -> Q,
  gather g st (map (fun p => (fst p, Some (c p))) l) = Some (map (fun p => (g (c p), vv (fst p))) l).
Proof.
  intros A c. induction l as [|p r IH]; [reflexivity|]. cbn [map gather].
  rewrite (A p (or_introl eq_refl)). rewrite IH by (intros q I; apply A; right; exact I). reflexivity.
Qed.

(** The first simulation. *)
Definition first_part (r : request) (k : Q) : list line :=
  MIX :: map (entry (evap (sols r)) (Some k)) (sols r) ++ [SaveSolution (n_rxn r); CopySolution (n_rxn r) (n_cons r); END].
Definition mixed (r : request) (k : Q) (vv : Z -> vec) : vec := blend (map (fun p => (g (coef r k p), vv (fst p))) (sols r)).
Lemma engine_first r k st vv kept rest : (forall p, In p (sols r) -> st (fst p) = Some (vv (fst p))) ->
  engine g react st fresh kept (first_part r k ++ rest) =
  engine g react (upd (upd st (n_rxn r) (Some (mixed r k vv))) (n_cons r) (Some (mixed r k vv))) fresh kept rest.
Proof.
  intros A. unfold first_part. rewrite entries_coef. cbn [app engine]. rewrite <- app_assoc. 
  replace (map (fun p => Entry (fst p) (Some (coef r k p))) (sols r)) with
    (map (fun p => Entry (fst p) (snd p)) (map (fun p => (fst p, Some (coef r k p))) (sols r)))
    by (rewrite map_map; reflexivity).
  rewrite engine_entries. cbn [app fresh mixes uses saves keeps copies engine]. unfold finish. cbn [mixes uses saves keeps copies].
  rewrite (gather_ok st vv _ A (coef r k)). cbn [reacted fold_left fst snd].
  assert (X : upd st (n_rxn r) (Some (mixed r k vv)) (n_rxn r) = Some (mixed r k vv)) by (unfold upd; rewrite Z.eqb_refl; reflexivity).
  unfold mixed in *. rewrite X. rewrite app_nil_r. reflexivity.
Qed.
End E.

Lemma not_reactive_b r : ~ reactive r <-> forallb (fun k => (user r k <? 0)%Z) kinds = true.
Proof.
  unfold reactive. split.
  - intros N. apply forallb_forall. intros k _. destruct (user r k <? 0)%Z eqn:E; [reflexivity|]. exfalso. apply N. exists k. lia.
  - intros F (k & K). rewrite forallb_forall in F.
    assert (I : In k kinds) by (unfold kinds; cbn [In]; destruct k; tauto).
    specialize (F k I). lia.
Qed.

Lemma upd_other {A} (f : Z -> A) n v k : k <> n -> upd f n v k = f k.
Proof. intros N. unfold upd. apply Z.eqb_neq in N. rewrite N. reflexivity. Qed.
Lemma upd_same {A} (f : Z -> A) n v : upd f n v n = v.
Proof. unfold upd. rewrite Z.eqb_refl. reflexivity. Qed.

Lemma conservative g react w r st vv :
  sound w r -> ~ reactive r -> (forall p, In p (sols r) -> st (fst p) = Some (vv (fst p))) ->
  exists c script M,
    pre_mix w r = (true, script, []) /\
    (forall p, In p (sols r) -> (~ evaporating r \/ 0 <= snd p) -> c p == snd p) /\
    M = blend (map (fun p => (g (c p), vv (fst p))) (sols r)) /\
    exists st', engine g react st fresh [] script = Some (st', []) /\
      st' (n_rxn r) = Some M /\ st' (n_cons r) = Some M /\
      (forall n, n <> n_rxn r -> n <> n_cons r -> st' n = st n).
Proof.
  intros Sd N A. destruct (factor_some w r Sd) as (k & K & _).
  exists (coef r k), (first_part r k), (mixed g r k vv). unfold pre_mix. rewrite K.
  apply not_reactive_b in N. rewrite N. split; [reflexivity|]. split; [intros p _; apply coef_plain|]. split; [reflexivity|].
  rewrite <- (app_nil_r (first_part r k)). rewrite (engine_first g react r k st vv [] [] A).
  eexists. split; [reflexivity|]. split; [|split].
  - unfold upd at 1. destruct (n_rxn r =? n_cons r)%Z; [reflexivity | apply upd_same].
  - apply upd_same.
  - intros n N1 N2. rewrite !upd_other by assumption. reflexivity.
Qed.

Lemma use_lines_flat w r l : flat_map (use_lines w r) l =
  flat_map (fun u => USE (fst u) (snd u) :: if saved (fst u) then [SAVE (fst u) (snd u)] else [])
    (map (fun k => (k, user r k)) (filter (fun k => (0 <=? user r k)%Z && entity w k (user r k)) l)).
Proof.
  induction l as [|k l IH]; [reflexivity|]. cbn [flat_map filter]. rewrite IH. unfold use_lines.
  destruct (0 <=? user r k)%Z; cbn [andb]; [|reflexivity]. destruct (entity w k (user r k)); reflexivity.
Qed.
Lemma engine_uses g react us : forall st s kept rest,
  engine g react st s kept (flat_map (fun u : kind * Z => USE (fst u) (snd u) :: if saved (fst u) then [SAVE (fst u) (snd u)] else []) us ++ rest) =
  engine g react st (mkSim (mixes s) (uses s ++ us) (saves s) (keeps s ++ filter (fun u => keeps_state (fst u)) us) (copies s)) kept rest.
Proof.
  induction us as [|[k n] us IH]; intros st s kept rest; cbn [flat_map app filter fst].
  - rewrite !app_nil_r. destruct s; reflexivity.
  - rewrite <- !app_assoc. cbn [app fst snd engine].
    assert (SK : saved k = keeps_state k) by (destruct k; reflexivity). rewrite SK.
    destruct (keeps_state k); cbn [app engine]; rewrite IH; cbn [mixes uses saves keeps copies]; rewrite <- !app_assoc; reflexivity.
Qed.

Lemma reactive_script g react w r st vv :
  sound w r -> reactive r -> ~ fill r == 0 -> n_cons r <> n_rxn r ->
  (forall p, In p (sols r) -> st (fst p) = Some (vv (fst p))) ->
  exists c script settings M up down,
    pre_mix w r = (true, script, settings) /\
    (forall p, In p (sols r) -> (~ evaporating r \/ 0 <= snd p) -> c p == snd p) /\
    up = fill r /\ down == 1 / fill r /\
    M = blend (map (fun p => (g (c p), vv (fst p))) (sols r)) /\
    exists st', engine g react st fresh [] script
                = Some (st', filter (fun u => keeps_state (fst u)) (wanted w r)) /\
      st' (n_cons r) = Some M /\
      st' (n_rxn r) = Some (blend [(g down, reacted react (wanted w r) (blend [(g up, M)]))]) /\
      (forall n, n <> n_rxn r -> n <> n_cons r -> st' n = st n).
Proof.
  intros Sd N F D A. destruct (factor_some w r Sd) as (k & K & _).
  unfold pre_mix. rewrite K.
  destruct (forallb (fun k0 => (user r k0 <? 0)%Z) kinds) eqn:FB; [apply not_reactive_b in FB; contradiction|].
  unfold qdivo. rewrite (qeq_false _ _ F).
  change (MIX :: map (entry (evap (sols r)) (Some k)) (sols r) ++ [SaveSolution (n_rxn r); CopySolution (n_rxn r) (n_cons r); END])
    with (first_part r k).
  exists (coef r k). eexists. eexists. exists (mixed g r k vv), (fill r), (1 / fill r).
  split; [reflexivity|]. split; [intros p _; apply coef_plain|]. split; [reflexivity|]. split; [reflexivity|]. split; [reflexivity|].
  rewrite (engine_first g react r k st vv [] _ A).
  set (M := mixed g r k vv). set (st1 := upd (upd st (n_rxn r) (Some M)) (n_cons r) (Some M)).
  assert (S1 : st1 (n_rxn r) = Some M) by (unfold st1; rewrite upd_other by congruence; apply upd_same).
  cbn [app engine fresh mixes uses saves keeps copies].
  rewrite use_lines_flat. change (filter _ kinds) with (filter (fun k => (0 <=? user r k)%Z && entity w k (user r k)) all_kinds).
  fold (wanted w r). rewrite engine_uses. cbn [app engine fresh mixes uses saves keeps copies].
  unfold finish at 1. cbn [app gather fold_left fst snd mixes uses saves keeps copies]. rewrite S1.
  set (v2 := reacted react (wanted w r) (blend [(g (fill r), M)])).
  unfold finish. cbn [app gather fold_left fst snd mixes uses saves keeps copies fresh]. rewrite upd_same.
  rewrite app_nil_r. eexists. split; [reflexivity|]. split; [|split].
  - rewrite !upd_other by congruence. unfold st1. apply upd_same.
  - rewrite upd_same. reflexivity.
  - intros n N1 N2. rewrite !upd_other by assumption. unfold st1. rewrite !upd_other by assumption. reflexivity.
Qed.

Lemma settings_sound w r s :
  In s (snd (pre_mix w r)) -> exists k, In (k, user r k) (wanted w r) /\
    ((k = Reaction /\ s = Moles (user r k) (rxnmols r * fill r)) \/
     (k = Kinetics /\ s = Seconds (user r k) (tsec r)) \/
     (k = Temperature /\ s = Degrees (user r k) (tempc r))).
Proof.
  unfold pre_mix. destruct (neg_factor w (sols r)); [|contradiction].
  destruct (forallb (fun k0 => (user r k0 <? 0)%Z) kinds); [contradiction|]. cbn [snd]. intros I.
  apply in_flat_map in I. destruct I as (k & Ik & I). exists k. unfold use_settings in I.
  destruct ((0 <=? user r k)%Z && entity w k (user r k)) eqn:E; [|contradiction].
  split; [unfold wanted; apply in_map_iff; exists k; split; [reflexivity|]; apply filter_In; split; [exact Ik | exact E]|].
  destruct k; cbn [In] in I; try contradiction; destruct I as [<-|[]]; tauto.
Qed.
Lemma settings_complete w r k :
  fst (fst (pre_mix w r)) = true -> In (k, user r k) (wanted w r) ->
  (k = Reaction -> In (Moles (user r k) (rxnmols r * fill r)) (snd (pre_mix w r))) /\
  (k = Kinetics -> In (Seconds (user r k) (tsec r)) (snd (pre_mix w r))) /\
  (k = Temperature -> In (Degrees (user r k) (tempc r)) (snd (pre_mix w r))).
Proof.
  unfold pre_mix. destruct (neg_factor w (sols r)) as [nf|]; [|discriminate]. intros _ I.
  unfold wanted in I. apply in_map_iff in I. destruct I as (k' & E & I). assert (k' = k) by congruence. subst k'. clear E.
  apply filter_In in I. destruct I as [Ik E].
  destruct (forallb (fun k0 => (user r k0 <? 0)%Z) kinds) eqn:FB.
  { rewrite forallb_forall in FB. specialize (FB k Ik). lia. }
  cbn [fst snd].
  assert (X : forall s, In s (use_settings w r k) -> In s (flat_map (use_settings w r) kinds))
    by (intros s Is; apply in_flat_map; exists k; split; [exact Ik | exact Is]).
  unfold use_settings in X at 1. rewrite E in X.
  split; [|split]; intros ->; apply X; left; reflexivity.
Qed.

Lemma net_dilution g f (M : vec) e : close g -> ~ f == 0 ->
  Qabs (blend [(g (1 / f), blend [(g f, M)])] e - M e) <= (11 # 1000000) * Qabs (M e).
Proof.
  intros C F. unfold blend. cbn [map qsum fst snd].
  pose proof (C f) as C1. pose proof (C (1 / f)) as C2.
  set (a := g f) in *. set (b := g (1 / f)) in *. clearbody a b. set (m := M e). clearbody m.
  assert (E : (b * (a * m + 0) + 0) - m == ((a / f) * (b * f) - 1) * m) by (field; exact F).
  rewrite E, Qabs_Qmult. apply Qmult_le_compat_r; [|apply Qabs_nonneg].
  assert (X1 : Qabs (a / f - 1) <= 1 # 200000).
  { assert (R : a / f - 1 == (a - f) * / f) by (field; exact F). rewrite R, Qabs_Qmult.
    assert (P : 0 < Qabs f) by (destruct (Qlt_le_dec 0 (Qabs f)) as [P|P]; [exact P|]; exfalso; apply F;
      apply Qabs_Qle_condition in P; lra).
    assert (Q1 : Qabs (/ f) == / Qabs f).
    { destruct (Qlt_le_dec 0 f); [rewrite !Qabs_pos; [reflexivity | lra | apply Qinv_le_0_compat; lra]|].
      assert (N : f < 0) by (destruct (Qeq_dec f 0); [contradiction | lra]).
      rewrite (Qabs_neg f) by lra. rewrite Qabs_neg; [field; exact F|].
      assert (0 <= / - f) by (apply Qinv_le_0_compat; lra).
      assert (/ - f == - / f) by (field; exact F). lra. }
    rewrite Q1. apply Qle_shift_div_r; [exact P | exact C1]. }
  assert (X2 : Qabs (b * f - 1) <= 1 # 200000).
  { assert (R : b * f - 1 == (b - 1 / f) * f) by (field; exact F). rewrite R, Qabs_Qmult.
    apply Qle_trans with (((1 # 200000) * Qabs (1 / f)) * Qabs f); [apply Qmult_le_compat_r; [exact C2 | apply Qabs_nonneg]|].
    rewrite <- Qmult_assoc, <- Qabs_Qmult. assert (R2 : 1 / f * f == 1) by (field; exact F). rewrite R2. cbn. lra. }
  set (x := a / f) in *. set (y := b * f) in *. clearbody x y.
  apply Qabs_Qle_condition in X1. apply Qabs_Qle_condition in X2. apply Qabs_Qle_condition. nra.
Qed.

Lemma pow10_mod3 n : (0 <= n -> 10 ^ n mod 3 = 1)%Z.
Proof.
  revert n. apply natlike_ind; [reflexivity|].
  intros n N IH. rewrite Z.pow_succ_r by exact N. rewrite Z.mul_mod, IH by lia. reflexivity.
Qed.
Lemma not_third m k : ~ inject_Z m * Qpower 10 k * 3 == 1.
Proof.
  intros E. destruct (Z_le_gt_dec 0 k) as [K|K].
  - assert (P : Qpower 10 k == inject_Z (10 ^ k)) by (symmetry; apply (Zpower_Qpower 10 k K)).
    rewrite P in E. change 3 with (inject_Z 3) in E. change 1 with (inject_Z 1) in E.
    rewrite <- !inject_Z_mult in E. rewrite inject_Z_injective in E. lia.
  - assert (P : Qpower 10 k == / inject_Z (10 ^ (- k))).
    { replace k with (- (- k))%Z at 1 by lia. rewrite Qpower_opp. rewrite (Zpower_Qpower 10 (- k)) by lia. reflexivity. }
    assert (NZ : ~ inject_Z (10 ^ (- k)) == 0).
    { change 0 with (inject_Z 0). rewrite inject_Z_injective. pose proof (Z.pow_pos_nonneg 10 (- k)). lia. }
    rewrite P in E.
    assert (E2 : inject_Z m * inject_Z 3 == inject_Z (10 ^ (- k))).
    { transitivity ((inject_Z m * / inject_Z (10 ^ (- k)) * 3) * inject_Z (10 ^ (- k))); [change (inject_Z 3) with 3; field; exact NZ|].
      rewrite E. ring. }
    rewrite <- inject_Z_mult in E2. rewrite inject_Z_injective in E2.
    pose proof (pow10_mod3 (- k) ltac:(lia)) as M. rewrite <- E2 in M. rewrite Z.mod_mul in M by lia. lia.
Qed.
Lemma not_exact g (M : vec) e : six_digits g -> ~ M e == 0 -> ~ blend [(g (1 / 3), blend [(g 3, M)])] e == M e.
Proof.
  intros [A B] N E. unfold blend in E. cbn [map qsum fst snd] in E.
  pose proof (B 3%Z ltac:(lia)) as G3. change (inject_Z 3) with 3 in G3. rewrite G3 in E.
  destruct (A (1 / 3)) as (m & k & _ & G). rewrite G in E. apply (not_third m k).
  apply (Qmult_inj_r _ _ (M e) N). rewrite Qmult_1_l. rewrite <- E at 2. ring.
Qed.

Lemma failure_ignored : exists w r, fst (fst (pre_mix w r)) = false /\ forall acc, run_mix w r acc = acc.
Proof.
  exists (mkW (fun n => if (n =? 1)%Z then Some 1 else None) (fun _ _ => false)).
  exists (mkReq [(1%Z, -(1 # 10)); (7%Z, 1)] 20 21 1 (fun _ => (-1)%Z) 0 0 0).
  split; [reflexivity|]. intros acc. unfold run_mix. cbn. apply app_nil_r.
Qed.
Lemma bad_fill : exists w r script settings, fill r == 0 /\ pre_mix w r = (true, script, settings) /\
  In (Entry (n_rxn r) None) script /\ (forall g react st, engine g react st fresh [] script = None).
Proof.
  exists (mkW (fun n => Some 1) (fun _ _ => true)).
  exists (mkReq [(7%Z, 1)] 20 21 0 (fun k => match k with Exchange => 5%Z | _ => (-1)%Z end) 0 0 0).
  eexists. eexists. split; [reflexivity|]. split; [reflexivity|]. split; [cbn; tauto|].
  intros g react st. cbn -[finish].
  match goal with |- context [finish g react st ?x] => destruct (finish g react st x) as [s1|]; [|reflexivity] end.
  match goal with |- context [finish g react s1 ?x] => destruct (finish g react s1 x); reflexivity end.
Qed.

(** ** Evaporation *)
Lemma in_script w r k : neg_factor w (sols r) = Some (Some k) ->
  exists rest settings, pre_mix w r = (true, MIX :: map (fun p => Entry (fst p) (Some (coef r k p))) (sols r) ++ rest, settings).
Proof.
  intros K. unfold pre_mix. rewrite K, entries_coef.
  destruct (forallb (fun k0 => (user r k0 <? 0)%Z) kinds); [eauto|].
  cbn [app]. rewrite <- app_assoc. eauto.
Qed.

Lemma qsum_nonneg l : (forall x, In x l -> 0 <= x) -> 0 <= qsum l.
Proof.
  induction l as [|x r IH]; intros A; cbn [qsum]; [lra|].
  pose proof (A x (or_introl eq_refl)). assert (0 <= qsum r) by (apply IH; intros y I; apply A; right; exact I). lra.
Qed.
Lemma average_nonneg w r : (forall p, In p (sols r) -> 0 <= h2o w (fst p)) -> 0 <= average w r.
Proof.
  intros A. unfold average. 
  assert (X : 0 <= water_added w r).
  { apply qsum_nonneg. intros x I. apply in_map_iff in I. destruct I as (p & <- & I). apply filter_In in I.
    destruct I as [I L]. apply qle_t in L. apply Qmult_le_0_compat; [exact L | apply A; exact I]. }
  assert (Y : 0 <= sum_added r).
  { apply qsum_nonneg. intros x I. apply in_map_iff in I. destruct I as (p & <- & I). apply filter_In in I. apply qle_t. apply I. }
  unfold Qdiv. apply Qmult_le_0_compat; [exact X | apply Qinv_le_0_compat; exact Y].
Qed.

Lemma factor_pure w r : sound w r -> evaporating r ->
  (forall p, In p (sols r) -> snd p < 0 -> fst p = 1%Z) ->
  (forall p, In p (sols r) -> 0 <= h2o w (fst p)) -> 0 < h2o w 1 ->
  exists k, neg_factor w (sols r) = Some (Some k) /\ k * h2o w 1 == average w r.
Proof.
  intros Sd Ev O1 W0 W1. destruct (factor_some w r Sd) as (k & K & F). exists k. split; [exact K|].
  destruct (F Ev) as (p & I & L & F1 & _). rewrite (O1 p I L) in F1. rewrite (F1 W1).
  pose proof (average_nonneg w r W0) as AN.
  rewrite Qabs_pos.
  - field. lra.
  - unfold Qdiv. apply Qmult_le_0_compat; [exact AN | apply Qinv_le_0_compat; lra].
Qed.
Lemma coef_neg r k p : evaporating r -> snd p < 0 -> coef r k p = snd p * k.
Proof. intros E L. unfold coef. apply evap_iff in E. rewrite E, qlt_true by exact L. reflexivity. Qed.

Lemma removed w r f : sound w r ->
  (forall p, In p (sols r) -> snd p < 0 -> fst p = 1%Z) ->
  (forall p, In p (sols r) -> 0 <= h2o w (fst p)) -> 0 < h2o w 1 -> 
  In (1%Z, f) (sols r) -> f < 0 ->
  exists c script settings, pre_mix w r = (true, script, settings) /\ In (Entry 1 (Some c)) script /\
    c * h2o w 1 == f * average w r.
Proof.
  intros Sd O1 W0 W1 I L. assert (Ev : evaporating r) by (exists f; auto).
  destruct (factor_pure w r Sd Ev O1 W0 W1) as (k & K & E).
  destruct (in_script w r k K) as (rest & settings & P).
  exists (coef r k (1%Z, f)). eexists. eexists. split; [exact P|]. split.
  - right. apply in_or_app. left. apply in_map_iff. exists (1%Z, f). split; [reflexivity | exact I].
  - rewrite coef_neg by assumption. cbn [snd]. rewrite <- E. ring.
Qed.
Lemma remaining w r : sound w r -> evaporating r ->
  (forall p, In p (sols r) -> snd p < 0 -> fst p = 1%Z) ->
  (forall p, In p (sols r) -> 0 <= h2o w (fst p)) -> 0 < h2o w 1 -> 
  exists c rest settings,
    pre_mix w r = (true, MIX :: map (fun p => Entry (fst p) (Some (c p))) (sols r) ++ rest, settings) /\
    qsum (map (fun p => c p * h2o w (fst p)) (sols r)) == average w r * qsum (map snd (sols r)).
Proof.
  intros Sd Ev O1 W0 W1. destruct (factor_pure w r Sd Ev O1 W0 W1) as (k & K & E).
  destruct (in_script w r k K) as (rest & settings & P).
  exists (coef r k), rest, settings. split; [exact P|].
  assert (G : forall l, (forall p, In p l -> In p (sols r)) ->
    qsum (map (fun p => coef r k p * h2o w (fst p)) l) ==
    qsum (map (fun p => snd p * h2o w (fst p)) (filter (fun p => qle 0 (snd p)) l))
    + average w r * (qsum (map snd l) - qsum (map snd (filter (fun p => qle 0 (snd p)) l)))).
  { induction l as [|p l IH]; intros A; cbn [map qsum filter]; [ring|].
    rewrite IH by (intros q I; apply A; right; exact I).
    destruct (qle 0 (snd p)) eqn:L; cbn [map qsum].
    - apply qle_t in L. rewrite (coef_plain r k p) by (right; exact L). ring.
    - apply qle_f in L. rewrite (coef_neg r k p Ev L). rewrite (O1 p (A p (or_introl eq_refl)) L).
      assert (X : snd p * k * h2o w 1 == snd p * average w r) by (rewrite <- E; ring). rewrite X. ring. }
  rewrite (G (sols r)) by auto.
  change (filter (fun p => qle 0 (snd p)) (sols r)) with (added r). fold (water_added w r). fold (sum_added r).
  assert (NZ : ~ sum_added r == 0) by (apply (proj2 Sd); exact Ev).
  assert (X : water_added w r == average w r * sum_added r) by (unfold average; field; exact NZ).
  rewrite X. ring.
Qed.
Lemma second_negative : exists w r c script settings, sound w r /\
  pre_mix w r = (true, script, settings) /\ In (1%Z, -(1)) (sols r) /\ In (Entry 1 (Some c)) script /\ c < 0 /\
  (forall c', In (Entry 1 (Some c')) script -> c' = c) /\
  ~ c * h2o w 1 == -(1) * average w r.
Proof.
  exists (mkW (fun n => if (n =? 9)%Z then Some 2 else Some 1) (fun _ _ => false)).
  exists (mkReq [(5%Z, 4); (1%Z, -(1)); (9%Z, -(1))] 20 21 1 (fun _ => (-1)%Z) 0 0 0).
  eexists. eexists. eexists. split.
  { split; [intros p _; cbn; destruct (fst p =? 9)%Z; discriminate|]. intros _. vm_compute. discriminate. }
  split; [reflexivity|]. split; [cbn; tauto|]. split; [right; right; left; reflexivity|]. split; [reflexivity|].
  split; [|vm_compute; discriminate].
  intros c' H. vm_compute in H. vm_compute. repeat (destruct H as [H|H]); try discriminate H; try contradiction.
  congruence.
Qed.

(** ** Melt *)
Lemma qdivo_some a b c : qdivo a b = Some c -> ~ b == 0 /\ c = a / b.
Proof. unfold qdivo. destruct (qeq b 0) eqn:E; [discriminate|]. apply qeq_f in E. intros H. split; [exact E | congruence]. Qed.

Lemma program_inv W O o gfw eps ipf fm rstd m : melt_program W O o gfw eps ipf fm rstd = Some m ->
  ~ 1 - fm == 0 /\ ~ 1 + ipf * fm / (1 - fm) == 0 /\
  fracp m = 1 / (1 + ipf * fm / (1 - fm)) /\ fracm m = 1 - fracp m /\
  xfer_p m = W * ((1 - fm) - fracp m) / ((1 # 1000) * gfw) /\
  xfer_m m = W * (fm - fracm m) / ((1 # 1000) * gfw) /\
  let o_p := fracp m * O + xfer_p m in let o_m := fracm m * O + xfer_m m in
  ~ o_p == 0 /\ ~ o_m == 0 /\ ~ 1 / o_m + 1 / o_p == 0 /\
  o18_m m = (o / o_p - - eps / 1000 * rstd) / (1 / o_m + 1 / o_p) /\
  o18_p m = (o / o_m + - eps / 1000 * rstd) / (1 / o_p + 1 / o_m) /\
  diff m = o18_m m - fracm m * o.
Proof.
  unfold melt_program. cbv zeta.
  destruct (qdivo (ipf * fm) (1 - fm)) as [x|] eqn:E1; [|discriminate]. apply qdivo_some in E1. destruct E1 as [N1 ->].
  destruct (qdivo 1 (1 + ipf * fm / (1 - fm))) as [fp|] eqn:E2; [|discriminate]. apply qdivo_some in E2. destruct E2 as [N2 Ef].
  set (o_p := fp * O + W * (1 - fm - fp) / ((1 # 1000) * gfw)).
  set (o_m := (1 - fp) * O + W * (fm - (1 - fp)) / ((1 # 1000) * gfw)).
  destruct (qdivo o o_p) as [tp|] eqn:E3; [|discriminate]. apply qdivo_some in E3. destruct E3 as [N3 E3].
  destruct (qdivo o o_m) as [tm|] eqn:E4; [|discriminate]. apply qdivo_some in E4. destruct E4 as [N4 E4].
  destruct (qdivo 1 o_m) as [im|] eqn:E5; [|discriminate]. apply qdivo_some in E5. destruct E5 as [_ E5].
  destruct (qdivo 1 o_p) as [ip|] eqn:E6; [|discriminate]. apply qdivo_some in E6. destruct E6 as [_ E6].
  destruct (qdivo (tp - - eps / 1000 * rstd) (im + ip)) as [a|] eqn:E7; [|discriminate]. apply qdivo_some in E7. destruct E7 as [N7 E7].
  destruct (qdivo (tm + - eps / 1000 * rstd) (ip + im)) as [b|] eqn:E8; [|discriminate]. apply qdivo_some in E8. destruct E8 as [_ E8].
  intros H. assert (Hm : m = mkMelt fp (1 - fp) (W * (1 - fm - fp) / ((1 # 1000) * gfw)) (W * (fm - (1 - fp)) / ((1 # 1000) * gfw)) a b (a - (1 - fp) * o)) by congruence.
  rewrite Hm. cbn [fracp fracm xfer_p xfer_m o18_m o18_p diff]. fold o_p o_m. subst tp tm im ip.
  split; [exact N1|]. split; [exact N2|]. split; [exact Ef|]. split; [reflexivity|]. split; [reflexivity|]. split; [reflexivity|].
  split; [exact N3|]. split; [exact N4|]. split; [exact N7|]. split; [exact E7|]. split; [exact E8 | reflexivity].
Qed.

Lemma fracp_eq ipf fm : ~ 1 - fm == 0 -> ~ 1 + ipf * fm / (1 - fm) == 0 ->
  (1 / (1 + ipf * fm / (1 - fm))) * (1 - fm + ipf * fm) == 1 - fm.
Proof.
  intros N1 N2. assert (X : 1 - fm + ipf * fm == (1 + ipf * fm / (1 - fm)) * (1 - fm)) by (field; exact N1).
  rewrite X. field. split; [exact N1|]. intros C. apply N2. 
  assert (Y : 1 + ipf * fm / (1 - fm) == (1 - fm + ipf * fm) / (1 - fm)) by (field; exact N1). rewrite Y, C. field; exact N1.
Qed.

Lemma fractions W O o gfw eps ipf fm rstd m :
  0 < fm -> fm < 1 -> 0 <= ipf -> melt_program W O o gfw eps ipf fm rstd = Some m ->
  0 < fracp m /\ fracp m <= 1 /\ 0 <= fracm m /\ fracm m < 1 /\ fracp m + fracm m == 1 /\
  fracp m * (1 - fm + ipf * fm) == 1 - fm /\ fracm m * (1 - fm + ipf * fm) == ipf * fm.
Proof.
  intros F0 F1 I E. apply program_inv in E. destruct E as (N1 & N2 & Ep & Em & _).
  pose proof (fracp_eq ipf fm N1 N2) as X. rewrite <- Ep in X. rewrite Em. set (a := fracp m) in *. clearbody a.
  assert (P : 0 <= ipf * fm) by (apply Qmult_le_0_compat; lra).
  assert (A0 : 0 < a) by (destruct (Qlt_le_dec 0 a); [assumption | nra]).
  assert (A1 : a <= 1) by (destruct (Qlt_le_dec 1 a); [nra | assumption]).
  split; [exact A0|]. split; [exact A1|]. split; [lra|]. split; [lra|]. split; [ring|]. split; [exact X|].
  setoid_replace ((1 - a) * (1 - fm + ipf * fm)) with ((1 - fm + ipf * fm) - a * (1 - fm + ipf * fm)) by ring. rewrite X. ring.
Qed.

Lemma conserved gfw eps ipf fm rstd p q p' :
  melt_pack gfw eps ipf fm rstd p = Some (q, p') ->
  mass q + mass p' == mass p /\ oxy q + oxy p' == oxy p /\ o18 q + o18 p' == o18 p /\
  forall e, solute q e + solute p' e == solute p e.
Proof.
  unfold melt_pack. destruct (melt_program _ _ _ _ _ _ _ _) as [m|]; [|discriminate]. intros H.
  assert (Hq : q = make_melt m gfw p) by congruence. assert (Hp : p' = make_pack p (make_melt m gfw p)) by congruence.
  rewrite Hp, Hq. unfold make_pack, make_melt. cbn [mass oxy o18 solute].
  split; [ring|]. split; [ring|]. split; [ring|]. intros e. ring.
Qed.
Lemma split_amounts gfw eps ipf fm rstd p q p' :
  0 < gfw -> 0 < fm -> fm < 1 -> 0 <= ipf -> melt_pack gfw eps ipf fm rstd p = Some (q, p') ->
  mass q == fm * mass p /\ mass p' == (1 - fm) * mass p /\
  (forall e, solute q e * (1 - fm + ipf * fm) == ipf * fm * solute p e) /\
  (forall e, solute p' e * (1 - fm + ipf * fm) == (1 - fm) * solute p e) /\
  (forall e, 0 <= solute p e -> 0 <= solute q e /\ 0 <= solute p' e).
Proof.
  intros G F0 F1 I. unfold melt_pack. destruct (melt_program _ _ _ _ _ _ _ _) as [m|] eqn:E; [|discriminate]. intros H.
  pose proof (fractions _ _ _ _ _ _ _ _ _ F0 F1 I E) as (A & B & C & D & S1 & X & Y).
  apply program_inv in E. destruct E as (N1 & N2 & Ep & Em & Xp & Xm & _).
  assert (Hq : q = make_melt m gfw p) by congruence. assert (Hp : p' = make_pack p (make_melt m gfw p)) by congruence.
  rewrite Hp, Hq. unfold make_pack, make_melt. cbn [mass oxy o18 solute].
  assert (M : xfer_m m * ((1 # 1000) * gfw) == mass p * (fm - fracm m)) by (rewrite Xm; field; lra).
  split; [rewrite M; ring|]. split; [rewrite M; ring|].
  split; [intros e; setoid_replace (fracm m * solute p e * (1 - fm + ipf * fm)) with ((fracm m * (1 - fm + ipf * fm)) * solute p e) by ring; rewrite Y; reflexivity|].
  split.
  - intros e. setoid_replace ((1 * solute p e + - (1) * (fracm m * solute p e)) * (1 - fm + ipf * fm)) with
      ((1 - fm + ipf * fm) * solute p e - (fracm m * (1 - fm + ipf * fm)) * solute p e) by ring. rewrite Y. ring.
  - intros e Pe. split; [apply Qmult_le_0_compat; assumption|].
    setoid_replace (1 * solute p e + - (1) * (fracm m * solute p e)) with ((1 - fracm m) * solute p e) by ring.
    apply Qmult_le_0_compat; [lra | exact Pe].
Qed.
Lemma isotopes gfw eps ipf fm rstd p q p' :
  0 < gfw -> 0 < fm -> fm < 1 -> melt_pack gfw eps ipf fm rstd p = Some (q, p') ->
  o18 q / oxy q - o18 p' / oxy p' == eps / 1000 * rstd.
Proof.
  intros G F0 F1. unfold melt_pack. destruct (melt_program _ _ _ _ _ _ _ _) as [m|] eqn:E; [|discriminate]. intros H.
  apply program_inv in E. destruct E as (N1 & N2 & Ep & Em & Xp & Xm & No & Nm & Ns & Om & Op & Df). cbv zeta in *.
  assert (Hq : q = make_melt m gfw p) by congruence. assert (Hp : p' = make_pack p (make_melt m gfw p)) by congruence.
  rewrite Hp, Hq. unfold make_pack, make_melt. cbn [mass oxy o18 solute].
  set (om := fracm m * oxy p + xfer_m m) in *. set (op := fracp m * oxy p + xfer_p m) in *.
  assert (T : om + op == oxy p).
  { unfold om, op. rewrite Xm, Xp, Em. field. lra. }
  assert (A1 : 1 * oxy p + - (1) * om == op) by (rewrite <- T; ring). rewrite A1.
  assert (A2 : fracm m * o18 p + diff m == o18_m m) by (rewrite Df; ring). rewrite A2.
  rewrite Om. clearbody om op. field.
  assert (Z : 1 / om + 1 / op == (op + om) / (om * op)) by (field; split; assumption).
  split; [exact No|]. split; [exact Nm|].
  intros C. apply Ns. rewrite Z. 
  assert (C' : op + om == 0) by (first [exact C | rewrite Qplus_comm; exact C]). rewrite C'. field. split; assumption.
Qed.
Lemma per_kg_ok a b : per_kg a = Some b -> 
  mass b == 1 /\ mass a * oxy b == oxy a /\ mass a * o18 b == o18 a /\ forall e, mass a * solute b e == solute a e.
Proof.
  unfold per_kg. destruct (qdivo 1 (mass a)) as [x|] eqn:E; [|discriminate]. apply qdivo_some in E. destruct E as [N ->].
  intros H. assert (Hb : b = mkAq (1 / mass a * mass a) (1 / mass a * oxy a) (1 / mass a * o18 a) (fun e => 1 / mass a * solute a e)) by congruence.
  rewrite Hb. cbn [mass oxy o18 solute]. split; [field; exact N|]. split; [field; exact N|]. split; [field; exact N|]. intros e. field. exact N.
Qed.
Lemma qdivo_ok a b : ~ b == 0 -> qdivo a b = Some (a / b).
Proof. intros N. unfold qdivo. rewrite qeq_false by exact N. reflexivity. Qed.
Lemma defined gfw eps ipf fm rstd p :
  0 < gfw -> 0 < fm -> fm < 1 -> 0 <= ipf -> 0 < mass p -> oxy p * ((1 # 1000) * gfw) == mass p ->
  exists q p', melt_pack gfw eps ipf fm rstd p = Some (q, p') /\ per_kg q <> None /\ per_kg p' <> None.
Proof.
  intros G F0 F1 I M OM.
  assert (EX : exists m, melt_program (mass p) (oxy p) (o18 p) gfw eps ipf fm rstd = Some m).
  { unfold melt_program. cbv zeta.
    assert (P : 0 <= ipf * fm / (1 - fm)).
    { unfold Qdiv. apply Qmult_le_0_compat; [apply Qmult_le_0_compat; lra | apply Qinv_le_0_compat; lra]. }
    rewrite (qdivo_ok (ipf * fm)) by lra. rewrite (qdivo_ok 1 (1 + _)) by lra.
    set (fp := 1 / (1 + ipf * fm / (1 - fm))).
    assert (GP : ~ gfw == 0) by lra.
    assert (OE : oxy p == mass p / ((1 # 1000) * gfw)) by (rewrite <- OM; field; exact GP).
    assert (OP : 0 < oxy p).
    { destruct (Qlt_le_dec 0 (oxy p)) as [L|L]; [exact L|]. exfalso. nra. }
    assert (Ep : fp * oxy p + mass p * (1 - fm - fp) / ((1 # 1000) * gfw) == (1 - fm) * oxy p) by (rewrite OE; field; exact GP).
    assert (Em : (1 - fp) * oxy p + mass p * (fm - (1 - fp)) / ((1 # 1000) * gfw) == fm * oxy p) by (rewrite OE; field; exact GP).
    set (op := fp * oxy p + mass p * (1 - fm - fp) / ((1 # 1000) * gfw)) in *.
    set (om := (1 - fp) * oxy p + mass p * (fm - (1 - fp)) / ((1 # 1000) * gfw)) in *.
    assert (Pp : 0 < op) by (rewrite Ep; apply Qmult_lt_0_compat; lra).
    assert (Pm : 0 < om) by (rewrite Em; apply Qmult_lt_0_compat; lra).
    rewrite !qdivo_ok by lra.
    assert (I1 : 0 < 1 / om) by (unfold Qdiv; rewrite Qmult_1_l; apply Qinv_lt_0_compat; exact Pm).
    assert (I2 : 0 < 1 / op) by (unfold Qdiv; rewrite Qmult_1_l; apply Qinv_lt_0_compat; exact Pp).
    rewrite !qdivo_ok by lra. eexists. reflexivity. }
  destruct EX as [m E]. exists (make_melt m gfw p), (make_pack p (make_melt m gfw p)).
  assert (MP : melt_pack gfw eps ipf fm rstd p = Some (make_melt m gfw p, make_pack p (make_melt m gfw p)))
    by (unfold melt_pack; rewrite E; reflexivity).
  split; [exact MP|]. destruct (split_amounts _ _ _ _ _ _ _ _ G F0 F1 I MP) as (M1 & M2 & _).
  unfold per_kg. assert (0 < mass (make_melt m gfw p)) by (rewrite M1; apply Qmult_lt_0_compat; lra).
  assert (0 < mass (make_pack p (make_melt m gfw p))) by (rewrite M2; apply Qmult_lt_0_compat; lra).
  split; rewrite qdivo_ok by lra; discriminate.
Qed.
