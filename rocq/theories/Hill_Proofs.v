(** Proofs for C60-C63. *)
From Coq Require Import QArith Qabs ZArith List Bool Lia Lqa.
From Verif Require Import Qx Infil_Model Infil_Proofs Hill_Model Hill_Spec.
Import ListNotations.
Local Open Scope Q_scope.

Lemma qabs_neg x : x < 0 -> Qabs x == - x.
Proof. intros H. rewrite Qabs_neg; [reflexivity|lra]. Qed.

(** ** One bin *)
Lemma saturate_ok sd suz uz sd' suz' t : saturate sd suz = (uz, sd', suz', t) ->
  uz + suz' == suz /\ (t = false -> uz = 0 /\ sd' = sd /\ suz' = suz /\ suz < sd) /\ (t = true -> uz = suz /\ suz' = 0 /\ sd' <= 0).
Proof. unfold saturate. destruct (qle sd suz) eqn:E; qprop; intros X; injection X as <- <- <- <-; (split; [ring|split; intros Y; try discriminate; repeat split; try reflexivity; lra]). Qed.
Lemma wet_ok sd srz wet srz' sd' : wet_root sd srz = (wet, srz', sd') -> wet + srz' == srz /\ 0 <= sd' /\ (sd <= 0 -> sd' == 0) /\ (0 <= sd -> sd' = sd /\ wet = 0) /\ (0 <= srz -> 0 <= wet /\ 0 <= srz').
Proof.
  unfold wet_root. destruct (qlt sd 0) eqn:E; qprop; [pose proof (qabs_neg sd E) as A; destruct (qle srz (Qabs sd)) eqn:F; qprop|]; intros X; injection X as <- <- <-; repeat split; intros; try reflexivity; lra.
Qed.
Lemma root_ok srz suz a b srz' suz' : root_zone srz suz a b = (srz', suz') -> suz' - srz' == suz - srz + a + b /\ 0 <= srz' /\
  (0 <= a -> 0 <= srz -> srz' <= srz /\ suz + b <= suz' /\ suz' <= suz + a + b).
Proof. unfold root_zone. destruct (qlt (srz - a) 0) eqn:E; qprop; intros X; injection X as <- <-; repeat split; intros; lra. Qed.
Lemma excess_ok sd suz ex suz' : sat_excess sd suz = (ex, suz') -> ex + suz' == suz /\ 0 <= ex /\ suz' <= sd /\ (ex == 0 \/ suz' = sd).
Proof. unfold sat_excess. destruct (qlt sd suz) eqn:E; qprop; intros X; injection X as <- <-; (split; [lra|split; [lra|split; [lra|]]]); [right; reflexivity|left; reflexivity]. Qed.
Lemma drain_ok dt td sd suz uz t uz' suz' : drain dt td sd suz uz t = Some (uz', suz') -> (t = false -> uz = 0) ->
  exists lost, 0 <= lost /\ lost <= tiny /\ uz' + suz' + lost == suz + uz /\ (0 < suz -> t = false).
Proof.
  unfold drain, tiny. destruct (qlt 0 suz) eqn:E; [|intros X _; injection X as <- <-; exists 0; qprop; repeat split; try lra].
  set (u := if qlt 0 sd then if qeq td 0 then suz else suz * dt / (sd * td) else suz).
  destruct t; [discriminate|]. intros X Z. specialize (Z eq_refl). injection X as <- <-. subst uz.
  exists (suz - (if qle suz u then suz else u) - (if qlt (suz - (if qle suz u then suz else u)) (1 # 10000000) then 0 else suz - (if qle suz u then suz else u))).
  destruct (qle suz u) eqn:F; [|]; (destruct (qlt _ (1 # 10000000)) eqn:G); qprop; repeat split; try lra.
Qed.
Lemma drain_some dt td sd suz uz t : (t = true -> suz <= 0) -> drain dt td sd suz uz t <> None.
Proof. unfold drain. destruct (qlt 0 suz) eqn:E; [|discriminate]. destruct t; [|discriminate]. intros H. specialize (H eq_refl). qprop. lra. Qed.
Lemma drain_range dt td sd suz uz t uz' suz' : 0 <= dt -> 0 <= td -> 0 <= suz -> 0 <= uz -> drain dt td sd suz uz t = Some (uz', suz') -> 0 <= uz' /\ 0 <= suz'.
Proof.
  intros D T H U. unfold drain. destruct (qlt 0 suz) eqn:E; [|intros X; injection X as <- <-; split; assumption].
  set (u := if qlt 0 sd then if qeq td 0 then suz else suz * dt / (sd * td) else suz).
  assert (UP : 0 <= u). { unfold u. destruct (qlt 0 sd) eqn:F; [|exact H]. destruct (qeq td 0) eqn:G; [exact H|]. qprop. apply Qle_shift_div_l; [apply Qmult_lt_0_compat; lra|]. assert (0 <= suz * dt) by (apply Qmult_le_0_compat; assumption). lra. }
  destruct t; [discriminate|]. intros X. injection X as <- <-. destruct (qle suz u) eqn:F; (destruct (qlt _ (1 # 10000000)) eqn:G); qprop; split; lra.
Qed.

Lemma bin_bal u dt sbar ep tr p2rz qv p acf st b b' l sat : ~ acf == 0 -> bin_step u dt sbar ep tr p2rz qv p acf st b = Some (b', l, sat) ->
  exists lost, 0 <= lost /\ lost <= tiny /\ suz b' - srz b' == suz b - srz b + p2rz + qv - l_ex l - (l_quz l + l_qdf l) - l_ea l + l_wet l - lost /\
    l_infil l = p - l_ex l /\ z_local b' = z_local b /\ uz_depth b' = uz_depth b.
Proof.
  intros NA. unfold bin_step. rewrite (qeq_false _ _ NA).
  destruct (saturate (deficit u sbar st) (suz b)) as [[[uz sd] suz1] t] eqn:E1. apply saturate_ok in E1. destruct E1 as (A1 & A2 & A3).
  destruct (wet_root sd (srz b)) as [[wet srz1] sd'] eqn:E2. apply wet_ok in E2. destruct E2 as (B1 & _).
  destruct (root_zone srz1 suz1 p2rz qv) as [srz2 suz2] eqn:E3. apply root_ok in E3. destruct E3 as (C1 & _).
  destruct (sat_excess sd' suz2) as [ex suz3] eqn:E4. apply excess_ok in E4. destruct E4 as (D1 & _).
  destruct (drain dt (td u) sd' suz3 uz t) as [[uz' suz4]|] eqn:E5; [|discriminate]. apply drain_ok in E5; [|intros H; apply A2 in H; tauto]. destruct E5 as (lost & L0 & L1 & L2 & _).
  intros X. injection X as <- <- <-. exists lost. cbn [suz srz l_ex l_quz l_qdf l_ea l_wet l_infil z_local uz_depth]. repeat split; try assumption.
  assert (Z : uz' * (1 - qdffrac u) + uz' * qdffrac u == uz') by ring. rewrite Z. lra.
Qed.
Lemma bin_some u dt sbar ep tr p2rz qv p acf st b : bin_step u dt sbar ep tr p2rz qv p acf st b <> None.
Proof.
  unfold bin_step. destruct (qeq acf 0); [discriminate|].
  destruct (saturate (deficit u sbar st) (suz b)) as [[[uz sd] suz1] t] eqn:E1. apply saturate_ok in E1. destruct E1 as (A1 & A2 & A3).
  destruct (wet_root sd (srz b)) as [[wet srz1] sd'] eqn:E2. apply wet_ok in E2. destruct E2 as (B1 & B2 & B3 & _).
  destruct (root_zone srz1 suz1 p2rz qv) as [srz2 suz2]. destruct (sat_excess sd' suz2) as [ex suz3] eqn:E4. apply excess_ok in E4. destruct E4 as (_ & _ & D2 & _).
  pose proof (drain_some dt (td u) sd' suz3 uz t) as D. destruct (drain dt (td u) sd' suz3 uz t) as [[uz' suz4]|] eqn:E5; [discriminate|]. exfalso. apply D; [|reflexivity].
  intros ->. destruct (A3 eq_refl) as (_ & _ & S). specialize (B3 S). lra.
Qed.

(** ** The areas *)
Lemma acfs_length l : length (acfs l) = length l.
Proof. induction l as [|a r IH]; [reflexivity|]. cbn [acfs]. destruct r; [reflexivity|]. cbn [length] in *. f_equal. exact IH. Qed.
Lemma acfs_sum : forall l a, qsum (acfs (a :: l)) == qsum (a :: l) - (1 # 2) * a.
Proof. induction l as [|b l IH]; intros a; [cbn; lra|]. change (acfs (a :: b :: l)) with ((1 # 2) * (a + b) :: acfs (b :: l)). cbn [qsum]. rewrite (IH b). cbn [qsum]. lra. Qed.
Lemma acfs_pos l : Forall (fun a => 0 <= a) l -> Forall (fun a => 0 <= a) (acfs l).
Proof.
  induction 1 as [|a l A F IH]; [constructor|]. cbn [acfs]. destruct l as [|b r]; [constructor; [lra|constructor]|]. inversion F; subst. constructor; [lra|exact IH].
Qed.
Lemma acfs_one l : areas_ok l -> qsum (acfs l) == 1 /\ Forall (fun a => 0 <= a) (acfs l).
Proof. intros (H & P & S). split; [|apply acfs_pos, P]. destruct l as [|a l]; [cbn in S; discriminate|]. cbn [hd] in H. rewrite acfs_sum, S, H. ring. Qed.

(** ** All bins *)
Definition bin_sum (acs : list Q) (bs : list bin) : Q := qsum (map (fun p => fst p * (suz (snd p) - srz (snd p))) (combine acs bs)).
Lemma bins_bal u dt sbar ep tr p2rz qv p : forall acs sts bs t bs' ls t', length sts = length acs -> length bs = length acs -> Forall (fun a => 0 <= a) acs ->
  bins_step u dt sbar ep tr p2rz qv p acs sts bs t = Some (bs', ls, t') ->
  length bs' = length acs /\ length ls = length acs /\
  exists lost, 0 <= lost /\ lost <= tiny * qsum acs /\
    bin_sum acs bs' == bin_sum acs bs + (p2rz + qv) * qsum acs - (t_qof t' - t_qof t) - (t_quz t' - t_quz t) - (t_qdf t' - t_qdf t) - (t_ea t' - t_ea t) + (t_wet t' - t_wet t) - lost.
Proof.
  induction acs as [|a acs IH]; intros [|st sts] [|b bs] t bs' ls t' L1 L2 P E; try discriminate.
  - cbn in E. injection E as <- <- <-. split; [reflexivity|]. split; [reflexivity|]. exists 0. cbn. split; [lra|]. split; [lra|]. ring.
  - cbn [bins_step] in E. destruct (bin_step u dt sbar ep tr p2rz qv p a st b) as [[[b1 l1] s1]|] eqn:E1; [|discriminate].
    destruct (bins_step u dt sbar ep tr p2rz qv p acs sts bs (tally t a l1 s1)) as [[[bs2 ls2] t2]|] eqn:E2; [|discriminate]. injection E as <- <- <-.
    inversion P as [|? ? PA PR]; subst. cbn in L1, L2. destruct (IH sts bs _ bs2 ls2 t2 ltac:(lia) ltac:(lia) PR E2) as (M1 & M2 & lost & K1 & K2 & K3).
    split; [cbn; lia|]. split; [cbn; lia|].
    assert (X : exists lo, 0 <= lo /\ lo <= tiny * a /\ a * (suz b1 - srz b1) == a * (suz b - srz b) + (p2rz + qv) * a - l_ex l1 * a - (l_quz l1 + l_qdf l1) * a - l_ea l1 * a + l_wet l1 * a - lo).
    { destruct (Qeq_dec a 0) as [Z|N].
      - exists 0. rewrite Z. split; [lra|]. split; [lra|]. unfold bin_step in E1. rewrite (qeq_true _ _ Z) in E1. injection E1 as <- <- <-. cbn [l_ex l_quz l_qdf l_ea l_wet]. ring.
      - destruct (bin_bal _ _ _ _ _ _ _ _ _ _ _ _ _ _ N E1) as (lo & G1 & G2 & G3 & _). exists (lo * a). split; [apply Qmult_le_0_compat; assumption|]. split; [apply Qmult_le_compat_r; assumption|]. rewrite G3. ring. }
    destruct X as (lo & X1 & X2 & X3). exists (lo + lost). cbn [qsum]. split; [lra|]. split; [rewrite Qmult_plus_distr_r; lra|].
    unfold bin_sum in *. cbn [combine map qsum fst snd]. rewrite X3, K3. unfold tally. cbn [t_qof t_quz t_qdf t_ea t_wet]. ring.
Qed.
Lemma bins_some u dt sbar ep tr p2rz qv p : forall acs sts bs t, bins_step u dt sbar ep tr p2rz qv p acs sts bs t <> None.
Proof.
  induction acs as [|a acs IH]; intros [|st sts] [|b bs] t; try discriminate. cbn [bins_step].
  destruct (bin_step u dt sbar ep tr p2rz qv p a st b) as [[[b1 l1] s1]|] eqn:E1; [|exfalso; exact (bin_some _ _ _ _ _ _ _ _ _ _ _ E1)].
  destruct (bins_step u dt sbar ep tr p2rz qv p acs sts bs (tally t a l1 s1)) as [[[bs2 ls2] t2]|] eqn:E2; [discriminate|exfalso; exact (IH _ _ _ E2)].
Qed.
Lemma settle_ok u sb : forall acs sts bs ls bs' ls' zw, length sts = length acs -> length bs = length acs -> length ls = length acs ->
  settle u sb acs sts bs ls = (bs', ls', zw) -> length bs' = length acs /\ length ls' = length acs /\ bin_sum acs bs' == bin_sum acs bs /\
  Forall2 (fun b b' => srz b' = srz b /\ suz b' = suz b) bs bs' /\
  Forall2 (fun l l' => l_ex l' = l_ex l /\ l_wet l' = l_wet l /\ l_quz l' = l_quz l /\ l_qdf l' = l_qdf l /\ l_ea l' = l_ea l /\ l_infil l' = l_infil l) ls ls'.
Proof.
  induction acs as [|a acs IH]; intros [|st sts] [|b bs] [|l ls] bs' ls' zw L1 L2 L3 E; try discriminate.
  - cbn in E. injection E as <- <- <-. repeat split; try reflexivity; constructor.
  - cbn [settle] in E. destruct (settle u sb acs sts bs ls) as [[bs2 ls2] zw2] eqn:E2. injection E as <- <- <-. cbn in L1, L2, L3.
    destruct (IH sts bs ls bs2 ls2 zw2 ltac:(lia) ltac:(lia) ltac:(lia) E2) as (A & B & C & D & F). split; [cbn; lia|]. split; [cbn; lia|]. split.
    + unfold bin_sum in *. cbn [combine map qsum fst snd suz srz]. rewrite C. reflexivity.
    + split; constructor; try assumption; repeat split; reflexivity.
Qed.

(** ** One unit *)
Lemma step_bal expf logf pow10 u dt nstep w s s' f : areas_ok (ac u) -> fits u s -> unit_step expf logf pow10 u dt nstep w s = Some (s', f) ->
  fits u s' /\ exists lost, 0 <= lost /\ lost <= tiny /\ stored u s' == stored u s + inputs w f - outputs w f - lost.
Proof.
  intros AR [F1 F2] E. destruct (acfs_one _ AR) as [S1 SP]. unfold unit_step in E.
  destruct (if infex u then excess_loop expf logf u dt nstep (surfdep w) (ksat u) (infs s) 0 0 else (infs s, 0, 0)) as [[infs' rex] afx].
  set (p := surfdep w - rex) in *.
  destruct (bins_step u dt (sbar s) (evap_demand w) (transp_on w) (p * (1 - pmacro u)) (p * (1 - pmac_sat u) * pmacro u) (p - p * pmac_sat u * pmacro u) (acfs (ac u)) (st u) (bins s) no_flow) as [[[bs ls] t]|] eqn:EB; [|discriminate].
  apply bins_bal in EB; [|rewrite acfs_length; exact F1|rewrite acfs_length; exact F2|exact SP]. destruct EB as (M1 & M2 & lost & K1 & K2 & K3).
  match type of E with context [settle u ?sb _ _ _ _] => set (sbar' := sb) in * end.
  destruct (settle u sbar' (acfs (ac u)) (st u) bs ls) as [[bs2 ls2] zw] eqn:ES. apply settle_ok in ES; [|rewrite acfs_length; exact F1|exact M1|exact M2]. destruct ES as (N1 & N2 & N3 & _).
  rewrite acfs_length in N1. injection E as <- <-. split; [split; [exact F1|exact N1]|]. exists lost. rewrite S1 in K2, K3. split; [exact K1|]. split; [lra|].
  unfold stored. cbn [bins sbar]. fold (bin_sum (acfs (ac u)) bs2). fold (bin_sum (acfs (ac u)) (bins s)). rewrite N3, K3. unfold inputs, outputs, no_flow. cbn [f_surf f_ea f_qout f_loss t_qof t_quz t_qdf t_ea t_wet]. unfold sbar', p, surfdep, inch, inch2m. ring.
Qed.
Lemma step_parts expf logf pow10 u dt nstep w s s' f : unit_step expf logf pow10 u dt nstep w s = Some (s', f) ->
  f_surf f == (snowmelt w + psoil w) * inch /\ f_infil f == f_surf f - f_qof f - f_qvpref f.
Proof.
  intros E. unfold unit_step in E. destruct (if infex u then excess_loop expf logf u dt nstep (surfdep w) (ksat u) (infs s) 0 0 else (infs s, 0, 0)) as [[infs' rex] afx].
  match type of E with match ?x with _ => _ end = _ => destruct x as [[[bs ls] t]|] end; [|discriminate].
  match type of E with context [settle ?a ?b ?c ?d ?e ?g] => destruct (settle a b c d e g) as [[bs2 ls2] zw] end. injection E as <- <-. split; reflexivity.
Qed.
Lemma step_some expf logf pow10 u dt nstep w s : unit_step expf logf pow10 u dt nstep w s <> None.
Proof.
  unfold unit_step. destruct (if infex u then excess_loop expf logf u dt nstep (surfdep w) (ksat u) (infs s) 0 0 else (infs s, 0, 0)) as [[infs' rex] afx].
  match goal with |- match ?x with _ => _ end <> None => destruct x as [[[bs ls] t]|] eqn:EB end; [|exfalso; exact (bins_some _ _ _ _ _ _ _ _ _ _ _ _ EB)].
  match goal with |- context [settle ?a ?b ?c ?d ?e ?f] => destruct (settle a b c d e f) as [[bs2 ls2] zw] end. discriminate.
Qed.
(** ** A whole run *)
Lemma weighted_sum : forall acs bs, bin_sum acs bs == weighted suz acs bs - weighted srz acs bs.
Proof. induction acs as [|a acs IH]; intros [|b bs]; try reflexivity. unfold bin_sum in *. cbn [combine map qsum weighted fst snd]. rewrite IH. ring. Qed.
Lemma run_bal expf logf pow10 u dt : areas_ok (ac u) -> forall ws nstep s a s' a' fs, fits u s -> unit_run expf logf pow10 u dt nstep ws s a = Some (s', a', fs) ->
  fits u s' /\ length fs = length ws /\ exists lost, 0 <= lost /\ lost <= tiny * inject_Z (Z.of_nat (length ws)) /\
  stored u s' == stored u s + (s_p a' - s_p a) + (s_gw a' - s_gw a) - (s_ea a' - s_ea a) - (s_q a' - s_q a) - (s_loss a' - s_loss a) - pumped ws - lost.
Proof.
  intros AR. induction ws as [|w ws IH]; intros nstep s a s' a' fs F E; cbn [unit_run] in E.
  - injection E as <- <- <-. split; [exact F|]. split; [reflexivity|]. exists 0. split; [lra|]. split; [change (inject_Z (Z.of_nat (length (@nil weather)))) with 0; lra|]. unfold pumped. cbn [map qsum]. ring.
  - destruct (unit_step expf logf pow10 u dt nstep w s) as [[s1 f]|] eqn:E1; [|discriminate]. destruct (step_bal _ _ _ _ _ _ _ _ _ _ AR F E1) as (F1 & lost & L1 & L2 & L3).
    match type of E with context [unit_run _ _ _ _ _ _ ws s1 ?x] => set (a1 := x) in * end.
    destruct (unit_run expf logf pow10 u dt (nstep + 1) ws s1 a1) as [[[s2 a2] fs2]|] eqn:E2; [|discriminate]. injection E as <- <- <-.
    destruct (IH _ _ _ _ _ _ F1 E2) as (F2 & LN & lost2 & K1 & K2 & K3). split; [exact F2|]. split; [cbn; lia|]. exists (lost + lost2). split; [lra|]. split.
    + cbn [length]. rewrite Nat2Z.inj_succ. unfold Z.succ. rewrite inject_Z_plus, Qmult_plus_distr_r. change (inject_Z 1) with 1. lra.
    + rewrite K3, L3. unfold pumped. cbn [map qsum]. unfold inputs, outputs, a1. cbn [s_p s_gw s_ea s_q s_loss]. rewrite (proj1 (step_parts _ _ _ _ _ _ _ _ _ _ E1)). ring.
Qed.
Lemma run_some expf logf pow10 u dt : forall ws nstep s a, unit_run expf logf pow10 u dt nstep ws s a <> None.
Proof.
  induction ws as [|w ws IH]; intros nstep s a; [discriminate|]. cbn [unit_run]. destruct (unit_step expf logf pow10 u dt nstep w s) as [[s1 f]|] eqn:E1; [|exfalso; exact (step_some _ _ _ _ _ _ _ _ E1)].
  match goal with |- context [unit_run ?a ?b ?c ?d ?e ?g ?h ?i ?j] => pose proof (IH g i j); destruct (unit_run a b c d e g h i j) as [[[s2 a2] fs2]|] end; [discriminate|congruence].
Qed.
Lemma start_stored u sr0 sbar0 : areas_ok (ac u) -> length (st u) = length (ac u) -> fits u (start u sr0 sbar0) /\ stored u (start u sr0 sbar0) == - sr0 - sbar0.
Proof.
  intros AR L. destruct (acfs_one _ AR) as [S1 _]. split; [split; [exact L|cbn; rewrite map_length; exact L]|]. unfold stored, start. cbn [bins sbar]. rewrite <- (acfs_length (ac u)) in L. revert S1 L. generalize (acfs (ac u)). clear. intros acs S1 L.
  assert (X : forall sts acs, length sts = length acs -> qsum (map (fun p => fst p * (suz (snd p) - srz (snd p))) (combine acs (map (start_bin u sr0 sbar0) sts))) == - sr0 * qsum acs).
  { induction sts as [|x sts IH]; intros [|y l] LL; try discriminate; [cbn; ring|]. cbn [map combine qsum fst snd]. cbn in LL. rewrite IH by lia. cbn [start_bin suz srz]. ring. }
  rewrite (X _ _ L), S1. ring.
Qed.

(** ** Ranges *)
Lemma div_le a b : 0 <= a -> a <= b -> 0 < b -> 0 <= a / b <= 1.
Proof. intros A B C. split; [apply Qle_shift_div_l; lra|apply Qle_shift_div_r; lra]. Qed.
Lemma scale_le x c : 0 <= x -> 0 <= c <= 1 -> 0 <= x * c <= x.
Proof. intros X [C1 C2]. split; [apply Qmult_le_0_compat; assumption|]. rewrite <- (Qmult_1_r x) at 2. rewrite !(Qmult_comm x). apply Qmult_le_compat_r; assumption. Qed.
Lemma transpire_ok u ep tr srz : fractions_ok u -> 0 <= ep -> 0 <= srz <= srmax u -> 0 <= transpire u ep tr srz <= ep /\ transpire u ep tr srz <= srmax u - srz.
Proof.
  intros (_ & _ & _ & _ & SM & CS & CW) E [S1 S2]. unfold transpire.
  destruct (div_le srz (srmax u) S1 S2 SM) as [D1 D2]. destruct (scale_le ep (1 - srz / srmax u) E ltac:(lra)) as [A1 A2].
  set (ea := if qlt (srmax u - srz) (ep * (1 - srz / srmax u)) then srmax u - srz else ep * (1 - srz / srmax u)).
  assert (B : 0 <= ea <= ep /\ ea <= srmax u - srz). { unfold ea. destruct (qlt _ _) eqn:F; qprop; lra. }
  destruct B as [[B1 B2] B3]. destruct (qlt (1 # 100) (srz / srmax u)); [|lra]. destruct tr.
  - destruct (scale_le ea (covden_sum u) B1 CS). lra.
  - destruct (scale_le ea (1 # 10) B1 ltac:(lra)) as [C1 C2]. destruct (scale_le (ea * (1 # 10)) (covden_win u) C1 CW). lra.
Qed.
Lemma bin_range u dt sbar ep tr p2rz qv p acf st b b' l sat : fractions_ok u -> 0 <= dt -> 0 <= ep -> 0 <= p2rz -> 0 <= qv -> p == p2rz + qv ->
  0 <= srz b <= srmax u /\ 0 <= suz b -> bin_step u dt sbar ep tr p2rz qv p acf st b = Some (b', l, sat) ->
  (0 <= srz b' <= srmax u /\ 0 <= suz b') /\ local_ok ep l.
Proof.
  intros FR DT EP P1 P2 PE [[S1 S2] S3]. unfold bin_step. destruct (qeq acf 0); [intros X; injection X as <- <- <-; split; [repeat split; assumption|unfold local_ok; cbn; lra]|].
  destruct (saturate (deficit u sbar st) (suz b)) as [[[uz sd] suz1] t] eqn:E1. apply saturate_ok in E1. destruct E1 as (A1 & A2 & A3).
  destruct (wet_root sd (srz b)) as [[wet srz1] sd'] eqn:E2. apply wet_ok in E2. destruct E2 as (B1 & B2 & B3 & B4 & B5). destruct (B5 S1) as [B6 B7].
  destruct (root_zone srz1 suz1 p2rz qv) as [srz2 suz2] eqn:E3. apply root_ok in E3. destruct E3 as (C1 & C2 & C3). destruct (C3 P1 B7) as (C4 & C5 & C6).
  destruct (sat_excess sd' suz2) as [ex suz3] eqn:E4. apply excess_ok in E4. destruct E4 as (D1 & D2 & D3 & D4).
  assert (U0 : 0 <= uz /\ 0 <= suz1). { destruct t; [destruct (A3 eq_refl) as (-> & -> & _)|destruct (A2 eq_refl) as (-> & _ & -> & _)]; lra. } destruct U0 as [U0 U1].
  assert (G : 0 <= suz3) by (destruct D4 as [D4|D4]; [lra|rewrite D4; exact B2]).
  assert (EXP : ex <= p2rz + qv). { destruct D4 as [D4|D4]; [lra|]. rewrite D4 in D1. destruct t; [destruct (A3 eq_refl) as (_ & Z & _); rewrite Z in C6; lra|]. destruct (A2 eq_refl) as (_ & Z1 & Z2 & Z3). subst sd suz1. destruct (B4 ltac:(lra)) as [-> _]. lra. }
  destruct (drain dt (td u) sd' suz3 uz t) as [[uz' suz4]|] eqn:E5; [|discriminate]. pose proof FR as (_ & _ & QD & TD & _). destruct (drain_range _ _ _ _ _ _ _ _ DT TD G U0 E5) as [H1 H2].
  destruct (transpire_ok u ep tr srz2 FR EP ltac:(lra)) as [T1 T2]. intros X. injection X as <- <- <-. cbn [srz suz]. split; [repeat split; lra|].
  unfold local_ok. cbn [l_ex l_wet l_quz l_qdf l_ea l_infil]. destruct (scale_le uz' (qdffrac u) H1 QD). destruct (scale_le uz' (1 - qdffrac u) H1 ltac:(lra)). repeat split; lra.
Qed.
Definition totals_ok (t t' : totals) : Prop := t_qof t <= t_qof t' /\ t_wet t <= t_wet t' /\ t_quz t <= t_quz t' /\ t_qdf t <= t_qdf t' /\ t_ea t <= t_ea t'.
Lemma bins_range u dt sbar ep tr p2rz qv p : fractions_ok u -> 0 <= dt -> 0 <= ep -> 0 <= p2rz -> 0 <= qv -> p == p2rz + qv ->
  forall acs sts bs t bs' ls t', Forall (fun a => 0 <= a) acs -> Forall (fun b => 0 <= srz b <= srmax u /\ 0 <= suz b) bs ->
  bins_step u dt sbar ep tr p2rz qv p acs sts bs t = Some (bs', ls, t') ->
  Forall (fun b => 0 <= srz b <= srmax u /\ 0 <= suz b) bs' /\ Forall (local_ok ep) ls /\ totals_ok t t' /\ t_ea t' <= t_ea t + ep * qsum acs /\ t_qof t' <= t_qof t + p * qsum acs.
Proof.
  intros FR DT EP P1 P2 PE. induction acs as [|a acs IH]; intros [|st sts] [|b bs] t bs' ls t' PA PB E; cbn [bins_step] in E;
    try (injection E as <- <- <-; split; [constructor|split; [constructor|split; [unfold totals_ok; lra|inversion PA; subst; cbn [qsum]; split]]]; try lra;
         match goal with H : Forall _ acs |- _ => assert (0 <= qsum acs) by (clear - H; induction H; cbn; lra) end; match goal with |- _ <= _ + ?x * (?a + ?y) => assert (0 <= x * (a + y)) by (apply Qmult_le_0_compat; lra); lra end).
  destruct (bin_step u dt sbar ep tr p2rz qv p a st b) as [[[b1 l1] s1]|] eqn:E1; [|discriminate].
  destruct (bins_step u dt sbar ep tr p2rz qv p acs sts bs (tally t a l1 s1)) as [[[bs2 ls2] t2]|] eqn:E2; [|discriminate]. injection E as <- <- <-.
  inversion PA as [|? ? PA1 PA2]; subst. inversion PB as [|? ? PB1 PB2]; subst.
  destruct (bin_range _ _ _ _ _ _ _ _ _ _ _ _ _ _ FR DT EP P1 P2 PE PB1 E1) as [R1 R2]. destruct (IH sts bs _ _ _ _ PA2 PB2 E2) as (Q1 & Q2 & Q3 & Q4 & Q5).
  split; [constructor; assumption|]. split; [constructor; assumption|].
  destruct R2 as (L1 & L2 & L3 & L4 & [L5 L6] & L7). assert (LE : l_ex l1 <= p \/ a == 0).
  { destruct (Qeq_dec a 0) as [Z|N]; [right; exact Z|left]. destruct (bin_bal _ _ _ _ _ _ _ _ _ _ _ _ _ _ N E1) as (_ & _ & _ & _ & Z & _). rewrite Z in L7. lra. }
  assert (X1 : 0 <= l_ex l1 * a) by (apply Qmult_le_0_compat; assumption). assert (X2 : 0 <= l_wet l1 * a) by (apply Qmult_le_0_compat; assumption). assert (X3 : 0 <= l_quz l1 * a) by (apply Qmult_le_0_compat; assumption).
  assert (X4 : 0 <= l_qdf l1 * a) by (apply Qmult_le_0_compat; assumption). assert (X5 : 0 <= l_ea l1 * a) by (apply Qmult_le_0_compat; assumption).
  assert (X6 : l_ea l1 * a <= ep * a) by (apply Qmult_le_compat_r; assumption).
  assert (X7 : l_ex l1 * a <= p * a). { destruct LE as [LE|LE]; [apply Qmult_le_compat_r; assumption|rewrite LE; lra]. }
  unfold totals_ok, tally in *. cbn [t_qof t_wet t_quz t_qdf t_ea] in *. destruct Q3 as (Y1 & Y2 & Y3 & Y4 & Y5). cbn [qsum]. rewrite !Qmult_plus_distr_r. repeat split; lra.
Qed.
Lemma forall2_in {A B} (R : A -> B -> Prop) (P : A -> Prop) (R' : B -> Prop) l l' : Forall2 R l l' -> (forall a b, R a b -> P a -> R' b) -> Forall P l -> Forall R' l'.
Proof. intros F H. induction F as [|a b l l' X F IH]; intros G; [constructor|]. inversion G; subst. constructor; [exact (H _ _ X ltac:(assumption))|auto]. Qed.

(** Infiltration excess. *)
Lemma infil_bin_ok expf logf u dt nstep p k s : ~ dt == 0 -> let r := infil_bin expf logf u dt nstep p k s in snd r <= p /\ (irof (fst r) = true -> snd r < p) /\ (irof (fst r) = false -> snd r == p).
Proof.
  intros D. unfold infil_bin. match goal with |- context [expinf ?a ?b ?c ?d ?e ?f ?g] => pose proof (expinf_good a b c d e f g) as H; destruct (expinf a b c d e f g) as [s' df] end.
  unfold good in H. cbn [fst snd] in H. destruct H as (H1 & H2 & H3 & H4). assert (E : p / dt * dt == p) by (field; exact D). rewrite E in H1, H3, H4.
  destruct (qlt (Qabs (p - df)) (1 # 100000000)); cbn [fst snd irof]; [repeat split; intros; try discriminate; lra|repeat split; assumption].
Qed.
Lemma excess_loop_ok expf logf u dt nstep p : ~ dt == 0 -> forall ks ss rex afx, Forall (fun k => 0 <= snd k) ks -> 0 <= rex -> 0 <= afx -> length ss = length ks ->
  let r := excess_loop expf logf u dt nstep p ks ss rex afx in length (fst (fst r)) = length ks /\ 0 <= snd (fst r) /\ afx <= snd r /\ snd r <= afx + qsum (map snd ks).
Proof.
  intros D. induction ks as [|k ks IH]; intros [|s ss] rex afx K R A L; try discriminate.
  - cbn. repeat split; try lra.
  - inversion K as [|? ? K1 K2]; subst. cbn in L. cbn [excess_loop map qsum]. assert (NN : 0 <= qsum (map snd ks)) by (clear - K2; induction K2; cbn; lra). destruct (qlt 0 p) eqn:P0.
    + pose proof (infil_bin_ok expf logf u dt nstep p k s D) as H. cbn zeta in H. destruct (infil_bin expf logf u dt nstep p k s) as [s' df]. cbn [fst snd] in H. destruct H as (H1 & H2 & H3).
      assert (X : 0 <= (p - df) * snd k) by (apply Qmult_le_0_compat; lra).
      specialize (IH ss (rex + (p - df) * snd k) (if irof s' then afx + snd k else afx) K2 ltac:(lra) ltac:(destruct (irof s'); lra) ltac:(lia)). cbn zeta in IH.
      destruct (excess_loop expf logf u dt nstep p ks ss (rex + (p - df) * snd k) (if irof s' then afx + snd k else afx)) as [[r rex2] afx2]. cbn [fst snd length] in *. destruct IH as (I1 & I2 & I3 & I4).
      split; [lia|]. split; [exact I2|]. destruct (irof s'); split; lra.
    + specialize (IH ss 0 afx K2 ltac:(lra) A ltac:(lia)). cbn zeta in IH. destruct (excess_loop expf logf u dt nstep p ks ss 0 afx) as [[r rex2] afx2]. cbn [fst snd length] in *. destruct IH as (I1 & I2 & I3 & I4). split; [lia|]. split; [exact I2|]. split; lra.
Qed.

(** The saturated zone. *)
Lemma loss_pos pow10 u dt z : (forall x, 0 <= pow10 x) -> 0 <= dt -> 0 <= gw_loss pow10 u dt z.
Proof.
  intros P D. unfold gw_loss. destruct (qlt 0 (rock_depth u + z) && qlt (gw_loss_k u) 11) eqn:E; [|lra]. qprop. apply Qmult_le_0_compat; [|exact D]. apply Qmult_le_0_compat; [|lra]. apply Qmult_le_0_compat; [lra|apply P].
Qed.
Lemma base_pos expf u sb : 0 <= base_flow expf u sb.
Proof. unfold base_flow. match goal with |- context [qlt ?x (1 # 100000)] => destruct (qlt x (1 # 100000)) eqn:E end; qprop; lra. Qed.
Lemma adjust_pos u qb q : 0 <= qb -> 0 <= adjust_base u qb q.
Proof. intros H. unfold adjust_base. destruct (qlt 0 (qpref_max u)); [|exact H]. match goal with |- context [qlt ?x (1 # 100000)] => destruct (qlt x (1 # 100000)) eqn:E end; qprop; lra. Qed.
Lemma tile_pos u dt z r : 0 <= dt -> 0 <= tile_flow u dt z r.
Proof.
  intros D. unfold tile_flow. set (zz := z + r / s_drain u).
  set (q := if qle zz (z_min u) || qlt (qpref_max u) (1 # 1000000000000) then 0 else if qle (z_max u) zz then qpref_max u * dt else (zz - z_min u) / (z_max u - z_min u) * qpref_max u).
  assert (Q0 : 0 <= q).
  { unfold q. destruct (qle zz (z_min u) || qlt (qpref_max u) (1 # 1000000000000)) eqn:E; [lra|]. apply orb_false_iff in E. destruct E as [E1 E2]. destruct (qle (z_max u) zz) eqn:F; qprop; [apply Qmult_le_0_compat; lra|].
    apply Qmult_le_0_compat; [|lra]. apply Qle_shift_div_l; lra. }
  destruct (qlt ((zz - z_min u) * s_drain u - r) q && qlt 0 ((zz - z_min u) * s_drain u - r)) eqn:E; qprop; [lra|exact Q0].
Qed.

(** ** A step: ranges *)
Lemma demand_eq w : evap_demand w == demand w.
Proof. unfold evap_demand, demand, qmax, inch, inch2m. destruct (qlt _ 0) eqn:E, (qle 0 _) eqn:F; qprop; lra. Qed.
Lemma local_demand w l : local_ok (evap_demand w) l -> local_ok (demand w) l.
Proof. unfold local_ok. rewrite demand_eq. tauto. Qed.
Lemma demand_pos w : 0 <= evap_demand w.
Proof. unfold evap_demand. destruct (qlt _ 0) eqn:E; qprop; lra. Qed.
Lemma local_ext ep l l' : l_ex l' = l_ex l /\ l_wet l' = l_wet l /\ l_quz l' = l_quz l /\ l_qdf l' = l_qdf l /\ l_ea l' = l_ea l /\ l_infil l' = l_infil l -> local_ok ep l -> local_ok ep l'.
Proof. unfold local_ok. intros (-> & -> & -> & -> & -> & ->). tauto. Qed.
Lemma bin_ext u b b' : srz b' = srz b /\ suz b' = suz b -> 0 <= srz b <= srmax u /\ 0 <= suz b -> 0 <= srz b' <= srmax u /\ 0 <= suz b'.
Proof. intros [-> ->]. tauto. Qed.
Lemma step_range expf logf pow10 u dt nstep w s s' f : areas_ok (ac u) -> fits u s -> fractions_ok u -> 0 < dt -> (forall x, 0 <= pow10 x) ->
  Forall (fun k => 0 <= snd k) (ksat u) -> length (infs s) = length (ksat u) -> 0 <= surfdep w -> bounded u s ->
  unit_step expf logf pow10 u dt nstep w s = Some (s', f) -> f_rex f <= f_surf f ->
  bounded u s' /\ length (infs s') = length (ksat u) /\ flows_ok w f /\ Forall (local_ok (demand w)) (f_local f).
Proof.
  intros AR [F1 F2] FR D PW KS LI SU BD E. destruct (acfs_one _ AR) as [S1 SP]. unfold unit_step in E. pose proof (demand_pos w) as EP.
  assert (XL : let r := (if infex u then excess_loop expf logf u dt nstep (surfdep w) (ksat u) (infs s) 0 0 else (infs s, 0, 0)) in length (fst (fst r)) = length (ksat u) /\ 0 <= snd (fst r)).
  { destruct (infex u); [|cbn; split; [exact LI|lra]]. pose proof (excess_loop_ok expf logf u dt nstep (surfdep w) ltac:(lra) (ksat u) (infs s) 0 0 KS ltac:(lra) ltac:(lra) LI) as H. cbn zeta in *. tauto. }
  destruct (if infex u then excess_loop expf logf u dt nstep (surfdep w) (ksat u) (infs s) 0 0 else (infs s, 0, 0)) as [[infs' rex] afx]. cbn in XL. destruct XL as [XL XR].
  destruct (bins_step u dt (sbar s) (evap_demand w) (transp_on w) ((surfdep w - rex) * (1 - pmacro u)) ((surfdep w - rex) * (1 - pmac_sat u) * pmacro u) (surfdep w - rex - (surfdep w - rex) * pmac_sat u * pmacro u) (acfs (ac u)) (st u) (bins s) no_flow) as [[[bs ls] t]|] eqn:EB; [|discriminate].
  match type of E with context [settle u ?sb _ _ _ _] => set (sbar' := sb) in * end.
  destruct (settle u sbar' (acfs (ac u)) (st u) bs ls) as [[bs2 ls2] zw] eqn:ES. injection E as <- <-. cbn [f_rex f_surf bins infs f_local]. intros RX.
  assert (P0 : 0 <= surfdep w - rex) by lra. pose proof FR as (PM & PS & _). set (p := surfdep w - rex) in *.
  destruct (scale_le p (1 - pmacro u) P0 ltac:(lra)) as [A1 A2]. destruct (scale_le p (1 - pmac_sat u) P0 ltac:(lra)) as [A3 A4]. destruct (scale_le _ (pmacro u) A3 PM) as [A5 A6].
  destruct (scale_le p (pmac_sat u) P0 PS) as [A7 A8]. destruct (scale_le _ (pmacro u) A7 PM) as [A9 A10].
  pose proof EB as EB2. apply bins_bal in EB2; [|rewrite acfs_length; exact F1|rewrite acfs_length; exact F2|exact SP]. destruct EB2 as (M1 & M2 & _).
  apply bins_range in EB; try assumption; [|lra|ring]. destruct EB as (B1 & B2 & B3 & B4 & B5). rewrite S1 in B4, B5. unfold totals_ok, no_flow in *. cbn [t_qof t_wet t_quz t_qdf t_ea] in *. destruct B3 as (C1 & C2 & C3 & C4 & C5).
  apply settle_ok in ES; [|rewrite acfs_length; exact F1|exact M1|exact M2]. destruct ES as (_ & _ & _ & N4 & N5).
  split; [exact (forall2_in _ _ _ _ _ N4 (fun a b => bin_ext u a b) B1)|]. split; [exact XL|]. split; [|eapply Forall_impl; [exact (local_demand w)|exact (forall2_in _ _ _ _ _ N5 (fun a b => local_ext _ a b) B2)]]. pose proof (demand_eq w) as DQ.
  pose proof (loss_pos pow10 u dt (z_wt s) PW ltac:(lra)) as Y1. pose proof (base_pos expf u (sbar s)) as Y2.
  match goal with |- context [tile_flow u dt (z_wt s) ?r] => pose proof (tile_pos u dt (z_wt s) r ltac:(lra)) as Y3; set (tf := tile_flow u dt (z_wt s) r) in * end.
  pose proof (adjust_pos u _ tf Y2) as Y4. unfold flows_ok. cbn [f_rex f_qofs f_infil f_quz f_qdf f_wet f_ea f_qvpref f_qb f_qpref f_loss f_qout].
  split; [exact XR|]. split; [lra|]. split; [assert (PE : p == surfdep w - rex) by reflexivity; lra|]. split; [lra|]. split; [lra|]. split; [lra|]. split; [split; lra|]. split; [exact A9|]. split; [exact Y4|]. split; [exact Y3|]. split; [exact Y1|]. lra.
Qed.
Lemma run_range expf logf pow10 u dt : areas_ok (ac u) -> fractions_ok u -> 0 < dt -> (forall x, 0 <= pow10 x) -> Forall (fun k => 0 <= snd k) (ksat u) ->
  forall ws nstep s a s' a' fs, fits u s -> length (infs s) = length (ksat u) -> bounded u s -> Forall (fun w => 0 <= surfdep w) ws ->
  unit_run expf logf pow10 u dt nstep ws s a = Some (s', a', fs) -> Forall (fun f => f_rex f <= f_surf f) fs ->
  bounded u s' /\ Forall2 (fun w f => flows_ok w f /\ Forall (local_ok (demand w)) (f_local f)) ws fs.
Proof.
  intros AR FR D PW KS. induction ws as [|w ws IH]; intros nstep s a s' a' fs F LI B W E R; cbn [unit_run] in E.
  - injection E as <- <- <-. split; [exact B|constructor].
  - destruct (unit_step expf logf pow10 u dt nstep w s) as [[s1 f]|] eqn:E1; [|discriminate]. destruct (step_bal _ _ _ _ _ _ _ _ _ _ AR F E1) as (F1 & _).
    match type of E with context [unit_run _ _ _ _ _ _ ws s1 ?x] => set (a1 := x) in * end.
    destruct (unit_run expf logf pow10 u dt (nstep + 1) ws s1 a1) as [[[s2 a2] fs2]|] eqn:E2; [|discriminate]. injection E as <- <- <-. inversion R as [|? ? R1 R2]; subst. inversion W as [|? ? W1 W2]; subst.
    destruct (step_range _ _ _ _ _ _ _ _ _ _ AR F FR D PW KS LI W1 B E1 R1) as (B1 & L1 & FO & LO). destruct (IH _ _ _ _ _ _ F1 L1 B1 W2 E2 R2) as [B2 X2]. split; [exact B2|constructor; [split; assumption|exact X2]].
Qed.

(** ** One bin across a step *)
Lemma bins_nth u dt sbar ep tr p2rz qv p : forall acs sts bs t bs' ls t', length sts = length acs -> length bs = length acs ->
  bins_step u dt sbar ep tr p2rz qv p acs sts bs t = Some (bs', ls, t') ->
  forall i a b, nth_error acs i = Some a -> nth_error bs i = Some b -> exists x b' l sat, nth_error sts i = Some x /\ nth_error bs' i = Some b' /\ nth_error ls i = Some l /\ bin_step u dt sbar ep tr p2rz qv p a x b = Some (b', l, sat).
Proof.
  induction acs as [|a acs IH]; intros [|x sts] [|b bs] t bs' ls t' L1 L2 E i a0 b0 A B; try discriminate; [destruct i; discriminate|]. cbn [bins_step] in E.
  destruct (bin_step u dt sbar ep tr p2rz qv p a x b) as [[[b1 l1] s1]|] eqn:E1; [|discriminate].
  destruct (bins_step u dt sbar ep tr p2rz qv p acs sts bs (tally t a l1 s1)) as [[[bs2 ls2] t2]|] eqn:E2; [|discriminate]. injection E as <- <- <-. cbn in L1, L2.
  destruct i as [|i]; cbn in A, B |- *; [injection A as <-; injection B as <-; exists x, b1, l1, s1; repeat split; exact E1|exact (IH sts bs _ _ _ _ ltac:(lia) ltac:(lia) E2 i a0 b0 A B)].
Qed.
Lemma settle_nth u sb : forall acs sts bs ls bs' ls' zw, settle u sb acs sts bs ls = (bs', ls', zw) ->
  forall i a x b l, nth_error acs i = Some a -> nth_error sts i = Some x -> nth_error bs i = Some b -> nth_error ls i = Some l -> ~ a == 0 ->
  let z := table_depth u sb x in
  nth_error bs' i = Some (mkBin (srz b) (suz b) z (depth_of u (srz b) (suz b) z)) /\
  nth_error ls' i = Some (mkLocal (l_ex l) (l_wet l) (l_quz l) (l_qdf l) (l_ea l) (l_infil l) (uz_to_sat u (z_local b) z)).
Proof.
  induction acs as [|a acs IH]; intros sts bs ls bs' ls' zw E i a0 x0 b0 l0 A X B L N; [destruct i; discriminate|].
  destruct sts as [|x sts]; [destruct i; discriminate|]. destruct bs as [|b bs]; [destruct i; discriminate|]. destruct ls as [|l ls]; [destruct i; discriminate|].
  cbn [settle] in E. destruct (settle u sb acs sts bs ls) as [[bs2 ls2] zw2] eqn:E2. injection E as <- <- <-. destruct i as [|i]; cbn [nth_error] in *.
  - injection A as <-. injection X as <-. injection B as <-. injection L as <-. destruct (qeq a 0) eqn:Z; [exfalso; apply N; qprop; exact Z|]. split; reflexivity.
  - exact (IH _ _ _ _ _ _ E2 i _ _ _ _ A X B L N).
Qed.
Lemma table_deficit u sb x : ~ s_drain u == 0 -> ~ tl u == 0 -> table_depth u sb x * s_drain u == - qmax 0 (bin_deficit u sb x).
Proof.
  intros SD TL. assert (D : deficit u sb x == bin_deficit u sb x) by (unfold deficit, bin_deficit; destruct (Z.eqb (t_decay u) 0); [reflexivity|field; exact TL]).
  unfold table_depth, qmax. destruct (qlt (deficit u sb x) 0) eqn:E, (qle 0 (bin_deficit u sb x)) eqn:F; qprop; try (exfalso; lra); rewrite ?D; field; exact SD.
Qed.
Lemma start_table u sr0 sbar0 : ~ s_drain u == 0 -> ~ tl u == 0 -> tables_ok u (start u sr0 sbar0).
Proof.
  intros SD TL i a x b A N X B. cbn [start bins sbar] in *. rewrite nth_error_map, X in B. cbn in B. injection B as <-. cbn [start_bin z_local]. apply table_deficit; assumption.
Qed.
Lemma step_table expf logf pow10 u dt nstep w s s' f : ~ s_drain u == 0 -> ~ tl u == 0 -> fits u s -> unit_step expf logf pow10 u dt nstep w s = Some (s', f) -> tables_ok u s'.
Proof.
  intros SD TL [F1 F2] E i a x b A N X B. unfold unit_step in E.
  destruct (if infex u then excess_loop expf logf u dt nstep (surfdep w) (ksat u) (infs s) 0 0 else (infs s, 0, 0)) as [[infs' rex] afx].
  match type of E with match ?x with _ => _ end = _ => destruct x as [[[bs ls] t]|] eqn:EB end; [|discriminate].
  assert (F3 : length (st u) = length (acfs (ac u))) by (rewrite acfs_length; exact F1). assert (F4 : length (bins s) = length (acfs (ac u))) by (rewrite acfs_length; exact F2).
  destruct (nth_error (bins s) i) as [b0|] eqn:B0.
  2:{ apply nth_error_None in B0. assert (i < length (acfs (ac u)))%nat by (apply nth_error_Some; congruence). lia. }
  destruct (bins_nth _ _ _ _ _ _ _ _ _ _ _ _ _ _ _ F3 F4 EB i a b0 A B0) as (x1 & b1 & l1 & sat & X1 & B1 & L1 & ST).
  match type of E with context [settle u ?sb _ _ _ _] => set (sbar' := sb) in * end.
  destruct (settle u sbar' (acfs (ac u)) (st u) bs ls) as [[bs2 ls2] zw] eqn:ES. injection E as <- <-. cbn [bins sbar] in *.
  destruct (settle_nth _ _ _ _ _ _ _ _ _ ES i a x b1 l1 A X B1 L1 N) as [R1 R2]. rewrite R1 in B. injection B as <-. cbn [z_local]. apply table_deficit; assumption.
Qed.
Lemma depth_above u r q z e : depth_of u r q z == above u (mkBin r q z e).
Proof. unfold depth_of, above, qmax. cbn [srz suz z_local]. destruct (qle (- root_depth u) z) eqn:E; match goal with |- context [qle ?a ?b] => destruct (qle a b) eqn:F end; qprop; try ring; assert (G : - z - root_depth u == 0) by lra; assert (G2 : root_depth u + z == 0) by lra; rewrite ?G, ?G2; ring. Qed.
Lemma rise u z z' : uz_to_sat u z z' == theta_fc u * (qmax 0 (- z - root_depth u) - qmax 0 (- z' - root_depth u)).
Proof.
  unfold uz_to_sat, qmax. destruct (qle (- root_depth u) z') eqn:E, (qle (- root_depth u) z) eqn:F; 
    repeat match goal with |- context [qle 0 ?b] => destruct (qle 0 b) eqn:? end; qprop; try ring;
    repeat match goal with H : 0 <= - ?y - root_depth u, H2 : - root_depth u <= ?y |- _ => assert (y == - root_depth u) as -> by lra; clear H H2 end; try ring; exfalso; lra.
Qed.
Lemma step_bin expf logf pow10 u dt nstep w s s' f i a b : fits u s -> unit_step expf logf pow10 u dt nstep w s = Some (s', f) ->
  nth_error (acfs (ac u)) i = Some a -> ~ a == 0 -> nth_error (bins s) i = Some b ->
  exists b' l lost, nth_error (bins s') i = Some b' /\ nth_error (f_local f) i = Some l /\ 0 <= lost /\ lost <= tiny /\ uz_depth b' == above u b' /\
    above u b' == above u b + l_infil l + l_wet l - l_ea l - l_quz l - l_qdf l - l_uz2sat l - lost /\
    l_uz2sat l == theta_fc u * (qmax 0 (- z_local b - root_depth u) - qmax 0 (- z_local b' - root_depth u)) /\ l_infil l + l_ex l == f_surf f - f_rex f - f_qvpref f.
Proof.
  intros [F1 F2] E A N B. unfold unit_step in E.
  destruct (if infex u then excess_loop expf logf u dt nstep (surfdep w) (ksat u) (infs s) 0 0 else (infs s, 0, 0)) as [[infs' rex] afx].
  set (p := surfdep w - rex) in *.
  destruct (bins_step u dt (sbar s) (evap_demand w) (transp_on w) (p * (1 - pmacro u)) (p * (1 - pmac_sat u) * pmacro u) (p - p * pmac_sat u * pmacro u) (acfs (ac u)) (st u) (bins s) no_flow) as [[[bs ls] t]|] eqn:EB; [|discriminate].
  assert (F3 : length (st u) = length (acfs (ac u))) by (rewrite acfs_length; exact F1). assert (F4 : length (bins s) = length (acfs (ac u))) by (rewrite acfs_length; exact F2).
  destruct (bins_nth _ _ _ _ _ _ _ _ _ _ _ _ _ _ _ F3 F4 EB i a b A B) as (x & b1 & l1 & sat & X & B1 & L1 & ST).
  match type of E with context [settle u ?sb _ _ _ _] => set (sbar' := sb) in * end.
  destruct (settle u sbar' (acfs (ac u)) (st u) bs ls) as [[bs2 ls2] zw] eqn:ES. injection E as <- <-. cbn [bins f_local f_surf f_rex f_qvpref].
  destruct (settle_nth _ _ _ _ _ _ _ _ _ ES i a x b1 l1 A X B1 L1 N) as [R1 R2]. destruct (bin_bal _ _ _ _ _ _ _ _ _ _ _ _ _ _ N ST) as (lost & K1 & K2 & K3 & K4 & K5 & K6).
  eexists _, _, lost. split; [exact R1|]. split; [exact R2|]. split; [exact K1|]. split; [exact K2|]. cbn [uz_depth l_infil l_wet l_ea l_quz l_qdf l_uz2sat l_ex z_local]. rewrite K5.
  split; [apply depth_above|]. split; [|split; [apply rise|rewrite K4; unfold p; ring]].
  rewrite rise. unfold above. cbn [srz suz z_local].
  assert (K7 : suz b1 == srz b1 + (suz b - srz b + p * (1 - pmacro u) + p * (1 - pmac_sat u) * pmacro u - l_ex l1 - (l_quz l1 + l_qdf l1) - l_ea l1 + l_wet l1 - lost)) by (rewrite <- K3; ring). rewrite K7, K4. ring.
Qed.
Lemma start_depth u sr0 sbar0 : depths_ok u (start u sr0 sbar0).
Proof.
  intros i a b _ _ B. cbn [start bins] in B. rewrite nth_error_map in B. destruct (nth_error (st u) i) as [x|]; [|discriminate]. injection B as <-. unfold start_bin. apply depth_above.
Qed.
Lemma acm_ok u dt sbar ep tr p2rz qv p : forall acs sts bs t bs' ls t', Forall (fun a => 0 <= a) acs ->
  bins_step u dt sbar ep tr p2rz qv p acs sts bs t = Some (bs', ls, t') -> t_acm t <= t_acm t' /\ t_acm t' <= t_acm t + qsum acs.
Proof.
  assert (NN : forall l, Forall (fun a => 0 <= a) l -> 0 <= qsum l) by (intros l H; induction H; cbn; lra).
  induction acs as [|a acs IH]; intros [|x sts] [|b bs] t bs' ls t' PA E; pose proof (NN _ PA); cbn [bins_step] in E; try (injection E as <- <- <-; split; lra).
  destruct (bin_step u dt sbar ep tr p2rz qv p a x b) as [[[b1 l1] s1]|] eqn:E1; [|discriminate].
  destruct (bins_step u dt sbar ep tr p2rz qv p acs sts bs (tally t a l1 s1)) as [[[bs2 ls2] t2]|] eqn:E2; [|discriminate]. injection E as <- <- <-.
  inversion PA as [|? ? PA1 PA2]; subst. destruct (IH _ _ _ _ _ _ PA2 E2) as [I1 I2]. unfold tally in *. cbn [t_acm qsum] in *. destruct s1; split; lra.
Qed.
Lemma step_areas expf logf pow10 u dt nstep w s s' f : areas_ok (ac u) -> ~ dt == 0 -> Forall (fun k => 0 <= snd k) (ksat u) -> length (infs s) = length (ksat u) ->
  unit_step expf logf pow10 u dt nstep w s = Some (s', f) -> 0 <= f_acm f <= 1 /\ 0 <= f_afx f <= qsum (map snd (ksat u)).
Proof.
  intros AR D KS LI E. destruct (acfs_one _ AR) as [S1 SP]. unfold unit_step in E.
  assert (NN : 0 <= qsum (map snd (ksat u))) by (clear - KS; induction KS; cbn; lra).
  assert (XL : let r := (if infex u then excess_loop expf logf u dt nstep (surfdep w) (ksat u) (infs s) 0 0 else (infs s, 0, 0)) in 0 <= snd r <= qsum (map snd (ksat u))).
  { destruct (infex u); [|cbn; split; [lra|exact NN]]. pose proof (excess_loop_ok expf logf u dt nstep (surfdep w) D (ksat u) (infs s) 0 0 KS ltac:(lra) ltac:(lra) LI) as H. cbn zeta in *. lra. }
  destruct (if infex u then excess_loop expf logf u dt nstep (surfdep w) (ksat u) (infs s) 0 0 else (infs s, 0, 0)) as [[infs' rex] afx]. cbn [snd] in XL.
  match type of E with match ?x with _ => _ end = _ => destruct x as [[[bs ls] t]|] eqn:EB end; [|discriminate].
  apply acm_ok in EB; [|exact SP]. rewrite S1 in EB. cbn [no_flow t_acm] in EB.
  match type of E with context [settle ?a ?b ?c ?d ?e ?g] => destruct (settle a b c d e g) as [[bs2 ls2] zw] end. injection E as <- <-. cbn [f_acm f_afx]. split; [lra|exact XL].
Qed.
Lemma tile_zero u dt z r : z + r / s_drain u <= z_min u -> tile_flow u dt z r == 0.
Proof.
  intros H. unfold tile_flow. rewrite (qle_true _ _ H). cbn [orb]. match goal with |- context [if ?x then _ else _] => destruct x eqn:E end; qprop; lra.
Qed.
Lemma tile_most u dt z r : 0 <= dt -> z_min u < z_max u -> 0 <= qpref_max u -> tile_flow u dt z r <= qpref_max u * qmax 1 dt.
Proof.
  intros D ZZ Q0. unfold tile_flow. set (zz := z + r / s_drain u).
  assert (M : 1 <= qmax 1 dt /\ dt <= qmax 1 dt). { unfold qmax. destruct (qle 1 dt) eqn:E; qprop; lra. } destruct M as [M1 M2].
  assert (B0 : 0 <= qpref_max u * qmax 1 dt) by (apply Qmult_le_0_compat; lra).
  assert (B1 : qpref_max u * dt <= qpref_max u * qmax 1 dt) by (rewrite !(Qmult_comm (qpref_max u)); apply Qmult_le_compat_r; assumption).
  assert (B2 : qpref_max u * 1 <= qpref_max u * qmax 1 dt) by (rewrite !(Qmult_comm (qpref_max u)); apply Qmult_le_compat_r; assumption).
  match goal with |- context [qlt ?c ?q && _] => assert (B : q <= qpref_max u * qmax 1 dt) end.
  { destruct (qle zz (z_min u) || qlt (qpref_max u) (1 # 1000000000000)) eqn:E; [exact B0|]. apply orb_false_iff in E. destruct E as [E1 E2]. destruct (qle (z_max u) zz) eqn:F; [exact B1|]. qprop.
    assert (G : 0 <= (zz - z_min u) / (z_max u - z_min u) <= 1) by (apply div_le; lra). destruct (scale_le (qpref_max u) _ Q0 G) as [_ G2]. lra. }
  match goal with |- context [if ?x then _ else _] => destruct x eqn:E end; [qprop; lra|exact B].
Qed.
Lemma tile_cap u dt z r : 0 < s_drain u -> z_min u < z -> tile_flow u dt z r <= (z - z_min u) * s_drain u.
Proof.
  intros SD ZZ. unfold tile_flow. assert (C : (z + r / s_drain u - z_min u) * s_drain u - r == (z - z_min u) * s_drain u) by (field; lra).
  assert (P : 0 < (z - z_min u) * s_drain u) by (apply Qmult_lt_0_compat; lra).
  match goal with |- context [if ?x && ?y then _ else _] => destruct x eqn:E1; destruct y eqn:E2 end; cbn [andb]; qprop; rewrite ?C in *; lra.
Qed.
