(** Lemmas for C71: the saturated zone and the outflow, with the hillslope model. *)
From Coq Require Import QArith Qabs ZArith List Bool Lqa Lia.
From Verif Require Import Qx Hill_Model Hill_Spec Hill_Proofs Resv_Model Resv_Spec Resv_Proofs.
Import ListNotations.
Local Open Scope Q_scope.

Lemma bins_weigh2 u dt sbar ep tr p2rz qv p : forall acs sts bs t bs' ls t', length sts = length acs -> length bs = length acs ->
  bins_step u dt sbar ep tr p2rz qv p acs sts bs t = Some (bs', ls, t') ->
  t_quz t' == t_quz t + weigh acs (map l_quz ls) /\ t_wet t' == t_wet t + weigh acs (map l_wet ls) /\ t_qdf t' == t_qdf t + weigh acs (map l_qdf ls).
Proof.
  induction acs as [|a acs IH]; intros [|st sts] [|b bs] t bs' ls t' L1 L2 E; try discriminate; unfold weigh in *.
  - cbn in E. injection E as <- <- <-. cbn [map combine qsum]. repeat split; ring.
  - cbn [bins_step] in E. destruct (bin_step u dt sbar ep tr p2rz qv p a st b) as [[[b1 l1] s1]|] eqn:E1; [|discriminate].
    destruct (bins_step u dt sbar ep tr p2rz qv p acs sts bs (tally t a l1 s1)) as [[[bs2 ls2] t2]|] eqn:E2; [|discriminate]. injection E as <- <- <-.
    cbn in L1, L2. destruct (IH sts bs _ bs2 ls2 t2 ltac:(lia) ltac:(lia) E2) as (A & B & C). cbn [map combine qsum fst snd]. unfold tally in A, B, C. cbn [t_quz t_wet t_qdf] in A, B, C.
    split; [rewrite A; ring|]. split; [rewrite B; ring|]. rewrite C. ring.
Qed.
Lemma step_weigh2 expf logf pow10 u dt nstep w s s' f : areas_ok (ac u) -> fits u s -> unit_step expf logf pow10 u dt nstep w s = Some (s', f) ->
  weigh (acfs (ac u)) (map l_quz (f_local f)) == f_quz f /\ weigh (acfs (ac u)) (map l_wet (f_local f)) == f_wet f /\ weigh (acfs (ac u)) (map l_qdf (f_local f)) == f_qdf f /\
  sbar s' == sbar s - f_quz f - f_qvpref f + f_qb f + f_wet f + f_qpref f + irrig_sat w * inch2m - gw_in1 w - gw_in2 w + f_loss f /\
  f_qout f == f_qb f + f_qof f + f_qdf f + f_qpref f.
Proof.
  intros AR [F1 F2] E. destruct (acfs_one _ AR) as [S1 SP]. unfold unit_step in E.
  destruct (if infex u then excess_loop expf logf u dt nstep (surfdep w) (ksat u) (infs s) 0 0 else (infs s, 0, 0)) as [[infs' rex] afx].
  set (p := surfdep w - rex) in *.
  destruct (bins_step u dt (sbar s) (evap_demand w) (transp_on w) (p * (1 - pmacro u)) (p * (1 - pmac_sat u) * pmacro u) (p - p * pmac_sat u * pmacro u) (acfs (ac u)) (st u) (bins s) no_flow) as [[[bs ls] t]|] eqn:EB; [|discriminate].
  pose proof EB as EB2. apply bins_bal in EB2; [|rewrite acfs_length; exact F1|rewrite acfs_length; exact F2|exact SP]. destruct EB2 as (M1 & M2 & _).
  apply bins_weigh2 in EB; [|rewrite acfs_length; exact F1|rewrite acfs_length; exact F2]. destruct EB as (K1 & K2 & K3).
  match type of E with context [settle u ?sb _ _ _ _] => set (sbar' := sb) in * end.
  destruct (settle u sbar' (acfs (ac u)) (st u) bs ls) as [[bs2 ls2] zw] eqn:ES. apply settle_ok in ES; [|rewrite acfs_length; exact F1|exact M1|exact M2]. destruct ES as (_ & N2 & _ & _ & N5).
  injection E as <- <-. cbn [f_local f_quz f_wet f_qdf f_qvpref f_qb f_qpref f_loss f_qout f_qof sbar].
  rewrite (weigh_same l_quz _ (fun x y R => proj1 (proj2 (proj2 R))) _ _ N5), (weigh_same l_wet _ (fun x y R => proj1 (proj2 R)) _ _ N5), (weigh_same l_qdf _ (fun x y R => proj1 (proj2 (proj2 (proj2 R)))) _ _ N5).
  unfold no_flow in *. cbn [t_quz t_wet t_qdf] in *. split; [rewrite K1; ring|]. split; [rewrite K2; ring|]. split; [rewrite K3; ring|]. split; [unfold sbar'; ring|ring].
Qed.
Lemma sat_sum m d g rate cov tr : forall acs st bs, length st = length acs -> length bs = length acs ->
  let us := uz_bins m d g rate cov tr acs st bs in
  qsum (map u_2sat us) - qsum (map (fun u => r_src (u_res u) Sat) us) == (weigh acs (map b_quz bs) - weigh acs (map b_wet bs) + weigh acs (map b_uz2sat bs)) * per_meter m.
Proof.
  cbn zeta. unfold weigh. induction acs as [|a acs IH]; intros [|x st] [|b bs] L1 L2; try discriminate; [cbn [uz_bins map combine qsum]; ring|]. cbn in L1, L2. specialize (IH st bs ltac:(lia) ltac:(lia)).
  cbn [uz_bins map combine qsum fst snd].
  assert (X : u_2sat (uz_bin m d g rate cov tr a x b) - r_src (u_res (uz_bin m d g rate cov tr a x b)) Sat == a * (b_quz b - b_wet b + b_uz2sat b) * per_meter m).
  { unfold uz_bin, per_meter, a_million. cbn [u_res r_src u_2sat]. destruct (qlt (b_uz2sat b) 0) eqn:A1, (qlt 0 (b_uz2sat b)) eqn:A2; qprop; try ring; try (exfalso; lra). assert (Z : b_uz2sat b == 0) by lra. rewrite Z. ring. }
  lra.
Qed.
Lemma sat_change can_depth m d v v' o : unit_ok can_depth m -> consistent m d v -> unit_volumes can_depth m d v = Some (v', o) ->
  v_sat v' == v_sat v + (d_qvpref d + weigh (acfs (areas m)) (map b_quz (d_bins d)) - weigh (acfs (areas m)) (map b_wet (d_bins d)) + weigh (acfs (areas m)) (map b_uz2sat (d_bins d))
                         + d_gw1 d + d_gw2 d - d_qpref d - d_qb d - d_loss d - d_irrsat d * inch2m) * per_meter m.
Proof.
  intros U C E. apply unit_inv in E. destruct E as (can & th & drop & take & oh & f & E). cbn zeta in E.
  destruct E as (_ & _ & EB & _ & _ & _ & _ & _ & _ & _ & _ & _ & _ & _ & _ & VS & _). pose proof (c_run _ _ _ C) as [_ QV]. pose proof (c_lengths _ _ _ C) as [L1 L2].
  destruct (bypass_ok _ _ _ _ EB QV) as [B1 _].
  pose proof (sat_sum m d (ground m d v th) (if negb (d_leaves d) && v_on v then 0 else if d_leaves d then 7 # 10 else 1 # 10) (cover m d) (r_src can Uz) (acfs (areas m)) (v_uz v) (d_bins d)) as SS.
  rewrite acfs_length in SS. specialize (SS L2 L1). cbn zeta in SS. rewrite VS. unfold saturated. cbn [r_end]. unfold six in *. cbn [r_src]. unfold per_meter, a_million in *. lra.
Qed.
Lemma joint_sat expf logf pow10 can_depth m u dt : unit_ok can_depth m -> areas m = ac u -> areas_ok (ac u) -> fractions_ok u -> 0 < dt -> (forall x, 0 <= pow10 x) -> Forall (fun k => 0 <= snd k) (ksat u) ->
  forall ds nstep s v s' v' os, fits u s -> length (infs s) = length (ksat u) -> bounded u s -> length (rip m) = length (areas m) -> length (v_uz v) = length (areas m) ->
  joint_ok expf logf pow10 can_depth m u dt nstep ds s v ->
  joint_days expf logf pow10 can_depth m u dt nstep ds s v = Some (s', v', os) ->
  v_sat v' + sbar s' * per_meter m == v_sat v + sbar s * per_meter m + qsum (map (fun x => weigh (acfs (ac u)) (map l_uz2sat (f_local (fst x)))) os) * per_meter m /\
  Forall (fun x => o_hill (snd x) == f_qout (fst x) * per_meter m) os.
Proof.
  intros U EA AR FR D PW KS. induction ds as [|[d pet] ds IH]; intros nstep s v s' v' os FI LI BD LR LV K E.
  - cbn in E. injection E as <- <- <-. split; [cbn [map qsum]; ring|constructor].
  - cbn [joint_days] in E. cbn [joint_ok] in K. destruct K as (K1 & K2 & K3). destruct (unit_step expf logf pow10 u dt nstep (weather_of d pet) s) as [[s1 f]|] eqn:ES; [|discriminate]. destruct (K3 _ _ eq_refl) as [K4 K5].
    destruct (unit_volumes can_depth m (with_flows d f) v) as [[v1 o]|] eqn:EU; [|discriminate]. specialize (K5 _ _ eq_refl).
    destruct (joint_days expf logf pow10 can_depth m u dt (nstep + 1) ds s1 v1) as [[[s2 v2] os2]|] eqn:EJ; [|discriminate]. injection E as <- <- <-.
    destruct (joined _ _ _ _ _ _ _ _ _ _ _ _ _ _ U EA AR FI FR D PW KS LI BD LV K1 ES K4) as (C & BD1 & LI1 & FI1).
    assert (LD : shaped m (with_flows d f)) by exact (proj1 (c_lengths _ _ _ C)).
    destruct (keep_step _ _ _ _ _ _ LR LD LV EU) as (LV1 & _).
    destruct (IH _ _ _ _ _ _ FI1 LI1 BD1 LR LV1 K5 EJ) as [R1 R2].
    pose proof (sat_change _ _ _ _ _ _ U C EU) as SC. destruct (step_weigh2 _ _ _ _ _ _ _ _ _ _ AR FI ES) as (W1 & W2 & W3 & W4 & W5). destruct (flows_out _ _ _ _ _ _ U C (clear_flows _ _ _ _ K2) EU) as [_ HO].
    rewrite EA in SC, HO. cbn [with_flows d_qvpref d_bins d_gw1 d_gw2 d_qpref d_qb d_loss d_irrsat d_qof] in SC, HO. rewrite (map_map bin_flux b_quz), (map_map bin_flux b_wet), (map_map bin_flux b_uz2sat) in SC. rewrite (map_map bin_flux b_qdf) in HO.
    change (fun x => b_quz (bin_flux x)) with l_quz in SC. change (fun x => b_wet (bin_flux x)) with l_wet in SC. change (fun x => b_uz2sat (bin_flux x)) with l_uz2sat in SC. change (fun x => b_qdf (bin_flux x)) with l_qdf in HO.
    rewrite W1, W2 in SC. rewrite W3 in HO. cbn [weather_of irrig_sat gw_in1 gw_in2] in W4. split.
    + cbn [map qsum fst]. rewrite R1, SC, W4. ring.
    + constructor; [cbn [fst snd]; rewrite HO, W5; ring|exact R2].
Qed.
