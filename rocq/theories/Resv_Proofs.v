(** Proofs about the reservoirs. *)
From Coq Require Import QArith Qabs ZArith List Bool Lqa Lia.
From Verif Require Import Qx Hill_Model Hill_Spec Hill_Proofs Resv_Model Resv_Spec.
Import ListNotations.
Local Open Scope Q_scope.

Lemma tiny_flow_cases x : 0 <= x -> tiny_flow x = x \/ (tiny_flow x = 0 /\ x < 1 # 1000).
Proof. intros P. unfold tiny_flow. destruct (qlt (Qabs x) (1 # 1000)) eqn:E; [|left; reflexivity]. right. split; [reflexivity|]. qprop. rewrite Qabs_pos in E; assumption. Qed.
Lemma tiny_flow_big x : 1 # 1000 <= x -> tiny_flow x = x.
Proof. intros P. unfold tiny_flow. rewrite qlt_false; [reflexivity|]. rewrite Qabs_pos; lra. Qed.
Lemma tiny_flow_zero x : x == 0 -> tiny_flow x == 0.
Proof. intros Z. unfold tiny_flow. destruct (qlt _ _); [reflexivity|exact Z]. Qed.

(** ** Canopy *)
Lemma cover_range can_depth m d : unit_ok can_depth m -> 0 <= cover m d <= 1.
Proof. intros (A & B & C & D & E). unfold cover. destruct (d_leaves d); lra. Qed.
Lemma per_inch_pos can_depth m : unit_ok can_depth m -> 0 <= per_inch m.
Proof. intros (A & _). unfold per_inch. apply Qmult_le_0_compat; [apply Qmult_le_0_compat; [exact A|discriminate]|discriminate]. Qed.
Lemma throughfall_pos can_depth m d v : unit_ok can_depth m -> consistent m d v -> 0 <= throughfall m d.
Proof. intros U [_ N _ _ _ _ _ _ _ _ _]. unfold throughfall. apply Qmult_le_0_compat; [lra|exact (per_inch_pos _ _ U)]. Qed.
Lemma can_ohoriz_pos can_depth m : unit_ok can_depth m -> 0 <= can_ohoriz can_depth m.
Proof. intros (A & B & C & D & E). unfold can_ohoriz, a_million. apply Qmult_le_0_compat; [apply Qmult_le_0_compat; [apply Qmult_le_0_compat|]|]; lra. Qed.
Lemma canopy_ok can_depth m d v can thruf drop take : unit_ok can_depth m -> consistent m d v -> canopy can_depth m d v = (can, thruf, drop, take) ->
  let rate := if negb (d_leaves d) && v_on v then 0 else if d_leaves d then 7 # 10 else 1 # 10 in
  0 <= drop /\ 0 <= take /\ drop = (if negb (d_leaves d) && v_on v then can_ohoriz can_depth m else 0) /\ take = (if d_leaves d && negb (v_on v) then can_ohoriz can_depth m else 0) /\
  r_end can == v_can v + d_dep d * cover m d * per_inch m + take + r_src can Uz - r_out can - r_et can /\
  (thruf == throughfall m d \/ (thruf == 0 /\ throughfall m d < 1 # 1000)) /\
  (r_out can == throughfall m d + drop \/ (r_out can == 0 /\ throughfall m d + drop < 1 # 1000)) /\
  (r_src can Uz == d_sae d * rate * cover m d * per_meter m \/ r_src can Uz == 0).
Proof.
  intros U C E. pose proof (throughfall_pos _ _ _ _ U C) as TP. pose proof (can_ohoriz_pos _ _ U) as HP. destruct C as [[CD _] _ _ _ _ _ _ _ _ _ _]. unfold canopy in E. cbn zeta. fold (cover m d) in E.
  set (drop0 := if negb (d_leaves d) && v_on v then can_ohoriz can_depth m else 0) in *. set (take0 := if d_leaves d && negb (v_on v) then can_ohoriz can_depth m else 0) in *.
  set (T := (d_net d - d_dep d * (1 - cover m d)) * (area m * a_million * inch2m)) in *.
  assert (TE : T == throughfall m d) by reflexivity.
  assert (D0 : 0 <= drop0) by (unfold drop0; destruct (negb (d_leaves d) && v_on v); [exact HP|apply Qle_refl]). assert (K0 : 0 <= take0) by (unfold take0; destruct (d_leaves d && negb (v_on v)); [exact HP|apply Qle_refl]).
  set (th := tiny_flow (T + drop0 - drop0)) in *. set (ou := tiny_flow (T + drop0)) in *.
  set (tr := if qeq th 0 then _ else 0) in *. injection E as <- <- <- <-. cbn [r_end r_out r_et r_src].
  split; [exact D0|]. split; [exact K0|]. split; [reflexivity|]. split; [reflexivity|].
  assert (T0 : 0 <= T) by (rewrite TE; exact TP).
  assert (OU : 0 <= ou) by (unfold ou; destruct (tiny_flow_cases (T + drop0)) as [-> | [-> _]]; lra). rewrite (qlt_false _ _ OU).
  split; [rewrite CD; unfold per_inch, a_million, inch2m; ring|]. split; [|split].
  - unfold th. destruct (tiny_flow_cases (T + drop0 - drop0) ltac:(lra)) as [-> | [-> L]]; [left; lra|right; split; [reflexivity|lra]].
  - unfold ou. destruct (tiny_flow_cases (T + drop0) ltac:(lra)) as [-> | [-> L]]; [left; lra|right; split; [reflexivity|lra]].
  - unfold tr. destruct (qeq th 0); [left; unfold per_meter, a_million; reflexivity|right; reflexivity].
Qed.

(** ** Snow and ground *)
Lemma share_ok can_depth m d v : unit_ok can_depth m -> consistent m d v -> let f := snow_share d v in
  0 <= f <= 1 /\ d_net d * f == d_net d - d_psoil d.
Proof.
  intros U [_ _ [P0 P1] _ _ _ _ _ _ _ _]. cbn zeta. unfold snow_share, no_snow. destruct (qeq (v_snow v) 0 && qeq (d_net d) 0) eqn:E.
  - apply andb_true_iff in E. destruct E as [_ E]. qprop. split; [lra|]. lra.
  - destruct (qlt 0 (d_net d)) eqn:F; qprop; [|split; lra]. assert (N : ~ d_net d == 0) by lra. split; [|field; exact N].
    assert (A : 0 <= d_psoil d / d_net d) by (apply Qle_shift_div_l; lra). assert (B : d_psoil d / d_net d <= 1) by (apply Qle_shift_div_r; lra). lra.
Qed.
Lemma snow_ok can_depth m d v th : unit_ok can_depth m -> consistent m d v -> let s := snowpack m d v th in
  r_end s + r_et s - v_snow v == (d_net d - d_psoil d - d_melt d) * per_inch m.
Proof.
  intros U [_ _ [P0 P1] _ PK BA _ _ _ _ _]. cbn zeta. unfold snowpack. destruct (no_snow d v) eqn:E.
  - unfold no_snow in E. qprop. destruct (BA H H0) as [M S]. cbn [r_end r_et]. assert (d_psoil d == 0) by lra. rewrite H, H0, H1, M. ring.
  - cbn [r_end r_et]. change (area m * a_million * inch2m) with (per_inch m). rewrite PK. ring.
Qed.
Lemma six_ground can_depth m d v th : unit_ok can_depth m -> consistent m d v -> let f := snow_share d v in
  six (ground m d v th) == (d_melt d + d_psoil d) * per_inch m - (throughfall m d - th) * (1 - f).
Proof.
  intros U C. pose proof (share_ok _ _ _ _ U C) as [_ F]. destruct C as [[CD _] _ _ _ _ _ _ _ _ _ _]. cbn zeta in *. unfold six, ground, throughfall. fold (cover m d).
  change (area m * a_million * inch2m) with (per_inch m). set (f := snow_share d v) in *.
  transitivity (d_dep d * per_inch m * (1 - cover m d) * (1 - f) + th * (1 - f) + d_melt d * per_inch m); [rewrite CD; ring|].
  assert (G : d_psoil d == d_net d - d_net d * f) by lra. rewrite G. ring.
Qed.
Lemma six_pos can_depth m d v th : unit_ok can_depth m -> consistent m d v -> 0 <= th -> 0 <= six (ground m d v th).
Proof.
  intros U C TH. pose proof (share_ok _ _ _ _ U C) as [[F0 F1] _]. pose proof (cover_range _ _ d U) as [V0 V1]. pose proof (per_inch_pos _ _ U) as PI. destruct C as [[CD DP] _ _ ME _ _ _ _ _ _ _]. cbn zeta in *. unfold six, ground. fold (cover m d).
  change (area m * a_million * inch2m) with (per_inch m). set (f := snow_share d v) in *.
  assert (E : six (ground m d v th) == d_dep d * per_inch m * (1 - cover m d) * (1 - f) + th * (1 - f) + d_melt d * per_inch m) by (unfold six, ground; fold (cover m d); change (area m * a_million * inch2m) with (per_inch m); fold f; rewrite CD; ring).
  unfold six, ground in E. fold (cover m d) in E. change (area m * a_million * inch2m) with (per_inch m) in E. fold f in E. rewrite E.
  assert (0 <= d_dep d * per_inch m * (1 - cover m d) * (1 - f)) by (apply Qmult_le_0_compat; [apply Qmult_le_0_compat; [apply Qmult_le_0_compat; assumption|]|]; lra). assert (0 <= th * (1 - f)) by (apply Qmult_le_0_compat; lra). assert (0 <= d_melt d * per_inch m) by (apply Qmult_le_0_compat; lra). lra.
Qed.

(** ** O-horizon and bypass *)
Lemma horizon_ok m d v g drop take oh : o_horizon m d v g drop take = Some oh ->
  r_start oh = v_oh v /\ r_end oh == v_oh v + drop - take /\
  exists f, r_out oh - take == six g * f /\ (forall s, surface_source s -> r_src oh s == g s * f + (match s with Thru => drop | _ => 0 end)) /\
    ((0 < d_qof d /\ ~ d_melt d + d_psoil d == 0 /\ f == d_qof d / (d_melt d + d_psoil d) / (127 # 5000)) \/ (d_qof d <= 0 /\ f == 0)).
Proof.
  unfold o_horizon. intros E. destruct (qlt 0 (d_qof d)) eqn:Q0.
  - destruct (qeq (d_melt d + d_psoil d) 0) eqn:Z; [discriminate|]. injection E as <-. cbn [r_start r_end r_out r_src]. split; [reflexivity|]. unfold six. split; [ring|].
    eexists. split; [|split; [|left; qprop; split; [exact Q0|split; [exact Z|reflexivity]]]]; [unfold inch2m; ring|].
    change inch2m with (127 # 5000). generalize (d_qof d / (d_melt d + d_psoil d) / (127 # 5000)). intros f s L. destruct s; cbv beta iota; try ring; exfalso; unfold surface_source in L; cbn in L; intuition discriminate.
  - injection E as <-. cbn [r_start r_end r_out r_src]. split; [reflexivity|]. split; [reflexivity|]. exists 0. split; [ring|]. split; [|right; qprop; split; [exact Q0|reflexivity]].
    intros s _. destruct s; cbv beta iota; ring.
Qed.
Lemma bypass_ok m d g f : bypass m d g = Some f -> 0 <= d_qvpref d -> six g * f == d_qvpref d * per_meter m /\ (0 < d_qvpref d -> ~ six g == 0).
Proof.
  unfold bypass. intros E P. destruct (qlt 0 (d_qvpref d)) eqn:Q0.
  - destruct (qeq (six g) 0 || qeq (six g - d_rex d * (area m * a_million)) 0) eqn:Z; [discriminate|]. apply orb_false_iff in Z. destruct Z as [Z1 Z2]. injection E as <-. qprop. unfold per_meter, a_million in *. split; [field; split; assumption|intros _; exact Z1].
  - injection E as <-. qprop. assert (W : d_qvpref d == 0) by lra. rewrite W. split; [ring|lra].
Qed.

(** ** Unsaturated zone *)
Definition caught (g : source -> Q) (infil : Q) : Q := if qlt 0 (six g) then infil else 0.
Lemma bin_in m d g rate cov tr a st b : 0 <= a * b_infil b -> 0 <= area m ->
  let u := uz_bin m d g rate cov tr a st b in
  r_in (u_res u) == caught g (b_infil b * a * per_meter m) + r_src (u_res u) Sat /\
  r_end (u_res u) == st + r_in (u_res u) - r_out (u_res u) - r_et (u_res u) /\
  r_out (u_res u) == u_2can u + u_2sat u + u_2qdf u /\
  (forall s, surface_source s -> ~ six g == 0 -> 0 <= six g -> r_src (u_res u) s == g s * (b_infil b * a * per_meter m / six g)).
Proof.
  intros P A. cbn zeta. unfold uz_bin, caught, per_meter, a_million. cbn [u_res r_in r_src r_end r_out r_et u_2can u_2sat u_2qdf].
  assert (I0 : 0 <= b_infil b * (a * area m * 1000000)).
  { setoid_replace (b_infil b * (a * area m * 1000000)) with (a * b_infil b * (area m * 1000000)) by ring. apply Qmult_le_0_compat; [exact P|]. apply Qmult_le_0_compat; [exact A|discriminate]. }
  assert (IE : b_infil b * (a * area m * 1000000) == b_infil b * a * (area m * 1000000)) by ring. set (i := b_infil b * (a * area m * 1000000)) in *.
  split; [|split; [reflexivity|split; [ring|]]].
  - unfold six at 1. destruct (qlt 0 i) eqn:E1, (qlt 0 (six g)) eqn:E2; cbn [andb]; qprop; cbv beta iota.
    + rewrite <- IE. assert (X : ~ six g == 0) by lra. transitivity (i * six g / six g + (b_wet b * (a * area m * 1000000) + (if qlt (b_uz2sat b) 0 then - (b_uz2sat b * (a * area m * 1000000)) else 0))); [unfold six at 7; field; exact X|field; exact X].
    + ring.
    + rewrite <- IE. assert (Z : i == 0) by lra. rewrite Z. ring.
    + ring.
  - intros s L N PS. rewrite <- IE. unfold surface_source in L. assert (N2 : qlt 0 (six g) = true) by (apply qlt_true; lra). rewrite N2. destruct (qlt 0 i) eqn:E1; qprop; cbn [andb]; destruct s; cbv beta iota; try (cbn in L; exfalso; intuition discriminate); try (field; exact N);
      (assert (Z : i == 0) by lra; rewrite Z; field; exact N).
Qed.
Lemma bins_in m d g rate cov tr : 0 <= area m -> forall acs starts bs, length starts = length acs -> length bs = length acs ->
  Forall (fun p => 0 <= fst p * snd p) (combine acs (map b_infil bs)) ->
  let us := uz_bins m d g rate cov tr acs starts bs in
  length us = length acs /\
  qsum (map (fun u => r_in (u_res u)) us) == caught g (weigh acs (map b_infil bs) * per_meter m) + qsum (map (fun u => r_src (u_res u) Sat) us) /\
  qsum (map (fun u => r_end (u_res u)) us) == qsum starts + qsum (map (fun u => r_in (u_res u)) us) - qsum (map (fun u => r_out (u_res u)) us) - qsum (map (fun u => r_et (u_res u)) us) /\
  qsum (map (fun u => r_out (u_res u)) us) == qsum (map u_2can us) + qsum (map u_2sat us) + qsum (map u_2qdf us) /\
  qsum (map u_2can us) == (if qlt 0 tr then rate * cov * weigh acs (map b_ea bs) * per_meter m else 0) /\
  (forall s, surface_source s -> ~ six g == 0 -> 0 <= six g -> qsum (map (fun u => r_src (u_res u) s) us) == g s * (weigh acs (map b_infil bs) * per_meter m / six g)).
Proof.
  intros A. induction acs as [|a acs IH]; intros [|st starts] [|b bs] L1 L2 F; try discriminate; cbn zeta.
  - cbn [uz_bins map qsum]. unfold caught, weigh. cbn [map combine qsum]. split; [reflexivity|]. split; [destruct (qlt 0 (six g)); ring|]. split; [ring|]. split; [ring|]. split; [destruct (qlt 0 tr); ring|]. intros s _ N _. field. exact N.
  - cbn in L1, L2. cbn [map combine] in F. inversion F as [|? ? F1 F2]; subst. cbn [fst snd] in F1. destruct (IH starts bs ltac:(lia) ltac:(lia) F2) as (K1 & K2 & K3 & K4 & K5 & K6). destruct (bin_in m d g rate cov tr a st b F1 A) as (B1 & B2 & B3 & B4).
    cbn [uz_bins map qsum length]. split; [lia|]. unfold weigh in *. cbn [map combine qsum fst snd]. split; [|split; [|split; [|split]]].
    + rewrite K2, B1. unfold caught. destruct (qlt 0 (six g)); ring.
    + rewrite K3, B2. ring.
    + rewrite K4, B3. ring.
    + rewrite K5. unfold uz_bin. cbn [u_2can]. unfold per_meter, a_million. destruct (qlt 0 tr); ring.
    + intros s L N PS. rewrite (K6 s L N PS), (B4 s L N PS). field. exact N.
Qed.

(** ** A unit *)
Lemma unit_inv can_depth m d v v' o : unit_volumes can_depth m d v = Some (v', o) ->
  exists can thruf drop take oh f,
    let rate := if negb (d_leaves d) && v_on v then 0 else if d_leaves d then 7 # 10 else 1 # 10 in
    let g := ground m d v thruf in
    let us := uz_bins m d g rate (cover m d) (r_src can Uz) (acfs (areas m)) (v_uz v) (d_bins d) in
    let snow := snowpack m d v thruf in
    let sat := saturated m d v g f (qsum (map u_2sat us)) (qsum (map (fun u => r_src (u_res u) Sat) us)) in
    canopy can_depth m d v = (can, thruf, drop, take) /\ o_horizon m d v g drop take = Some oh /\ bypass m d g = Some f /\
    o_can o = can /\ o_snow o = snow /\ o_oh o = oh /\ o_uz o = us /\ o_sat o = sat /\ o_thruf o = thruf /\ o_surf o = six g /\
    v_on v' = d_leaves d /\ v_can v' = r_end can /\ v_snow v' = r_end snow /\ v_oh v' = r_end oh /\ v_uz v' = map (fun u => r_end (u_res u)) us /\ v_sat v' = r_end sat /\
    v_qdf v' == v_qdf v /\ v_pref v' == v_pref v /\ v_hill v' == v_hill v /\
    o_hill o == r_out oh - take + qsum (map u_2qdf us) + d_qb d * per_meter m + d_qpref d * per_meter m /\
    r_in (o_mru o) == (d_ppt d + d_irrsat d + d_irrhyd d + d_irrext d) * per_inch m + (d_gw1 d + d_gw2 d) * per_meter m /\
    r_out (o_mru o) == d_loss d * per_meter m + d_irrsat d * per_inch m + o_hill o /\
    r_et (o_mru o) == r_et can + r_et snow + qsum (map (fun u => r_et (u_res u)) us) /\
    v_mru v' == v_mru v + r_in (o_mru o) - r_out (o_mru o) - r_et (o_mru o) /\
    v_gen v' == v_gen v + qsum (map (fun u => r_in (u_res u)) us) - qsum (map (fun u => r_out (u_res u)) us) - qsum (map (fun u => r_et (u_res u)) us) /\
    v_rip v' == v_rip v + only (rip m) true (map (fun u => r_in (u_res u)) us) - only (rip m) true (map (fun u => r_out (u_res u)) us) - only (rip m) true (map (fun u => r_et (u_res u)) us) /\
    v_up v' == v_up v + only (rip m) false (map (fun u => r_in (u_res u)) us) - only (rip m) false (map (fun u => r_out (u_res u)) us) - only (rip m) false (map (fun u => r_et (u_res u)) us).
Proof.
  unfold unit_volumes. destruct (canopy can_depth m d v) as [[[can thruf] drop] take] eqn:EC. destruct (o_horizon m d v (ground m d v thruf) drop take) as [oh|] eqn:EO; [|discriminate].
  destruct (bypass m d (ground m d v thruf)) as [f|] eqn:EB; [|discriminate]. fold (cover m d). intros E. injection E as <- <-. exists can, thruf, drop, take, oh, f. cbn zeta.
  cbn [o_can o_snow o_oh o_uz o_sat o_thruf o_surf o_hill o_mru v_on v_can v_snow v_oh v_uz v_sat v_qdf v_pref v_hill v_mru v_gen v_rip v_up r_in r_out r_et r_end r_src saturated].
  repeat (split; [first [reflexivity | assumption | unfold per_inch, per_meter, a_million, inch2m; ring | ring] |]). unfold composite. ring.
Qed.
Lemma held_diff can_depth m d v v' o : unit_ok can_depth m -> consistent m d v -> unit_volumes can_depth m d v = Some (v', o) ->
  exists lost, (held v' - v_mru v') == (held v - v_mru v) + lost /\ - (1 # 1000) <= lost <= 1 # 1000 /\ (clear_fall can_depth m d -> lost == 0).
Proof.
  intros U C E. apply unit_inv in E. destruct E as (can & th & drop & take & oh & f & E). cbn zeta in E.
  destruct E as (EC & EO & EB & _ & _ & _ & _ & _ & _ & _ & _ & V1 & V2 & V3 & V4 & V5 & V6 & _ & _ & OH & OI & OO & OE & VM & _).
  pose proof (throughfall_pos _ _ _ _ U C) as TP. pose proof (can_ohoriz_pos _ _ U) as HP. pose proof (per_inch_pos _ _ U) as PI.
  pose proof (canopy_ok _ _ _ _ _ _ _ _ U C EC) as CO. cbn zeta in CO. destruct CO as (D0 & T0 & DE & TE & CE & CT & CU & CS).
  pose proof (share_ok _ _ _ _ U C) as [[F0 F1] FN]. cbn zeta in *.
  pose proof (snow_ok _ _ _ _ th U C) as SN. cbn zeta in SN. pose proof (six_ground _ _ _ _ th U C) as SG. cbn zeta in SG.
  assert (TH0 : 0 <= th) by (destruct CT as [X|[X _]]; rewrite X; [exact TP|apply Qle_refl]).
  pose proof (six_pos _ _ _ _ th U C TH0) as SP.
  apply horizon_ok in EO. destruct EO as (_ & OE2 & fo & OX & _ & OF).
  pose proof (c_run _ _ _ C) as [[Q0 Q1] QV]. apply bypass_ok in EB; [|exact QV]. destruct EB as [BY BN].
  pose proof (c_lengths _ _ _ C) as [L1 L2].
  set (rate := if negb (d_leaves d) && v_on v then 0 else if d_leaves d then 7 # 10 else 1 # 10) in *. set (g := ground m d v th) in *.
  destruct (bins_in m d g rate (cover m d) (r_src can Uz) (proj1 U) (acfs (areas m)) (v_uz v) (d_bins d)) as (_ & I1 & I2 & I3 & I4 & _); [rewrite acfs_length; exact L2|rewrite acfs_length; exact L1|exact (c_each _ _ _ C)|].
  set (us := uz_bins m d g rate (cover m d) (r_src can Uz) (acfs (areas m)) (v_uz v) (d_bins d)) in *.
  set (wet := qsum (map (fun u => r_src (u_res u) Sat) us)) in *. set (ins := qsum (map (fun u => r_in (u_res u)) us)) in *. set (outs := qsum (map (fun u => r_out (u_res u)) us)) in *.
  set (ets := qsum (map (fun u => r_et (u_res u)) us)) in *. set (ends := qsum (map (fun u => r_end (u_res u)) us)) in *. set (tocan := qsum (map u_2can us)) in *. set (tosat := qsum (map u_2sat us)) in *. set (todf := qsum (map u_2qdf us)) in *.
  assert (TC : tocan == r_src can Uz).
  { rewrite I4. destruct (c_sae _ _ _ C) as [SA SE]. destruct (qlt 0 (r_src can Uz)) eqn:TR; qprop.
    - destruct CS as [X|X]; [|lra]. rewrite X, SE. ring.
    - assert (0 <= r_src can Uz); [|lra]. destruct CS as [X|X]; rewrite X; [|apply Qle_refl].
      assert (0 <= rate) by (unfold rate; destruct (_ && _); [apply Qle_refl|]; destruct (d_leaves d); discriminate).
      pose proof (cover_range _ _ d U) as [V0 _]. destruct U as (UA & _). unfold per_meter. apply Qmult_le_0_compat; [|apply Qmult_le_0_compat; [exact UA|discriminate]]. apply Qmult_le_0_compat; [|exact V0]. apply Qmult_le_0_compat; assumption. }
  set (X := six g) in *. set (T := throughfall m d) in *. set (S := (d_melt d + d_psoil d) * per_inch m) in *. set (sf := snow_share d v) in *.
  assert (IN : weigh (acfs (areas m)) (map b_infil (d_bins d)) * per_meter m == S - d_qof d * per_meter m - d_qvpref d * per_meter m).
  { rewrite (c_infil _ _ _ C). unfold S, per_inch, per_meter. ring. }
  assert (ST : v_sat v' == v_sat v + X * f + tosat + (d_gw1 d + d_gw2 d) * per_meter m - wet - (d_qpref d + d_qb d + d_loss d) * per_meter m - d_irrsat d * per_inch m).
  { rewrite V5. unfold saturated. cbn [r_end]. fold tosat wet. unfold X, six, per_meter, per_inch, a_million, inch2m. ring. }
  exists (T - (r_out can - drop) - S + caught g (S - d_qof d * per_meter m - d_qvpref d * per_meter m) + d_qvpref d * per_meter m + X * fo).
  assert (CG : caught g (weigh (acfs (areas m)) (map b_infil (d_bins d)) * per_meter m) == caught g (S - d_qof d * per_meter m - d_qvpref d * per_meter m)) by (unfold caught; destruct (qlt 0 (six g)); [exact IN|reflexivity]).
  split.
  { unfold held. rewrite VM, OI, OO, OE, OH, V1, V2, V3, V4, V6, ST, BY. fold ends ets. rewrite CE, I2, I3, I1, CG, TC, OE2, OX. fold X.
    destruct (c_dep _ _ _ C) as [CD _]. rewrite <- CD. assert (SN2 : r_end (snowpack m d v th) == v_snow v + (d_net d - d_psoil d - d_melt d) * per_inch m - r_et (snowpack m d v th)) by lra. rewrite SN2.
    unfold T, throughfall, S. ring. }
  assert (SX : S - X == (T - th) * (1 - sf)) by lra.
  assert (PM : 0 <= per_meter m) by (destruct U as (UA & _); unfold per_meter; apply Qmult_le_0_compat; [exact UA|discriminate]).
  assert (FO : 0 <= fo <= 1 /\ fo * S == d_qof d * per_meter m).
  { destruct OF as [(G1 & G2 & G3)|(G1 & G3)].
    - assert (SD : 0 < d_melt d + d_psoil d) by (pose proof (c_melt _ _ _ C); pose proof (c_soil _ _ _ C) as [? _]; destruct (Qlt_le_dec 0 (d_melt d + d_psoil d)); [assumption|exfalso; apply G2; lra]).
      split; [|rewrite G3; unfold S, per_inch, per_meter; field; exact G2]. rewrite G3.
      assert (W : d_qof d / (d_melt d + d_psoil d) / (127 # 5000) == d_qof d / ((d_melt d + d_psoil d) * (127 # 5000))) by (field; exact G2). rewrite W. split; [apply Qle_shift_div_l; lra|apply Qle_shift_div_r; lra].
    - assert (W : d_qof d == 0) by lra. rewrite G3, W. split; [lra|ring]. }
  destruct FO as [[FA FB] FC].
  assert (DC : clear_fall can_depth m d -> drop == 0 \/ 1 # 1000 <= drop).
  { intros [_ K2]. rewrite DE. destruct (negb (d_leaves d) && v_on v); [|left; reflexivity]. destruct K2 as [K2|K2]; [left; unfold can_ohoriz; rewrite K2; ring|right].
    unfold can_ohoriz, a_million. unfold per_meter in K2. assert (W : can_depth * (cov_sum m - cov_win m) * area m * 1000000 == can_depth * (cov_sum m - cov_win m) * (area m * 1000000)) by ring. rewrite W. exact K2. }
  assert (LOSS : exists x y, T - (r_out can - drop) == x /\ T - th == y /\ 0 <= x /\ x <= 1 # 1000 /\ 0 <= y /\ y <= 1 # 1000 /\ (clear_fall can_depth m d -> x == 0 /\ y == 0)).
  { exists (T - (r_out can - drop)), (T - th). split; [reflexivity|]. split; [reflexivity|].
    assert (A1 : 0 <= T - (r_out can - drop) <= 1 # 1000) by (destruct CU as [Y|[Y Z]]; rewrite Y; split; lra).
    assert (A2 : 0 <= T - th <= 1 # 1000) by (destruct CT as [Y|[Y Z]]; rewrite Y; split; lra).
    split; [tauto|]. split; [tauto|]. split; [tauto|]. split; [tauto|].
    intros K. pose proof (DC K) as DK. destruct K as [K _]. fold T in K. destruct CU as [Y|[Y Z]], CT as [Y2|[Y2 Z2]], K as [K|K], DK as [DK|DK]; split; lra. }
  destruct LOSS as (x & y & EX & EY & X0 & X1 & Y0 & Y1 & CL). rewrite EX. rewrite EY in SX.
  assert (G0 : 0 <= y * (1 - sf)) by (apply Qmult_le_0_compat; lra).
  assert (G1 : y * (1 - sf) <= y) by (assert (0 <= y * sf) by (apply Qmult_le_0_compat; lra); lra).
  unfold caught. fold X. destruct (qlt 0 X) eqn:XP; qprop.
  - assert (W : x - S + (S - d_qof d * per_meter m - d_qvpref d * per_meter m) + d_qvpref d * per_meter m + X * fo == x - fo * (y * (1 - sf))).
    { rewrite <- FC, <- SX. ring. }
    assert (G2 : 0 <= fo * (y * (1 - sf))) by (apply Qmult_le_0_compat; assumption).
    assert (G3 : fo * (y * (1 - sf)) <= y * (1 - sf)) by (assert (0 <= (1 - fo) * (y * (1 - sf))) by (apply Qmult_le_0_compat; lra); lra).
    split; [rewrite W; lra|]. intros K. destruct (CL K) as [K1 K2]. rewrite W, K1, K2. ring.
  - assert (XZ : X == 0) by lra. assert (QZ : d_qvpref d == 0) by (destruct (Qlt_le_dec 0 (d_qvpref d)) as [J|J]; [exfalso; exact (BN J XZ)|lra]).
    assert (W : x - S + 0 + d_qvpref d * per_meter m + X * fo == x - y * (1 - sf)).
    { rewrite <- SX, QZ, XZ. ring. }
    split; [rewrite W; lra|]. intros K. destruct (CL K) as [K1 K2]. rewrite W, K1, K2. ring.
Qed.
(** ** Sources *)
Lemma ground_parts can_depth m d v th : unit_ok can_depth m -> consistent m d v -> 0 <= d_ppt d -> 0 <= d_irrsat d -> 0 <= d_irrhyd d -> 0 <= d_irrext d -> 0 <= th ->
  forall s, surface_source s -> 0 <= ground m d v th s.
Proof.
  intros U C P1 P2 P3 P4 TH s L. pose proof (share_ok _ _ _ _ U C) as [[F0 F1] _]. pose proof (cover_range _ _ d U) as [V0 V1]. pose proof (per_inch_pos _ _ U) as PI. pose proof (c_melt _ _ _ C) as ME. cbn zeta in *.
  unfold ground. fold (cover m d). change (area m * a_million * inch2m) with (per_inch m).
  assert (G : forall x, 0 <= x -> 0 <= x * per_inch m * (1 - cover m d) * (1 - snow_share d v)) by (intros x X; apply Qmult_le_0_compat; [apply Qmult_le_0_compat; [apply Qmult_le_0_compat; assumption|]|]; lra).
  destruct s; try (exfalso; unfold surface_source in L; cbn in L; intuition discriminate); try (apply G; assumption); [apply Qmult_le_0_compat; lra|apply Qmult_le_0_compat; lra].
Qed.
Lemma six_parts g : (forall s, surface_source s -> 0 <= g s) -> 0 <= six g /\ (six g == 0 -> forall s, surface_source s -> g s == 0).
Proof.
  intros GP. assert (G1 : 0 <= g Ppt) by (apply GP; unfold surface_source; cbn; tauto). assert (G2 : 0 <= g Irrext) by (apply GP; unfold surface_source; cbn; tauto). assert (G3 : 0 <= g Irrsat) by (apply GP; unfold surface_source; cbn; tauto).
  assert (G4 : 0 <= g Irrhyd) by (apply GP; unfold surface_source; cbn; tauto). assert (G5 : 0 <= g Thru) by (apply GP; unfold surface_source; cbn; tauto). assert (G6 : 0 <= g Melt) by (apply GP; unfold surface_source; cbn; tauto).
  unfold six. split; [lra|]. intros Z s L. destruct s; try (exfalso; unfold surface_source in L; cbn in L; intuition discriminate); lra.
Qed.
Lemma sources_ok can_depth m d v v' o : unit_ok can_depth m -> consistent m d v -> unit_volumes can_depth m d v = Some (v', o) ->
  0 <= d_ppt d -> 0 <= d_irrsat d -> 0 <= d_irrhyd d -> 0 <= d_irrext d -> clear_fall can_depth m d ->
  forall s, surface_source s -> surface_split o s == ground m d v (throughfall m d) s + (match s with Thru => if negb (d_leaves d) && v_on v then can_ohoriz can_depth m else 0 | _ => 0 end).
Proof.
  intros U C E P1 P2 P3 P4 K s L. apply unit_inv in E. destruct E as (can & th & drop & take & oh & f & E). cbn zeta in E.
  destruct E as (EC & EO & EB & _ & _ & E3 & E4 & E5 & _). unfold surface_split. rewrite E3, E4, E5. clear E3 E4 E5.
  pose proof (throughfall_pos _ _ _ _ U C) as TP.
  pose proof (canopy_ok _ _ _ _ _ _ _ _ U C EC) as CO. cbn zeta in CO. destruct CO as (_ & _ & DE & _ & _ & CT & _).
  assert (TH : th == throughfall m d) by (destruct K as [K _], CT as [Y|[Y Z]]; lra).
  pose proof (six_ground _ _ _ _ th U C) as SG. cbn zeta in SG. assert (TH0 : 0 <= th) by lra. pose proof (ground_parts _ _ _ _ th U C P1 P2 P3 P4 TH0) as GP.
  assert (GT : ground m d v (throughfall m d) s == ground m d v th s) by (unfold ground; destruct s; try reflexivity; rewrite TH; reflexivity). rewrite GT. clear GT.
  apply horizon_ok in EO. destruct EO as (_ & _ & fo & _ & OS & OF).
  pose proof (c_run _ _ _ C) as [[Q0 Q1] QV]. apply bypass_ok in EB; [|exact QV]. destruct EB as [BY BN].
  pose proof (c_lengths _ _ _ C) as [L1 L2].
  set (rate := if negb (d_leaves d) && v_on v then 0 else if d_leaves d then 7 # 10 else 1 # 10) in *. set (g := ground m d v th) in *.
  destruct (bins_in m d g rate (cover m d) (r_src can Uz) (proj1 U) (acfs (areas m)) (v_uz v) (d_bins d)) as (_ & _ & _ & _ & _ & I6); [rewrite acfs_length; exact L2|rewrite acfs_length; exact L1|exact (c_each _ _ _ C)|].
  assert (SS : forall x y, r_src (saturated m d v g f x y) s == g s * f).
  { intros x y. unfold saturated. cbn [r_src]. destruct s; try (exfalso; unfold surface_source in L; cbn in L; intuition discriminate); reflexivity. }
  rewrite SS, (OS s L), <- DE. clear SS OS.
  assert (S0 : six g == (d_melt d + d_psoil d) * per_inch m) by (rewrite SG, TH; ring).
  destruct (six_parts g GP) as [SPos SZ].
  set (us := uz_bins m d g rate (cover m d) (r_src can Uz) (acfs (areas m)) (v_uz v) (d_bins d)) in *.
  destruct (Qeq_dec (six g) 0) as [Z|N].
  - pose proof (SZ Z s L) as GZ.
    assert (UZ : qsum (map (fun u => r_src (u_res u) s) us) == 0).
    { assert (W : forall acs st bs, qsum (map (fun u => r_src (u_res u) s) (uz_bins m d g rate (cover m d) (r_src can Uz) acs st bs)) == 0); [|apply W].
      induction acs as [|a acs IH]; intros [|x st] [|b bs]; try reflexivity. cbn [uz_bins map qsum]. rewrite IH. unfold uz_bin. cbn [u_res r_src]. rewrite (qlt_false 0 (six g)) by lra. rewrite andb_false_r.
      destruct s; try (exfalso; unfold surface_source in L; cbn in L; intuition discriminate); reflexivity. }
    rewrite UZ, GZ. destruct s; try ring.
  - rewrite (I6 s L N SPos). assert (FE : f == d_qvpref d * per_meter m / six g) by (rewrite <- BY; field; exact N).
    assert (FOE : fo == d_qof d * per_meter m / six g).
    { destruct OF as [(G1 & G2 & G3)|(G1 & G3)]; [|assert (W : d_qof d == 0) by lra; rewrite G3, W; field; exact N].
      rewrite G3, S0. unfold per_inch, per_meter. field. split; [|exact G2]. intros AZ. apply N. rewrite S0. unfold per_inch. rewrite AZ. ring. }
    assert (IN : weigh (acfs (areas m)) (map b_infil (d_bins d)) * per_meter m == six g - d_qof d * per_meter m - d_qvpref d * per_meter m) by (rewrite (c_infil _ _ _ C), S0; unfold per_inch, per_meter; ring).
    rewrite IN, FE, FOE. destruct s; try (field; exact N).
Qed.
Lemma qof_nat_S n : inject_Z (Z.of_nat (S n)) == inject_Z (Z.of_nat n) + 1.
Proof. rewrite Nat2Z.inj_succ, <- Z.add_1_r, inject_Z_plus. reflexivity. Qed.
Lemma days_held can_depth m : unit_ok can_depth m -> forall ds v v' os, days_ok can_depth m ds v -> unit_days can_depth m ds v = Some (v', os) ->
  exists lost, held v' - v_mru v' == held v - v_mru v + lost /\ - inject_Z (Z.of_nat (length ds)) * (1 # 1000) <= lost <= inject_Z (Z.of_nat (length ds)) * (1 # 1000) /\
    (Forall (clear_fall can_depth m) ds -> lost == 0).
Proof.
  intros U. induction ds as [|d ds IH]; intros v v' os K E.
  - cbn in E. injection E as <- <-. exists 0. cbn [length]. split; [ring|]. split; [split; discriminate|reflexivity].
  - cbn [unit_days] in E. cbn [days_ok] in K. destruct K as [C K]. destruct (unit_volumes can_depth m d v) as [[w o]|] eqn:EU; [|discriminate]. destruct (unit_days can_depth m ds w) as [[w2 os2]|] eqn:ED; [|discriminate]. injection E as <- <-.
    destruct (held_diff _ _ _ _ _ _ U C EU) as (l1 & A1 & [A2 A3] & A4). destruct (IH w w2 os2 (K _ _ eq_refl) ED) as (l2 & B1 & [B2 B3] & B4).
    exists (l1 + l2). split; [rewrite B1, A1; ring|]. cbn [length]. rewrite qof_nat_S. split; [split; lra|]. intros F. inversion F as [|? ? F1 F2]; subst. rewrite (A4 F1), (B4 F2). ring.
Qed.

(** ** What stays the same *)
Lemma only_length l : forall w xs, only l w xs == only l w (firstn (length l) xs).
Proof. induction l as [|b l IH]; intros w [|x xs]; try reflexivity. unfold only in *. cbn [combine map qsum length firstn]. rewrite (IH w xs). reflexivity. Qed.
Lemma only_sum l : forall xs, length l = length xs -> only l true xs + only l false xs == qsum xs.
Proof. induction l as [|b l IH]; intros [|x xs] E; try discriminate; [reflexivity|]. unfold only in *. cbn [combine map qsum fst snd]. cbn in E. rewrite <- (IH xs) by lia. destruct b; cbn [Bool.eqb]; ring. Qed.
Lemma uz_bins_length m d g rate cov tr : forall acs st bs, length st = length acs -> length bs = length acs -> length (uz_bins m d g rate cov tr acs st bs) = length acs.
Proof. induction acs as [|a acs IH]; intros [|s st] [|b bs] E F; try discriminate; [reflexivity|]. cbn [uz_bins length]. cbn in E, F. rewrite IH; lia. Qed.
Lemma uz_bin_end m d g rate cov tr a s b : let u := uz_bin m d g rate cov tr a s b in r_end (u_res u) == s + r_in (u_res u) - r_out (u_res u) - r_et (u_res u).
Proof. reflexivity. Qed.
Lemma uz_bins_ends m d g rate cov tr w l : forall acs st bs, length st = length acs -> length bs = length acs -> length l = length acs ->
  let us := uz_bins m d g rate cov tr acs st bs in
  only l w (map (fun u => r_end (u_res u)) us) == only l w st + only l w (map (fun u => r_in (u_res u)) us) - only l w (map (fun u => r_out (u_res u)) us) - only l w (map (fun u => r_et (u_res u)) us).
Proof.
  cbn zeta. revert l. unfold only. intros l acs. revert l. induction acs as [|a acs IH]; intros [|x l] [|s st] [|b bs] E F G; try discriminate; [reflexivity|].
  cbn [uz_bins map combine qsum fst snd]. cbn in E, F, G. rewrite (IH l st bs) by lia. destruct (Bool.eqb x w); [|ring].
  rewrite uz_bin_end. ring.
Qed.
Lemma uz_bins_sum m d g rate cov tr : forall acs st bs, length st = length acs -> length bs = length acs ->
  let us := uz_bins m d g rate cov tr acs st bs in
  qsum (map (fun u => r_end (u_res u)) us) == qsum st + qsum (map (fun u => r_in (u_res u)) us) - qsum (map (fun u => r_out (u_res u)) us) - qsum (map (fun u => r_et (u_res u)) us).
Proof.
  cbn zeta. induction acs as [|a acs IH]; intros [|s st] [|b bs] E F; try discriminate; [reflexivity|].
  cbn [uz_bins map qsum]. cbn in E, F. rewrite (IH st bs) by lia. rewrite uz_bin_end. ring.
Qed.

Lemma keep_step can_depth m d v v' o : length (rip m) = length (areas m) -> shaped m d -> length (v_uz v) = length (areas m) -> unit_volumes can_depth m d v = Some (v', o) ->
  length (v_uz v') = length (areas m) /\ v_on v' = d_leaves d /\
  v_gen v' - qsum (v_uz v') == v_gen v - qsum (v_uz v) /\
  v_rip v' - only (rip m) true (v_uz v') == v_rip v - only (rip m) true (v_uz v) /\
  v_up v' - only (rip m) false (v_uz v') == v_up v - only (rip m) false (v_uz v) /\
  v_oh v' + (if v_on v' then can_ohoriz can_depth m else 0) == v_oh v + (if v_on v then can_ohoriz can_depth m else 0) /\
  v_qdf v' == v_qdf v /\ v_pref v' == v_pref v /\ v_hill v' == v_hill v.
Proof.
  intros LR LD LV E. apply unit_inv in E. destruct E as (can & th & drop & take & oh & f & E). cbn zeta in E.
  destruct E as (EC & EO & EB & _ & _ & _ & _ & _ & _ & _ & V0 & _ & _ & V3 & V4 & _ & V6 & V7 & V8 & _ & _ & _ & _ & _ & VG & VR & VU).
  set (us := uz_bins _ _ _ _ _ _ _ _ _) in *.
  assert (LU : length us = length (areas m)) by (unfold us; rewrite uz_bins_length; rewrite acfs_length; auto).
  split; [rewrite V4, map_length; exact LU|]. split; [exact V0|].
  split; [rewrite VG, V4; unfold us; rewrite uz_bins_sum by (rewrite acfs_length; auto); ring|].
  split; [rewrite VR, V4; unfold us; rewrite uz_bins_ends by (rewrite acfs_length; auto); ring|].
  split; [rewrite VU, V4; unfold us; rewrite uz_bins_ends by (rewrite acfs_length; auto); ring|].
  split; [|auto]. apply horizon_ok in EO. destruct EO as (_ & OE & _). rewrite V3, OE, V0.
  unfold canopy in EC. injection EC as _ _ <- <-. destruct (d_leaves d), (v_on v); cbn [negb andb]; ring.
Qed.
Lemma last_over {A} (l : list A) : forall x y, last l x = last (x :: l) y.
Proof. induction l as [|z l IH]; intros x y; [reflexivity|]. change (last (x :: z :: l) y) with (last (z :: l) y). rewrite <- (IH z y). rewrite <- (IH z x). reflexivity. Qed.
Lemma keep_days can_depth m : length (rip m) = length (areas m) -> forall ds v v' os, Forall (shaped m) ds -> length (v_uz v) = length (areas m) -> unit_days can_depth m ds v = Some (v', os) ->
  length (v_uz v') = length (areas m) /\ v_on v' = last (map d_leaves ds) (v_on v) /\
  v_gen v' - qsum (v_uz v') == v_gen v - qsum (v_uz v) /\
  v_rip v' - only (rip m) true (v_uz v') == v_rip v - only (rip m) true (v_uz v) /\
  v_up v' - only (rip m) false (v_uz v') == v_up v - only (rip m) false (v_uz v) /\
  v_oh v' + (if v_on v' then can_ohoriz can_depth m else 0) == v_oh v + (if v_on v then can_ohoriz can_depth m else 0) /\
  v_qdf v' == v_qdf v /\ v_pref v' == v_pref v /\ v_hill v' == v_hill v.
Proof.
  intros LR. induction ds as [|d ds IH]; intros v v' os F LV E.
  - cbn in E. injection E as <- <-. cbn [map last]. repeat (split; [first [assumption|reflexivity]|]). reflexivity.
  - cbn [unit_days] in E. inversion F as [|? ? F1 F2]; subst. destruct (unit_volumes can_depth m d v) as [[w o]|] eqn:EU; [|discriminate]. destruct (unit_days can_depth m ds w) as [[w2 os2]|] eqn:ED; [|discriminate]. injection E as <- <-.
    destruct (keep_step _ _ _ _ _ _ LR F1 LV EU) as (A1 & A2 & A3 & A4 & A5 & A6 & A7 & A8 & A9). destruct (IH w w2 os2 F2 A1 ED) as (B1 & B2 & B3 & B4 & B5 & B6 & B7 & B8 & B9).
    split; [exact B1|]. split; [rewrite B2, A2; cbn [map]; apply last_over|]. split; [rewrite B3; exact A3|]. split; [rewrite B4; exact A4|]. split; [rewrite B5; exact A5|]. split; [rewrite B6; exact A6|]. split; [rewrite B7; exact A7|]. split; [rewrite B8; exact A8|rewrite B9; exact A9].
Qed.
(** The canopy. *)
Lemma canopy_step can_depth m d v v' o : unit_ok can_depth m -> consistent m d v -> clear_fall can_depth m d -> unit_volumes can_depth m d v = Some (v', o) ->
  v_can v' - leaf_water can_depth m (v_on v') == v_can v - leaf_water can_depth m (v_on v) + (d_dep d - d_net d - d_evap d) * per_inch m.
Proof.
  intros U C K E. apply unit_inv in E. destruct E as (can & th & drop & take & oh & f & E). cbn zeta in E. destruct E as (EC & _ & _ & _ & _ & _ & _ & _ & _ & _ & V0 & V1 & _).
  pose proof (canopy_ok _ _ _ _ _ _ _ _ U C EC) as CO. cbn zeta in CO. destruct CO as (D0 & _ & DE & TE & CE & CT & CU & _). pose proof (throughfall_pos _ _ _ _ U C) as TP.
  assert (ET : r_et can == d_evap d * per_inch m + r_src can Uz) by (unfold canopy in EC; injection EC as <- _ _ _; cbn [r_et r_src]; change (area m * a_million * inch2m) with (per_inch m); reflexivity).
  assert (OU : r_out can == throughfall m d + drop).
  { destruct CU as [Y|[Y Z]]; [exact Y|]. destruct K as [K K2]. assert (DC : drop == 0 \/ 1 # 1000 <= drop).
    { rewrite DE. destruct (negb (d_leaves d) && v_on v); [|left; reflexivity]. destruct K2 as [K2|K2]; [left; unfold can_ohoriz; rewrite K2; ring|right].
      unfold can_ohoriz, a_million. unfold per_meter in K2. assert (W : can_depth * (cov_sum m - cov_win m) * area m * 1000000 == can_depth * (cov_sum m - cov_win m) * (area m * 1000000)) by ring. rewrite W. exact K2. }
    destruct K as [K|K], DC as [DC|DC]; lra. }
  rewrite V1, CE, ET, OU, V0, DE, TE. unfold throughfall, leaf_water, cover, can_ohoriz, a_million, per_meter. destruct (d_leaves d), (v_on v); cbn [negb andb]; ring.
Qed.

(** ** Basin *)
Lemma add_lists_sum : forall a b, length a = length b -> qsum (add_lists a b) == qsum a + qsum b.
Proof. induction a as [|x a IH]; intros [|y b] E; try discriminate; [reflexivity|]. cbn [add_lists qsum]. cbn in E. rewrite IH by lia. ring. Qed.
Lemma add_lists_length : forall a b, length (add_lists a b) = length a.
Proof. induction a as [|x a IH]; intros [|y b]; cbn [add_lists length]; try reflexivity. rewrite IH. reflexivity. Qed.
Lemma exports_sum dr n h : drains n dr -> length (exports dr h) = n /\ qsum (exports dr h) == h.
Proof.
  intros (L & N & S). unfold exports. rewrite map_length. split; [exact L|].
  assert (W : forall l, qsum (map (fun x => h * x / dr_frac dr) l) == h * qsum l / dr_frac dr) by (induction l as [|x l IH]; cbn [map qsum]; [field; exact N|rewrite IH; field; exact N]).
  rewrite W, S. field. exact N.
Qed.
Lemma fill_sum : forall drs hills stream, Forall (drains (length stream)) drs -> length drs = length hills ->
  length (fill_stream stream drs hills) = length stream /\ qsum (fill_stream stream drs hills) == qsum stream + qsum hills.
Proof.
  induction drs as [|dr drs IH]; intros [|h hills] stream F E; try discriminate; cbn [fill_stream qsum]; [split; [reflexivity|ring]|].
  inversion F as [|? ? F1 F2]; subst. cbn in E. destruct (exports_sum _ _ h F1) as [X1 X2]. destruct (IH hills (add_lists stream (exports dr h))) as [I1 I2]; [rewrite add_lists_length; exact F2|lia|].
  split; [rewrite I1; apply add_lists_length|]. rewrite I2, add_lists_sum by (symmetry; exact X1). rewrite X2. ring.
Qed.
Lemma shift_sum l : length (shift_stream l) = length l /\ qsum (shift_stream l) == qsum l - hd 0 l.
Proof. destruct l as [|x l]; [split; reflexivity|]. cbn [shift_stream hd qsum length]. rewrite app_length. cbn [length]. split; [lia|]. rewrite qsum_app. cbn [qsum]. ring. Qed.
Lemma units_sum can_depth : forall ms ds vs l, length ds = length ms -> length vs = length ms -> units_step can_depth ms ds vs = Some l ->
  length l = length ms /\ qsum (map v_mru (map fst l)) == qsum (map v_mru vs) + qsum (map (fun u => r_in (o_mru u)) (map snd l)) - qsum (map (fun u => r_out (o_mru u)) (map snd l)) - qsum (map (fun u => r_et (o_mru u)) (map snd l)).
Proof.
  induction ms as [|m ms IH]; intros [|d ds] [|v vs] l A B E; try discriminate.
  - cbn in E. injection E as <-. split; [reflexivity|]. cbn [map qsum]. ring.
  - cbn [units_step] in E. cbn in A, B. destruct (unit_volumes can_depth m d v) as [[w o]|] eqn:EU; [|discriminate]. destruct (units_step can_depth ms ds vs) as [l2|] eqn:E2; [|discriminate]. injection E as <-.
    destruct (IH ds vs l2) as [L2 S2]; [lia|lia|exact E2|]. cbn [length map fst snd qsum]. split; [lia|]. rewrite S2.
    apply unit_inv in EU. destruct EU as (can & th & drop & take & oh & f & E). cbn zeta in E. destruct E as (_ & _ & _ & _ & _ & _ & _ & _ & _ & _ & _ & _ & _ & _ & _ & _ & _ & _ & _ & _ & _ & _ & _ & VM & _).
    rewrite VM. ring.
Qed.
Lemma qsum_minus {A} (f g : A -> Q) l : qsum (map (fun x => f x - g x) l) == qsum (map f l) - qsum (map g l).
Proof. induction l as [|x l IH]; cbn [map qsum]; [reflexivity|]. rewrite IH. ring. Qed.
Lemma basin_step can_depth ms drs ds divert leak b b' o : basin_fits ms drs b -> length ds = length ms -> basin_volumes can_depth ms drs ds divert leak b = Some (b', o) ->
  basin_fits ms drs b' /\ in_basin b' - bs_vol b' == in_basin b - bs_vol b + qsum divert + qsum leak.
Proof.
  intros (F1 & F2 & F3) L E. unfold basin_volumes in E. destruct (units_step can_depth ms ds (bs_units b)) as [l|] eqn:EU; [|discriminate]. injection E as <- _.
  destruct (units_sum _ _ _ _ _ L F1 EU) as [LL SS]. destruct (fill_sum drs (map o_hill (map snd l)) (bs_stream b) F3) as [G1 G2]; [rewrite !map_length; lia|].
  set (st := fill_stream (bs_stream b) drs (map o_hill (map snd l))) in *. destruct (shift_sum st) as [H1 H2]. split.
  - unfold basin_fits. cbn [bs_units bs_stream]. rewrite map_length, H1, G1. auto.
  - unfold in_basin. cbn [bs_units bs_stream bs_vol]. rewrite H2, G2, SS, (qsum_minus (fun u => r_out (o_mru u)) o_hill). ring.
Qed.
Lemma basin_run can_depth ms drs : forall days b b' os, basin_fits ms drs b -> Forall (fun x => length (fst (fst x)) = length ms) days -> basin_days can_depth ms drs days b = Some (b', os) ->
  basin_fits ms drs b' /\ in_basin b' - bs_vol b' == in_basin b - bs_vol b + qsum (map (fun x => qsum (snd (fst x)) + qsum (snd x)) days).
Proof.
  induction days as [|[[ds dv] lk] days IH]; intros b b' os F L E.
  - cbn in E. injection E as <- <-. split; [exact F|]. cbn [map qsum]. ring.
  - cbn [basin_days] in E. inversion L as [|? ? L1 L2]; subst. cbn [fst] in L1. destruct (basin_volumes can_depth ms drs ds dv lk b) as [[b1 o]|] eqn:EB; [|discriminate]. destruct (basin_days can_depth ms drs days b1) as [[b2 os2]|] eqn:ED; [|discriminate]. injection E as <- <-.
    destruct (basin_step _ _ _ _ _ _ _ _ _ F L1 EB) as [A1 A2]. destruct (IH b1 b2 os2 A1 L2 ED) as [B1 B2]. split; [exact B1|]. cbn [map qsum fst snd]. rewrite B2, A2. ring.
Qed.

(** ** With the hillslope model *)
Lemma bins_weigh u dt sbar ep tr p2rz qv p : forall acs sts bs t bs' ls t', length sts = length acs -> length bs = length acs ->
  bins_step u dt sbar ep tr p2rz qv p acs sts bs t = Some (bs', ls, t') ->
  t_ea t' == t_ea t + weigh acs (map l_ea ls) /\ t_qof t' == t_qof t + weigh acs (map l_ex ls) /\ weigh acs (map l_infil ls) == p * qsum acs - weigh acs (map l_ex ls).
Proof.
  induction acs as [|a acs IH]; intros [|st sts] [|b bs] t bs' ls t' L1 L2 E; try discriminate; unfold weigh in *.
  - cbn in E. injection E as <- <- <-. cbn [map combine qsum]. repeat split; ring.
  - cbn [bins_step] in E. destruct (bin_step u dt sbar ep tr p2rz qv p a st b) as [[[b1 l1] s1]|] eqn:E1; [|discriminate].
    destruct (bins_step u dt sbar ep tr p2rz qv p acs sts bs (tally t a l1 s1)) as [[[bs2 ls2] t2]|] eqn:E2; [|discriminate]. injection E as <- <- <-.
    cbn in L1, L2. destruct (IH sts bs _ bs2 ls2 t2 ltac:(lia) ltac:(lia) E2) as (A & B & C). cbn [map combine qsum fst snd]. unfold tally in A, B. cbn [t_ea t_qof] in A, B.
    split; [rewrite A; ring|]. split; [rewrite B; ring|]. rewrite C.
    assert (X : a * l_infil l1 == a * p - a * l_ex l1); [|rewrite X; ring]. destruct (Qeq_dec a 0) as [Z|N]; [rewrite Z; ring|]. destruct (bin_bal _ _ _ _ _ _ _ _ _ _ _ _ _ _ N E1) as (lo & _ & _ & _ & G4 & _). rewrite G4. ring.
Qed.
Lemma weigh_same {A} (f : A -> Q) (R : A -> A -> Prop) : (forall x y, R x y -> f y = f x) -> forall l l', Forall2 R l l' -> map f l' = map f l.
Proof. intros H l l' F. induction F as [|x y l l' X F IH]; [reflexivity|]. cbn [map]. rewrite IH, (H _ _ X). reflexivity. Qed.
Lemma step_weigh expf logf pow10 u dt nstep w s s' f : areas_ok (ac u) -> fits u s -> unit_step expf logf pow10 u dt nstep w s = Some (s', f) ->
  length (f_local f) = length (ac u) /\ weigh (acfs (ac u)) (map l_ea (f_local f)) == f_ea f /\ weigh (acfs (ac u)) (map l_infil (f_local f)) == f_surf f - f_qof f - f_qvpref f.
Proof.
  intros AR [F1 F2] E. destruct (acfs_one _ AR) as [S1 SP]. unfold unit_step in E.
  destruct (if infex u then excess_loop expf logf u dt nstep (surfdep w) (ksat u) (infs s) 0 0 else (infs s, 0, 0)) as [[infs' rex] afx].
  set (p := surfdep w - rex) in *.
  destruct (bins_step u dt (sbar s) (evap_demand w) (transp_on w) (p * (1 - pmacro u)) (p * (1 - pmac_sat u) * pmacro u) (p - p * pmac_sat u * pmacro u) (acfs (ac u)) (st u) (bins s) no_flow) as [[[bs ls] t]|] eqn:EB; [|discriminate].
  pose proof EB as EB2. apply bins_bal in EB2; [|rewrite acfs_length; exact F1|rewrite acfs_length; exact F2|exact SP]. destruct EB2 as (M1 & M2 & _).
  apply bins_weigh in EB; [|rewrite acfs_length; exact F1|rewrite acfs_length; exact F2]. destruct EB as (K1 & K2 & K3).
  match type of E with context [settle u ?sb _ _ _ _] => set (sbar' := sb) in * end.
  destruct (settle u sbar' (acfs (ac u)) (st u) bs ls) as [[bs2 ls2] zw] eqn:ES. apply settle_ok in ES; [|rewrite acfs_length; exact F1|exact M1|exact M2]. destruct ES as (_ & N2 & _ & _ & N5).
  injection E as <- <-. cbn [f_local f_ea f_surf f_qof f_qvpref]. rewrite acfs_length in N2. split; [exact N2|].
  rewrite (weigh_same l_ea _ (fun x y R => proj1 (proj2 (proj2 (proj2 (proj2 R))))) _ _ N5), (weigh_same l_infil _ (fun x y R => proj2 (proj2 (proj2 (proj2 (proj2 R))))) _ _ N5).
  unfold no_flow in *. cbn [t_ea t_qof] in *. split; [rewrite K1; ring|]. rewrite K3, K2, S1. unfold p. ring.
Qed.
Lemma joined expf logf pow10 can_depth m u dt nstep d pet s s' f v : unit_ok can_depth m -> areas m = ac u -> areas_ok (ac u) -> fits u s -> fractions_ok u -> 0 < dt -> (forall x, 0 <= pow10 x) ->
  Forall (fun k => 0 <= snd k) (ksat u) -> length (infs s) = length (ksat u) -> bounded u s -> length (v_uz v) = length (areas m) -> above_ground m d v ->
  unit_step expf logf pow10 u dt nstep (weather_of d pet) s = Some (s', f) -> f_rex f <= f_surf f ->
  consistent m (with_flows d f) v /\ bounded u s' /\ length (infs s') = length (ksat u) /\ fits u s'.
Proof.
  intros U EA AR FI FR D PW KS LI BD LV [A1 A2 A3 A4 A5 A6] E RX. assert (SU : 0 <= surfdep (weather_of d pet)) by (unfold surfdep, weather_of, inch2m; cbn [snowmelt psoil]; lra).
  destruct (step_range _ _ _ _ _ _ _ _ _ _ AR FI FR D PW KS LI SU BD E RX) as (B1 & B2 & (G1 & G2 & G3 & G4 & G5 & G6 & [G7 _] & G8 & _) & B4). destruct (step_parts _ _ _ _ _ _ _ _ _ _ E) as [P1 P2].
  destruct (step_weigh _ _ _ _ _ _ _ _ _ _ AR FI E) as (W1 & W2 & W3). destruct (step_bal _ _ _ _ _ _ _ _ _ _ AR FI E) as (F' & _). cbn [weather_of snowmelt psoil] in P1.
  assert (QO : 0 <= f_qof f).
  { unfold unit_step in E. destruct (if infex u then _ else _) as [[infs' rex] afx]. match type of E with match ?x with _ => _ end = _ => destruct x as [[[bs ls] t]|] end; [|discriminate].
    match type of E with context [settle ?a ?b ?c ?d ?e ?g] => destruct (settle a b c d e g) as [[bs2 ls2] zw] end. injection E as <- <-. cbn [f_qofs f_rex f_qof] in *. lra. }
  split; [|auto]. unfold with_flows. constructor; cbn [d_ppt d_irrsat d_irrhyd d_irrext d_dep d_net d_leaves d_evap d_psoil d_melt d_snowevap d_pack d_sae d_qof d_rex d_qvpref d_qb d_qpref d_loss d_gw1 d_gw2 d_bins]; try assumption; unfold cover in *; cbn [d_leaves] in *.
  - rewrite map_length, W1, EA. split; [reflexivity|]. rewrite LV, EA. reflexivity.
  - rewrite EA, map_map. unfold bin_flux. cbn [b_ea]. split; [exact G7|exact W2].
  - assert (S0 : f_surf f == (d_melt d + d_psoil d) * (127 # 5000)) by exact P1. split; [split; [exact QO|]|exact G8]. lra.
  - rewrite EA, map_map. unfold bin_flux. cbn [b_infil]. assert (S0 : f_surf f == (d_melt d + d_psoil d) * (127 # 5000)) by exact P1. rewrite <- S0. exact W3.
  - rewrite EA, map_map. unfold bin_flux. cbn [b_infil]. destruct (acfs_one _ AR) as [_ SP]. revert B4 SP. generalize (acfs (ac u)) (f_local f). intros acs. induction acs as [|a acs IH]; intros [|l ls] B SP; constructor.
    + cbn [fst snd]. inversion B as [|? ? B1' _]; subst. inversion SP; subst. apply Qmult_le_0_compat; [assumption|]. destruct B1' as (_ & _ & _ & _ & _ & B1'). exact B1'.
    + inversion B; subst. inversion SP; subst. apply IH; assumption.
Qed.

(** The reservoir of a bin. *)
Lemma uz_bins_nth m d g rate cov tr : forall acs st bs i a x b, nth_error acs i = Some a -> nth_error st i = Some x -> nth_error bs i = Some b ->
  nth_error (uz_bins m d g rate cov tr acs st bs) i = Some (uz_bin m d g rate cov tr a x b).
Proof.
  induction acs as [|a0 acs IH]; intros [|x0 st] [|b0 bs] [|i] a x b A X B; try discriminate; cbn [nth_error] in *; cbn [uz_bins nth_error]; [congruence|]. apply IH; assumption.
Qed.
Lemma uz_bin_change m d g rate cov tr a x b : 0 <= a * b_infil b -> 0 <= area m -> (six g == 0 -> b_infil b * a * per_meter m == 0) -> 0 <= six g ->
  let u := uz_bin m d g rate cov tr a x b in
  r_end (u_res u) == x + (b_infil b + b_wet b - b_ea b - b_quz b - b_qdf b - b_uz2sat b) * a * per_meter m.
Proof.
  intros P A Z S. destruct (bin_in m d g rate cov tr a x b P A) as (I1 & I2 & I3 & _). cbn zeta in *. rewrite I2, I1, I3.
  assert (CG : caught g (b_infil b * a * per_meter m) == b_infil b * a * per_meter m).
  { unfold caught. destruct (qlt 0 (six g)) eqn:X; [reflexivity|]. qprop. rewrite Z by lra. reflexivity. }
  rewrite CG. unfold uz_bin. cbn [u_res r_src r_et u_2can u_2sat u_2qdf]. unfold per_meter, a_million. destruct (qlt (b_uz2sat b) 0) eqn:L1, (qlt 0 (b_uz2sat b)) eqn:L2; qprop; try ring; try (exfalso; lra).
  assert (W : b_uz2sat b == 0) by lra. rewrite W. ring.
Qed.
Lemma zero_each : forall acs xs, Forall (fun p => 0 <= fst p * snd p) (combine acs xs) -> weigh acs xs == 0 -> forall i a x, nth_error acs i = Some a -> nth_error xs i = Some x -> a * x == 0.
Proof.
  unfold weigh. induction acs as [|a acs IH]; intros [|x xs] F Z [|i] a0 x0 A X; try discriminate; cbn [combine map qsum fst snd nth_error] in *; inversion F as [|? ? F1 F2]; subst; cbn [fst snd] in F1.
  - injection A as <-. injection X as <-. assert (0 <= qsum (map (fun p => fst p * snd p) (combine acs xs))); [|lra]. clear - F2. induction F2 as [|p l P F IH]; cbn [map qsum]; lra.
  - refine (IH xs F2 _ i a0 x0 A X). assert (0 <= qsum (map (fun p => fst p * snd p) (combine acs xs))); [|lra]. clear - F2. induction F2 as [|p l P F IH]; cbn [map qsum]; lra.
Qed.
Lemma forall_nth {A} (P : A -> Prop) l : Forall P l -> forall i x, nth_error l i = Some x -> P x.
Proof. intros F i x E. apply nth_error_In in E. rewrite Forall_forall in F. exact (F x E). Qed.
Lemma combine_nth {A B} : forall (l : list A) (k : list B) i a b, nth_error l i = Some a -> nth_error k i = Some b -> nth_error (combine l k) i = Some (a, b).
Proof. induction l as [|x l IH]; intros [|y k] [|i] a b E F; try discriminate; cbn [nth_error combine] in *; [congruence|]. apply IH; assumption. Qed.
Lemma bin_change can_depth m d v v' o : unit_ok can_depth m -> consistent m d v -> clear_fall can_depth m d -> unit_volumes can_depth m d v = Some (v', o) ->
  forall i a x b, nth_error (acfs (areas m)) i = Some a -> nth_error (v_uz v) i = Some x -> nth_error (d_bins d) i = Some b ->
  exists y, nth_error (v_uz v') i = Some y /\ y == x + (b_infil b + b_wet b - b_ea b - b_quz b - b_qdf b - b_uz2sat b) * a * per_meter m.
Proof.
  intros U C K E i a x b A X B. apply unit_inv in E. destruct E as (can & th & drop & take & oh & f & E). cbn zeta in E. destruct E as (EC & _ & _ & _ & _ & _ & _ & _ & _ & _ & _ & _ & _ & _ & V4 & _).
  pose proof (throughfall_pos _ _ _ _ U C) as TP. pose proof (canopy_ok _ _ _ _ _ _ _ _ U C EC) as CO. cbn zeta in CO. destruct CO as (_ & _ & _ & _ & _ & CT & _).
  assert (TH : th == throughfall m d) by (destruct K as [K _], CT as [Y|[Y Z]]; lra).
  pose proof (six_ground _ _ _ _ th U C) as SG. cbn zeta in SG. assert (S0 : six (ground m d v th) == (d_melt d + d_psoil d) * per_inch m) by (rewrite SG, TH; ring).
  assert (B0 : nth_error (map b_infil (d_bins d)) i = Some (b_infil b)) by (rewrite nth_error_map, B; reflexivity).
  rewrite V4. eexists. split; [rewrite nth_error_map, (uz_bins_nth _ _ _ _ _ _ _ _ _ i a x b A X B); reflexivity|]. cbn [option_map].
  apply uz_bin_change; [exact (forall_nth _ _ (c_each _ _ _ C) i (a, b_infil b) (combine_nth _ _ _ _ _ A B0))|exact (proj1 U)| |apply (six_pos _ _ _ _ th U C); lra].
  intros Z. destruct (Qeq_dec (area m) 0) as [AZ|AN].
  - unfold per_meter. rewrite AZ. ring.
  - assert (W0 : a * b_infil b == 0); [|rewrite (Qmult_comm (b_infil b)), W0; ring]. refine (zero_each _ _ (c_each _ _ _ C) _ i a (b_infil b) A B0). rewrite (c_infil _ _ _ C). destruct (c_run _ _ _ C) as [[Q0 Q1] QV].
    assert (SZ : (d_melt d + d_psoil d) * (127 # 5000) == 0).
    { rewrite S0 in Z. unfold per_inch in Z. destruct (Qmult_integral _ _ Z) as [Y|Y]; [rewrite Y; ring|]. destruct (Qmult_integral _ _ Y) as [W|W]; [|discriminate W]. destruct (Qmult_integral _ _ W) as [V|V]; [contradiction|discriminate V]. }
    assert (W2 : 0 <= weigh (acfs (areas m)) (map b_infil (d_bins d))).
    { pose proof (c_each _ _ _ C) as F. unfold weigh. induction F as [|p l P F IH]; cbn [map qsum]; [apply Qle_refl|lra]. }
    rewrite (c_infil _ _ _ C) in W2. lra.
Qed.

Lemma clear_flows can_depth m d f : clear_fall can_depth m d -> clear_fall can_depth m (with_flows d f).
Proof. intros H. exact H. Qed.
Lemma joint_run expf logf pow10 can_depth m u dt : unit_ok can_depth m -> areas m = ac u -> areas_ok (ac u) -> fractions_ok u -> 0 < dt -> (forall x, 0 <= pow10 x) -> Forall (fun k => 0 <= snd k) (ksat u) ->
  forall ds nstep s v n s' v' os, fits u s -> length (infs s) = length (ksat u) -> bounded u s -> depths_ok u s -> length (rip m) = length (areas m) -> length (v_uz v) = length (areas m) -> tracks m n s v ->
  joint_ok expf logf pow10 can_depth m u dt nstep ds s v ->
  joint_days expf logf pow10 can_depth m u dt nstep ds s v = Some (s', v', os) ->
  tracks m (n + inject_Z (Z.of_nat (length ds))) s' v' /\ held v' - v_mru v' == held v - v_mru v.
Proof.
  intros U EA AR FR D PW KS. induction ds as [|[d pet] ds IH]; intros nstep s v n s' v' os FI LI BD DO LR LV T K E.
  - cbn in E. injection E as <- <- <-. split; [|reflexivity]. intros i a b x A N B X. destruct (T i a b x A N B X) as [T1 T2]. split; [exact T1|]. cbn [length]. setoid_replace (n + inject_Z (Z.of_nat 0)) with n by (change (inject_Z (Z.of_nat 0)) with 0; ring). exact T2.
  - cbn [joint_days] in E. cbn [joint_ok] in K. destruct K as (K1 & K2 & K3). destruct (unit_step expf logf pow10 u dt nstep (weather_of d pet) s) as [[s1 f]|] eqn:ES; [|discriminate]. destruct (K3 _ _ eq_refl) as [K4 K5].
    destruct (unit_volumes can_depth m (with_flows d f) v) as [[v1 o]|] eqn:EU; [|discriminate]. specialize (K5 _ _ eq_refl).
    destruct (joint_days expf logf pow10 can_depth m u dt (nstep + 1) ds s1 v1) as [[[s2 v2] os2]|] eqn:EJ; [|discriminate]. injection E as <- <- <-.
    destruct (joined _ _ _ _ _ _ _ _ _ _ _ _ _ _ U EA AR FI FR D PW KS LI BD LV K1 ES K4) as (C & BD1 & LI1 & FI1).
    assert (LD : shaped m (with_flows d f)) by exact (proj1 (c_lengths _ _ _ C)).
    destruct (keep_step _ _ _ _ _ _ LR LD LV EU) as (LV1 & _).
    destruct (held_diff _ _ _ _ _ _ U C EU) as (lost & H1 & _ & H3). rewrite (H3 (clear_flows _ _ _ _ K2)) in H1.
    assert (DO1 : depths_ok u s1).
    { intros i a b A N B. destruct (nth_error (bins s) i) as [b0|] eqn:B0.
      - destruct (step_bin _ _ _ _ _ _ _ _ _ _ _ _ _ FI ES A N B0) as (b' & l & lo & J1 & _ & _ & _ & J5 & _). congruence.
      - exfalso. apply nth_error_None in B0. destruct FI as [_ FA], FI1 as [_ FB]. assert (i < length (bins s1))%nat by (apply nth_error_Some; congruence). lia. }
    assert (T1 : tracks m (n + 1) s1 v1).
    { intros i a b x A N B X. assert (IL : (i < length (areas m))%nat) by (rewrite <- (acfs_length (areas m)); apply nth_error_Some; congruence).
      destruct (nth_error (bins s) i) as [b0|] eqn:B0; [|exfalso; apply nth_error_None in B0; destruct FI as [_ FA]; rewrite EA in IL; lia].
      destruct (nth_error (v_uz v) i) as [x0|] eqn:X0; [|exfalso; apply nth_error_None in X0; lia].
      assert (A' : nth_error (acfs (ac u)) i = Some a) by (rewrite <- EA; exact A).
      destruct (step_bin _ _ _ _ _ _ _ _ _ _ _ _ _ FI ES A' N B0) as (b' & l & lo & J1 & J2 & J3 & J4 & J5 & J6 & _).
      assert (L : nth_error (d_bins (with_flows d f)) i = Some (bin_flux l)) by (cbn [with_flows d_bins]; rewrite nth_error_map, J2; reflexivity).
      destruct (bin_change _ _ _ _ _ _ U C (clear_flows _ _ _ _ K2) EU i a x0 _ A X0 L) as (y & Y1 & Y2). assert (y = x) by congruence. subst y. assert (b' = b) by congruence. subst b'.
      destruct (T i a b0 x0 A N B0 X0) as [T1 T2]. cbn [bin_flux b_infil b_wet b_ea b_quz b_qdf b_uz2sat] in Y2.
      assert (DU : uz_depth b == uz_depth b0 + l_infil l + l_wet l - l_ea l - l_quz l - l_qdf l - l_uz2sat l - lo) by (rewrite J5, (DO i a b0 A' N B0); exact J6).
      assert (YY : x == x0 + (uz_depth b - uz_depth b0 + lo) * a * per_meter m) by (rewrite Y2, DU; ring).
      assert (AP : 0 <= a) by (destruct (acfs_one _ AR) as [_ SP]; exact (forall_nth _ _ SP i a A')). assert (PM : 0 <= per_meter m) by (destruct U as (UA & _); unfold per_meter; apply Qmult_le_0_compat; [exact UA|discriminate]).
      assert (APM : 0 <= a * per_meter m) by (apply Qmult_le_0_compat; assumption).
      assert (L0 : 0 <= lo * (a * per_meter m)) by (apply Qmult_le_0_compat; assumption). assert (L1 : lo * (a * per_meter m) <= tiny * (a * per_meter m)) by (apply Qmult_le_compat_r; assumption).
      rewrite YY. split; lra. }
    destruct (IH _ _ _ _ _ _ _ FI1 LI1 BD1 DO1 LR LV1 T1 K5 EJ) as [R1 R2]. split; [|rewrite R2, H1; ring].
    intros i a b x A N B X. destruct (R1 i a b x A N B X) as [Q1 Q2]. split; [exact Q1|]. cbn [length]. rewrite qof_nat_S. setoid_replace (n + (inject_Z (Z.of_nat (length ds)) + 1)) with (n + 1 + inject_Z (Z.of_nat (length ds))) by ring. exact Q2.
Qed.
Lemma all_sources can_depth m d v v' o : unit_ok can_depth m -> consistent m d v -> clear_fall can_depth m d -> unit_volumes can_depth m d v = Some (v', o) ->
  0 <= d_ppt d -> 0 <= d_irrsat d -> 0 <= d_irrhyd d -> 0 <= d_irrext d ->
  (forall s, In s [Ppt; Irrsat; Irrhyd; Irrext] -> r_src (o_can o) s + r_src (o_snow o) s + surface_split o s == deposited d s * per_inch m) /\
  r_src (o_snow o) Thru + surface_split o Thru == throughfall m d + leaf_fall can_depth m d v /\
  surface_split o Melt == d_melt d * per_inch m.
Proof.
  intros U C K E P1 P2 P3 P4. pose proof (sources_ok _ _ _ _ _ _ U C E P1 P2 P3 P4 K) as S. pose proof (share_ok _ _ _ _ U C) as [_ F]. cbn zeta in F.
  apply unit_inv in E. destruct E as (can & th & drop & take & oh & f & E). cbn zeta in E. destruct E as (EC & _ & _ & E1 & E2 & _).
  pose proof (throughfall_pos _ _ _ _ U C) as TP. pose proof (canopy_ok _ _ _ _ _ _ _ _ U C EC) as CO. cbn zeta in CO. destruct CO as (_ & _ & _ & _ & _ & CT & _).
  assert (TH : th == throughfall m d) by (destruct K as [K _], CT as [Y|[Y Z]]; lra).
  assert (NS : no_snow d v = true -> snow_share d v = 0) by (intros X; unfold snow_share; rewrite X; reflexivity).
  rewrite E1, E2. split; [|split].
  - intros s L. assert (SS : surface_source s) by (unfold surface_source; cbn in L |- *; intuition). rewrite (S s SS).
    assert (CS : r_src can s == deposited d s * per_inch m * cover m d) by (unfold canopy in EC; injection EC as <- _ _ _; cbn [r_src]; fold (cover m d); change (area m * a_million * inch2m) with (per_inch m); destruct s; try reflexivity; cbn in L; intuition discriminate).
    assert (SN : r_src (snowpack m d v th) s == deposited d s * per_inch m * (1 - cover m d) * snow_share d v).
    { unfold snowpack. destruct (no_snow d v) eqn:X; [cbn [r_src]; rewrite (NS eq_refl); unfold none; ring|]. cbn [r_src]. fold (cover m d). change (area m * a_million * inch2m) with (per_inch m). destruct s; try reflexivity; cbn in L; intuition discriminate. }
    rewrite CS, SN. unfold ground. fold (cover m d). change (area m * a_million * inch2m) with (per_inch m). destruct s; cbn [deposited]; try ring; cbn in L; intuition discriminate.
  - rewrite (S Thru) by (unfold surface_source; cbn; tauto). assert (SN : r_src (snowpack m d v th) Thru == throughfall m d * snow_share d v).
    { unfold snowpack. destruct (no_snow d v) eqn:X; [cbn [r_src]; rewrite (NS eq_refl); unfold none; ring|]. cbn [r_src]. rewrite TH. reflexivity. }
    rewrite SN. unfold ground, leaf_fall, can_ohoriz, per_meter, a_million. destruct (negb (d_leaves d) && v_on v); ring.
  - rewrite (S Melt) by (unfold surface_source; cbn; tauto). unfold ground. change (area m * a_million * inch2m) with (per_inch m). ring.
Qed.
Lemma snow_books can_depth m d v v' o : unit_ok can_depth m -> consistent m d v -> clear_fall can_depth m d -> unit_volumes can_depth m d v = Some (v', o) ->
  v_snow v' == d_pack d * per_inch m /\ v_snow v' == v_snow v + r_in (o_snow o) - r_out (o_snow o) - r_et (o_snow o).
Proof.
  intros U C K E. pose proof (share_ok _ _ _ _ U C) as [_ F]. cbn zeta in F. apply unit_inv in E. destruct E as (can & th & drop & take & oh & f & E). cbn zeta in E. destruct E as (EC & _ & _ & _ & E2 & _ & _ & _ & _ & _ & _ & _ & V2 & _).
  pose proof (throughfall_pos _ _ _ _ U C) as TP. pose proof (canopy_ok _ _ _ _ _ _ _ _ U C EC) as CO. cbn zeta in CO. destruct CO as (_ & _ & _ & _ & _ & CT & _).
  assert (TH : th == throughfall m d) by (destruct K as [K _], CT as [Y|[Y Z]]; lra). destruct C as [[CD _] _ [S0 S1] _ PK BA _ _ _ _ _].
  rewrite V2, E2. unfold snowpack. destruct (no_snow d v) eqn:X.
  - unfold no_snow in X. qprop. destruct (BA H H0) as [M SE]. cbn [r_end r_in r_out r_et]. assert (Z : d_psoil d == 0) by lra. rewrite PK, H, H0, Z, M, SE. split; ring.
  - cbn [r_end r_in r_out r_et r_src]. fold (cover m d). change (area m * a_million * inch2m) with (per_inch m). split; [reflexivity|]. rewrite PK, TH. unfold throughfall.
    assert (Z : d_psoil d == d_net d - d_net d * snow_share d v) by lra. rewrite Z, CD. ring.
Qed.
Lemma et_sum m d g rate cov tr : forall acs st bs, length st = length acs -> length bs = length acs ->
  let us := uz_bins m d g rate cov tr acs st bs in
  qsum (map (fun u => r_et (u_res u)) us) == weigh acs (map b_ea bs) * per_meter m - qsum (map u_2can us) /\ qsum (map u_2qdf us) == weigh acs (map b_qdf bs) * per_meter m.
Proof.
  cbn zeta. unfold weigh. induction acs as [|a acs IH]; intros [|x st] [|b bs] L1 L2; try discriminate; [split; cbn [uz_bins map combine qsum]; ring|]. cbn in L1, L2. destruct (IH st bs ltac:(lia) ltac:(lia)) as [I1 I2].
  cbn [uz_bins map combine qsum fst snd]. rewrite I1, I2. unfold uz_bin, per_meter, a_million. cbn [u_res r_et u_2can u_2qdf]. split; ring.
Qed.
Lemma flows_out can_depth m d v v' o : unit_ok can_depth m -> consistent m d v -> clear_fall can_depth m d -> unit_volumes can_depth m d v = Some (v', o) ->
  r_et (o_mru o) == (d_evap d + d_snowevap d) * per_inch m + d_sae d * per_meter m /\
  o_hill o == (d_qof d + weigh (acfs (areas m)) (map b_qdf (d_bins d)) + d_qb d + d_qpref d) * per_meter m.
Proof.
  intros U C K E. apply unit_inv in E. destruct E as (can & th & drop & take & oh & f & E). cbn zeta in E.
  destruct E as (EC & EO & EB & _ & _ & _ & _ & _ & _ & _ & _ & _ & _ & _ & _ & _ & _ & _ & _ & OH & _ & _ & OE & _).
  pose proof (throughfall_pos _ _ _ _ U C) as TP. pose proof (canopy_ok _ _ _ _ _ _ _ _ U C EC) as CO. cbn zeta in CO. destruct CO as (_ & _ & _ & _ & _ & CT & _ & CS).
  assert (TH : th == throughfall m d) by (destruct K as [K _], CT as [Y|[Y Z]]; lra).
  pose proof (six_ground _ _ _ _ th U C) as SG. cbn zeta in SG. assert (S0 : six (ground m d v th) == (d_melt d + d_psoil d) * per_inch m) by (rewrite SG, TH; ring).
  apply horizon_ok in EO. destruct EO as (_ & _ & fo & OX & _ & OF). pose proof (c_run _ _ _ C) as [[Q0 Q1] QV]. pose proof (c_lengths _ _ _ C) as [L1 L2].
  set (rate := if negb (d_leaves d) && v_on v then 0 else if d_leaves d then 7 # 10 else 1 # 10) in *. set (g := ground m d v th) in *.
  destruct (bins_in m d g rate (cover m d) (r_src can Uz) (proj1 U) (acfs (areas m)) (v_uz v) (d_bins d)) as (_ & _ & _ & _ & I4 & _); [rewrite acfs_length; exact L2|rewrite acfs_length; exact L1|exact (c_each _ _ _ C)|].
  destruct (et_sum m d g rate (cover m d) (r_src can Uz) (acfs (areas m)) (v_uz v) (d_bins d)) as [J1 J2]; [rewrite acfs_length; exact L2|rewrite acfs_length; exact L1|]. cbn zeta in J1, J2.
  set (us := uz_bins m d g rate (cover m d) (r_src can Uz) (acfs (areas m)) (v_uz v) (d_bins d)) in *. destruct (c_sae _ _ _ C) as [SA SE].
  assert (TC : qsum (map u_2can us) == r_src can Uz).
  { rewrite I4. destruct (qlt 0 (r_src can Uz)) eqn:TR; qprop.
    - destruct CS as [X|X]; [|lra]. rewrite X, SE. ring.
    - assert (0 <= r_src can Uz); [|lra]. destruct CS as [X|X]; rewrite X; [|apply Qle_refl].
      assert (0 <= rate) by (unfold rate; destruct (_ && _); [apply Qle_refl|]; destruct (d_leaves d); discriminate).
      pose proof (cover_range _ _ d U) as [V0 _]. destruct U as (UA & _). unfold per_meter. apply Qmult_le_0_compat; [|apply Qmult_le_0_compat; [exact UA|discriminate]]. apply Qmult_le_0_compat; [|exact V0]. apply Qmult_le_0_compat; assumption. }
  assert (ET : r_et can == d_evap d * per_inch m + r_src can Uz) by (unfold canopy in EC; injection EC as <- _ _ _; cbn [r_et r_src]; change (area m * a_million * inch2m) with (per_inch m); reflexivity).
  assert (ES : r_et (snowpack m d v th) == d_snowevap d * per_inch m).
  { unfold snowpack. destruct (no_snow d v) eqn:X; [|reflexivity]. unfold no_snow in X. qprop. destruct (c_bare _ _ _ C H H0) as [_ W]. cbn [r_et]. rewrite W. ring. }
  split; [rewrite OE, J1, TC, ET, ES, SE; ring|]. rewrite OH, OX, J2, S0.
  assert (FC : fo * ((d_melt d + d_psoil d) * per_inch m) == d_qof d * per_meter m).
  { destruct OF as [(G1 & G2 & G3)|(G1 & G3)]; [rewrite G3; unfold per_inch, per_meter; field; exact G2|]. assert (W : d_qof d == 0) by lra. rewrite G3, W. ring. }
  rewrite (Qmult_comm _ fo), FC. ring.
Qed.
