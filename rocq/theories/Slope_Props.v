(** C120: laws of flow on a hillslope. *)
From Coq Require Import QArith Qabs ZArith List Bool Lqa Lia.
Import ListNotations.
From Verif Require Import Qx Infil_Model Hill_Model Hill_Spec Hill_Proofs Slope_Spec.
Local Open Scope Q_scope.

Lemma sum_split u dt sbar ep tr p2rz qv p : forall acs sts bs t bs' ls t',
  bins_step u dt sbar ep tr p2rz qv p acs sts bs t = Some (bs', ls, t') ->
  t_qdf t' * (1 - qdffrac u) - t_quz t' * qdffrac u ==
  t_qdf t * (1 - qdffrac u) - t_quz t * qdffrac u.
Proof.
  induction acs as [|a acs IH]; intros sts bs t bs' ls t' H; cbn [bins_step] in H;
    [injection H as <- <- <-; reflexivity|].
  destruct sts as [|x sts]; [injection H as <- <- <-; reflexivity|].
  destruct bs as [|b bs]; [injection H as <- <- <-; reflexivity|].
  destruct (bin_step u dt sbar ep tr p2rz qv p a x b) as [[[b1 l] sat]|] eqn:B; [|discriminate].
  destruct (bins_step u dt sbar ep tr p2rz qv p acs sts bs (tally t a l sat))
    as [[[bs2 ls2] t2]|] eqn:E; [|discriminate].
  injection H as <- <- <-. rewrite (IH _ _ _ _ _ _ E). cbn [tally t_qdf t_quz].
  assert (L : l_qdf l * (1 - qdffrac u) == l_quz l * qdffrac u).
  { unfold bin_step in B. destruct (qeq a 0); [injection B as <- <- <-; cbn; ring|].
    destruct (saturate _ _) as [[[uz sd] suz1] tz]. destruct (wet_root _ _) as [[wet srz1] sd'].
    destruct (root_zone _ _ _ _) as [srz2 suz2]. destruct (sat_excess _ _) as [ex suz3].
    destruct (drain _ _ _ _ _ _) as [[uz' suz4]|]; [|discriminate].
    injection B as <- <- <-. cbn [l_qdf l_quz]. ring. }
  transitivity ((t_qdf t * (1 - qdffrac u) - t_quz t * qdffrac u)
                + a * (l_qdf l * (1 - qdffrac u) - l_quz l * qdffrac u)); [ring|].
  rewrite L. ring.
Qed.

Ltac open E :=
  unfold unit_step in E; cbv zeta in E;
  match type of E with context [if infex ?u then ?x else ?y] =>
    destruct (if infex u then x else y) as [[infs' rex] afx] end;
  match type of E with match ?x with _ => _ end = _ => destruct x as [[[bs ls] t]|] eqn:BS end;
  [|discriminate];
  match type of E with context [settle ?a ?b ?c ?d ?e ?g] =>
    destruct (settle a b c d e g) as [[bs2 ls2] zw] end;
  injection E as <- <-.

(** C120: of the water that enters the soil, the share of the macropores that reach the water
    table goes there directly. *)
Theorem C120_macropores : forall expf logf pow10 u dt nstep w s s' f,
  unit_step expf logf pow10 u dt nstep w s = Some (s', f) ->
  f_qvpref f == (f_surf f - f_rex f) * pmacro u * pmac_sat u.
Proof. intros expf logf pow10 u dt nstep w s s' f E. open E. cbn. ring. Qed.
Print Assumptions C120_macropores.

(** C120: what drains from the unsaturated zone is divided between recharge and direct flow
    in the given proportion. *)
Theorem C120_direct : forall expf logf pow10 u dt nstep w s s' f,
  unit_step expf logf pow10 u dt nstep w s = Some (s', f) ->
  f_qdf f == qdffrac u * (f_quz f + f_qdf f).
Proof.
  intros expf logf pow10 u dt nstep w s s' f E. open E. cbn [f_qdf f_quz].
  pose proof (sum_split _ _ _ _ _ _ _ _ _ _ _ _ _ _ _ BS) as H. cbn [no_flow t_qdf t_quz] in H.
  lra.
Qed.
Print Assumptions C120_direct.

(** C120: what leaves the hillslope for the stream is base flow, overland flow, direct flow
    and drain flow; the mean deficit changes by what enters and leaves the saturated zone. *)
Theorem C120_stream : forall expf logf pow10 u dt nstep w s s' f,
  unit_step expf logf pow10 u dt nstep w s = Some (s', f) ->
  f_qout f == f_qb f + f_qof f + f_qdf f + f_qpref f /\
  sbar s' - sbar s ==
    (f_qb f + f_qpref f + f_wet f + f_loss f + irrig_sat w * inch)
    - (f_quz f + f_qvpref f + gw_in1 w + gw_in2 w).
Proof.
  intros expf logf pow10 u dt nstep w s s' f E. open E.
  cbn [f_qout f_qb f_qof f_qdf f_qpref f_wet f_loss f_quz f_qvpref sbar].
  unfold inch, inch2m. split; ring.
Qed.
Print Assumptions C120_stream.

(** C120: the loss to deep ground water is that of Darcy: the height of the water table over
    the bedrock, of the step before, times the leakage (a power of ten, cm/s) and the time. *)
Theorem C120_leakage : forall expf logf pow10 u dt nstep w s s' f,
  unit_step expf logf pow10 u dt nstep w s = Some (s', f) ->
  let height := rock_depth u + z_wt s in
  (0 < height -> gw_loss_k u < 11 ->
     f_loss f == height * pow10 (- gw_loss_k u) * (3600 # 100) * dt) /\
  (height <= 0 \/ 11 <= gw_loss_k u -> f_loss f == 0).
Proof.
  intros expf logf pow10 u dt nstep w s s' f E. open E. cbn [f_loss]. unfold gw_loss. cbv zeta.
  split.
  - intros A B. rewrite (qlt_true _ _ A), (qlt_true _ _ B). cbn [andb].
    change (3600 # 100) with ((36 # 1) * (100 # 100)). assert (100 # 100 == 1) as -> by reflexivity.
    ring.
  - intros [A|A]; rewrite (qlt_false _ _ A); [|rewrite andb_false_r]; reflexivity.
Qed.
Print Assumptions C120_leakage.

Lemma base_is expf u d : 0 < szm u -> exists q,
  base_law expf (t_decay u) (szq u) (szm u) d q /\ cut q (base_flow expf u d).
Proof.
  intros M. unfold base_flow. cbv zeta.
  match goal with |- context [qlt ?x (1 # 100000)] => set (q := x); exists q end.
  split.
  - unfold base_law, q. split; [|split]; intros ->; cbn [Z.eqb Pos.eqb].
    + reflexivity.
    + field. lra.
    + field. lra.
  - unfold cut. destruct (qlt q (1 # 100000)) eqn:L; qprop; [left|right]; split; lra.
Qed.

(** C120: base flow follows the law chosen for the unit, from the deficit of the step before;
    a unit with tile drains loses of it as the drains are used, down to the least flow. *)
Theorem C120_base : forall expf logf pow10 u dt nstep w s s' f,
  unit_step expf logf pow10 u dt nstep w s = Some (s', f) -> 0 < szm u ->
  exists q r, base_law expf (t_decay u) (szq u) (szm u) (sbar s) q /\ cut q r /\
    (qpref_max u <= 0 -> f_qb f == r) /\
    (0 < qpref_max u ->
       let left_over := r - f_qpref f * f_qpref f / qpref_max u in
       (1 # 100000 <= left_over -> f_qb f == left_over) /\
       (left_over <= 1 # 100000 -> f_qb f == 1 # 100000)).
Proof.
  intros expf logf pow10 u dt nstep w s s' f E M. open E. cbn [f_qb f_qpref].
  destruct (base_is expf u (sbar s) M) as (q & B & C). exists q, (base_flow expf u (sbar s)).
  split; [exact B|]. split; [exact C|]. unfold adjust_base. split.
  - intros P. rewrite (qlt_false _ _ P). reflexivity.
  - intros P. rewrite (qlt_true _ _ P). cbv zeta. set (qp := tile_flow _ _ _ _).
    assert (X : base_flow expf u (sbar s) - qp * (qp / qpref_max u) ==
                base_flow expf u (sbar s) - qp * qp / qpref_max u) by (field; lra).
    match goal with |- context [qlt ?x (1 # 100000)] => destruct (qlt x (1 # 100000)) eqn:L end;
      qprop; rewrite X in *; split; intros; lra.
Qed.
Print Assumptions C120_base.

Lemma mean_ext g h : (forall x, g x == h x) -> forall l c, mean g l c == mean h l c.
Proof.
  intros E l. induction l as [|a l IH]; intros [|x c]; cbn [mean]; try reflexivity.
  now rewrite E, IH.
Qed.
Lemma mean_affine p k : forall l c, length c = length l ->
  mean (fun x => p + k * x) l c == p * qsum l + k * mean (fun x => x) l c.
Proof.
  induction l as [|a l IH]; intros [|x c] L; try discriminate; cbn [mean qsum]; [ring|].
  rewrite IH by (injection L; auto). ring.
Qed.

(** C120: if TL is the mean of the topographic index over the areas, the mean of the deficits of
    the classes is the mean deficit of the unit, under every law. *)
Theorem C120_mean_deficit : forall u d,
  areas_ok (ac u) -> length (st u) = length (ac u) -> ~ tl u == 0 ->
  mean (fun x => x) (acfs (ac u)) (st u) == tl u ->
  mean (deficit u d) (acfs (ac u)) (st u) == d.
Proof.
  intros u d A L T M. destruct (acfs_one _ A) as [S _].
  assert (LE : length (st u) = length (acfs (ac u))) by (rewrite acfs_length; exact L).
  unfold deficit. destruct (t_decay u =? 0)%Z.
  - rewrite (mean_ext _ (fun x => (d + szm u * tl u) + (- szm u) * x)) by (intros; ring).
    rewrite mean_affine by exact LE. rewrite S, M. ring.
  - rewrite (mean_ext _ (fun x => szm u + (- ((szm u - d) / tl u)) * x))
      by (intros; field; exact T).
    rewrite mean_affine by exact LE. rewrite S, M. field. exact T.
Qed.
Print Assumptions C120_mean_deficit.

(** C120: classes with a larger topographic index are wetter. *)
Theorem C120_index : forall u d x y,
  x <= y -> 0 < szm u -> 0 < tl u -> t_decay u = 0%Z \/ d <= szm u ->
  deficit u d y <= deficit u d x.
Proof.
  intros u d x y H M T C. unfold deficit. destruct (t_decay u =? 0)%Z eqn:E.
  - assert (0 <= szm u * (y - x)) by (apply Qmult_le_0_compat; lra). lra.
  - assert (D : d <= szm u) by (destruct C as [C|C]; [rewrite C in E; discriminate|exact C]).
    assert (X : forall z, z * (szm u - d) / tl u == z * ((szm u - d) / tl u))
      by (intros; field; lra).
    rewrite !X. assert (0 <= (szm u - d) / tl u) by (apply Qle_shift_div_l; lra).
    assert (0 <= (y - x) * ((szm u - d) / tl u)) by (apply Qmult_le_0_compat; lra). lra.
Qed.
Print Assumptions C120_index.

(** C120: evapotranspiration of a class falls in proportion with the deficit of its root zone,
    which it does not raise above the largest; vegetation takes its share, in the season of
    growth, and a tenth of it otherwise. *)
Theorem C120_transpiration : forall u ep grows srz,
  0 < srmax u -> (1 # 100) * srmax u < srz ->
  exists e, (e == ep * (1 - srz / srmax u) \/ e == srmax u - srz) /\
    e <= ep * (1 - srz / srmax u) /\ e <= srmax u - srz /\
    transpire u ep grows srz == e * (if grows then covden_sum u else covden_win u / 10).
Proof.
  intros u ep grows srz R D. unfold transpire. cbv zeta.
  assert (Q1 : 1 # 100 < srz / srmax u) by (apply Qlt_shift_div_l; lra).
  rewrite (qlt_true _ _ Q1).
  destruct (qlt (srmax u - srz) (ep * (1 - srz / srmax u))) eqn:E; qprop.
  - exists (srmax u - srz). split; [right; reflexivity|]. split; [lra|]. split; [lra|].
    destruct grows; [reflexivity|]. unfold Qdiv. change (/ 10) with (1 # 10). ring.
  - exists (ep * (1 - srz / srmax u)). split; [left; reflexivity|]. split; [lra|].
    split; [exact E|]. destruct grows; [reflexivity|]. unfold Qdiv. change (/ 10) with (1 # 10). ring.
Qed.
Print Assumptions C120_transpiration.

(** At the wilting point nothing is taken. *)
Theorem C120_wilted : forall u ep grows, 0 < srmax u -> 0 <= ep ->
  transpire u ep grows (srmax u) == 0.
Proof.
  intros u ep grows R P. destruct (C120_transpiration u ep grows (srmax u) R ltac:(lra))
    as (e & E & A & B & ->).
  assert (X : ep * (1 - srmax u / srmax u) == 0) by (field; lra).
  assert (e == 0) as -> by (destruct E as [E|E]; rewrite E; lra). ring.
Qed.
Print Assumptions C120_wilted.

(** More water in the root zone does not mean more evapotranspiration at the edge of
    saturation, and much more in winter: within one percent of field capacity the share of the
    vegetation is left out (topmod_chem.F 2508-2514), so a unit without any vegetation, which
    otherwise loses nothing to the air from its soil, loses the full demand when its soil is
    wet. *)
Theorem C120_wet_soil_refuted : forall u ep grows,
  0 < srmax u -> 0 < ep -> ep <= srmax u -> covden_sum u == 0 -> covden_win u == 0 ->
  transpire u ep grows 0 == ep /\
  (forall srz, (1 # 100) * srmax u < srz -> transpire u ep grows srz == 0).
Proof.
  intros u ep grows R P L S W. split.
  - unfold transpire. cbv zeta.
    assert (X : ep * (1 - 0 / srmax u) == ep) by (field; lra).
    assert (Y : 0 / srmax u == 0) by (field; lra).
    rewrite (qlt_false (srmax u - 0)) by (rewrite X; lra).
    rewrite (qlt_false (1 # 100)) by (rewrite Y; lra). exact X.
  - intros z Z. destruct (C120_transpiration u ep grows z R Z) as (e & _ & _ & _ & ->).
    destruct grows; [rewrite S|rewrite W]; unfold Qdiv; ring.
Qed.
Print Assumptions C120_wet_soil_refuted.

(** C120: capacities from the soil's properties: the water held at the start above the wilting
    point is that of the initial moisture; what drains is the porosity above field capacity;
    the drains carry at most their conductivity (cm/s) times their height, per hour. *)
Theorem C120_capacities : forall porosity fc wp th0 root zmax zmin k,
  srmax_of fc wp root - sr0_of fc th0 root == (th0 - wp) * root /\
  srmax_of fc wp root == (fc - wp) * root /\
  drain_of porosity fc + fc == porosity /\
  qpref_max_of zmax zmin k == (k / 100 * 3600) * (zmax - zmin).
Proof.
  intros. unfold srmax_of, sr0_of, drain_of, qpref_max_of. repeat split; field.
Qed.
Print Assumptions C120_capacities.

(** A unit with three classes of area, of which the last two are in use. *)
Definition slope_unit (law : Z) : unit :=
  mkUnit false [(1 # 10, 1)] (1 # 10) (1 # 10) (1 # 10) 5 (1 # 1000) law (1 # 10) (1 # 2)
         (1 # 5) 1 (1 # 5) 1 1 [0; 1 # 2; 1 # 2] [6; 5; 4] 10 1 (3 # 10) (1 # 10) (1 # 5) 5
         (1 # 1000) (- (2)) (- (1)).
Example C120_case :
  let u := slope_unit 2 in
  areas_ok (ac u) /\ mean (fun x => x) (acfs (ac u)) (st u) == tl u /\
  mean (deficit u (1 # 20)) (acfs (ac u)) (st u) == 1 # 20 /\
  exists s' f,
    unit_step (fun _ => 1) (fun _ => 1) (fun _ => 1 # 100000) u 1 1
      (mkWeather (1 # 10) 0 0 0 1 true 0 0 0) (start u (1 # 100) (1 # 20)) = Some (s', f) /\
    0 < f_qb f /\ 0 < f_loss f /\ 0 < f_qdf f /\ 0 < f_qvpref f.
Proof.
  cbv zeta. split; [split; [reflexivity|split; [repeat constructor; discriminate|reflexivity]]|].
  split; [reflexivity|]. split; [reflexivity|].
  match goal with |- exists s' f, ?x = Some (s', f) /\ _ => destruct x as [[s' f]|] eqn:E end;
    [|vm_compute in E; discriminate].
  exists s', f. split; [reflexivity|]. vm_compute in E. injection E as <- <-.
  vm_compute. repeat split; reflexivity.
Qed.
