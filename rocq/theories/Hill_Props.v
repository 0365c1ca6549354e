(** Hillslope hydrology: properties C60-C63. *)
From Coq Require Import QArith Qabs ZArith List Bool Lia Lqa.
From Verif Require Import Qx Infil_Model Hill_Model Hill_Spec Hill_Proofs.
Import ListNotations.
Local Open Scope Q_scope.

(** A unit used in the examples: two bins of half the area each, exponential decay. *)
Definition ex_unit (mx : Q) (wp : Q) : unit :=
  mkUnit false [(1 # 10, 1)] (1 # 10) (1 # 10) (1 # 10) 5 (1 # 1000) 0 (1 # 10) (1 # 2) (1 # 5) 1 ((3 # 10) - wp) 1 1 [0; 1 # 2; 1 # 2] [6; 5; 4]
         10 1 (3 # 10) wp (1 # 5) 12 mx (- (2)) (- (1)).
Definition ex_w : weather := mkWeather (1 # 10) 0 0 0 1 true 0 0 (1 # 100).
Definition one (_ : Q) : Q := 1.
Lemma ex_areas : areas_ok [0; 1 # 2; 1 # 2].
Proof. split; [reflexivity|]. split; [repeat constructor; discriminate|reflexivity]. Qed.

(** ** C60: water balance *)
(** In every step the water stored in a unit changes by what comes in less what goes out; less than 1e-7 m is dropped. *)
Theorem C60_step : forall expf logf pow10 u dt nstep w s s' f, areas_ok (ac u) -> fits u s -> divisors_ok u dt ->
  unit_step expf logf pow10 u dt nstep w s = Some (s', f) ->
  fits u s' /\ exists lost, 0 <= lost <= tiny /\ stored u s' == stored u s + inputs w f - outputs w f - lost.
Proof. intros expf logf pow10 u dt nstep w s s' f A F _ E. destruct (step_bal _ _ _ _ _ _ _ _ _ _ A F E) as (F' & lost & L1 & L2 & L3). split; [exact F'|]. exists lost. split; [split; assumption|exact L3]. Qed.
Print Assumptions C60_step.
(** What reaches the ground is snowmelt and rain, in meters; what does not run off or bypass the soil infiltrates. *)
Theorem C60_surface : forall expf logf pow10 u dt nstep w s s' f, unit_step expf logf pow10 u dt nstep w s = Some (s', f) ->
  f_surf f == (snowmelt w + psoil w) * inch /\ f_infil f + f_qof f + f_qvpref f == (snowmelt w + psoil w) * inch.
Proof. intros expf logf pow10 u dt nstep w s s' f E. destruct (step_parts _ _ _ _ _ _ _ _ _ _ E) as [A B]. split; [exact A|]. rewrite B, A. ring. Qed.
Print Assumptions C60_surface.
(** The stop for double recharge is never reached. *)
Theorem C60_never_stops : forall expf logf pow10 u dt nstep ws s a, unit_run expf logf pow10 u dt nstep ws s a <> None.
Proof. intros. apply run_some. Qed.
Print Assumptions C60_never_stops.
(** Over a run of any length from the initial state, the reported balance is what was pumped out for irrigation, and what was dropped. *)
Theorem C60_run : forall expf logf pow10 u dt rock sr0 sbar0 ws s' a fs, areas_ok (ac u) -> length (st u) = length (ac u) -> divisors_ok u dt ->
  unit_run expf logf pow10 u dt 1 ws (start u sr0 sbar0) (mkSums 0 0 0 0 0) = Some (s', a, fs) ->
  length fs = length ws /\
  pumped ws <= bal_end u rock (bal_start rock sbar0 sr0) s' a /\
  bal_end u rock (bal_start rock sbar0 sr0) s' a <= pumped ws + tiny * inject_Z (Z.of_nat (length ws)).
Proof.
  intros expf logf pow10 u dt rock sr0 sbar0 ws s' a fs AR L _ E. destruct (start_stored u sr0 sbar0 AR L) as [F S0].
  destruct (run_bal _ _ _ _ _ AR _ _ _ _ _ _ _ F E) as (_ & LN & lost & L1 & L2 & L3). split; [exact LN|].
  assert (B : bal_end u rock (bal_start rock sbar0 sr0) s' a == pumped ws + lost).
  { unfold bal_end, bal_start. rewrite S0 in L3. unfold stored in L3. fold (bin_sum (acfs (ac u)) (bins s')) in L3. rewrite weighted_sum in L3. cbn [s_p s_gw s_ea s_q s_loss] in L3. lra. }
  rewrite B. split; lra.
Qed.
Print Assumptions C60_run.
Lemma C60_run_unit : exists s' a fs, unit_run one one one (ex_unit 0 (1 # 10)) 1 1 [ex_w; ex_w] (start (ex_unit 0 (1 # 10)) (1 # 100) (1 # 10)) (mkSums 0 0 0 0 0) = Some (s', a, fs).
Proof. destruct (unit_run one one one (ex_unit 0 (1 # 10)) 1 1 [ex_w; ex_w] (start (ex_unit 0 (1 # 10)) (1 # 100) (1 # 10)) (mkSums 0 0 0 0 0)) as [[[s a] fs]|] eqn:E; [eauto|exfalso; exact (run_some _ _ _ _ _ _ _ _ _ E)]. Qed.
Example C60_example : areas_ok (ac (ex_unit 0 (1 # 10))) /\ length (st (ex_unit 0 (1 # 10))) = 3%nat /\ divisors_ok (ex_unit 0 (1 # 10)) 1 /\
  match unit_step one one one (ex_unit 0 (1 # 10)) 1 1 ex_w (start (ex_unit 0 (1 # 10)) (1 # 100) (1 # 10)) with
  | Some (s', f) => 0 < f_ea f /\ 0 < f_qvpref f /\ 0 < f_qofs f /\ 0 < f_qb f /\ ~ sbar s' == (1 # 10) | None => False end.
Proof. split; [exact ex_areas|]. split; [reflexivity|]. split; [repeat split; discriminate|]. vm_compute. repeat split; discriminate. Qed.
(** Basin totals, each unit weighted with its share of the area. *)
Theorem C60_basin : forall expf logf pow10 dt nstep (l : list (Q * (unit * weather * store * (store * flows)))),
  Forall (fun x => let '(share, (u, w, s, (s', f))) := x in 0 <= share /\ areas_ok (ac u) /\ fits u s /\ divisors_ok u dt /\ unit_step expf logf pow10 u dt nstep w s = Some (s', f)) l ->
  exists lost, 0 <= lost /\ lost <= tiny * qsum (map fst l) /\
  qsum (map (fun x => let '(share, (u, w, s, (s', f))) := x in share * stored u s') l) ==
  qsum (map (fun x => let '(share, (u, w, s, (s', f))) := x in share * stored u s) l)
  + qsum (map (fun x => let '(share, (u, w, s, (s', f))) := x in share * ((snowmelt w + psoil w) * inch + gw_in1 w + gw_in2 w - irrig_sat w * inch)) l)
  - basin f_ea (map (fun x => (fst x, snd (snd (snd x)))) l)
  - basin f_qout (map (fun x => (fst x, snd (snd (snd x)))) l) - basin f_loss (map (fun x => (fst x, snd (snd (snd x)))) l) - lost.
Proof.
  intros expf logf pow10 dt nstep l H. induction H as [|[share [[[u w] s] [s' f]]] l (A & B & C & D & E) H IH].
  - exists 0. split; [lra|]. split; [cbn; lra|]. unfold basin. cbn [map qsum]. ring.
  - destruct IH as (lost & L1 & L2 & L3). destruct (step_bal _ _ _ _ _ _ _ _ _ _ B C E) as (_ & lost1 & K1 & K2 & K3). exists (share * lost1 + lost).
    assert (0 <= share * lost1) by (apply Qmult_le_0_compat; assumption). assert (share * lost1 <= share * tiny) by (rewrite !(Qmult_comm share); apply Qmult_le_compat_r; assumption).
    split; [lra|]. split; [cbn [map qsum fst]; lra|]. unfold basin in *. cbn [map qsum fst snd]. rewrite L3, K3. unfold inputs, outputs. ring.
Qed.
Print Assumptions C60_basin.
(** Water pumped from the ground for irrigation is left out of the balance the program prints at the end of a run: the
    figure, which should be 0, is at least the amount pumped (topmod_chem.F 2997-2999 against 2779-2781). *)
Theorem C60_irrigation_refuted : forall expf logf pow10 u dt rock sr0 sbar0 ws s' a fs, areas_ok (ac u) -> length (st u) = length (ac u) ->
  unit_run expf logf pow10 u dt 1 ws (start u sr0 sbar0) (mkSums 0 0 0 0 0) = Some (s', a, fs) -> 0 < pumped ws ->
  0 < bal_end u rock (bal_start rock sbar0 sr0) s' a.
Proof.
  intros expf logf pow10 u dt rock sr0 sbar0 ws s' a fs AR L E P. destruct (start_stored u sr0 sbar0 AR L) as [F S0].
  destruct (run_bal _ _ _ _ _ AR _ _ _ _ _ _ _ F E) as (_ & LN & lost & L1 & L2 & L3).
  unfold bal_end, bal_start. rewrite S0 in L3. unfold stored in L3. fold (bin_sum (acfs (ac u)) (bins s')) in L3. rewrite weighted_sum in L3. cbn [s_p s_gw s_ea s_q s_loss] in L3. lra.
Qed.
Print Assumptions C60_irrigation_refuted.
Example C60_irrigation_example : 0 < pumped [ex_w; ex_w] /\ exists s' a fs, unit_run one one one (ex_unit 0 (1 # 10)) 1 1 [ex_w; ex_w] (start (ex_unit 0 (1 # 10)) (1 # 100) (1 # 10)) (mkSums 0 0 0 0 0) = Some (s', a, fs).
Proof. split; [reflexivity|exact C60_run_unit]. Qed.
(** Drainable water of less than 1e-7 m that would stay in a bin is set to 0 without being added to any flow
    (topmod_chem.F 2494). *)
Theorem C60_dropped_refuted : exists dt td sd suz uz suz', drain dt td sd suz 0 false = Some (uz, suz') /\ uz + suz' < suz.
Proof. exists 1, 2, 1, (1 # 10000000), (1 # 20000000), 0. split; [vm_compute; reflexivity|reflexivity]. Qed.
Print Assumptions C60_dropped_refuted.

(** ** C61: stores and flows stay in range *)
Theorem C61_ranges : forall expf logf pow10 u dt sr0 sbar0 ws s' a fs,
  areas_ok (ac u) -> length (st u) = length (ac u) -> fractions_ok u -> 0 < dt -> (forall x, 0 <= pow10 x) -> Forall (fun k => 0 <= snd k) (ksat u) ->
  0 <= sr0 <= srmax u -> Forall (fun w => 0 <= surfdep w) ws ->
  unit_run expf logf pow10 u dt 1 ws (start u sr0 sbar0) (mkSums 0 0 0 0 0) = Some (s', a, fs) ->
  Forall (fun f => f_rex f <= f_surf f) fs ->
  bounded u s' /\ Forall2 (fun w f => flows_ok w f /\ Forall (local_ok (demand w)) (f_local f)) ws fs.
Proof.
  intros expf logf pow10 u dt sr0 sbar0 ws s' a fs AR L FR D PW KS SR WS E RX. destruct (start_stored u sr0 sbar0 AR L) as [F _].
  eapply run_range; try eassumption; [cbn; apply map_length|]. unfold bounded. cbn [start bins]. apply Forall_map. apply Forall_forall. intros x _. cbn [start_bin srz suz]. split; [exact SR|lra].
Qed.
Print Assumptions C61_ranges.
(** From any state in range, one step keeps it there. *)
Theorem C61_step : forall expf logf pow10 u dt nstep w s s' f,
  areas_ok (ac u) -> fits u s -> fractions_ok u -> 0 < dt -> (forall x, 0 <= pow10 x) -> Forall (fun k => 0 <= snd k) (ksat u) -> length (infs s) = length (ksat u) ->
  0 <= surfdep w -> bounded u s -> unit_step expf logf pow10 u dt nstep w s = Some (s', f) -> f_rex f <= f_surf f ->
  bounded u s' /\ flows_ok w f /\ Forall (local_ok (demand w)) (f_local f).
Proof. intros expf logf pow10 u dt nstep w s s' f AR F FR D PW KS LI SU B E RX. destruct (step_range _ _ _ _ _ _ _ _ _ _ AR F FR D PW KS LI SU B E RX) as (X & _ & Y & Z). auto. Qed.
Print Assumptions C61_step.
(** Without infiltration excess there is nothing to assume about it. *)
Theorem C61_no_excess : forall expf logf pow10 u dt nstep w s s' f, infex u = false -> 0 <= surfdep w -> unit_step expf logf pow10 u dt nstep w s = Some (s', f) -> f_rex f <= f_surf f.
Proof.
  intros expf logf pow10 u dt nstep w s s' f X SU E. unfold unit_step in E. rewrite X in E. match type of E with match ?x with _ => _ end = _ => destruct x as [[[bs ls] t]|] end; [|discriminate].
  match type of E with context [settle ?a ?b ?c ?d ?e ?g] => destruct (settle a b c d e g) as [[bs2 ls2] zw] end. injection E as <- <-. exact SU.
Qed.
Print Assumptions C61_no_excess.
Example C61_example : fractions_ok (ex_unit 0 (1 # 10)) /\ 0 <= (1 # 100) <= srmax (ex_unit 0 (1 # 10)) /\ 0 <= surfdep ex_w /\ infex (ex_unit 0 (1 # 10)) = false /\
  match unit_step one one one (ex_unit 0 (1 # 10)) 1 1 ex_w (start (ex_unit 0 (1 # 10)) (1 # 100) (1 # 10)) with Some (_, f) => 0 < f_ea f /\ 0 < f_quz f /\ 0 < f_qdf f | None => False end.
Proof. split; [repeat split; discriminate|]. split; [repeat split; discriminate|]. split; [discriminate|]. split; [reflexivity|]. vm_compute. repeat split. Qed.
(** An initial soil moisture below the wilting point is not rejected: only s_theta_0 > s_theta_fc is checked
    (topmod_chem.F 1902), although the comment at line 96 asks for wp < theta < fc.  Evapotranspiration is then negative: the
    model creates water. *)
Theorem C61_theta_refuted : exists u th0 w s' f, th0 < theta_fc u /\ srmax u == srmax_of (theta_fc u) (theta_wp u) (root_depth u) /\ areas_ok (ac u) /\ fractions_ok u /\
  unit_step one one one u 1 1 w (start u (sr0_of (theta_fc u) th0 (root_depth u)) 1) = Some (s', f) /\ f_ea f < 0.
Proof.
  pose (u := ex_unit 0 (1 # 10)). pose (w := mkWeather (1 # 10) 0 0 0 0 true 0 0 0).
  destruct (unit_step one one one u 1 1 w (start u (sr0_of (theta_fc u) (1 # 20) (root_depth u)) 1)) as [[s' f]|] eqn:E; [|exfalso; exact (step_some _ _ _ _ _ _ _ _ E)].
  exists u, (1 # 20), w, s', f. split; [reflexivity|]. split; [reflexivity|]. split; [exact ex_areas|]. split; [repeat split; discriminate|]. split; [exact E|].
  assert (X : match unit_step one one one u 1 1 w (start u (sr0_of (theta_fc u) (1 # 20) (root_depth u)) 1) with Some (_, f) => f_ea f < 0 | None => True end) by (vm_compute; reflexivity).
  rewrite E in X. exact X.
Qed.
Print Assumptions C61_theta_refuted.

(** ** C62: the books of each topographic bin *)
(** The water above the water table of a bin changes by the reported flows of that bin; less than 1e-7 m is dropped. *)
Theorem C62_bin : forall expf logf pow10 u dt nstep w s s' f i a b, fits u s -> unit_step expf logf pow10 u dt nstep w s = Some (s', f) ->
  nth_error (acfs (ac u)) i = Some a -> ~ a == 0 -> nth_error (bins s) i = Some b -> uz_depth b == above u b ->
  exists b' l lost, nth_error (bins s') i = Some b' /\ nth_error (f_local f) i = Some l /\ 0 <= lost <= tiny /\ uz_depth b' == above u b' /\
    uz_depth b' == uz_depth b + l_infil l + l_wet l - l_ea l - l_quz l - l_qdf l - l_uz2sat l - lost /\
    l_uz2sat l == theta_fc u * (qmax 0 (- z_local b - root_depth u) - qmax 0 (- z_local b' - root_depth u)) /\
    l_infil l + l_ex l == f_surf f - f_rex f - f_qvpref f.
Proof.
  intros expf logf pow10 u dt nstep w s s' f i a b F E A N B U. destruct (step_bin _ _ _ _ _ _ _ _ _ _ _ _ _ F E A N B) as (b' & l & lost & H1 & H2 & H3 & H4 & H5 & H6 & H7 & H8).
  exists b', l, lost. split; [exact H1|]. split; [exact H2|]. split; [split; assumption|]. split; [exact H5|]. split; [rewrite H5, U; exact H6|]. split; assumption.
Qed.
Print Assumptions C62_bin.
(** The reported depth of water is that of the stores at the start and after every step. *)
Theorem C62_depth : forall expf logf pow10 u dt sr0 sbar0 ws s' a fs, areas_ok (ac u) -> length (st u) = length (ac u) ->
  unit_run expf logf pow10 u dt 1 ws (start u sr0 sbar0) (mkSums 0 0 0 0 0) = Some (s', a, fs) -> depths_ok u s'.
Proof.
  intros expf logf pow10 u dt sr0 sbar0 ws. intros s' a fs AR L E. destruct (start_stored u sr0 sbar0 AR L) as [F _]. pose proof (start_depth u sr0 sbar0) as D.
  revert E F D. generalize (start u sr0 sbar0) (mkSums 0 0 0 0 0) 1%Z s' a fs. clear s' a fs. induction ws as [|w ws IH]; intros s a0 nstep s' a fs E F D; cbn [unit_run] in E; [injection E as <- <- <-; exact D|].
  destruct (unit_step expf logf pow10 u dt nstep w s) as [[s1 f]|] eqn:E1; [|discriminate]. destruct (step_bal _ _ _ _ _ _ _ _ _ _ AR F E1) as (F1 & _).
  match type of E with context [unit_run _ _ _ _ _ _ ws s1 ?x] => set (a1 := x) in * end. destruct (unit_run expf logf pow10 u dt (nstep + 1) ws s1 a1) as [[[s2 a2] fs2]|] eqn:E2; [|discriminate]. injection E as <- <- <-.
  apply (IH _ _ _ _ _ _ E2 F1). intros i x b A N B. destruct F as [FA FB]. destruct (nth_error (bins s) i) as [b0|] eqn:B0.
  - destruct (step_bin _ _ _ _ _ _ _ _ _ _ _ _ _ (conj FA FB) E1 A N B0) as (b' & l & lost & H1 & _ & _ & _ & H5 & _). congruence.
  - exfalso. apply nth_error_None in B0. destruct F1 as [_ FC]. assert (i < length (bins s1))%nat by (apply nth_error_Some; congruence). lia.
Qed.
Print Assumptions C62_depth.
(** At the start and after every step the water table of a bin lies below the ground by its deficit over the drainable
    porosity, at the ground when the bin is saturated. *)
Theorem C62_table : forall expf logf pow10 u dt sr0 sbar0 ws s' a fs, areas_ok (ac u) -> length (st u) = length (ac u) -> divisors_ok u dt ->
  unit_run expf logf pow10 u dt 1 ws (start u sr0 sbar0) (mkSums 0 0 0 0 0) = Some (s', a, fs) -> tables_ok u s'.
Proof.
  intros expf logf pow10 u dt sr0 sbar0 ws. intros s' a fs AR L (_ & SD & _ & TL & _) E. destruct (start_stored u sr0 sbar0 AR L) as [F _]. pose proof (start_table u sr0 sbar0 SD TL) as D.
  revert E F D. generalize (start u sr0 sbar0) (mkSums 0 0 0 0 0) 1%Z s' a fs. clear s' a fs. induction ws as [|w ws IH]; intros s a0 nstep s' a fs E F D; cbn [unit_run] in E; [injection E as <- <- <-; exact D|].
  destruct (unit_step expf logf pow10 u dt nstep w s) as [[s1 f]|] eqn:E1; [|discriminate]. destruct (step_bal _ _ _ _ _ _ _ _ _ _ AR F E1) as (F1 & _).
  match type of E with context [unit_run _ _ _ _ _ _ ws s1 ?x] => set (a1 := x) in * end. destruct (unit_run expf logf pow10 u dt (nstep + 1) ws s1 a1) as [[[s2 a2] fs2]|] eqn:E2; [|discriminate]. injection E as <- <- <-.
  apply (IH _ _ _ _ _ _ E2 F1). exact (step_table _ _ _ _ _ _ _ _ _ _ SD TL F E1).
Qed.
Print Assumptions C62_table.
Example C62_example : match unit_step one one one (ex_unit 0 (1 # 10)) 1 1 ex_w (start (ex_unit 0 (1 # 10)) (1 # 100) (1 # 10)) with
  | Some (s', f) => match nth_error (f_local f) 1 with Some l => 0 < l_infil l /\ 0 < l_ea l /\ 0 < l_quz l | None => False end /\ match nth_error (acfs (ac (ex_unit 0 (1 # 10)))) 1 with Some a => ~ a == 0 | None => False end | None => False end.
Proof. vm_compute. repeat split; discriminate. Qed.

(** ** C63: areas, base flow, tile drains, pumping *)
Theorem C63_areas : forall expf logf pow10 u dt nstep w s s' f, areas_ok (ac u) -> ~ dt == 0 -> Forall (fun k => 0 <= snd k) (ksat u) -> length (infs s) = length (ksat u) ->
  unit_step expf logf pow10 u dt nstep w s = Some (s', f) -> 0 <= f_acm f <= 1 /\ 0 <= f_afx f <= qsum (map snd (ksat u)).
Proof. intros. eapply step_areas; eassumption. Qed.
Print Assumptions C63_areas.
(** The nine conductivity classes cover the unit exactly. *)
Theorem C63_classes : qsum ack == 1 /\ Forall (fun a => 0 < a) ack.
Proof. split; [reflexivity|]. repeat constructor. Qed.
Print Assumptions C63_classes.
Theorem C63_drain : forall u dt z r, 0 <= dt ->
  0 <= tile_flow u dt z r /\
  (z + r / s_drain u <= z_min u -> tile_flow u dt z r == 0) /\
  (z_min u < z_max u -> 0 <= qpref_max u -> tile_flow u dt z r <= qpref_max u * qmax 1 dt) /\
  (0 < s_drain u -> z_min u < z -> tile_flow u dt z r <= (z - z_min u) * s_drain u).
Proof. intros u dt z r D. split; [apply tile_pos; exact D|]. split; [apply tile_zero|]. split; [intros; apply tile_most; assumption|]. intros; apply tile_cap; assumption. Qed.
Print Assumptions C63_drain.
Example C63_drain_example : tile_flow (ex_unit (1 # 100) 0) 1 (- (3 # 2)) 0 == 1 # 200.
Proof. reflexivity. Qed.
(** With a time step of other than one hour the flow of the tile drains jumps when the water table reaches the top of the drained
    zone: the rate is multiplied by the length of the step there and not below it (topmod_chem.F 2744, 2746). *)
Theorem C63_drain_jump_refuted : exists u, 0 < qpref_max u /\ z_min u < z_max u /\ 0 < s_drain u /\
  forall e, 0 < e < 1 -> tile_flow u 24 (z_max u) 0 - tile_flow u 24 (z_max u - e) 0 > 23 * qpref_max u.
Proof.
  exists (ex_unit (1 # 1000) 0). split; [reflexivity|]. split; [reflexivity|]. split; [reflexivity|]. intros e [E1 E2].
  assert (T : tile_flow (ex_unit (1 # 1000) 0) 24 (z_max (ex_unit (1 # 1000) 0)) 0 == 24 # 1000) by reflexivity. rewrite T. cbn [z_max qpref_max ex_unit].
  assert (B : tile_flow (ex_unit (1 # 1000) 0) 24 (- (1) - e) 0 < 1 # 1000).
  { unfold tile_flow. cbn [s_drain z_min z_max qpref_max ex_unit]. assert (Z : - (1) - e + 0 / (1 # 5) == - (1) - e) by field.
    match goal with |- context [qle ?a (- (2))] => rewrite (qle_false a (- (2))) by (rewrite Z; lra) end. change (qlt (1 # 1000) (1 # 1000000000000)) with false. cbn [orb].
    match goal with |- context [qle (- (1)) ?a] => rewrite (qle_false (- (1)) a) by (rewrite Z; lra) end.
    assert (R : (- (1) - e + 0 / (1 # 5) - - (2)) / (- (1) - - (2)) * (1 # 1000) == (1 - e) * (1 # 1000)) by field.
    match goal with |- context [if ?x then _ else _] => destruct x eqn:G end; qprop; rewrite R in *; lra. }
  lra.
Qed.
Print Assumptions C63_drain_jump_refuted.
(** A tile drain can take more than the water above it: the check against draining below the drain is skipped when the water
    table of the step before was at or below the drain, because the recharge is added and then taken off again
    (topmod_chem.F 2756-2760). *)
Theorem C63_drain_cap_refuted : exists u z r, z_min u < z_max u /\ 0 < s_drain u /\ z < z_min u /\ z_min u < z + r / s_drain u /\
  tile_flow u 1 z r > (z + r / s_drain u - z_min u) * s_drain u.
Proof. exists (ex_unit 1 0), (- (21 # 10)), (1 # 25). repeat split. Qed.
Print Assumptions C63_drain_cap_refuted.
(** Base flow is never below 1e-5 m in a unit with tile drains, also where it was found to be zero (topmod_chem.F 2777
    against 2731): the water table goes on falling. *)
Theorem C63_base_floor_refuted : forall u qb q, 0 < qpref_max u -> 1 # 100000 <= adjust_base u qb q.
Proof. intros u qb q H. unfold adjust_base. rewrite (qlt_true _ _ H). match goal with |- context [qlt ?x (1 # 100000)] => destruct (qlt x (1 # 100000)) eqn:E end; qprop; lra. Qed.
Print Assumptions C63_base_floor_refuted.
(** Base flow falls as the ground dries, for exponential and linear decay of transmissivity. *)
Theorem C63_base : forall expf u a b, (forall x y, x <= y -> expf x <= expf y) -> 0 < szm u -> 0 <= szq u -> t_decay u <> 1%Z -> a <= b -> base_flow expf u b <= base_flow expf u a.
Proof.
  intros expf u a b MO SZ SQ TD AB. assert (DV : a / szm u <= b / szm u) by (apply Qmult_le_compat_r; [exact AB|apply Qinv_le_0_compat; lra]).
  assert (X : forall x y, x <= y -> (if qlt x (1 # 100000) then 0 else x) <= (if qlt y (1 # 100000) then 0 else y)). { intros x y H. destruct (qlt x _) eqn:E1; destruct (qlt y _) eqn:E2; qprop; lra. }
  unfold base_flow. destruct (t_decay u =? 0)%Z eqn:T0; [|destruct (t_decay u =? 1)%Z eqn:T1; [apply Z.eqb_eq in T1; contradiction|]]; apply X; rewrite !(Qmult_comm (szq u)); apply Qmult_le_compat_r; try exact SQ; [|lra].
  apply MO. unfold Qdiv in *. setoid_replace (- b * / szm u) with (- (b * / szm u)) by ring. setoid_replace (- a * / szm u) with (- (a * / szm u)) by ring. lra.
Qed.
Print Assumptions C63_base.
Example C63_base_example : base_flow (fun x => x + 2) (ex_unit 0 0) (1 # 10) < base_flow (fun x => x + 2) (ex_unit 0 0) (1 # 20).
Proof. reflexivity. Qed.
(** With parabolic decay it does not: beyond the largest deficit SZM, which pumping can reach, base flow grows with the deficit, because
    the square is taken of a negative number (topmod_chem.F 2721-2722). *)
Theorem C63_base_parabolic_refuted : forall expf u, t_decay u = 1%Z -> 0 < szm u -> (1 # 100000) <= szq u ->
  base_flow expf u (szm u) == 0 /\ base_flow expf u (2 * szm u) == szq u.
Proof.
  intros expf u T SZ SQ. unfold base_flow. rewrite T. cbn [Z.eqb].
  assert (A : szq u * ((1 - szm u / szm u) * (1 - szm u / szm u)) == 0) by (field; lra). assert (B : szq u * ((1 - 2 * szm u / szm u) * (1 - 2 * szm u / szm u)) == szq u) by (field; lra). split.
  - match goal with |- context [qlt ?x ?y] => rewrite (qlt_true x y) by (change x with (szq u * ((1 - szm u / szm u) * (1 - szm u / szm u))); rewrite A; reflexivity) end. reflexivity.
  - match goal with |- context [qlt ?x ?y] => rewrite (qlt_false x y) by (change x with (szq u * ((1 - 2 * szm u / szm u) * (1 - 2 * szm u / szm u))); rewrite B; lra) end. exact B.
Qed.
Print Assumptions C63_base_parabolic_refuted.
(** Pumping for irrigation: never more than asked for and never more than the throttled capacity of the well. *)
Theorem C63_pumping : forall sqrtf sb mx cap area dt asked, (forall x, 0 <= x <= 1 -> 0 <= sqrtf x <= 1) -> 0 < mx -> 0 <= sb -> 0 <= cap -> 0 < area -> 0 <= dt -> 0 <= asked ->
  0 <= irrigation_next sqrtf sb mx cap area dt asked /\ irrigation_next sqrtf sb mx cap area dt asked <= asked /\
  irrigation_next sqrtf sb mx cap area dt asked <= cap * (227125 # 1000000) / area / 1000000 / inch2m * dt.
Proof.
  intros sqrtf sb mx cap area dt asked SQ MX SB CAP AREA DT AS. unfold irrigation_next. set (n := if qlt 1 (sb / mx) then 1 else sb / mx).
  assert (N : 0 <= n <= 1). { unfold n. assert (0 <= sb / mx) by (apply Qle_shift_div_l; lra). destruct (qlt 1 (sb / mx)) eqn:E; qprop; lra. }
  assert (NN : 0 <= n * n <= 1). { destruct (scale_le n n (proj1 N) N). lra. } specialize (SQ (1 - n * n) ltac:(lra)). set (c := sqrtf (1 - n * n)) in *.
  set (k := cap * (227125 # 1000000) / area / 1000000 / inch2m * dt).
  assert (K : 0 <= k). { unfold k. apply Qmult_le_0_compat; [|exact DT]. apply Qle_shift_div_l; [reflexivity|]. rewrite Qmult_0_l. apply Qle_shift_div_l; [reflexivity|]. rewrite Qmult_0_l. apply Qle_shift_div_l; [exact AREA|]. rewrite Qmult_0_l. apply Qmult_le_0_compat; [exact CAP|discriminate]. }
  assert (M : c * cap * (227125 # 1000000) / area / 1000000 / inch2m * dt == k * c) by (unfold k, Qdiv; ring). destruct (scale_le k c K SQ) as [M1 M2].
  match goal with |- context [qle asked ?x] => destruct (qle asked x) eqn:E end; qprop; rewrite M in *; repeat split; lra.
Qed.
Print Assumptions C63_pumping.
Example C63_pumping_example : irrigation_next (fun x => x) (1 # 2) 1 1000 1 1 10 == (3 # 4) * 1000 * (227125 # 1000000) / 1000000 / inch2m.
Proof. reflexivity. Qed.
