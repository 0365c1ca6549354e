(** C37: hillslopes to channels; C38: channel routing; C39: time-area histogram. *)
From Coq Require Import QArith Qabs ZArith List Bool Arith Sorted Lia Lqa.
From Verif Require Import Qx Route_Model Route_Spec Route_Proofs.
Import ListNotations.
Local Open Scope Q_scope.

(** All water leaving hillslopes enters channels, and each channel gets exactly the water of the
    hillslopes assigned to it. *)
Theorem C37_volume : forall nmru nchan chan qout area,
  (forall i, (1 <= i <= nmru)%nat -> (1 <= chan i <= nchan)%nat) ->
  sum_to nchan (qchanin nmru chan qout area) == sum_to nmru (fun i => qout i * area i * 1000000) /\
  forall j, qchanin nmru chan qout area j ==
            sum_to nmru (fun i => if Nat.eqb (chan i) j then qout i * area i * 1000000 else 0).
Proof. intros. split; [apply gather_sum; assumption | intros; apply gather_each]. Qed.
Print Assumptions C37_volume.

(** Channel areas and fractions add up to those of the hillslopes, and the run is refused when the
    fractions are more than 0.0001 away from one. *)
Theorem C37_areas : forall nmru nchan chan area frac,
  (forall i, (1 <= i <= nmru)%nat -> (1 <= chan i <= nchan)%nat) ->
  match chan_areas nmru chan area frac with
  | Some (ca, cf) => sum_to nchan ca == sum_to nmru area /\ sum_to nchan cf == sum_to nmru frac /\
                     Qabs (sum_to nmru frac - 1) <= 1 # 10000
  | None => 1 # 10000 < Qabs (sum_to nmru frac - 1)
  end.
Proof.
  intros nmru nchan chan area frac H. unfold chan_areas. destruct (qlt _ _) eqn:E; qprop.
  - exact E.
  - split; [apply gather_sum; assumption|]. split; [apply gather_sum; assumption | exact E].
Qed.
Print Assumptions C37_areas.

Example C37_example :
  qchanin 3 (fun i => if Nat.eqb i 2 then 2%nat else 1%nat) (fun i => inject_Z (Z.of_nat i)) (fun _ => 2) 1%nat == 8000000.
Proof. reflexivity. Qed.

(** Routing ordinates: for every channel with increasing distances and areas ending at one, they
    are non negative and add up to the channel's fraction; the first k of them add up to the
    fraction times the area from which water arrives within k steps after the delay. *)
Theorem C39_histogram : forall chvdt frac d, 0 < chvdt -> 0 <= frac -> good_curve d ->
  exists l, ordinates chvdt frac d = Some l /\ (0 < length l)%nat /\
    Forall (fun x => 0 <= x) l /\ qsum l == frac /\
    forall k, (1 <= k <= length l)%nat -> exists a,
      area_within d ((inject_Z (n_delay (travel chvdt d)) + inject_Z (Z.of_nat k)) * chvdt) a /\
      qsum (firstn k l) == frac * a.
Proof.
  intros chvdt frac d C F G. destruct (ordinates_spec chvdt d C G frac F) as (l & L1 & L2 & L3 & L4 & L5 & L6).
  exists l. split; [exact L1|]. split; [exact L3|]. split; [exact L4|]. split; [exact L5 | exact L6].
Qed.
Print Assumptions C39_histogram.

(** Delay and length count whole steps: the water of the nearest point takes at least the delay
    and less than one step more, the farthest point arrives within the last ordinate's step. *)
Theorem C39_length : forall chvdt frac d l, 0 < chvdt -> 0 <= frac -> good_curve d ->
  ordinates chvdt frac d = Some l ->
  let nd := inject_Z (n_delay (travel chvdt d)) in
  nd * chvdt <= fst (hd (0, 0) d) /\ fst (hd (0, 0) d) < (nd + 1) * chvdt /\
  fst (last d (0, 0)) <= (nd + inject_Z (Z.of_nat (length l))) * chvdt /\
  (nd + inject_Z (Z.of_nat (length l)) - 1) * chvdt < fst (last d (0, 0)).
Proof.
  intros chvdt frac d l C F G E nd. destruct (ordinates_spec chvdt d C G frac F) as (l' & L1 & L2 & L3 & _).
  rewrite E in L1. injection L1 as <-.
  pose proof (total_bounds chvdt d C G) as (B1 & B2 & B3 & B4 & B5 & B6).
  pose proof (travel_scaled chvdt d C) as FS.
  assert (Nd : d <> []) by (intros ->; destruct G as [G1 _]; cbn [length] in G1; lia).
  destruct (scaled_last chvdt _ d FS Nd) as [S1 _]. fold (last_time (travel chvdt d)) in S1.
  assert (S2 : last_time (travel chvdt d) * chvdt == fst (last d (0, 0))) by (rewrite S1; field; lra).
  assert (S3 : fst (hd (0, 0) (travel chvdt d)) * chvdt == fst (hd (0, 0) d)).
  { destruct d as [|(d1, a1) r]; [congruence|]. cbn [travel hd fst]. field. lra. }
  assert (S4 : nd + inject_Z (Z.of_nat (length l)) == inject_Z (n_total (travel chvdt d))).
  { unfold nd. rewrite <- inject_Z_plus, L2, Z2Nat.id by lia.
    replace (n_delay (travel chvdt d) + (n_total (travel chvdt d) - n_delay (travel chvdt d)))%Z with (n_total (travel chvdt d)) by lia.
    reflexivity. }
  rewrite S4, <- S2, <- S3. fold nd in B3, B4.
  split; [apply Qmult_le_compat_r; lra|]. split; [apply Qmult_lt_compat_r; lra|].
  split; [apply Qmult_le_compat_r; lra | apply Qmult_lt_compat_r; lra].
Qed.
Print Assumptions C39_length.

(** Filled out with zeros for the delay, the ordinates are a histogram as the routing needs it. *)
Theorem C39_filled : forall nd ar n, Forall (fun x => 0 <= x) ar -> (nd + length ar <= n)%nat ->
  sum_to n (ar_fill nd ar) == qsum ar /\ (forall i, 0 <= ar_fill nd ar i) /\
  (forall i, (nd + length ar < i)%nat -> ar_fill nd ar i == 0) /\
  (forall i, (i <= nd)%nat -> ar_fill nd ar i == 0).
Proof.
  intros nd ar n F H. split; [apply sum_fill; assumption|]. split; [intros; apply fill_nonneg; assumption|].
  split; intros i Hi.
  - rewrite fill_beyond by assumption. reflexivity.
  - unfold ar_fill. replace (Nat.ltb nd i) with false by (symmetry; apply Nat.ltb_ge; lia). reflexivity.
Qed.
Print Assumptions C39_filled.

(** Two points at the same farthest distance: the last ordinate misses area, so water is lost. *)
Theorem C39_repeated_distance_refuted : exists chvdt frac d l, 0 < chvdt /\
  Sorted (fun p q => fst p <= fst q /\ snd p <= snd q) d /\ snd (last d (0, 0)) == 1 /\
  ordinates chvdt frac d = Some l /\ ~ qsum l == frac.
Proof.
  exists 1, 1, [(0, 0); (2, 1 # 2); (2, 1)]. eexists. split; [reflexivity|]. split.
  { repeat constructor; cbn; lra. }
  split; [reflexivity|]. split; [vm_compute; reflexivity|]. vm_compute. discriminate.
Qed.
Print Assumptions C39_repeated_distance_refuted.

Definition ex_curve : list (Q * Q) := [(100, 0); (250, 1 # 2); (450, 1)].
Example C39_example : good_curve ex_curve /\
  exists l, ordinates 100 (1 # 2) ex_curve = Some l /\ length l = 4%nat /\ nth 0 l 0 == 1 # 6.
Proof.
  split.
  - unfold good_curve, ex_curve. cbn. split; [lia|]. split; [repeat constructor; cbn; lra|]. lra.
  - eexists. split; [vm_compute; reflexivity|]. split; reflexivity.
Qed.

(** One step without channel loss: what is stored afterwards, what leaves the basin and what is
    diverted add up to what was stored and what entered. *)
Theorem C38_balance : forall c dt ms qin q, network_ok c -> wet c q -> rainy c qin -> Forall sane ms ->
  no_loss c -> (1 <= segs c)%nat ->
  let o := route_step c dt ms qin q in
  stored c (o_q o) + volume c (o_out o) + diverted c o == stored c q + entering c qin.
Proof. intros. apply step_balance; assumption. Qed.
Print Assumptions C38_balance.

(** The same over any number of steps. *)
Theorem C38_balance_run : forall c dt ins q, network_ok c -> no_loss c -> (1 <= segs c)%nat ->
  Forall (fun i => Forall sane (fst i) /\ rainy c (snd i)) ins -> wet c q ->
  let '(q', os) := route_run c dt ins q in
  wet c q' /\ length os = length ins /\
  stored c q' + qsum (map (fun o => volume c (o_out o)) os) + qsum (map (diverted c) os)
  == stored c q + qsum (map (fun i => entering c (snd i)) ins).
Proof. intros c dt ins q N NL SG F W. exact (run_balance c dt ins N NL SG F q W). Qed.
Print Assumptions C38_balance_run.

(** With or without loss: no negative water, no more diverted than asked and than there is. *)
Theorem C38_bounds : forall c dt ms qin q ir, network_ok c -> wet c q -> rainy c qin -> Forall sane ms ->
  let o := route_step c dt ms qin q in
  wet c (o_q o) /\ 0 <= o_divert o ir /\ o_divert o ir <= request ms ir /\
  o_divert o ir <= volume c (sum_to (nchan c) (fill_seg c qin q ir)).
Proof.
  intros c dt ms qin q ir N W R F o. split; [apply wet_after; assumption|].
  destruct (segment_bounds c ms qin q N W R F ir) as (A1 & A2 & A3 & A4 & A5 & A6 & A7).
  split; [exact A1|]. split; [exact A2|]. unfold o, route_step. cbn [o_divert].
  assert (0 <= volume c (s_loss (segment c qin q (request ms) ir))).
  { destruct N as [B _]. unfold volume. apply Qmult_le_0_compat; [|lra]. apply Qmult_le_0_compat; lra. }
  lra.
Qed.
Print Assumptions C38_bounds.

(** Where the depths agree and the pump suffices, the hillslopes are given exactly the water that
    was taken from their segment. *)
Theorem C38_applied : forall c dt ms qin q ir, network_ok c -> wet c q -> rainy c qin ->
  Forall sane ms -> (1 <= ir <= segs c)%nat -> Forall (can_apply dt) ms ->
  applied ms (o_next (route_step c dt ms qin q)) ir == o_divert (route_step c dt ms qin q) ir.
Proof. exact applied_step. Qed.
Print Assumptions C38_applied.

(** Without diversions and loss, the outflow of a step is what was initially that many segments
    away plus, for every past step, its inflow times the ordinate of its age. *)
Theorem C38_unit_response : forall c dt ins x q d, network_ok c -> no_loss c -> (1 <= segs c)%nat ->
  in_length c q ->
  o_out (last (snd (route_run c dt (map (fun y => ([], y)) (ins ++ [x])) q)) d) ==
  sum_to (nchan c) (fun is => q (length ins + 1)%nat is + response c is 0 (ins ++ [x])).
Proof. exact run_out. Qed.
Print Assumptions C38_unit_response.

(** After as many dry steps as there are segments, nothing is left. *)
Theorem C38_empties : forall c dt ins q, network_ok c -> no_loss c -> in_length c q ->
  (segs c <= length ins)%nat ->
  (forall a x b, ins = a ++ x :: b -> (length b < segs c)%nat -> forall is, x is == 0) ->
  stored c (fst (route_run c dt (map (fun y => ([], y)) ins) q)) == 0.
Proof. exact run_empties. Qed.
Print Assumptions C38_empties.

(** Two channels of lengths one and three. *)
Definition ex_net (loss : Q) : channels := {|
  nchan := 2; segs := 3; delays := fun is => if Nat.eqb is 1 then 1%nat else 3%nat;
  hist := fun ir is => if Nat.eqb is 1 then (if Nat.eqb ir 1 then 1 # 2 else 0)
                       else if Nat.eqb ir 2 then 1 # 4 else if Nat.eqb ir 3 then 1 # 4 else 0;
  chan_area := fun _ => 2; chan_frac := fun _ => 1 # 2; basin_area := 4; maxloss := fun _ => loss |}.
Lemma ex_net_ok loss : network_ok (ex_net loss).
Proof.
  split; [reflexivity|]. cbn [nchan ex_net chan_frac chan_area basin_area delays segs hist]. intros is Hi.
  split; [reflexivity|]. split; [reflexivity|].
  assert (E : is = 1%nat \/ is = 2%nat) by lia. destruct E as [-> | ->]; cbn [Nat.eqb].
  - split; [lia|]. split; [intros ir; destruct (Nat.eqb ir 1); discriminate|]. split; [|reflexivity].
    intros ir H. destruct (Nat.eqb ir 1) eqn:E; [apply Nat.eqb_eq in E; lia | reflexivity].
  - split; [lia|]. split; [intros ir; destruct (Nat.eqb ir 2), (Nat.eqb ir 3); discriminate|]. split; [|reflexivity].
    intros ir H. destruct (Nat.eqb ir 2) eqn:E; [apply Nat.eqb_eq in E; lia|].
    destruct (Nat.eqb ir 3) eqn:E3; [apply Nat.eqb_eq in E3; lia | reflexivity].
Qed.

(** The loss to the aquifer is reported but the water stays in the channel. *)
Theorem C38_loss_refuted : exists c dt qin q,
  network_ok c /\ wet c q /\ rainy c qin /\
  let o := route_step c dt [] qin q in
  0 < o_loss o /\
  stored c (o_q o) + volume c (o_out o) + diverted c o == stored c q + entering c qin /\
  ~ stored c (o_q o) + volume c (o_out o) + diverted c o + volume c (o_loss o)
    == stored c q + entering c qin.
Proof.
  exists (ex_net (1 # 8)), 24, (fun _ => 0), (fun _ _ => 1).
  split; [apply ex_net_ok|]. split; [intros ? ? ?; discriminate|]. split; [intros ? ?; discriminate|].
  vm_compute. repeat split; discriminate.
Qed.
Print Assumptions C38_loss_refuted.

(** The volume taken from the stream is not the volume the hillslopes will receive: the depth is
    looked up with the segment number instead of the schedule number, and capped by the pump. *)
Theorem C38_diversion_refuted : exists c dt m qin q,
  network_ok c /\ no_loss c /\ wet c q /\ rainy c qin /\ sane m /\ src m = 1%nat /\
  let o := route_step c dt [m] qin q in
  ~ diverted c o == qsum (map (fun d => d * inch2m * 1000000 * mru_km2 m) (o_next o)).
Proof.
  exists (ex_net 0), 24, {| src := 1; scheduled := 1; by_source := 3; mru_km2 := 1; pump := 1000000 |},
    (fun _ => 0), (fun _ _ => 1).
  split; [apply ex_net_ok|]. split; [intros ?; discriminate|]. split; [intros ? ? ?; discriminate|].
  split; [intros ? ?; discriminate|]. split; [split; discriminate|]. split; [reflexivity|].
  vm_compute. discriminate.
Qed.
Print Assumptions C38_diversion_refuted.

(** Initial diversion water may be put into a segment beyond the length of its channel; it then
    stays there for ever. *)
Theorem C38_stuck_refuted : exists c dt q0,
  network_ok c /\ no_loss c /\ wet c q0 /\
  (forall i, q0 i 1%nat = init_q 0 (chan_frac c 1) 0 [1 # 2] [(3%nat, 1)] i) /\
  forall n, ~ stored c (fst (route_run c dt (map (fun y => ([], y)) (repeat (fun _ => 0) n)) q0)) == 0.
Proof.
  exists (ex_net 0), 24, (fun i is => if Nat.eqb is 1 then init_q 0 (1 # 2) 0 [1 # 2] [(3%nat, 1)] i else 0).
  assert (W : wet (ex_net 0) (fun i is => if Nat.eqb is 1 then init_q 0 (1 # 2) 0 [1 # 2] [(3%nat, 1)] i else 0)).
  { intros i is _. destruct (Nat.eqb is 1); [|lra]. unfold init_q. cbn [length map fst snd qsum].
    assert (Z : forall b : bool, 0 <= (if b then 1 else 0) + 0) by (intros []; discriminate).
    specialize (Z (Nat.eqb 3 i)).
    assert (A : (if Nat.leb 1 i && Nat.leb i 0 then 0 * (1 # 2) else
      if Nat.leb 1 i && Nat.leb i (0 + 1) then 0 * ((1 # 2) - qsum (firstn (i - 0 - 1) [1 # 2])) else 0) == 0)
      by (destruct (_ && _); [ring|]; destruct (_ && _); ring).
    rewrite A. lra. }
  split; [apply ex_net_ok|]. split; [intros ?; discriminate|]. split; [exact W|]. split; [reflexivity|].
  intros n.
  assert (P : plain (repeat (fun _ => 0) n) = map (fun y => ([], y)) (repeat (fun _ : nat => 0) n)) by reflexivity.
  rewrite <- P.
  pose proof (stuck_run (ex_net 0) 24 (repeat (fun _ => 0) n) 1%nat 3%nat ltac:(intros ?; discriminate) ltac:(cbn; lia) ltac:(cbn; lia) ltac:(reflexivity)
    (fun i is => if Nat.eqb is 1 then init_q 0 (1 # 2) 0 [1 # 2] [(3%nat, 1)] i else 0)) as S.
  assert (R : forall k q, wet (ex_net 0) q -> wet (ex_net 0) (fst (route_run (ex_net 0) 24 (plain (repeat (fun _ => 0) k)) q))).
  { induction k as [|k IH]; intros q Wq; [exact Wq|]. cbn [repeat plain map route_run].
    fold (plain (repeat (fun _ : nat => 0) k)).
    assert (W1 : wet (ex_net 0) (o_q (route_step (ex_net 0) 24 [] (fun _ => 0) q)))
      by (apply wet_after; [apply ex_net_ok | exact Wq | intros ? ?; discriminate | constructor]).
    specialize (IH _ W1). revert IH.
    generalize (route_run (ex_net 0) 24 (plain (repeat (fun _ : nat => 0) k)) (o_q (route_step (ex_net 0) 24 [] (fun _ => 0) q))).
    intros [q1 os] IH. exact IH. }
  specialize (R n _ W). revert S R.
  set (q' := fst (route_run (ex_net 0) 24 _ _)). clearbody q'. clear.
  intros S R Z. unfold stored, volume in Z. cbn [segs nchan ex_net sum_to basin_area Nat.eqb] in Z.
  assert (V : init_q 0 (1 # 2) 0 [1 # 2] [(3%nat, 1)] 3 == 1) by reflexivity. cbn [Nat.eqb] in S. rewrite V in S.
  pose proof (R 1 1 ltac:(cbn; lia))%nat. pose proof (R 1 2 ltac:(cbn; lia))%nat.
  pose proof (R 2 1 ltac:(cbn; lia))%nat. pose proof (R 2 2 ltac:(cbn; lia))%nat. pose proof (R 3 2 ltac:(cbn; lia))%nat.
  lra.
Qed.
Print Assumptions C38_stuck_refuted.

Example C38_example :
  let '(q', os) := route_run (ex_net 0) 24 [([], fun _ => 4000000); ([], fun _ => 0)] (fun _ _ => 0) in
  map (fun o => Qred (volume (ex_net 0) (o_out o))) os = [4000000; 2000000] /\
  Qred (stored (ex_net 0) q') = 2000000.
Proof. vm_compute. auto. Qed.

Example C38_applied_example :
  let m := {| src := 1; scheduled := 1; by_source := 1; mru_km2 := 1; pump := 10000 |} in
  can_apply 24 m /\ sane m /\
  o_divert (route_step (ex_net 0) 24 [m] (fun _ => 0) (fun _ _ => 1)) 1%nat == 25400.
Proof. split; [intros _; split; [reflexivity|]; vm_compute; discriminate|]. split; [split; discriminate | reflexivity]. Qed.
