(** C84-C86: potential radiation over the year, radiation on hillslopes, hours of sun. *)
From Coq Require Import QArith ZArith Bool String List Lia Lqa.
From Coq Require Import ZifyBool.
From Verif Require Import Qx Calendar_Model Calendar_Spec Calendar_Proofs Temp_Spec Temp_Proofs Sun_Model Sun_Spec Sun_Proofs.
Import ListNotations.
Local Open Scope Q_scope.

(** ** C84 *)
(** On every step of a run that starts on any day but 21 December the potential radiation (or the hours of sun) of a hillslope is the value on that day of one fixed
    curve: straight lines between the values of the table.  The place kept from step to step never drifts, through leap years too. *)
Theorem C84_curve : forall tab d l, Valid d -> (1583 <= dy d)%Z -> ~ (dm d = 12 /\ dd d = 21)%Z -> follow d l ->
  exists o, sun_run tab (d :: l) = Some o /\ length o = S (length l) /\
    forall i e v, nth_error (d :: l) i = Some e -> nth_error o i = Some v -> exists j q, julian "solar" e = Ok j /\ curve tab (leap_year (solar_year e)) j = Some q /\ v == q.
Proof. exact run_all. Qed.
Print Assumptions C84_curve.
(** The curve stays between the lowest and the highest value of the table, takes the table's values at its days and ends where it begins. *)
Theorem C84_bounds : forall tab leap j q lo hi, Forall (fun x => lo <= tab x <= hi) sday -> (1 <= j)%Z -> curve tab leap j = Some q -> lo <= q <= hi.
Proof.
  intros tab leap j q lo hi F J C. destruct (Z_lt_le_dec j (len leap)) as [L | L].
  - destruct (curve_canon tab leap j (conj J L)) as (ip & jp & q' & E & C' & QE). rewrite C in C'. injection C' as <-.
    pose proof (spots leap j (conj J L)) as SP. unfold at_spot in SP. destruct (spot (j - 1) (knots leap)) as [[[[a b] x] n]|] eqn:ES; [|discriminate].
    assert (G : forall l y r, spot y l = Some r -> (0 <= y)%Z -> Forall (fun k => (0 < snd k)%Z /\ In (fst k) sday) l -> let '(a, b, x, n) := r in In a sday /\ In b sday /\ (0 <= x < n)%Z).
    { clear. induction l as [|[a n] l IH]; intros y r H Y F; cbn [spot] in H.
      - destruct (y =? 0)%Z; [|discriminate]. injection H as <-. split; [left; reflexivity|]. split; [left; reflexivity|lia].
      - inversion F as [|? ? [F1 F2] F']; subst. cbn [fst snd] in *. destruct (y <? n)%Z eqn:E; [|apply (IH (y - n)%Z r H ltac:(lia) F')]. injection H as <-. split; [exact F2|]. split; [|lia].
        destruct l as [|[b m] l]; [left; reflexivity|]. inversion F' as [|? ? [_ F3] _]; subst. exact F3. }
    specialize (G _ _ _ ES ltac:(lia)). assert (KN : Forall (fun k => (0 < snd k)%Z /\ In (fst k) sday) (knots leap)) by (destruct leap; repeat (apply Forall_cons; [split; [reflexivity|cbn; tauto]|]); apply Forall_nil). specialize (G KN). cbn beta iota in G. destruct G as (A & B & X).
    rewrite !andb_true_iff in SP. destruct SP as (((S1 & S2) & S3) & _). apply pair_eqb_true in S1. rewrite E in S1. injection S1 as -> ->. apply Z.eqb_eq in S2, S3. rewrite QE, <- S2, <- S3. rewrite Forall_forall in F. pose proof (F _ A). pose proof (F _ B).
    assert (R0 : 0 <= inject_Z x / inject_Z n) by (apply Qle_shift_div_l; [change 0 with (inject_Z 0); rewrite <- Zlt_Qlt; lia|rewrite Qmult_0_l; change 0 with (inject_Z 0); rewrite <- Zle_Qle; lia]).
    assert (R1 : inject_Z x / inject_Z n <= 1) by (apply Qle_shift_div_r; [change 0 with (inject_Z 0); rewrite <- Zlt_Qlt; lia|rewrite Qmult_1_l; rewrite <- Zle_Qle; lia]).
    set (r := inject_Z x / inject_Z n) in *. split; nra.
  - unfold curve in C. assert (SE : spot (j - 1) (knots leap) = if (j =? len leap)%Z then Some (356, 356, 0, 1)%Z else None).
    { apply spot_knots. exact L. }
    rewrite SE in C. destruct (j =? len leap)%Z; [|discriminate]. injection C as <-. rewrite Forall_forall in F. assert (I356 : In 356%Z sday) by (left; reflexivity). pose proof (F _ I356). change (inject_Z 0 / inject_Z 1) with 0. split; lra.
Qed.
Print Assumptions C84_bounds.
Theorem C84_knots : forall tab leap, (exists q, curve tab leap 1 = Some q /\ q == tab 356%Z) /\ (exists q, curve tab leap (if leap then 366 else 365) = Some q /\ q == tab 356%Z) /\ (exists q, curve tab leap (if leap then 184 else 183) = Some q /\ q == tab 173%Z) /\
  (forall j, curve tab leap j <> None -> (j <= if leap then 366 else 365)%Z).
Proof.
  intros tab leap. split; [|split; [|split]].
  - unfold curve. assert (SE : spot (1 - 1) (knots leap) = Some (356, 10, 0, 19)%Z) by (destruct leap; reflexivity). rewrite SE. eexists. split; [reflexivity|]. assert (Z0 : inject_Z 0 / inject_Z 19 == 0) by reflexivity. rewrite Z0. ring.
  - apply curve_last.
  - unfold curve. assert (SE : spot ((if leap then 184 else 183) - 1) (knots leap) = Some (173, 152, 0, 20)%Z) by (destruct leap; reflexivity). rewrite SE. eexists. split; [reflexivity|]. assert (Z0 : inject_Z 0 / inject_Z 20 == 0) by reflexivity. rewrite Z0. ring.
  - intros j H. destruct (Z_le_gt_dec j (if leap then 366 else 365)) as [L | L]; [exact L|]. exfalso. apply H. unfold curve.
    assert (SE : spot (j - 1) (knots leap) = None) by (rewrite spot_knots by (destruct leap; unfold len; lia); replace (j =? len leap)%Z with false by (destruct leap; unfold len; lia); reflexivity).
    rewrite SE. reflexivity.
Qed.
Print Assumptions C84_knots.
(** Finding: in a run that starts on 21 December the end of the year's last period is never met: the potential radiation of the n-th day after is extrapolated from the
    line of the days from 3 to 21 December, for at least a year, so that after a year it is off by 20 times the change of those 18 days. *)
Theorem C84_december_refuted : forall tab y n, (1583 <= y)%Z -> (n <= 364)%nat ->
  exists o, sun_run tab (map (fun k => After k (mkdate y 12 21)) (seq 0 (S n))) = Some o /\ length o = S n /\
    forall k v, nth_error o k = Some v -> v == tab 356%Z + inject_Z (Z.of_nat k) / 18 * (tab 356%Z - tab 10%Z).
Proof.
  intros tab y n Y N. unfold sun_run. cbn [seq map sun_steps After]. destruct (stuck_first tab y Y) as (s & -> & ST).
  destruct (stuck_run tab (leap_year y) n (1 + 1)%Z 0%Z (mkdate y 12 21) s ltac:(lia) (dec21_valid y ltac:(lia)) ST) as (o & -> & L & P).
  { intros k K. destruct (after_dec21 y Y k) as (J & _); [destruct (leap_year (y + 1)); unfold len; lia|]. eexists. split; [exact J|]. destruct (leap_year y); unfold len; lia. }
  eexists. split; [reflexivity|]. split; [cbn; lia|]. intros [|k] v X; cbn [nth_error] in X; [|rewrite (P k v X); replace (0 + 1 + Z.of_nat k)%Z with (Z.of_nat (S k)) by lia; reflexivity].
  injection X as <-. destruct ST as (_ & _ & _ & _ & D). exact D.
Qed.
Print Assumptions C84_december_refuted.
(** Finding: if that 21 December is in a leap year the extrapolation goes on for four years, as the place waits for a 366th day. *)
Theorem C84_leap_december_refuted : forall tab y n, (1583 <= y)%Z -> leap_year y = true -> (n <= 1460)%nat ->
  exists o, sun_run tab (map (fun k => After k (mkdate y 12 21)) (seq 0 (S n))) = Some o /\ length o = S n /\
    forall k v, nth_error o k = Some v -> v == tab 356%Z + inject_Z (Z.of_nat k) / 18 * (tab 356%Z - tab 10%Z).
Proof.
  intros tab y n Y LY N. unfold sun_run. cbn [seq map sun_steps After]. destruct (stuck_first tab y Y) as (s & -> & ST).
  assert (NL : leap_year (y + 1) = false /\ leap_year (y + 1 + 1) = false /\ leap_year (y + 1 + 1 + 1) = false) by (unfold leap_year in *; split; [|split]; lia). destruct NL as (N1 & N2 & N3).
  destruct (stuck_run tab (leap_year y) n (1 + 1)%Z 0%Z (mkdate y 12 21) s ltac:(lia) (dec21_valid y ltac:(lia)) ST) as (o & -> & L & P).
  { intros k K. rewrite LY. unfold len at 1.
    pose proof (year_later y Y) as Y1. rewrite N1 in Y1. change (Z.to_nat (len false)) with 365%nat in Y1.
    pose proof (year_later (y + 1) ltac:(lia)) as Y2. rewrite N2 in Y2. change (Z.to_nat (len false)) with 365%nat in Y2.
    pose proof (year_later (y + 1 + 1) ltac:(lia)) as Y3. rewrite N3 in Y3. change (Z.to_nat (len false)) with 365%nat in Y3.
    destruct (le_lt_dec k 365) as [K1 | K1].
    { destruct (after_dec21 y Y k) as (J & _); [rewrite N1; unfold len; lia|]. eexists. split; [exact J|]. lia. }
    replace k with (365 + (k - 365))%nat by lia. rewrite Y1. set (k1 := (k - 365)%nat) in *. destruct (le_lt_dec k1 365) as [K2 | K2].
    { destruct (after_dec21 (y + 1) ltac:(lia) k1) as (J & _); [rewrite N2; unfold len; lia|]. eexists. split; [exact J|]. lia. }
    replace k1 with (365 + (k1 - 365))%nat by lia. rewrite Y2. set (k2 := (k1 - 365)%nat) in *. destruct (le_lt_dec k2 365) as [K3 | K3].
    { destruct (after_dec21 (y + 1 + 1) ltac:(lia) k2) as (J & _); [rewrite N3; unfold len; lia|]. eexists. split; [exact J|]. lia. }
    replace k2 with (365 + (k2 - 365))%nat by lia. rewrite Y3. set (k3 := (k2 - 365)%nat) in *.
    destruct (after_dec21 (y + 1 + 1 + 1) ltac:(lia) k3) as (J & _); [destruct (leap_year (y + 1 + 1 + 1 + 1)); unfold len; lia|]. eexists. split; [exact J|]. lia. }
  eexists. split; [reflexivity|]. split; [cbn; lia|]. intros [|k] v X; cbn [nth_error] in X; [|rewrite (P k v X); replace (0 + 1 + Z.of_nat k)%Z with (Z.of_nat (S k)) by lia; reflexivity].
  injection X as <-. destruct ST as (_ & _ & _ & _ & D). exact D.
Qed.
Print Assumptions C84_leap_december_refuted.
Definition soltab_case (d : Z) : Q := if (d =? 356)%Z then 150 else if (d =? 10)%Z then 159 else if (d =? 23)%Z then 180 else inject_Z (d + 200).
Example curve_meets : Valid (mkdate 1999 12 20) /\ follow (mkdate 1999 12 20) [mkdate 1999 12 21; mkdate 1999 12 21; mkdate 1999 12 22; mkdate 1999 12 23]
  /\ option_map (map Qred) (sun_run soltab_case [mkdate 1999 12 20; mkdate 1999 12 21; mkdate 1999 12 21; mkdate 1999 12 22; mkdate 1999 12 23]) = Some [301 # 2; 150; 150; 150; 2859 # 19]
  /\ Forall (fun x => 150 <= soltab_case x <= 400) sday
  /\ option_map (fun o => map Qred (skipn 364 o)) (sun_run soltab_case (map (fun k => After k (mkdate 2001 12 21)) (seq 0 365))) = Some [-32].
Proof. split; [unfold Valid; cbn; lia|]. split; [cbn; unfold Next_day; cbn; tauto|]. split; [vm_compute; reflexivity|]. split; [repeat constructor; vm_compute; discriminate|]. vm_compute. reflexivity. Qed.

(** ** C85 *)
(** An observed radiation between the two limits is used as it is. *)
Theorem C85_observed : forall pw k mo obs tmax tmin ppt horad, tiny <= obs -> obs <= 10000 -> orad pw k mo obs tmax tmin ppt horad = obs.
Proof. intros. unfold orad. rewrite qlt_false by assumption. rewrite qlt_false by assumption. reflexivity. Qed.
Print Assumptions C85_observed.
(** Otherwise it is estimated from the potential radiation: a part of it between 0 and the greatest part, times the factor for rain, which is that of summer from May to September. *)
Theorem C85_estimated : forall pw k mo obs tmax tmin ppt horad, obs < tiny \/ 10000 < obs -> (forall x, 0 <= x <= 1 -> 0 <= pw x <= 1) -> 0 <= k_coef k <= 1 -> 0 <= k_radmax k ->
  exists c part adj, 0 <= c <= 1 /\ (0 <= k_slope k * (tmax - tmin) + k_intcp k - tiny -> k_slope k * (tmax - tmin) + k_intcp k <= 1 -> c = k_slope k * (tmax - tmin) + k_intcp k) /\
    0 <= part /\ part <= k_radmax k /\ part <= 1 /\ part <= k_coef k + (1 - k_coef k) * pw (1 - c) /\
    (part == k_radmax k \/ part == k_coef k + (1 - k_coef k) * pw (1 - c)) /\
    (ppt <= k_ppt k -> adj = 1) /\ (k_ppt k < ppt -> (5 <= mo <= 9)%Z -> adj = k_sppt k) /\ (k_ppt k < ppt -> ~ (5 <= mo <= 9)%Z -> adj = k_wppt k) /\
    orad pw k mo obs tmax tmin ppt horad == part * adj * horad.
Proof.
  intros pw k mo obs tmax tmin ppt horad O PW [C0 C1] RM. set (c := cover k tmax tmin).
  assert (CB : 0 <= c <= 1) by (unfold c, cover; cbv zeta; set (x := k_slope k * (tmax - tmin) + k_intcp k); destruct (qlt x tiny) eqn:E1; qprop; [rewrite (qlt_false 1 0) by lra; lra|]; destruct (qlt 1 x) eqn:E2; qprop; [lra|]; assert (0 < tiny) by reflexivity; lra).
  exists c. set (r := k_coef k + (1 - k_coef k) * pw (1 - c)). destruct (PW (1 - c) ltac:(lra)) as [P0 P1].
  assert (RB : 0 <= r <= 1) by (unfold r; split; nra).
  exists (if qlt (k_radmax k) r then k_radmax k else r), (if qlt (k_ppt k) ppt then (if (4 <? mo)%Z && (mo <? 10)%Z then k_sppt k else k_wppt k) else 1).
  split; [exact CB|]. split; [intros A1 A2; unfold c, cover; cbv zeta; set (x := k_slope k * (tmax - tmin) + k_intcp k) in *; rewrite (qlt_false x tiny) by lra; rewrite (qlt_false 1 x) by lra; reflexivity|].
  assert (OR : qlt obs tiny || qlt 10000 obs = true) by (destruct O as [O | O]; [rewrite (qlt_true obs tiny O); reflexivity|rewrite (qlt_true 10000 obs O); apply orb_true_r]).
  destruct (qlt (k_radmax k) r) eqn:E; qprop.
  - split; [exact RM|]. split; [lra|]. split; [lra|]. split; [unfold r in *; lra|]. split; [left; reflexivity|]. split; [intros W; rewrite qlt_false by exact W; reflexivity|].
    split; [intros W M; rewrite qlt_true by exact W; replace ((4 <? mo)%Z && (mo <? 10)%Z) with true by lia; reflexivity|]. split; [intros W M; rewrite qlt_true by exact W; replace ((4 <? mo)%Z && (mo <? 10)%Z) with false by lia; reflexivity|].
    unfold orad. rewrite OR. fold c. fold r. rewrite qlt_true by assumption. reflexivity.
  - split; [lra|]. split; [lra|]. split; [lra|]. split; [unfold r in *; lra|]. split; [right; reflexivity|]. split; [intros W; rewrite qlt_false by exact W; reflexivity|].
    split; [intros W M; rewrite qlt_true by exact W; replace ((4 <? mo)%Z && (mo <? 10)%Z) with true by lia; reflexivity|]. split; [intros W M; rewrite qlt_true by exact W; replace ((4 <? mo)%Z && (mo <? 10)%Z) with false by lia; reflexivity|].
    unfold orad. rewrite OR. fold c. fold r. rewrite qlt_false by assumption. reflexivity.
Qed.
Print Assumptions C85_estimated.
(** A wider range of temperature never gives less radiation (with a slope of cloud cover that is not positive, as usual). *)
Theorem C85_range : forall pw k mo obs x1 n1 x2 n2 ppt horad, (forall a b, 0 <= a -> a <= b -> b <= 1 -> pw a <= pw b) -> 0 <= k_coef k <= 1 -> 0 <= k_sppt k -> 0 <= k_wppt k -> 0 <= horad -> k_slope k <= 0 -> x1 - n1 <= x2 - n2 ->
  orad pw k mo obs x1 n1 ppt horad <= orad pw k mo obs x2 n2 ppt horad.
Proof.
  intros pw k mo obs x1 n1 x2 n2 ppt horad PW [C0 C1] A1 A2 H SL R. unfold orad. destruct (qlt obs tiny || qlt 10000 obs); [|lra].
  assert (CV : cover k x2 n2 <= cover k x1 n1 /\ 0 <= cover k x2 n2 /\ cover k x1 n1 <= 1).
  { unfold cover. cbv zeta. assert (M : k_slope k * (x2 - n2) <= k_slope k * (x1 - n1)) by nra. set (u := k_slope k * (x2 - n2) + k_intcp k). set (v := k_slope k * (x1 - n1) + k_intcp k). assert (UV : u <= v) by (unfold u, v; lra).
    clearbody u v. assert (T : 0 < tiny) by reflexivity. assert (T1 : tiny < 1) by reflexivity. destruct (qlt u tiny) eqn:E1; qprop; destruct (qlt v tiny) eqn:E2; qprop; try lra; repeat (rewrite (qlt_false 1 0) by lra); repeat match goal with |- context [qlt 1 ?a] => let E := fresh in destruct (qlt 1 a) eqn:E; qprop end; repeat split; lra. }
  destruct CV as (V1 & V2 & V3). pose proof (PW (1 - cover k x1 n1) (1 - cover k x2 n2) ltac:(lra) ltac:(lra) ltac:(lra)) as P.
  set (adj := if qlt (k_ppt k) ppt then _ else _). assert (AD : 0 <= adj) by (unfold adj; destruct (qlt _ _); [destruct (_ && _)%bool; assumption|lra]). clearbody adj.
  set (p1 := pw _) in *. set (p2 := pw (1 - cover k x2 n2)) in *. assert (RR : k_coef k + (1 - k_coef k) * p1 <= k_coef k + (1 - k_coef k) * p2) by nra.
  set (r1 := k_coef k + (1 - k_coef k) * p1) in *. set (r2 := k_coef k + (1 - k_coef k) * p2) in *. assert (RM : (if qlt (k_radmax k) r1 then k_radmax k else r1) <= (if qlt (k_radmax k) r2 then k_radmax k else r2)).
  { destruct (qlt (k_radmax k) r1) eqn:E1; qprop; destruct (qlt (k_radmax k) r2) eqn:E2; qprop; lra. }
  apply Qmult_le_compat_r; [|exact H]. apply Qmult_le_compat_r; assumption.
Qed.
Print Assumptions C85_range.
(** The radiation of the hillslopes is in the ratio of their potential radiation per area of slope. *)
Theorem C85_hillslopes : forall obs drads cossl o, swrads obs drads cossl = Some o -> Forall (fun c => 0 < c) cossl ->
  forall i j d c v d' c' v', nth_error drads i = Some d -> nth_error cossl i = Some c -> nth_error o i = Some v -> nth_error drads j = Some d' -> nth_error cossl j = Some c' -> nth_error o j = Some v' ->
    v * c * d' == v' * c' * d.
Proof.
  intros obs drads cossl o E F i j d c v d' c' v' D C V D' C' V'. destruct drads as [|h r]; [destruct i; discriminate|]. unfold swrads in E. destruct (qeq h 0) eqn:HZ; qprop; [discriminate|]. injection E as <-.
  assert (G : forall (l : list Q) (m : list Q) i d c v, nth_error l i = Some d -> nth_error m i = Some c -> nth_error (map (fun x => fst x / h * obs / snd x) (combine l m)) i = Some v -> v = d / h * obs / c).
  { clear. induction l as [|a l IH]; intros m [|i] d c v D C V; destruct m as [|b m]; try discriminate; cbn in D, C, V; [congruence|eapply IH; eassumption]. }
  rewrite (G _ _ i d c v D C V), (G _ _ j d' c' v' D' C' V'). rewrite Forall_forall in F. pose proof (F c (nth_error_In _ _ C)). pose proof (F c' (nth_error_In _ _ C')). field. repeat split; try lra.
Qed.
Print Assumptions C85_hillslopes.
(** Finding: the first hillslope stands for level ground (horad = Drad(1)): its radiation is the observed one divided by the cosine of its slope, whatever its own potential
    radiation, that is whatever its aspect; that of all others is relative to it. *)
Theorem C85_first_refuted : forall obs h r c cs o, ~ h == 0 -> swrads obs (h :: r) (c :: cs) = Some o -> match o with v :: _ => v == obs / c | [] => False end.
Proof. intros obs h r c cs o H E. unfold swrads in E. rewrite qeq_false in E by exact H. injection E as <-. cbn [combine map fst snd]. assert (X : h / h == 1) by (field; exact H). rewrite X, Qmult_1_l. reflexivity. Qed.
Print Assumptions C85_first_refuted.
(** Finding: on days on which the sun does not reach the first hillslope no hillslope has a radiation: all are divided by zero. *)
Theorem C85_dark_refuted : forall obs h r cossl, h == 0 -> swrads obs (h :: r) cossl = None.
Proof. intros obs h r cossl H. unfold swrads. destruct (qeq h 0) eqn:E; [reflexivity|]. qprop. contradiction. Qed.
Print Assumptions C85_dark_refuted.
Definition sky_case : sky := mkSky (- (1 # 10)) (17 # 10) (1 # 10) (44 # 100) (1 # 2) (4 # 10) (8 # 10).
Example sky_meets : Qred (orad (fun x => x) sky_case 6 (-1) 20 10 1 300) = 1914 # 25 /\ tiny <= 250 <= 10000 /\ Qred (orad (fun x => x) sky_case 1 20000 30 5 0 300) = 240 /\ option_map (map Qred) (swrads 250 [200; 100] [1; 1 # 2]) = Some [250; 250].
Proof. repeat split; vm_compute; try reflexivity; discriminate. Qed.

(** ** C86 *)
(** The hours of sun of a slope are exactly the time during which the sun is above both the level horizon (from -tb to tb) and the slope's (from -ta-l2 to ta-l2, a day earlier and a day later),
    in units of 12 hours; noon of the slope is shifted by at most half a turn, or more if the days of slope and level ground are both long or both short (as they are for such slopes). *)
Theorem C86_hours : forall ta tb l2, 0 <= ta <= pi_ -> 0 <= tb <= pi_ -> - pi_ / 2 <= l2 ->
  l2 <= pi_ \/ (l2 <= 3 * pi_ / 2 /\ ((ta <= pi_ / 2 /\ tb <= pi_ / 2) \/ (pi_ / 2 <= ta /\ pi_ / 2 <= tb))) ->
  sun_hours false ta tb l2 == (common (- ta - l2) (ta - l2) (- tb) tb + common (- ta - l2 + two_pi) (ta - l2 + two_pi) (- tb) tb + common (- ta - l2 - two_pi) (ta - l2 - two_pi) (- tb) tb) * (38197 # 10000) / 12.
Proof. exact hours_exact. Qed.
Print Assumptions C86_hours.
(** So they are not negative and not more than those of level ground. *)
Theorem C86_bounds : forall ta tb l2, 0 <= ta <= pi_ -> 0 <= tb <= pi_ -> - pi_ / 2 <= l2 ->
  l2 <= pi_ \/ (l2 <= 3 * pi_ / 2 /\ ((ta <= pi_ / 2 /\ tb <= pi_ / 2) \/ (pi_ / 2 <= ta /\ pi_ / 2 <= tb))) ->
  0 <= sun_hours false ta tb l2 <= sun_hours true ta tb l2.
Proof. exact hours_bounds. Qed.
Print Assumptions C86_bounds.
Theorem C86_level : forall ta tb l2, sun_hours true ta tb l2 == 2 * tb * (38197 # 10000) / 12.
Proof. intros. unfold sun_hours. cbv zeta. field. Qed.
Print Assumptions C86_level.
(** A half day is between no and all hours, with the arc cosine used only between -1 and 1. *)
Theorem C86_half_day : forall ac tx, (-1 <= tx <= 1 -> 0 <= ac <= pi_) -> 0 <= half_day ac tx <= pi_ /\ (1 < tx -> half_day ac tx = 0) /\ (tx < -1 -> half_day ac tx = pi_).
Proof.
  intros ac tx H. assert (P : 0 <= pi_) by discriminate. unfold half_day. destruct (qlt tx (-1)) eqn:E1; qprop; [split; [lra|]; split; intros X; [lra|reflexivity]|].
  destruct (qlt 1 tx) eqn:E2; qprop; [split; [lra|]; split; intros X; [reflexivity|lra]|]. split; [apply H; lra|]. split; intros X; lra.
Qed.
Print Assumptions C86_half_day.
Example hours_meets : 0 < sun_hours false 3 (12 # 10) 3 < sun_hours true 3 (12 # 10) 3 /\ 3 <= pi_ /\ 0 < common (- 3 - 3) (3 - 3) (- (12 # 10)) (12 # 10) /\ 0 < common (- 3 - 3 + two_pi) (3 - 3 + two_pi) (- (12 # 10)) (12 # 10).
Proof. repeat split; vm_compute; try reflexivity; discriminate. Qed.
