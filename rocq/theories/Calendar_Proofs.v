From Coq Require Import ZArith QArith String Lia Lqa Bool.
From Coq Require Import ZifyBool.
From Verif Require Import Calendar_Model Calendar_Spec.
Local Open Scope Z_scope.
Ltac Zify.zify_post_hook ::= Z.div_mod_to_equations.

Lemma month_cases m : 1 <= m <= 12 ->
  m = 1 \/ m = 2 \/ m = 3 \/ m = 4 \/ m = 5 \/ m = 6 \/
  m = 7 \/ m = 8 \/ m = 9 \/ m = 10 \/ m = 11 \/ m = 12.
Proof. lia. Qed.

(** The year-independent cumulative month length used by the formula. *)
Definition month_off (m : Z) : Z :=
  306001 * (if 2 <? m then m + 1 else m + 13) / 10000.

(** A closed form of the day number on valid dates: astronomical year and the
    two calendars separated. *)
Definition astro (y : Z) : Z := if y <? 0 then y + 1 else y.

Definition jd_julian (y m d : Z) : Z :=
  let a := if 2 <? m then astro y else astro y - 1 in
  1461 * a / 4 + month_off m + d + 1720995.

Definition jd_greg (y m d : Z) : Z :=
  let a := if 2 <? m then y else y - 1 in
  1461 * a / 4 + month_off m + d + 1720995 + (2 - a / 100 + a / 400).

Definition greg (y m d : Z) : Prop :=
  1582 < y \/ (y = 1582 /\ (10 < m \/ (m = 10 /\ 15 <= d))).

Lemma quot_quot a : 0 <= a -> Z.quot (Z.quot a 100) 4 = a / 400 /\ Z.quot a 100 = a / 100.
Proof. intros H. rewrite !Z.quot_div_nonneg by (try lia; apply Z.quot_pos; lia). lia. Qed.

Lemma dim_bounds y m : 28 <= Days_in_month y m <= 31.
Proof.
  unfold Days_in_month.
  destruct (m =? 2); [destruct (Leap y); lia|].
  destruct ((m =? 4) || (m =? 6) || (m =? 9) || (m =? 11)); lia.
Qed.

Lemma julday_greg y m d : Valid (mkdate y m d) -> greg y m d ->
  julday (mkdate y m d) = Some (jd_greg y m d).
Proof.
  intros (Hy & Hm & Hd & Hs) G. cbn [dy dm dd] in *.
  pose proof (dim_bounds y m) as Hb.
  unfold julday, jd_greg, month_off, greg in *. cbn [dy dm dd].
  destruct (y =? 0) eqn:E0; [lia|].
  replace (y <? 0) with false by lia.
  assert (E : IGREG <=? d + 31 * (m + 12 * y) = true) by (unfold IGREG; lia).
  rewrite E.
  destruct (2 <? m) eqn:E2.
  - destruct (quot_quot y) as [A B]; [lia|]. rewrite A, B. reflexivity.
  - destruct (quot_quot (y - 1)) as [A B]; [lia|]. rewrite A, B. reflexivity.
Qed.

Lemma julday_julian y m d : Valid (mkdate y m d) -> ~ greg y m d ->
  julday (mkdate y m d) = Some (jd_julian y m d).
Proof.
  intros (Hy & Hm & Hd & Hs) G. cbn [dy dm dd] in *.
  pose proof (dim_bounds y m) as Hb.
  unfold julday, jd_julian, month_off, greg, astro in *. cbn [dy dm dd].
  destruct (y =? 0) eqn:E0; [lia|].
  assert (E : IGREG <=? d + 31 * (m + 12 * (if y <? 0 then y + 1 else y)) = false)
    by (unfold IGREG; destruct (y <? 0) eqn:?; lia).
  rewrite E. reflexivity.
Qed.

Lemma greg_dec y m d : greg y m d \/ ~ greg y m d.
Proof. unfold greg. lia. Qed.

Lemma next_valid t : Valid t -> Valid (Next_day t).
Proof.
  destruct t as [y m d]. intros (Hy & Hm & Hd & Hs). cbn [dy dm dd] in *.
  unfold Next_day. cbn [dy dm dd].
  destruct ((y =? 1582) && (m =? 10) && (d =? 4)) eqn:ES.
  { unfold Valid. cbn [dy dm dd]. unfold Days_in_month. cbn. lia. }
  destruct (d <? Days_in_month y m) eqn:E1.
  { unfold Valid. cbn [dy dm dd]. lia. }
  destruct (m <? 12) eqn:E2.
  - unfold Valid. cbn [dy dm dd]. pose proof (dim_bounds y (m + 1)). lia.
  - unfold Valid. cbn [dy dm dd].
    pose proof (dim_bounds (Next_year y) 1). unfold Next_year in *.
    destruct (y =? -1) eqn:?; lia.
Qed.

Lemma month_off_vals m : 1 <= m <= 12 -> month_off m =
  (if m =? 1 then 428 else if m =? 2 then 459 else if m =? 3 then 122 else if m =? 4 then 153
   else if m =? 5 then 183 else if m =? 6 then 214 else if m =? 7 then 244
   else if m =? 8 then 275 else if m =? 9 then 306 else if m =? 10 then 336
   else if m =? 11 then 367 else 397).
Proof.
  intros Hm. unfold month_off.
  destruct (month_cases m Hm) as [E|[E|[E|[E|[E|[E|[E|[E|[E|[E|[E|E]]]]]]]]]]]; subst m; vm_compute; reflexivity.
Qed.

Lemma dim_vals y m : 1 <= m <= 12 -> Days_in_month y m =
  (if m =? 2 then (if Leap y then 29 else 28)
   else if m =? 4 then 30 else if m =? 6 then 30 else if m =? 9 then 30
   else if m =? 11 then 30 else 31).
Proof.
  intros Hm. unfold Days_in_month.
  destruct (month_cases m Hm) as [E|[E|[E|[E|[E|[E|[E|[E|[E|[E|[E|E]]]]]]]]]]]; subst m; reflexivity.
Qed.


(** Evaluate comparisons between literals. *)
Ltac zlit :=
  repeat match goal with
  | |- context [Z.ltb ?a ?b] => (let v := eval compute in (Z.ltb a b) in
      match v with true => change (Z.ltb a b) with true | false => change (Z.ltb a b) with false end)
  | |- context [Z.eqb ?a ?b] => (let v := eval compute in (Z.eqb a b) in
      match v with true => change (Z.eqb a b) with true | false => change (Z.eqb a b) with false end)
  | H : context [Z.eqb ?a ?b] |- _ => (let v := eval compute in (Z.eqb a b) in
      match v with true => change (Z.eqb a b) with true in H | false => change (Z.eqb a b) with false in H end)
  end; cbn iota in *.

Lemma jd_greg_next y m d : 1582 <= y -> 1 <= m <= 12 -> d = Days_in_month y m ->
  jd_greg (if m <? 12 then y else y + 1) (if m <? 12 then m + 1 else 1) 1 = jd_greg y m d + 1.
Proof.
  intros Hy Hm Hd. subst d. unfold jd_greg. rewrite dim_vals by assumption. unfold Leap.
  replace (y <? 0) with false by lia.
  destruct (m <? 12) eqn:E12; rewrite !month_off_vals by lia;
  destruct (month_cases m Hm) as [E|[E|[E|[E|[E|[E|[E|[E|[E|[E|[E|E]]]]]]]]]]]; subst m; try discriminate E12;
    clear E12; zlit; try lia.
  1: destruct (y <=? 1582) eqn:E1; [assert (y = 1582) by lia; subst y; vm_compute; reflexivity|].
  1: destruct (y mod 4 =? 0) eqn:E4; destruct (y mod 100 =? 0) eqn:E100; destruct (y mod 400 =? 0) eqn:E400;
      cbn [andb orb negb]; lia.
Qed.

Lemma jd_julian_next y m d : y <> 0 -> y <= 1582 -> 1 <= m <= 12 -> d = Days_in_month y m ->
  jd_julian (if m <? 12 then y else Next_year y) (if m <? 12 then m + 1 else 1) 1 = jd_julian y m d + 1.
Proof.
  intros Hz Hy Hm Hd. subst d. unfold jd_julian. rewrite dim_vals by assumption. unfold Leap, Next_year, astro.
  replace (y <=? 1582) with true by lia.
  destruct (m <? 12) eqn:E12; rewrite !month_off_vals by lia;
  destruct (month_cases m Hm) as [E|[E|[E|[E|[E|[E|[E|[E|[E|[E|[E|E]]]]]]]]]]]; subst m; try discriminate E12;
    clear E12; zlit; try lia.
  1: destruct (y <? 0) eqn:E0;
     [destruct ((y + 1) mod 4 =? 0) eqn:E4|destruct (y mod 4 =? 0) eqn:E4]; lia.
  1: destruct (y =? -1) eqn:E1; destruct (y <? 0) eqn:E0; zlit;
     repeat match goal with |- context [?a <? 0] => destruct (a <? 0) eqn:? end; lia.
Qed.

Lemma julday_some t : Valid t -> exists n, julday t = Some n.
Proof.
  destruct t as [y m d]. intros H.
  destruct (greg_dec y m d) as [G|G].
  - eexists. apply julday_greg; assumption.
  - eexists. apply julday_julian; assumption.
Qed.

Lemma julday_next t n : Valid t -> julday t = Some n -> julday (Next_day t) = Some (n + 1).
Proof.
  intros HV HJ. pose proof (next_valid t HV) as HV'.
  destruct t as [y m d]. pose proof HV as (Hy & Hm & Hd & Hs). cbn [dy dm dd] in *.
  unfold Next_day in *. cbn [dy dm dd] in *.
  destruct ((y =? 1582) && (m =? 10) && (d =? 4)) eqn:ES.
  { assert (y = 1582 /\ m = 10 /\ d = 4) as (-> & -> & ->) by lia.
    vm_compute in HJ. inversion HJ; subst n. vm_compute. reflexivity. }
  destruct (d <? Days_in_month y m) eqn:E1.
  { destruct (greg_dec y m d) as [G|G].
    - rewrite julday_greg in HJ by assumption.
      assert (G' : greg y m (d + 1)) by (unfold greg in *; lia).
      rewrite (julday_greg _ _ _ HV' G'). inversion HJ. f_equal. unfold jd_greg. lia.
    - rewrite julday_julian in HJ by assumption.
      assert (G' : ~ greg y m (d + 1)).
      { unfold greg in *. intros [K|[K1 [K2|[K2 K3]]]]; try lia. }
      rewrite (julday_julian _ _ _ HV' G'). inversion HJ. f_equal. unfold jd_julian. lia. }
  assert (Ed : d = Days_in_month y m) by lia.
  destruct (greg_dec y m d) as [G|G].
  - rewrite julday_greg in HJ by assumption. inversion HJ as [HJ']. clear HJ.
    assert (Hy' : 1582 <= y) by (unfold greg in G; lia).
    pose proof (jd_greg_next y m d Hy' Hm Ed) as HN.
    destruct (m <? 12) eqn:E2.
    + assert (G' : greg y (m + 1) 1) by (unfold greg in *; lia).
      rewrite (julday_greg _ _ _ HV' G'). f_equal. lia.
    + unfold Next_year in *. destruct (y =? -1) eqn:?; [lia|].
      assert (G' : greg (y + 1) 1 1) by (unfold greg in *; lia).
      rewrite (julday_greg _ _ _ HV' G'). f_equal. lia.
  - rewrite julday_julian in HJ by assumption. inversion HJ as [HJ']. clear HJ.
    assert (Hy' : y <= 1582) by (unfold greg in G; lia).
    pose proof (jd_julian_next y m d Hy Hy' Hm Ed) as HN.
    assert (Hnb : ~ (y = 1582 /\ 10 <= m)).
    { intros [-> K]. apply G. unfold greg. right. split; [reflexivity|].
      destruct (Z.eq_dec m 10) as [->|]; [right|left; lia].
      split; [reflexivity|]. rewrite Ed. vm_compute. discriminate. }
    destruct (m <? 12) eqn:E2.
    + assert (G' : ~ greg y (m + 1) 1) by (unfold greg in *; lia).
      rewrite (julday_julian _ _ _ HV' G'). f_equal. lia.
    + assert (G' : ~ greg (Next_year y) 1 1)
        by (unfold greg, Next_year in *; destruct (y =? -1) eqn:?; lia).
      rewrite (julday_julian _ _ _ HV' G'). f_equal. lia.
Qed.

Lemma after_valid n t : Valid t -> Valid (After n t).
Proof. induction n; cbn [After]; auto using next_valid. Qed.

Lemma julday_after n t k : Valid t -> julday t = Some k ->
  julday (After n t) = Some (k + Z.of_nat n).
Proof.
  intros HV HJ. induction n as [|n IH]; cbn [After].
  - rewrite HJ. f_equal. lia.
  - rewrite (julday_next _ _ (after_valid n t HV) IH). f_equal. lia.
Qed.

(** Year boundaries. *)
Definition jan1 (y : Z) : Z :=
  if 1582 <? y then jd_greg y 1 1 else jd_julian y 1 1.

Lemma jan1_valid y : y <> 0 -> Valid (mkdate y 1 1).
Proof. intros H. unfold Valid. cbn [dy dm dd]. pose proof (dim_bounds y 1). lia. Qed.

Lemma julday_jan1 y : y <> 0 -> julday (mkdate y 1 1) = Some (jan1 y).
Proof.
  intros H. unfold jan1. destruct (1582 <? y) eqn:E.
  - apply julday_greg; [apply jan1_valid; assumption| unfold greg; lia].
  - apply julday_julian; [apply jan1_valid; assumption| unfold greg; lia].
Qed.

Lemma jan1_mono a b : a <> 0 -> b <> 0 -> a < b -> jan1 a < jan1 b.
Proof.
  intros Ha Hb H. unfold jan1, jd_greg, jd_julian, month_off, astro.
  change (2 <? 1) with false. cbn iota.
  destruct (1582 <? a) eqn:E1; destruct (1582 <? b) eqn:E2; try lia;
  destruct (a <? 0) eqn:?; try lia; destruct (b <? 0) eqn:?; try lia.
Qed.

Lemma julday_year_bounds t n : Valid t -> julday t = Some n ->
  jan1 (dy t) <= n < jan1 (Next_year (dy t)).
Proof.
  destruct t as [y m d]. intros HV HJ. pose proof HV as (Hy & Hm & Hd & Hs). cbn [dy dm dd] in *.
  assert (Hd' : 1 <= d <= 31) by (pose proof (dim_bounds y m); lia). clear Hd.
  destruct (greg_dec y m d) as [G|G].
  - rewrite (julday_greg y m d HV G) in HJ. inversion HJ as [E]. clear HJ E.
    unfold greg in G. unfold Next_year. replace (y =? -1) with false by lia.
    unfold jan1. replace (1582 <? y + 1) with true by lia.
    unfold jd_greg, jd_julian. rewrite !month_off_vals by lia. unfold astro.
    replace (y <? 0) with false in * by lia.
    destruct (1582 <? y) eqn:E0.
    + replace (y <=? 1582) with false in * by lia.
      destruct (month_cases m Hm) as [E|[E|[E|[E|[E|[E|[E|[E|[E|[E|[E|E]]]]]]]]]]]; subst m; zlit; try lia.
    + assert (y = 1582) by lia. subst y.
      destruct (month_cases m Hm) as [E|[E|[E|[E|[E|[E|[E|[E|[E|[E|[E|E]]]]]]]]]]]; subst m; zlit; try lia.
  - rewrite (julday_julian y m d HV G) in HJ. inversion HJ as [E]. clear HJ E.
    unfold greg in G. unfold jan1, Next_year.
    replace (1582 <? y) with false by lia. replace (y <=? 1582) with true in * by lia.
    unfold jd_greg, jd_julian, astro. rewrite !month_off_vals by lia.
    destruct (y =? -1) eqn:E1.
    + assert (y = -1) by lia. subst y. zlit.
      destruct (month_cases m Hm) as [E|[E|[E|[E|[E|[E|[E|[E|[E|[E|[E|E]]]]]]]]]]]; subst m; zlit; try lia.
    + destruct (y <? 0) eqn:E0.
      * replace (y + 1 <? 0) with true by lia. replace (1582 <? y + 1) with false by lia.
        destruct (month_cases m Hm) as [E|[E|[E|[E|[E|[E|[E|[E|[E|[E|[E|E]]]]]]]]]]]; subst m; zlit; try lia.
      * replace (y + 1 <? 0) with false by lia.
        destruct (1582 <? y + 1) eqn:E2.
        -- assert (y = 1582) by lia. subst y.
           destruct (month_cases m Hm) as [E|[E|[E|[E|[E|[E|[E|[E|[E|[E|[E|E]]]]]]]]]]]; subst m; zlit; try lia.
        -- destruct (month_cases m Hm) as [E|[E|[E|[E|[E|[E|[E|[E|[E|[E|[E|E]]]]]]]]]]]; subst m; zlit; try lia.
Qed.

Lemma jd_greg_months y m d k : 1582 <= y -> 1 <= m -> d <= Days_in_month y m ->
  0 <= k -> m + 1 + k <= 12 -> jd_greg y m d < jd_greg y (m + 1 + k) 1.
Proof.
  intros Hy Hm Hd Hk. revert k Hk.
  apply (natlike_ind (fun k => m + 1 + k <= 12 -> jd_greg y m d < jd_greg y (m + 1 + k) 1)).
  - intros H12. pose proof (jd_greg_next y m _ Hy ltac:(lia) eq_refl) as N.
    replace (m <? 12) with true in N by lia. replace (m + 1 + 0) with (m + 1) by lia.
    rewrite N. unfold jd_greg. lia.
  - intros k Hk IH H12.
    pose proof (jd_greg_next y (m + 1 + k) _ Hy ltac:(lia) eq_refl) as N.
    replace (m + 1 + k <? 12) with true in N by lia.
    replace (m + 1 + Z.succ k) with (m + 1 + k + 1) by lia. rewrite N.
    specialize (IH ltac:(lia)).
    assert (jd_greg y (m + 1 + k) 1 <= jd_greg y (m + 1 + k) (Days_in_month y (m + 1 + k)))
      by (pose proof (dim_bounds y (m + 1 + k)); unfold jd_greg; lia).
    lia.
Qed.

Lemma jd_julian_months y m d k : y <> 0 -> y <= 1582 -> 1 <= m -> d <= Days_in_month y m ->
  0 <= k -> m + 1 + k <= 12 -> jd_julian y m d < jd_julian y (m + 1 + k) 1.
Proof.
  intros Hy0 Hy Hm Hd Hk. revert k Hk.
  apply (natlike_ind (fun k => m + 1 + k <= 12 -> jd_julian y m d < jd_julian y (m + 1 + k) 1)).
  - intros H12. pose proof (jd_julian_next y m _ Hy0 Hy ltac:(lia) eq_refl) as N.
    replace (m <? 12) with true in N by lia. replace (m + 1 + 0) with (m + 1) by lia.
    rewrite N. unfold jd_julian. lia.
  - intros k Hk IH H12.
    pose proof (jd_julian_next y (m + 1 + k) _ Hy0 Hy ltac:(lia) eq_refl) as N.
    replace (m + 1 + k <? 12) with true in N by lia.
    replace (m + 1 + Z.succ k) with (m + 1 + k + 1) by lia. rewrite N.
    specialize (IH ltac:(lia)).
    assert (jd_julian y (m + 1 + k) 1 <= jd_julian y (m + 1 + k) (Days_in_month y (m + 1 + k)))
      by (pose proof (dim_bounds y (m + 1 + k)); unfold jd_julian; lia).
    lia.
Qed.

Lemma julday_month_mono y m1 d1 m2 d2 a b :
  Valid (mkdate y m1 d1) -> Valid (mkdate y m2 d2) ->
  m1 < m2 -> julday (mkdate y m1 d1) = Some a -> julday (mkdate y m2 d2) = Some b -> a < b.
Proof.
  intros V1 V2 Hlt J1 J2.
  pose proof V1 as (Hy & Hm1 & Hd1 & Hs1). pose proof V2 as (_ & Hm2 & Hd2 & Hs2). cbn [dy dm dd] in *.
  destruct (greg_dec y m1 d1) as [G1|G1]; destruct (greg_dec y m2 d2) as [G2|G2].
  - rewrite (julday_greg _ _ _ V1 G1) in J1. rewrite (julday_greg _ _ _ V2 G2) in J2.
    inversion J1; inversion J2.
    pose proof (jd_greg_months y m1 d1 (m2 - m1 - 1) ltac:(unfold greg in *; lia) ltac:(lia) ltac:(lia) ltac:(lia) ltac:(lia)) as K.
    replace (m1 + 1 + (m2 - m1 - 1)) with m2 in K by lia.
    assert (jd_greg y m2 1 <= jd_greg y m2 d2) by (unfold jd_greg; lia). lia.
  - exfalso. unfold greg in *. lia.
  - rewrite (julday_julian _ _ _ V1 G1) in J1. rewrite (julday_greg _ _ _ V2 G2) in J2.
    inversion J1; inversion J2. unfold greg in *. assert (y = 1582) by lia. subst y.
    assert (Hd1' : 1 <= d1 <= 31) by (pose proof (dim_bounds 1582 m1); lia).
    unfold jd_greg, jd_julian, astro. rewrite !month_off_vals by lia. zlit.
    replace (2 <? m2) with true by lia.
    assert (m2 = 10 \/ m2 = 11 \/ m2 = 12) as [->|[->| ->]] by lia; zlit;
    destruct (month_cases m1 Hm1) as [E|[E|[E|[E|[E|[E|[E|[E|[E|[E|[E|E]]]]]]]]]]]; subst m1; zlit; lia.
  - rewrite (julday_julian _ _ _ V1 G1) in J1. rewrite (julday_julian _ _ _ V2 G2) in J2.
    inversion J1; inversion J2.
    pose proof (jd_julian_months y m1 d1 (m2 - m1 - 1) ltac:(lia) ltac:(unfold greg in *; lia) ltac:(lia) ltac:(lia) ltac:(lia) ltac:(lia)) as K.
    replace (m1 + 1 + (m2 - m1 - 1)) with m2 in K by lia.
    assert (jd_julian y m2 1 <= jd_julian y m2 d2) by (unfold jd_julian; lia). lia.
Qed.

Lemma julday_before s t a b : Valid s -> Valid t -> Before s t ->
  julday s = Some a -> julday t = Some b -> a < b.
Proof.
  intros Vs Vt HB Js Jt.
  destruct HB as [Hy|[Hy [Hm|[Hm Hd]]]].
  - pose proof (julday_year_bounds _ _ Vs Js). pose proof (julday_year_bounds _ _ Vt Jt).
    assert (jan1 (Next_year (dy s)) <= jan1 (dy t)).
    { destruct Vs as [Ns _]. destruct Vt as [Nt _].
      unfold Next_year. destruct (dy s =? -1) eqn:E.
      - destruct (Z.eq_dec 1 (dy t)) as [<-|]; [lia|]. apply Z.lt_le_incl, jan1_mono; lia.
      - destruct (Z.eq_dec (dy s + 1) (dy t)) as [<-|]; [lia|]. apply Z.lt_le_incl, jan1_mono; lia. }
    lia.
  - destruct s as [y m d], t as [y' m' d']; cbn [dy dm dd] in *. subst y'.
    exact (julday_month_mono _ _ _ _ _ _ _ Vs Vt Hm Js Jt).
  - destruct s as [y m d], t as [y' m' d']; cbn [dy dm dd] in *. subst y' m'.
    destruct (greg_dec y m d) as [G1|G1]; destruct (greg_dec y m d') as [G2|G2].
    + rewrite (julday_greg _ _ _ Vs G1) in Js. rewrite (julday_greg _ _ _ Vt G2) in Jt.
      inversion Js; inversion Jt. unfold jd_greg. lia.
    + exfalso. unfold greg in *. lia.
    + rewrite (julday_julian _ _ _ Vs G1) in Js. rewrite (julday_greg _ _ _ Vt G2) in Jt.
      inversion Js; inversion Jt. unfold greg in *. destruct Vs as (_ & _ & _ & Hs1).
      destruct Vt as (_ & _ & _ & Hs2). cbn [dy dm dd] in *.
      assert (y = 1582 /\ m = 10) as [-> ->] by lia.
      unfold jd_greg, jd_julian, astro. rewrite !month_off_vals by lia. zlit. lia.
    + rewrite (julday_julian _ _ _ Vs G1) in Js. rewrite (julday_julian _ _ _ Vt G2) in Jt.
      inversion Js; inversion Jt. unfold jd_julian. lia.
Qed.

Lemma before_total s t : Before s t \/ s = t \/ Before t s.
Proof.
  destruct s as [y m d], t as [y' m' d']. unfold Before. cbn [dy dm dd].
  destruct (Z.lt_trichotomy y y') as [|[->|]]; auto.
  destruct (Z.lt_trichotomy m m') as [|[->|]]; try (clear - H; intuition lia).
  destruct (Z.lt_trichotomy d d') as [|[->|]]; auto; intuition lia.
Qed.

Lemma julday_inj s t n : Valid s -> Valid t -> julday s = Some n -> julday t = Some n -> s = t.
Proof.
  intros Vs Vt Js Jt. destruct (before_total s t) as [B|[E|B]]; [|assumption|].
  - pose proof (julday_before _ _ _ _ Vs Vt B Js Jt). lia.
  - pose proof (julday_before _ _ _ _ Vt Vs B Jt Js). lia.
Qed.

(** Leap years. *)
Lemma isleap_leap y : isleap y = (if ((y mod 4 =? 0) && negb (y mod 100 =? 0)) || (y mod 400 =? 0) then 1 else 0).
Proof.
  unfold isleap.
  assert (H4 : (Z.rem y 4 =? 0) = (y mod 4 =? 0)).
  { destruct (Z.rem y 4 =? 0) eqn:A; destruct (y mod 4 =? 0) eqn:B; auto.
    - apply Z.eqb_eq in A. apply Z.rem_divide in A; [|lia]. apply Z.mod_divide in A; lia.
    - apply Z.eqb_eq in B. apply Z.mod_divide in B; [|lia]. apply Z.rem_divide in B; lia. }
  assert (H100 : (Z.rem y 100 =? 0) = (y mod 100 =? 0)).
  { destruct (Z.rem y 100 =? 0) eqn:A; destruct (y mod 100 =? 0) eqn:B; auto.
    - apply Z.eqb_eq in A. apply Z.rem_divide in A; [|lia]. apply Z.mod_divide in A; lia.
    - apply Z.eqb_eq in B. apply Z.mod_divide in B; [|lia]. apply Z.rem_divide in B; lia. }
  assert (H400 : (Z.rem y 400 =? 0) = (y mod 400 =? 0)).
  { destruct (Z.rem y 400 =? 0) eqn:A; destruct (y mod 400 =? 0) eqn:B; auto.
    - apply Z.eqb_eq in A. apply Z.rem_divide in A; [|lia]. apply Z.mod_divide in A; lia.
    - apply Z.eqb_eq in B. apply Z.mod_divide in B; [|lia]. apply Z.rem_divide in B; lia. }
  rewrite H4, H100, H400.
  destruct (y mod 4 =? 0) eqn:E4; destruct (y mod 100 =? 0) eqn:E100; destruct (y mod 400 =? 0) eqn:E400;
    cbn; try reflexivity; lia.
Qed.

Lemma year_length y : 1582 < y -> forall a b,
  julday (mkdate y 1 1) = Some a -> julday (mkdate (y + 1) 1 1) = Some b ->
  b - a = 365 + isleap y.
Proof.
  intros Hy a b Ha Hb. rewrite julday_jan1 in Ha by lia. rewrite julday_jan1 in Hb by lia.
  inversion Ha; inversion Hb. rewrite isleap_leap. unfold jan1.
  replace (1582 <? y) with true by lia. replace (1582 <? y + 1) with true by lia.
  unfold jd_greg. change (2 <? 1) with false. cbn iota.
  destruct (((y mod 4 =? 0) && negb (y mod 100 =? 0)) || (y mod 400 =? 0)) eqn:E; lia.
Qed.

(** Weekdays (integer day numbers). *)
Lemma dayofweek_int n : 0 <= n -> dayofweek (inject_Z n) = (n + 1) mod 7.
Proof.
  intros H. unfold dayofweek. cbn - [Z.mul Z.quot Z.rem Z.add].
  rewrite Z.quot_div_nonneg by lia. rewrite Z.rem_mod_nonneg by lia. lia.
Qed.

(** Day of year. *)
Lemma first_valid c y : Is_clock c -> y <> 0 -> Valid (First_day c y).
Proof.
  intros Hc Hy. unfold Is_clock in Hc.
  destruct Hc as [->|[->|[->| ->]]]; cbn -[Valid]; unfold Valid; cbn [dy dm dd];
    match goal with |- context [Days_in_month y ?m] => pose proof (dim_bounds y m) end; lia.
Qed.

(** The day before the first day of a clock year. *)
Definition eve (c : string) (y : Z) : date :=
  if String.eqb c "calendar" then mkdate (y - 1) 12 31
  else if String.eqb c "solar" then mkdate y 12 21
  else if String.eqb c "spring" then mkdate y 3 20
  else mkdate y 9 30.

Lemma eve_next c y : Is_clock c -> y <> 0 -> (c = "calendar"%string -> y <> 1) ->
  Valid (eve c y) /\ Next_day (eve c y) = First_day c y.
Proof.
  intros Hc Hy H1. unfold Is_clock in Hc.
  destruct Hc as [->|[->|[->| ->]]]; cbn - [Valid Next_day]; unfold Valid, Next_day; cbn [dy dm dd];
    unfold Days_in_month; cbn - [Z.add Z.sub]; try specialize (H1 eq_refl);
    unfold Next_year.
  - split; [lia|]. rewrite !andb_false_r.
    destruct (y - 1 =? -1) eqn:?; [lia|]. f_equal. lia.
  - split; [lia|]. rewrite !andb_false_r. reflexivity.
  - split; [lia|]. rewrite !andb_false_r. reflexivity.
  - split; [lia|]. rewrite !andb_false_r. reflexivity.
Qed.

(** The reference date is the eve of the clock year containing the date. *)
Lemma reftime_eve c y t : Is_clock c -> y <> 0 -> Valid t ->
  (c <> "calendar"%string -> y <> -1) ->
  (t = First_day c y \/ Before (First_day c y) t) -> Before t (First_day c (Next_year y)) ->
  reftime c t = Some (eve c y).
Proof.
  intros Hc Hy V Hne HL HR. destruct t as [yy m d].
  destruct V as (Vy & Vm & Vd & _). cbn [dy dm dd] in *.
  pose proof (dim_bounds yy m) as Hb.
  unfold Is_clock in Hc.
  destruct Hc as [->|[->|[->| ->]]]; cbn - [Z.ltb Z.eqb] in *;
    unfold Before in *; cbn [dy dm dd] in *; unfold Next_year in *.
  - assert (yy = y).
    { destruct HL as [E|HL]; [inversion E; lia|]. destruct (y =? -1) eqn:?; lia. }
    subst. reflexivity.
  - assert (Hy1 : y <> -1) by (apply Hne; discriminate).
    replace (y =? -1) with false in HR by lia.
    destruct ((m =? 12) && (21 <? d)) eqn:E.
    + assert (yy = y) by (destruct HL as [E'|HL]; [inversion E'; lia|lia]). subst. reflexivity.
    + assert (yy - 1 = y) by (destruct HL as [E'|HL]; [inversion E'; lia|lia]).
      f_equal. unfold eve. cbn. f_equal. lia.
  - assert (Hy1 : y <> -1) by (apply Hne; discriminate).
    replace (y =? -1) with false in HR by lia.
    destruct ((3 <? m) || ((m =? 3) && (20 <? d))) eqn:E.
    + assert (yy = y) by (destruct HL as [E'|HL]; [inversion E'; lia|lia]). subst. reflexivity.
    + assert (yy - 1 = y) by (destruct HL as [E'|HL]; [inversion E'; lia|lia]).
      f_equal. unfold eve. cbn. f_equal. lia.
  - assert (Hy1 : y <> -1) by (apply Hne; discriminate).
    replace (y =? -1) with false in HR by lia.
    destruct (9 <? m) eqn:E.
    + assert (yy = y) by (destruct HL as [E'|HL]; [inversion E'; lia|lia]). subst. reflexivity.
    + assert (yy - 1 = y) by (destruct HL as [E'|HL]; [inversion E'; lia|lia]).
      f_equal. unfold eve. cbn. f_equal. lia.
Qed.

Lemma after_before n t : Valid t -> After (S n) t = t \/ Before t (After (S n) t).
Proof.
  intros V. destruct (julday_some t V) as [k Hk].
  pose proof (julday_after (S n) t k V Hk) as HA.
  pose proof (after_valid (S n) t V) as VA.
  destruct (before_total t (After (S n) t)) as [B|[E|B]]; [right; exact B|left; symmetry; exact E|].
  pose proof (julday_before _ _ _ _ VA V B HA Hk). lia.
Qed.

Lemma julian_clock c y n : Is_clock c -> y <> 0 ->
  (c = "calendar"%string -> y <> 1) -> (c <> "calendar"%string -> y <> -1) ->
  Before (After n (First_day c y)) (First_day c (Next_year y)) ->
  julian c (After n (First_day c y)) = Ok (Z.of_nat n + 1).
Proof.
  intros Hc Hy H1 Hm HB.
  pose proof (first_valid c y Hc Hy) as VF.
  pose proof (after_valid n _ VF) as VA.
  assert (HL : After n (First_day c y) = First_day c y \/ Before (First_day c y) (After n (First_day c y))).
  { destruct n; [left; reflexivity|]. apply after_before. exact VF. }
  unfold julian. rewrite (reftime_eve c y _ Hc Hy VA Hm HL HB).
  destruct (eve_next c y Hc Hy H1) as [VE EN].
  destruct (julday_some _ VE) as [k Hk].
  pose proof (julday_next _ _ VE Hk) as HF. rewrite EN in HF.
  rewrite (julday_after n _ _ VF HF), Hk. f_equal. lia.
Qed.

Lemma djulian_clock c y n h mi s : Is_clock c -> c <> "spring"%string -> y <> 0 ->
  (c = "calendar"%string -> y <> 1) -> (c <> "calendar"%string -> y <> -1) ->
  Before (After n (First_day c y)) (First_day c (Next_year y)) ->
  exists q, djulian c (After n (First_day c y)) h mi s = Ok q /\
    (q == inject_Z (Z.of_nat n + 1) + (inject_Z h / 24 + inject_Z mi / 1440 + inject_Z s / 86400))%Q.
Proof.
  intros Hc Hs Hy H1 Hm HB.
  pose proof (first_valid c y Hc Hy) as VF.
  pose proof (after_valid n _ VF) as VA.
  assert (HL : After n (First_day c y) = First_day c y \/ Before (First_day c y) (After n (First_day c y))).
  { destruct n; [left; reflexivity|]. apply after_before. exact VF. }
  unfold djulian, dreftime.
  destruct (String.eqb_spec c "spring") as [E|_]; [contradiction|].
  rewrite (reftime_eve c y _ Hc Hy VA Hm HL HB).
  destruct (eve_next c y Hc Hy H1) as [VE EN].
  destruct (julday_some _ VE) as [k Hk].
  pose proof (julday_next _ _ VE Hk) as HF. rewrite EN in HF.
  unfold julday_jt. rewrite (julday_after n _ _ VF HF), Hk.
  eexists. split; [reflexivity|].
  unfold time_of_day. rewrite !inject_Z_plus.
  rewrite (Qmake_Qdiv h 24), (Qmake_Qdiv mi 1440), (Qmake_Qdiv s 86400).
  rewrite (Qmake_Qdiv 0 24), (Qmake_Qdiv 0 1440), (Qmake_Qdiv 0 86400).
  change (inject_Z 0) with 0%Q. field.
Qed.

Lemma isleap_rule y : isleap y = 1 <-> (y mod 4 = 0 /\ y mod 100 <> 0) \/ y mod 400 = 0.
Proof.
  rewrite isleap_leap.
  destruct (((y mod 4 =? 0) && negb (y mod 100 =? 0)) || (y mod 400 =? 0)) eqn:E; lia.
Qed.

Lemma isleap_01 y : isleap y = 0 \/ isleap y = 1.
Proof. rewrite isleap_leap. destruct (_ || _); auto. Qed.

Lemma dayofweek_compat n : 0 <= n -> dayofweek (inject_Z n + time_of_day 0 0 0)%Q = (n + 1) mod 7.
Proof.
  intros H. unfold dayofweek, time_of_day. cbn - [Z.mul Z.quot Z.rem Z.add].
  rewrite Z.quot_div_nonneg by lia. rewrite Z.rem_mod_nonneg by lia. lia.
Qed.

Lemma weekday_advances t j : Valid t ->
  julday_jt t 0 0 0 = Some j -> (0 <= j)%Q ->
  exists j', julday_jt (Next_day t) 0 0 0 = Some j' /\
    dayofweek j' = (dayofweek j + 1) mod 7.
Proof.
  intros V Hj Hp. unfold julday_jt in *. destruct (julday t) as [k|] eqn:E; [|discriminate].
  inversion Hj; subst j. rewrite (julday_next t k V E).
  eexists. split; [reflexivity|].
  assert (0 <= k).
  { unfold time_of_day, Qle, Qplus, inject_Z in Hp. cbn - [Z.mul Z.add] in Hp. lia. }
  rewrite !dayofweek_compat by lia. lia.
Qed.

Lemma weekday_anchor : exists j,
  julday_jt (mkdate 2000 1 1) 0 0 0 = Some j /\ dayofweek j = 6.
Proof. eexists. split; vm_compute; reflexivity. Qed.

Lemma weekday_afternoon : exists t h j0 j1,
  Valid t /\ 0 <= h < 24 /\
  julday_jt t 0 0 0 = Some j0 /\ julday_jt t h 0 0 = Some j1 /\
  dayofweek j0 <> dayofweek j1.
Proof.
  exists (mkdate 2000 1 1), 12. do 2 eexists.
  split; [unfold Valid; cbn; lia|]. split; [lia|].
  split; [vm_compute; reflexivity|]. split; [vm_compute; reflexivity|].
  vm_compute. discriminate.
Qed.

Lemma year_one_ub : exists t, Valid t /\ julian "calendar" t = UB.
Proof. exists (mkdate 1 6 15). split; [unfold Valid; cbn; lia|]. vm_compute. reflexivity. Qed.

Lemma spring_exit : exists t k,
  Valid t /\ julian "spring" t = Ok k /\ djulian "spring" t 0 0 0 = Exit.
Proof. exists (mkdate 2001 6 15), 87. split; [unfold Valid; cbn; lia|]. vm_compute. auto. Qed.
