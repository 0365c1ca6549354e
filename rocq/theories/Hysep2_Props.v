(** C124: base flow between two local minima. *)
From Coq Require Import List ZArith QArith Bool Arith Lia Lqa Sorted.
From Verif Require Import Qx Hysep_Model Hysep_Spec Hysep_Props.
Import ListNotations.
Local Open Scope Q_scope.

(** Powers and logarithms respect equality of rationals and undo each other for positive numbers. *)
Definition Inverse (pow10 log10 : Q -> Q) : Prop :=
  (forall x y, x == y -> pow10 x == pow10 y) /\ (forall x y, x == y -> log10 x == log10 y) /\ (forall x, 0 < x -> pow10 (log10 x) == x).
(** On a straight line of logarithms from flow [a] on day [p] to flow [b] on day [p']. *)
Definition On_line (pow10 log10 : Q -> Q) (p p' : nat) (a b : Q) (j : nat) : Q :=
  pow10 (inject_Z (Z.of_nat j - Z.of_nat p) / inject_Z (Z.of_nat p' - Z.of_nat p) * (log10 b - log10 a) + log10 a).

Section Proofs.
Context (pow10 log10 : Q -> Q) (INV : Inverse pow10 log10).

Lemma line_first p p' a b : (p < p')%nat -> 0 < a -> On_line pow10 log10 p p' a b p == a.
Proof.
  intros L A. destruct INV as (P & _ & I). unfold On_line. etransitivity; [|apply (I a A)]. apply P.
  replace (Z.of_nat p - Z.of_nat p)%Z with 0%Z by lia. unfold Qdiv. change (inject_Z 0) with 0. ring.
Qed.
Lemma line_last p p' a b : (p < p')%nat -> 0 < b -> On_line pow10 log10 p p' a b p' == b.
Proof.
  intros L B. destruct INV as (P & _ & I). unfold On_line. etransitivity; [|apply (I b B)]. apply P.
  assert (N : ~ inject_Z (Z.of_nat p' - Z.of_nat p) == 0) by (change 0 with (inject_Z 0); rewrite inject_Z_injective; lia).
  field. exact N.
Qed.
Lemma line_eq p p' a b a' b' j : a == a' -> b == b' -> On_line pow10 log10 p p' a b j == On_line pow10 log10 p p' a' b' j.
Proof.
  intros A B. destruct INV as (P & L & _). unfold On_line. apply P. pose proof (L _ _ A) as LA. pose proof (L _ _ B) as LB. rewrite LA, LB. reflexivity.
Qed.

Lemma segment p p' a b g0 : (p < p')%nat -> 0 < a -> 0 < b -> g0 p == a -> g0 p' == b ->
  forall m, (m <= S p' - p)%nat ->
  let g := fold_left (between pow10 log10 p p') (seq p m) g0 in
  (forall j, (p <= j < p + m)%nat -> g j == On_line pow10 log10 p p' a b j) /\ (forall j, (j < p \/ p + m <= j)%nat -> g j == g0 j).
Proof.
  intros L A B GA GB. induction m as [|m IH]; intros M g.
  - split; [lia|]. intros. reflexivity.
  - specialize (IH ltac:(lia)). cbv zeta in IH. unfold g. clear g. rewrite seq_S, fold_left_app. cbn [fold_left].
    set (h := fold_left (between pow10 log10 p p') (seq p m) g0) in *. destruct IH as [I1 I2].
    assert (H1 : h p == a).
    { destruct m as [|m]; [rewrite I2 by lia; exact GA|]. rewrite I1 by lia. now apply line_first. }
    assert (H2 : h p' == b).
    { destruct (le_lt_dec (p + m) p') as [X | X]; [rewrite I2 by lia; exact GB|]. rewrite I1 by lia. now apply line_last. }
    unfold between. cbv zeta. rewrite (qle_false (h p) 0) by lra. rewrite (qle_false (h p') 0) by lra.
    split.
    + intros j J. unfold put. destruct (j =? p + m)%nat eqn:E.
      * apply Nat.eqb_eq in E. subst j. apply (line_eq p p' (h p) (h p') a b (p + m) H1 H2).
      * apply Nat.eqb_neq in E. apply I1. lia.
    + intros j J. unfold put. destruct (j =? p + m)%nat eqn:E; [apply Nat.eqb_eq in E; lia|]. apply I2. lia.
Qed.

Lemma middle_line dis : forall ps g, StronglySorted lt ps -> (forall p, In p ps -> 0 < at_ dis p) ->
  (forall l1 p p' l2 j, ps = l1 ++ p :: p' :: l2 -> (p <= j <= p')%nat -> middle pow10 log10 dis ps g j == On_line pow10 log10 p p' (at_ dis p) (at_ dis p') j) /\
  (forall j, (forall p, In p ps -> (j < p)%nat) \/ (forall p, In p ps -> (p < j)%nat) -> middle pow10 log10 dis ps g j == g j).
Proof.
  induction ps as [|ip1 [|ip2 r] IH]; intros g S0 P0.
  - split; [intros [|? ?] ? ? ? ? E; discriminate | reflexivity].
  - split; [intros [|? [|? ?]] ? ? ? ? E; discriminate | reflexivity].
  - inversion S0 as [|? ? S1 F1]. subst. assert (L : (ip1 < ip2)%nat) by (inversion F1; assumption).
    assert (A : 0 < at_ dis ip1) by (apply P0; now left). assert (B : 0 < at_ dis ip2) by (apply P0; right; now left).
    change (middle pow10 log10 dis (ip1 :: ip2 :: r) g) with (middle pow10 log10 dis (ip2 :: r) (fold_left (between pow10 log10 ip1 ip2) (days ip1 ip2) (put (put g ip1 (at_ dis ip1)) ip2 (at_ dis ip2)))).
    set (g0 := put (put g ip1 (at_ dis ip1)) ip2 (at_ dis ip2)).
    assert (G1 : g0 ip1 == at_ dis ip1) by (unfold g0, put; replace (ip1 =? ip2)%nat with false by (symmetry; apply Nat.eqb_neq; lia); rewrite Nat.eqb_refl; reflexivity).
    assert (G2 : g0 ip2 == at_ dis ip2) by (unfold g0, put; rewrite Nat.eqb_refl; reflexivity).
    destruct (segment ip1 ip2 _ _ g0 L A B G1 G2 (S ip2 - ip1) ltac:(lia)) as [X1 X2].
    fold (days ip1 ip2) in X1, X2. set (g1 := fold_left (between pow10 log10 ip1 ip2) (days ip1 ip2) g0) in *.
    destruct (IH g1 S1) as [Y1 Y2]; [intros; apply P0; now right|].
    assert (MIN : forall p, In p (ip2 :: r) -> (ip2 <= p)%nat).
    { intros p [<- | I]; [lia|]. inversion S1 as [|? ? _ F2]. subst. rewrite Forall_forall in F2. specialize (F2 p I). lia. }
    split.
    + intros l1 p p' l2 j E J. destruct l1 as [|z l1]; cbn [app] in E.
      * injection E as <- <- <-. destruct (Nat.eq_dec j ip2) as [-> | NE].
        -- transitivity (at_ dis ip2); [|symmetry; now apply line_last]. destruct r as [|ip3 r].
           ++ cbn [middle]. rewrite X1 by lia. now apply line_last.
           ++ rewrite (Y1 [] ip2 ip3 r ip2 eq_refl) by (pose proof (MIN ip3 (or_intror (or_introl eq_refl))); lia). apply line_first; [|exact B].
              inversion S1 as [|? ? _ F2]. inversion F2. assumption.
        -- rewrite Y2 by (left; intros p I; specialize (MIN p I); lia). apply X1. lia.
      * injection E as <- E. apply (Y1 l1 p p' l2 j E J).
    + intros j J. rewrite Y2 by (destruct J as [J | J]; [left | right]; intros p I; apply J; now right).
      assert (J' : (j < ip1 \/ ip2 < j)%nat) by (destruct J as [J | J]; [left; apply J; now left | right; apply J; right; now left]).
      rewrite X2 by lia. unfold g0, put.
      replace (j =? ip2)%nat with false by (symmetry; apply Nat.eqb_neq; lia). replace (j =? ip1)%nat with false by (symmetry; apply Nat.eqb_neq; lia). reflexivity.
Qed.
End Proofs.

Lemma seq_sorted n : forall a, StronglySorted lt (seq a n).
Proof.
  induction n as [|n IH]; intros a; cbn [seq]; constructor; [apply IH|]. apply Forall_forall. intros x X. apply in_seq in X. lia.
Qed.
Lemma filter_sorted (f : nat -> bool) l : StronglySorted lt l -> StronglySorted lt (filter f l).
Proof.
  induction 1 as [|x l S0 IH F]; cbn [filter]; [constructor|]. destruct (f x); [|exact IH]. constructor; [exact IH|].
  rewrite Forall_forall in *. intros y Y. apply filter_In in Y. now apply F.
Qed.
Lemma sorted_pair l p p' : StronglySorted lt l -> In p l -> In p' l -> (p < p')%nat -> (forall x, In x l -> ~ (p < x < p')%nat) ->
  exists l1 l2, l = l1 ++ p :: p' :: l2.
Proof.
  induction 1 as [|x l S0 IH F]; [intros []|]. intros I I' L N. rewrite Forall_forall in F.
  destruct I as [-> | I].
  - destruct I' as [-> | I']; [lia|]. destruct l as [|y l]; [destruct I'|]. exists [], l. cbn [app]. f_equal. f_equal.
    assert (p < y)%nat by (apply F; now left). assert (y <= p')%nat.
    { destruct I' as [-> | I']; [lia|]. inversion S0 as [|? ? _ F2]. rewrite Forall_forall in F2. specialize (F2 p' I'). lia. }
    specialize (N y (or_intror (or_introl eq_refl))). lia.
  - assert (I2 : In p' l) by (destruct I' as [-> | I']; [specialize (F p I); lia | exact I']).
    destruct (IH I I2 L) as (l1 & l2 & ->); [intros y Y; apply N; now right|]. exists (x :: l1), l2. reflexivity.
Qed.

(** C124: from one local minimum to the next the base flow follows a straight line of logarithms, from the flow of the first to that of the
    second, or the flow where that is lower; at the minima it is the flow. *)
Theorem C124_between : forall pow10 log10 dis intrvl p p' a b, Inverse pow10 log10 ->
  Complete dis -> Nat.odd intrvl = true -> (3 <= intrvl <= length dis)%nat ->
  (forall x y, Minimum dis (Width intrvl) x -> Flow dis x y -> 0 < y) ->
  Minimum dis (Width intrvl) p -> Minimum dis (Width intrvl) p' -> (p < p')%nat -> (forall x, (p < x < p')%nat -> ~ Minimum dis (Width intrvl) x) ->
  Flow dis p a -> Flow dis p' b ->
  (forall j q, (p <= j <= p')%nat -> Flow dis j q -> exists v, Flow (locmin pow10 log10 dis intrvl) j v /\ v == qmin q (On_line pow10 log10 p p' a b j)) /\
  (exists v, Flow (locmin pow10 log10 dis intrvl) p v /\ v == a) /\ (exists v, Flow (locmin pow10 log10 dis intrvl) p' v /\ v == b).
Proof.
  intros pow10 log10 dis intrvl p p' a b INV C O L POS M M' LT NB Fa Fb.
  assert (ALL : forall j q, (p <= j <= p')%nat -> Flow dis j q -> exists v, Flow (locmin pow10 log10 dis intrvl) j v /\ v == qmin q (On_line pow10 log10 p p' a b j)).
  { intros j q J F. unfold locmin. cbv zeta. replace (length dis <? intrvl)%nat with false by (symmetry; apply Nat.ltb_ge; lia).
    assert (IN : forall x, In x (points dis intrvl) <-> Minimum dis (Width intrvl) x) by (intros x; apply points_minima; [exact O | lia]).
    assert (ST : StronglySorted lt (points dis intrvl)).
    { unfold points. destruct (reach intrvl); [|constructor]. apply filter_sorted. unfold days. apply seq_sorted. }
    destruct (sorted_pair _ p p' ST (proj2 (IN p) M) (proj2 (IN p') M') LT) as (l1 & l2 & E).
    { intros x X B. apply (NB x B). now apply IN. }
    destruct (points dis intrvl) as [|p0 r] eqn:P; [destruct l1; discriminate|].
    match goal with |- context [middle pow10 log10 dis (p0 :: r) ?g] => destruct (middle_line pow10 log10 INV dis (p0 :: r) g ST) as [Y _] end.
    { intros x X. apply (POS x); [now apply IN|]. apply flow_at. apply IN in X. destruct X as (X1 & X2 & _). lia. }
    specialize (Y l1 p p' l2 j E J). rewrite (at_flow dis p a Fa), (at_flow dis p' b Fb) in Y.
    match goal with |- context [map ?f (seq 1 _)] => exists (f j); split; [split; [apply F | apply nth_seq_map; now apply (flow_range dis j q)]|] end. cbv beta.
    rewrite (at_flow dis j q F). unfold qmin.
    match goal with |- context [qlt q ?x] => destruct (qlt q x) eqn:E1 end; destruct (qle q (On_line pow10 log10 p p' a b j)) eqn:E2; qprop; lra. }
  assert (A0 : 0 < a) by (apply (POS p a M Fa)). assert (B0 : 0 < b) by (apply (POS p' b M' Fb)).
  split; [exact ALL|]. split.
  - destruct (ALL p a ltac:(lia) Fa) as (v & V & W). exists v. split; [exact V|]. rewrite W. pose proof (line_first pow10 log10 INV p p' a b LT A0) as X.
    unfold qmin. destruct (qle a _) eqn:E; [reflexivity | exact X].
  - destruct (ALL p' b ltac:(lia) Fb) as (v & V & W). exists v. split; [exact V|]. rewrite W. pose proof (line_last pow10 log10 INV p p' a b LT B0) as X.
    unfold qmin. destruct (qle b _) eqn:E; [reflexivity | exact X].
Qed.
Print Assumptions C124_between.


Lemma sorted_first x l p : StronglySorted lt (x :: l) -> In p (x :: l) -> (forall y, In y (x :: l) -> ~ (y < p)%nat) -> x = p.
Proof.
  intros S0 I N. inversion S0 as [|? ? _ F]. rewrite Forall_forall in F. destruct I as [-> | I]; [reflexivity|]. specialize (F p I). destruct (N x (or_introl eq_refl) F).
Qed.
Lemma last_default (l : list nat) : forall x y, l <> [] -> last l x = last l y.
Proof. induction l as [|z [|w l] IH]; intros x y N; [congruence | reflexivity|]. apply (IH x y). discriminate. Qed.
Lemma last_in (l : list nat) : forall x, In (last l x) (x :: l).
Proof.
  induction l as [|y l IH]; intros x; [now left|]. destruct l as [|z l]; [right; now left|]. right.
  change (In (last (z :: l) x) (y :: z :: l)). rewrite (last_default (z :: l) x y) by discriminate. apply (IH y).
Qed.
Lemma sorted_last l : forall x p, StronglySorted lt (x :: l) -> In p (x :: l) -> (forall y, In y (x :: l) -> ~ (p < y)%nat) -> last l x = p.
Proof.
  intros x p S0 I N. assert (B : forall (m : list nat) z q, StronglySorted lt (z :: m) -> In q (z :: m) -> (q <= last m z)%nat).
  { induction m as [|w m IH]; intros z q T J; [destruct J as [-> | []]; cbn; lia|]. inversion T as [|? ? T' F]. subst.
    assert (X : last (w :: m) z = last m w) by (destruct m as [|v m]; [reflexivity | change (last (v :: m) z = last (v :: m) w); apply last_default; discriminate]).
    rewrite X. destruct J as [-> | J]; [|now apply IH]. rewrite Forall_forall in F. specialize (F w (or_introl eq_refl)). specialize (IH w w T' (or_introl eq_refl)). lia. }
  specialize (B l x p S0 I). specialize (N _ (last_in l x)). lia.
Qed.
Lemma fill_in g l x j : In j l -> fill g l x j = x.
Proof. intros I. unfold fill. assert (E : existsb (Nat.eqb j) l = true) by (apply existsb_exists; exists j; split; [exact I | apply Nat.eqb_refl]). now rewrite E. Qed.
Lemma fill_out g l x j : ~ In j l -> fill g l x j = g j.
Proof.
  intros I. unfold fill. destruct (existsb (Nat.eqb j) l) eqn:E; [|reflexivity]. apply existsb_exists in E. destruct E as (y & Y & E).
  apply Nat.eqb_eq in E. subst. contradiction.
Qed.

(** C124: before the first local minimum and after the last the base flow is the flow of that minimum, or the flow where that is lower. *)
Theorem C124_ends : forall pow10 log10 dis intrvl p a, Inverse pow10 log10 ->
  Complete dis -> Nat.odd intrvl = true -> (3 <= intrvl <= length dis)%nat ->
  (forall x y, Minimum dis (Width intrvl) x -> Flow dis x y -> 0 < y) ->
  Minimum dis (Width intrvl) p -> Flow dis p a ->
  ((forall x, (x < p)%nat -> ~ Minimum dis (Width intrvl) x) -> forall j q, (j < p)%nat -> Flow dis j q ->
     exists v, Flow (locmin pow10 log10 dis intrvl) j v /\ v == qmin q a) /\
  ((forall x, (p < x)%nat -> ~ Minimum dis (Width intrvl) x) -> forall j q, (p < j)%nat -> Flow dis j q ->
     exists v, Flow (locmin pow10 log10 dis intrvl) j v /\ v == qmin q a).
Proof.
  intros pow10 log10 dis intrvl p a INV C O L POS M Fa.
  assert (IN : forall x, In x (points dis intrvl) <-> Minimum dis (Width intrvl) x) by (intros x; apply points_minima; [exact O | lia]).
  assert (ST : StronglySorted lt (points dis intrvl)).
  { unfold points. destruct (reach intrvl); [|constructor]. apply filter_sorted. unfold days. apply seq_sorted. }
  unfold locmin. cbv zeta. replace (length dis <? intrvl)%nat with false by (symmetry; apply Nat.ltb_ge; lia).
  destruct (points dis intrvl) as [|p0 r] eqn:P; [destruct (proj2 (IN p) M)|].
  match goal with |- context [middle pow10 log10 dis (p0 :: r) ?g] => destruct (middle_line pow10 log10 INV dis (p0 :: r) g ST) as [_ Y] end.
  { intros x X. apply (POS x); [now apply IN|]. apply flow_at. apply IN in X. destruct X as (X1 & X2 & _). lia. }
  assert (MIN : forall (q x y : Q), x == y -> (if qlt q x then q else x) == qmin q y).
  { intros q x y E. unfold qmin. destruct (qlt q x) eqn:E1; destruct (qle q y) eqn:E2; qprop; lra. }
  split; intros N j q J F.
  - assert (E : p0 = p) by (apply (sorted_first p0 r p ST (proj2 (IN p) M)); intros y Y1 Y2; apply (N y Y2); now apply IN). subst p0.
    assert (LST : (p <= last r p)%nat).
    { destruct (last_in r p) as [<- | I]; [lia|]. inversion ST as [|? ? _ T]. rewrite Forall_forall in T. specialize (T _ I). lia. }
    specialize (Y j). rewrite fill_out, fill_in in Y.
    + match goal with |- context [map ?f (seq 1 _)] => exists (f j); split; [split; [apply F | apply nth_seq_map; now apply (flow_range dis j q)]|] end. cbv beta.
      rewrite (at_flow dis j q F). apply MIN. rewrite Y; [rewrite (at_flow dis p a Fa); reflexivity|]. left. intros x X.
      apply IN in X. destruct (le_lt_dec x j); [|assumption]. exfalso. apply (N x); [lia | exact X].
    + apply in_days. destruct F as [F _]. lia.
    + intros X. apply in_days in X. lia.
  - assert (E : last r p0 = p) by (apply (sorted_last r p0 p ST (proj2 (IN p) M)); intros y Y1 Y2; apply (N y Y2); now apply IN). rewrite E in *.
    specialize (Y j). rewrite fill_in in Y.
    + match goal with |- context [map ?f (seq 1 _)] => exists (f j); split; [split; [apply F | apply nth_seq_map; now apply (flow_range dis j q)]|] end. cbv beta.
      rewrite (at_flow dis j q F). apply MIN. rewrite Y; [rewrite (at_flow dis p a Fa); reflexivity|]. right. intros x X.
      apply IN in X. destruct (le_lt_dec j x); [|assumption]. exfalso. apply (N x); [lia | exact X].
    + apply in_days. apply flow_range in F. lia.
Qed.
Print Assumptions C124_ends.

Example C124_between_example : Inverse (fun x => x) (fun x => x) /\ Complete storm /\
  Minimum storm (Width 3) 3 /\ Minimum storm (Width 3) 10 /\ (forall x, (3 < x < 10)%nat -> ~ Minimum storm (Width 3) x) /\
  (forall x y, Minimum storm (Width 3) x -> Flow storm x y -> 0 < y) /\
  map Qred (firstn 8 (skipn 2 (locmin (fun x => x) (fun x => x) storm 3))) = [3; 22 # 7; 23 # 7; 24 # 7; 25 # 7; 26 # 7; 27 # 7; 4].
Proof.
  assert (PS : forall x, In x [3; 10]%nat <-> Minimum storm (Width 3) x).
  { intros x. change [3; 10]%nat with (points storm 3). apply points_minima; [reflexivity | lia]. }
  assert (INV : Inverse (fun x => x) (fun x => x)) by (split; [intros x y E; exact E | split; [intros x y E; exact E | reflexivity]]).
  split; [exact INV|]. split; [repeat constructor; discriminate|]. split; [apply PS; now left|]. split; [apply PS; right; now left|].
  split; [intros x X M; apply PS in M; destruct M as [<- | [<- | []]]; lia|]. split; [|reflexivity].
  intros x y M (_ & F). apply PS in M. destruct M as [<- | [<- | []]]; injection F as <-; reflexivity.
Qed.
