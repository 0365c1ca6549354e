(** C124: separation of base flow in TSPROC. *)
From Coq Require Import List ZArith QArith Bool Arith Lia Lqa.
From Verif Require Import Qx Hysep_Model Hysep_Spec.
Import ListNotations.
Local Open Scope Q_scope.

Lemma day_flow dis i q : day dis i = Some q <-> Flow dis i q.
Proof.
  unfold Flow. destruct i as [|k]; cbn [day]; [split; [discriminate | lia]|]. replace (S k - 1)%nat with k by lia. split; [intros H; split; [lia | exact H] | intros [_ H]; exact H].
Qed.
Lemma day_in dis i : (1 <= i <= length dis)%nat -> exists q, day dis i = Some q.
Proof.
  intros H. destruct i as [|k]; [lia|]. cbn [day]. destruct (nth_error dis k) as [q|] eqn:E; [eauto|]. apply nth_error_None in E. lia.
Qed.
Lemma day_range dis i q : day dis i = Some q -> (1 <= i <= length dis)%nat.
Proof. destruct i as [|k]; cbn [day]; [discriminate|]. intros H. assert (k < length dis)%nat by (apply nth_error_Some; congruence). lia. Qed.
Lemma in_days a b j : In j (days a b) <-> (a <= j <= b)%nat.
Proof. unfold days. rewrite in_seq. lia. Qed.

Lemma lowest_some dis l : forall p, (forall j, In j l -> (1 <= j <= length dis)%nat) -> exists v, lowest dis l p = Some v.
Proof.
  induction l as [|j l IH]; intros p H; [cbn; eauto|]. cbn [lowest]. destruct (day_in dis j) as [q ->]; [apply H; now left|].
  apply IH. intros; apply H; now right.
Qed.
Lemma lowest_is dis l : forall p v, lowest dis l p = Some v ->
  v <= p /\ (forall j q, In j l -> day dis j = Some q -> v <= q) /\ (v = p \/ exists j, In j l /\ day dis j = Some v).
Proof.
  induction l as [|j l IH]; intros p v H; cbn [lowest] in H.
  - injection H as <-. split; [lra|]. split; [intros ? ? []| now left].
  - destruct (day dis j) as [q|] eqn:D; [|discriminate]. destruct (IH _ _ H) as (A & B & C).
    destruct (qlt q p) eqn:E; qprop.
    + split; [lra|]. split.
      * intros j' q' [<- | I] D'; [rewrite D in D'; injection D' as <-; lra | now apply (B j')].
      * right. destruct C as [-> | (j' & I & D')]; [exists j; split; [now left | exact D] | exists j'; split; [now right | exact D']].
    + split; [lra|]. split.
      * intros j' q' [<- | I] D'; [rewrite D in D'; injection D' as <-; lra | now apply (B j')].
      * destruct C as [-> | (j' & I & D')]; [now left | right; exists j'; split; [now right | exact D']].
Qed.
Lemma lowest_spec dis a b v (P : nat -> Prop) : lowest dis (days a b) cap = Some v ->
  (forall j, (1 <= j <= length dis)%nat -> (P j <-> (a <= j <= b)%nat)) -> Lowest dis P v.
Proof.
  intros H E. destruct (lowest_is dis _ _ _ H) as (A & B & C). split; [exact A|]. split.
  - intros j q Pj F. apply day_flow in F. apply (B j); [|exact F]. apply in_days, E; [now apply (day_range dis j q) | exact Pj].
  - destruct C as [-> | (j & I & D)]; [now left|]. right. exists j. split; [|now apply day_flow]. apply E; [now apply (day_range dis j v) | now apply in_days].
Qed.

Lemma gather_map {A B} (f : A -> option B) l : (forall x, In x l -> exists y, f x = Some y) ->
  exists s, gather (map f l) = Some s /\ length s = length l /\ forall k x, nth_error l k = Some x -> exists y, f x = Some y /\ nth_error s k = Some y.
Proof.
  induction l as [|x l IH]; intros H; [exists []; split; [reflexivity|]; split; [reflexivity|]; intros [|k] x E; discriminate|].
  destruct (H x (or_introl eq_refl)) as [y Y]. destruct IH as (s & G & L & N); [intros; apply H; now right|].
  exists (y :: s). cbn [map gather length]. rewrite Y, G. split; [reflexivity|]. split; [now rewrite L|].
  intros [|k] z E; cbn [nth_error] in *; [injection E as <-; eauto | now apply N].
Qed.
Lemma gather_none {A B} (f : A -> option B) l x : In x l -> f x = None -> gather (map f l) = None.
Proof.
  induction l as [|y l IH]; [intros []|]. intros [-> | I] E; cbn [map gather]; [now rewrite E|].
  destruct (f y); [rewrite (IH I E)|]; reflexivity.
Qed.
Lemma nth_numbered (dis : list Q) : forall s k q, nth_error dis k = Some q -> nth_error (combine (seq s (length dis)) dis) k = Some ((s + k)%nat, q).
Proof.
  induction dis as [|x dis IH]; intros s k q E; [destruct k; discriminate|]. cbn [length seq combine]. destruct k as [|k]; cbn [nth_error] in *.
  - injection E as <-. now rewrite Nat.add_0_r.
  - rewrite (IH (S s) k q E). f_equal. f_equal. lia.
Qed.
Lemma in_numbered (dis : list Q) : forall s i q, In (i, q) (combine (seq s (length dis)) dis) -> (s <= i < s + length dis)%nat /\ nth_error dis (i - s) = Some q.
Proof.
  induction dis as [|x dis IH]; intros s i q H; [destruct H|]. cbn [length seq combine] in H. destruct H as [E | H].
  - injection E as <- <-. cbn [length]. rewrite Nat.sub_diag. split; [lia | reflexivity].
  - destruct (IH _ _ _ H) as [A B]. cbn [length]. split; [lia|]. replace (i - s)%nat with (S (i - S s)) by lia. exact B.
Qed.

(** Values of days given a rule for each day that never fails. *)
Lemma by_day dis (f : nat -> Q -> option Q) : (forall i q, Flow dis i q -> exists v, f i q = Some v) ->
  exists s, gather (map (fun p => f (fst p) (snd p)) (combine (seq 1 (length dis)) dis)) = Some s /\ length s = length dis /\
    forall i q, Flow dis i q -> exists v, f i q = Some v /\ Flow s i v.
Proof.
  intros H. destruct (gather_map (fun p => f (fst p) (snd p)) (combine (seq 1 (length dis)) dis)) as (s & G & L & N).
  - intros [i q] I. apply in_numbered in I. destruct I as [A B]. cbn [fst snd]. apply H. split; [lia | exact B].
  - exists s. split; [exact G|]. split; [rewrite L, combine_length, seq_length; lia|].
    intros i q [I F]. destruct (N (i - 1)%nat (i, q)) as (v & V & W).
    + rewrite (nth_numbered dis 1 (i - 1) q F). f_equal. f_equal. lia.
    + exists v. split; [exact V | split; [exact I | exact W]].
Qed.

Lemma leading_missing dis : forall i q, Flow dis i q -> (i <= leading dis)%nat -> q < 0.
Proof.
  induction dis as [|x dis IH]; intros i q [I F] L; [destruct (i - 1)%nat; discriminate|]. cbn [leading] in L.
  destruct (missing x) eqn:M; [|lia]. unfold missing in M. qprop. destruct i as [|[|i]]; [lia | |].
  - cbn in F. injection F as <-. exact M.
  - apply (IH (S i)); [|lia]. split; [lia|]. cbn in F. cbn. rewrite Nat.sub_0_r. exact F.
Qed.
Lemma leading_length dis : (leading dis <= length dis)%nat.
Proof. induction dis as [|x dis IH]; cbn; [lia|]. destruct (missing x); lia. Qed.

(** C124: sliding interval.  When the record after its first missing days has at least as many days as the interval, less one, the base
    flow of each day with a flow is the lowest flow of the days within half the interval of it; a missing day stays missing. *)
Theorem C124_sliding : forall dis intrvl, let half := Nat.div (intrvl - 1) 2 in let first := leading dis in
  (2 * half <= length dis - first)%nat ->
  exists base, slide dis intrvl = Some base /\ length base = length dis /\
    forall i q, Flow dis i q -> exists v, Flow base i v /\
      (q < 0 -> v = q) /\
      (0 <= q -> Lowest dis (fun j => (first < j /\ i <= j + half /\ j <= i + half)%nat) v).
Proof.
  intros dis intrvl half first H.
  destruct (by_day dis (slide_day dis intrvl)) as (s & G & L & N).
  - intros i q F. unfold slide_day. fold half first. pose proof (day_range dis i q (proj2 (day_flow dis i q) F)) as R.
    destruct (missing q) eqn:M; [eauto|]. assert (first < i)%nat.
    { destruct (le_lt_dec i first) as [X | X]; [|exact X]. pose proof (leading_missing dis i q F X). unfold missing in M. qprop. lra. }
    destruct (i - first <=? half)%nat eqn:E1; [apply Nat.leb_le in E1|apply Nat.leb_gt in E1].
    + apply lowest_some. intros j J. apply in_days in J. lia.
    + destruct (length dis - i <=? half)%nat eqn:E2; [apply Nat.leb_le in E2 | apply Nat.leb_gt in E2]; apply lowest_some; intros j J; apply in_days in J; lia.
  - exists s. split; [exact G|]. split; [exact L|]. intros i q F. destruct (N i q F) as (v & V & W). exists v. split; [exact W|].
    unfold slide_day in V. fold half first in V. pose proof (day_range dis i q (proj2 (day_flow dis i q) F)) as R.
    split; intros Q0.
    + assert (M : missing q = true) by (unfold missing; now apply qlt_true). rewrite M in V. congruence.
    + assert (M : missing q = false) by (unfold missing; now apply qlt_false). rewrite M in V. assert (first < i)%nat.
      { destruct (le_lt_dec i first) as [X | X]; [|exact X]. pose proof (leading_missing dis i q F X). lra. }
      destruct (i - first <=? half)%nat eqn:E1; [apply Nat.leb_le in E1|apply Nat.leb_gt in E1].
      * apply (lowest_spec dis _ _ _ _ V). intros j J. lia.
      * destruct (length dis - i <=? half)%nat eqn:E2; [apply Nat.leb_le in E2 | apply Nat.leb_gt in E2]; apply (lowest_spec dis _ _ _ _ V); intros j J; lia.
Qed.
Print Assumptions C124_sliding.

Lemma complete_in dis x : Complete dis -> In x dis -> 0 <= x.
Proof. unfold Complete. rewrite Forall_forall. auto. Qed.

(** C124: by sliding intervals the base flow of a record without missing values is neither negative nor above the flow. *)
Theorem C124_sliding_within : forall dis intrvl, Complete dis -> (intrvl <= length dis)%nat ->
  exists base, slide dis intrvl = Some base /\ forall i q, Flow dis i q -> exists v, Flow base i v /\ 0 <= v <= q.
Proof.
  intros dis intrvl C L.
  assert (Z0 : leading dis = O) by (destruct C as [|x l X _]; [reflexivity|]; cbn; unfold missing; now rewrite qlt_false).
  assert (H2 : (2 * Nat.div (intrvl - 1) 2 <= intrvl - 1)%nat) by (apply Nat.mul_div_le; lia).
  destruct (C124_sliding dis intrvl) as (base & S0 & _ & F); [rewrite Z0; lia|]. exists base. split; [exact S0|].
  intros i q Fl. destruct (F i q Fl) as (v & V & _ & W).
  assert (Q0 : 0 <= q) by (destruct Fl as [_ N]; apply nth_error_In in N; now apply (complete_in dis _ C)).
  exists v. split; [exact V|]. destruct (W Q0) as (_ & A & B). split.
  - destruct B as [-> | (j & _ & [_ N])]; [lra|]. apply nth_error_In in N. now apply (complete_in dis _ C).
  - apply (A i q); [|exact Fl]. destruct Fl as [I _]. rewrite Z0. lia.
Qed.
Print Assumptions C124_sliding_within.

(** C124 finding: one missing day makes the base flow of every day within half the interval negative, although these days have flows. *)
Theorem C124_missing_refuted : forall dis intrvl base i j q x, let half := Nat.div (intrvl - 1) 2 in
  (2 * half <= length dis - leading dis)%nat -> slide dis intrvl = Some base ->
  Flow dis i q -> 0 <= q -> Flow dis j x -> x < 0 -> (leading dis < j)%nat -> (i <= j + half)%nat -> (j <= i + half)%nat ->
  exists v, Flow base i v /\ v < 0.
Proof.
  intros dis intrvl base i j q x half H S0 Fi Q0 Fj X L A B. destruct (C124_sliding dis intrvl H) as (base' & S1 & _ & F).
  rewrite S0 in S1. injection S1 as <-. destruct (F i q Fi) as (v & V & _ & W). exists v. split; [exact V|].
  destruct (W Q0) as (_ & Lo & _). assert (v <= x) by (apply (Lo j); [unfold half in *; lia | exact Fj]). lra.
Qed.
Print Assumptions C124_missing_refuted.

Lemma lowest_none dis l : forall p j, In j l -> day dis j = None -> lowest dis l p = None.
Proof.
  induction l as [|y l IH]; [intros ? ? []|]. intros p j [-> | I] E; cbn [lowest]; [now rewrite E|].
  destruct (day dis y); [now apply (IH _ j) | reflexivity].
Qed.
(** C124 finding: when the record after its first missing days is not longer than half the interval, the sliding interval reads beyond
    the end of the record. *)
Theorem C124_short_refuted : forall dis intrvl q, let half := Nat.div (intrvl - 1) 2 in
  (1 <= half)%nat -> (length dis - leading dis <= half)%nat -> Flow dis (length dis) q -> 0 <= q -> slide dis intrvl = None.
Proof.
  intros dis intrvl q half H L [I F] Q0. unfold slide. apply (gather_none (fun p => slide_day dis intrvl (fst p) (snd p)) _ (length dis, q)).
  - apply (nth_error_In _ (length dis - 1)). rewrite (nth_numbered dis 1 (length dis - 1) q F). f_equal. f_equal. lia.
  - cbn [fst snd]. unfold slide_day. fold half. unfold missing. rewrite qlt_false by exact Q0.
    replace (length dis - leading dis <=? half)%nat with true by (symmetry; now apply Nat.leb_le).
    apply (lowest_none dis _ cap (S (length dis))).
    + apply in_days. pose proof (leading_length dis). lia.
    + cbn [day]. apply nth_error_None. lia.
Qed.
Print Assumptions C124_short_refuted.

Lemma fixed_total dis intrvl fx : (1 <= intrvl)%nat -> (fx <= length dis)%nat ->
  forall i q, Flow dis i q -> exists v, fixed_day dis intrvl fx i q = Some v.
Proof.
  intros I0 L i q [I F]. unfold fixed_day.
  destruct (i <=? Nat.div fx intrvl * intrvl)%nat eqn:E1.
  - apply Nat.leb_le in E1. apply lowest_some. intros j J. apply in_days in J.
    assert (K : (Nat.div (i - 1) intrvl < Nat.div fx intrvl)%nat) by (apply Nat.div_lt_upper_bound; lia).
    assert (M : (Nat.div fx intrvl * intrvl <= fx)%nat) by (rewrite Nat.mul_comm; apply Nat.mul_div_le; lia). nia.
  - destruct (i <=? fx)%nat eqn:E2; [|eauto]. apply lowest_some. intros j J. apply in_days in J. lia.
Qed.
Lemma no_missing dis : Complete dis -> forall l, incl l dis -> filter missing l = [].
Proof.
  intros C l. induction l as [|x l IH]; [reflexivity|]. intros S0. cbn [filter]. unfold missing at 1. rewrite qlt_false.
  - apply IH. intros y Y. apply S0. now right.
  - apply (complete_in dis _ C), S0. now left.
Qed.
Lemma skipn_incl {A} n (l : list A) : incl (skipn n l) l.
Proof. intros x X. rewrite <- (firstn_skipn n l). apply in_or_app. now right. Qed.

(** C124: fixed intervals.  Of a record of eleven days or more without missing values, cut into intervals from the first day on, the base
    flow of each day is the lowest flow of its interval; days left over are an interval of their own. *)
Theorem C124_fixed : forall dis intrvl, Complete dis -> (11 <= length dis)%nat -> (1 <= intrvl <= length dis)%nat ->
  exists base, fixed dis intrvl = Some base /\ length base = length dis /\
    forall i q, Flow dis i q -> exists v, Flow base i v /\ 0 <= v <= q /\
      Lowest dis (fun j => Nat.div (j - 1) intrvl = Nat.div (i - 1) intrvl) v.
Proof.
  intros dis intrvl C N I0.
  assert (FX : fxdays dis = Some (length dis)).
  { unfold fxdays. replace (length dis <? 11)%nat with false by (symmetry; apply Nat.ltb_ge; lia).
    rewrite (no_missing dis C) by apply skipn_incl. cbn [length]. now rewrite Nat.sub_0_r. }
  destruct (by_day dis (fixed_day dis intrvl (length dis))) as (s & G & L & F); [apply fixed_total; lia|].
  exists s. split; [|split; [exact L|]].
  - unfold fixed. destruct dis as [|x d] eqn:ED; [cbn in N; lia|]. rewrite <- ED in *.
    replace (missing x) with false by (symmetry; unfold missing; apply qlt_false; apply (complete_in dis _ C); rewrite ED; now left).
    rewrite FX. replace (length dis / intrvl <? 1)%nat with false; [exact G|].
    symmetry. apply Nat.ltb_ge. apply Nat.div_le_lower_bound; lia.
  - intros i q Fl. destruct (F i q Fl) as (v & V & W). exists v. split; [exact W|].
    pose proof (day_range dis i q (proj2 (day_flow dis i q) Fl)) as R. unfold fixed_day in V.
    pose proof (Nat.div_mod (length dis) intrvl ltac:(lia)) as DM. pose proof (Nat.mod_upper_bound (length dis) intrvl ltac:(lia)) as MB.
    assert (LO : Lowest dis (fun j => Nat.div (j - 1) intrvl = Nat.div (i - 1) intrvl) v).
    { pose proof (Nat.div_mod (i - 1) intrvl ltac:(lia)) as DI. pose proof (Nat.mod_upper_bound (i - 1) intrvl ltac:(lia)) as BI.
      destruct (i <=? length dis / intrvl * intrvl)%nat eqn:E1.
      - apply (lowest_spec dis _ _ _ _ V). intros j J.
        pose proof (Nat.div_mod (j - 1) intrvl ltac:(lia)) as DJ. pose proof (Nat.mod_upper_bound (j - 1) intrvl ltac:(lia)) as BJ.
        split; [intros E; rewrite E in DJ; nia | intros [A B]].
        symmetry. apply (Nat.div_unique (j - 1) intrvl _ (j - 1 - (i - 1) / intrvl * intrvl)); nia.
      - apply Nat.leb_gt in E1. replace (i <=? length dis)%nat with true in V by (symmetry; apply Nat.leb_le; lia).
        assert (EQ : Nat.div (i - 1) intrvl = Nat.div (length dis) intrvl) by (symmetry; apply (Nat.div_unique (i - 1) intrvl _ (i - 1 - length dis / intrvl * intrvl)); nia).
        apply (lowest_spec dis _ _ _ _ V). intros j J. rewrite EQ.
        pose proof (Nat.div_mod (j - 1) intrvl ltac:(lia)) as DJ. pose proof (Nat.mod_upper_bound (j - 1) intrvl ltac:(lia)) as BJ.
        split; [intros E; rewrite E in DJ; nia | intros [A B]].
        symmetry. apply (Nat.div_unique (j - 1) intrvl _ (j - 1 - length dis / intrvl * intrvl)); nia. }
    split; [|exact LO]. destruct LO as (_ & A & B). split; [|now apply (A i)].
    destruct B as [-> | (j & _ & [_ Nj])]; [lra|]. apply nth_error_In in Nj. now apply (complete_in dis _ C).
Qed.
Print Assumptions C124_fixed.

(** C124 finding: by fixed intervals, a record that begins with a missing day is written to a constant of the program, one of less than
    eleven days is read before its beginning, and one of less than one interval uses a variable without a value. *)
Theorem C124_fixed_refuted : forall dis intrvl,
  (exists q, Flow dis 1 q /\ q < 0) \/ (length dis < 11)%nat \/ (Complete dis /\ (1 <= intrvl)%nat /\ (length dis < intrvl)%nat) -> fixed dis intrvl = None.
Proof.
  intros dis intrvl H. unfold fixed. destruct dis as [|x d] eqn:ED; [reflexivity|]. rewrite <- ED in *.
  destruct (missing x) eqn:M; [reflexivity|]. unfold missing in M.
  destruct H as [(q & [_ F] & Q0) | [L | (C & I0 & L)]].
  - rewrite ED in F. cbn in F. injection F as <-. exfalso. qprop. lra.
  - unfold fxdays. now replace (length dis <? 11)%nat with true by (symmetry; now apply Nat.ltb_lt).
  - unfold fxdays. destruct (length dis <? 11)%nat; [reflexivity|]. rewrite (no_missing dis C) by apply skipn_incl. cbn [length]. rewrite Nat.sub_0_r.
    rewrite Nat.div_small by exact L. reflexivity.
Qed.
Print Assumptions C124_fixed_refuted.

(** C124 finding: by fixed intervals, a missing day among the last eleven makes the base flow of the last day zero, whatever its flow. *)
Theorem C124_tail_refuted : forall dis intrvl q q1, Flow dis 1 q1 -> 0 <= q1 -> (1 <= intrvl)%nat -> (intrvl + 11 <= length dis)%nat ->
  Flow dis (length dis) q -> 0 <= q -> (exists j x, Flow dis j x /\ x < 0 /\ (length dis < j + 11)%nat) ->
  exists base, fixed dis intrvl = Some base /\ Flow base (length dis) 0.
Proof.
  intros dis intrvl q q1 [_ F1] Q1 I0 N Fq Q0 (j & x & [J Fx] & X & JL).
  set (k := length (filter missing (skipn (length dis - 11) dis))).
  assert (K1 : (k <= 11)%nat).
  { unfold k. etransitivity; [|apply Nat.eq_le_incl; transitivity (length (skipn (length dis - 11) dis)); [reflexivity | rewrite skipn_length; lia]].
    generalize (skipn (length dis - 11) dis). induction l as [|y l IH]; [reflexivity|]. cbn [filter length]. destruct (missing y); cbn [length]; lia. }
  assert (K0 : (1 <= k)%nat).
  { assert (IN : In x (skipn (length dis - 11) dis)).
    { assert (JJ : (j - 1 < length dis)%nat) by (apply nth_error_Some; congruence).
      rewrite <- (firstn_skipn (length dis - 11) dis) in Fx. rewrite nth_error_app2 in Fx by (rewrite firstn_length; lia). now apply nth_error_In in Fx. }
    assert (IF : In x (filter missing (skipn (length dis - 11) dis))) by (apply filter_In; split; [exact IN | unfold missing; now apply qlt_true]).
    unfold k. destruct (filter missing (skipn (length dis - 11) dis)); [destruct IF | cbn; lia]. }
  assert (KD : length (filter missing (skipn (length dis - 11) dis)) = k) by reflexivity. clearbody k.
  destruct (by_day dis (fixed_day dis intrvl (length dis - k))) as (s & G & L & F); [apply fixed_total; lia|].
  exists s. split.
  - unfold fixed. destruct dis as [|y d] eqn:ED; [cbn in N; lia|]. rewrite <- ED in *. rewrite ED in F1. cbn in F1. injection F1 as ->.
    unfold missing at 1. rewrite qlt_false by exact Q1. unfold fxdays. replace (length dis <? 11)%nat with false by (symmetry; apply Nat.ltb_ge; lia). rewrite KD.
    replace ((length dis - k) / intrvl <? 1)%nat with false; [exact G|]. symmetry. apply Nat.ltb_ge. apply Nat.div_le_lower_bound; lia.
  - destruct (F _ _ Fq) as (v & V & W). unfold fixed_day in V.
    assert (M : ((length dis - k) / intrvl * intrvl <= length dis - k)%nat) by (rewrite Nat.mul_comm; apply Nat.mul_div_le; lia).
    replace (length dis <=? (length dis - k) / intrvl * intrvl)%nat with false in V by (symmetry; apply Nat.leb_gt; lia).
    replace (length dis <=? length dis - k)%nat with false in V by (symmetry; apply Nat.leb_gt; lia).
    unfold missing in V. rewrite qlt_false in V by exact Q0. injection V as <-. exact W.
Qed.
Print Assumptions C124_tail_refuted.

(** C124: the interval is odd, from 3 to 11 days, and grows with the area; it is the odd number next above twice the fifth root, less one. *)
Theorem C124_interval : forall r, let n := interval r in
  Nat.odd n = true /\ (3 <= n <= 11)%nat /\ (forall r', r <= r' -> (n <= interval r')%nat) /\
  (1 < r <= 5 -> 2 * r <= inject_Z (Z.of_nat n) + 1 /\ (2 < r -> inject_Z (Z.of_nat n) - 1 < 2 * r)).
Proof.
  intros r n. unfold n, interval. cbv zeta.
  destruct (qle (2 * r) 4) eqn:A; [|destruct (qle (2 * r) 6) eqn:B; [|destruct (qle (2 * r) 8) eqn:C; [|destruct (qle (2 * r) 10) eqn:D]]]; qprop;
    (split; [reflexivity|]; split; [lia|]; split; [intros r' R; repeat match goal with |- context [if ?b then _ else _] => destruct b eqn:? end; qprop; try lia; exfalso; lra|]);
    cbn [Z.of_nat inject_Z]; intros; repeat split; intros; change (inject_Z 3) with 3 || idtac; unfold inject_Z; cbn; lra.
Qed.
Print Assumptions C124_interval.

Lemma nth_seq_map (f : nat -> Q) n i : (1 <= i <= n)%nat -> nth_error (map f (seq 1 n)) (i - 1) = Some (f i).
Proof.
  intros H. rewrite nth_error_map. assert (E : nth_error (seq 1 n) (i - 1) = Some i).
  { rewrite (nth_error_nth' _ 0%nat) by (rewrite seq_length; lia). rewrite seq_nth by lia. f_equal. lia. }
  now rewrite E.
Qed.
Lemma at_flow dis i q : Flow dis i q -> at_ dis i = q.
Proof. intros [I F]. unfold at_. now apply nth_error_nth. Qed.
Lemma flow_range dis i q : Flow dis i q -> (1 <= i <= length dis)%nat.
Proof. intros F. apply (day_range dis i q). now apply day_flow. Qed.

(** C124: by local minima the base flow is never above the flow, for any record without missing values and whatever the powers. *)
Theorem C124_local : forall pow10 log10 dis intrvl, Complete dis ->
  length (locmin pow10 log10 dis intrvl) = length dis /\
  forall i q, Flow dis i q -> exists v, Flow (locmin pow10 log10 dis intrvl) i v /\ v <= q.
Proof.
  intros pow10 log10 dis intrvl _. unfold locmin. cbv zeta. split; [now rewrite map_length, seq_length|].
  intros i q F. match goal with |- context [map ?f (seq 1 _)] => exists (f i); split; [split; [apply F | apply nth_seq_map; now apply (flow_range dis i q)]|] end.
  cbv beta. rewrite (at_flow dis i q F). destruct (qlt q _) eqn:E; qprop; lra.
Qed.
Print Assumptions C124_local.

(** A day is a local minimum if no day within [h] of it has a lower flow, and these days all lie in the record. *)
Definition Minimum (dis : list Q) (h p : nat) : Prop :=
  (1 + h <= p)%nat /\ (p + h <= length dis)%nat /\ forall j x y, Flow dis j x -> Flow dis p y -> (p <= j + h)%nat -> (j <= p + h)%nat -> y <= x.
Definition Width (intrvl : nat) : nat := if (11 <=? intrvl)%nat then 5 else Nat.div (intrvl - 1) 2.
Lemma flow_at dis i : (1 <= i <= length dis)%nat -> Flow dis i (at_ dis i).
Proof. intros H. split; [lia|]. unfold at_. apply nth_error_nth'. lia. Qed.
Lemma low_minimum dis h p : (1 + h <= p)%nat -> (p + h <= length dis)%nat -> (is_low dis h p = true <-> Minimum dis h p).
Proof.
  intros A B. unfold is_low. rewrite forallb_forall. split.
  - intros H. split; [exact A|]. split; [exact B|]. intros j x y Fj Fp L1 L2.
    rewrite <- (at_flow dis j x Fj), <- (at_flow dis p y Fp). destruct (Nat.lt_trichotomy j p) as [C | [-> | C]]; [| lra |].
    + specialize (H (p - j)%nat). rewrite in_seq in H. specialize (H ltac:(lia)). apply andb_true_iff in H. destruct H as [_ H]. qprop.
      replace (p - (p - j))%nat with j in H by lia. exact H.
    + specialize (H (j - p)%nat). rewrite in_seq in H. specialize (H ltac:(lia)). apply andb_true_iff in H. destruct H as [H _]. qprop.
      replace (p + (j - p))%nat with j in H by lia. exact H.
  - intros (_ & _ & M) s I. rewrite in_seq in I. apply andb_true_iff. split; apply qle_true; (eapply M; [apply flow_at; lia | apply flow_at; lia | lia | lia]).
Qed.
Lemma reach_width intrvl : Nat.odd intrvl = true -> (3 <= intrvl)%nat -> reach intrvl = Some (Width intrvl).
Proof.
  intros O L. unfold Width. do 11 (destruct intrvl as [|intrvl]; [try discriminate; try lia; reflexivity|]). reflexivity.
Qed.
Lemma points_minima dis intrvl p : Nat.odd intrvl = true -> (3 <= intrvl)%nat -> (In p (points dis intrvl) <-> Minimum dis (Width intrvl) p).
Proof.
  intros O L. unfold points. rewrite reach_width by assumption. set (h := Width intrvl). rewrite filter_In, in_days. split.
  - intros [R I]. assert (B : (p + h <= length dis)%nat) by lia. apply low_minimum; [lia | exact B | exact I].
  - intros M. pose proof M as (A & B & _). split; [lia|]. now apply low_minimum.
Qed.

(** C124 finding: without a local minimum the base flow of every day is -999. *)
Theorem C124_no_minimum_refuted : forall pow10 log10 dis intrvl i q, Complete dis -> Nat.odd intrvl = true -> (3 <= intrvl <= length dis)%nat ->
  (forall p, ~ Minimum dis (Width intrvl) p) -> Flow dis i q -> Flow (locmin pow10 log10 dis intrvl) i (-999 # 1).
Proof.
  intros pow10 log10 dis intrvl i q C O L NM F. unfold locmin. cbv zeta. replace (length dis <? intrvl)%nat with false by (symmetry; apply Nat.ltb_ge; lia).
  destruct (points dis intrvl) as [|p r] eqn:P.
  - split; [apply F|]. rewrite nth_seq_map by now apply (flow_range dis i q). unfold fill.
    assert (X : existsb (Nat.eqb i) (days 1 (length dis)) = true).
    { apply existsb_exists. exists i. split; [apply in_days; now apply (flow_range dis i q) | apply Nat.eqb_refl]. }
    rewrite X. rewrite (at_flow dis i q F). rewrite qlt_false; [reflexivity|].
    assert (0 <= q) by (destruct F as [_ Nq]; apply nth_error_In in Nq; now apply (complete_in dis _ C)). lra.
  - exfalso. apply (NM p). apply (points_minima dis intrvl p O); [lia|]. rewrite P. now left.
Qed.
Print Assumptions C124_no_minimum_refuted.
(** C124 finding: in a record that rises throughout there is no local minimum, and the base flow of every day is -999. *)
Theorem C124_rising_refuted : forall pow10 log10 dis intrvl i q, Complete dis -> Nat.odd intrvl = true -> (3 <= intrvl <= length dis)%nat ->
  (forall j x y, Flow dis j x -> Flow dis (S j) y -> x < y) -> Flow dis i q -> Flow (locmin pow10 log10 dis intrvl) i (-999 # 1).
Proof.
  intros pow10 log10 dis intrvl i q C O L R F. apply (C124_no_minimum_refuted pow10 log10 dis intrvl i q C O L); [|exact F].
  intros p (A & B & M). assert (W : (1 <= Width intrvl)%nat).
  { unfold Width. destruct (11 <=? intrvl)%nat; [lia|]. apply Nat.div_le_lower_bound; lia. }
  assert (F1 : Flow dis (p - 1) (at_ dis (p - 1))) by (apply flow_at; lia). assert (F2 : Flow dis p (at_ dis p)) by (apply flow_at; lia).
  assert (at_ dis (p - 1) < at_ dis p) by (apply (R (p - 1)%nat); [exact F1 | replace (S (p - 1)) with p by lia; exact F2]).
  assert (at_ dis p <= at_ dis (p - 1)) by (apply (M (p - 1)%nat _ _ F1 F2); lia). lra.
Qed.
Print Assumptions C124_rising_refuted.

(** C124: with one local minimum the base flow is the flow of that day, or the flow where that is lower. *)
Theorem C124_one_minimum : forall pow10 log10 dis intrvl p m, Complete dis -> Nat.odd intrvl = true -> (3 <= intrvl <= length dis)%nat ->
  Flow dis p m -> (forall p', Minimum dis (Width intrvl) p' <-> p' = p) ->
  forall i q, Flow dis i q -> exists v, Flow (locmin pow10 log10 dis intrvl) i v /\ v == qmin m q.
Proof.
  intros pow10 log10 dis intrvl p m C O L Fp U i q F. unfold locmin. cbv zeta. replace (length dis <? intrvl)%nat with false by (symmetry; apply Nat.ltb_ge; lia).
  assert (P : points dis intrvl = [p]).
  { assert (IN : forall x, In x (points dis intrvl) <-> x = p) by (intros x; rewrite (points_minima dis intrvl x O) by lia; apply U).
    assert (ND : NoDup (points dis intrvl)).
    { unfold points. destruct (reach intrvl); [|constructor]. apply NoDup_filter. unfold days. apply seq_NoDup. }
    destruct (points dis intrvl) as [|a [|b r]].
    - exfalso. apply (proj2 (IN p) eq_refl).
    - f_equal. apply IN. now left.
    - exfalso. assert (a = p) by (apply IN; now left). assert (b = p) by (apply IN; right; now left). subst. inversion ND as [|? ? N1 _]. apply N1. now left. }
  rewrite P. cbn [last middle]. pose proof (flow_range dis i q F) as R.
  match goal with |- context [map ?f (seq 1 _)] => exists (f i); split; [split; [apply F | now apply nth_seq_map]|] end. cbv beta.
  rewrite (at_flow dis i q F), (at_flow dis p m Fp). unfold fill.
  assert (X : (if existsb (Nat.eqb i) (days p (length dis)) then m else if existsb (Nat.eqb i) (days 1 p) then m else 0) = m).
  { destruct (le_lt_dec p i) as [G | G].
    - replace (existsb (Nat.eqb i) (days p (length dis))) with true; [reflexivity|]. symmetry. apply existsb_exists. exists i. split; [apply in_days; lia | apply Nat.eqb_refl].
    - destruct (existsb (Nat.eqb i) (days p (length dis))); [reflexivity|].
      replace (existsb (Nat.eqb i) (days 1 p)) with true; [reflexivity|]. symmetry. apply existsb_exists. exists i. split; [apply in_days; lia | apply Nat.eqb_refl]. }
  rewrite X. unfold qmin. destruct (qlt q m) eqn:E; destruct (qle m q) eqn:E2; qprop; lra.
Qed.
Print Assumptions C124_one_minimum.

(** C124 finding: a record shorter than the interval has no base flow at all by local minima. *)
Theorem C124_short_local_refuted : forall pow10 log10 dis intrvl i q, Complete dis -> (length dis < intrvl)%nat -> Flow dis i q ->
  Flow (locmin pow10 log10 dis intrvl) i 0.
Proof.
  intros pow10 log10 dis intrvl i q C L F. unfold locmin. cbv zeta. replace (length dis <? intrvl)%nat with true by (symmetry; now apply Nat.ltb_lt).
  split; [apply F|]. rewrite nth_seq_map by now apply (flow_range dis i q). rewrite (at_flow dis i q F). rewrite qlt_false; [reflexivity|].
  destruct F as [_ Nq]. apply nth_error_In in Nq. now apply (complete_in dis _ C).
Qed.
Print Assumptions C124_short_local_refuted.

Definition storm : list Q := [5; 4; 3; 9; 20; 14; 8; 6; 5; 4; 7; 6; 5].
Example C124_sliding_example : slide storm 3 = Some [4; 3; 3; 3; 9; 8; 6; 5; 4; 4; 4; 5; 5].
Proof. reflexivity. Qed.
Example C124_fixed_example : fixed storm 5 = Some [3; 3; 3; 3; 3; 4; 4; 4; 4; 4; 5; 5; 5].
Proof. reflexivity. Qed.
Example C124_local_example : points storm 3 = [3; 10]%nat /\ points storm 7 = [10]%nat /\
  locmin (fun x => x) (fun x => x) storm 7 = [4; 4; 3; 4; 4; 4; 4; 4; 4; 4; 4; 4; 4].
Proof. repeat split; reflexivity. Qed.
Example C124_missing_example : slide [5; -1; 4; 3; 6] 3 = Some [-1; -1; -1; 3; 3].
Proof. reflexivity. Qed.
