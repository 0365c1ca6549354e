(** C49: infiltration never exceeds supply. *)
From Coq Require Import QArith Qabs ZArith List Bool Lia Lqa.
Import ListNotations.
From Verif Require Import Qx Infil_Model Infil_Proofs.
Local Open Scope Q_scope.

(** Whatever EXP and DLOG return and whatever the iterations do: the infiltration of the step
    does not exceed intensity times step length, the cumulative infiltration grows by exactly
    the step's infiltration, and the ponding flag is set exactly when less than the supply
    infiltrates. *)
Theorem C49_infiltration : forall expf logf p it rint dt s,
  let '(s', df) := expinf expf logf p it rint dt s in
  df <= rint * dt /\ cumf s' == cumf s + df /\
  (irof s' = true -> df < rint * dt) /\ (irof s' = false -> df == rint * dt).
Proof.
  intros. pose proof (expinf_good expf logf p it rint dt s) as H.
  destruct (expinf expf logf p it rint dt s). exact H.
Qed.
Print Assumptions C49_infiltration.

(** The same over any sequence of steps. *)
Theorem C49_infiltration_run : forall expf logf p dt rs it s,
  let '(s', dfs) := inf_run expf logf p dt it rs s in
  cumf s' == cumf s + qsum dfs /\ Forall2 (fun df r => df <= r * dt) dfs rs.
Proof. exact inf_run_good. Qed.
Print Assumptions C49_infiltration_run.

(** A concrete ponded step in which nothing infiltrates (the flag stays set), and a concrete
    first step in which everything does. *)
Definition ex_soil : soil := {| xk0 := 1; hf := 1; dth := 1; szm := 1 |}.
Example C49_example_ponded :
  let '(s', df) := expinf (fun _ => 2) (fun _ => 1) ex_soil 1 1 1
     {| irof := true; cumf := 1; const := 1 - (1 + series 2 10 1 1 1 0) / 2; tp := 1 |} in
  irof s' = true /\ df == 0 /\ cumf s' == 1.
Proof. vm_compute. auto. Qed.
Example C49_example_dry :
  let '(s', df) := expinf (fun _ => 2) (fun _ => 1) ex_soil 1 (1 # 2) 1
     {| irof := false; cumf := 0; const := 0; tp := 0 |} in
  irof s' = false /\ df == 1 # 2 /\ cumf s' == 1 # 2.
Proof. vm_compute. auto. Qed.

(** * What the steps are *)

(** x^n / (n n!). *)
Fixpoint power (x : Q) (n : nat) : Q := match n with O => 1 | S k => power x k * x end.
Fixpoint factorial (n : nat) : Q := match n with O => 1 | S k => factorial k * inject_Z (Z.of_nat n) end.
Definition term (x : Q) (n : nat) : Q := power x n / (inject_Z (Z.of_nat n) * factorial n).
Definition ten_terms (x : Q) : Q :=
  term x 1 + term x 2 + term x 3 + term x 4 + term x 5 + term x 6 + term x 7 + term x 8 + term x 9 + term x 10.

(** The sums are the first ten terms of the series of the exponential integral. *)
Theorem C49_series : forall x, series x 10 1 1 1 0 == ten_terms x.
Proof.
  intros x. unfold ten_terms, term. cbv [series power factorial]. 
  cbv [Z.of_nat Pos.of_succ_nat Pos.succ Z.add Pos.add Pos.add_carry].
  rewrite !Qmult_1_l. rewrite Qplus_0_l. reflexivity.
Qed.
Print Assumptions C49_series.

(** Rain weaker than what the soil can take, at the start and at the end of the
    step, goes in altogether. *)
Theorem C49_all : forall expf logf p it rint dt s, irof s = false ->
  cumf s == 0 \/ rint <= capacity expf p (cumf s) -> rint < capacity expf p (cumf s + dt * rint) ->
  let '(s', df) := expinf expf logf p it rint dt s in df = rint * dt /\ irof s' = false /\ const s' = const s /\ tp s' = tp s.
Proof.
  intros expf logf p it rint dt s I0 A B. unfold expinf. rewrite I0.
  assert (T : forall f1, test_ponding expf logf p it rint dt s f1 = no_ponding rint dt s).
  { intros f1. unfold test_ponding. cbv zeta. qif; [reflexivity|]. qif; [reflexivity|]. qprop. lra. }
  destruct (qeq (cumf s) 0) eqn:Z0.
  - rewrite T. unfold no_ponding. repeat split.
  - destruct (qlt (capacity expf p (cumf s)) rint) eqn:L.
    + qprop. exfalso. destruct A; [|lra]. qprop. congruence.
    + rewrite T. unfold no_ponding. repeat split.
Qed.
Print Assumptions C49_all.

Lemma less_one : forall n, inject_Z (n - 1) == inject_Z n - 1.
Proof. intros n. unfold Z.sub. rewrite inject_Z_plus. reflexivity. Qed.
Lemma bisect_between : forall expf p rint k f1 f2 f, f1 <= f -> f <= f2 -> f1 <= bisect expf p rint k f1 f2 f <= f2.
Proof.
  intros expf p rint. induction k as [|k IH]; intros f1 f2 f A B; cbn [bisect]; [lra|].
  cbv zeta. qif.
  - qif; [lra|]. destruct (IH f f2 ((f2 + f) * (1 # 2)) ltac:(lra) ltac:(lra)). lra.
  - qif; [lra|]. destruct (IH f1 f ((f1 + f) * (1 # 2)) ltac:(lra) ltac:(lra)). lra.
Qed.
Lemma finish_keeps : forall rint dt s f, const (fst (finish rint dt s f)) = const s /\ tp (fst (finish rint dt s f)) = tp s.
Proof. intros rint dt s f. unfold finish. qif; split; reflexivity. Qed.

(** Ponding begins within the step: at its start when the soil takes less than
    the rain from the beginning, else when it does so. *)
Theorem C49_time : forall expf logf p it rint dt s, irof s = false -> 0 < rint -> 0 <= dt ->
  (capacity expf p (cumf s) < rint -> cumf s == 0 \/ tp (fst (expinf expf logf p it rint dt s)) == inject_Z (it - 1) * dt) /\
  (cumf s == 0 \/ rint <= capacity expf p (cumf s) ->
   0 <= capacity expf p (cumf s + dt * rint) <= rint -> ~ cumf s + dt * rint == 0 ->
   inject_Z (it - 1) * dt <= tp (fst (expinf expf logf p it rint dt s)) <= inject_Z it * dt).
Proof.
  intros expf logf p it rint dt s I0 R D. unfold expinf. rewrite I0. split.
  - intros L. destruct (qeq (cumf s) 0) eqn:Z0; [left; qprop; assumption|]. right.
    replace (qlt (capacity expf p (cumf s)) rint) with true by (symmetry; destruct (qlt (capacity expf p (cumf s)) rint) eqn:Q1; [reflexivity | qprop; lra]).
    unfold ponded, excess. cbv zeta. match goal with |- context [finish rint dt ?s0 ?x] => destruct (finish_keeps rint dt s0 x) as [_ E] end.
    rewrite E. cbn [tp]. rewrite less_one. ring.
  - intros A B NZ.
    assert (K : forall f1, f1 == cumf s -> inject_Z (it - 1) * dt <= tp (fst (test_ponding expf logf p it rint dt s f1)) <= inject_Z it * dt).
    { intros f1 F1. unfold test_ponding. cbv zeta. 
      replace (qeq (cumf s + dt * rint) 0) with false by (symmetry; destruct (qeq (cumf s + dt * rint) 0) eqn:Q0; [qprop; contradiction | reflexivity]).
      replace (qlt rint (capacity expf p (cumf s + dt * rint))) with false by (symmetry; destruct (qlt rint (capacity expf p (cumf s + dt * rint))) eqn:Q0; [qprop; lra | reflexivity]).
      set (r2 := capacity expf p (cumf s + dt * rint)) in *.
      assert (B1 : 0 <= r2 * dt) by nra. assert (B2 : r2 * dt <= dt * rint) by nra.
      destruct (bisect_between expf p rint 20 f1 (cumf s + dt * rint) (cumf s + r2 * dt) ltac:(lra) ltac:(lra)) as [F2 F3].
      set (f := bisect expf p rint 20 f1 (cumf s + dt * rint) (cumf s + r2 * dt)) in *.
      assert (T1 : 0 <= (f - cumf s) / rint) by (apply Qle_shift_div_l; lra).
      assert (T2 : (f - cumf s) / rint <= dt) by (apply Qle_shift_div_r; lra).
      assert (IT : inject_Z it * dt == inject_Z (it - 1) * dt + dt).
      { rewrite less_one. ring. }
      set (t := inject_Z (it - 1) * dt + (f - cumf s) / rint) in *.
      assert (T : inject_Z (it - 1) * dt <= t <= inject_Z it * dt) by (unfold t; rewrite IT; lra).
      destruct (qlt (inject_Z it * dt) t); [unfold no_ponding; cbn [fst tp]; exact T|].
      unfold ponded, excess. cbv zeta.
      match goal with |- context [finish rint dt ?s0 ?x] => destruct (finish_keeps rint dt s0 x) as [_ E] end.
      rewrite E. cbn [tp]. exact T. }
    destruct (qeq (cumf s) 0) eqn:Z0; [apply K; qprop; lra|].
    destruct (qlt (capacity expf p (cumf s)) rint) eqn:L.
    + exfalso. qprop. destruct A; [contradiction | lra].
    + apply K. reflexivity.
Qed.
Print Assumptions C49_time.

(** The time since ponding that a depth F stands for, by the integrated
    equation, and how it grows with F. *)
Definition elapsed (expf logf : Q -> Q) (p : soil) (c F : Q) : Q :=
  - (logf (F + cd p) - (logf (F + cd p) + series ((F + cd p) * (1 / szm p)) 10 1 1 1 0) / expf ((1 / szm p) * cd p) - c) / (xk0 p * (1 / szm p)).
Definition slope (expf : Q -> Q) (p : soil) (F : Q) : Q := (expf ((1 / szm p) * F) - 1) / (xk0 p * (1 / szm p) * (F + cd p)).
(** One step of Newton's method to the depth for a time [t]. *)
Definition nearer (expf logf : Q -> Q) (p : soil) (c t F : Q) : Q :=
  F + - (elapsed expf logf p c F - t) / slope expf p F.
Fixpoint times (n : nat) (g : Q -> Q) (x : Q) : Q := match n with O => x | S k => g (times k g x) end.
Lemma times_next : forall n g x, times n g (g x) = times (S n) g x.
Proof. induction n as [|n IH]; intros g x; [reflexivity|]. cbn [times]. rewrite IH. reflexivity. Qed.

(** After ponding the depth is what Newton's method gives for the time since
    ponding, after the first step of no more than 0.001 or after 40 steps; the
    rain limits it. *)
Theorem C49_newton : forall expf logf p it rint dt s, irof s = true ->
  let step := nearer expf logf p (const s) (inject_Z it * dt - tp s) in
  exists n, (1 <= n <= 40)%nat /\
    ((n < 40)%nat -> Qabs (- (elapsed expf logf p (const s) (times (n - 1) step (cumf s)) - (inject_Z it * dt - tp s)) / slope expf p (times (n - 1) step (cumf s))) <= 1 # 1000) /\
    (forall m, (m < n - 1)%nat -> 1 # 1000 < Qabs (- (elapsed expf logf p (const s) (times m step (cumf s)) - (inject_Z it * dt - tp s)) / slope expf p (times m step (cumf s)))) /\
    snd (expinf expf logf p it rint dt s) ==
      (if qlt (times n step (cumf s)) (cumf s + rint * dt) then times n step (cumf s) - cumf s else rint * dt).
Proof.
  intros expf logf p it rint dt s I0 step.
  set (df := fun F => - (elapsed expf logf p (const s) F - (inject_Z it * dt - tp s)) / slope expf p F).
  assert (K : forall k f, (1 <= k)%nat -> exists n, (1 <= n <= k)%nat /\
    ((n < k)%nat -> Qabs (df (times (n - 1) step f)) <= 1 # 1000) /\
    (forall m, (m < n - 1)%nat -> 1 # 1000 < Qabs (df (times m step f))) /\
    newton expf logf p it dt (tp s) (const s) k f = times n step f).
  { induction k as [|k IH]; intros f K1; [lia|].
    assert (N : newton expf logf p it dt (tp s) (const s) (S k) f =
      if qle (Qabs (df f)) tol then step f else newton expf logf p it dt (tp s) (const s) k (step f)) by reflexivity.
    rewrite N. destruct (qle (Qabs (df f)) tol) eqn:E.
    - exists 1%nat. split; [lia|]. split; [|split].
      + intros _. cbn [times Nat.sub]. unfold qle in E. rewrite Qle_bool_iff in E. exact E.
      + intros m M. lia.
      + reflexivity.
    - assert (G : 1 # 1000 < Qabs (df f)).
      { unfold qle in E. destruct (Qlt_le_dec (1 # 1000) (Qabs (df f))) as [X | X]; [exact X|]. apply Qle_bool_iff in X. unfold tol in E. congruence. }
      destruct k as [|k].
      + exists 1%nat. split; [lia|]. split; [lia|]. split; [intros m M; lia | reflexivity].
      + destruct (IH (step f) ltac:(lia)) as (n & N1 & N2 & N3 & N4). exists (S n). split; [lia|]. split; [|split].
        * intros L. specialize (N2 ltac:(lia)). replace (S n - 1)%nat with (S (n - 1)) by lia. rewrite times_next in N2. exact N2.
        * intros [|m] M; [exact G|]. specialize (N3 m ltac:(lia)). rewrite times_next in N3. exact N3.
        * rewrite N4. apply times_next. }
  destruct (K 40%nat (cumf s) ltac:(lia)) as (n & N1 & N2 & N3 & N4). exists n. split; [exact N1|]. split; [exact N2|]. split; [exact N3|].
  unfold expinf. rewrite I0. unfold excess. rewrite N4. unfold finish. destruct (qlt (times n step (cumf s)) (cumf s + rint * dt)); reflexivity.
Qed.
Print Assumptions C49_newton.

(** When ponding begins, the constant is the one for which no time has passed
    at that depth. *)
Theorem C49_constant : forall expf logf p it rint dt s, irof s = false -> ~ cumf s == 0 -> capacity expf p (cumf s) < rint ->
  elapsed expf logf p (const (fst (expinf expf logf p it rint dt s))) (cumf s) == 0.
Proof.
  intros expf logf p it rint dt s I0 NZ L. unfold expinf. rewrite I0.
  replace (qeq (cumf s) 0) with false by (symmetry; destruct (qeq (cumf s) 0) eqn:Q0; [qprop; contradiction | reflexivity]).
  replace (qlt (capacity expf p (cumf s)) rint) with true by (symmetry; destruct (qlt (capacity expf p (cumf s)) rint) eqn:Q1; [reflexivity | qprop; lra]).
  unfold ponded, excess. cbv zeta.
  match goal with |- context [finish rint dt ?s0 ?x] => destruct (finish_keeps rint dt s0 x) as [E _] end.
  rewrite E. cbn [const]. unfold elapsed, szf. unfold Qdiv. ring.
Qed.
Print Assumptions C49_constant.

Example C49_case_steps :
  let e := fun _ => 2 in
  let s c := {| irof := false; cumf := c; const := 0; tp := 0 |} in
  (1 <= capacity e ex_soil 1 /\ 1 < capacity e ex_soil (1 + 1 * 1)) /\
  (capacity e ex_soil (cumf (s 1)) < 3 /\ ~ cumf (s 1) == 0) /\
  (cumf (s 0) == 0 /\ 0 <= capacity e ex_soil (0 + (1 # 2) * 3) <= 3 /\ ~ 0 + (1 # 2) * 3 == 0).
Proof. vm_compute. repeat split; congruence. Qed.
