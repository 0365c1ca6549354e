(** Properties of TRANSPORT: C116 the mixing factors, C117 what becomes of a
    tracer, C118 heat. *)
From Coq Require Import ZArith QArith Qabs Qround Qfield Bool List Arith Lia ZifyBool Lqa.
From Verif Require Import Trans_Model Trans_Spec Trans_Proofs.
Import ListNotations.
Local Open Scope list_scope.

(** * C116 *)

(** Whatever the column, no factor is negative and a cell keeps more than a
    third of its own solution in each mix. *)
Theorem C116_fractions : forall p n fs, proper p -> init_mix p = Mixes n fs ->
  (0 <= n)%Z /\ forall i, (1 <= i)%nat -> (0 <= low fs i /\ 0 <= high fs i /\ 1 # 3 < 1 - low fs i - high fs i)%Q.
Proof.
  intros p n fs P H. destruct (init_mix_is p n fs H) as [(-> & -> & _) | (m & M & M0 & N & F)].
  - split; [lia|]. intros i I1. unfold low, high. destruct (i - 1)%nat; cbn; lra.
  - destruct (number_large p m ltac:(lra)) as [N1 N2]. rewrite <- N in N1, N2. split; [lia|]. intros i I1.
    assert (NP : (0 < inject_Z n)%Q) by (change 0%Q with (inject_Z 0); rewrite <- Zlt_Qlt; lia).
    unfold low, high. destruct (Nat.lt_ge_cases (i - 1) (length (raw p))) as [A | A].
    + rewrite F, scaled_nth by exact A. cbn [fst snd]. set (f := nth (i - 1) (raw p) (0, 0)%Q).
      assert (IN : In f (raw p)) by (apply nth_In; exact A).
      pose proof (raw_nonneg p P) as R. rewrite Forall_forall in R. destruct (R f IN) as [R1 R2].
      pose proof (largest_in (raw p) f IN) as LI.
      split; [apply div_nonneg; assumption|]. split; [apply div_nonneg; assumption|].
      assert (E : (fst f / inject_Z n + snd f / inject_Z n < 2 # 3)%Q); [|lra].
      setoid_replace (fst f / inject_Z n + snd f / inject_Z n)%Q with ((fst f + snd f) / inject_Z n)%Q by (field; lra).
      apply Qlt_shift_div_r; [exact NP | nra].
    + rewrite F, nth_overflow by (rewrite map_length; exact A). cbn. lra.
Qed.
Print Assumptions C116_fractions.

Lemma correction_is : forall p, correction p = corr_disp p.
Proof. intros p. unfold correction, corr_disp, moving. destruct (correct p), (dir p), (first p), (last p); reflexivity. Qed.
Lemma pair_factor_is : forall p i j, proper p -> dispersive p -> (1 <= i <= cells p)%nat -> (1 <= j <= cells p)%nat ->
  (pair_factor p i j == exchange p i j)%Q.
Proof.
  intros p i j (N & D & T & C) DI A B. destruct (C i A) as [LI _], (C j B) as [LJ _].
  unfold pair_factor, factor, exchange. cbn [fst]. rewrite correction_is. unfold moving.
  assert (K : (2 * diffc p * timest p / (len (data p i) * len (data p i) + len (data p i) * len (data p j)) ==
    diffc p * timest p / (len (data p i) * ((len (data p i) + len (data p j)) / 2)))%Q).
  { field. repeat split; nra. }
  destruct DI as [DI | DI].
  - rewrite DI. cbn [andb]. rewrite K. ring.
  - specialize (DI i A) as DA. specialize (DI j B) as DB.
    assert (PI : (0 < len (data p i) / disp (data p i))%Q) by (apply Qlt_shift_div_l; lra).
    assert (PJ : (0 < len (data p j) / disp (data p j))%Q) by (apply Qlt_shift_div_l; lra).
    assert (HM : harmonic 0 (data p i) (data p j) = (len (data p i) / disp (data p i) + len (data p j) / disp (data p j))%Q).
    { unfold harmonic. replace (zero (disp (data p i))) with false by (symmetry; apply zero_not; lra).
      replace (zero (disp (data p j))) with false by (symmetry; apply zero_not; lra). reflexivity. }
    assert (HZ : zero (len (data p i) / disp (data p i) + len (data p j) / disp (data p j)) = false) by (apply zero_not; lra).
    destruct (dir p); cbn [andb]; rewrite ?HM, ?HZ; cbn [negb]; rewrite K; ring.
Qed.
Lemma edge_is : forall p i, proper p -> (1 <= i <= cells p)%nat -> (edge p (data p i) == exchange_end p Constant i)%Q.
Proof.
  intros p i (N & D & T & C) A. destruct (C i A) as [LI _]. unfold edge, exchange_end, moving.
  assert (K : (2 * diffc p * timest p / (len (data p i) * len (data p i)) == diffc p * timest p / (len (data p i) * (len (data p i) / 2)))%Q).
  { field. lra. }
  rewrite K. destruct (dir p); ring.
Qed.

(** All [n] mixes of a time step together exchange between two cells what
    dispersion and diffusion do, and at the ends only with a constant solution. *)
Theorem C116_value : forall p n fs i, proper p -> dispersive p -> init_mix p = Mixes n fs -> (0 < n)%Z -> (1 <= i <= cells p)%nat ->
  (inject_Z n * low fs i == if (i =? 1)%nat then exchange_end p (first p) 1 else exchange p i (i - 1))%Q /\
  (inject_Z n * high fs i == if (i =? cells p)%nat then exchange_end p (last p) (cells p) else exchange p i (i + 1))%Q.
Proof.
  intros p n fs i P D H N0 I1. destruct (init_mix_is p n fs H) as [(-> & _) | (m & _ & _ & _ & F)]; [lia|].
  assert (NP : (0 < inject_Z n)%Q) by (change 0%Q with (inject_Z 0); rewrite <- Zlt_Qlt; lia).
  unfold low, high. rewrite F, scaled_nth by (rewrite raw_length; lia). rewrite raw_nth by assumption. cbn [fst snd]. split.
  - destruct (Nat.ltb_spec 1 i) as [A | A], (Nat.eqb_spec i 1) as [B | B]; try lia.
    + rewrite pair_factor_is by (try assumption; lia). field. lra.
    + destruct (first p); cbn [is_constant]; [rewrite edge_is by (try assumption; lia) | cbn | cbn]; try (field; lra).
  - destruct (Nat.ltb_spec i (cells p)) as [A | A], (Nat.eqb_spec i (cells p)) as [B | B]; try lia.
    + rewrite pair_factor_is by (try assumption; lia). field. lra.
    + destruct (last p); cbn [is_constant]; [rewrite edge_is by (try assumption; lia) | cbn | cbn]; try (field; lra).
Qed.
Print Assumptions C116_value.

Lemma exchange_pos : forall p i j, proper p -> dispersive p -> (1 <= i <= cells p)%nat -> (1 <= j <= cells p)%nat ->
  (exchange p i j <= 0)%Q -> dir p = No_flow /\ (diffc p * timest p == 0)%Q.
Proof.
  intros p i j P D A B E. pose proof (corr_pos p) as CP. rewrite <- correction_is in CP.
  destruct P as (N & DP & T & C). destruct (C i A) as [LI _], (C j B) as [LJ _]. unfold exchange in E.
  set (k := (len (data p i) * ((len (data p i) + len (data p j)) / 2))%Q) in *.
  assert (KP : (0 < k)%Q).
  { unfold k. assert (0 < (len (data p i) + len (data p j)) / 2)%Q by (apply Qlt_shift_div_l; lra). nra. }
  set (q := (diffc p * timest p / k)%Q) in *.
  assert (Q0 : (0 <= q)%Q) by (apply div_nonneg; nra).
  assert (QE : (diffc p * timest p == q * k)%Q) by (unfold q; field; lra).
  destruct (dir p) eqn:ED.
  1,2: exfalso; destruct D as [D | D]; [congruence|]; specialize (D i A) as DA; specialize (D j B) as DB;
    assert (PI : (0 < len (data p i) / disp (data p i))%Q) by (apply Qlt_shift_div_l; lra);
    assert (PJ : (0 < len (data p j) / disp (data p j))%Q) by (apply Qlt_shift_div_l; lra);
    assert (G : (0 < 2 / (len (data p i) / disp (data p i) + len (data p j) / disp (data p j)))%Q) by (apply Qlt_shift_div_l; lra);
    nra.
  split; [reflexivity|]. assert (q <= 0)%Q by nra. rewrite QE. assert (Z0 : (q == 0)%Q) by lra. rewrite Z0. ring.
Qed.

(** There is no mixing only if there is no flow and no diffusion. *)
Theorem C116_none : forall p fs, proper p -> dispersive p -> (2 <= cells p)%nat -> init_mix p = Mixes 0 fs ->
  dir p = No_flow /\ (diffc p * timest p == 0)%Q.
Proof.
  intros p fs P D C H. destruct (init_mix_is p 0 fs H) as [(_ & _ & L) | (m & _ & M & N & _)].
  - assert (IN : In (nth (1 - 1) (raw p) (0, 0)%Q) (raw p)) by (apply nth_In; rewrite raw_length; lia).
    pose proof (largest_in _ _ IN) as LI.
    pose proof (raw_nonneg p P) as R. rewrite Forall_forall in R. destruct (R _ IN) as [R1 R2].
    assert (E : (snd (nth (1 - 1) (raw p) (0, 0)%Q) == exchange p 1 2)%Q).
    { rewrite raw_nth by (try assumption; lia). cbn [snd]. replace (1 <? cells p)%nat with true by (symmetry; apply Nat.ltb_lt; lia).
      apply pair_factor_is; try assumption; lia. }
    apply (exchange_pos p 1 2); try assumption; try lia. lra.
  - destruct (number_large p m ltac:(lra)). lia.
Qed.
Print Assumptions C116_none.

(** Cells of the same length: what one cell gets from the next is what the next
    gets from it. *)
Theorem C116_balanced : forall p n fs, proper p -> dispersive p -> same_lengths p -> init_mix p = Mixes n fs ->
  balanced (cells p) fs.
Proof.
  intros p n fs P D S' H i I1. destruct (init_mix_is p n fs H) as [(_ & -> & _) | (m & _ & M & N & F)].
  - unfold low, high. destruct (i - 1)%nat, (i + 1 - 1)%nat; reflexivity.
  - destruct (number_large p m ltac:(lra)) as [N1 _]. rewrite <- N in N1.
    assert (NP : (0 < inject_Z n)%Q) by (change 0%Q with (inject_Z 0); rewrite <- Zlt_Qlt; lia).
    destruct (C116_value p n fs i P D H ltac:(lia) ltac:(lia)) as [_ A].
    destruct (C116_value p n fs (i + 1) P D H ltac:(lia) ltac:(lia)) as [B _].
    replace (i =? cells p)%nat with false in A by (symmetry; apply Nat.eqb_neq; lia).
    replace (i + 1 =? 1)%nat with false in B by (symmetry; apply Nat.eqb_neq; lia).
    replace (i + 1 - 1)%nat with i in B by lia.
    assert (E : (exchange p i (i + 1) == exchange p (i + 1) i)%Q).
    { destruct P as (_ & _ & _ & C). destruct (C i ltac:(lia)) as [LI _], (C (i + 1)%nat ltac:(lia)) as [LJ _].
      specialize (S' i (i + 1)%nat ltac:(lia) ltac:(lia)). unfold exchange.
      rewrite (Qplus_comm (len (data p i)) (len (data p (i + 1)))).
      destruct (dir p); rewrite ?(Qplus_comm (len (data p i) / disp (data p i))); rewrite !S'; reflexivity. }
    assert (X : (inject_Z n * high fs i == inject_Z n * low fs (i + 1))%Q) by (rewrite A, B, E; reflexivity).
    apply Qmult_inj_l in X; [exact X | lra].
Qed.
Print Assumptions C116_balanced.

(** Without flow, cells of any lengths: the parts are as the lengths are. *)
Theorem C116_lengths : forall p n fs i, proper p -> dir p = No_flow -> init_mix p = Mixes n fs -> (1 <= i < cells p)%nat ->
  (len (data p i) * high fs i == len (data p (i + 1)) * low fs (i + 1))%Q.
Proof.
  intros p n fs i P D H I1. destruct (init_mix_is p n fs H) as [(_ & -> & _) | (m & _ & M & N & F)].
  - unfold low, high. destruct (i - 1)%nat, (i + 1 - 1)%nat; cbn; ring.
  - destruct (number_large p m ltac:(lra)) as [N1 _]. rewrite <- N in N1.
    assert (NP : (0 < inject_Z n)%Q) by (change 0%Q with (inject_Z 0); rewrite <- Zlt_Qlt; lia).
    destruct (C116_value p n fs i P (or_introl D) H ltac:(lia) ltac:(lia)) as [_ A].
    destruct (C116_value p n fs (i + 1) P (or_introl D) H ltac:(lia) ltac:(lia)) as [B _].
    replace (i =? cells p)%nat with false in A by (symmetry; apply Nat.eqb_neq; lia).
    replace (i + 1 =? 1)%nat with false in B by (symmetry; apply Nat.eqb_neq; lia).
    replace (i + 1 - 1)%nat with i in B by lia.
    assert (E : (len (data p i) * exchange p i (i + 1) == len (data p (i + 1)) * exchange p (i + 1) i)%Q).
    { destruct P as (_ & _ & _ & C). destruct (C i ltac:(lia)) as [LI _], (C (i + 1)%nat ltac:(lia)) as [LJ _].
      unfold exchange. rewrite D. field. repeat split; nra. }
    assert (X : (inject_Z n * (len (data p i) * high fs i) == inject_Z n * (len (data p (i + 1)) * low fs (i + 1)))%Q).
    { rewrite <- A, <- B in E. rewrite !Qmult_assoc, (Qmult_comm (inject_Z n) (len (data p i))), (Qmult_comm (inject_Z n) (len (data p (i + 1)))), <- !Qmult_assoc. exact E. }
    apply Qmult_inj_l in X; [exact X | lra].
Qed.
Print Assumptions C116_lengths.

(** * C117 *)

(** In a mix all cells change at once, each from what it and its neighbours had;
    the solutions at the ends stay. *)
Theorem C117_mix : forall n fs s i, (1 <= n)%nat ->
  ((1 <= i <= n)%nat -> (sol (mix_run n fs s) i ==
     low fs i * sol s (i - 1)%nat + high fs i * sol s (i + 1)%nat + (1 - low fs i - high fs i) * sol s i)%Q) /\
  (i = O \/ (n < i)%nat -> sol (mix_run n fs s) i = sol s i).
Proof.
  intros n fs s i N. rewrite mix_run_is by exact N. split; intros I1.
  - replace ((1 <=? i) && (i <=? n))%nat with true by (symmetry; apply andb_true_iff; split; apply Nat.leb_le; lia). apply mixture_is.
  - replace ((1 <=? i) && (i <=? n))%nat with false; [reflexivity|]. symmetry. apply andb_false_iff.
    destruct I1; [left | right]; apply Nat.leb_gt; lia.
Qed.
Print Assumptions C117_mix.

(** With balanced factors, a mix changes the sum of the cells only by what
    passes the ends. *)
Theorem C117_balance : forall n fs s, (1 <= n)%nat -> balanced n fs ->
  (total (sol (mix_run n fs s)) n ==
   total (sol s) n + low fs 1 * (sol s 0%nat - sol s 1%nat) + high fs n * (sol s (n + 1)%nat - sol s n))%Q.
Proof.
  intros n fs s N B.
  assert (K : forall k, (1 <= k <= n)%nat -> (total (sol (mix_run n fs s)) k ==
    total (sol s) k + low fs 1 * (sol s 0%nat - sol s 1%nat) + high fs k * (sol s (k + 1)%nat - sol s k))%Q).
  { induction k as [|k IH]; intros K1; [lia|]. destruct (C117_mix n fs s (S k) N) as [M _]. specialize (M ltac:(lia)).
    destruct k as [|k].
    - cbn [total]. rewrite M. change (1 - 1)%nat with 0%nat. ring.
    - specialize (IH ltac:(lia)).
      change (total (sol (mix_run n fs s)) (S (S k))) with (total (sol (mix_run n fs s)) (S k) + sol (mix_run n fs s) (S (S k)))%Q.
      change (total (sol s) (S (S k))) with (total (sol s) (S k) + sol s (S (S k)))%Q.
      rewrite IH, M. specialize (B (S k) ltac:(lia)). replace (S k + 1)%nat with (S (S k)) in * by lia.
      replace (S (S k) - 1)%nat with (S k) by lia. rewrite B. ring. }
  apply K. lia.
Qed.
Print Assumptions C117_balance.

(** With flow each cell gets the solution of the cell before it, and the first
    that of the end; the ends stay. *)
Theorem C117_shift : forall p s i, (i <= S (cells p))%nat ->
  sol (shift p s) i =
  match dir p with
  | Forward => if ((i =? 0) || (i =? S (cells p)))%nat then sol s i else sol s (i - 1)%nat
  | Back => if ((i =? 0) || (i =? S (cells p)))%nat then sol s i else sol s (i + 1)%nat
  | No_flow => sol s i
  end.
Proof.
  intros p s i I1. unfold shift. destruct (dir p); [rewrite shift_forward | rewrite shift_back | reflexivity].
  - destruct (Nat.leb_spec 1 i), (Nat.leb_spec i (cells p)), (Nat.eqb_spec i 0), (Nat.eqb_spec i (S (cells p))); cbn [andb orb]; try reflexivity; lia.
  - destruct (Nat.leb_spec 1 i), (Nat.ltb_spec i (1 + cells p)), (Nat.eqb_spec i 0), (Nat.eqb_spec i (S (cells p))); cbn [andb orb]; try reflexivity; lia.
Qed.
Print Assumptions C117_shift.

Lemma mix_runs_add : forall a b n fs s, mix_runs (a + b) n fs s = mix_runs b n fs (mix_runs a n fs s).
Proof. induction a as [|a IH]; intros b n fs s; [reflexivity | apply IH]. Qed.
Lemma div2_le : forall n, (Nat.div2 n <= n)%nat.
Proof. intros n. rewrite Nat.div2_div. apply Nat.div_le_upper_bound; lia. Qed.

(** Without flow there are exactly [n] mixes in each time step. *)
Theorem C117_diffusion : forall p k n fs s, dir p = No_flow ->
  steps k p n fs s = mix_runs (k * n) (cells p) fs s.
Proof.
  intros p k n fs s D. revert s. induction k as [|k IH]; intros s; [reflexivity|]. cbn [steps]. rewrite IH.
  unfold step, shift. rewrite D. cbn [Nat.mul]. rewrite mix_runs_add. f_equal. rewrite <- mix_runs_add. f_equal.
  pose proof (div2_le n). destruct (b_c p); lia.
Qed.
Print Assumptions C117_diffusion.

(** Without dispersion and diffusion the solutions move as they are, one cell
    with each step. *)
Theorem C117_piston : forall p k given fs c r i, proper p -> init_mix p = Mixes 0 fs -> begin p given = Some c ->
  transport p k given = Some r -> (1 <= i <= cells p)%nat ->
  r i = match dir p with Forward => c (i - k)%nat | Back => c (Nat.min (i + k) (S (cells p))) | No_flow => c i end.
Proof.
  intros p k given fs c r i P H B R I1. unfold transport in R. rewrite B, H in R. change (Z.to_nat 0) with 0%nat in R.
  assert (E : forall k s j, (j <= S (cells p))%nat -> sol (steps k p 0 fs s) j =
    if ((j =? 0) || (j =? S (cells p)))%nat then sol s j else
    match dir p with Forward => sol s (j - k)%nat | Back => sol s (Nat.min (j + k) (S (cells p))) | No_flow => sol s j end).
  { clear. induction k as [|k IH]; intros s j J.
    - cbn [steps]. rewrite Nat.sub_0_r, Nat.add_0_r, Nat.min_l by lia. destruct (_ || _)%bool, (dir p); reflexivity.
    - cbn [steps]. rewrite IH by exact J.
      assert (ST : step p 0 fs s = shift p s) by (unfold step; destruct (b_c p); reflexivity). rewrite ST. clear ST IH.
      destruct (Nat.eqb_spec j 0) as [-> | J0]; [|destruct (Nat.eqb_spec j (S (cells p))) as [-> | J1]]; cbn [orb].
      + rewrite C117_shift by lia. cbn [Nat.eqb orb]. destruct (dir p); reflexivity.
      + rewrite C117_shift by lia. rewrite Nat.eqb_refl, orb_true_r. destruct (dir p); reflexivity.
      + destruct (dir p) eqn:D.
        * rewrite C117_shift by lia. rewrite D. destruct (Nat.eqb_spec (j - k) 0) as [Z0 | Z0]; cbn [orb].
          -- rewrite Z0. replace (j - S k)%nat with 0%nat by lia. reflexivity.
          -- replace (j - k =? S (cells p))%nat with false by (symmetry; apply Nat.eqb_neq; lia). f_equal. lia.
        * rewrite C117_shift by lia. rewrite D.
          replace (Nat.min (j + k) (S (cells p)) =? 0)%nat with false by (symmetry; apply Nat.eqb_neq; lia). cbn [orb].
          destruct (Nat.eqb_spec (Nat.min (j + k) (S (cells p))) (S (cells p))) as [Z0 | Z0]; f_equal; lia.
        * rewrite C117_shift by lia. rewrite D. reflexivity. }
  assert (RE : r = sol (steps k p 0 fs (mkState c 0%Q))) by congruence. rewrite RE, E by lia.
  replace ((i =? 0) || (i =? S (cells p)))%nat with false by (symmetry; apply orb_false_iff; split; apply Nat.eqb_neq; lia).
  reflexivity.
Qed.
Print Assumptions C117_piston.

Lemma mix_within : forall p n fs lo hi s, proper p -> init_mix p = Mixes n fs -> within lo hi (cells p) (sol s) ->
  within lo hi (cells p) (sol (mix_run (cells p) fs s)).
Proof.
  intros p n fs lo hi s P H W i I1. destruct (C117_mix (cells p) fs s i) as [A B]; [destruct P; lia|].
  destruct (Nat.eq_dec i 0) as [E | NE]; [rewrite B by (left; exact E); apply W; exact I1|].
  destruct (Nat.eq_dec i (S (cells p))) as [E | NE2]; [rewrite B by (right; lia); apply W; exact I1|].
  specialize (A ltac:(lia)). destruct (C116_fractions p n fs P H) as [_ F]. destruct (F i ltac:(lia)) as (F1 & F2 & F3).
  destruct (W (i - 1)%nat ltac:(lia)), (W (i + 1)%nat ltac:(lia)), (W i I1). rewrite A. clear - F1 F2 F3 H0 H1 H2 H3 H4 H5.
  set (l := low fs i) in *. set (h := high fs i) in *. set (x := sol s (i - 1)) in *. set (y := sol s (i + 1)) in *. set (z := sol s i) in *.
  clearbody l h x y z. split; nra.
Qed.
Lemma steps_within : forall p n fs lo hi k s, proper p -> init_mix p = Mixes n fs -> within lo hi (cells p) (sol s) ->
  within lo hi (cells p) (sol (steps k p (Z.to_nat n) fs s)).
Proof.
  intros p n fs lo hi k s P H.
  assert (R : forall a s, within lo hi (cells p) (sol s) -> within lo hi (cells p) (sol (mix_runs a (cells p) fs s))).
  { induction a as [|a IH]; intros t W; [exact W|]. cbn [mix_runs]. apply IH. apply (mix_within p n); assumption. }
  assert (T : forall s, within lo hi (cells p) (sol s) -> within lo hi (cells p) (sol (shift p s))).
  { intros t W i I1. rewrite C117_shift by exact I1. destruct (dir p); [| |apply W; exact I1];
      (destruct (Nat.eqb_spec i 0), (Nat.eqb_spec i (S (cells p))); cbn [orb]; apply W; lia). }
  revert s. induction k as [|k IH]; intros s W; [exact W|]. cbn [steps]. apply IH. unfold step. apply R, T, R, W.
Qed.
Lemma begin_is : forall p given c, (1 <= cells p)%nat -> begin p given = Some c ->
  (forall i, (1 <= i <= cells p)%nat -> given i = Some (c i)) /\
  c 0%nat = match given 0%nat with Some x => x | None => c 1%nat end /\
  c (S (cells p)) = match given (S (cells p)) with Some x => x | None => c (cells p) end.
Proof.
  intros p given c N H. unfold begin in H.
  destruct (forallb _ _) eqn:F in H; [|discriminate H]. rewrite forallb_forall in F.
  assert (G : forall i, (1 <= i <= cells p)%nat -> exists x, given i = Some x).
  { intros i I1. specialize (F i). rewrite in_seq in F. specialize (F ltac:(lia)). destruct (given i); [eexists; reflexivity | discriminate F]. }
  set (get := fun i => match given i with Some x => x | None => 0%Q end) in H. cbv zeta in H.
  assert (E : c = (fun i => if (i =? 0)%nat then match given 0%nat with Some x => x | None => get 1%nat end
    else if (i =? S (cells p))%nat then match given (S (cells p)) with Some x => x | None => get (cells p) end else get i)).
  { destruct (given 0%nat), (dir p), (given (S (cells p))); try discriminate H; injection H as H; symmetry; exact H. }
  assert (K : forall i, (1 <= i <= cells p)%nat -> c i = get i).
  { intros i I1. rewrite E. replace (i =? 0)%nat with false by (symmetry; apply Nat.eqb_neq; lia).
    replace (i =? S (cells p))%nat with false by (symmetry; apply Nat.eqb_neq; lia). reflexivity. }
  split; [|split].
  - intros i I1. rewrite K by exact I1. destruct (G i I1) as (x & GX). unfold get. rewrite GX. reflexivity.
  - rewrite (K 1%nat) by lia. rewrite E. reflexivity.
  - rewrite (K (cells p)) by lia. rewrite E. rewrite Nat.eqb_refl. reflexivity.
Qed.

(** A column of solutions is complete when all cells have one, and the end where
    the flow comes in. *)
Definition complete (p : column) (given : nat -> option Q) : Prop :=
  (forall i, (1 <= i <= cells p)%nat -> given i <> None) /\
  (dir p = Forward -> given 0%nat <> None) /\ (dir p = Back -> given (S (cells p)) <> None).

(** TRANSPORT starts only with these; the other ends are taken from the cells
    next to them. *)
Theorem C117_start : forall p given, (1 <= cells p)%nat ->
  (complete p given <-> exists c, begin p given = Some c) /\
  forall c, begin p given = Some c ->
    (forall i, (1 <= i <= cells p)%nat -> given i = Some (c i)) /\
    c 0%nat = match given 0%nat with Some x => x | None => c 1%nat end /\
    c (S (cells p)) = match given (S (cells p)) with Some x => x | None => c (cells p) end.
Proof.
  intros p given N. split; [|intros c H; apply begin_is; assumption]. split.
  - intros (A & B & C). unfold begin.
    replace (forallb _ _) with true.
    + cbv zeta. destruct (given 0%nat), (dir p), (given (S (cells p))); try (eexists; reflexivity);
        exfalso; [apply C | apply B | apply B | apply C]; reflexivity.
    + symmetry. apply forallb_forall. intros i I1. rewrite in_seq in I1. specialize (A i ltac:(lia)). destruct (given i); [reflexivity | congruence].
  - intros (c & H). destruct (begin_is p given c N H) as (A & _ & _). split; [intros i I1; rewrite (A i I1); discriminate|].
    unfold begin in H. destruct (forallb _ _); [|discriminate H]. cbv zeta in H.
    split; intros D; rewrite D in H; destruct (given 0%nat), (given (S (cells p))); congruence.
Qed.
Print Assumptions C117_start.

(** Whatever the column, the number of steps and the solutions, a tracer stays
    between the smallest and the largest value that were given. *)
Theorem C117_range : forall p k given r lo hi i, proper p -> transport p k given = Some r ->
  (forall j x, given j = Some x -> (lo <= x /\ x <= hi)%Q) -> (i <= S (cells p))%nat ->
  (lo <= r i /\ r i <= hi)%Q.
Proof.
  intros p k given r lo hi i P R G I1. unfold transport in R. destruct (begin p given) as [c|] eqn:B; [|discriminate R].
  destruct (init_mix p) as [|n fs] eqn:H; [discriminate R|].
  assert (RE : r = sol (steps k p (Z.to_nat n) fs (mkState c 0%Q))) by congruence. rewrite RE.
  assert (N : (1 <= cells p)%nat) by (destruct P; lia).
  destruct (begin_is p given c N B) as (A1 & A2 & A3).
  apply (steps_within p n fs lo hi k (mkState c 0%Q) P H); [|exact I1].
  intros j J. cbn [sol]. destruct (Nat.eq_dec j 0) as [-> | J0]; [|destruct (Nat.eq_dec j (S (cells p))) as [-> | J1]].
  - rewrite A2. destruct (given 0%nat) eqn:E; [apply (G _ _ E) | apply (G _ _ (A1 1%nat ltac:(lia)))].
  - rewrite A3. destruct (given (S (cells p))) eqn:E; [apply (G _ _ E) | apply (G _ _ (A1 (cells p) ltac:(lia)))].
  - apply (G _ _ (A1 j ltac:(lia))).
Qed.
Print Assumptions C117_range.

Lemma ends_zero : forall p n fs, proper p -> dispersive p -> init_mix p = Mixes n fs -> first p <> Constant -> last p <> Constant ->
  (low fs 1 == 0 /\ high fs (cells p) == 0)%Q.
Proof.
  intros p n fs P D H F L. assert (N : (1 <= cells p)%nat) by (destruct P; lia).
  destruct (Z.eq_dec n 0) as [-> | N0].
  - destruct (init_mix_is p 0 fs H) as [(_ & -> & _) | (m & _ & M & E & _)]; [|destruct (number_large p m ltac:(lra)); lia].
    unfold low, high. destruct (cells p - 1)%nat; split; reflexivity.
  - destruct (C116_fractions p n fs P H) as [N1 _].
    assert (NP : (0 < inject_Z n)%Q) by (change 0%Q with (inject_Z 0); rewrite <- Zlt_Qlt; lia).
    destruct (C116_value p n fs 1 P D H ltac:(lia) ltac:(lia)) as [A _].
    destruct (C116_value p n fs (cells p) P D H ltac:(lia) ltac:(lia)) as [_ B].
    rewrite Nat.eqb_refl in A, B.
    assert (EA : (inject_Z n * low fs 1 == 0)%Q) by (rewrite A; destruct (first p); [congruence | reflexivity | reflexivity]).
    assert (EB : (inject_Z n * high fs (cells p) == 0)%Q) by (rewrite B; destruct (last p); [congruence | reflexivity | reflexivity]).
    split; [apply Qmult_integral in EA | apply Qmult_integral in EB]; lra.
Qed.
Lemma runs_total : forall p n fs k s, proper p -> dispersive p -> same_lengths p -> init_mix p = Mixes n fs ->
  first p <> Constant -> last p <> Constant -> (total (sol (mix_runs k (cells p) fs s)) (cells p) == total (sol s) (cells p))%Q.
Proof.
  intros p n fs k s P D S' H F L. revert s. induction k as [|k IH]; intros s; [reflexivity|]. cbn [mix_runs]. rewrite IH.
  rewrite C117_balance by (first [destruct P; lia | eapply C116_balanced; eassumption]).
  destruct (ends_zero p n fs P D H F L) as [A B]. rewrite A, B. ring.
Qed.

(** Diffusion in a column with no constant end keeps the sum of the cells for
    any number of steps. *)
Theorem C117_closed : forall p k given c r, proper p -> same_lengths p -> dir p = No_flow -> first p <> Constant -> last p <> Constant ->
  begin p given = Some c -> transport p k given = Some r ->
  (total r (cells p) == total c (cells p))%Q.
Proof.
  intros p k given c r P S' D F L B R. unfold transport in R. rewrite B in R.
  destruct (init_mix p) as [|n fs] eqn:H; [discriminate R|].
  assert (RE : r = sol (steps k p (Z.to_nat n) fs (mkState c 0%Q))) by congruence. rewrite RE, C117_diffusion by exact D.
  rewrite (runs_total p n fs); try assumption; [reflexivity | left; exact D].
Qed.
Print Assumptions C117_closed.

Lemma total_shift : forall (c : nat -> Q) n, (total (fun i => c (i - 1)%nat) n == total c n + c 0%nat - c n)%Q.
Proof.
  intros c. induction n as [|n IH]; cbn [total]; [ring|]. rewrite IH. replace (S n - 1)%nat with n by lia. ring.
Qed.
Lemma total_shift_back : forall (c : nat -> Q) n, (1 <= n)%nat -> (total (fun i => c (i + 1)%nat) n == total c n + c (n + 1)%nat - c 1%nat)%Q.
Proof.
  intros c. induction n as [|n IH]; intros N; [lia|]. destruct n as [|n].
  - cbn [total]. change (1 + 1)%nat with 2%nat. ring.
  - change (total (fun i => c (i + 1)%nat) (S (S n))) with (total (fun i => c (i + 1)%nat) (S n) + c (S (S n) + 1)%nat)%Q.
    change (total c (S (S n))) with (total c (S n) + c (S (S n)))%Q. rewrite IH by lia. replace (S n + 1)%nat with (S (S n)) by lia. ring.
Qed.

(** With flow and no constant end, a step brings in the solution at the one end
    and takes out that of the last cell. *)
Theorem C117_flux : forall p n fs s, proper p -> dispersive p -> same_lengths p -> init_mix p = Mixes n fs ->
  first p <> Constant -> last p <> Constant ->
  (total (sol (step p (Z.to_nat n) fs s)) (cells p) ==
   total (sol s) (cells p) +
   match dir p with
   | Forward => sol s 0%nat - sol s (cells p)
   | Back => sol s (S (cells p)) - sol s 1%nat
   | No_flow => 0
   end)%Q.
Proof.
  intros p n fs s P D S' H F L. assert (N : (1 <= cells p)%nat) by (destruct P; lia). unfold step.
  rewrite (runs_total p n fs) by assumption.
  destruct (dir p) eqn:E.
  - assert (BC : b_c p = false) by (unfold b_c, moving; rewrite E; destruct (first p), (last p); first [reflexivity | exfalso; congruence]).
    rewrite BC. cbn [mix_runs].
    rewrite (total_wd _ (fun i => sol s (i - 1)%nat)); [rewrite total_shift; ring|].
    intros i I1. rewrite C117_shift by lia. rewrite E. replace ((i =? 0) || (i =? S (cells p)))%nat with false; [reflexivity|].
    symmetry. apply orb_false_iff. split; apply Nat.eqb_neq; lia.
  - assert (BC : b_c p = false) by (unfold b_c, moving; rewrite E; destruct (first p), (last p); first [reflexivity | exfalso; congruence]).
    rewrite BC. cbn [mix_runs].
    rewrite (total_wd _ (fun i => sol s (i + 1)%nat)); [rewrite total_shift_back by exact N; replace (cells p + 1)%nat with (S (cells p)) by lia; ring|].
    intros i I1. rewrite C117_shift by lia. rewrite E. replace ((i =? 0) || (i =? S (cells p)))%nat with false; [reflexivity|].
    symmetry. apply orb_false_iff. split; apply Nat.eqb_neq; lia.
  - unfold shift. rewrite E. rewrite (runs_total p n fs) by assumption. ring.
Qed.
Print Assumptions C117_flux.

(** Three cells with flow, the second with no dispersivity. *)
Definition uneven_column : column :=
  mkCol 3 (fun i => mkCell 10 (if (i =? 2)%nat then 0 else 1)) Forward Flux Flux false 0 1.

(** With flow, a cell without dispersivity is given a mean dispersivity that is
    left over from another pair of cells, so what one cell gives is not what the
    other gets: a tracer that moves into the second of three cells becomes 7/30
    more than it was. *)
Theorem C117_leftover_refuted : forall x r,
  transport uneven_column 1 (fun i => Some (if (i =? 1)%nat then x else 0%Q)) = Some r ->
  (total r 3 == (37 # 30) * x)%Q.
Proof.
  intros x r R. unfold transport in R.
  assert (H : exists fs, init_mix uneven_column = Mixes 1 fs /\
    (low fs 1 == 0 /\ high fs 1 == 1 # 5 /\ low fs 2 == 1 # 15 /\ high fs 2 == 1 # 10 /\ low fs 3 == 1 # 5 /\ high fs 3 == 0)%Q).
  { eexists. split; [vm_compute; reflexivity | vm_compute; repeat split; reflexivity]. }
  destruct H as (fs & H & F1 & G1 & F2 & G2 & F3 & G3). rewrite H in R.
  destruct (begin uneven_column (fun i => Some (if (i =? 1)%nat then x else 0%Q))) as [c|] eqn:B; [|discriminate R].
  destruct (begin_is uneven_column _ _ ltac:(cbn; lia) B) as (A & A0 & A4). cbn [cells uneven_column] in A, A0, A4.
  assert (C1 : c 1%nat = x) by (specialize (A 1%nat ltac:(lia)); cbn in A; congruence).
  assert (C2 : c 2%nat = 0%Q) by (specialize (A 2%nat ltac:(lia)); cbn in A; congruence).
  assert (C3 : c 3%nat = 0%Q) by (specialize (A 3%nat ltac:(lia)); cbn in A; congruence).
  cbn in A0, A4. change (Z.to_nat 1) with 1%nat in R.
  assert (RE : r = sol (steps 1 uneven_column 1 fs (mkState c 0%Q))) by congruence. rewrite RE. cbn [steps].
  unfold step. change (b_c uneven_column) with false. cbv iota. change (1 - 0)%nat with 1%nat. cbn [mix_runs].
  change (cells uneven_column) with 3%nat. set (s := shift uneven_column _). cbn [total].
  destruct (C117_mix 3 fs s 1 ltac:(lia)) as [M1 _]. destruct (C117_mix 3 fs s 2 ltac:(lia)) as [M2 _]. destruct (C117_mix 3 fs s 3 ltac:(lia)) as [M3 _].
  rewrite (M1 ltac:(lia)), (M2 ltac:(lia)), (M3 ltac:(lia)). cbn [Nat.sub Nat.add].
  assert (S0 : sol s 0%nat = c 0%nat) by reflexivity. assert (S1 : sol s 1%nat = c 0%nat) by reflexivity.
  assert (S2 : sol s 2%nat = c 1%nat) by reflexivity. assert (S3 : sol s 3%nat = c 2%nat) by reflexivity.
  assert (S4 : sol s 4%nat = c 4%nat) by reflexivity.
  rewrite S0, S1, S2, S3, S4, A0, A4, C1, C2, F1, G1, F2, G2, F3, G3. ring.
Qed.
Print Assumptions C117_leftover_refuted.

(** A column of four cells, each with a dispersivity, and one with diffusion. *)
Definition some_column (d : flow) (a b : bound) : column := mkCol 4 (fun _ => mkCell 2 1) d a b true (1 # 10) 5.
Example C117_case :
  proper (some_column Forward Flux Flux) /\ dispersive (some_column Forward Flux Flux) /\ same_lengths (some_column Forward Flux Flux) /\
  (exists fs, init_mix (some_column Forward Flux Flux) = Mixes 3 fs /\ balanced 4 fs) /\
  (exists fs, init_mix (some_column No_flow Closed Closed) = Mixes 1 fs /\ (0 < high fs 1)%Q) /\
  (exists fs, init_mix (some_column Back Constant Constant) = Mixes 3 fs) /\
  (exists fs, init_mix (mkCol 4 (fun _ => mkCell 2 0) Forward Flux Flux true 0 5) = Mixes 0 fs) /\
  complete (some_column Forward Flux Flux) (fun i => if (i <=? 4)%nat then Some 1%Q else None) /\
  (exists r, transport (some_column Forward Flux Flux) 3 (fun i => if (i <=? 4)%nat then Some (of_nat i) else None) = Some r).
Proof.
  assert (P : forall d a b, proper (some_column d a b)).
  { intros d a b. unfold proper, some_column. cbn [cells diffc timest data len disp]. split; [lia|]. repeat split; lra. }
  assert (D : forall d a b, dispersive (some_column d a b)) by (intros d a b; right; intros i _; reflexivity).
  assert (S' : forall d a b, same_lengths (some_column d a b)) by (intros d a b i j _ _; reflexivity).
  assert (H : exists fs, init_mix (some_column Forward Flux Flux) = Mixes 3 fs) by (eexists; vm_compute; reflexivity).
  destruct H as (fs & H).
  split; [apply P|]. split; [apply D|]. split; [apply S'|].
  split; [exists fs; split; [exact H | apply (C116_balanced (some_column Forward Flux Flux) 3); auto]|].
  split; [eexists; split; [vm_compute; reflexivity | vm_compute; reflexivity]|].
  split; [eexists; vm_compute; reflexivity|]. split; [eexists; vm_compute; reflexivity|].
  split.
  - split; [intros i I1; cbn [cells some_column] in I1; replace (i <=? 4)%nat with true by (symmetry; apply Nat.leb_le; lia); discriminate|].
    split; [discriminate|]. cbn. discriminate.
  - unfold transport. rewrite H. cbn [begin]. eexists. reflexivity.
Qed.

(** * C118 *)

Lemma fold_larger_from : forall l a, (a <= fold_left larger l a)%Q.
Proof. induction l as [|x l IH]; intros a; cbn [fold_left]; [lra|]. eapply Qle_trans; [apply larger_l | apply IH]. Qed.
Lemma fold_larger_in : forall l a x, In x l -> (x <= fold_left larger l a)%Q.
Proof.
  induction l as [|y l IH]; intros a x H; [destruct H|]. cbn [fold_left]. destruct H as [-> | H]; [|apply IH, H].
  eapply Qle_trans; [apply (larger_r a x) | apply fold_larger_from].
Qed.

(** The distance between the middles of cells [i] and [i + 1], or from the end to
    the middle of the first or last cell times the square root of two: its
    square. *)
Definition distance2 (p : column) (i : nat) : Q :=
  let half k := (len (data p k) / 2)%Q in
  if (i =? 0)%nat then (len (data p 1) * len (data p 1) / 2)%Q
  else if (i =? cells p)%nat then (len (data p (cells p)) * len (data p (cells p)) / 2)%Q
  else ((half i + half (i + 1)%nat) * (half i + half (i + 1)%nat))%Q.
Definition open_at (p : column) (i : nat) : bool :=
  if (i =? 0)%nat then is_constant (first p) else if (i =? cells p)%nat then is_constant (last p) else true.

Lemma heat_factors_length : forall p heat tempr nmix, (1 <= cells p)%nat -> length (heat_factors p heat tempr nmix) = S (cells p).
Proof. intros p heat tempr nmix N. unfold heat_factors. cbn [length]. rewrite app_length, map_length, seq_length. cbn [length]. lia. Qed.
Lemma heat_factors_nth : forall p heat tempr nmix i, proper p -> (0 < tempr)%Q -> (i <= cells p)%nat ->
  (nth i (heat_factors p heat tempr nmix) 0 ==
   if open_at p i then (heat - diffc p) * timest p * heat_corr p nmix / tempr / distance2 p i else 0)%Q.
Proof.
  intros p heat tempr nmix i (N & _ & _ & C) T I1. unfold heat_factors, open_at, distance2.
  destruct (Nat.eqb_spec i 0) as [-> | I0].
  - cbn [nth]. destruct (is_constant (first p)); [|reflexivity]. unfold heat_factor. destruct (C 1%nat ltac:(lia)) as [L _]. field. split; lra.
  - destruct i as [|i]; [lia|]. cbn [nth].
    destruct (Nat.eqb_spec (S i) (cells p)) as [E | NE].
    + rewrite app_nth2 by (rewrite map_length, seq_length; lia). rewrite map_length, seq_length. replace (i - (cells p - 1))%nat with 0%nat by lia.
      cbn [nth]. destruct (is_constant (last p)); [|reflexivity]. unfold heat_factor. destruct (C (cells p) ltac:(lia)) as [L _]. field. split; lra.
    + rewrite app_nth1 by (rewrite map_length, seq_length; lia).
      set (g := fun i0 => heat_factor p heat tempr nmix ((len (data p (i0 + 1)) + len (data p i0)) / 2)).
      rewrite (nth_indep _ 0%Q (g 0%nat)) by (rewrite map_length, seq_length; lia). rewrite map_nth, seq_nth by lia. unfold g.
      replace (1 + i)%nat with (S i) by lia. destruct (C (S i) ltac:(lia)) as [L1 _], (C (S i + 1)%nat ltac:(lia)) as [L2 _].
      unfold heat_factor. field. repeat split; lra.
Qed.

Lemma heat_corr_pos : forall p nmix, (1 <= heat_corr p nmix)%Q.
Proof.
  intros p nmix. unfold heat_corr. destruct (correct p && moving p)%bool; [|lra].
  set (m := inject_Z (if (1 <? nmix)%Z then nmix else 1%Z)).
  assert (M : (0 < m)%Q) by (unfold m; change 0%Q with (inject_Z 0); rewrite <- Zlt_Qlt; destruct (Z.ltb_spec 1 nmix); lia).
  assert (O : (0 <= 1 / of_nat (cells p))%Q).
  { unfold of_nat. destruct (cells p) as [|k]; [vm_compute; discriminate|]. apply div_nonneg; [lra|]. change 0%Q with (inject_Z 0). rewrite <- Zlt_Qlt. lia. }
  assert (G : (0 <= 1 / of_nat (cells p) / m)%Q) by (apply div_nonneg; assumption).
  destruct (is_flux (first p)), (is_flux (last p)); lra.
Qed.

Lemma init_heat_is : forall p heat tempr nmix temp n fs, proper p -> (0 < tempr)%Q -> init_heat p heat tempr nmix temp = (n, fs) ->
  n = 0%Z \/ ((0 < n)%Z /\ (2 <= cells p)%nat /\ (diffc p < heat)%Q /\ (exists i, (1 <= i <= S (cells p))%nat /\ (1 < Qabs (temp i - temp 0%nat))%Q) /\
    (forall x, In x (heat_factors p heat tempr nmix) -> (3 * x < inject_Z n)%Q) /\
    fs = map (fun f => (f / inject_Z n)%Q) (heat_factors p heat tempr nmix)).
Proof.
  intros p heat tempr nmix temp n fs P T H. unfold init_heat in H.
  destruct (Qle_bool heat (diffc p)) eqn:H1; [left; cbn in H; congruence|].
  destruct (Nat.ltb_spec (cells p) 2) as [H2 | H2]; [left; cbn in H; congruence|].
  destruct (uneven p temp) eqn:U; [|left; cbn in H; congruence]. cbn [orb negb] in H. cbv zeta in H.
  set (m := fold_left larger (heat_factors p heat tempr nmix) 0%Q) in *.
  destruct (zero m) eqn:Z0; [left; congruence|]. right.
  assert (M : (0 <= m)%Q) by apply fold_larger_from.
  assert (E : n = (1 + Qfloor (3 * m))%Z) by congruence.
  assert (N1 : (0 < n)%Z).
  { rewrite E. assert (0 <= Qfloor (3 * m))%Z; [|lia]. change 0%Z with (Qfloor 0). apply Qfloor_resp_le. lra. }
  assert (N2 : (3 * m < inject_Z n)%Q) by (rewrite E, Z.add_comm; apply Qlt_floor).
  split; [exact N1|]. split; [exact H2|]. split; [apply qle_false; exact H1|]. split; [|split].
  - unfold uneven in U. apply existsb_exists in U. destruct U as (i & IN & U). exists i. rewrite in_seq in IN. split; [lia|].
    apply negb_true_iff in U. apply qle_false in U. exact U.
  - intros x IN. pose proof (fold_larger_in _ 0%Q x IN) as X. fold m in X. lra.
  - rewrite <- E in H. congruence.
Qed.

Lemma heat_correction_is : forall p nmix, (1 <= cells p)%nat -> (heat_correction p nmix == heat_corr p nmix)%Q.
Proof.
  intros p nmix N. unfold heat_correction, heat_corr, moving.
  replace (if (1 <? nmix)%Z then nmix else 1%Z) with (Z.max 1 nmix) by (destruct (Z.ltb_spec 1 nmix); lia).
  set (m := inject_Z (Z.max 1 nmix)).
  assert (M : (0 < m)%Q) by (unfold m; change 0%Q with (inject_Z 0); rewrite <- Zlt_Qlt; lia).
  assert (O : (0 < of_nat (cells p))%Q) by (unfold of_nat; change 0%Q with (inject_Z 0); rewrite <- Zlt_Qlt; lia).
  destruct (correct p); [|reflexivity]. cbn [andb].
  assert (E : (1 / (of_nat (cells p) * m) == 1 / of_nat (cells p) / m)%Q) by (field; split; lra).
  destruct (dir p), (first p), (last p); cbn [is_flux]; rewrite ?E; reflexivity.
Qed.

(** All mixes together exchange heat between two cells as conduction does, and
    at the ends only with a constant solution. *)
Theorem C118_value : forall p heat tempr nmix temp n fs i, proper p -> (0 < tempr)%Q -> init_heat p heat tempr nmix temp = (n, fs) ->
  (0 < n)%Z -> (i <= cells p)%nat ->
  (inject_Z n * nth i fs 0 == if open_at p i then (heat - diffc p) * timest p * heat_correction p nmix / tempr / distance2 p i else 0)%Q /\
  (0 <= nth i fs 0 /\ nth i fs 0 < 1 # 3)%Q.
Proof.
  intros p heat tempr nmix temp n fs i P T H N0 I1.
  destruct (init_heat_is p heat tempr nmix temp n fs P T H) as [-> | (_ & C2 & HD & _ & B & F)]; [lia|].
  assert (NP : (0 < inject_Z n)%Q) by (change 0%Q with (inject_Z 0); rewrite <- Zlt_Qlt; lia).
  pose proof (heat_factors_length p heat tempr nmix ltac:(lia)) as LEN.
  assert (E : nth i fs 0%Q = (nth i (heat_factors p heat tempr nmix) 0 / inject_Z n)%Q).
  { rewrite F. set (g := fun f : Q => (f / inject_Z n)%Q). rewrite (nth_indep _ 0%Q (g 0%Q)) by (rewrite map_length; lia). rewrite map_nth. reflexivity. }
  pose proof (heat_factors_nth p heat tempr nmix i P T I1) as V.
  assert (B' := B (nth i (heat_factors p heat tempr nmix) 0%Q) ltac:(apply nth_In; lia)).
  rewrite E. set (x := nth i (heat_factors p heat tempr nmix) 0%Q) in *.
  split; [transitivity x; [field; lra|]; rewrite V; destruct (open_at p i); [|reflexivity]; rewrite heat_correction_is by lia; reflexivity|].
  assert (X : (0 <= x)%Q).
  { rewrite V. destruct (open_at p i); [|lra]. destruct P as (N & D & TS & C).
    apply div_nonneg.
    - apply div_nonneg; [|exact T]. pose proof (heat_corr_pos p nmix). assert (0 <= (heat - diffc p) * timest p)%Q by nra. nra.
    - unfold distance2. destruct (Nat.eqb_spec i 0); [|destruct (Nat.eqb_spec i (cells p))].
      + destruct (C 1%nat ltac:(lia)) as [L _]. apply Qlt_shift_div_l; nra.
      + destruct (C (cells p) ltac:(lia)) as [L _]. apply Qlt_shift_div_l; nra.
      + destruct (C i ltac:(lia)) as [L1 _], (C (i + 1)%nat ltac:(lia)) as [L2 _].
        assert (0 < len (data p i) / 2)%Q by (apply Qlt_shift_div_l; lra).
        assert (0 < len (data p (i + 1)) / 2)%Q by (apply Qlt_shift_div_l; lra). nra. }
  split; [apply div_nonneg; assumption|]. apply Qlt_shift_div_r; [exact NP | lra].
Qed.
Print Assumptions C118_value.

(** Temperatures stay between the lowest and the highest. *)
Theorem C118_range : forall p heat tempr nmix temp n fs lo hi, proper p -> (0 < tempr)%Q -> init_heat p heat tempr nmix temp = (n, fs) ->
  within lo hi (cells p) temp -> within lo hi (cells p) (heat_mix (Z.to_nat n) (cells p) fs temp).
Proof.
  intros p heat tempr nmix temp n fs lo hi P T H W.
  destruct (init_heat_is p heat tempr nmix temp n fs P T H) as [-> | (N0 & _)]; [exact W|].
  assert (K : forall k t, within lo hi (cells p) t -> within lo hi (cells p) (heat_mix k (cells p) fs t)).
  { induction k as [|k IH]; intros t WT; [exact WT|]. cbn [heat_mix]. apply IH. intros j J. unfold heat_once.
    destruct ((1 <=? j) && (j <=? cells p))%nat eqn:E; [|apply WT; exact J].
    apply andb_true_iff in E. destruct E as [E1 E2]. apply Nat.leb_le in E1. apply Nat.leb_le in E2.
    destruct (C118_value p heat tempr nmix temp n fs (j - 1) P T H N0 ltac:(lia)) as [_ [A1 A2]].
    destruct (C118_value p heat tempr nmix temp n fs j P T H N0 ltac:(lia)) as [_ [B1 B2]].
    cbv zeta. destruct (WT (j - 1)%nat ltac:(lia)), (WT (j + 1)%nat ltac:(lia)), (WT j J). clear - A1 A2 B1 B2 H0 H1 H2 H3 H4 H5.
    set (l := nth (j - 1) fs 0%Q) in *. set (h := nth j fs 0%Q) in *. clearbody l h.
    set (x := t (j - 1)%nat) in *. set (y := t (j + 1)%nat) in *. set (z := t j) in *. clearbody x y z. split; nra. }
  apply K, W.
Qed.
Print Assumptions C118_range.

(** Each mix changes the sum of the temperatures only by what passes the ends;
    with no constant end it stays. *)
Theorem C118_sum : forall n fs t, (1 <= n)%nat ->
  (total (heat_once n fs t) n == total t n + nth 0 fs 0 * (t 0%nat - t 1%nat) + nth n fs 0 * (t (n + 1)%nat - t n))%Q.
Proof.
  intros n fs t N.
  assert (K : forall k, (1 <= k <= n)%nat ->
    (total (heat_once n fs t) k == total t k + nth 0 fs 0 * (t 0%nat - t 1%nat) + nth k fs 0 * (t (k + 1)%nat - t k))%Q).
  { induction k as [|k IH]; intros K1; [lia|].
    assert (M : heat_once n fs t (S k) = (nth k fs 0 * t k + nth (S k) fs 0 * t (S k + 1)%nat + (1 - nth k fs 0 - nth (S k) fs 0) * t (S k))%Q).
    { unfold heat_once. replace ((1 <=? S k) && (S k <=? n))%nat with true by (symmetry; apply andb_true_iff; split; apply Nat.leb_le; lia).
      replace (S k - 1)%nat with k by lia. reflexivity. }
    destruct k as [|k].
    - cbn [total]. rewrite M. ring.
    - specialize (IH ltac:(lia)).
      change (total (heat_once n fs t) (S (S k))) with (total (heat_once n fs t) (S k) + heat_once n fs t (S (S k)))%Q.
      change (total t (S (S k))) with (total t (S k) + t (S (S k)))%Q. rewrite IH, M. replace (S k + 1)%nat with (S (S k)) by lia. ring. }
  apply K. lia.
Qed.
Print Assumptions C118_sum.
Theorem C118_closed : forall p heat tempr nmix temp n fs, proper p -> (0 < tempr)%Q -> init_heat p heat tempr nmix temp = (n, fs) ->
  first p <> Constant -> last p <> Constant ->
  (total (heat_mix (Z.to_nat n) (cells p) fs temp) (cells p) == total temp (cells p))%Q.
Proof.
  intros p heat tempr nmix temp n fs P T H F L.
  destruct (init_heat_is p heat tempr nmix temp n fs P T H) as [-> | (N0 & C2 & _)]; [reflexivity|].
  assert (NP : (0 < inject_Z n)%Q) by (change 0%Q with (inject_Z 0); rewrite <- Zlt_Qlt; lia).
  destruct (C118_value p heat tempr nmix temp n fs 0 P T H N0 ltac:(lia)) as [A _].
  destruct (C118_value p heat tempr nmix temp n fs (cells p) P T H N0 ltac:(lia)) as [B _].
  unfold open_at in A, B. rewrite Nat.eqb_refl in A, B. replace (cells p =? 0)%nat with false in B by (symmetry; apply Nat.eqb_neq; lia).
  replace (is_constant (first p)) with false in A by (destruct (first p); [congruence | reflexivity | reflexivity]).
  replace (is_constant (last p)) with false in B by (destruct (last p); [congruence | reflexivity | reflexivity]).
  apply Qmult_integral in A. apply Qmult_integral in B.
  assert (A' : (nth 0 fs 0 == 0)%Q) by (destruct A; lra). assert (B' : (nth (cells p) fs 0 == 0)%Q) by (destruct B; lra).
  generalize (Z.to_nat n) as k. intros k. revert temp H. intros temp _. revert temp.
  induction k as [|k IH]; intros t; [reflexivity|]. cbn [heat_mix]. rewrite IH, C118_sum by lia. rewrite A', B'. ring.
Qed.
Print Assumptions C118_closed.

(** Temperatures that differ from that of solution 0 by no more than a degree
    never even out, whatever the conductivity and the time step. *)
Theorem C118_small_refuted : forall p heat tempr nmix temp n fs,
  (forall i, (1 <= i <= S (cells p))%nat -> (Qabs (temp i - temp 0%nat) <= 1)%Q) ->
  init_heat p heat tempr nmix temp = (n, fs) -> heat_mix (Z.to_nat n) (cells p) fs temp = temp.
Proof.
  intros p heat tempr nmix temp n fs S' H. unfold init_heat in H.
  assert (U : uneven p temp = false).
  { destruct (uneven p temp) eqn:U; [|reflexivity]. exfalso. unfold uneven in U. apply existsb_exists in U. destruct U as (i & IN & U).
    rewrite in_seq in IN. specialize (S' i ltac:(lia)). apply negb_true_iff in U. apply qle_false in U. lra. }
  rewrite U, orb_true_r in H. assert (n = 0%Z) by congruence. subst n. reflexivity.
Qed.
Print Assumptions C118_small_refuted.

Example C118_case :
  let p := mkCol 4 (fun _ => mkCell 1 1) No_flow Closed Closed true 0 5 in
  proper p /\ (exists fs, init_heat p (1 # 2) 2 0 (fun i => of_nat (10 * i)) = (4%Z, fs) /\ (nth 1 fs 0 == 5 # 16)%Q) /\
  (forall i, (1 <= i <= 5)%nat -> (Qabs ((fun i => of_nat i / 8) i - (fun i => of_nat i / 8) 0%nat) <= 1)%Q) /\
  (exists fs, init_heat p (1 # 2) 2 0 (fun i => of_nat i / 8)%Q = (0%Z, fs)).
Proof.
  cbv zeta. split; [unfold proper; cbn [cells diffc timest data len disp]; split; [lia|]; repeat split; lra|].
  split; [eexists; split; vm_compute; reflexivity|]. split; [|eexists; vm_compute; reflexivity].
  intros i I1. destruct i as [|[|[|[|[|[|i]]]]]]; try lia; vm_compute; discriminate.
Qed.
