(** Lemmas on TRANSPORT. *)
From Coq Require Import ZArith QArith Qabs Qround Qfield Bool List Arith Lia Lqa.
From Verif Require Import Trans_Model Trans_Spec.
Import ListNotations.
Local Open Scope list_scope.

Lemma qle_false : forall a b, Qle_bool a b = false <-> (b < a)%Q.
Proof.
  intros a b. split.
  - intros H. destruct (Qlt_le_dec b a) as [L | L]; [exact L|]. apply Qle_bool_iff in L. congruence.
  - intros H. destruct (Qle_bool a b) eqn:E; [|reflexivity]. apply Qle_bool_iff in E. lra.
Qed.
Lemma larger_l : forall a b, (a <= larger a b)%Q.
Proof. intros a b. unfold larger. destruct (Qle_bool b a) eqn:E; [apply Qle_refl|]. apply qle_false in E. lra. Qed.
Lemma larger_r : forall a b, (b <= larger a b)%Q.
Proof. intros a b. unfold larger. destruct (Qle_bool b a) eqn:E; [apply Qle_bool_iff, E | apply Qle_refl]. Qed.
Lemma larger_lub : forall a b c, (a <= c)%Q -> (b <= c)%Q -> (larger a b <= c)%Q.
Proof. intros a b c A B. unfold larger. destruct (Qle_bool b a); assumption. Qed.

Lemma largest_from : forall l a, (a <= fold_left (fun a f => larger a (fst f + snd f)) l a)%Q /\
  forall f, In f l -> (fst f + snd f <= fold_left (fun a f => larger a (fst f + snd f)) l a)%Q.
Proof.
  induction l as [|g l IH]; intros a; cbn [fold_left]; [split; [apply Qle_refl | intros f []]|].
  destruct (IH (larger a (fst g + snd g))) as [A B]. split.
  - eapply Qle_trans; [apply larger_l | exact A].
  - intros f [-> | I1]; [eapply Qle_trans; [apply larger_r | exact A] | apply B, I1].
Qed.
Lemma largest_in : forall l f, In f l -> (fst f + snd f <= largest l)%Q.
Proof. intros l f I1. apply largest_from, I1. Qed.
Lemma largest_nonneg : forall l, (0 <= largest l)%Q.
Proof. intros l. apply largest_from. Qed.

(** * Signs of the factors *)

Lemma zero_iff : forall x, zero x = true <-> (x == 0)%Q.
Proof. intros x. apply Qeq_bool_iff. Qed.
Lemma zero_not : forall x, zero x = false <-> ~ (x == 0)%Q.
Proof. intros x. rewrite <- zero_iff. destruct (zero x); split; congruence. Qed.

Lemma corr_pos : forall p, (1 <= corr_disp p)%Q.
Proof.
  intros p. unfold corr_disp. destruct (correct p && moving p); [|apply Qle_refl].
  assert (P : (0 <= 1 / of_nat (cells p))%Q).
  { unfold of_nat. destruct (cells p) as [|k]; [vm_compute; discriminate|]. apply Qle_shift_div_l.
    - change 0%Q with (inject_Z 0). rewrite <- Zlt_Qlt. lia.
    - lra. }
  destruct (is_flux (first p)), (is_flux (last p)); lra.
Qed.

Lemma div_nonneg : forall a b, (0 <= a)%Q -> (0 < b)%Q -> (0 <= a / b)%Q.
Proof. intros a b A B. apply Qle_shift_div_l; [exact B | lra]. Qed.

Lemma harmonic_nonneg : forall dav a b, (0 <= dav)%Q -> (0 < len a)%Q -> (0 <= disp a)%Q -> (0 < len b)%Q -> (0 <= disp b)%Q ->
  (0 <= harmonic dav a b)%Q.
Proof.
  intros dav a b D LA DA LB DB. unfold harmonic.
  assert (X : forall c, (0 < len c)%Q -> (0 <= disp c)%Q -> zero (disp c) = false -> (0 <= len c / disp c)%Q).
  { intros c L E Z0. apply zero_not in Z0. apply div_nonneg; lra. }
  destruct (zero (disp a)) eqn:ZA, (zero (disp b)) eqn:ZB; try exact D.
  - specialize (X b LB DB ZB). lra.
  - apply X; assumption.
  - pose proof (X a LA DA ZA). pose proof (X b LB DB ZB). lra.
Qed.

Lemma factor_nonneg : forall p dav a b, (0 <= diffc p)%Q -> (0 <= timest p)%Q -> (0 <= dav)%Q ->
  (0 < len a)%Q -> (0 <= disp a)%Q -> (0 < len b)%Q -> (0 <= disp b)%Q ->
  (0 <= fst (factor p dav a b))%Q /\ (0 <= snd (factor p dav a b))%Q.
Proof.
  intros p dav a b P T D LA DA LB DB. unfold factor. cbn [fst snd].
  set (dv := if moving p then harmonic dav a b else dav).
  assert (DV : (0 <= dv)%Q) by (unfold dv; destruct (moving p); [apply harmonic_nonneg; assumption | exact D]).
  split; [|exact DV].
  assert (A : (0 <= if moving p && negb (zero dv) then 2 / dv else 0)%Q).
  { destruct (moving p && negb (zero dv))%bool eqn:E; [|lra]. apply andb_prop in E. destruct E as [_ E].
    apply negb_true_iff, zero_not in E. apply div_nonneg; lra. }
  assert (B : (0 <= 2 * diffc p * timest p / (len a * len a + len a * len b))%Q).
  { apply div_nonneg; nra. }
  pose proof (corr_pos p). apply Qmult_le_0_compat; lra.
Qed.

Definition nonneg (f : Q * Q) : Prop := (0 <= fst f)%Q /\ (0 <= snd f)%Q.

Lemma inner_nonneg : forall p, proper p -> forall k i dav, (0 <= dav)%Q -> (1 <= i)%nat -> (i + k <= cells p + 1)%nat ->
  Forall nonneg (inner p k i dav).
Proof.
  intros p (N & D & T & C) k. induction k as [|k IH]; intros i dav DV I1 L; cbn [inner]; [constructor|].
  assert (F : forall dv j, (0 <= dv)%Q -> (1 <= j <= cells p)%nat ->
    (0 <= fst (factor p dv (data p i) (data p j)) /\ 0 <= snd (factor p dv (data p i) (data p j)))%Q).
  { intros dv j H J. apply factor_nonneg; try assumption; apply C; lia. }
  destruct (Nat.ltb_spec i (cells p)) as [A | A].
  - destruct (F dav (i + 1)%nat DV ltac:(lia)) as [F1 F2].
    destruct (factor p dav (data p i) (data p (i + 1))) as [h dv]. cbn [fst snd] in F1, F2.
    destruct (Nat.ltb_spec 1 i) as [B | B].
    + destruct (F dv (i - 1)%nat F2 ltac:(lia)) as [F3 F4].
      destruct (factor p dv (data p i) (data p (i - 1))) as [l dv']. cbn [fst snd] in F3, F4.
      constructor; [split; assumption | apply IH; [assumption | lia | lia]].
    + constructor; [split; cbn; [lra | assumption] | apply IH; [assumption | lia | lia]].
  - destruct (Nat.ltb_spec 1 i) as [B | B].
    + destruct (F dav (i - 1)%nat DV ltac:(lia)) as [F3 F4].
      destruct (factor p dav (data p i) (data p (i - 1))) as [l dv']. cbn [fst snd] in F3, F4.
      constructor; [split; cbn; [assumption | lra] | apply IH; [assumption | lia | lia]].
    + constructor; [split; cbn; lra | apply IH; [assumption | lia | lia]].
Qed.

Lemma edge_nonneg : forall p i, proper p -> (1 <= i <= cells p)%nat -> (0 <= edge p (data p i))%Q.
Proof.
  intros p i (N & D & T & C) I1. destruct (C i I1) as [L E]. unfold edge.
  assert (A : (0 <= 2 * diffc p * timest p / (len (data p i) * len (data p i)))%Q) by (apply div_nonneg; nra).
  assert (B : (0 <= disp (data p i) / len (data p i))%Q) by (apply div_nonneg; assumption).
  destruct (moving p); lra.
Qed.
Lemma with_first_nonneg : forall p l, proper p -> Forall nonneg l -> Forall nonneg (with_first p l).
Proof.
  intros p l P F. destruct l as [|f l]; [exact F|]. cbn [with_first]. destruct (is_constant (first p)); [|exact F].
  inversion F; subst. constructor; [|assumption]. split; cbn [fst snd]; [apply edge_nonneg; [exact P|]; destruct P; lia | apply H1].
Qed.
Lemma with_last_nonneg : forall p l, proper p -> Forall nonneg l -> Forall nonneg (with_last p l).
Proof.
  intros p l P F. induction l as [|f l IH]; [exact F|]. inversion F; subst. cbn [with_last]. destruct l as [|g l].
  - destruct (is_constant (last p)); [|exact F]. constructor; [|constructor].
    split; cbn [fst snd]; [apply H1 | apply edge_nonneg; [exact P|]; destruct P; lia].
  - constructor; [assumption | apply IH; assumption].
Qed.

Lemma inner_length : forall p k i dav, length (inner p k i dav) = k.
Proof.
  intros p. induction k as [|k IH]; intros i dav; [reflexivity|]. cbn [inner].
  destruct (i <? cells p)%nat; [destruct (factor p dav (data p i) (data p (i + 1))) as [h d]|];
  (destruct (1 <? i)%nat; [match goal with |- context [factor p ?d (data p i) (data p (i - 1))] => destruct (factor p d (data p i) (data p (i - 1))) end|];
   cbn [length]; rewrite IH; reflexivity).
Qed.
Lemma with_first_length : forall p l, length (with_first p l) = length l.
Proof. intros p [|f l]; [reflexivity|]. cbn. destruct (is_constant (first p)); reflexivity. Qed.
Lemma with_last_cons : forall p f g l, with_last p (f :: g :: l) = f :: with_last p (g :: l).
Proof. reflexivity. Qed.
Lemma with_last_length : forall p l, length (with_last p l) = length l.
Proof.
  intros p. induction l as [|f l IH]; [reflexivity|]. destruct l as [|g l].
  - cbn [with_last]. destruct (is_constant (last p)); reflexivity.
  - rewrite with_last_cons. change (S (length (with_last p (g :: l))) = S (length (g :: l))). rewrite IH. reflexivity.
Qed.

(** The factors before they are divided. *)
Definition raw (p : column) : list (Q * Q) := with_last p (with_first p (inner p (cells p) 1 0%Q)).
Lemma raw_nonneg : forall p, proper p -> Forall nonneg (raw p).
Proof.
  intros p P. apply with_last_nonneg; [exact P|]. apply with_first_nonneg; [exact P|]. apply inner_nonneg; try assumption; try lia. lra.
Qed.
Lemma raw_length : forall p, length (raw p) = cells p.
Proof. intros p. unfold raw. rewrite with_last_length, with_first_length. apply inner_length. Qed.

Lemma number_large : forall p m, (0 <= m)%Q -> (1 <= number p m)%Z /\ ((3 # 2) * m < inject_Z (number p m))%Q.
Proof.
  intros p m M. set (n := (1 + Qfloor ((3 # 2) * m))%Z).
  assert (A : ((3 # 2) * m < inject_Z n)%Q).
  { unfold n. rewrite Z.add_comm. apply Qlt_floor. }
  assert (B : (1 <= n)%Z).
  { unfold n. assert (0 <= Qfloor ((3 # 2) * m))%Z; [|lia]. change 0%Z with (Qfloor 0). apply Qfloor_resp_le. nra. }
  unfold number. fold n. destruct (moving p && (is_constant (first p) || is_constant (last p)))%bool; [|split; assumption].
  split; [lia|]. eapply Qlt_le_trans; [exact A|]. rewrite <- Zle_Qle. lia.
Qed.

Lemma init_mix_is : forall p n fs, init_mix p = Mixes n fs ->
  (n = 0%Z /\ fs = [] /\ (largest (raw p) <= 0)%Q) \/
  exists m, (largest (raw p) <= m)%Q /\ (0 < m)%Q /\ n = number p m /\ fs = map (fun f => (fst f / inject_Z n, snd f / inject_Z n)%Q) (raw p).
Proof.
  intros p n fs H. unfold init_mix in H. fold (raw p) in H.
  set (m := larger (larger (largest (inner p (cells p) 1 0%Q)) (largest (with_first p (inner p (cells p) 1 0%Q)))) (largest (raw p))) in H.
  assert (A : (largest (raw p) <= m)%Q) by apply larger_r.
  assert (N : (0 <= m)%Q) by (eapply Qle_trans; [apply largest_nonneg | exact A]).
  destruct (zero m) eqn:Z0.
  - left. apply zero_iff in Z0. repeat split; try congruence. lra.
  - right. apply zero_not in Z0. destruct (negb (Qle_bool ((3 # 2) * m) int_max)); [discriminate H|]. cbv zeta in H.
    exists m. split; [exact A|]. split; [lra|]. assert (E : n = number p m) by congruence. subst n. split; [reflexivity | congruence].
Qed.

(** * The loop of mixes *)

Lemma mix_loop : forall fs s k, (1 <= k)%nat ->
  let r := fold_left (mix_cell fs) (seq 1 k) s in
  spare r = mixture fs (sol s) k /\
  (forall j, sol r j = if ((1 <=? j) && (j <? k))%nat then mixture fs (sol s) j else sol s j).
Proof.
  intros fs s k K. induction k as [|k IH]; [lia|]. destruct k as [|k].
  - cbv zeta. cbn [seq fold_left]. unfold mix_cell. change (1 <? 1)%nat with false. cbv iota. cbn [save sol spare]. split; [reflexivity|].
    intros j. destruct (Nat.leb_spec 1 j), (Nat.ltb_spec j 1); cbn [andb]; try reflexivity; lia.
  - specialize (IH ltac:(lia)). cbv zeta in *. replace (seq 1 (S (S k))) with (seq 1 (S k) ++ [S (S k)]) by (symmetry; apply (seq_S (S k) 1)).
    rewrite fold_left_app. cbn [fold_left]. set (r := fold_left (mix_cell fs) (seq 1 (S k)) s) in *. destruct IH as [SP SO].
    unfold mix_cell at 1 2. replace (1 <? S (S k))%nat with true by (symmetry; apply Nat.ltb_lt; lia).
    cbn [save spare sol put]. split.
    + unfold mixture. destruct (nth (S (S k) - 1) fs (0, 0)%Q) as [l h]. rewrite !SO.
      replace (S (S k) - 1)%nat with (S k) by lia.
      replace ((1 <=? S k) && (S k <? S k))%nat with false by (symmetry; apply andb_false_iff; right; apply Nat.ltb_ge; lia).
      replace ((1 <=? S (S k) + 1) && (S (S k) + 1 <? S k))%nat with false by (symmetry; apply andb_false_iff; right; apply Nat.ltb_ge; lia).
      replace ((1 <=? S (S k)) && (S (S k) <? S k))%nat with false by (symmetry; apply andb_false_iff; right; apply Nat.ltb_ge; lia).
      reflexivity.
    + intros j. replace (S (S k) - 1)%nat with (S k) by lia. destruct (Nat.eqb_spec j (S k)) as [-> | NE].
      * replace ((1 <=? S k) && (S k <? S (S k)))%nat with true; [exact SP|].
        symmetry. apply andb_true_iff. split; [apply Nat.leb_le | apply Nat.ltb_lt]; lia.
      * rewrite SO. destruct (Nat.leb_spec 1 j), (Nat.ltb_spec j (S k)), (Nat.ltb_spec j (S (S k))); cbn [andb]; try reflexivity; lia.
Qed.

Lemma mix_run_is : forall n fs s j, (1 <= n)%nat ->
  sol (mix_run n fs s) j = if ((1 <=? j) && (j <=? n))%nat then mixture fs (sol s) j else sol s j.
Proof.
  intros n fs s j N. unfold mix_run. destruct (mix_loop fs s n N) as [SP SO]. cbv zeta. cbn [put sol].
  destruct (Nat.eqb_spec j n) as [-> | NE].
  - rewrite SP. replace ((1 <=? n) && (n <=? n))%nat with true; [reflexivity|].
    symmetry. apply andb_true_iff. split; apply Nat.leb_le; lia.
  - rewrite SO. destruct (Nat.leb_spec 1 j), (Nat.ltb_spec j n), (Nat.leb_spec j n); cbn [andb]; try reflexivity; lia.
Qed.

Lemma mixture_is : forall fs c i, (mixture fs c i == low fs i * c (i - 1)%nat + high fs i * c (i + 1)%nat + (1 - low fs i - high fs i) * c i)%Q.
Proof. intros fs c i. unfold mixture, low, high. destruct (nth (i - 1) fs (0, 0)%Q) as [l h]. reflexivity. Qed.

Lemma shift_forward : forall n s j,
  sol (fold_left (fun s i => put s i (sol s (i - 1)%nat)) (rev (seq 1 n)) s) j =
  if ((1 <=? j) && (j <=? n))%nat then sol s (j - 1)%nat else sol s j.
Proof.
  induction n as [|n IH]; intros s j.
  - cbn. destruct j as [|j]; reflexivity.
  - rewrite seq_S, rev_app_distr. cbn [rev app fold_left]. rewrite IH. cbn [put sol]. replace (1 + n)%nat with (S n) by lia.
    destruct (Nat.leb_spec 1 j), (Nat.leb_spec j n), (Nat.leb_spec j (S n)), (Nat.eqb_spec j (S n)), (Nat.eqb_spec (j - 1) (S n)); cbn [andb]; try reflexivity; try lia.
    subst j. reflexivity.
Qed.
Lemma shift_back : forall k a s j,
  sol (fold_left (fun s i => put s i (sol s (i + 1)%nat)) (seq a k) s) j =
  if ((a <=? j) && (j <? a + k))%nat then sol s (j + 1)%nat else sol s j.
Proof.
  induction k as [|k IH]; intros a s j.
  - cbn [seq fold_left]. destruct (Nat.leb_spec a j), (Nat.ltb_spec j (a + 0)); cbn [andb]; try reflexivity; lia.
  - cbn [seq fold_left]. rewrite IH. cbn [put sol].
    destruct (Nat.leb_spec (S a) j), (Nat.ltb_spec j (S a + k)), (Nat.leb_spec a j), (Nat.ltb_spec j (a + S k)), (Nat.eqb_spec j a), (Nat.eqb_spec (j + 1) a); cbn [andb]; try reflexivity; try lia.
    subst j. reflexivity.
Qed.

Lemma total_wd : forall c d n, (forall i, (1 <= i <= n)%nat -> (c i == d i)%Q) -> (total c n == total d n)%Q.
Proof.
  induction n as [|n IH]; intros H; [reflexivity|]. cbn [total]. rewrite IH, (H (S n)) by (try intros; try apply H; lia). reflexivity.
Qed.

(** * The factors of a regular column *)

Definition pair_factor (p : column) (i j : nat) : Q := fst (factor p 0%Q (data p i) (data p j)).

Lemma factor_any : forall p dav i j, dispersive p -> (1 <= i <= cells p)%nat -> (1 <= j <= cells p)%nat ->
  fst (factor p dav (data p i) (data p j)) = pair_factor p i j.
Proof.
  intros p dav i j D A B. unfold pair_factor, factor. cbn [fst]. unfold moving. destruct D as [-> | D]; [reflexivity|].
  destruct (dir p); try reflexivity;
    (unfold harmonic;
     replace (zero (disp (data p i))) with false by (symmetry; apply zero_not; specialize (D i A); lra);
     replace (zero (disp (data p j))) with false by (symmetry; apply zero_not; specialize (D j B); lra); reflexivity).
Qed.

Lemma inner_nth : forall p, dispersive p -> forall k i dav j, (1 <= i)%nat -> (i + k <= cells p + 1)%nat -> (j < k)%nat ->
  nth j (inner p k i dav) (0, 0)%Q =
  (if (1 <? i + j)%nat then pair_factor p (i + j) (i + j - 1) else 0%Q,
   if (i + j <? cells p)%nat then pair_factor p (i + j) (i + j + 1) else 0%Q).
Proof.
  intros p D. induction k as [|k IH]; intros i dav j I1 L J; [lia|]. cbn [inner].
  assert (E : exists dv, (let '(high, dav) := if (i <? cells p)%nat then factor p dav (data p i) (data p (i + 1)) else (0%Q, dav) in
    let '(low, dav) := if (1 <? i)%nat then factor p dav (data p i) (data p (i - 1)) else (0%Q, dav) in
    (low, high) :: inner p k (i + 1) dav) =
    (if (1 <? i)%nat then pair_factor p i (i - 1) else 0%Q, if (i <? cells p)%nat then pair_factor p i (i + 1) else 0%Q) :: inner p k (i + 1) dv).
  { destruct (Nat.ltb_spec i (cells p)) as [A | A].
    - pose proof (factor_any p dav i (i + 1) D ltac:(lia) ltac:(lia)) as F.
      destruct (factor p dav (data p i) (data p (i + 1))) as [h dv]. cbn [fst] in F. subst h.
      destruct (Nat.ltb_spec 1 i) as [B | B]; [|eexists; reflexivity].
      pose proof (factor_any p dv i (i - 1) D ltac:(lia) ltac:(lia)) as F.
      destruct (factor p dv (data p i) (data p (i - 1))) as [l dv']. cbn [fst] in F. subst l. eexists. reflexivity.
    - destruct (Nat.ltb_spec 1 i) as [B | B]; [|eexists; reflexivity].
      pose proof (factor_any p dav i (i - 1) D ltac:(lia) ltac:(lia)) as F.
      destruct (factor p dav (data p i) (data p (i - 1))) as [l dv']. cbn [fst] in F. subst l. eexists. reflexivity. }
  destruct E as (dv & ->). destruct j as [|j]; cbn [nth].
  - rewrite Nat.add_0_r. reflexivity.
  - rewrite IH by lia. replace (i + 1 + j)%nat with (i + S j)%nat by lia. reflexivity.
Qed.

Lemma with_first_nth : forall p l j, (j < length l)%nat ->
  nth j (with_first p l) (0, 0)%Q =
  (if (j =? 0)%nat && is_constant (first p) then edge p (data p 1) else fst (nth j l (0, 0)%Q), snd (nth j l (0, 0)%Q)).
Proof.
  intros p [|f l] j J; [cbn in J; lia|]. cbn [with_first]. destruct (is_constant (first p)).
  - destruct j; cbn [nth Nat.eqb andb]; [destruct f; reflexivity|]. destruct (nth j l (0, 0)%Q); reflexivity.
  - rewrite andb_false_r. destruct (nth j (f :: l) (0, 0)%Q); reflexivity.
Qed.
Lemma with_last_nth : forall p l j, (j < length l)%nat ->
  nth j (with_last p l) (0, 0)%Q =
  (fst (nth j l (0, 0)%Q), if (S j =? length l)%nat && is_constant (last p) then edge p (data p (cells p)) else snd (nth j l (0, 0)%Q)).
Proof.
  intros p l. induction l as [|f l IH]; intros j J; [cbn in J; lia|]. destruct l as [|g l].
  - assert (j = O) by (cbn in J; lia). subst j. cbn [with_last length Nat.eqb nth]. destruct (is_constant (last p)); destruct f; reflexivity.
  - rewrite with_last_cons. destruct j as [|j].
    + cbn [nth length Nat.eqb andb]. destruct f; reflexivity.
    + cbn [nth]. change (length (f :: g :: l)) with (S (length (g :: l))). rewrite IH by (cbn [length] in *; lia).
      change (S (S j) =? S (length (g :: l)))%nat with (S j =? length (g :: l))%nat. reflexivity.
Qed.

Lemma raw_nth : forall p i, dispersive p -> (1 <= i <= cells p)%nat ->
  nth (i - 1) (raw p) (0, 0)%Q =
  (if (1 <? i)%nat then pair_factor p i (i - 1) else if is_constant (first p) then edge p (data p 1) else 0%Q,
   if (i <? cells p)%nat then pair_factor p i (i + 1) else if is_constant (last p) then edge p (data p (cells p)) else 0%Q).
Proof.
  intros p i D I1. unfold raw.
  rewrite with_last_nth by (rewrite with_first_length, inner_length; lia).
  rewrite with_first_nth by (rewrite inner_length; lia).
  rewrite inner_nth by (try assumption; lia). rewrite with_first_length, inner_length. cbn [fst snd].
  replace (1 + (i - 1))%nat with i by lia. replace (S (i - 1)) with i by lia.
  destruct (Nat.ltb_spec 1 i) as [A | A], (Nat.ltb_spec i (cells p)) as [B | B].
  - replace (i - 1 =? 0)%nat with false by (symmetry; apply Nat.eqb_neq; lia). replace (i =? cells p)%nat with false by (symmetry; apply Nat.eqb_neq; lia). reflexivity.
  - replace (i - 1 =? 0)%nat with false by (symmetry; apply Nat.eqb_neq; lia). replace (i =? cells p)%nat with true by (symmetry; apply Nat.eqb_eq; lia).
    cbn [andb]. destruct (is_constant (last p)); reflexivity.
  - replace (i - 1 =? 0)%nat with true by (symmetry; apply Nat.eqb_eq; lia). replace (i =? cells p)%nat with false by (symmetry; apply Nat.eqb_neq; lia).
    cbn [andb]. destruct (is_constant (first p)); reflexivity.
  - replace (i - 1 =? 0)%nat with true by (symmetry; apply Nat.eqb_eq; lia). replace (i =? cells p)%nat with true by (symmetry; apply Nat.eqb_eq; lia).
    cbn [andb]. destruct (is_constant (last p)), (is_constant (first p)); reflexivity.
Qed.

Lemma scaled_nth : forall (l : list (Q * Q)) k i, (i < length l)%nat ->
  nth i (map (fun f => (fst f / k, snd f / k)%Q) l) (0, 0)%Q = (fst (nth i l (0, 0)%Q) / k, snd (nth i l (0, 0)%Q) / k)%Q.
Proof.
  intros l k i L. set (g := fun f : Q * Q => (fst f / k, snd f / k)%Q).
  rewrite (nth_indep _ (0, 0)%Q (g (0, 0)%Q)) by (rewrite map_length; exact L). rewrite map_nth. reflexivity.
Qed.
