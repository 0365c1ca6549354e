(** Proofs about sorting in TSPROC. *)
From Coq Require Import List ZArith QArith Bool Arith Lia Lqa Permutation.
From Verif Require Import Qx Qsort_Model.
Import ListNotations.
Local Open Scope Q_scope.

Lemma assign_length l : forall i x, length (assign l i x) = length l.
Proof. induction l as [|y l IH]; intros [|i] x; cbn; auto. Qed.
Lemma assign_nth l : forall i x k, nth_error (assign l i x) k = if ((k =? i) && (k <? length l))%nat then Some x else nth_error l k.
Proof.
  induction l as [|y l IH]; intros [|i] x [|k]; cbn [assign nth_error length Nat.eqb andb]; try reflexivity.
  - now rewrite andb_false_r.
  - rewrite IH. reflexivity.
Qed.
Lemma assign_same l : forall i x, nth_error l i = Some x -> assign l i x = l.
Proof. induction l as [|y l IH]; intros [|i] x E; cbn in *; try congruence. f_equal. now apply IH. Qed.
Lemma assign_perm l : forall i x y, nth_error l i = Some y -> Permutation (y :: assign l i x) (x :: l).
Proof.
  induction l as [|z l IH]; intros [|i] x y E; cbn in *; try discriminate.
  - injection E as ->. apply perm_swap.
  - specialize (IH i x y E). rewrite perm_swap. rewrite IH. apply perm_swap.
Qed.

(** Only the places from [a] to [b] have been exchanged among each other. *)
Definition Within (a b : nat) (l l' : list item) : Prop :=
  Permutation l l' /\ (forall k, (k < a \/ b < k)%nat -> nth_error l' k = nth_error l k) /\
  (forall k, (a <= k <= b)%nat -> exists k', (a <= k' <= b)%nat /\ nth_error l' k = nth_error l k').
Lemma within_refl a b l : Within a b l l.
Proof. split; [reflexivity|]. split; [reflexivity|]. intros k K. exists k. now split. Qed.
Lemma within_trans a b l1 l2 l3 : Within a b l1 l2 -> Within a b l2 l3 -> Within a b l1 l3.
Proof.
  intros (P & O & I) (P' & O' & I'). split; [now rewrite P|]. split.
  - intros k K. rewrite O' by exact K. now apply O.
  - intros k K. destruct (I' k K) as (m & M & E). destruct (I m M) as (m' & M' & E'). exists m'. split; [exact M' | congruence].
Qed.
Lemma within_wide a b c d l l' : Within a b l l' -> (c <= a)%nat -> (b <= d)%nat -> Within c d l l'.
Proof.
  intros (P & O & I) A B. split; [exact P|]. split; [intros k K; apply O; lia|]. intros k K.
  destruct (le_lt_dec a k) as [X | X]; [destruct (le_lt_dec k b) as [Y | Y]|].
  - destruct (I k (conj X Y)) as (m & M & E). exists m. split; [lia | exact E].
  - exists k. split; [exact K | apply O; lia].
  - exists k. split; [exact K | apply O; lia].
Qed.
Lemma within_length a b l l' : Within a b l l' -> length l' = length l.
Proof. intros (P & _). symmetry. now apply Permutation_length. Qed.

Lemma nth_some (l : list item) k : (k < length l)%nat -> exists x, nth_error l k = Some x.
Proof. intros K. destruct (nth_error l k) eqn:E; [eauto|]. apply nth_error_None in E. lia. Qed.
Lemma nth_range (l : list item) k x : nth_error l k = Some x -> (k < length l)%nat.
Proof. intros E. apply nth_error_Some. congruence. Qed.

Lemma swap_ok l i j x y : nth_error l i = Some x -> nth_error l j = Some y -> i <> j ->
  exists l', swap l i j = Some l' /\ nth_error l' i = Some y /\ nth_error l' j = Some x /\
    (forall k, k <> i -> k <> j -> nth_error l' k = nth_error l k) /\ Permutation l l'.
Proof.
  intros X Y N. pose proof (nth_range _ _ _ X) as LX. pose proof (nth_range _ _ _ Y) as LY. unfold swap. rewrite X, Y. eexists. split; [reflexivity|].
  assert (NE : forall k i : nat, k <> i -> (k =? i)%nat = false) by (intros; now apply Nat.eqb_neq).
  split; [|split; [|split]].
  - rewrite assign_nth, (NE i j N). cbn [andb]. rewrite assign_nth, Nat.eqb_refl. cbn [andb]. rewrite (proj2 (Nat.ltb_lt _ _) LX). reflexivity.
  - rewrite assign_nth, Nat.eqb_refl, assign_length, (proj2 (Nat.ltb_lt _ _) LY). reflexivity.
  - intros k A B. rewrite assign_nth, (NE k j B). cbn [andb]. rewrite assign_nth, (NE k i A). reflexivity.
  - assert (Y' : nth_error (assign l i y) j = Some y) by (rewrite assign_nth, (NE j i (not_eq_sym N)); exact Y).
    pose proof (assign_perm l i y x X) as P1. pose proof (assign_perm (assign l i y) j x y Y') as P2.
    apply (Permutation_cons_inv (a := y)). rewrite P2. symmetry. exact P1.
Qed.
Lemma swap_within l i j a b l' x y : nth_error l i = Some x -> nth_error l j = Some y -> i <> j -> swap l i j = Some l' ->
  (a <= i <= b)%nat -> (a <= j <= b)%nat -> Within a b l l'.
Proof.
  intros X Y N E A B. destruct (swap_ok l i j x y X Y N) as (l2 & E2 & I1 & I2 & O & P). rewrite E in E2. injection E2 as <-.
  split; [exact P|]. split; [intros k K; apply O; lia|]. intros k K.
  destruct (Nat.eq_dec k i) as [-> | Ni]; [exists j; split; [exact B | congruence]|].
  destruct (Nat.eq_dec k j) as [-> | Nj]; [exists i; split; [exact A | congruence]|]. exists k. split; [exact K | now apply O].
Qed.

(** Values of the places from [a] to [b]. *)
Definition Range (l : list item) (a b : nat) (P : Q -> Prop) : Prop := forall k x, (a <= k <= b)%nat -> nth_error l k = Some x -> P (fst x).
Lemma range_within a b c d l l' P : Within a b l l' -> Range l c d P -> ((c <= a /\ b <= d) \/ b < c \/ d < a)%nat -> Range l' c d P.
Proof.
  intros (_ & O & I) R H k x K E. destruct (le_lt_dec a k) as [X | X]; [destruct (le_lt_dec k b) as [Y | Y]|].
  - destruct H as [H | H]; [|lia]. destruct (I k (conj X Y)) as (m & M & E'). apply (R m x); [lia | congruence].
  - apply (R k x K). rewrite <- O by lia. exact E.
  - apply (R k x K). rewrite <- O by lia. exact E.
Qed.
Definition Ascending (l : list item) (a b : nat) : Prop :=
  forall i j x y, (a <= i)%nat -> (i <= j)%nat -> (j <= b)%nat -> nth_error l i = Some x -> nth_error l j = Some y -> fst x <= fst y.

Lemma inner_ok : forall n l i j b, (i < j)%nat -> (b = j + n - 1)%nat -> (j + n <= length l)%nat -> (forall x, nth_error l i = Some x -> Range l (S i) (j - 1) (fun v => fst x <= v)) ->
  exists l', inner l i j n = Some l' /\ Within i b l l' /\ (forall x, nth_error l' i = Some x -> Range l' (S i) b (fun v => fst x <= v)).
Proof.
  induction n as [|n IH]; intros l i j b IJ B L R.
  - exists l. split; [reflexivity|]. split; [apply within_refl|]. intros x X. intros k y K. apply (R x X). lia.
  - cbn [inner]. destruct (nth_some l i ltac:(lia)) as [x X]. destruct (nth_some l j ltac:(lia)) as [y Y]. rewrite X, Y. destruct (qlt (fst y) (fst x)) eqn:E; qprop.
    + destruct (swap_ok l i j x y X Y ltac:(lia)) as (l2 & E2 & I1 & I2 & O & P). rewrite E2.
      pose proof (swap_within l i j i b l2 x y X Y ltac:(lia) E2 ltac:(lia) ltac:(lia)) as W.
      destruct (IH l2 i (S j) b ltac:(lia) ltac:(lia)) as (l3 & E3 & W3 & R3).
      { rewrite (within_length _ _ _ _ W). lia. }
      { intros z Z k w K Kw. rewrite I1 in Z. injection Z as <-. destruct (Nat.eq_dec k j) as [-> | N].
        - rewrite I2 in Kw. injection Kw as <-. lra.
        - rewrite O in Kw by lia. pose proof (R x X k w ltac:(lia) Kw). cbv beta in *. lra. }
      exists l3. split; [exact E3|]. split; [now apply (within_trans _ _ _ l2)|exact R3].
    + apply IH; try lia. intros z Z k w K Kw. rewrite X in Z. injection Z as <-. destruct (Nat.eq_dec k j) as [-> | N].
      * rewrite Y in Kw. injection Kw as <-. exact E.
      * apply (R x X k w); [lia | exact Kw].
Qed.

Lemma interchange_ok : forall n l i b, (b = i + n)%nat -> (b < length l)%nat ->
  exists l', interchange l i b n = Some l' /\ Within i b l l' /\ Ascending l' i b.
Proof.
  induction n as [|n IH]; intros l i b B L.
  - exists l. split; [reflexivity|]. split; [apply within_refl|]. intros p q x y A1 A2 A3 X Y. assert (p = q) by lia. subst. rewrite X in Y. injection Y as <-. lra.
  - cbn [interchange]. destruct (inner_ok (b - i) l i (S i) b ltac:(lia) ltac:(lia) ltac:(lia)) as (l2 & E2 & W2 & R2).
    { intros x X k y K. lia. }
    rewrite E2. destruct (IH l2 (S i) b ltac:(lia)) as (l3 & E3 & W3 & A3). { rewrite (within_length _ _ _ _ W2). exact L. }
    exists l3. split; [exact E3|]. split; [apply (within_trans _ _ _ l2); [exact W2 | apply (within_wide _ _ _ _ _ _ W3); lia]|].
    intros p q x y Q1 Q2 Q3 X Y. destruct (Nat.eq_dec p i) as [-> | N]; [|apply (A3 p q x y); try assumption; lia].
    assert (X2 : nth_error l2 i = Some x) by (destruct W3 as (_ & O & _); rewrite <- O by lia; exact X).
    destruct (Nat.eq_dec q i) as [-> | N]; [rewrite X in Y; injection Y as <-; lra|].
    assert (RR : Range l3 (S i) b (fun v => fst x <= v)) by (apply (range_within _ _ _ _ _ _ _ W3 (R2 x X2)); left; lia).
    apply (RR q y); [lia | exact Y].
Qed.

Lemma scan_up_ok : forall fuel l r i k x, (i <= k)%nat -> nth_error l k = Some x -> r <= fst x -> (k - i < fuel)%nat ->
  exists m y, scan_up fuel l r i = Some m /\ (i <= m <= k)%nat /\ nth_error l m = Some y /\ r <= fst y /\
    (forall q z, (i <= q < m)%nat -> nth_error l q = Some z -> fst z < r).
Proof.
  induction fuel as [|fuel IH]; intros l r i k x IK X R F; [lia|]. cbn [scan_up]. pose proof (nth_range _ _ _ X) as LX. destruct (nth_some l i ltac:(lia)) as [y Y]. rewrite Y.
  destruct (qle r (fst y)) eqn:E; qprop.
  - exists i, y. repeat split; try assumption; try lia.
  - assert (i <> k) by (intros e; rewrite e, X in Y; injection Y as e2; rewrite e2 in R; lra).
    destruct (IH l r (S i) k x ltac:(lia) X R ltac:(lia)) as (m & w & E1 & M & W & V & B). exists m, w. repeat split; try assumption; try lia.
    intros q z Q0 Z. destruct (Nat.eq_dec q i) as [-> | N]; [rewrite Y in Z; injection Z as <-; exact E | apply (B q z); [lia | exact Z]].
Qed.
Lemma scan_down_ok : forall j l r k x, (k < j)%nat -> (j <= length l)%nat -> nth_error l k = Some x -> fst x <= r ->
  exists m y, scan_down l r j = Some m /\ (k <= m < j)%nat /\ nth_error l m = Some y /\ fst y <= r /\
    (forall q z, (m < q < j)%nat -> nth_error l q = Some z -> r < fst z).
Proof.
  induction j as [|j IH]; intros l r k x KJ L X R; [lia|]. cbn [scan_down]. destruct (nth_some l j ltac:(lia)) as [y Y]. rewrite Y.
  destruct (qle (fst y) r) eqn:E; qprop.
  - exists j, y. repeat split; try assumption; try lia.
  - assert (j <> k) by (intros e; rewrite e, X in Y; injection Y as e2; rewrite e2 in R; lra).
    destruct (IH l r k x ltac:(lia) ltac:(lia) X R) as (m & w & E1 & M & W & V & B). exists m, w. repeat split; try assumption; try lia.
    intros q z Q0 Z. destruct (Nat.eq_dec q j) as [-> | N]; [rewrite Y in Z; injection Z as <-; exact E | apply (B q z); [lia | exact Z]].
Qed.

Lemma partition_ok a b r : (a < b)%nat -> forall fuel l i j, (b < length l)%nat -> (a <= i)%nat -> (j <= S b)%nat -> (j - i < fuel)%nat ->
  (forall k x, (a <= k < i)%nat -> nth_error l k = Some x -> fst x <= r) -> (forall k x, (j <= k <= b)%nat -> nth_error l k = Some x -> r <= fst x) ->
  (exists k x, (i <= k <= b)%nat /\ nth_error l k = Some x /\ r <= fst x) -> (exists k x, (a <= k < j)%nat /\ nth_error l k = Some x /\ fst x <= r) ->
  ((i = a /\ j = S b /\ exists m x, (a <= m < b)%nat /\ nth_error l m = Some x /\ fst x == r) \/ (a < i /\ j <= b))%nat ->
  exists l' i' j', partition fuel l r i j = Some (l', i', j') /\ Within a b l l' /\ (j' < i' /\ a <= j' < b /\ a < i' <= S b)%nat /\
    (forall k x, (a <= k < i')%nat -> nth_error l' k = Some x -> fst x <= r) /\ (forall k x, (j' < k <= b)%nat -> nth_error l' k = Some x -> r <= fst x).
Proof.
  intros AB. induction fuel as [|fuel IH]; intros l i j L AI JB F LO HI (k1 & x1 & K1 & X1 & V1) (k2 & x2 & K2 & X2 & V2) CASE; [lia|].
  cbn [partition].
  destruct (scan_up_ok (length l) l r i k1 x1 ltac:(lia) X1 V1 ltac:(lia)) as (m & y & E1 & M & Y & VY & BY).
  destruct (scan_down_ok j l r k2 x2 ltac:(lia) ltac:(lia) X2 V2) as (n & z & E2 & N & Z & VZ & BZ).
  rewrite E1, E2. destruct (m <? n)%nat eqn:C1; [apply Nat.ltb_lt in C1 | apply Nat.ltb_ge in C1].
  - destruct (swap_ok l m n y z Y Z ltac:(lia)) as (l2 & E3 & I1 & I2 & O & P). rewrite E3.
    pose proof (swap_within l m n a b l2 y z Y Z ltac:(lia) E3 ltac:(lia) ltac:(lia)) as W.
    destruct (IH l2 (S m) n) as (l3 & i' & j' & E4 & W4 & R1 & R2 & R3).
    + rewrite (within_length _ _ _ _ W). exact L.
    + lia.
    + lia.
    + lia.
    + intros k x K X. destruct (Nat.eq_dec k m) as [-> | NE]; [rewrite I1 in X; injection X as <-; exact VZ|].
      rewrite O in X by lia. destruct (le_lt_dec i k) as [G | G]; [pose proof (BY k x ltac:(lia) X); lra | apply (LO k x ltac:(lia) X)].
    + intros k x K X. destruct (Nat.eq_dec k n) as [-> | NE]; [rewrite I2 in X; injection X as <-; exact VY|].
      rewrite O in X by lia. destruct (le_lt_dec j k) as [G | G]; [apply (HI k x ltac:(lia) X) | pose proof (BZ k x ltac:(lia) X); lra].
    + exists n, y. split; [lia|]. split; assumption.
    + exists m, z. split; [lia|]. split; assumption.
    + right. lia.
    + exists l3, i', j'. split; [exact E4|]. split; [now apply (within_trans _ _ _ l2)|]. split; [exact R1|]. split; assumption.
  - assert (LO' : forall k x, (a <= k < m)%nat -> nth_error l k = Some x -> fst x <= r).
    { intros k x K X. destruct (le_lt_dec i k) as [G | G]; [pose proof (BY k x ltac:(lia) X); lra | apply (LO k x ltac:(lia) X)]. }
    assert (HI' : forall k x, (n < k <= b)%nat -> nth_error l k = Some x -> r <= fst x).
    { intros k x K X. destruct (le_lt_dec j k) as [G | G]; [apply (HI k x ltac:(lia) X) | pose proof (BZ k x ltac:(lia) X); lra]. }
    assert (PR : (a <= n < b /\ m <= b /\ (a < m \/ m = n))%nat).
    { destruct CASE as [(-> & -> & p & x & Pm & X & V) | [C2 C3]]; [|lia].
      assert (m <= p)%nat by (destruct (le_lt_dec m p); [assumption | pose proof (BY p x ltac:(lia) X); lra]).
      assert (p <= n)%nat by (destruct (le_lt_dec p n); [assumption | pose proof (BZ p x ltac:(lia) X); lra]). lia. }
    destruct (m =? n)%nat eqn:C2; [apply Nat.eqb_eq in C2 | apply Nat.eqb_neq in C2].
    + subst n. exists l, (S m), m. split; [reflexivity|]. split; [apply within_refl|]. split; [lia|]. split; [|exact HI'].
      intros k x K X. destruct (Nat.eq_dec k m) as [-> | NE]; [rewrite Z in X; injection X as <-; exact VZ | apply (LO' k x); [lia | exact X]].
    + exists l, m, n. split; [reflexivity|]. split; [apply within_refl|]. split; [lia|]. split; assumption.
Qed.

Lemma quick_ok : forall fuel l a b, (b - a < fuel)%nat -> (a <= b)%nat -> (b < length l)%nat ->
  exists l', quick fuel l a b = Some l' /\ Within a b l l' /\ Ascending l' a b.
Proof.
  induction fuel as [|fuel IH]; intros l a b F AB L; [lia|]. cbn [quick]. destruct (b <? a + 6)%nat eqn:C; [apply Nat.ltb_lt in C | apply Nat.ltb_ge in C].
  - apply interchange_ok; lia.
  - assert (MID : (a <= Nat.div (a + b) 2 < b)%nat) by (split; [apply Nat.div_le_lower_bound; lia | apply Nat.div_lt_upper_bound; lia]).
    destruct (nth_some l (Nat.div (a + b) 2) ltac:(lia)) as [x X]. rewrite X.
    destruct (partition_ok a b (fst x) ltac:(lia) (S (length l)) l a (S b) L ltac:(lia) ltac:(lia) ltac:(lia)) as (l2 & i & j & E & W & R1 & LO & HI).
    + intros; lia.
    + intros; lia.
    + exists (Nat.div (a + b) 2), x. split; [lia|]. split; [exact X | lra].
    + exists (Nat.div (a + b) 2), x. split; [lia|]. split; [exact X | lra].
    + left. split; [reflexivity|]. split; [reflexivity|]. exists (Nat.div (a + b) 2), x. split; [lia|]. split; [exact X | reflexivity].
    + rewrite E. pose proof (within_length _ _ _ _ W) as L2.
      assert (ST1 : exists l3, (if (a <? j)%nat then quick fuel l2 a j else Some l2) = Some l3 /\ Within a j l2 l3 /\ Ascending l3 a j).
      { destruct (a <? j)%nat eqn:C1; [apply Nat.ltb_lt in C1; apply IH; lia | apply Nat.ltb_ge in C1].
        exists l2. split; [reflexivity|]. split; [apply within_refl|]. intros p q y z A1 A2 A3 Y Z. assert (p = q) by lia. subst. rewrite Y in Z. injection Z as <-. lra. }
      destruct ST1 as (l3 & E3 & W3 & A3). rewrite E3. pose proof (within_length _ _ _ _ W3) as L3.
      assert (ST2 : exists l4, (if (i <? b)%nat then quick fuel l3 i b else Some l3) = Some l4 /\ Within i b l3 l4 /\ Ascending l4 i b).
      { destruct (i <? b)%nat eqn:C1; [apply Nat.ltb_lt in C1; apply IH; lia | apply Nat.ltb_ge in C1].
        exists l3. split; [reflexivity|]. split; [apply within_refl|]. intros p q y z A1 A2 A4 Y Z. assert (p = q) by lia. subst. rewrite Y in Z. injection Z as <-. lra. }
      destruct ST2 as (l4 & E4 & W4 & A4). exists l4. split; [exact E4|]. split.
      { apply (within_trans _ _ _ l2 _ W). apply (within_trans _ _ _ l3); [apply (within_wide _ _ _ _ _ _ W3) | apply (within_wide _ _ _ _ _ _ W4)]; lia. }
      assert (B1 : Range l4 a j (fun v => v <= fst x)).
      { apply (range_within _ _ _ _ _ _ _ W4); [|lia]. apply (range_within _ _ _ _ _ _ _ W3); [|lia]. intros k y K. apply LO. lia. }
      assert (B2 : Range l4 i b (fun v => fst x <= v)).
      { apply (range_within _ _ _ _ _ _ _ W4); [|lia]. apply (range_within _ _ _ _ _ _ _ W3); [|lia]. intros k y K. apply HI. lia. }
      assert (B3 : forall k y, (j < k < i)%nat -> nth_error l4 k = Some y -> fst y == fst x).
      { intros k y K Y. destruct W3 as (_ & O3 & _). destruct W4 as (_ & O4 & _). rewrite O4, O3 in Y by lia.
        pose proof (LO k y ltac:(lia) Y). pose proof (HI k y ltac:(lia) Y). lra. }
      intros p q y z P1 P2 P3 Y Z.
      destruct (le_lt_dec q j) as [G | G].
      { destruct W4 as (_ & O4 & _). rewrite O4 in Y, Z by lia. apply (A3 p q y z); try assumption; lia. }
      destruct (le_lt_dec i p) as [G' | G']; [apply (A4 p q y z); try assumption; lia|].
      assert (fst y <= fst x) by (destruct (le_lt_dec p j) as [H | H]; [apply (B1 p y); [lia | exact Y] | rewrite (B3 p y ltac:(lia) Y); lra]).
      assert (fst x <= fst z) by (destruct (le_lt_dec i q) as [H' | H']; [apply (B2 q z); [lia | exact Z] | rewrite (B3 q z ltac:(lia) Z); lra]). lra.
Qed.
