(** C125: sorting, medians and quantiles of TSPROC. *)
From Coq Require Import List ZArith QArith Qround Bool Arith Lia Lqa Permutation.
From Verif Require Import Qx Qsort_Model Qsort_Spec Qsort_Proofs.
Import ListNotations.
Local Open Scope Q_scope.

Lemma map_fst_combine (a : list Q) : forall b : list nat, length a = length b -> map fst (combine a b) = a.
Proof. induction a as [|x a IH]; intros [|y b] L; cbn in *; try discriminate; [reflexivity|]. f_equal. apply IH. lia. Qed.
Lemma map_snd_combine (a : list Q) : forall b : list nat, length a = length b -> map snd (combine a b) = b.
Proof. induction a as [|x a IH]; intros [|y b] L; cbn in *; try discriminate; [reflexivity|]. f_equal. apply IH. lia. Qed.
Lemma combine_seq_in (a : list Q) : forall k v o, In (v, o) (combine a (seq k (length a))) -> (k <= o)%nat /\ nth_error a (o - k) = Some v.
Proof.
  induction a as [|x a IH]; intros k v o I; [destruct I|]. cbn [length seq combine] in I. destruct I as [E | I].
  - injection E as -> ->. split; [lia|]. rewrite Nat.sub_diag. reflexivity.
  - destruct (IH (S k) v o I) as [A B]. split; [lia|]. replace (o - k)%nat with (S (o - S k)) by lia. exact B.
Qed.

(** C125: any numbers are sorted from the lowest to the highest without reading outside of the array; the order given out tells for each of
    them where it was, and tells each place once. *)
Theorem C125_sort : forall data, exists l, quick_sort data = Some l /\ Arranged data (map fst l) /\ Permutation (seq 1 (length data)) (map snd l) /\
  (forall v o, In (v, o) l -> Nth_lowest data o v).
Proof.
  intros data. unfold quick_sort. destruct data as [|d r].
  { exists []. split; [reflexivity|]. split; [split; [reflexivity | intros [|i] j x y _ E; discriminate E]|]. split; [reflexivity | intros v o []]. }
  set (data := d :: r). assert (N : (1 <= length data)%nat) by (cbn; lia). clearbody data.
  destruct (quick_ok (S (length data)) (combine data (seq 1 (length data))) 0 (length data - 1) ltac:(lia) ltac:(lia)) as (l & E & (P & _) & A).
  { rewrite combine_length, seq_length. lia. }
  exists l. split; [exact E|]. assert (LL : length l = length data) by (rewrite <- (Permutation_length P), combine_length, seq_length; lia).
  pose proof (Permutation_map fst P) as P1. rewrite map_fst_combine in P1 by now rewrite seq_length.
  pose proof (Permutation_map snd P) as P2. rewrite map_snd_combine in P2 by now rewrite seq_length.
  split; [|split; [exact P2|]].
  - split; [exact P1|]. intros i j x y IJ X Y. rewrite nth_error_map in X, Y. destruct (nth_error l i) as [x'|] eqn:EX; [|discriminate]. destruct (nth_error l j) as [y'|] eqn:EY; [|discriminate].
    injection X as <-. injection Y as <-. apply (A i j x' y' ltac:(lia) IJ); [apply nth_range in EY; lia | exact EX | exact EY].
  - intros v o I. apply (Permutation_in _ (Permutation_sym P)) in I. now apply combine_seq_in in I.
Qed.
Print Assumptions C125_sort.

Lemma sorted_ok data : exists s, sorted_values data = Some s /\ Arranged data s /\ length s = length data.
Proof.
  destruct (C125_sort data) as (l & E & A & _). exists (map fst l). unfold sorted_values. rewrite E. split; [reflexivity|]. split; [exact A|].
  symmetry. apply Permutation_length. apply A.
Qed.
Lemma nth_val (s : list Q) k : (k < length s)%nat -> exists x, nth_error s k = Some x.
Proof. intros K. destruct (nth_error s k) eqn:E; [eauto|]. apply nth_error_None in E. lia. Qed.

Lemma nth_firstn (s : list Q) : forall k i, (i < k)%nat -> nth_error (firstn k s) i = nth_error s i.
Proof. induction s as [|x s IH]; intros [|k] [|i] L; cbn; try reflexivity; try lia. apply IH. lia. Qed.
Lemma half_low data s k m x : Arranged data s -> nth_error s k = Some x -> x <= m -> (length data <= 2 * S k)%nat -> Half data (fun v => v <= m).
Proof.
  intros [P A] X M L. exists (firstn (S k) s), (skipn (S k) s). rewrite firstn_skipn. split; [exact P|]. split.
  - apply Forall_forall. intros v V. apply In_nth_error in V. destruct V as [i I]. assert (IL : (i < S k)%nat).
    { assert (i < length (firstn (S k) s))%nat by (apply nth_error_Some; congruence). rewrite firstn_length in H. lia. }
    rewrite nth_firstn in I by exact IL. pose proof (A i k v x ltac:(lia) I X). lra.
  - rewrite firstn_length. assert (k < length s)%nat by (apply nth_error_Some; congruence). lia.
Qed.
Lemma nth_skipn (s : list Q) : forall k i, nth_error (skipn k s) i = nth_error s (k + i).
Proof. induction s as [|x s IH]; intros [|k] i; cbn; try reflexivity; [now destruct i | apply IH]. Qed.
Lemma half_high data s k m x : Arranged data s -> nth_error s k = Some x -> m <= x -> (length data <= 2 * (length data - k))%nat -> Half data (fun v => m <= v).
Proof.
  intros [P A] X M L. exists (skipn k s), (firstn k s). split; [rewrite P, <- (firstn_skipn k s) at 1; apply Permutation_app_comm|]. split.
  - apply Forall_forall. intros v V. apply In_nth_error in V. destruct V as [i I]. rewrite nth_skipn in I. pose proof (A k (k + i)%nat x v ltac:(lia) X I). lra.
  - rewrite skipn_length, <- (Permutation_length P). exact L.
Qed.

(** C125: the median is the middle one of the numbers, or the mean of the two in the middle; half of the numbers are not above it and half not
    below it. *)
Theorem C125_median : forall data, data <> [] -> exists s m, Arranged data s /\ median data = Some m /\
  (forall h, length data = (2 * h + 1)%nat -> Nth_lowest s (h + 1) m) /\
  (forall h x y, length data = (2 * h)%nat -> Nth_lowest s h x -> Nth_lowest s (h + 1) y -> m == (x + y) / 2) /\
  Half data (fun v => v <= m) /\ Half data (fun v => m <= v).
Proof.
  intros data N. destruct (sorted_ok data) as (s & E & A & L). exists s. unfold median. cbv zeta. rewrite E.
  destruct (1 <? length data)%nat eqn:C; [apply Nat.ltb_lt in C | apply Nat.ltb_ge in C].
  - pose proof (Nat.div_mod (length data) 2 ltac:(lia)) as D. set (h := Nat.div (length data) 2) in *. destruct (Nat.odd (length data)) eqn:O.
    + assert (D1 : length data = (2 * h + 1)%nat).
      { apply Nat.odd_spec in O. destruct O as [m O]. pose proof (Nat.mod_upper_bound (length data) 2 ltac:(lia)). lia. }
      destruct (nth_val s h ltac:(lia)) as [m M]. exists m. split; [exact A|]. split; [exact M|]. split.
      { intros h' H. assert (h' = h) by lia. subst h'. split; [lia|]. replace (h + 1 - 1)%nat with h by lia. exact M. }
      split; [intros; lia|]. split; [apply (half_low data s h m m A M); [lra | lia] | apply (half_high data s h m m A M); [lra | lia]].
    + assert (D1 : length data = (2 * h)%nat).
      { rewrite <- Nat.negb_even in O. apply negb_false_iff, Nat.even_spec in O. destruct O as [m O]. pose proof (Nat.mod_upper_bound (length data) 2 ltac:(lia)). lia. }
      destruct (nth_val s (h - 1) ltac:(lia)) as [x X]. destruct (nth_val s h ltac:(lia)) as [y Y]. rewrite X, Y. exists ((x + y) / 2). split; [exact A|]. split; [reflexivity|].
      pose proof (proj2 A (h - 1)%nat h x y ltac:(lia) X Y) as XY.
      assert (H2 : (x + y) / 2 == (1 # 2) * (x + y)) by field.
      split; [intros; lia|]. split.
      { intros h' x' y' H [_ X'] [_ Y']. assert (h' = h) by lia. subst h'. replace (h + 1 - 1)%nat with h in Y' by lia. rewrite X in X'. rewrite Y in Y'. injection X' as <-. injection Y' as <-. reflexivity. }
      split; [apply (half_low data s (h - 1) _ x A X); [rewrite H2; lra | lia] | apply (half_high data s h _ y A Y); [rewrite H2; lra | lia]].
  - destruct data as [|d [|d2 r]]; [congruence| |cbn in C; lia]. cbn [nth_error]. exists d. split; [exact A|]. split; [reflexivity|].
    assert (S1 : s = [d]) by (destruct A as [P _]; now apply Permutation_length_1_inv in P). subst s.
    split; [intros h H; cbn in H; assert (h = 0)%nat by lia; subst h; split; [lia | reflexivity]|]. split; [intros h x y H; cbn in H; lia|].
    split; (exists [d], []; split; [reflexivity|]; split; [constructor; [lra | constructor] | cbn; lia]).
Qed.
Print Assumptions C125_median.

Lemma at_index_ok s p : s <> [] -> 0 <= p -> exists v, at_index s p = Some v.
Proof.
  intros N P. unfold at_index. cbv zeta. destruct (Nat.ltb_spec (Nat.max (Z.to_nat (trunc p)) 1) (length s)) as [C | C].
  - destruct (nth_val s (Nat.max (Z.to_nat (trunc p)) 1 - 1) ltac:(lia)) as [x X]. destruct (nth_val s _ C) as [y Y]. rewrite X, Y. eauto.
  - destruct s; [congruence|]. apply nth_val. cbn. lia.
Qed.
(** Pieces of the curve of quantiles. *)
Lemma at_index_piece data s p k : Arranged data s -> inject_Z (Z.of_nat k) <= p -> p < inject_Z (Z.of_nat (S k)) -> (1 <= k)%nat ->
  (forall x y, (k < length s)%nat -> nth_error s (k - 1) = Some x -> nth_error s k = Some y -> at_index s p = Some (x + (y - x) * (p - inject_Z (Z.of_nat k)))) /\
  ((length s <= k)%nat -> at_index s p = nth_error s (length s - 1)).
Proof.
  intros A K1 K2 K. assert (T : Z.to_nat (trunc p) = k).
  { assert (0 <= inject_Z (Z.of_nat k)) by (change 0 with (inject_Z 0); rewrite <- Zle_Qle; lia). rewrite trunc_floor by lra.
    assert (Z.of_nat k <= Qfloor p)%Z by now apply floor_ge. assert (Qfloor p < Z.of_nat (S k))%Z by now apply floor_lt. lia. }
  unfold at_index. cbv zeta. rewrite T. replace (Nat.max k 1) with k by lia. split.
  - intros x y KL X Y. rewrite (proj2 (Nat.ltb_lt _ _) KL), X, Y. reflexivity.
  - intros KL. rewrite (proj2 (Nat.ltb_ge _ _) KL). reflexivity.
Qed.
Lemma at_index_first s p : 0 <= p -> p < 1 -> (1 < length s)%nat -> forall x y, nth_error s 0 = Some x -> nth_error s 1 = Some y -> at_index s p = Some (x + (y - x) * (p - 1)).
Proof.
  intros P0 P1 L x y X Y. assert (T : trunc p = 0%Z).
  { rewrite trunc_floor by lra. assert (0 <= Qfloor p)%Z by (apply floor_ge; exact P0). assert (Qfloor p < 1)%Z by (apply floor_lt; exact P1). lia. }
  unfold at_index. cbv zeta. rewrite T. cbn [Z.to_nat Nat.max Nat.sub]. rewrite (proj2 (Nat.ltb_lt _ _) L), X, Y. reflexivity.
Qed.
Lemma piece_exists p : 1 <= p -> exists k, (1 <= k)%nat /\ inject_Z (Z.of_nat k) <= p /\ p < inject_Z (Z.of_nat (S k)).
Proof.
  intros P. exists (Z.to_nat (Qfloor p)). assert (1 <= Qfloor p)%Z by (apply floor_ge; exact P). split; [lia|]. rewrite !Nat2Z.inj_succ, Z2Nat.id by lia.
  split; [apply Qfloor_le|]. change (Z.succ (Qfloor p)) with (Qfloor p + 1)%Z. apply Qlt_floor.
Qed.

(** C125: between the lowest and the highest, the quantile lies on the straight line from one of the arranged numbers to the next, at the share
    of the count plus one. *)
Theorem C125_quantile : forall data q, data <> [] -> let p := q * inject_Z (Z.of_nat (length data + 1)) in 1 <= p ->
  exists s v, Arranged data s /\ quantile_vector q data = Some v /\
  (forall k x y, inject_Z (Z.of_nat k) <= p <= inject_Z (Z.of_nat (S k)) -> Nth_lowest s k x -> Nth_lowest s (S k) y -> v == x + (y - x) * (p - inject_Z (Z.of_nat k))) /\
  (forall x, inject_Z (Z.of_nat (length data)) <= p -> Nth_lowest s (length data) x -> v = x) /\
  (exists lo hi, In lo data /\ In hi data /\ lo <= v <= hi).
Proof.
  intros data q N p P. destruct (sorted_ok data) as (s & E & A & L). assert (NS : s <> []) by (intros ->; destruct data; [congruence | discriminate]).
  assert (QV : quantile_vector q data = at_index s p) by (unfold quantile_vector; rewrite E, L; destruct s; [congruence | reflexivity]).
  clearbody p. destruct (piece_exists p P) as (k & K & K1 & K2). destruct (at_index_piece data s p k A K1 K2 K) as [I1 I2].
  assert (INJ : forall a b, inject_Z (Z.of_nat a) <= inject_Z (Z.of_nat b) -> (a <= b)%nat) by (intros a b H; rewrite <- Zle_Qle in H; lia).
  assert (JNI : forall a b, inject_Z (Z.of_nat a) < inject_Z (Z.of_nat b) -> (a < b)%nat) by (intros a b H; rewrite <- Zlt_Qlt in H; lia).
  assert (INS : forall i x, nth_error s i = Some x -> In x data) by (intros i x X; apply nth_error_In in X; apply (Permutation_in _ (Permutation_sym (proj1 A)) X)).
  assert (SUC : inject_Z (Z.of_nat (S k)) == inject_Z (Z.of_nat k) + 1) by (rewrite Nat2Z.inj_succ; unfold Z.succ; rewrite inject_Z_plus; reflexivity).
  exists s. destruct (le_lt_dec (length s) k) as [KL | KL].
  - destruct (nth_val s (length s - 1) ltac:(destruct s; [congruence | cbn; lia])) as [x X]. exists x. split; [exact A|]. rewrite QV, (I2 KL), X. split; [reflexivity|]. split.
    { intros j a b J [J1 Ja] [_ Jb]. assert (JL : (S j - 1 < length s)%nat) by (apply nth_error_Some; congruence).
      assert (k <= S j)%nat by (apply INJ; lra). assert (k = S j /\ length s = S j)%nat as [-> LS] by lia.
      replace (length s - 1)%nat with (S j - 1)%nat in X by lia. rewrite Jb in X. injection X as ->.
      assert (SJ : inject_Z (Z.of_nat (S j)) == inject_Z (Z.of_nat j) + 1) by (rewrite Nat2Z.inj_succ; unfold Z.succ; rewrite inject_Z_plus; reflexivity).
      assert (PJ : p - inject_Z (Z.of_nat j) == 1) by lra. rewrite PJ. ring. }
    split; [intros y _ [_ Y]; rewrite <- L, X in Y; congruence|]. exists x, x. split; [now apply (INS (length s - 1)%nat)|]. split; [now apply (INS (length s - 1)%nat)|]. lra.
  - destruct (nth_val s (k - 1) ltac:(lia)) as [x X]. destruct (nth_val s k KL) as [y Y]. eexists. split; [exact A|]. rewrite QV, (I1 x y KL X Y). split; [reflexivity|].
    pose proof (proj2 A (k - 1)%nat k x y ltac:(lia) X Y) as XY. split.
    { intros j a b J [J1 Ja] [_ Jb]. assert (CJ : (j <= k /\ k <= S j)%nat).
      { split; [|apply INJ; lra]. assert (j < S k)%nat by (apply JNI; lra). lia. }
      destruct (Nat.eq_dec j k) as [-> | NE].
      - replace (S k - 1)%nat with k in Jb by lia. rewrite Ja in X. rewrite Jb in Y. injection X as ->. injection Y as ->. reflexivity.
      - assert (k = S j) by lia. subst k. rewrite Jb in X. injection X as ->.
        assert (SJ : inject_Z (Z.of_nat (S j)) == inject_Z (Z.of_nat j) + 1) by (rewrite Nat2Z.inj_succ; unfold Z.succ; rewrite inject_Z_plus; reflexivity).
        assert (PJ : p - inject_Z (Z.of_nat (S j)) == 0) by lra. assert (PK : p - inject_Z (Z.of_nat j) == 1) by lra. rewrite PJ, PK. ring. }
    split; [intros z H _; exfalso; assert (length data < S k)%nat by (apply JNI; lra); lia|].
    exists x, y. split; [now apply (INS (k - 1)%nat)|]. split; [now apply (INS k)|].
    assert (F0 : 0 <= p - inject_Z (Z.of_nat k)) by lra. assert (F1 : p - inject_Z (Z.of_nat k) <= 1) by lra. set (f := p - inject_Z (Z.of_nat k)) in *. clearbody f. split; nra.
Qed.
Print Assumptions C125_quantile.

(** C125 finding: for a share below one part in the count plus one, as of a flow nearly always exceeded in a short record, the quantile is below
    all the numbers: the line through the lowest two is drawn on below them. *)
Theorem C125_below_refuted : forall data q s x y, 0 <= q -> q * inject_Z (Z.of_nat (length data + 1)) < 1 -> (2 <= length data)%nat ->
  Arranged data s -> Nth_lowest s 1 x -> Nth_lowest s 2 y -> x < y ->
  exists v, quantile_vector q data = Some v /\ Forall (fun d => v < d) data.
Proof.
  intros data q s x y Q0 Q1 L [P A] [_ X] [_ Y] XY. destruct (sorted_ok data) as (t & E & [PT AT] & LT).
  destruct (nth_val t 0 ltac:(lia)) as [u U]. destruct (nth_val t 1 ltac:(lia)) as [w W]. cbn [Nat.sub] in X, Y.
  assert (LS : length s = length data) by (symmetry; now apply Permutation_length).
  assert (DX : forall d, In d data -> x <= d).
  { intros d D. apply (Permutation_in _ P) in D. apply In_nth_error in D. destruct D as [i D]. apply (A 0%nat i x d ltac:(lia) X D). }
  assert (DU : forall d, In d data -> u <= d).
  { intros d D. apply (Permutation_in _ PT) in D. apply In_nth_error in D. destruct D as [i D]. apply (AT 0%nat i u d ltac:(lia) U D). }
  assert (XU : x == u).
  { assert (In u data) by (apply (Permutation_in _ (Permutation_sym PT)); now apply nth_error_In in U).
    assert (In x data) by (apply (Permutation_in _ (Permutation_sym P)); now apply nth_error_In in X). pose proof (DX u H). pose proof (DU x H0). lra. }
  assert (UW : u < w).
  { (* one of the two lowest of [t] is not the lowest of [s] *)
    destruct s as [|x' s]; [discriminate|]. destruct t as [|u' t]; [discriminate|]. cbn in X, U. injection X as ->. injection U as ->.
    assert (PP : Permutation (x :: s) (u :: t)) by (rewrite <- P; exact PT).
    assert (SB : forall d, In d s -> x < d).
    { intros d D. apply In_nth_error in D. destruct D as [i D]. pose proof (A 1%nat (S i) y d ltac:(lia) Y D). lra. }
    destruct (Permutation_in _ PP (or_introl eq_refl)) as [-> | I].
    - apply Permutation_cons_inv in PP. assert (In w t) by (apply nth_error_In with 0%nat; exact W).
      apply (Permutation_in _ (Permutation_sym PP)) in H. apply (SB w H).
    - assert (In u s) by (destruct (Permutation_in _ (Permutation_sym PP) (or_introl eq_refl)) as [e | I']; [|exact I'];
        subst u; apply Permutation_cons_inv in PP; apply (Permutation_in _ (Permutation_sym PP)) in I; exact I).
      pose proof (SB u H). lra. }
  exists (u + (w - u) * (q * inject_Z (Z.of_nat (length data + 1)) - 1)). split.
  - unfold quantile_vector. rewrite E. destruct t as [|t0 t]; [cbn in LT; lia|]. rewrite LT. apply (at_index_first (t0 :: t)); [|exact Q1 | lia | exact U | exact W].
    apply Qmult_le_0_compat; [exact Q0|]. change 0 with (inject_Z 0). rewrite <- Zle_Qle. lia.
  - apply Forall_forall. intros d D. pose proof (DU d D). set (f := q * inject_Z (Z.of_nat (length data + 1))) in *. clearbody f. nra.
Qed.
Print Assumptions C125_below_refuted.

Lemma at_index_mono data s p p' v v' : Arranged data s -> s <> [] -> 0 <= p -> p <= p' -> at_index s p = Some v -> at_index s p' = Some v' -> v <= v'.
Proof.
  intros A N P0 PP E E'.
  assert (INJ : forall a b, inject_Z (Z.of_nat a) < inject_Z (Z.of_nat b) -> (a < b)%nat) by (intros a b H; rewrite <- Zlt_Qlt in H; lia).
  assert (SUC : forall k, inject_Z (Z.of_nat (S k)) == inject_Z (Z.of_nat k) + 1) by (intros k; rewrite Nat2Z.inj_succ; unfold Z.succ; rewrite inject_Z_plus; reflexivity).
  assert (LN : (1 <= length s)%nat) by (destruct s; [congruence | cbn; lia]).
  assert (UP : forall p v, 0 <= p -> at_index s p = Some v -> exists k, (1 <= k)%nat /\ p < inject_Z (Z.of_nat (S k)) /\ (1 <= p -> inject_Z (Z.of_nat k) <= p) /\ (p < 1 -> k = 1%nat) /\
     ((length s <= k)%nat /\ nth_error s (length s - 1) = Some v \/ (k < length s)%nat /\ exists x y, nth_error s (k - 1) = Some x /\ nth_error s k = Some y /\ x <= y /\ v = x + (y - x) * (p - inject_Z (Z.of_nat k)))).
  { clear p p' v v' P0 PP E E'. intros p v P0 E. destruct (Qlt_le_dec p 1) as [C | C].
    - exists 1%nat. split; [lia|]. split; [change (inject_Z (Z.of_nat 2)) with 2; lra|]. split; [intros; lra|]. split; [reflexivity|]. destruct (le_lt_dec (length s) 1) as [L | L].
      + left. split; [exact L|]. unfold at_index in E. cbv zeta in E. replace (Nat.max (Z.to_nat (trunc p)) 1 <? length s)%nat with false in E by (symmetry; apply Nat.ltb_ge; lia). exact E.
      + right. split; [exact L|]. destruct (nth_val s 0 ltac:(lia)) as [x X]. destruct (nth_val s 1 L) as [y Y]. exists x, y. split; [exact X|]. split; [exact Y|].
        split; [apply (proj2 A 0%nat 1%nat); [lia | exact X | exact Y]|]. rewrite (at_index_first s p P0 C L x y X Y) in E. injection E as <-. reflexivity.
    - destruct (piece_exists p C) as (k & K & K1 & K2). exists k. split; [exact K|]. split; [exact K2|]. split; [intros; exact K1|]. split; [intros; lra|].
      destruct (at_index_piece data s p k A K1 K2 K) as [I1 I2]. destruct (le_lt_dec (length s) k) as [L | L]; [left; split; [exact L | rewrite <- I2; assumption]|].
      right. split; [exact L|]. destruct (nth_val s (k - 1) ltac:(lia)) as [x X]. destruct (nth_val s k L) as [y Y]. exists x, y. split; [exact X|]. split; [exact Y|].
      split; [apply (proj2 A (k - 1)%nat k); [lia | exact X | exact Y]|]. rewrite (I1 x y L X Y) in E. injection E as <-. reflexivity. }
  destruct (UP p v P0 E) as (k & K & K1 & K2 & K3 & R). destruct (UP p' v' ltac:(lra) E') as (k' & K' & K1' & K2' & K3' & R').
  assert (KK : (k <= k')%nat).
  { destruct (Qlt_le_dec p 1) as [C | C]; [rewrite (K3 C); exact K'|]. assert (k < S k')%nat by (apply INJ; specialize (K2 C); lra). lia. }
  destruct R as [[L R] | (L & x & y & X & Y & XY & ->)].
  - destruct R' as [[L' R'] | (L' & _)]; [|lia]. rewrite R in R'. injection R' as <-. lra.
  - pose proof (SUC k) as SK. assert (VY : x + (y - x) * (p - inject_Z (Z.of_nat k)) <= y) by (assert (p - inject_Z (Z.of_nat k) <= 1) by lra; set (f := p - inject_Z (Z.of_nat k)) in *; clearbody f; nra).
    destruct R' as [[L' R'] | (L' & x' & y' & X' & Y' & XY' & ->)].
    + pose proof (proj2 A k (length s - 1)%nat y v' ltac:(lia) Y R'). lra.
    + destruct (Nat.eq_dec k k') as [<- | NE].
      * rewrite X in X'. rewrite Y in Y'. injection X' as <-. injection Y' as <-. assert (p - inject_Z (Z.of_nat k) <= p' - inject_Z (Z.of_nat k)) by lra.
        set (f := p - inject_Z (Z.of_nat k)) in *. set (f' := p' - inject_Z (Z.of_nat k)) in *. clearbody f f'. nra.
      * pose proof (proj2 A k (k' - 1)%nat y x' ltac:(lia) Y X') as YX. assert (F : 0 <= p' - inject_Z (Z.of_nat k')).
        { destruct (Qlt_le_dec p' 1) as [C | C]; [specialize (K3' C); lia | specialize (K2' C); lra]. }
        set (f' := p' - inject_Z (Z.of_nat k')) in *. clearbody f'. assert (x' <= x' + (y' - x') * f') by nra. lra.
Qed.

(** C125: quantiles of both kinds exist for every share and grow with it. *)
Theorem C125_monotone : forall data q q', data <> [] -> 0 <= q <= q' ->
  (exists v v', quantile_vector q data = Some v /\ quantile_vector q' data = Some v' /\ v <= v') /\
  (exists v v', quantile_scalar q data = Some v /\ quantile_scalar q' data = Some v' /\ v <= v').
Proof.
  intros data q q' N QQ. destruct (sorted_ok data) as (s & E & A & L). assert (NS : s <> []) by (intros ->; destruct data; [congruence | discriminate]).
  assert (GEN : forall n : nat, exists v v', at_index s (q * inject_Z (Z.of_nat n)) = Some v /\ at_index s (q' * inject_Z (Z.of_nat n)) = Some v' /\ v <= v').
  { intros n. assert (Z0 : 0 <= inject_Z (Z.of_nat n)) by (change 0 with (inject_Z 0); rewrite <- Zle_Qle; lia).
    assert (A1 : 0 <= q * inject_Z (Z.of_nat n)) by nra. assert (A2 : q * inject_Z (Z.of_nat n) <= q' * inject_Z (Z.of_nat n)) by nra.
    destruct (at_index_ok s _ NS A1) as [v V]. destruct (at_index_ok s (q' * inject_Z (Z.of_nat n)) NS ltac:(lra)) as [v' V'].
    exists v, v'. split; [exact V|]. split; [exact V'|]. apply (at_index_mono data s _ _ v v' A NS A1 A2 V V'). }
  unfold quantile_vector, quantile_scalar. rewrite E. destruct s as [|t s]; [congruence|]. split; apply GEN.
Qed.
Print Assumptions C125_monotone.

Lemma half_mul n : (1 # 2) * inject_Z (Z.of_nat (2 * n)) == inject_Z (Z.of_nat n).
Proof. rewrite Nat2Z.inj_mul, inject_Z_mult. change (inject_Z (Z.of_nat 2)) with 2. ring. Qed.

(** C125: the quantile for one half is the median, when it is found among several quantiles. *)
Theorem C125_half : forall data, data <> [] -> exists v m, quantile_vector (1 # 2) data = Some v /\ median data = Some m /\ v == m.
Proof.
  intros data N. destruct (sorted_ok data) as (s & E & A & L). assert (NS : s <> []) by (intros ->; destruct data; [congruence | discriminate]).
  assert (QV : quantile_vector (1 # 2) data = at_index s ((1 # 2) * inject_Z (Z.of_nat (length data + 1)))) by (unfold quantile_vector; rewrite E, L; destruct s; [congruence | reflexivity]).
  assert (LN : (1 <= length data)%nat) by (destruct data; [congruence | cbn; lia]).
  assert (SUC : forall k, inject_Z (Z.of_nat (S k)) == inject_Z (Z.of_nat k) + 1) by (intros k; rewrite Nat2Z.inj_succ; unfold Z.succ; rewrite inject_Z_plus; reflexivity).
  unfold median. cbv zeta. rewrite E, QV. pose proof (Nat.div_mod (length data) 2 ltac:(lia)) as D. pose proof (Nat.mod_upper_bound (length data) 2 ltac:(lia)) as B.
  set (h := Nat.div (length data) 2) in *. destruct (Nat.odd (length data)) eqn:O.
  - assert (D1 : length data = (2 * h + 1)%nat) by (apply Nat.odd_spec in O; destruct O as [m O]; lia).
    assert (HP : (1 # 2) * inject_Z (Z.of_nat (length data + 1)) == inject_Z (Z.of_nat (S h))) by (replace (length data + 1)%nat with (2 * S h)%nat by lia; apply half_mul).
    pose proof (SUC (S h)) as S1. destruct (at_index_piece data s ((1 # 2) * inject_Z (Z.of_nat (length data + 1))) (S h) A ltac:(lra) ltac:(lra) ltac:(lia)) as [I1 I2].
    destruct (le_lt_dec (length s) (S h)) as [C | C].
    + rewrite (I2 C). assert (h = 0)%nat by lia. destruct data as [|d [|d2 r]]; [congruence| |cbn in *; lia]. cbn [length Nat.ltb Nat.leb nth_error].
      assert (SD : s = [d]) by (destruct A as [P _]; now apply Permutation_length_1_inv in P). subst s. exists d, d. split; [reflexivity|]. split; reflexivity.
    + destruct (nth_val s h ltac:(lia)) as [x X]. destruct (nth_val s (S h) C) as [y Y]. rewrite (I1 x y C ltac:(replace (S h - 1)%nat with h by lia; exact X) Y).
      replace (1 <? length data)%nat with true by (symmetry; apply Nat.ltb_lt; lia). rewrite X. eexists _, x. split; [reflexivity|]. split; [reflexivity|].
      rewrite HP. ring.
  - assert (D1 : length data = (2 * h)%nat).
    { rewrite <- Nat.negb_even in O. apply negb_false_iff, Nat.even_spec in O. destruct O as [m O]. lia. }
    assert (HP : (1 # 2) * inject_Z (Z.of_nat (length data + 1)) == inject_Z (Z.of_nat h) + (1 # 2)).
    { replace (length data + 1)%nat with (S (2 * h)) by lia. rewrite SUC. pose proof (half_mul h). lra. }
    pose proof (SUC h) as S1. destruct (at_index_piece data s ((1 # 2) * inject_Z (Z.of_nat (length data + 1))) h A ltac:(lra) ltac:(lra) ltac:(lia)) as [I1 _].
    destruct (nth_val s (h - 1) ltac:(lia)) as [x X]. destruct (nth_val s h ltac:(lia)) as [y Y]. rewrite (I1 x y ltac:(lia) X Y).
    replace (1 <? length data)%nat with true by (symmetry; apply Nat.ltb_lt; lia). rewrite X, Y. eexists _, _. split; [reflexivity|]. split; [reflexivity|].
    rewrite HP. field.
Qed.
Print Assumptions C125_half.

(** C125 finding: a quantile found alone is not the one found among several.  For one half of an even count it is the lower of the two numbers
    in the middle. *)
Theorem C125_alone_refuted : forall data h, length data = (2 * h)%nat -> (1 <= h)%nat ->
  exists s v m x y, Arranged data s /\ quantile_scalar (1 # 2) data = Some v /\ median data = Some m /\ Nth_lowest s h x /\ Nth_lowest s (h + 1) y /\
    v == x /\ (x < y -> v < m).
Proof.
  intros data h D H. destruct (sorted_ok data) as (s & E & A & L). assert (NS : s <> []) by (intros ->; cbn in L; lia).
  assert (QV : quantile_scalar (1 # 2) data = at_index s ((1 # 2) * inject_Z (Z.of_nat (length data)))) by (unfold quantile_scalar; rewrite E, L; destruct s; [congruence | reflexivity]).
  assert (HP : (1 # 2) * inject_Z (Z.of_nat (length data)) == inject_Z (Z.of_nat h)) by (rewrite D; apply half_mul).
  assert (SUC : inject_Z (Z.of_nat (S h)) == inject_Z (Z.of_nat h) + 1) by (rewrite Nat2Z.inj_succ; unfold Z.succ; rewrite inject_Z_plus; reflexivity).
  destruct (at_index_piece data s ((1 # 2) * inject_Z (Z.of_nat (length data))) h A ltac:(lra) ltac:(lra) H) as [I1 _].
  destruct (nth_val s (h - 1) ltac:(lia)) as [x X]. destruct (nth_val s h ltac:(lia)) as [y Y]. rewrite (I1 x y ltac:(lia) X Y) in QV.
  assert (M : median data = Some ((x + y) / 2)).
  { unfold median. cbv zeta. rewrite E. replace (1 <? length data)%nat with true by (symmetry; apply Nat.ltb_lt; lia).
    replace (Nat.div (length data) 2) with h by (rewrite D, Nat.mul_comm, Nat.div_mul; lia).
    replace (Nat.odd (length data)) with false; [now rewrite X, Y|]. symmetry. rewrite D, Nat.odd_mul. reflexivity. }
  exists s, (x + (y - x) * ((1 # 2) * inject_Z (Z.of_nat (length data)) - inject_Z (Z.of_nat h))), ((x + y) / 2), x, y. split; [exact A|]. split; [exact QV|]. split; [exact M|].
  split; [split; [exact H | exact X]|]. split; [split; [lia | replace (h + 1 - 1)%nat with h by lia; exact Y]|].
  assert (V : x + (y - x) * ((1 # 2) * inject_Z (Z.of_nat (length data)) - inject_Z (Z.of_nat h)) == x) by (rewrite HP; ring).
  split; [exact V|]. intros XY. rewrite V. assert (H2 : (x + y) / 2 == (1 # 2) * (x + y)) by field. rewrite H2. lra.
Qed.
Print Assumptions C125_alone_refuted.

Definition flows : list Q := [8; 3; 5; 12; 3; 9; 1; 7; 20; 4].
Example C125_sort_example : quick_sort flows = Some [(1, 7%nat); (3, 5%nat); (3, 2%nat); (4, 10%nat); (5, 3%nat); (7, 8%nat); (8, 1%nat); (9, 6%nat); (12, 4%nat); (20, 9%nat)].
Proof. reflexivity. Qed.
Example C125_median_example : option_map Qred (median flows) = Some 6 /\ median [8; 3; 5] = Some 5.
Proof. split; reflexivity. Qed.
Example C125_quantile_example : option_map Qred (quantile_vector (1 # 4) flows) = Some 3 /\ option_map Qred (quantile_vector (9 # 10) flows) = Some (96 # 5) /\
  option_map Qred (quantile_vector (1 # 200) flows) = Some (- 89 # 100) /\ option_map Qred (quantile_scalar (1 # 2) flows) = Some 5.
Proof. repeat split; reflexivity. Qed.
