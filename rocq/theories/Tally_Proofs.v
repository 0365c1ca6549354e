From Coq Require Import ZArith QArith Bool List Lia Lqa FinFun.
From Coq Require Import ZifyBool.
From Verif Require Import Qx Tally_Model Tally_Spec.
Import ListNotations.
Local Open Scope Z_scope.

Lemma upto_seq n : upto n = map Z.of_nat (seq 0 n).
Proof. induction n as [|n IH]; [reflexivity|]. cbn [upto]. rewrite IH, seq_S, map_app. reflexivity. Qed.
Lemma in_zseq n j : In j (zseq n) <-> 0 <= j < n.
Proof.
  unfold zseq. rewrite upto_seq, in_map_iff. split.
  - intros (x & <- & I). apply in_seq in I. lia.
  - intros J. exists (Z.to_nat j). split; [lia|]. apply in_seq. lia.
Qed.
Lemma nodup_zseq n : NoDup (zseq n).
Proof. unfold zseq. rewrite upto_seq. apply Injective_map_NoDup; [intros a b; lia | apply seq_NoDup]. Qed.

Lemma in_number l : forall k i c, In (i, c) (number k l) <-> k <= i /\ nth_error l (Z.to_nat (i - k)) = Some c.
Proof.
  induction l as [|a r IH]; intros k i c; cbn [number In].
  - split; [contradiction|]. intros [_ H]. destruct (Z.to_nat (i - k)); discriminate.
  - rewrite IH. destruct (Z.eq_dec i k) as [->|N].
    + rewrite Z.sub_diag. cbn. split; [intros [H|[H _]]; [split; [lia | congruence] | lia] | intros [_ H]; left; congruence].
    + split.
      * intros [H|[H1 H2]]; [congruence|]. split; [lia|].
        replace (Z.to_nat (i - k)) with (S (Z.to_nat (i - (k + 1)))) by lia. exact H2.
      * intros [H1 H2]. right. split; [lia|].
        replace (Z.to_nat (i - k)) with (S (Z.to_nat (i - (k + 1)))) in H2 by lia. exact H2.
Qed.
Lemma number_fst l : forall k, map fst (number k l) = map (fun n => k + Z.of_nat n) (seq 0 (length l)).
Proof.
  induction l as [|a r IH]; intros k; [reflexivity|]. cbn [number map length seq fst]. rewrite IH, <- seq_shift, map_map.
  f_equal; [lia|]. apply map_ext. intros n. lia.
Qed.
Lemma nodup_number k l : NoDup (map fst (number k l)).
Proof. rewrite number_fst. apply Injective_map_NoDup; [intros a b; lia | apply seq_NoDup]. Qed.

(** ** Positions *)
Definition blocks (rd n : Z) (is : list Z) : list Z := flat_map (fun i => map (fun j => i * rd + j) (zseq n)) is.
Lemma in_blocks rd n is k : In k (blocks rd n is) <-> exists i j, In i is /\ 0 <= j < n /\ k = i * rd + j.
Proof.
  unfold blocks. rewrite in_flat_map. split.
  - intros (i & I & J). apply in_map_iff in J. destruct J as (j & <- & J). apply in_zseq in J. eauto.
  - intros (i & j & I & J & ->). exists i. split; [exact I|]. apply in_map_iff. exists j. split; [reflexivity | apply in_zseq; exact J].
Qed.
Lemma pos_inj rd i j i' j' : 0 <= j < rd -> 0 <= j' < rd -> i * rd + j = i' * rd + j' -> i = i' /\ j = j'.
Proof. intros J J' E. assert (i = i') by nia. subst. lia. Qed.
Lemma nodup_blocks rd n is : n <= rd -> NoDup is -> NoDup (blocks rd n is).
Proof.
  intros N ND. induction is as [|i r IH]; [constructor|]. inversion ND as [|x y NI ND']; subst.
  unfold blocks. cbn [flat_map]. fold (blocks rd n r).
  assert (G : forall l1 l2 : list Z, NoDup l1 -> NoDup l2 -> (forall x, In x l1 -> ~ In x l2) -> NoDup (l1 ++ l2)).
  { induction l1 as [|a l1 IH1]; intros l2 A B C; [exact B|]. inversion A; subst. cbn. constructor.
    - intros I. apply in_app_or in I. destruct I as [I|I]; [contradiction | apply (C a); [left; reflexivity | exact I]].
    - apply IH1; [assumption | assumption|]. intros x I. apply C. right. exact I. }
  apply G; [|apply IH; exact ND'|].
  - apply Injective_map_NoDup; [intros a b; lia | apply nodup_zseq].
  - intros k I1 I2. apply in_map_iff in I1. destruct I1 as (j & <- & J). apply in_zseq in J.
    apply in_blocks in I2. destruct I2 as (i' & j' & I' & J' & E).
    destruct (pos_inj rd i j i' j') as [Ei _]; [lia | lia | exact E|]. subst i'. contradiction.
Qed.

Lemma write_rows_fst rd i n f : map fst (write_rows rd i n f) = map (fun j => i * rd + j) (zseq n).
Proof. unfold write_rows. rewrite map_map. reflexivity. Qed.
Lemma flat_fst rd n (F : Z * column -> Z -> Q) l :
  map fst (flat_map (fun p => write_rows rd (fst p) n (F p)) l) = blocks rd n (map fst l).
Proof.
  induction l as [|p l IH]; [reflexivity|]. cbn [flat_map map]. rewrite map_app, IH, write_rows_fst. reflexivity.
Qed.

(** The writes. *)
Definition writes (t : table) (c0 c1 : column) (rest : list column) (rd : Z) (fill : Q) : list (Z * Q) :=
  write_rows rd 0 (rows t) (tot1 c0) ++ write_rows rd 1 (rows t) (tot1 c1) ++
  flat_map (fun p => write_rows rd (fst p) (rows t) (fun j => (tot2 (snd p) j / fill)%Q)) (number 2 (skipn 2 (columns (diff t)))) ++
  map (fun p => (fst p * rd + rows t, (moles (snd p) / fill)%Q)) (number 0 (columns (diff t))).

Lemma writes_fst t c0 c1 rest rd fill : columns t = c0 :: c1 :: rest ->
  map fst (writes t c0 c1 rest rd fill) =
  blocks rd (rows t) (map fst (number 0 (columns t))) ++ map (fun i => i * rd + rows t) (map fst (number 0 (columns t))).
Proof.
  intros E. unfold writes. rewrite !map_app, !write_rows_fst.
  rewrite (flat_fst rd (rows t) (fun p j => (tot2 (snd p) j / fill)%Q)). rewrite map_map. cbn [fst].
  assert (L : map fst (number 0 (columns (diff t))) = map fst (number 0 (columns t))).
  { rewrite !number_fst. unfold diff. cbn [columns]. rewrite map_length. reflexivity. }
  assert (L2 : map fst (number 2 (skipn 2 (columns (diff t)))) = map fst (number 2 rest)).
  { unfold diff. cbn [columns]. rewrite E. cbn [map skipn]. rewrite !number_fst, map_length. reflexivity. }
  rewrite <- (map_map fst (fun i => i * rd + rows t)). rewrite L, L2.
  rewrite E. cbn [number map fst]. change (0 + 1) with 1. change (1 + 1) with 2. unfold blocks. cbn [flat_map]. rewrite <- !app_assoc. reflexivity.
Qed.

Lemma fst_number_range t i : In i (map fst (number 0 (columns t))) <-> 0 <= i < Z.of_nat (length (columns t)).
Proof.
  rewrite number_fst, in_map_iff. split.
  - intros (n & <- & I). apply in_seq in I. lia.
  - intros I. exists (Z.to_nat i). split; [lia|]. apply in_seq. lia.
Qed.

Lemma writes_nodup t c0 c1 rest rd fill : columns t = c0 :: c1 :: rest -> 0 <= rows t < rd ->
  NoDup (map fst (writes t c0 c1 rest rd fill)).
Proof.
  intros E R. rewrite (writes_fst t c0 c1 rest rd fill E).
  assert (G : forall l1 l2 : list Z, NoDup l1 -> NoDup l2 -> (forall x, In x l1 -> ~ In x l2) -> NoDup (l1 ++ l2)).
  { induction l1 as [|a l1 IH1]; intros l2 A B C; [exact B|]. inversion A; subst. cbn. constructor.
    - intros I. apply in_app_or in I. destruct I as [I|I]; [contradiction | apply (C a); [left; reflexivity | exact I]].
    - apply IH1; [assumption | assumption|]. intros x I. apply C. right. exact I. }
  apply G.
  - apply nodup_blocks; [lia | apply nodup_number].
  - apply Injective_map_NoDup; [intros a b; nia | apply nodup_number].
  - intros k I1 I2. apply in_blocks in I1. destruct I1 as (i & j & _ & J & ->).
    apply in_map_iff in I2. destruct I2 as (i' & E' & _).
    destruct (pos_inj rd i' (rows t) i j) as [_ Ej]; [lia | lia | exact E'|]. lia.
Qed.

Lemma writes_cell t c0 c1 rest rd fill i j : columns t = c0 :: c1 :: rest -> inside t i j ->
  exists x, In (position rd i j, x) (writes t c0 c1 rest rd fill) /\ cell t fill i j x.
Proof.
  intros E [I J]. unfold position, cell.
  assert (NE : exists c, nth_error (columns t) (Z.to_nat i) = Some c).
  { destruct (nth_error (columns t) (Z.to_nat i)) eqn:N; [eauto|]. apply nth_error_None in N. lia. }
  destruct NE as [c NE].
  assert (ND : nth_error (columns (diff t)) (Z.to_nat i) = Some (mkCol (tot0 c) (tot1 c)
    (fun j => if (0 <=? j) && (j <? rows t) then (tot1 c j - tot0 c j)%Q else tot2 c j) (moles c))).
  { unfold diff. cbn [columns]. rewrite nth_error_map, NE. reflexivity. }
  eexists. split; [|exists c; split; [exact NE | reflexivity]].
  unfold writes. destruct (j =? rows t) eqn:EJ.
  - apply in_or_app. right. apply in_or_app. right. apply in_or_app. right. apply in_map_iff.
    eexists (i, _). split; [|apply in_number; split; [lia | rewrite Z.sub_0_r; exact ND]]. cbn [fst snd moles]. f_equal. lia.
  - destruct (i <? 2) eqn:I2.
    + destruct (Z.eq_dec i 0) as [->|N0].
      * apply in_or_app. left. apply in_map_iff. exists j. split; [|apply in_zseq; lia].
        rewrite E in NE. cbn in NE. congruence.
      * assert (i = 1) by lia. subst i. apply in_or_app. right. apply in_or_app. left. apply in_map_iff. exists j.
        split; [|apply in_zseq; lia]. rewrite E in NE. change (Z.to_nat 1) with 1%nat in NE. cbn [nth_error] in NE.
        injection NE as <-. f_equal.
    + apply in_or_app. right. apply in_or_app. right. apply in_or_app. left. apply in_flat_map.
      eexists (i, _). split.
      * apply in_number. split; [lia|]. unfold diff in ND |- *. cbn [columns] in ND |- *. rewrite E in ND |- *.
        cbn [map skipn]. cbn [map] in ND.
        replace (Z.to_nat i) with (S (S (Z.to_nat (i - 2)))) in ND by lia. cbn [nth_error] in ND. exact ND.
      * apply in_map_iff. exists j. split; [|apply in_zseq; lia]. cbn [fst snd tot2].
        replace ((0 <=? j) && (j <? rows t)) with true by lia. reflexivity.
Qed.
Lemma writes_inside t c0 c1 rest rd fill k : columns t = c0 :: c1 :: rest -> 0 <= rows t ->
  In k (map fst (writes t c0 c1 rest rd fill)) <-> exists i j, inside t i j /\ k = position rd i j.
Proof.
  intros E R. rewrite (writes_fst t c0 c1 rest rd fill E). rewrite in_app_iff, in_blocks. unfold inside, position. split.
  - intros [(i & j & I & J & ->) | I].
    + apply fst_number_range in I. exists i, j. split; [lia | reflexivity].
    + apply in_map_iff in I. destruct I as (i & <- & I). apply fst_number_range in I. exists i, (rows t). split; [lia | reflexivity].
  - intros (i & j & [I J] & ->). destruct (Z.eq_dec j (rows t)) as [->|N].
    + right. apply in_map_iff. exists i. split; [reflexivity | apply fst_number_range; exact I].
    + left. exists i, j. split; [apply fst_number_range; exact I|]. split; [lia | reflexivity].
Qed.

Lemma assign_out l : forall a k, ~ In k (map fst l) -> assign a l k = a k.
Proof.
  unfold assign. induction l as [|[k' x] l IH]; intros a k N; [reflexivity|]. cbn [fold_left fst snd map In] in *.
  rewrite IH by tauto. destruct (k =? k') eqn:E; [exfalso; apply N; left; lia | reflexivity].
Qed.
Lemma assign_in l : forall a k x, NoDup (map fst l) -> In (k, x) l -> assign a l k = x.
Proof.
  unfold assign. induction l as [|[k' x'] l IH]; intros a k x ND I; [contradiction|]. cbn [fold_left fst snd map] in *.
  inversion ND as [|u v NI ND']; subst. destruct I as [I|I].
  - assert (k' = k) by congruence. assert (x' = x) by congruence. subst. fold (assign (fun k0 => if k0 =? k then x else a k0) l).
    rewrite assign_out by exact NI. rewrite Z.eqb_refl. reflexivity.
  - apply IH; assumption.
Qed.

Lemma store_written t rd cd fill : 0 <= rows t <= rd -> (2 <= length (columns t))%nat -> Z.of_nat (length (columns t)) <= cd ->
  exists c0 c1 rest, columns t = c0 :: c1 :: rest /\ store t rd cd fill = Written (writes t c0 c1 rest (rd + 1) fill).
Proof.
  intros R L C. destruct (columns t) as [|c0 [|c1 rest]] eqn:E; cbn [length] in L; [lia | lia|].
  exists c0, c1, rest. split; [reflexivity|]. unfold store. cbv zeta. rewrite E.
  replace (rows t >? unsigned (rd + 1)) with false by (unfold unsigned; destruct (rd + 1 <? 0) eqn:U; lia).
  replace (Z.of_nat (length (c0 :: c1 :: rest)) >? unsigned cd) with false
    by (unfold unsigned; destruct (cd <? 0) eqn:U; cbn [length] in *; lia).
  unfold writes. reflexivity.
Qed.

Lemma stored_once t rd cd fill : 0 <= rows t <= rd -> (2 <= length (columns t))%nat -> Z.of_nat (length (columns t)) <= cd ->
  exists l, store t rd cd fill = Written l /\ NoDup (map fst l) /\
    (forall k, In k (map fst l) <-> exists i j, inside t i j /\ k = position (rd + 1) i j) /\
    (forall k, In k (map fst l) -> 0 <= k < (rd + 1) * cd).
Proof.
  intros R L C. destruct (store_written t rd cd fill R L C) as (c0 & c1 & rest & E & S).
  exists (writes t c0 c1 rest (rd + 1) fill). split; [exact S|]. split; [apply writes_nodup; [exact E | lia]|].
  assert (W : forall k, In k (map fst (writes t c0 c1 rest (rd + 1) fill)) <-> exists i j, inside t i j /\ k = position (rd + 1) i j)
    by (intros k; apply writes_inside; [exact E | lia]).
  split; [exact W|]. intros k K. apply W in K. destruct K as (i & j & [I J] & ->). unfold position. nia.
Qed.
Lemma stored_array t rd cd fill a : 0 <= rows t <= rd -> (2 <= length (columns t))%nat -> Z.of_nat (length (columns t)) <= cd ->
  exists l, store t rd cd fill = Written l /\
    (forall i j, inside t i j -> cell t fill i j (assign a l (position (rd + 1) i j))) /\
    (forall k, (forall i j, inside t i j -> k <> position (rd + 1) i j) -> assign a l k = a k).
Proof.
  intros R L C. destruct (store_written t rd cd fill R L C) as (c0 & c1 & rest & E & S).
  exists (writes t c0 c1 rest (rd + 1) fill). split; [exact S|].
  assert (ND : NoDup (map fst (writes t c0 c1 rest (rd + 1) fill))) by (apply writes_nodup; [exact E | lia]).
  split.
  - intros i j IJ. destruct (writes_cell t c0 c1 rest (rd + 1) fill i j E IJ) as (x & I & Ce).
    rewrite (assign_in _ a _ x ND I). exact Ce.
  - intros k N. apply assign_out. intros I. apply (writes_inside t c0 c1 rest (rd + 1) fill k E) in I; [|lia].
    destruct I as (i & j & IJ & ->). apply (N i j IJ). reflexivity.
Qed.
Lemma store_refused t rd cd fill :
  columns t = [] \/ (0 <= rd /\ rows t > rd + 1) \/ (0 <= cd /\ Z.of_nat (length (columns t)) > cd) ->
  store t rd cd fill = Refused.
Proof.
  unfold store. cbv zeta. intros H. destruct (columns t) as [|c r] eqn:E; [reflexivity|].
  destruct H as [H | [[H1 H2] | [H1 H2]]]; [discriminate| |].
  - replace (rows t >? unsigned (rd + 1)) with true by (unfold unsigned; destruct (rd + 1 <? 0) eqn:U; lia). reflexivity.
  - destruct (rows t >? unsigned (rd + 1)); [reflexivity|].
    replace (Z.of_nat (length (c :: r)) >? unsigned cd) with true by (unfold unsigned; destruct (cd <? 0) eqn:U; lia). reflexivity.
Qed.

Definition c_ex := mkCol (fun _ => 0%Q) (fun _ => 1%Q) (fun _ => 0%Q) 5%Q.
Lemma one_short : exists t rd cd l, rows t > rd /\ store t rd cd 1%Q = Written l /\
  (exists k x, In (k, x) l /\ k >= (rd + 1) * cd) /\
  ~ cell t 1%Q 1 0 (assign (fun _ => 0%Q) l (position (rd + 1) 1 0)).
Proof.
  exists (mkT 3 [c_ex; c_ex]), 2, 2. eexists. split; [cbn; lia|]. split; [reflexivity|]. split.
  - exists 6, (5 / 1)%Q. split; [vm_compute; tauto | lia].
  - intros (c & E & X). change (Some c_ex = Some c) in E. assert (c = c_ex) by congruence. subst c. vm_compute in X. discriminate X.
Qed.
Lemma negative_dim : exists t l k x, store t (-5) (-1) 1%Q = Written l /\ In (k, x) l /\ k < 0.
Proof.
  exists (mkT 3 [c_ex; c_ex]). eexists. exists (-4), 1%Q. split; [reflexivity|]. split; [vm_compute; tauto | lia].
Qed.

Lemma headings t n : 0 <= rows t < 2 ^ 63 -> Z.of_nat (length (columns t)) < 2 ^ 63 -> - 2 ^ 31 <= n < 2 ^ 31 -> columns t <> [] ->
  (row_ok t n = true <-> 0 <= n < rows t) /\ (column_ok t n = true <-> 0 <= n < Z.of_nat (length (columns t))).
Proof.
  intros R C N NE. unfold row_ok, column_ok, unsigned. destruct (columns t) as [|c r]; [contradiction|].
  destruct (n <? 0) eqn:U; split; split; lia.
Qed.
Lemma zero_ok t : rows (zero t) = rows t /\ length (columns (zero t)) = length (columns t) /\
  forall i c j, nth_error (columns (zero t)) i = Some c -> 0 <= j < rows t ->
    tot0 c j = 0%Q /\ tot1 c j = 0%Q /\ tot2 c j = 0%Q /\ moles c = 0%Q.
Proof.
  unfold zero. cbn [rows columns]. split; [reflexivity|]. split; [apply map_length|].
  intros i c j E J. rewrite nth_error_map in E. destruct (nth_error (columns t) i) as [d|]; [|discriminate]. cbn in E.
  assert (X : c = mkCol (fun j => if (0 <=? j) && (j <? rows t) then 0%Q else tot0 d j)
    (fun j => if (0 <=? j) && (j <? rows t) then 0%Q else tot1 d j)
    (fun j => if (0 <=? j) && (j <? rows t) then 0%Q else tot2 d j) 0%Q) by congruence.
  rewrite X. cbn [tot0 tot1 tot2 moles]. replace ((0 <=? j) && (j <? rows t)) with true by lia. auto.
Qed.

(** ** Element lists *)
Lemma put_elt_spec heads p c : forall row n, row_of heads p = Some n -> length row = length heads ->
  exists row', put_elt heads p c row = Some row' /\ length row' = length heads /\
    nth_error row' n = Some c /\ forall m, m <> n -> nth_error row' m = nth_error row m.
Proof.
  induction heads as [|h hs IH]; intros row n R L; [discriminate|]. destruct row as [|x xs]; [discriminate|].
  cbn [put_elt row_of] in *. 
  assert (CASE : fits p h = true /\ n = O \/ fits p h = false /\ exists m, row_of hs p = Some m /\ n = S m).
  { unfold fits. destruct h as [q|].
    - destruct (p =? q); [left; split; [reflexivity | congruence]|]. right. split; [reflexivity|].
      destruct (row_of hs p) as [m|]; [|discriminate]. exists m. split; [reflexivity | cbn in R; congruence].
    - right. split; [reflexivity|]. destruct (row_of hs p) as [m|]; [|discriminate]. exists m. split; [reflexivity | cbn in R; congruence]. }
  destruct CASE as [[-> ->] | [-> (m & Rm & ->)]].
  - exists (c :: xs). split; [reflexivity|]. split; [cbn in *; lia|]. split; [reflexivity|].
    intros [|m] N; [contradiction | reflexivity].
  - destruct (IH xs m Rm ltac:(cbn in L; lia)) as (o & E & Lo & No & Oo). rewrite E. exists (x :: o).
    split; [reflexivity|]. split; [cbn; lia|]. split; [exact No|]. intros [|k] N; [reflexivity|]. cbn. apply Oo. congruence.
Qed.
Lemma row_of_inj heads p q n : row_of heads p = Some n -> row_of heads q = Some n -> p = q.
Proof.
  revert n. induction heads as [|h hs IH]; intros n A B; [discriminate|]. cbn [row_of] in *. destruct h as [x|].
  - destruct (p =? x) eqn:E1, (q =? x) eqn:E2.
    + lia.
    + destruct (row_of hs q); cbn in *; congruence.
    + destruct (row_of hs p); cbn in *; congruence.
    + destruct (row_of hs p) as [a|], (row_of hs q) as [b|]; try discriminate. cbn in *. apply (IH a); congruence.
  - destruct (row_of hs p) as [a|], (row_of hs q) as [b|]; try discriminate. cbn in *. apply (IH a); congruence.
Qed.

Definition counted (l : list elt) : list Z := map primary (filter counts l).
Lemma amount_absent l p : ~ In p (counted l) -> (amount l p == 0)%Q.
Proof.
  unfold amount, counted. induction l as [|e r IH]; intros N; [reflexivity|]. cbn [filter] in *.
  destruct (counts e); cbn [andb map] in *; [|apply IH; exact N].
  replace (primary e =? p) with false by (symmetry; apply Z.eqb_neq; intros C; apply N; left; exact C).
  apply IH. intros C. apply N. right. exact C.
Qed.

Lemma put_elts_spec heads l : (forall p, In p (counted l) -> row_of heads p <> None) -> NoDup (counted l) ->
  forall row, length row = length heads ->
  exists row', put_elts heads l row = Some row' /\ length row' = length heads /\
    (forall p n, In p (counted l) -> row_of heads p = Some n -> exists x, nth_error row' n = Some x /\ (x == amount l p)%Q) /\
    (forall n, (forall p, In p (counted l) -> row_of heads p <> Some n) -> nth_error row' n = nth_error row n).
Proof.
  induction l as [|e r IH]; intros A ND row L; cbn [put_elts].
  - exists row. split; [reflexivity|]. split; [exact L|]. split; [intros p n []|reflexivity].
  - unfold counted in *. cbn [filter] in *. destruct (counts e) eqn:Ce; cbn [map] in *.
    2:{ destruct (IH A ND row L) as (o & E & Lo & V & O). exists o. split; [exact E|]. split; [exact Lo|]. split; [|exact O].
        intros p n I R. destruct (V p n I R) as (x & X & Y). exists x. split; [exact X|].
        unfold amount. cbn [filter]. rewrite Ce. exact Y. }
    inversion ND as [|u v NI ND']; subst.
    destruct (row_of heads (primary e)) as [n0|] eqn:R0; [|exfalso; apply (A (primary e)); [left; reflexivity | exact R0]].
    destruct (put_elt_spec heads (primary e) (coef e) row n0 R0 L) as (row1 & E1 & L1 & N1 & O1). rewrite E1.
    destruct (IH ltac:(intros p I; apply A; right; exact I) ND' row1 L1) as (o & E & Lo & V & O).
    exists o. split; [exact E|]. split; [exact Lo|]. split.
    + intros p n [I|I] R.
      * subst p. assert (n = n0) by congruence. subst n. exists (coef e). split.
        { rewrite O; [exact N1|]. intros q Iq Rq. apply NI. rewrite (row_of_inj heads _ _ _ R Rq). exact Iq. }
        unfold amount. cbn [filter]. rewrite Ce, Z.eqb_refl. cbn [andb map qsum].
        fold (amount r (primary e)). rewrite (amount_absent r (primary e) NI). ring.
      * destruct (V p n I R) as (x & X & Y). exists x. split; [exact X|]. rewrite Y. unfold amount. cbn [filter]. rewrite Ce.
        replace (primary e =? p) with false by (symmetry; apply Z.eqb_neq; intros C; apply NI; rewrite C; exact I). reflexivity.
    + intros n H. rewrite O by (intros p I; apply H; right; exact I). apply O1.
      intros C. subst n. apply (H (primary e)); [left; reflexivity | exact R0].
Qed.

Lemma elements_ok heads l : (forall p, In p (counted l) -> row_of heads p <> None) -> NoDup (counted l) ->
  exists row, elements_to_row heads l = Some row /\ length row = length heads /\
    forall p n, row_of heads p = Some n -> exists x, nth_error row n = Some x /\ (x == amount l p)%Q.
Proof.
  intros A ND. destruct (put_elts_spec heads l A ND (map (fun _ => 0%Q) heads) ltac:(apply map_length)) as (o & E & L & V & O).
  exists o. split; [exact E|]. split; [exact L|]. intros p n R.
  destruct (in_dec Z.eq_dec p (counted l)) as [I|I]; [apply V; assumption|].
  exists 0%Q. split; [|symmetry; apply amount_absent; exact I].
  rewrite O.
  - rewrite nth_error_map. assert (X : nth_error heads n <> None).
    { clear -R. revert n R. induction heads as [|h hs IH]; intros n R; [discriminate|]. cbn [row_of] in R.
      destruct n as [|n]; [cbn; discriminate|]. cbn. apply IH. destruct h as [q|]; [destruct (p =? q); [discriminate|]|];
      destruct (row_of hs p); cbn in R; congruence. }
    destruct (nth_error heads n); [reflexivity | contradiction].
  - intros q Iq Rq. apply I. rewrite (row_of_inj heads _ _ _ R Rq). exact Iq.
Qed.
Lemma elements_lost : exists heads l row, elements_to_row heads l = Some row /\
  nth_error row 0 = Some 1%Q /\ row_of heads 26 = Some O /\ (amount l 26 == 3)%Q.
Proof.
  exists [Some 26], [mkElt 26 true 2%Q; mkElt 26 true 1%Q]. eexists. split; [reflexivity|]. repeat split; reflexivity.
Qed.
