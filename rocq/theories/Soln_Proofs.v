From Coq Require Import QArith Qabs ZArith List Bool Lia Lqa.
From Coq Require Import ZifyBool ZifyNat.
From Verif Require Import Qx Soln_Model Soln_Spec.
Import ListNotations.
Local Open Scope Z_scope.

Ltac zif := match goal with |- context [if ?b then _ else _] =>
  let H := fresh "B" in destruct b eqn:H; [try (exfalso; lia) | try (exfalso; lia)] end.

Lemma number_form w b : basin_ok b -> in_basin b w ->
  number w = match w with
  | Pure => 1
  | Source c => 1000 + c
  | Reservoir t r m => (t + 1) * 100000000 + r * 1000000 + m * 1000
  | Unsat t m n => (t + 1) * 100000000 + 5000000 + m * 1000 + n * 10
  | Segment t s => (t + 3) * 100000000 + s
  end.
Proof.
  intros Hb Hw. destruct w; cbn [number in_basin] in *; unfold solnnum, e8, e6, e3 in *;
  cbn [orb] in *; try reflexivity; repeat zif; lia.
Qed.

Lemma digits a b c : 0 <= a -> 0 <= b < c -> Z.quot (a * c + b) c = a.
Proof.
  intros. rewrite Z.quot_div_nonneg by nia. rewrite Z.add_comm, Z.div_add by lia.
  rewrite Z.div_small; lia.
Qed.

Definition row_form (b : basin) (w : water) : Z :=
  match w with
  | Pure => 1
  | Source c => 1 + c
  | Reservoir _ r m => if r <=? 4 then 1 + b_chem b + (r - 1) * b_mru b + m
                       else 1 + b_chem b + b_bin b * b_mru b + (r - 3) * b_mru b + m
  | Unsat _ m n => 1 + b_chem b + 4 * b_mru b + (m - 1) * b_bin b + n
  | Segment _ s => 1 + b_chem b + b_mru b * (b_bin b + 12) + s + 1
  end.

Lemma cut_low_eq nc nm na r m : 0 <= r -> 0 <= m < 1000 ->
  cut_low nc nm na (r * 1000000 + m * 1000) =
  {| d_row := 1 + nc + na * nm + (r - 3) * nm + m; d_res := r; d_chem := -99; d_mru := m;
     d_nac := -99; d_hydro := -99 |}.
Proof.
  intros. unfold cut_low, e6, e3. rewrite (digits r) by lia.
  replace (r * 1000000 + m * 1000 - r * 1000000) with (m * 1000 + 0) by lia.
  rewrite (digits m) by lia. reflexivity.
Qed.
Lemma cut_surf_eq nc nm na r m : 0 <= r -> 0 <= m < 1000 ->
  cut_surf nc nm na (r * 1000000 + m * 1000) =
  {| d_row := 1 + nc + (r - 1) * nm + m; d_res := r; d_chem := -99; d_mru := m;
     d_nac := -99; d_hydro := -99 |}.
Proof.
  intros. unfold cut_surf, e6, e3. rewrite (digits r) by lia.
  replace (r * 1000000 + m * 1000 - r * 1000000) with (m * 1000 + 0) by lia.
  rewrite (digits m) by lia. reflexivity.
Qed.
Lemma cut_uz_eq nc nm na r m n : 0 <= r -> 0 <= m < 1000 -> 0 <= n < 100 ->
  cut_uz nc nm na (r * 1000000 + (m * 1000 + n * 10)) =
  {| d_row := 1 + nc + nm * 4 + (m - 1) * na + n; d_res := r; d_chem := -99; d_mru := m;
     d_nac := n; d_hydro := -99 |}.
Proof.
  intros. unfold cut_uz, e6, e3. rewrite (digits r) by lia.
  replace (r * 1000000 + (m * 1000 + n * 10) - r * 1000000) with (m * 1000 + n * 10) by lia.
  rewrite (digits m) by lia.
  replace (m * 1000 + n * 10 - m * 1000) with (n * 10 + 0) by lia.
  rewrite (digits n) by lia. reflexivity.
Qed.

Lemma decode_all b w : basin_ok b -> in_basin b w ->
  reports (isoln (b_chem b) (b_mru b) (b_bin b) (number w)) w /\ row_of b w = row_form b w.
Proof.
  intros Hb Hw. unfold row_of. rewrite (number_form w b Hb Hw).
  destruct Hb as (Hc & Hm & Hn & Hs).
  destruct w; cbn [in_basin reports row_form] in *; unfold isoln, e8, e6.
  - split; reflexivity.
  - repeat zif; cbn [d_row d_res d_chem d_mru d_nac d_hydro]; split; [f_equal; f_equal; f_equal; f_equal |]; lia.
  - destruct Hw as (Ht & Hr & Hmm).
    assert (E : type <=? 4 = true \/ type <=? 4 = false) by (destruct (type <=? 4); auto).
    assert (T : time = 0 \/ time = 1) by lia.
    destruct T as [-> | ->], E as [E | E]; rewrite E; repeat zif;
    match goal with |- context [cut_low ?a ?b ?c ?x] =>
        replace x with (type * 1000000 + mru * 1000) by lia; rewrite cut_low_eq by lia
      | |- context [cut_surf ?a ?b ?c ?x] =>
        replace x with (type * 1000000 + mru * 1000) by lia; rewrite cut_surf_eq by lia end;
    split; reflexivity.
  - destruct Hw as (Ht & Hmm & Hnn).
    assert (T : time = 0 \/ time = 1) by lia.
    destruct T as [-> | ->]; repeat zif;
    match goal with |- context [cut_uz ?a ?b ?c ?x] =>
        replace x with (5 * 1000000 + (mru * 1000 + bin * 10)) by lia; rewrite cut_uz_eq by lia end;
    cbn [d_row d_res d_chem d_mru d_nac d_hydro]; (split; [reflexivity | lia]).
  - assert (T : time = 0 \/ time = 1) by lia.
    destruct T as [-> | ->]; repeat zif;
    unfold cut_hydro; cbn [d_row d_res d_chem d_mru d_nac d_hydro]; (split; [f_equal; lia | lia]).
Qed.

Lemma number_inj b v w : basin_ok b -> in_basin b v -> in_basin b w ->
  number v = number w -> v = w.
Proof.
  intros Hb Hv Hw E. rewrite (number_form v b Hb Hv), (number_form w b Hb Hw) in E.
  destruct Hb as (Hc & Hm & Hn & Hs).
  destruct v, w; cbn [in_basin] in *; try reflexivity; try (exfalso; lia); f_equal; lia.
Qed.

Lemma row_range b w : basin_ok b -> in_basin b w ->
  1 <= row_of b w <= 1 + b_chem b + b_mru b * (b_bin b + 12) + b_seg b + 1.
Proof.
  intros Hb Hw. destruct (decode_all b w Hb Hw) as [_ ->].
  destruct Hb as (Hc & Hm & Hn & Hs). destruct b as [nc nm na ns].
  destruct w; cbn [in_basin row_form b_chem b_mru b_bin b_seg] in *; try zif; nia.
Qed.

Lemma pair_inj n r m r' m' : 1 <= m <= n -> 1 <= m' <= n -> r * n + m = r' * n + m' -> r = r' /\ m = m'.
Proof.
  intros Hm Hm' E. assert (r = r').
  { destruct (Z.lt_trichotomy r r') as [L | [L | L]]; [exfalso | assumption | exfalso]; nia. }
  subst. lia.
Qed.

Lemma row_band b w : basin_ok b -> in_basin b w ->
  let p := b_mru b * b_bin b in
  match w with
  | Pure => row_form b w = 1
  | Source _ => 1 < row_form b w <= 1 + b_chem b
  | Reservoir _ r _ => if r <=? 4 then 1 + b_chem b < row_form b w <= 1 + b_chem b + 4 * b_mru b
      else 1 + b_chem b + 4 * b_mru b + p < row_form b w <= 1 + b_chem b + 12 * b_mru b + p
  | Unsat _ _ _ => 1 + b_chem b + 4 * b_mru b < row_form b w <= 1 + b_chem b + 4 * b_mru b + p
  | Segment _ _ => 1 + b_chem b + 12 * b_mru b + p < row_form b w
  end.
Proof.
  intros Hb Hw p. unfold p. destruct Hb as (Hc & Hm & Hn & Hs). destruct b as [nc nm na ns].
  destruct w; cbn [in_basin row_form b_chem b_mru b_bin b_seg] in *; [reflexivity | lia | | nia | nia].
  destruct Hw as (_ & Hr & Hm1). destruct (type <=? 4) eqn:E; split; nia.
Qed.

Lemma row_same b v w : basin_ok b -> in_basin b v -> in_basin b w ->
  (row_of b v = row_of b w <-> same_body v w).
Proof.
  intros Hb Hv Hw. destruct (decode_all b v Hb Hv) as [_ ->]. destruct (decode_all b w Hb Hw) as [_ ->].
  pose proof (row_band b v Hb Hv) as Bv. pose proof (row_band b w Hb Hw) as Bw.
  destruct Hb as (Hc & Hm & Hn & Hs). destruct b as [nc nm na ns].
  cbn [b_chem b_mru b_bin b_seg] in *.
  split.
  2: { destruct v, w; cbn [same_body]; try tauto; cbn [row_form]; intuition; subst; reflexivity. }
  assert (P : 0 < nm * na) by nia.
  destruct v, w; cbv beta zeta in Bv, Bw; cbn [same_body in_basin b_chem b_mru b_bin b_seg] in *;
    repeat match goal with H : context [if ?t <=? 4 then _ else _] |- _ => destruct (t <=? 4) eqn:? end;
    try tauto; try (intros E; exfalso; lia).
  - cbn [row_form]. lia.
  - cbn [row_form b_chem b_mru b_bin b_seg]. rewrite Heqb, Heqb0. intros E.
    destruct (pair_inj nm (type - 1) mru (type0 - 1) mru0); try lia.
  - cbn [row_form b_chem b_mru b_bin b_seg]. rewrite Heqb, Heqb0. intros E.
    destruct (pair_inj nm (type - 3) mru (type0 - 3) mru0); try lia.
  - cbn [row_form b_chem b_mru b_bin b_seg]. intros E.
    destruct (pair_inj na (mru - 1) bin (mru0 - 1) bin0); try lia.
  - cbn [row_form b_chem b_mru b_bin b_seg]. lia.
Qed.

(** Positions in the assignment loop. *)
Lemma count_from_length a n : length (count_from a n) = n.
Proof. revert a; induction n; cbn [count_from length]; auto. Qed.
Lemma nth_count_from a n i d : (i < n)%nat -> nth i (count_from a n) d = a + Z.of_nat i.
Proof.
  revert a i; induction n; intros a i H; [lia|]. destruct i; cbn [count_from nth]; [lia|].
  rewrite IHn by lia. lia.
Qed.
Lemma upto_length a b : length (upto a b) = Z.to_nat (b - a + 1).
Proof. apply count_from_length. Qed.
Lemma nth_upto a b i d : 0 <= i <= b - a -> nth (Z.to_nat i) (upto a b) d = a + i.
Proof. intros. unfold upto. rewrite nth_count_from by lia. lia. Qed.

Lemma nth_map_upto (f : Z -> Z) a b i d : 0 <= i <= b - a ->
  nth (Z.to_nat i) (map f (upto a b)) d = f (a + i).
Proof.
  intros. rewrite nth_indep with (d' := f 0) by (rewrite map_length, upto_length; lia).
  rewrite map_nth, nth_upto by lia. reflexivity.
Qed.

Lemma flat_map_len (f : Z -> list Z) n l : (forall x, In x l -> length (f x) = n) ->
  length (flat_map f l) = (length l * n)%nat.
Proof.
  induction l as [|x l IH]; cbn [flat_map length]; intros H; [reflexivity|].
  rewrite app_length, (H x) by (now left). rewrite IH by (intros; apply H; now right). lia.
Qed.
Lemma nth_flat_map (f : Z -> list Z) n l i k d : (forall x, In x l -> length (f x) = n) ->
  (i < length l)%nat -> (k < n)%nat ->
  nth (i * n + k) (flat_map f l) d = nth k (f (nth i l 0)) d.
Proof.
  revert i; induction l as [|x l IH]; cbn [flat_map length]; intros i H Hi Hk; [lia|].
  destruct i; cbn [nth].
  - rewrite app_nth1; [reflexivity | rewrite H by (now left); lia].
  - rewrite app_nth2; rewrite (H x) by (now left); [|lia].
    replace (S i * n + k - n)%nat with (i * n + k)%nat by lia.
    apply IH; [intros; apply H; now right | lia | lia].
Qed.

Section Assign.
Variables (b : basin).
Hypothesis Hb : basin_ok b.
Let nc := b_chem b. Let nm := b_mru b. Let na := b_bin b. Let ns := b_seg b.

Lemma blocks_len i a c : length (flat_map (fun j => map (fun k => solnnum i j 0 k 0 0) (upto 1 nm)) (upto a c))
  = (Z.to_nat (c - a + 1) * Z.to_nat nm)%nat.
Proof.
  rewrite flat_map_len with (n := Z.to_nat nm).
  - rewrite upto_length. reflexivity.
  - intros. rewrite map_length, upto_length. f_equal. lia.
Qed.
Lemma bins_len i : length (flat_map (fun k => map (fun l => solnnum i 5 0 k l 0) (upto 1 na)) (upto 1 nm))
  = (Z.to_nat nm * Z.to_nat na)%nat.
Proof.
  rewrite flat_map_len with (n := Z.to_nat na).
  - rewrite upto_length. f_equal. f_equal. lia.
  - intros. rewrite map_length, upto_length. f_equal. lia.
Qed.
Lemma blocks_nth i a c j k d : a <= j <= c -> 1 <= k <= nm ->
  nth (Z.to_nat ((j - a) * nm + (k - 1)))
    (flat_map (fun j => map (fun k => solnnum i j 0 k 0 0) (upto 1 nm)) (upto a c)) d = solnnum i j 0 k 0 0.
Proof.
  intros Hj Hk. destruct Hb as (_ & Hm & _ & _). fold nm in Hm.
  replace (Z.to_nat ((j - a) * nm + (k - 1))) with (Z.to_nat (j - a) * Z.to_nat nm + Z.to_nat (k - 1))%nat
    by (rewrite Z2Nat.inj_add, Z2Nat.inj_mul by nia; reflexivity).
  rewrite nth_flat_map.
  - rewrite nth_upto by lia. rewrite nth_map_upto by lia. f_equal; lia.
  - intros. rewrite map_length, upto_length. f_equal. lia.
  - rewrite upto_length. lia.
  - lia.
Qed.
Lemma bins_nth i k l d : 1 <= k <= nm -> 1 <= l <= na ->
  nth (Z.to_nat ((k - 1) * na + (l - 1)))
    (flat_map (fun k => map (fun l => solnnum i 5 0 k l 0) (upto 1 na)) (upto 1 nm)) d = solnnum i 5 0 k l 0.
Proof.
  intros Hj Hk. destruct Hb as (_ & _ & Hm & _). fold na in Hm.
  replace (Z.to_nat ((k - 1) * na + (l - 1))) with (Z.to_nat (k - 1) * Z.to_nat na + Z.to_nat (l - 1))%nat
    by (rewrite Z2Nat.inj_add, Z2Nat.inj_mul by nia; reflexivity).
  rewrite nth_flat_map.
  - rewrite nth_upto by lia. rewrite nth_map_upto by lia. f_equal; lia.
  - intros. rewrite map_length, upto_length. f_equal. lia.
  - rewrite upto_length. lia.
  - lia.
Qed.

Lemma nth_skip (l1 l2 : list Z) i n d : length l1 = n -> (n <= i)%nat -> nth i (l1 ++ l2) d = nth (i - n) l2 d.
Proof. intros <- H. apply app_nth2. lia. Qed.
Lemma nth_take (l1 l2 : list Z) i d : (i < length l1)%nat -> nth i (l1 ++ l2) d = nth i l1 d.
Proof. intros. apply app_nth1. assumption. Qed.

Lemma assign_bins_eq i f : (forall k, 1 <= k <= nm -> f k = na) ->
  assign_time nm ns f i = assign_time nm ns (fun _ => na) i.
Proof.
  intros H. unfold assign_time. f_equal. f_equal.
  assert (G : forall l, (forall x, In x l -> f x = na) ->
    flat_map (fun k => map (fun l => solnnum i 5 0 k l 0) (upto 1 (f k))) l =
    flat_map (fun k => map (fun l => solnnum i 5 0 k l 0) (upto 1 na)) l).
  { induction l as [|x l IH]; intros HH; [reflexivity|]. cbn [flat_map].
    rewrite (HH x) by (now left). rewrite IH by (intros; apply HH; now right). reflexivity. }
  apply G. intros x Hx. apply H.
  unfold upto in Hx. apply In_nth with (d := 0) in Hx. destruct Hx as (n & Hn & E).
  rewrite count_from_length in Hn. rewrite nth_count_from in E by lia. lia.
Qed.

Lemma assign_len i : length (assign_time nm ns (fun _ => na) i) =
  Z.to_nat (nm * (na + 12) + ns + 1).
Proof.
  unfold assign_time. rewrite !app_length, !blocks_len, bins_len, map_length, upto_length.
  destruct Hb as (_ & Hm & Hn & Hs). fold nm in Hm. fold na in Hn. fold ns in Hs.
  replace (4 - 1 + 1) with 4 by lia. replace (14 - 7 + 1) with 8 by lia. nia.
Qed.

Lemma assign_time_nth i w d : 0 <= i <= 1 -> in_basin b w ->
  (match w with Reservoir t _ _ | Unsat t _ _ | Segment t _ => t = i | _ => False end) ->
  nth (Z.to_nat (row_form b w - 1 - (1 + nc))) (assign_time nm ns (fun _ => na) i) d = number w.
Proof.
  intros Hi Hw Ht. pose proof Hb as (Hc & Hm & Hn & Hs).
  fold nm in Hm. fold na in Hn. fold ns in Hs. fold nc in Hc.
  pose proof (row_band b w Hb Hw) as Band. cbv zeta in Band.
  fold nm in Band. fold na in Band. fold nc in Band.
  assert (P : 0 < nm * na) by nia.
  unfold assign_time.
  destruct w; try contradiction; subst; cbn [in_basin number] in *.
  - destruct Hw as (_ & Hr & Hk). fold nm in Hk. destruct (type <=? 4) eqn:E.
    + rewrite nth_take by (rewrite blocks_len; lia).
      cbn [row_form]. rewrite E. fold nm nc na ns.
      replace (1 + nc + (type - 1) * nm + mru - 1 - (1 + nc)) with ((type - 1) * nm + (mru - 1)) by lia.
      apply blocks_nth; lia.
    + rewrite (nth_skip _ _ _ _ _ (blocks_len _ 1 4)) by (replace (4 - 1 + 1) with 4 by lia; lia).
      rewrite (nth_skip _ _ _ _ _ (bins_len _)) by (replace (4 - 1 + 1) with 4 by lia; nia).
      rewrite nth_take by (rewrite blocks_len; replace (14 - 7 + 1) with 8 by lia; replace (4 - 1 + 1) with 4 by lia; nia).
      rewrite <- (blocks_nth i 7 14 type mru d) by lia. f_equal.
      cbn [row_form]. rewrite E. fold nm nc na ns. replace (4 - 1 + 1) with 4 by lia. nia.
  - destruct Hw as (_ & Hk & Hl). fold nm in Hk. fold na in Hl.
    rewrite (nth_skip _ _ _ _ _ (blocks_len _ 1 4)) by (replace (4 - 1 + 1) with 4 by lia; lia).
    rewrite nth_take by (rewrite bins_len; replace (4 - 1 + 1) with 4 by lia; nia).
    rewrite <- (bins_nth i mru bin d) by lia. f_equal.
    cbn [row_form]. fold nm nc na ns. replace (4 - 1 + 1) with 4 by lia. nia.
  - destruct Hw as (_ & Hk). fold ns in Hk.
    rewrite (nth_skip _ _ _ _ _ (blocks_len _ 1 4)) by (replace (4 - 1 + 1) with 4 by lia; lia).
    rewrite (nth_skip _ _ _ _ _ (bins_len _)) by (replace (4 - 1 + 1) with 4 by lia; nia).
    rewrite (nth_skip _ _ _ _ _ (blocks_len _ 7 14)) by (replace (14 - 7 + 1) with 8 by lia; replace (4 - 1 + 1) with 4 by lia; nia).
    assert (E : nth (Z.to_nat seg) (map (fun j => solnnum i 99 0 0 0 j) (upto 0 ns)) d = solnnum i 99 0 0 0 seg)
      by (rewrite nth_map_upto by lia; reflexivity).
    rewrite <- E. f_equal.
    cbn [row_form]. fold nm nc na ns. replace (4 - 1 + 1) with 4 by lia. replace (14 - 7 + 1) with 8 by lia. nia.
Qed.

Lemma assign_nth f w d : (forall k, 1 <= k <= nm -> f k = na) -> in_basin b w ->
  nth (Z.to_nat (row_of b w - 1)) (assign_rows nc nm ns f) d =
  number (match w with Reservoir _ r m => Reservoir 0 r m | Unsat _ m n => Unsat 0 m n
                     | Segment _ s => Segment 0 s | _ => w end).
Proof.
  intros Hf Hw. destruct (decode_all b w Hb Hw) as [_ ->].
  pose proof Hb as (Hc & Hm & Hn & Hs). fold nm in Hm. fold na in Hn. fold ns in Hs. fold nc in Hc.
  unfold assign_rows. rewrite !(assign_bins_eq _ f Hf).
  assert (L1 : length (map (fun i => solnnum 0 0 i 0 0 0) (upto 1 nc)) = Z.to_nat nc)
    by (rewrite map_length, upto_length; f_equal; lia).
  assert (time_case : forall w0, in_basin b w0 ->
    (match w0 with Reservoir t _ _ | Unsat t _ _ | Segment t _ => t = 0 | _ => False end) ->
    nth (Z.to_nat (row_form b w0 - 1)) ([1] ++ map (fun i => solnnum 0 0 i 0 0 0) (upto 1 nc)
      ++ assign_time nm ns (fun _ => na) 0 ++ assign_time nm ns (fun _ => na) 1) d = number w0).
  { intros w0 Hw0 T.
    assert (G : 1 + nc < row_form b w0 <= 1 + nc + (nm * (na + 12) + ns + 1)).
    { pose proof (row_range b w0 Hb Hw0) as R. destruct (decode_all b w0 Hb Hw0) as [_ RE]. rewrite RE in R.
      pose proof (row_band b w0 Hb Hw0) as Band. cbv zeta in Band. fold nm na nc in Band. fold nm na nc ns in R.
      assert (0 < nm * na) by nia.
      destruct w0; try contradiction; try destruct (type <=? 4); lia. }
    rewrite (nth_skip [1] _ _ 1%nat) by (reflexivity || lia).
    rewrite (nth_skip _ _ _ _ _ L1) by lia.
    rewrite nth_take by (rewrite assign_len; lia).
    replace (Z.to_nat (row_form b w0 - 1) - 1 - Z.to_nat nc)%nat with (Z.to_nat (row_form b w0 - 1 - (1 + nc))) by lia.
    apply assign_time_nth; [lia | assumption | assumption]. }
  destruct w.
  - reflexivity.
  - cbn [row_form number in_basin] in *. fold nc in Hw.
    rewrite (nth_skip [1] _ _ 1%nat) by (reflexivity || lia).
    rewrite nth_take by (rewrite L1; lia).
    replace (Z.to_nat (1 + chem - 1) - 1)%nat with (Z.to_nat (chem - 1)) by lia.
    rewrite nth_map_upto by lia. f_equal. lia.
  - rewrite <- (time_case (Reservoir 0 type mru)) by (cbn [in_basin] in *; intuition lia). reflexivity.
  - rewrite <- (time_case (Unsat 0 mru bin)) by (cbn [in_basin] in *; intuition lia). reflexivity.
  - rewrite <- (time_case (Segment 0 seg)) by (cbn [in_basin] in *; intuition lia). reflexivity.
Qed.
End Assign.

Lemma in_upto a c x : In x (upto a c) <-> a <= x <= c.
Proof.
  unfold upto. split.
  - intros H. apply In_nth with (d := 0) in H. destruct H as (n & Hn & E).
    rewrite count_from_length in Hn. rewrite nth_count_from in E by lia. lia.
  - intros H. assert (E : nth (Z.to_nat (x - a)) (count_from a (Z.to_nat (c - a + 1))) 0 = x)
      by (rewrite nth_count_from by lia; lia).
    rewrite <- E. apply nth_In. rewrite count_from_length. lia.
Qed.
Lemma nodup_count a n : NoDup (count_from a n).
Proof.
  revert a; induction n; intros a; cbn [count_from]; constructor; [|apply IHn].
  intros H. apply In_nth with (d := 0) in H. destruct H as (k & Hk & E).
  rewrite count_from_length in Hk. rewrite nth_count_from in E by lia. lia.
Qed.
Lemma nodup_app (l1 l2 : list Z) : NoDup l1 -> NoDup l2 -> (forall x, In x l1 -> ~ In x l2) -> NoDup (l1 ++ l2).
Proof.
  induction 1 as [|x l1 Hx Hn IH]; cbn [app]; intros H2 D; [assumption|]. constructor.
  - rewrite in_app_iff. intros [H | H]; [contradiction | exact (D x (or_introl eq_refl) H)].
  - apply IH; [assumption | intros; apply D; now right].
Qed.
Lemma nodup_map_in (g : Z -> Z) L : NoDup L -> (forall x y, In x L -> In y L -> g x = g y -> x = y) -> NoDup (map g L).
Proof.
  induction 1 as [|x l Hx Hn IH]; cbn [map]; intros G; constructor.
  - rewrite in_map_iff. intros (y & E & Hy). apply Hx. rewrite (G x y); [assumption | now left | now right | now symmetry].
  - apply IH. intros; apply G; [now right | now right | assumption].
Qed.
Lemma nodup_grid (g : Z -> Z -> Z) (L : Z -> list Z) A : NoDup A -> (forall j, NoDup (L j)) ->
  (forall j k j' k', In j A -> In k (L j) -> In j' A -> In k' (L j') -> g j k = g j' k' -> j = j' /\ k = k') ->
  NoDup (flat_map (fun j => map (g j) (L j)) A).
Proof.
  induction 1 as [|x l Hx Hn IH]; cbn [flat_map]; intros HL G; [constructor|]. apply nodup_app.
  - apply nodup_map_in; [apply HL|]. intros y z Hy Hz E.
    destruct (G x y x z (or_introl eq_refl) Hy (or_introl eq_refl) Hz E). assumption.
  - apply IH; [assumption|]. intros j k j' k' ? ? ? ? ?. apply G; try (now right); assumption.
  - intros n H1 H2. apply in_map_iff in H1. destruct H1 as (y & E1 & Hy).
    apply in_flat_map in H2. destruct H2 as (j & Hj & H2). apply in_map_iff in H2. destruct H2 as (z & E2 & Hz).
    destruct (G x y j z) as [-> _]; try (now left); try (now right); try assumption; congruence.
Qed.

Definition time_of (w : water) : Z := match w with Reservoir t _ _ | Unsat t _ _ | Segment t _ => t | _ => -1 end.
Lemma in_assign_time b f i n : basin_ok b -> 0 <= i <= 1 -> (forall k, 1 <= k <= b_mru b -> 1 <= f k <= b_bin b) ->
  In n (assign_time (b_mru b) (b_seg b) f i) -> exists w, in_basin b w /\ time_of w = i /\ number w = n.
Proof.
  intros Hb Hi Hf H. unfold assign_time in H. rewrite !in_app_iff in H.
  rewrite !in_flat_map in H. destruct H as [H | [H | [H | H]]].
  - destruct H as (j & Hj & H). apply in_map_iff in H. destruct H as (k & <- & Hk).
    apply in_upto in Hj, Hk. exists (Reservoir i j k). cbn [in_basin time_of number]. split; [lia | split; reflexivity].
  - destruct H as (j & Hj & H). apply in_map_iff in H. destruct H as (k & <- & Hk).
    apply in_upto in Hj, Hk. specialize (Hf j Hj). exists (Unsat i j k). cbn [in_basin time_of number]. split; [lia | split; reflexivity].
  - destruct H as (j & Hj & H). apply in_map_iff in H. destruct H as (k & <- & Hk).
    apply in_upto in Hj, Hk. exists (Reservoir i j k). cbn [in_basin time_of number]. split; [lia | split; reflexivity].
  - apply in_map_iff in H. destruct H as (k & <- & Hk).
    apply in_upto in Hk. exists (Segment i k). cbn [in_basin time_of number]. split; [lia | split; reflexivity].
Qed.

Ltac same_number b Hb E v w :=
  change (number v = number w) in E; apply (number_inj b v w Hb) in E; cbn [in_basin]; try lia; inversion E; auto; try (exfalso; lia).

Lemma nodup_assign_time b f i : basin_ok b -> 0 <= i <= 1 -> (forall k, 1 <= k <= b_mru b -> 1 <= f k <= b_bin b) ->
  NoDup (assign_time (b_mru b) (b_seg b) f i).
Proof.
  intros Hb Hi Hf. unfold assign_time. apply nodup_app; [| apply nodup_app; [| apply nodup_app |] |].
  - apply (nodup_grid (fun j k => solnnum i j 0 k 0 0) (fun _ => upto 1 (b_mru b))); [apply nodup_count | intros; apply nodup_count|].
    intros j k j' k' H1 H2 H3 H4 E. apply in_upto in H1, H2, H3, H4.
    same_number b Hb E (Reservoir i j k) (Reservoir i j' k').
  - apply (nodup_grid (fun k l => solnnum i 5 0 k l 0) (fun k => upto 1 (f k))); [apply nodup_count | intros; apply nodup_count|].
    intros j k j' k' H1 H2 H3 H4 E. apply in_upto in H1, H2, H3, H4.
    pose proof (Hf j H1). pose proof (Hf j' H3).
    same_number b Hb E (Unsat i j k) (Unsat i j' k').
  - apply (nodup_grid (fun j k => solnnum i j 0 k 0 0) (fun _ => upto 1 (b_mru b))); [apply nodup_count | intros; apply nodup_count|].
    intros j k j' k' H1 H2 H3 H4 E. apply in_upto in H1, H2, H3, H4.
    same_number b Hb E (Reservoir i j k) (Reservoir i j' k').
  - apply nodup_map_in; [apply nodup_count|]. intros x y H1 H2 E. apply in_upto in H1, H2.
    same_number b Hb E (Segment i x) (Segment i y).
  - intros n H1 H2. apply in_flat_map in H1. destruct H1 as (j & Hj & H1). apply in_map_iff in H1. destruct H1 as (k & <- & Hk).
    apply in_map_iff in H2. destruct H2 as (s & E & Hs). apply in_upto in Hj, Hk, Hs.
    same_number b Hb E (Segment i s) (Reservoir i j k).
  - intros n H1 H2. apply in_flat_map in H1. destruct H1 as (j & Hj & H1). apply in_map_iff in H1. destruct H1 as (k & <- & Hk).
    apply in_upto in Hj, Hk. pose proof (Hf j Hj). apply in_app_iff in H2. destruct H2 as [H2 | H2].
    + apply in_flat_map in H2. destruct H2 as (j' & Hj' & H2). apply in_map_iff in H2. destruct H2 as (k' & E & Hk').
      apply in_upto in Hj', Hk'. same_number b Hb E (Reservoir i j' k') (Unsat i j k).
    + apply in_map_iff in H2. destruct H2 as (s & E & Hs). apply in_upto in Hs.
      same_number b Hb E (Segment i s) (Unsat i j k).
  - intros n H1 H2. apply in_flat_map in H1. destruct H1 as (j & Hj & H1). apply in_map_iff in H1. destruct H1 as (k & <- & Hk).
    apply in_upto in Hj, Hk. rewrite !in_app_iff in H2. destruct H2 as [H2 | [H2 | H2]].
    + apply in_flat_map in H2. destruct H2 as (j' & Hj' & H2). apply in_map_iff in H2. destruct H2 as (k' & E & Hk').
      apply in_upto in Hj', Hk'. pose proof (Hf j' Hj'). same_number b Hb E (Unsat i j' k') (Reservoir i j k).
    + apply in_flat_map in H2. destruct H2 as (j' & Hj' & H2). apply in_map_iff in H2. destruct H2 as (k' & E & Hk').
      apply in_upto in Hj', Hk'. same_number b Hb E (Reservoir i j' k') (Reservoir i j k).
    + apply in_map_iff in H2. destruct H2 as (s & E & Hs). apply in_upto in Hs.
      same_number b Hb E (Segment i s) (Reservoir i j k).
Qed.

Lemma nodup_assign b f : basin_ok b -> (forall k, 1 <= k <= b_mru b -> 1 <= f k <= b_bin b) ->
  NoDup (assign_rows (b_chem b) (b_mru b) (b_seg b) f).
Proof.
  intros Hb Hf. unfold assign_rows. apply nodup_app; [| apply nodup_app; [| apply nodup_app |] |].
  - constructor; [intros [] | constructor].
  - apply nodup_map_in; [apply nodup_count|]. intros x y H1 H2 E. apply in_upto in H1, H2.
    same_number b Hb E (Source x) (Source y).
  - apply nodup_assign_time; [assumption | lia | assumption].
  - apply nodup_assign_time; [assumption | lia | assumption].
  - intros n H1 H2. destruct (in_assign_time b f 0 n Hb ltac:(lia) Hf H1) as (v & V1 & V2 & V3).
    destruct (in_assign_time b f 1 n Hb ltac:(lia) Hf H2) as (w & W1 & W2 & W3).
    assert (v = w) by (apply (number_inj b); [assumption | assumption | assumption | congruence]). subst w. lia.
  - intros n H1 H2. apply in_map_iff in H1. destruct H1 as (c & <- & Hc). apply in_upto in Hc.
    assert (exists w, in_basin b w /\ 0 <= time_of w /\ number w = solnnum 0 0 c 0 0 0) as (w & W1 & W2 & W3).
    { apply in_app_iff in H2. destruct H2 as [H2 | H2].
      - destruct (in_assign_time b f 0 _ Hb ltac:(lia) Hf H2) as (w & W1 & W2 & W3). exists w. split; [assumption | split; [lia | assumption]].
      - destruct (in_assign_time b f 1 _ Hb ltac:(lia) Hf H2) as (w & W1 & W2 & W3). exists w. split; [assumption | split; [lia | assumption]]. }
    change (solnnum 0 0 c 0 0 0) with (number (Source c)) in W3.
    apply (number_inj b) in W3; [subst w; cbn [time_of] in W2; lia | assumption | assumption | cbn [in_basin]; lia].
  - intros n [<- | []] H2.
    assert (exists w, in_basin b w /\ w <> Pure /\ number w = 1) as (w & W1 & W2 & W3).
    { apply in_app_iff in H2. destruct H2 as [H2 | H2]; [|apply in_app_iff in H2; destruct H2 as [H2 | H2]].
      - apply in_map_iff in H2. destruct H2 as (c & E & Hc). apply in_upto in Hc. exists (Source c).
        split; [cbn [in_basin]; lia | split; [discriminate | exact E]].
      - destruct (in_assign_time b f 0 _ Hb ltac:(lia) Hf H2) as (w & W1 & W2 & W3). exists w. split; [assumption | split; [intros ->; discriminate | assumption]].
      - destruct (in_assign_time b f 1 _ Hb ltac:(lia) Hf H2) as (w & W1 & W2 & W3). exists w. split; [assumption | split; [intros ->; discriminate | assumption]]. }
    change 1 with (number Pure) in W3.
    apply (number_inj b) in W3; [contradiction | assumption | assumption | exact I].
Qed.

(** CHEMFLAG. *)
Lemma chemflag_num index soln lut : map snd (fst (chemflag index soln lut)) = map snd lut.
Proof.
  unfold chemflag. cbn [fst]. rewrite map_map. apply map_ext. intros [r s].
  cbn [snd]. destruct (s =? soln); reflexivity.
Qed.
Lemma chemflag_length index soln lut : length (fst (chemflag index soln lut)) = length lut.
Proof. unfold chemflag. cbn [fst]. apply map_length. Qed.

Lemma nth_chemflag index soln lut i d : (i < length lut)%nat ->
  nth i (fst (chemflag index soln lut)) d =
  if snd (nth i lut d) =? soln then (index, snd (nth i lut d)) else nth i lut d.
Proof.
  unfold chemflag. cbn [fst]. revert i. induction lut as [|e t IH]; cbn [length map nth]; intros i H; [lia|].
  destruct i; [reflexivity|]. apply IH. lia.
Qed.

Lemma flag_rows_spec rows : NoDup rows -> forall r lut,
  let '(lut', flags) := flag_rows r rows lut in
  map snd lut' = map snd lut /\ length flags = length rows /\
  (forall i, (i < length rows)%nat ->
     nth i flags 0 = 1 <-> In (nth i rows 0) (map snd lut)) /\
  (forall i d, (i < length lut)%nat ->
     (forall k, (k < length rows)%nat -> snd (nth i lut d) = nth k rows 0 ->
        nth i lut' d = (r + Z.of_nat k, snd (nth i lut d))) /\
     (~ In (snd (nth i lut d)) rows -> nth i lut' d = nth i lut d)).
Proof.
  induction 1 as [|s t Hs Hn IH]; intros r lut; cbn [flag_rows].
  - cbn [length]. split; [reflexivity|]. split; [reflexivity|]. split; [intros; lia|].
    intros i d Hi. split; [intros; lia | reflexivity].
  - destruct (chemflag r s lut) as [lut1 f] eqn:E.
    specialize (IH (r + 1) lut1). destruct (flag_rows (r + 1) t lut1) as [lut2 fs].
    destruct IH as (I1 & I2 & I3 & I4).
    assert (E1 : lut1 = fst (chemflag r s lut)) by (rewrite E; reflexivity).
    assert (Num : map snd lut1 = map snd lut) by (rewrite E1; apply chemflag_num).
    assert (Len : length lut1 = length lut) by (rewrite E1; apply chemflag_length).
    cbn [length]. split; [congruence|]. split; [congruence|]. split.
    + intros [|i] Hi; cbn [nth].
      * unfold chemflag in E. inversion E. clear. destruct (existsb _ lut) eqn:X.
        -- split; [intros _|reflexivity]. apply existsb_exists in X. destruct X as (e & He & Q).
           apply Z.eqb_eq in Q. subst. apply in_map. assumption.
        -- split; [discriminate|]. intros HI. exfalso. apply in_map_iff in HI. destruct HI as (e & Q & He).
           assert (existsb (fun e : Z * Z => snd e =? s) lut = true) by (apply existsb_exists; exists e; split; [assumption | apply Z.eqb_eq; assumption]).
           congruence.
      * rewrite I3 by lia. rewrite Num. reflexivity.
    + intros i d Hi. assert (Hi1 : (i < length lut1)%nat) by lia.
      destruct (I4 i d Hi1) as [J1 J2].
      assert (N1 : nth i lut1 d = if snd (nth i lut d) =? s then (r, snd (nth i lut d)) else nth i lut d)
        by (rewrite E1; apply nth_chemflag; assumption).
      assert (S1 : snd (nth i lut1 d) = snd (nth i lut d)) by (rewrite N1; destruct (_ =? _); reflexivity).
      rewrite S1 in J1, J2. split.
      * intros [|k] Hk Q; cbn [nth] in Q.
        -- rewrite J2 by (rewrite Q; assumption). rewrite N1.
           replace (snd (nth i lut d) =? s) with true by (symmetry; apply Z.eqb_eq; assumption).
           f_equal. lia.
        -- rewrite (J1 k) by (lia || assumption). f_equal. lia.
      * intros HI. cbn [In] in HI. rewrite J2 by tauto. rewrite N1.
        replace (snd (nth i lut d) =? s) with false; [reflexivity|]. symmetry. apply Z.eqb_neq. intros Q. apply HI. now left.
Qed.

(** CHECKFRACS. *)
Local Open Scope Q_scope.

Lemma quot_102 s : (Z.quot s e6 =? 102)%Z = ((102000000 <=? s) && (s <? 103000000))%Z.
Proof.
  unfold e6. destruct (Z.lt_ge_cases s 0).
  - assert (Z.quot s 1000000 <= 0)%Z by (apply Z.quot_le_upper_bound; lia). lia.
  - rewrite Z.quot_div_nonneg by lia.
    pose proof (Z.div_mod s 1000000 ltac:(lia)). pose proof (Z.mod_pos_bound s 1000000 ltac:(lia)). lia.
Qed.

Definition licence (l : list (Z * Q)) : bool :=
  existsb (fun p => qlt (snd p) 0 && may_be_negative (fst p)) l.

Lemma check_loop_spec l : forall et snow sum fs sum',
  check_loop et snow sum l = (fs, sum') ->
  sum' == sum + qsum fs /\ length fs = length l /\
  (forall pre s f post, l = pre ++ (s, f) :: post ->
     nth (length pre) fs 0 =
       if qlt f 0 && negb (et || snow || licence pre || may_be_negative s) then 0 else f).
Proof.
  induction l as [|(s, f) t IH]; intros et snow sum fs sum' E; cbn [check_loop] in E.
  - inversion E; subst. split; [cbn [qsum]; lra|]. split; [reflexivity|].
    intros [|] ? ? ? Q; discriminate.
  - destruct (qlt f 0) eqn:N.
    + set (et' := et || (s =? 1)%Z) in *.
      set (snow' := snow || (s =? 2)%Z || (Z.quot s e6 =? 102)%Z) in *.
      assert (M : et' || snow' = et || snow || may_be_negative s).
      { unfold et', snow', may_be_negative. rewrite quot_102.
        destruct et, snow, (s =? 1)%Z, (s =? 2)%Z, ((102000000 <=? s) && (s <? 103000000))%Z; reflexivity. }
      clearbody et' snow'.
      set (f' := if negb et' && negb snow' then 0 else f) in *.
      destruct (check_loop et' snow' (sum + f') t) as [fs1 sum1] eqn:C.
      inversion E; subst. destruct (IH _ _ _ _ _ C) as (A & B & D).
      split; [cbn [qsum]; lra|]. split; [cbn [length]; congruence|].
      intros [|p pre] s0 f0 post Q; cbn [app length nth] in *; inversion Q; subst.
      * unfold f'. rewrite N. cbn [licence existsb]. rewrite orb_false_r, <- M. cbn [andb].
        destruct et', snow'; reflexivity.
      * rewrite (D pre s0 f0 post eq_refl). cbn [licence existsb fst snd]. rewrite N. cbn [andb].
        fold (licence pre). replace (et || snow || (may_be_negative s || licence pre) || may_be_negative s0)
          with (et' || snow' || licence pre || may_be_negative s0); [reflexivity|].
        rewrite M. destruct et, snow, (may_be_negative s), (licence pre); reflexivity.
    + destruct (check_loop et snow (sum + f) t) as [fs1 sum1] eqn:C.
      inversion E; subst. destruct (IH _ _ _ _ _ C) as (A & B & D).
      split; [cbn [qsum]; lra|]. split; [cbn [length]; congruence|].
      intros [|p pre] s0 f0 post Q; cbn [app length nth] in *; inversion Q; subst.
      * rewrite N. reflexivity.
      * rewrite (D pre s0 f0 post eq_refl). cbn [licence existsb fst snd]. rewrite N. reflexivity.
Qed.

Lemma checkfracs_spec l fs ans : checkfracs l = (fs, ans) ->
  length fs = length l /\
  (ans = 0%Z <-> Qabs (1 - qsum fs) <= 1 # 1000) /\ (ans = 0%Z \/ ans = 1%Z) /\
  (forall pre s f post, l = pre ++ (s, f) :: post ->
     nth (length pre) fs 0 = if qlt f 0 && negb (licence pre || may_be_negative s) then 0 else f).
Proof.
  unfold checkfracs. destruct (check_loop false false 0 l) as [fs1 sum] eqn:C. intros E.
  destruct (check_loop_spec _ _ _ _ _ _ C) as (A & B & D). apply pair_equal_spec in E. destruct E as [E1 E2]. subst fs1 ans.
  assert (R : 1 - sum == 1 - qsum fs) by lra.
  split; [assumption|]. split; [|split].
  - destruct (qlt (1 # 1000) (Qabs (1 - sum))) eqn:X.
    + split; [discriminate|]. apply qlt_t in X. rewrite R in X. intros. exfalso. lra.
    + split; [|reflexivity]. intros _. apply qlt_f in X. rewrite R in X. lra.
  - destruct (qlt _ _); auto.
  - exact D.
Qed.
