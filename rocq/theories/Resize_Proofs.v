From Coq Require Import String List ZArith Bool Arith Lia ZifyBool.
From Verif Require Import CStr_Model Resize_Model Resize_Spec.
Import ListNotations.
Local Open Scope list_scope.
Local Open Scope nat_scope.

Lemma for_inv {A} (P : nat -> A -> Prop) n f a : P 0 a -> (forall i a, i < n -> P i a -> exists a', f i a = Ret a' /\ P (S i) a') -> exists a', for_ n f a = Ret a' /\ P n a'.
Proof.
  induction n as [|n IH]; intros H0 HS; [exists a; split; [reflexivity|exact H0]|]. cbn [for_].
  destruct IH as [b [E B]]; [exact H0|intros i x I; apply HS; lia|]. rewrite E. cbn [bind]. apply HS; [lia|exact B].
Qed.
Lemma product_count l : product l = count l.
Proof.
  unfold product. assert (G : forall l a, fold_left Nat.mul l a = a * count l).
  { induction l0 as [|x l0 IH]; intros a; cbn [fold_left count]; [lia|]. rewrite IH. lia. }
  rewrite G. lia.
Qed.
Lemma count_app a b : count (a ++ b) = count a * count b.
Proof. induction a as [|x a IH]; cbn [app count]; [lia|]. rewrite IH. lia. Qed.

(** Cells. *)
Lemma put_ok l i v : i < length l -> put l i v = Ret (firstn i l ++ v :: skipn (S i) l).
Proof. intros H. unfold put. rewrite (proj2 (Nat.ltb_lt _ _) H). reflexivity. Qed.
Lemma put_length l i v r : put l i v = Ret r -> length r = length l.
Proof.
  unfold put. destruct (Nat.ltb_spec i (length l)) as [H|H]; [|discriminate]. intros E. assert (R : r = firstn i l ++ v :: skipn (S i) l) by congruence. clear E. subst r.
  rewrite app_length, firstn_length. change (length (v :: skipn (S i) l)) with (S (length (skipn (S i) l))). rewrite skipn_length. lia.
Qed.
Lemma put_nth l i v r : put l i v = Ret r -> forall k, nth_error r k = if Nat.eqb k i then Some v else nth_error l k.
Proof.
  unfold put. destruct (Nat.ltb_spec i (length l)) as [H|H]; [|discriminate]. intros E. assert (R : r = firstn i l ++ v :: skipn (S i) l) by congruence. clear E. subst r. revert i H.
  induction l as [|x l IH]; intros i H k; [cbn in H; lia|]. destruct i as [|i].
  - cbn [firstn app skipn]. destruct k; reflexivity.
  - cbn [firstn app]. destruct k as [|k]; [reflexivity|]. cbn [nth_error Nat.eqb]. apply IH. cbn in H. lia.
Qed.
Lemma get_nth l i v : nth_error l i = Some v -> get l (Z.of_nat i) = Ret v.
Proof. intros H. unfold get. destruct (Z.ltb_spec (Z.of_nat i) 0); [lia|]. rewrite Nat2Z.id, H. reflexivity. Qed.
Lemma nth_some {A} (l : list A) i : i < length l -> exists v, nth_error l i = Some v.
Proof. intros H. destruct (nth_error l i) as [v|] eqn:E; [exists v; reflexivity|]. apply nth_error_None in E. lia. Qed.

(** Where the cell at position [x] of the new array comes from. *)
Definition source (bs nnew nold x : nat) : nat :=
  x mod bs + Nat.min ((x / bs) mod nnew) (nold - 1) * bs + (x / bs / nnew) * (bs * nold).
Lemma source_at bs nnew nold j i f : j < bs -> i < nnew ->
  source bs nnew nold (j + i * bs + f * (bs * nnew)) = j + Nat.min i (nold - 1) * bs + f * (bs * nold).
Proof.
  intros J I. unfold source. replace (j + i * bs + f * (bs * nnew)) with (j + (i + f * nnew) * bs) by lia.
  rewrite Nat.mod_add, Nat.div_add by lia. rewrite (Nat.mod_small j bs), (Nat.div_small j bs) by lia. cbn [Nat.add].
  rewrite Nat.mod_add, Nat.div_add by lia. rewrite (Nat.mod_small i nnew), (Nat.div_small i nnew) by lia. reflexivity.
Qed.
Lemma repack_ok nf nnew nold bs sz prev : 1 <= nold -> nf * nnew * bs <= sz -> nf * nold * bs <= length prev ->
  exists r, repack nf nnew nold bs sz prev = Ret r /\ length r = sz /\
    forall x, x < nf * nnew * bs -> nth_error r x = nth_error prev (source bs nnew nold x).
Proof.
  intros N0 S0 P0. unfold repack.
  set (P := fun q (r : cells) => length r = sz /\ forall x, x < q -> nth_error r x = nth_error prev (source bs nnew nold x)).
  assert (STEP : forall f i j r, f < nf -> i < nnew -> j < bs -> P (j + i * bs + f * (bs * nnew)) r ->
    exists r', (do v <- get prev (Z.of_nat j + (if Nat.ltb i nold then Z.of_nat i else (Z.of_nat nold - 1)%Z) * Z.of_nat bs + Z.of_nat f * (Z.of_nat bs * Z.of_nat nold));
                put r (j + i * bs + f * (bs * nnew)) v) = Ret r' /\ P (S j + i * bs + f * (bs * nnew)) r').
  { intros f i j r F I J [L R].
    assert (E : (Z.of_nat j + (if Nat.ltb i nold then Z.of_nat i else (Z.of_nat nold - 1)%Z) * Z.of_nat bs + Z.of_nat f * (Z.of_nat bs * Z.of_nat nold))%Z
                = Z.of_nat (j + Nat.min i (nold - 1) * bs + f * (bs * nold))).
    { destruct (Nat.ltb_spec i nold) as [K|K]; [rewrite Nat.min_l by lia|rewrite Nat.min_r by lia]; nia. }
    rewrite E. assert (MI : Nat.min i (nold - 1) < nold) by lia. remember (Nat.min i (nold - 1)) as m eqn:EM.
    assert (B : j + m * bs + f * (bs * nold) < length prev).
    { apply Nat.lt_le_trans with (nf * nold * bs); [|exact P0]. assert (m * bs + bs <= nold * bs) by nia. assert (f * (bs * nold) + bs * nold <= nf * (bs * nold)) by nia. nia. }
    destruct (nth_some _ _ B) as [v V]. rewrite (get_nth _ _ _ V). cbn [bind].
    assert (B2 : j + i * bs + f * (bs * nnew) < length r).
    { rewrite L. apply Nat.lt_le_trans with (nf * nnew * bs); [|exact S0]. assert (i * bs + bs <= nnew * bs) by nia. assert (f * (bs * nnew) + bs * nnew <= nf * (bs * nnew)) by nia. nia. }
    destruct (put r _ v) as [r'| |] eqn:PU; [|rewrite put_ok in PU by exact B2; discriminate|rewrite put_ok in PU by exact B2; discriminate].
    exists r'. split; [reflexivity|]. split; [rewrite (put_length _ _ _ _ PU); exact L|]. intros x X. rewrite (put_nth _ _ _ _ PU).
    destruct (Nat.eqb_spec x (j + i * bs + f * (bs * nnew))) as [->|NE].
    - rewrite (source_at bs nnew nold j i f J I), <- EM. symmetry. exact V.
    - apply R. lia. }
  destruct (for_inv (fun f r => P (f * (bs * nnew)) r) nf (fun iframe => for_ nnew (fun inew => for_ bs (fun j new =>
    let iold := if Nat.ltb inew nold then Z.of_nat inew else (Z.of_nat nold - 1)%Z in
    do v <- get prev (Z.of_nat j + iold * Z.of_nat bs + Z.of_nat iframe * (Z.of_nat bs * Z.of_nat nold));
    put new (j + inew * bs + iframe * (bs * nnew)) v))) (repeat None sz)) as [r [E R]].
  - split; [apply repeat_length|]. intros x X. lia.
  - intros f r F R.
    destruct (for_inv (fun i r => P (i * bs + f * (bs * nnew)) r) nnew (fun inew => for_ bs (fun j new =>
      let iold := if Nat.ltb inew nold then Z.of_nat inew else (Z.of_nat nold - 1)%Z in
      do v <- get prev (Z.of_nat j + iold * Z.of_nat bs + Z.of_nat f * (Z.of_nat bs * Z.of_nat nold));
      put new (j + inew * bs + f * (bs * nnew)) v)) r R) as [r1 [E1 R1]].
    + intros i r1 I R1.
      destruct (for_inv (fun j r => P (j + i * bs + f * (bs * nnew)) r) bs (fun j new =>
        let iold := if Nat.ltb i nold then Z.of_nat i else (Z.of_nat nold - 1)%Z in
        do v <- get prev (Z.of_nat j + iold * Z.of_nat bs + Z.of_nat f * (Z.of_nat bs * Z.of_nat nold));
        put new (j + i * bs + f * (bs * nnew)) v) r1 R1) as [r2 [E2 R2]].
      * intros j r2 J R2. apply STEP; assumption.
      * exists r2. split; [exact E2|]. replace (S i * bs + f * (bs * nnew)) with (bs + i * bs + f * (bs * nnew)) by lia. exact R2.
    + exists r1. split; [exact E1|]. replace (S f * (bs * nnew)) with (nnew * bs + f * (bs * nnew)) by lia. exact R1.
  - exists r. split; [exact E|]. destruct R as [L R]. split; [exact L|]. intros x X. apply R. lia.
Qed.

(** Coordinates. *)
Lemma position_lt e c : inside e c -> position e c < count e.
Proof. intros H. induction H as [|n x ns xs H HS IH]; cbn [position count]; [lia|]. nia. Qed.
Lemma position_app : forall e1 c1 e2 c2, length e1 = length c1 -> position (e1 ++ e2) (c1 ++ c2) = position e1 c1 + count e1 * position e2 c2.
Proof.
  induction e1 as [|n e1 IH]; intros [|x c1] e2 c2 L; try discriminate L; cbn [app position count]; [lia|]. rewrite IH by (injection L as L; exact L). lia.
Qed.
Lemma inside_split e1 n e2 c : inside (e1 ++ n :: e2) c -> exists c1 x c2, c = c1 ++ x :: c2 /\ inside e1 c1 /\ x < n /\ inside e2 c2.
Proof.
  intros H. unfold inside in H. apply Forall2_app_inv_l in H. destruct H as [c1 [r [H1 [H2 ->]]]]. inversion H2 as [|? x ? c2 HX HR]; subst.
  exists c1, x, c2. repeat split; assumption.
Qed.
Lemma inside_len e c : inside e c -> length e = length c.
Proof. intros H. induction H; cbn; [reflexivity|]. f_equal. assumption. Qed.
(** The new table, coordinate by coordinate. *)
Lemma repack_cell e1 e2 nnew nold sz prev : 1 <= nold -> count (e1 ++ nnew :: e2) <= sz -> count (e1 ++ nold :: e2) <= length prev ->
  exists r, repack (count e2) nnew nold (count e1) sz prev = Ret r /\ length r = sz /\
    forall c1 x c2, inside e1 c1 -> x < nnew -> inside e2 c2 ->
      cell (e1 ++ nnew :: e2) r (c1 ++ x :: c2) = cell (e1 ++ nold :: e2) prev (c1 ++ Nat.min x (nold - 1) :: c2).
Proof.
  intros N A B. rewrite count_app in A, B. cbn [count] in A, B.
  destruct (repack_ok (count e2) nnew nold (count e1) sz prev N ltac:(nia) ltac:(nia)) as [r [E [L R]]]. exists r. split; [exact E|split; [exact L|]].
  intros c1 x c2 I1 X I2. unfold cell. rewrite !position_app by (apply inside_len; exact I1). cbn [position].
  pose proof (position_lt _ _ I1) as P1. pose proof (position_lt _ _ I2) as P2. set (j := position e1 c1) in *. set (f := position e2 c2) in *.
  replace (j + count e1 * (x + nnew * f)) with (j + x * count e1 + f * (count e1 * nnew)) by lia.
  rewrite R.
  - rewrite source_at by assumption. f_equal. lia.
  - assert (x * count e1 + count e1 <= nnew * count e1) by nia. assert (f * (count e1 * nnew) + count e1 * nnew <= count e2 * (count e1 * nnew)) by nia. nia.
Qed.

(** The parameter. *)
Lemma last_none d : forall l i acc, ~ In d l -> last_use d l i acc = acc.
Proof.
  induction l as [|x l IH]; intros i acc H; cbn [last_use]; [reflexivity|]. destruct (String.eqb_spec d x) as [->|_]; [elim H; left; reflexivity|]. apply IH. intros K. apply H. right. exact K.
Qed.
Lemma last_at d a b : ~ In d a -> ~ In d b -> last_use d (a ++ d :: b) 0 None = Some (length a).
Proof.
  intros A B. assert (G : forall a i, ~ In d a -> last_use d (a ++ d :: b) i None = Some (i + length a)).
  { induction a0 as [|x a0 IH]; intros i H; cbn [app last_use length].
    - rewrite String.eqb_refl, last_none by exact B. f_equal. lia.
    - destruct (String.eqb_spec d x) as [->|_]; [elim H; left; reflexivity|]. rewrite IH by (intros K; apply H; right; exact K). f_equal. lia. }
  apply (G a 0 A).
Qed.
Definition change (ds : dims) (d : string) (n : dim) : dims := fun x => if String.eqb x d then n else ds x.
Lemma values_out ds d n l : ~ In d l -> values (change ds d n) l = values ds l.
Proof.
  intros H. unfold values. apply List.map_ext_in. intros x X. unfold change. destruct (String.eqb_spec x d) as [->|_]; [contradiction|reflexivity].
Qed.
Lemma values_change ds d n a b : ~ In d a -> ~ In d b -> values (change ds d n) (a ++ d :: b) = values ds a ++ d_value n :: values ds b.
Proof.
  intros A B. unfold values at 1. rewrite map_app. cbn [map]. change (map _ a) with (values (change ds d n) a). change (map _ b) with (values (change ds d n) b).
  rewrite !values_out by assumption. unfold change. rewrite String.eqb_refl. reflexivity.
Qed.
Lemma values_old ds d a b : values ds (a ++ d :: b) = values ds a ++ d_value (ds d) :: values ds b.
Proof. unfold values. rewrite map_app. reflexivity. Qed.
Definition at_least (n : nat) : nat := if Nat.eqb n 0 then 1 else n.
Lemma reset_param_ok ds d n p a b : p_dims p = a ++ d :: b -> ~ In d a -> ~ In d b -> 1 <= d_value (ds d) ->
  let old := values ds (p_dims p) in
  let new := values (change ds d n) (p_dims p) in
  count old <= length (p_value p) -> count old <= length (p_min p) -> count old <= length (p_max p) ->
  exists q, reset_param (change ds d n) d (d_value (ds d)) (d_value n) p = Ret q /\ p_dims q = p_dims p /\ p_bound q = p_bound p /\
    p_size q = at_least (count new) /\ length (p_value q) = p_size q /\ length (p_min q) = p_size q /\ length (p_max q) = p_size q /\
    forall c1 x c2, inside (values ds a) c1 -> x < d_value n -> inside (values ds b) c2 ->
      cell new (p_value q) (c1 ++ x :: c2) = cell old (p_value p) (c1 ++ Nat.min x (d_value (ds d) - 1) :: c2) /\
      cell new (p_min q) (c1 ++ x :: c2) = cell old (p_min p) (c1 ++ Nat.min x (d_value (ds d) - 1) :: c2) /\
      cell new (p_max q) (c1 ++ x :: c2) = cell old (p_max p) (c1 ++ Nat.min x (d_value (ds d) - 1) :: c2).
Proof.
  intros D A B N old new LV LM LX. unfold reset_param. rewrite D, (last_at d a b A B). rewrite <- D. change (values (change ds d n) (p_dims p)) with new. rewrite product_count.
  change (if Nat.eqb (count new) 0 then 1 else count new) with (at_least (count new)). set (sz := at_least (count new)).
  assert (SZ : count new <= sz) by (unfold sz, at_least; destruct (Nat.eqb_spec (count new) 0); lia).
  unfold resize_param. change (values (change ds d n) (p_dims p)) with new.
  assert (EN : new = values ds a ++ d_value n :: values ds b) by (unfold new; rewrite D; apply values_change; assumption).
  assert (EO : old = values ds a ++ d_value (ds d) :: values ds b) by (unfold old; rewrite D; apply values_old).
  assert (LA : length a = length (values ds a)) by (unfold values; rewrite map_length; reflexivity).
  assert (F : product (firstn (length a) new) = count (values ds a)).
  { rewrite product_count, EN, LA, firstn_app, firstn_all, Nat.sub_diag. cbn [firstn]. rewrite app_nil_r. reflexivity. }
  assert (G : product (skipn (S (length a)) new) = count (values ds b)).
  { rewrite product_count, EN, LA. rewrite skipn_app, skipn_all2 by lia. cbn [app]. replace (S (length (values ds a)) - length (values ds a)) with 1 by lia. reflexivity. }
  rewrite F, G. rewrite EN in SZ. rewrite EO in LV, LM, LX.
  destruct (repack_cell _ _ _ _ sz (p_value p) N SZ LV) as [v [E1 [L1 R1]]]. rewrite E1. cbn [bind].
  destruct (repack_cell _ _ _ _ sz (p_min p) N SZ LM) as [lo [E2 [L2 R2]]]. rewrite E2. cbn [bind].
  destruct (repack_cell _ _ _ _ sz (p_max p) N SZ LX) as [hi [E3 [L3 R3]]]. rewrite E3. cbn [bind p_value p_min p_max p_dims p_bound p_desc].
  eexists. split; [reflexivity|]. cbn [p_value p_min p_max p_dims p_bound p_size]. split; [reflexivity|]. split; [reflexivity|]. split; [reflexivity|].
  split; [exact L1|]. split; [exact L2|]. split; [exact L3|]. intros c1 x c2 I1 X I2. rewrite EN, EO. split; [apply R1; assumption|]. split; [apply R2|apply R3]; assumption.
Qed.
Lemma reset_param_none ds d nold nnew p : ~ In d (p_dims p) -> reset_param ds d nold nnew p = Ret p.
Proof. intros H. unfold reset_param. rewrite last_none by exact H. reflexivity. Qed.
Lemma nearest_in e c : inside e c -> nearest e c = c.
Proof. intros H. induction H as [|n x ns xs H HS IH]; cbn [nearest]; [reflexivity|]. rewrite IH, Nat.min_l by lia. reflexivity. Qed.
Lemma nearest_app : forall e1 c1 e2 c2, length e1 = length c1 -> nearest (e1 ++ e2) (c1 ++ c2) = nearest e1 c1 ++ nearest e2 c2.
Proof. induction e1 as [|n e1 IH]; intros [|x c1] e2 c2 L; try discriminate L; cbn [app nearest]; [reflexivity|]. rewrite IH by (injection L as L; exact L). reflexivity. Qed.
Lemma nearest_inside e : Forall (fun n => 1 <= n) e -> forall c, length c = length e -> inside e (nearest e c).
Proof.
  intros H. induction H as [|n e N H IH]; intros [|x c] L; try discriminate L; cbn [nearest]; [constructor|]. constructor; [lia|]. apply IH. injection L as L. exact L.
Qed.
Lemma count_pos e : Forall (fun n => 1 <= n) e -> 1 <= count e.
Proof. intros H. induction H as [|n e N H IH]; cbn [count]; [lia|]. nia. Qed.

Lemma decode_pos : forall e x, Forall (fun n => 1 <= n) e -> x < count e -> exists c, inside e c /\ position e c = x.
Proof.
  induction e as [|n e IH]; intros x P H; cbn [count] in H.
  - exists []. split; [constructor|cbn; lia].
  - inversion P as [|? ? N P']; subst. destruct (IH (x / n) P') as [c [I E]]; [apply Nat.div_lt_upper_bound; lia|].
    exists (x mod n :: c). split; [constructor; [apply Nat.mod_upper_bound; lia|exact I]|]. cbn [position]. rewrite E. pose proof (Nat.div_mod x n ltac:(lia)). lia.
Qed.
(** Every cell of the new array is one of the old array. *)
Lemma full_of e e' l l' : Forall (fun n => 1 <= n) e -> Forall (fun n => 1 <= n) e' -> length e = length e' -> full (count e) l -> length l' = count e' ->
  (forall c, inside e' c -> cell e' l' c = cell e l (nearest e c)) -> full (count e') l'.
Proof.
  intros P P' LE [L F] L' H. split; [exact L'|]. apply Forall_forall. intros v V. apply In_nth_error in V. destruct V as [x X].
  assert (B : x < count e') by (rewrite <- L'; apply nth_error_Some; rewrite X; discriminate).
  destruct (decode_pos e' x P' B) as [c [I E]]. specialize (H c I). unfold cell in H. rewrite E, X in H. symmetry in H. apply nth_error_In in H.
  rewrite Forall_forall in F. exact (F v H).
Qed.
Lemma in_dims_split (d : string) l : In d l -> NoDup l -> exists a b, l = a ++ d :: b /\ ~ In d a /\ ~ In d b.
Proof.
  intros I N. apply in_split in I. destruct I as [a [b ->]]. exists a, b. split; [reflexivity|]. apply NoDup_remove_2 in N. split; intros K; apply N; apply in_or_app; [left|right]; exact K.
Qed.
Lemma values_pos_change ds d n l : Forall (fun n => 1 <= n) (values ds l) -> 1 <= d_value n -> Forall (fun n => 1 <= n) (values (change ds d n) l).
Proof.
  intros H N. unfold values in *. rewrite Forall_map in *. eapply Forall_impl; [|exact H]. intros x X. cbv beta in *. unfold change. destruct (String.eqb x d); assumption.
Qed.
Lemma values_len ds l : length (values ds l) = length l.
Proof. apply map_length. Qed.
Record resized (ds ds' : dims) (p q : param) : Prop := {
  z_dims : p_dims q = p_dims p;
  z_bound : p_bound q = p_bound p;
  z_value : forall c, inside (values ds' (p_dims p)) c -> cell (values ds' (p_dims p)) (p_value q) c = cell (values ds (p_dims p)) (p_value p) (nearest (values ds (p_dims p)) c);
  z_min : forall c, inside (values ds' (p_dims p)) c -> cell (values ds' (p_dims p)) (p_min q) c = cell (values ds (p_dims p)) (p_min p) (nearest (values ds (p_dims p)) c);
  z_max : forall c, inside (values ds' (p_dims p)) c -> cell (values ds' (p_dims p)) (p_max q) c = cell (values ds (p_dims p)) (p_max p) (nearest (values ds (p_dims p)) c) }.
Lemma reset_param_resized ds d n p : complete ds p -> 1 <= d_value n ->
  exists q, reset_param (change ds d n) d (d_value (ds d)) (d_value n) p = Ret q /\ complete (change ds d n) q /\ resized ds (change ds d n) p q.
Proof.
  intros [KD KP KS KV KM KX] N. destruct (in_dec string_dec d (p_dims p)) as [I|I].
  - destruct (in_dims_split d _ I KD) as [a [b [D [A B]]]].
    assert (N0 : 1 <= d_value (ds d)).
    { rewrite Forall_forall in KP. apply KP. unfold values. apply in_map_iff. exists d. split; [reflexivity|exact I]. }
    destruct (reset_param_ok ds d n p a b D A B N0) as [q [E [QD [QB [QS [QV [QM [QX R]]]]]]]]; [rewrite <- KS; apply Nat.eq_le_incl; symmetry; apply KV|rewrite <- KS; apply Nat.eq_le_incl; symmetry; apply KM|rewrite <- KS; apply Nat.eq_le_incl; symmetry; apply KX|].
    pose proof (values_pos_change ds d n _ KP N) as KP'. pose proof (count_pos _ KP') as CP. unfold at_least in QS. destruct (Nat.eqb_spec (count (values (change ds d n) (p_dims p))) 0) as [Z|_]; [lia|].
    assert (Z : resized ds (change ds d n) p q).
    { assert (G : forall c, inside (values (change ds d n) (p_dims p)) c -> exists c1 x c2, c = c1 ++ x :: c2 /\ inside (values ds a) c1 /\ x < d_value n /\ inside (values ds b) c2 /\
                    nearest (values ds (p_dims p)) c = c1 ++ Nat.min x (d_value (ds d) - 1) :: c2).
      { intros c C. rewrite D, values_change in C by assumption. destruct (inside_split _ _ _ _ C) as [c1 [x [c2 [-> [I1 [X I2]]]]]]. exists c1, x, c2.
        split; [reflexivity|]. split; [exact I1|]. split; [exact X|]. split; [exact I2|]. rewrite D, values_old, nearest_app by (apply inside_len; exact I1). cbn [nearest]. rewrite !nearest_in by assumption. reflexivity. }
      constructor; [exact QD|exact QB| | |]; intros c C; destruct (G c C) as [c1 [x [c2 [-> [I1 [X [I2 ->]]]]]]]; apply (R c1 x c2 I1 X I2). }
    exists q. split; [exact E|]. split; [|exact Z]. rewrite KS in KV, KM, KX.
    assert (LL : length (values ds (p_dims p)) = length (values (change ds d n) (p_dims p))) by (rewrite !values_len; reflexivity).
    constructor; rewrite ?QD; [exact KD|exact KP'|exact QS| | |]; rewrite QS.
    + eapply full_of; [exact KP|exact KP'|exact LL|exact KV|rewrite <- QS; exact QV|apply (z_value _ _ _ _ Z)].
    + eapply full_of; [exact KP|exact KP'|exact LL|exact KM|rewrite <- QS; exact QM|apply (z_min _ _ _ _ Z)].
    + eapply full_of; [exact KP|exact KP'|exact LL|exact KX|rewrite <- QS; exact QX|apply (z_max _ _ _ _ Z)].
  - exists p. rewrite reset_param_none by exact I. split; [reflexivity|]. pose proof (values_out ds d n _ I) as V. split.
    + constructor; rewrite ?V; assumption.
    + constructor; [reflexivity|reflexivity| | |]; rewrite V; intros c C; rewrite nearest_in by exact C; reflexivity.
Qed.
(** Bounds. *)
Lemma full_get n l j : full n l -> j < n -> exists x, nth_error l j = Some (Some x).
Proof.
  intros [L F] J. destruct (nth_some l j ltac:(lia)) as [v V]. rewrite Forall_forall in F. pose proof (F v (nth_error_In _ _ V)) as K. destruct v as [x|]; [exists x; exact V|contradiction].
Qed.
Lemma full_put n l j x : full n l -> j < n -> exists r, put l j (Some x) = Ret r /\ full n r /\ forall k, nth_error r k = if Nat.eqb k j then Some (Some x) else nth_error l k.
Proof.
  intros [L F] J. destruct (put l j (Some x)) as [r| |] eqn:E; try (rewrite put_ok in E by lia; discriminate). exists r. split; [reflexivity|].
  pose proof (put_nth _ _ _ _ E) as N. split; [|exact N]. split; [rewrite (put_length _ _ _ _ E); exact L|]. apply Forall_forall. intros v V. apply In_nth_error in V. destruct V as [k K].
  rewrite N in K. destruct (Nat.eqb k j); [injection K as <-; discriminate|]. rewrite Forall_forall in F. exact (F v (nth_error_In _ _ K)).
Qed.
Lemma rebound_ok ds d n p : complete ds p -> exists q, rebound d n p = Ret q /\ complete ds q /\ p_dims q = p_dims p /\ p_bound q = p_bound p /\ p_min q = p_min p /\
  (p_bound p <> Some d -> q = p) /\
  (p_bound p = Some d -> p_value q = map (cap n) (p_value p) /\ p_max q = map (fun _ => Some (Z.of_nat n)) (p_max p)).
Proof.
  intros K. unfold rebound. destruct (p_bound p) as [b|] eqn:EB.
  - destruct (String.eqb_spec b d) as [->|NE].
    + set (v0 := p_value p). set (m0 := p_max p).
      destruct (for_inv (fun j (vm : cells * cells) => full (p_size p) (fst vm) /\ full (p_size p) (snd vm) /\
        (forall k, nth_error (fst vm) k = if Nat.ltb k j then option_map (cap n) (nth_error v0 k) else nth_error v0 k) /\
        (forall k, nth_error (snd vm) k = if Nat.ltb k j then option_map (fun _ => Some (Z.of_nat n)) (nth_error m0 k) else nth_error m0 k))
        (p_size p) (clamp n) (v0, m0)) as [[v m] [E [FV [FM [NV NM]]]]].
      * cbn [fst snd]. split; [apply (k_value _ _ K)|]. split; [apply (k_max _ _ K)|]. split; intros k; reflexivity.
      * intros j [v m] J [FV [FM [NV NM]]]. cbn [fst snd] in *. unfold clamp.
        destruct (full_put _ m j (Z.of_nat n) FM J) as [m' [-> [FM' NM']]]. cbn [bind]. destruct (full_get _ v j FV J) as [x X]. rewrite (get_nth _ _ _ X). cbn [bind].
        assert (HM : forall k, nth_error m' k = if Nat.ltb k (S j) then option_map (fun _ => Some (Z.of_nat n)) (nth_error m0 k) else nth_error m0 k).
        { intros k. rewrite NM'. destruct (Nat.eqb_spec k j) as [->|NK].
          - rewrite (proj2 (Nat.ltb_lt j (S j))) by lia. destruct (full_get _ m0 j (k_max _ _ K) J) as [y Y]. rewrite Y. reflexivity.
          - rewrite NM. destruct (Nat.ltb_spec k j), (Nat.ltb_spec k (S j)); try reflexivity; lia. }
        assert (X0 : nth_error v0 j = Some (Some x)) by (rewrite NV in X; destruct (Nat.ltb_spec j j); [lia|exact X]).
        destruct (Z.gtb_spec x (Z.of_nat n)) as [G|G].
        -- destruct (full_put _ v j (Z.of_nat n) FV J) as [v' [-> [FV' NV']]]. cbn [bind]. exists (v', m'). split; [reflexivity|]. cbn [fst snd]. split; [exact FV'|]. split; [exact FM'|]. split; [|exact HM].
           intros k. rewrite NV'. destruct (Nat.eqb_spec k j) as [->|NK].
           ++ rewrite (proj2 (Nat.ltb_lt j (S j))) by lia. rewrite X0. cbn [option_map cap]. rewrite Z.min_r by lia. reflexivity.
           ++ rewrite NV. destruct (Nat.ltb_spec k j), (Nat.ltb_spec k (S j)); try reflexivity; lia.
        -- exists (v, m'). split; [reflexivity|]. cbn [fst snd]. split; [exact FV|]. split; [exact FM'|]. split; [|exact HM].
           intros k. rewrite NV. destruct (Nat.eqb_spec k j) as [->|NK].
           ++ rewrite (proj2 (Nat.ltb_lt j (S j))) by lia. destruct (Nat.ltb_spec j j); [lia|]. rewrite X0. cbn [option_map cap]. rewrite Z.min_l by lia. reflexivity.
           ++ destruct (Nat.ltb_spec k j), (Nat.ltb_spec k (S j)); try reflexivity; lia.
      * change (p_value p, p_max p) with (v0, m0). rewrite E. cbn [bind fst snd] in *. eexists. split; [reflexivity|]. destruct K as [KD KP KS KV KM KX].
        split; [constructor; assumption|]. cbn [p_dims p_bound p_min p_value p_max]. split; [reflexivity|]. split; [first [reflexivity|exact EB|symmetry; exact EB]|]. split; [reflexivity|]. split; [intros C; elim C; reflexivity|]. intros _.
        assert (EXT : forall (a b : cells), (forall k, nth_error a k = nth_error b k) -> a = b).
        { induction a as [|x a IH]; intros [|y b] H; [reflexivity|specialize (H 0); discriminate|specialize (H 0); discriminate|].
          pose proof (H 0) as H0. injection H0 as ->. f_equal. apply IH. intros k. apply (H (S k)). }
        split; apply EXT; intros k; rewrite nth_error_map.
        -- rewrite NV. destruct (Nat.ltb_spec k (p_size p)) as [_|G]; [reflexivity|]. replace (nth_error v0 k) with (@None (option Z)) by (symmetry; apply nth_error_None; destruct KV as [KV _]; unfold v0; lia). reflexivity.
        -- rewrite NM. destruct (Nat.ltb_spec k (p_size p)) as [_|G]; [reflexivity|]. replace (nth_error m0 k) with (@None (option Z)) by (symmetry; apply nth_error_None; destruct KX as [KX _]; unfold m0; lia). reflexivity.
    + exists p. split; [reflexivity|]. split; [exact K|]. split; [reflexivity|]. split; [exact EB|]. split; [reflexivity|]. split; [reflexivity|]. intros C. injection C as ->. contradiction.
  - exists p. split; [reflexivity|]. split; [exact K|]. split; [reflexivity|]. split; [exact EB|]. split; [reflexivity|]. split; [reflexivity|]. discriminate.
Qed.
Lemma each_ok {A} (P : A -> Prop) (R : A -> A -> Prop) f l : Forall P l -> (forall x, P x -> exists y, f x = Ret y /\ R x y) -> exists r, each f l = Ret r /\ Forall2 R l r.
Proof.
  intros H F. induction H as [|x l X H IH]; cbn [each]; [exists []; split; [reflexivity|constructor]|].
  destruct (F x X) as [y [-> Y]]. cbn [bind]. destruct IH as [r [-> R']]. cbn [bind]. exists (y :: r). split; [reflexivity|]. constructor; assumption.
Qed.
Lemma cell_ok e l c n : full n l -> n = count e -> inside e c -> exists x, cell e l c = Some (Some x).
Proof. intros F -> I. apply (full_get _ _ _ F). apply position_lt. exact I. Qed.
Lemma forall2_trans {A} (R1 R2 R : A -> A -> Prop) l1 l2 l3 : (forall x y z, R1 x y -> R2 y z -> R x z) -> Forall2 R1 l1 l2 -> Forall2 R2 l2 l3 -> Forall2 R l1 l3.
Proof. intros T H. revert l3. induction H as [|x y l1 l2 H HS IH]; intros l3 K; inversion K; subst; constructor; [eapply T; eassumption|]. apply IH. assumption. Qed.
Lemma reset_dim_ok s d n : Forall (complete (s_dims s)) (s_params s) -> 1 <= n -> n <> d_value (s_dims s d) ->
  exists s', reset_dim s d n = Ret s' /\ (forall x, d_value (s_dims s' x) = if String.eqb x d then n else d_value (s_dims s x)) /\
    Forall2 (fun p q => complete (s_dims s') q /\ moved (s_dims s) (s_dims s') d n p q) (s_params s) (s_params s') /\
    s_vars s' = map (reset_var (s_dims s') d) (s_vars s).
Proof.
  intros K N NE. unfold reset_dim. destruct (Nat.eqb_spec n (d_value (s_dims s d))) as [C|_]; [contradiction|].
  set (nd := mkDimen n _ _). change (fun x => if String.eqb x d then nd else s_dims s x) with (change (s_dims s) d nd). set (ds' := change (s_dims s) d nd).
  destruct (each_ok (complete (s_dims s)) (fun p q => complete ds' q /\ resized (s_dims s) ds' p q) (reset_param ds' d (d_value (s_dims s d)) n) (s_params s) K) as [ps1 [E1 R1]].
  { intros p P. apply (reset_param_resized (s_dims s) d nd p P N). }
  rewrite E1. cbn [bind].
  destruct (each_ok (complete ds') (fun p q => complete ds' p /\ complete ds' q /\ p_dims q = p_dims p /\ p_bound q = p_bound p /\ p_min q = p_min p /\ (p_bound p <> Some d -> q = p) /\
    (p_bound p = Some d -> p_value q = map (cap n) (p_value p) /\ p_max q = map (fun _ => Some (Z.of_nat n)) (p_max p))) (rebound d n) ps1) as [ps2 [E2 R2]].
  { clear - R1. induction R1 as [|x y l1 l2 [H _] R1 IH]; constructor; assumption. }
  { intros p P. destruct (rebound_ok ds' d n p P) as [q [E Q]]. exists q. split; [exact E|]. split; [exact P|exact Q]. }
  rewrite E2. cbn [bind]. eexists. split; [reflexivity|]. cbn [s_dims s_params s_vars]. split; [intros x; unfold ds', change; destruct (String.eqb x d); reflexivity|]. split; [|reflexivity].
  eapply forall2_trans; [|exact R1|exact R2]. intros p p1 q [K1 [ZD ZB ZV ZM ZX]] [_ [K2 [QD [QB [QM [QU QC]]]]]]. split; [exact K2|].
  constructor; [rewrite QD; exact ZD|rewrite QB; exact ZB| | |].
  - intros c C. destruct (p_bound p) as [b|] eqn:EB.
    + destruct (String.eqb_spec b d) as [->|NB].
      * destruct (QC ZB) as [QV _]. cbn zeta. rewrite <- (ZV c C). unfold cell. rewrite QV. apply nth_error_map.
      * cbn zeta. rewrite QU by (rewrite ZB; congruence). apply ZV. exact C.
    + cbn zeta. rewrite QU by (rewrite ZB; discriminate). apply ZV. exact C.
  - intros c C. rewrite QM. apply ZM. exact C.
  - intros c C. destruct (p_bound p) as [b|] eqn:EB.
    + destruct (String.eqb_spec b d) as [->|NB].
      * destruct (QC ZB) as [_ QX]. cbn zeta. unfold cell. rewrite QX. rewrite nth_error_map.
        assert (C1 : inside (values ds' (p_dims p1)) c) by (rewrite ZD; exact C).
        destruct (cell_ok _ (p_max p1) c (p_size p1) (k_max _ _ K1) (k_size _ _ K1) C1) as [y Y]. unfold cell in Y. rewrite ZD in Y. rewrite Y. reflexivity.
      * cbn zeta. rewrite QU by (rewrite ZB; congruence). apply ZX. exact C.
    + cbn zeta. rewrite QU by (rewrite ZB; discriminate). apply ZX. exact C.
Qed.
(** Histories. *)
Lemma reset_same s d : reset_dim s d (d_value (s_dims s d)) = Ret s.
Proof. unfold reset_dim. rewrite Nat.eqb_refl. reflexivity. Qed.
Lemma forall2_nth {A} (R : A -> A -> Prop) l l' k x : Forall2 R l l' -> nth_error l k = Some x -> exists y, nth_error l' k = Some y /\ R x y.
Proof. intros H. revert k. induction H as [|a b l l' H HS IH]; intros [|k] K; try discriminate; [injection K as ->; exists b; split; [reflexivity|exact H]|]. apply (IH k K). Qed.
Lemma history_ok : forall l s, Forall (complete (s_dims s)) (s_params s) -> Forall (fun dn => 1 <= snd dn) l ->
  exists s', resets s l = Ret s' /\ Forall (complete (s_dims s')) (s_params s').
Proof.
  induction l as [|[d n] l IH]; intros s K H; cbn [resets]; [exists s; split; [reflexivity|exact K]|]. inversion H as [|? ? N H']; subst. cbn [snd] in N.
  destruct (Nat.eq_dec n (d_value (s_dims s d))) as [->|NE].
  - rewrite reset_same. cbn [bind]. apply IH; assumption.
  - destruct (reset_dim_ok s d n K N NE) as [s1 [E [V [F _]]]]. rewrite E. cbn [bind]. apply IH; [|exact H'].
    clear - F. induction F as [|x y l1 l2 [HC _] F IHF]; constructor; assumption.
Qed.
Lemma history_keeps : forall l s s' k p c, Forall (complete (s_dims s)) (s_params s) -> Forall (fun dn => 1 <= snd dn) l -> resets s l = Ret s' ->
  nth_error (s_params s) k = Some p -> p_bound p = None ->
  (forall l1 l2 sm, l = l1 ++ l2 -> resets s l1 = Ret sm -> inside (values (s_dims sm) (p_dims p)) c) ->
  exists q, nth_error (s_params s') k = Some q /\ p_dims q = p_dims p /\ cell (values (s_dims s') (p_dims p)) (p_value q) c = cell (values (s_dims s) (p_dims p)) (p_value p) c.
Proof.
  induction l as [|[d n] l IH]; intros s s' k p c K H R P B I; cbn [resets] in R.
  - injection R as <-. exists p. split; [exact P|split; reflexivity].
  - inversion H as [|? ? N H']; subst. cbn [snd] in N. destruct (Nat.eq_dec n (d_value (s_dims s d))) as [->|NE].
    + rewrite reset_same in R. cbn [bind] in R. apply (IH s s' k p c K H' R P B). intros l1 l2 sm -> E. apply (I ((d, d_value (s_dims s d)) :: l1) l2 sm eq_refl). cbn [resets]. rewrite reset_same. exact E.
    + destruct (reset_dim_ok s d n K N NE) as [s1 [E [V [F _]]]]. rewrite E in R. cbn [bind] in R.
      destruct (forall2_nth _ _ _ _ _ F P) as [p1 [P1 [C1 M1]]].
      assert (K1 : Forall (complete (s_dims s1)) (s_params s1)) by (clear - F; induction F as [|x y l1 l2 [HC _] F IHF]; constructor; assumption).
      destruct (IH s1 s' k p1 c K1 H' R P1) as [q [Q1 [Q2 Q3]]].
      * rewrite (m_bound _ _ _ _ _ _ M1). exact B.
      * rewrite (m_dims _ _ _ _ _ _ M1). intros l1 l2 sm -> E2. apply (I ((d, n) :: l1) l2 sm eq_refl). cbn [resets]. rewrite E. exact E2.
      * exists q. rewrite (m_dims _ _ _ _ _ _ M1) in Q2, Q3. split; [exact Q1|split; [exact Q2|]]. rewrite Q3.
        rewrite (m_value _ _ _ _ _ _ M1 c) by (apply (I [(d, n)] l s1 eq_refl); cbn [resets]; rewrite E; reflexivity). rewrite B. cbn zeta.
        rewrite nearest_in; [reflexivity|]. apply (I [] ((d, n) :: l) s eq_refl eq_refl).
Qed.
