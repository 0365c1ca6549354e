(** Lemmas on ADVECTION. *)

From Coq Require Import List ZArith QArith Bool Lia Lqa ZifyBool.
From Verif Require Import Steps_Model Steps_Proofs Advec_Model Advec_Spec.
Import ListNotations.
Local Open Scope Z_scope.

Lemma set_same : forall A (m : Z -> A) n v, set_at m n v n = v.
Proof. intros. unfold set_at. rewrite Z.eqb_refl. reflexivity. Qed.

Lemma set_other : forall A (m : Z -> A) n v j, j <> n -> set_at m n v j = m j.
Proof. intros A m n v j H. unfold set_at. replace (j =? n) with false by lia. reflexivity. Qed.

Lemma sol_copy_other : forall A (m : Z -> option A) i j k, k <> j -> sol_copy m i j k = m k.
Proof. intros A m i j k H. unfold sol_copy. destruct (m i); [apply set_other; assumption | reflexivity]. Qed.

Lemma sol_copy_same : forall A (m : Z -> option A) i j, m i <> None -> sol_copy m i j j = m i.
Proof. intros A m i j H. unfold sol_copy. destruct (m i); [apply set_same | congruence]. Qed.

Lemma sol_copy_full : forall A (m : Z -> option A) i j, m i <> None ->
  forall k, sol_copy m i j k = if k =? j then m i else m k.
Proof.
  intros A m i j H k. destruct (k =? j) eqn:E.
  - apply Z.eqb_eq in E. subst k. apply sol_copy_same. assumption.
  - apply sol_copy_other. lia.
Qed.

(** The copies from the last cell to the first move all solutions. *)
Lemma advect_moved : forall A n (m : Z -> option A),
  (forall j, 0 <= j < Z.of_nat n -> m j <> None) ->
  forall j, advect n m j = moved n m j.
Proof.
  unfold advect. intros A n. induction n as [|n IH]; intros m H j.
  - cbn [from_ rev fold_left]. unfold moved.
    replace ((1 <=? j) && (j <=? Z.of_nat 0)) with false by lia. reflexivity.
  - rewrite from_snoc, rev_app_distr. cbn [rev app fold_left].
    replace (1 + Z.of_nat n - 1) with (Z.of_nat n) by lia.
    rewrite IH.
    + assert (F : forall k, sol_copy m (Z.of_nat n) (1 + Z.of_nat n) k =
                            if k =? 1 + Z.of_nat n then m (Z.of_nat n) else m k)
        by (apply sol_copy_full; apply H; lia).
      unfold moved. rewrite !F.
      destruct ((1 <=? j) && (j <=? Z.of_nat n)) eqn:B1.
      * replace ((1 <=? j) && (j <=? Z.of_nat (S n))) with true by lia.
        replace (j - 1 =? 1 + Z.of_nat n) with false by lia. reflexivity.
      * destruct (j =? 1 + Z.of_nat n) eqn:B2.
        -- replace ((1 <=? j) && (j <=? Z.of_nat (S n))) with true by lia. f_equal. lia.
        -- replace ((1 <=? j) && (j <=? Z.of_nat (S n))) with false by lia. reflexivity.
    + intros k K. rewrite sol_copy_full by (apply H; lia).
      destruct (k =? 1 + Z.of_nat n); apply H; lia.
Qed.

(** The cells up to [k] of a shift are done. [m] are the moved solutions, [r0]
    the entities before. *)
Definition partway {A R} (rd : reading R) (react : reactor A R) (step : Z)
    (m : Z -> option A) (r0 : Z -> R) (k : Z) (w : world A R) : Prop :=
  (forall i, 1 <= i <= k ->
     let '(s, r) := react step i (match mix_of rd (r0 i) with
                                  | Some ns => Mixed (map (fun a => if (1 <=? a) && (a <=? i - 2)
                                                                    then sols w a else m a)
                                                          (filter (Z.leb 0) ns))
                                  | None => Own (m i)
                                  end) (r0 i) in
     reac w i = r /\ (i < k -> sols w i = Some s) /\ (i = k -> sols w (-2) = Some s)) /\
  (forall j, j <> -2 -> ~ (1 <= j < k) -> sols w j = m j) /\
  (forall j, ~ (1 <= j <= k) -> reac w j = r0 j).

(** The source of a cell depends on the solutions named only. *)
Lemma mixed_ext : forall A (f g : Z -> option A) ns,
  (forall a, 0 <= a -> f a = g a) ->
  map f (filter (Z.leb 0) ns) = map g (filter (Z.leb 0) ns).
Proof.
  intros A f g ns H. apply map_ext_in. intros a I'. apply filter_In in I'. destruct I' as [_ I'].
  apply H. lia.
Qed.

Lemma partway_step : forall A R rd react step (m : Z -> option A) (r0 : Z -> R) k w modulus flags out,
  1 <= k + 1 -> 0 <= k ->
  partway rd react step m r0 k w ->
  partway rd react step m r0 (k + 1) (fst (one_cell rd react modulus flags step (w, out) (k + 1))).
Proof.
  intros A R rd react step m r0 k w modulus flags out K1 K0 [P1 [P2 P3]].
  unfold one_cell.
  assert (RW : reac w (k + 1) = r0 (k + 1)) by (apply P3; lia).
  destruct (react step (k + 1) (source_of rd w (k + 1)) (reac w (k + 1))) as [s r] eqn:E.
  cbn [fst].
  set (m1 := if 1 <? k + 1 then sol_copy (sols w) (-2) (k + 1 - 1) else sols w).
  set (w' := mkWorld (set_at m1 (-2) (Some s)) (set_at (reac w) (k + 1) r)).
  (* the solutions of the new world *)
  assert (N2 : 1 <= k -> exists sk, sols w (-2) = Some sk).
  { intros K. specialize (P1 k ltac:(lia)).
    destruct (react step k _ _) as [sk rk]. destruct P1 as [_ [_ P1]]. exists sk. apply P1. reflexivity. }
  assert (SO : forall j, j <> -2 -> j <> k -> sols w' j = sols w j).
  { intros j J1 J2. unfold w'. cbn [sols]. rewrite set_other by assumption. unfold m1.
    destruct (1 <? k + 1); [apply sol_copy_other; lia | reflexivity]. }
  assert (SK : 1 <= k -> sols w' k = sols w (-2)).
  { intros K. unfold w'. cbn [sols]. rewrite set_other by lia. unfold m1.
    replace (1 <? k + 1) with true by lia. replace (k + 1 - 1) with k by lia.
    apply sol_copy_same. destruct (N2 K) as [sk ->]. discriminate. }
  split; [|split].
  - intros i I'. destruct (Z.eq_dec i (k + 1)) as [-> | NI].
    + (* the cell just done *)
      rewrite <- RW.
      assert (SRC : (match mix_of rd (reac w (k + 1)) with
                     | Some ns => Mixed (map (fun a => if (1 <=? a) && (a <=? k + 1 - 2)
                                                       then sols w' a else m a) (filter (Z.leb 0) ns))
                     | None => Own (m (k + 1))
                     end) = source_of rd w (k + 1)).
      { unfold source_of. destruct (mix_of rd (reac w (k + 1))) as [ns|].
        - f_equal. apply mixed_ext. intros a A0.
          destruct ((1 <=? a) && (a <=? k + 1 - 2)) eqn:B.
          + apply SO; lia.
          + symmetry. apply P2; lia.
        - f_equal. symmetry. apply P2; lia. }
      rewrite SRC, E. unfold w'. cbn [reac sols]. rewrite !set_same.
      repeat split; try reflexivity. lia.
    + specialize (P1 i ltac:(lia)).
      assert (SRC : forall ns, map (fun a => if (1 <=? a) && (a <=? i - 2) then sols w' a else m a) (filter (Z.leb 0) ns)
                     = map (fun a => if (1 <=? a) && (a <=? i - 2) then sols w a else m a) (filter (Z.leb 0) ns)).
      { intros ns. apply mixed_ext. intros a A0. destruct ((1 <=? a) && (a <=? i - 2)) eqn:B; [apply SO; lia | reflexivity]. }
      destruct (mix_of rd (r0 i)) as [ns|]; [rewrite SRC |];
        (destruct (react step i _ (r0 i)) as [s' r'];
         destruct P1 as [Q1 [Q2 Q3]];
         split; [unfold w'; cbn [reac]; rewrite set_other by lia; exact Q1 |];
         split; [intros _ | lia];
         destruct (Z.eq_dec i k) as [EK | NK];
         [subst i; rewrite SK by lia; apply Q3; reflexivity | rewrite SO by lia; apply Q2; lia]).
  - intros j J1 J2. destruct (Z.eq_dec j k) as [-> | NK].
    + assert (K : k = 0) by lia. subst k. unfold w'. cbn [sols]. rewrite set_other by lia.
      unfold m1. cbn. apply P2; lia.
    + rewrite SO by assumption. apply P2; lia.
  - intros j J. unfold w'. cbn [reac]. rewrite set_other by lia. apply P3. lia.
Qed.

(** The lines of the cells up to [k]. *)
Definition lines_to {A R} (modulus : Z) (flags : Z -> bool) (step : Z) (k : nat)
    (w : world A R) : list (line A R) :=
  flat_map (fun i => match (if i =? Z.of_nat k then sols w (-2) else sols w i) with
                     | Some s => if wanted modulus flags step i then [(step, i, s, reac w i)] else []
                     | None => []
                     end) (from_ 1 k).

Lemma flat_map_eq_in : forall X Y (f g : X -> list Y) l, (forall x, In x l -> f x = g x) ->
  flat_map f l = flat_map g l.
Proof.
  induction l as [|x l IH]; intros H; cbn [flat_map]; [reflexivity |].
  rewrite (H x (or_introl eq_refl)), IH; [reflexivity |]. intros y Y'. apply H. right. exact Y'.
Qed.

Lemma cells_done : forall A R rd react step (m : Z -> option A) (r0 : Z -> R) modulus flags out k,
  let a := fold_left (one_cell rd react modulus flags step) (from_ 1 k) (mkWorld m r0, out) in
  partway rd react step m r0 (Z.of_nat k) (fst a) /\
  snd a = out ++ lines_to modulus flags step k (fst a).
Proof.
  intros A R rd react step m r0 modulus flags out k. induction k as [|k IH].
  - cbn. split; [|rewrite app_nil_r; reflexivity].
    split; [intros; lia |]. split; intros; reflexivity.
  - cbv zeta in *. rewrite from_snoc, fold_left_app. cbn [fold_left].
    replace (1 + Z.of_nat k) with (Z.of_nat k + 1) by lia.
    destruct (fold_left (one_cell rd react modulus flags step) (from_ 1 k) (mkWorld m r0, out)) as [w o] eqn:F.
    cbn [fst snd] in IH. destruct IH as [IP IO].
    pose proof (partway_step A R rd react step m r0 (Z.of_nat k) w modulus flags o ltac:(lia) ltac:(lia) IP) as PS.
    replace (Z.of_nat (S k)) with (Z.of_nat k + 1) by lia. split; [exact PS |].
    destruct IP as [P1 [P2 P3]].
    assert (N2 : (1 <= k)%nat -> exists sk, sols w (-2) = Some sk).
    { intros K. specialize (P1 (Z.of_nat k) ltac:(lia)).
      destruct (react step (Z.of_nat k) _ _) as [sk rk]. destruct P1 as [_ [_ P1]]. exists sk. apply P1. reflexivity. }
    clear PS P1 P2 P3. unfold one_cell.
    destruct (react step (Z.of_nat k + 1) (source_of rd w (Z.of_nat k + 1)) (reac w (Z.of_nat k + 1))) as [s r].
    cbn [fst snd].
    unfold lines_to. rewrite from_snoc, flat_map_app.
    replace (1 + Z.of_nat k) with (Z.of_nat k + 1) by lia.
    replace (Z.of_nat (S k)) with (Z.of_nat k + 1) by lia.
    cbn [flat_map]. rewrite Z.eqb_refl. cbn [sols reac]. rewrite !set_same, app_nil_r.
    assert (X : flat_map
      (fun i => match (if i =? Z.of_nat k + 1 then Some s
                       else set_at (if 1 <? Z.of_nat k + 1 then sol_copy (sols w) (-2) (Z.of_nat k + 1 - 1) else sols w)
                              (-2) (Some s) i) with
                | Some s0 => if wanted modulus flags step i
                             then [(step, i, s0, set_at (reac w) (Z.of_nat k + 1) r i)] else []
                | None => []
                end) (from_ 1 k) = lines_to modulus flags step k w).
    { unfold lines_to. apply flat_map_eq_in. intros i I'. apply from_In in I'.
      replace (i =? Z.of_nat k + 1) with false by lia. rewrite !set_other by lia.
      replace (1 <? Z.of_nat k + 1) with true by lia. replace (Z.of_nat k + 1 - 1) with (Z.of_nat k) by lia.
      destruct (N2 ltac:(lia)) as [sk Hk].
      rewrite sol_copy_full by (rewrite Hk; discriminate). reflexivity. }
    rewrite X, IO.
    destruct (wanted modulus flags step (Z.of_nat k + 1)); [rewrite app_assoc; reflexivity | rewrite app_nil_r; reflexivity].
Qed.

Lemma partway_ext : forall A R rd react step (m m' : Z -> option A) (r0 : Z -> R) k w,
  (forall j, m j = m' j) -> partway rd react step m r0 k w -> partway rd react step m' r0 k w.
Proof.
  intros A R rd react step m m' r0 k w E [P1 [P2 P3]]. split; [|split; [|exact P3]].
  - intros i I'. specialize (P1 i I').
    assert (SRC : (match mix_of rd (r0 i) with
                   | Some ns => Mixed (map (fun a => if (1 <=? a) && (a <=? i - 2) then sols w a else m a) (filter (Z.leb 0) ns))
                   | None => Own (m i)
                   end) =
                  (match mix_of rd (r0 i) with
                   | Some ns => Mixed (map (fun a => if (1 <=? a) && (a <=? i - 2) then sols w a else m' a) (filter (Z.leb 0) ns))
                   | None => Own (m' i)
                   end)).
    { destruct (mix_of rd (r0 i)); f_equal; [|apply E]. apply mixed_ext. intros a _.
      destruct ((1 <=? a) && (a <=? i - 2)); [reflexivity | apply E]. }
    rewrite <- SRC. exact P1.
  - intros j J1 J2. rewrite <- E. apply P2; assumption.
Qed.

(** One shift. *)
Lemma shift_done : forall A R rd react n modulus flags step (w : world A R) out,
  (1 <= n)%nat -> filled n w ->
  let a := one_shift rd react n modulus flags (w, out) step in
  shifted rd react n step w (fst a) /\ filled n (fst a) /\
  snd a = out ++ flat_map (fun i => match sols (fst a) i with
                       | Some s => if wanted modulus flags step i then [(step, i, s, reac (fst a) i)] else []
                       | None => []
                       end) (from_ 1 n).
Proof.
  intros A R rd react n modulus flags step w out N FL. unfold one_shift. cbv zeta.
  pose proof (cells_done A R rd react step (advect n (sols w)) (reac w) modulus flags out n) as C.
  cbv zeta in C.
  destruct (fold_left (one_cell rd react modulus flags step) (from_ 1 n)
             (mkWorld (advect n (sols w)) (reac w), out)) as [w2 out2].
  cbn [fst snd] in *. destruct C as [P O].
  assert (AM : forall j, advect n (sols w) j = moved n (sols w) j)
    by (apply advect_moved; intros j J; apply FL; lia).
  apply (partway_ext _ _ _ _ _ _ _ _ _ _ AM) in P. destruct P as [P1 [P2 P3]].
  assert (N2 : exists sk, sols w2 (-2) = Some sk).
  { specialize (P1 (Z.of_nat n) ltac:(lia)).
    destruct (react step (Z.of_nat n) _ _) as [sk rk]. destruct P1 as [_ [_ P1]]. exists sk. apply P1. reflexivity. }
  destruct N2 as [sk Hk].
  assert (CF : forall j, sol_copy (sols w2) (-2) (Z.of_nat n) j = if j =? Z.of_nat n then sols w2 (-2) else sols w2 j)
    by (apply sol_copy_full; rewrite Hk; discriminate).
  assert (SH : shifted rd react n step w (mkWorld (sol_copy (sols w2) (-2) (Z.of_nat n)) (reac w2))).
  { split; [|split].
    - intros i I'. specialize (P1 i I').
      assert (SRC : sees rd n w (mkWorld (sol_copy (sols w2) (-2) (Z.of_nat n)) (reac w2)) i =
              match mix_of rd (reac w i) with
              | Some ns => Mixed (map (fun a => if (1 <=? a) && (a <=? i - 2) then sols w2 a else moved n (sols w) a) (filter (Z.leb 0) ns))
              | None => Own (moved n (sols w) i)
              end).
      { unfold sees. destruct (mix_of rd (reac w i)); [|reflexivity]. f_equal. apply mixed_ext. intros a A0.
        destruct ((1 <=? a) && (a <=? i - 2)) eqn:B; [|reflexivity]. cbn [sols]. rewrite CF.
        replace (a =? Z.of_nat n) with false by lia. reflexivity. }
      rewrite SRC. destruct (react step i _ (reac w i)) as [s r]. destruct P1 as [Q1 [Q2 Q3]].
      cbn [sols reac]. split; [|exact Q1]. rewrite CF.
      destruct (i =? Z.of_nat n) eqn:B; [apply Q3; lia | apply Q2; lia].
    - intros j J1 J2. cbn [sols]. rewrite CF. replace (j =? Z.of_nat n) with false by lia.
      rewrite P2 by lia. unfold moved. replace ((1 <=? j) && (j <=? Z.of_nat n)) with false by lia. reflexivity.
    - intros j J. cbn [reac]. apply P3. assumption. }
  split; [exact SH |]. split.
  - intros j J. destruct (Z.eq_dec j 0) as [-> | NJ].
    + destruct SH as [_ [S2 _]]. rewrite S2 by lia. apply FL. lia.
    + destruct SH as [S1 _]. specialize (S1 j ltac:(lia)). destruct (react step j _ _) as [s r].
      destruct S1 as [-> _]. discriminate.
  - rewrite O. f_equal. unfold lines_to. apply flat_map_eq_in. intros i I'. apply from_In in I'.
    cbn [sols reac]. rewrite CF. reflexivity.
Qed.

Lemma wanted_printed : forall A R n modulus flags step (w' : world A R), 0 < modulus -> 0 <= step ->
  flat_map (fun i => match sols w' i with
                     | Some s => if wanted modulus flags step i then [(step, i, s, reac w' i)] else []
                     | None => []
                     end) (from_ 1 n) =
  printed n modulus (fun i => flags (i - 1)) step w'.
Proof.
  intros A R n modulus flags step w' M S'. unfold printed, wanted.
  rewrite Z.rem_mod_nonneg by lia.
  destruct (step mod modulus =? 0); cbn [andb]; [reflexivity |].
  induction (from_ 1 n) as [|i l IH]; cbn [flat_map]; [reflexivity |].
  rewrite IH. destruct (sols w' i); reflexivity.
Qed.

Lemma shifts_done : forall A R rd react n modulus flags k step (w : world A R) out,
  (1 <= n)%nat -> filled n w -> 0 < modulus -> 0 <= step ->
  let a := fold_left (one_shift rd react n modulus flags) (from_ step k) (w, out) in
  exists out', snd a = out ++ out' /\
    shifts_to rd react n modulus (fun i => flags (i - 1)) step k w (fst a) out' /\ filled n (fst a).
Proof.
  intros A R rd react n modulus flags k. induction k as [|k IH]; intros step w out N FL M S'.
  - cbn. exists []. rewrite app_nil_r. split; [reflexivity |]. split; [constructor | assumption].
  - cbv zeta in *. cbn [from_ fold_left].
    pose proof (shift_done A R rd react n modulus flags step w out N FL) as D. cbv zeta in D.
    destruct (one_shift rd react n modulus flags (w, out) step) as [w1 out1] eqn:E.
    cbn [fst snd] in D. destruct D as [D1 [D2 D3]].
    destruct (IH (step + 1) w1 out1 N D2 M ltac:(lia)) as [out' [I1 [I2 I3]]].
    exists (printed n modulus (fun i => flags (i - 1)) step w1 ++ out'). split; [|split].
    + rewrite I1, D3, <- app_assoc. f_equal. f_equal. apply wanted_printed; assumption.
    + econstructor; eassumption.
    + exact I3.
Qed.

Lemma accepted_filled : forall A R rd n kin (w : world A R), accepted rd n kin w = true -> filled n w.
Proof.
  intros A R rd n kin w H j J. unfold accepted in H. apply andb_prop in H. destruct H as [H _].
  rewrite forallb_forall in H. specialize (H j). rewrite from_In in H. specialize (H ltac:(lia)).
  destruct (sols w j); congruence.
Qed.
