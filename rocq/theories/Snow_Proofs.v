From Coq Require Import QArith Qround ZArith List Bool Lqa Lia.
Import ListNotations.
From Verif Require Import CStr_Model Qx Snow_Model Snow_Spec.
Local Open Scope Q_scope.

(** ** Melt factor *)
Lemma meltfact_range sinf idn alat mfmax mfmin :
  sin_ok sinf -> mfmin <= mfmax ->
  mfmin <= fst (meltfact sinf idn alat mfmax mfmin) <= mfmax.
Proof.
  intros Hs Hm. unfold meltfact; cbn [fst].
  set (s := sinf _). assert (Hr : -(1) <= s <= 1) by apply Hs. clearbody s.
  qif.
  - nra.
  - set (x := if (275 <=? idn)%Z then _ else _). clearbody x.
    set (a := if qle x _ then _ else _).
    assert (Ha : 0 <= a <= 1).
    { unfold a. repeat qif; qprop; try lra.
      split.
      - apply Qle_shift_div_l; lra.
      - apply Qle_shift_div_r; lra. }
    clearbody a.
    assert (0 <= (s * (1 # 2) + (1 # 2)) * a <= 1) by nra.
    set (w := (s * (1 # 2) + (1 # 2)) * a) in *. clearbody w. nra.
Qed.

Lemma meltfact_ratio sinf idn alat mfmax mfmin :
  sin_ok sinf -> mfmin <= mfmax -> 0 < mfmax ->
  snd (meltfact sinf idn alat mfmax mfmin) * mfmax
  == fst (meltfact sinf idn alat mfmax mfmin).
Proof.
  intros. unfold meltfact; cbn [fst snd]. rewrite Qmult_comm.
  apply Qmult_div_r. lra.
Qed.

(** ** Heat and water *)
Lemma heatwatr_ok melt rain cnhs cnhspx wcplw we neghs liqw tindex :
  0 <= melt -> 0 <= rain -> 0 <= wcplw -> 0 <= we -> 0 <= liqw ->
  let h := heatwatr melt rain cnhs cnhspx wcplw we neghs liqw tindex in
  h_we h + h_liqw h + h_excess h == we + liqw + melt + rain /\
  0 <= h_neghs h /\ h_neghs h <= (33 # 100) * h_we h /\
  0 <= h_excess h /\ 0 <= h_liqw h /\ we <= h_we h /\
  h_tindex h <= 0 /\
  (liqw <= wcplw * we -> h_liqw h <= wcplw * h_we h).
Proof.
  intros H1 H2 H3 H4 H5. cbv zeta. unfold heatwatr.
  set (n1 := neghs + (cnhs + cnhspx)). clearbody n1.
  set (n2 := if qlt n1 0 then 0 else n1).
  assert (0 <= n2) by (unfold n2; qif; qprop; lra). clearbody n2.
  set (n3 := if qlt _ n2 then _ else n2).
  assert (Hn : 0 <= n3 /\ n3 <= (33 # 100) * we) by (unfold n3; qif; qprop; lra).
  clearbody n3. destruct Hn as [Hn1 Hn2].
  assert (0 <= wcplw * n3) by nra. assert (0 <= wcplw * we) by nra.
  assert (Ht : forall q : Q, (if qeq q 0 then 0 else if qlt 0 tindex then 0 else tindex) <= 0).
  { intros q. repeat qif; qprop; lra. }
  destruct (qlt (melt + rain + liqw) _) eqn:E1; [destruct (qlt (melt + rain) n3) eqn:E2|];
    qprop; cbn [h_we h_liqw h_neghs h_excess h_tindex];
    (split; [ring || lra|]); repeat (split; [try apply Ht; nra|]); intros; nra.
Qed.

(** ** Arrays *)
Lemma aget_1 a : aget a 1 = match a with [] => UB | x :: _ => Ret x end.
Proof. destruct a; reflexivity. Qed.

Lemma set_nth_spec : forall a n v,
  (n < length a)%nat ->
  exists x a', nth_error a n = Some x /\ set_nth a n v = Some a' /\
    length a' = length a /\ qsum a' == qsum a - x + v /\
    (Forall (fun x => 0 <= x) a -> 0 <= x) /\
    (Forall (fun x => 0 <= x) a -> 0 <= v -> Forall (fun x => 0 <= x) a').
Proof.
  induction a as [|y a IH]; intros n v Hn; simpl in Hn; [lia|].
  destruct n as [|n].
  - exists y, (v :: a). simpl. split; [auto|]. split; [auto|]. split; [auto|].
    split; [ring|]. split.
    + intros F; inversion F; auto.
    + intros F ?; inversion F; constructor; auto.
  - destruct (IH n v ltac:(lia)) as (x & a' & A & B & C & D & E & F).
    exists x, (y :: a'). simpl. rewrite B. split; [auto|]. split; [auto|].
    split; [auto|]. split; [rewrite D; ring|]. split.
    + intros G; inversion G; auto.
    + intros G ?; inversion G; constructor; auto.
Qed.

Lemma aget_aset a i v :
  (1 <= i <= Z.of_nat (length a))%Z ->
  exists x a', aget a i = Ret x /\ aset a i v = Ret a' /\
    length a' = length a /\ qsum a' == qsum a - x + v /\
    (Forall (fun x => 0 <= x) a -> 0 <= x) /\
    (Forall (fun x => 0 <= x) a -> 0 <= v -> Forall (fun x => 0 <= x) a').
Proof.
  intros Hi. unfold aget, aset.
  replace (1 <=? i)%Z with true by (symmetry; apply Z.leb_le; lia).
  destruct (set_nth_spec a (Z.to_nat (i - 1)) v) as (x & a' & A & B & C); [lia|].
  rewrite A, B. exists x, a'. auto.
Qed.

Lemma aget_ok a i : (1 <= i <= Z.of_nat (length a))%Z -> exists x, aget a i = Ret x.
Proof. intros H. destruct (aget_aset a i 0 H) as (x & ? & ? & _). eauto. Qed.

(** ** Lag loop *)
Lemma route_lag_ok expf it cl we excess fn : 
  exp_ok expf -> (1 <= it)%Z -> 0 <= cl -> 0 <= we -> 0 < excess -> 0 < fn ->
  forall k i exlag, (1 <= i)%Z ->
  (533 # 100) < inject_Z (it * (Z.of_nat (length exlag) - 1)) ->
  exists e', route_lag expf it cl we excess fn k i exlag = Ret e' /\
    length e' = length exlag /\
    qsum e' == qsum exlag + inject_Z (Z.of_nat k) * (excess / fn) /\
    (Forall (fun x => 0 <= x) exlag -> Forall (fun x => 0 <= x) e').
Proof.
  intros Hexp Hit Hcl Hwe Hex Hfn. induction k as [|k IH]; intros i exlag Hi Hlen.
  - exists exlag. simpl. split; [auto|]. split; [auto|]. split; [|auto].
    unfold inject_Z. ring.
  - cbn [route_lag].
    set (fit := inject_Z it).
    assert (Hfit : 1 <= fit) by (unfold fit; change 1 with (inject_Z 1); now rewrite <- Zle_Qle).
    set (fi := inject_Z i).
    assert (Hfi : 1 <= fi) by (unfold fi; change 1 with (inject_Z 1); now rewrite <- Zle_Qle).
    set (term0 := cl * we * fn / _).
    assert (Ht0 : 0 <= term0).
    { unfold term0. apply Qle_shift_div_l; [nra|].
      assert (0 <= cl * we) by nra. nra. }
    clearbody term0.
    set (term := if qlt 150 term0 then 150 else term0).
    assert (Ht : 0 <= term) by (unfold term; qif; qprop; lra). clearbody term.
    set (flag := (533 # 100) * (1 - expf (- term))).
    assert (Hflag : 0 <= flag <= 533 # 100).
    { unfold flag. destruct (Hexp term Ht). lra. }
    clearbody flag.
    set (r := (flag + fit) / fit + 1).
    assert (Hr : r == flag / fit + 2) by (unfold r; field; lra).
    assert (Hff : 0 <= flag / fit) by (apply Qle_shift_div_l; lra).
    set (l2 := trunc r).
    assert (Hl2 : l2 = Qfloor r) by (apply trunc_floor; lra).
    assert (Hlo : (2 <= l2)%Z).
    { rewrite Hl2. apply floor_ge. change (inject_Z 2) with 2. lra. }
    assert (Hhi : (l2 <= Z.of_nat (length exlag))%Z).
    { rewrite Hl2. apply Z.lt_succ_r. apply floor_lt. rewrite Hr.
      unfold Z.succ. rewrite inject_Z_plus. change (inject_Z 1) with 1.
      rewrite inject_Z_mult in Hlen. fold fit in Hlen.
      replace (Z.of_nat (length exlag) - 1)%Z with (Z.of_nat (length exlag) + -1)%Z
        in Hlen by lia. rewrite inject_Z_plus in Hlen.
      change (inject_Z (-1)) with (-(1)) in Hlen.
      set (L := inject_Z (Z.of_nat (length exlag))) in *.
      assert (flag / fit < L - 1); [|lra].
      apply Qlt_shift_div_r; [lra|].
      destruct Hflag. eapply Qle_lt_trans; [eassumption|]. rewrite Qmult_comm. exact Hlen. }
    assert (Hb : inject_Z l2 <= r /\ r < inject_Z l2 + 1) by (rewrite Hl2; apply floor_bounds).
    set (por2 := (flag + fit - inject_Z ((l2 - 1) * it)) / fit).
    assert (Hp : por2 == flag / fit + 2 - inject_Z l2).
    { unfold por2. rewrite inject_Z_mult. fold fit.
      replace (l2 - 1)%Z with (l2 + -1)%Z by lia. rewrite inject_Z_plus.
      change (inject_Z (-1)) with (-(1)). field. lra. }
    assert (Hp2 : 0 <= por2 <= 1) by (rewrite Hp; lra).
    clearbody por2 l2. 
    assert (Hq : 0 < excess / fn) by (apply Qlt_shift_div_l; lra).
    assert (Hq1 : por2 * excess / fn == por2 * (excess / fn)) by (field; lra).
    assert (Hq2 : (1 - por2) * excess / fn == (1 - por2) * (excess / fn)) by (field; lra).
    destruct (aget_ok exlag l2 ltac:(lia)) as (x2 & Ex2). rewrite Ex2. cbn [bind].
    destruct (aget_aset exlag l2 (x2 + por2 * excess / fn) ltac:(lia))
      as (x2' & e2 & A1 & A2 & A3 & A4 & A5 & A6).
    rewrite Ex2 in A1. injection A1 as <-. rewrite A2. cbn [bind].
    destruct (aget_ok e2 (l2 - 1) ltac:(lia)) as (x1 & Ex1). rewrite Ex1. cbn [bind].
    destruct (aget_aset e2 (l2 - 1) (x1 + (1 - por2) * excess / fn) ltac:(lia))
      as (x1' & e1 & B1 & B2 & B3 & B4 & B5 & B6).
    rewrite Ex1 in B1. injection B1 as <-. rewrite B2. cbn [bind].
    destruct (IH (i + 1)%Z e1 ltac:(lia)) as (e' & C1 & C2 & C3 & C4).
    { rewrite B3, A3. exact Hlen. }
    exists e'. split; [exact C1|]. split; [congruence|]. split.
    + rewrite C3, B4, A4, Hq1, Hq2. rewrite Nat2Z.inj_succ. unfold Z.succ.
      rewrite inject_Z_plus. change (inject_Z 1) with 1. ring.
    + intros F. apply C4. apply B6.
      * apply A6; [exact F|]. specialize (A5 F). rewrite Hq1. nra.
      * assert (F2 : Forall (fun x => 0 <= x) e2).
        { apply A6; [exact F|]. specialize (A5 F). rewrite Hq1. nra. }
        specialize (B5 F2). rewrite Hq2. nra.
Qed.

(** ** Attenuation *)
Lemma route_atten_ok r1 el : 0 <= r1 <= 1 -> 0 <= el ->
  forall k packro storge p s, 0 <= packro -> 0 <= storge ->
  route_atten r1 el k packro storge = (p, s) ->
  p + s == packro + storge + inject_Z (Z.of_nat k) * el /\ 0 <= p /\ 0 <= s.
Proof.
  intros Hr He. induction k as [|k IH]; intros packro storge p s Hp Hs E.
  - simpl in E. inversion E; subst. split; [unfold inject_Z; ring|auto].
  - cbn [route_atten] in E. cbv zeta in E. apply IH in E; try nra.
    destruct E as (E1 & E2 & E3). split; [|auto]. rewrite E1.
    rewrite Nat2Z.inj_succ. unfold Z.succ. rewrite inject_Z_plus.
    change (inject_Z 1) with 1. ring.
Qed.

Lemma route_160_ok expf pow13 it we aesc storge x1 r :
  exp_ok expf -> pow_pos pow13 -> (1 <= it)%Z -> 0 < we -> 0 < aesc ->
  0 <= storge -> 0 <= x1 ->
  exists p s, route_160 expf pow13 it we aesc storge (x1 :: r) = Ret (p, s) /\
    p + s == storge + x1 /\ 0 <= p /\ 0 <= s.
Proof.
  intros Hexp Hpow Hit Hwe Hae Hst Hx. unfold route_160. rewrite aget_1. cbn [bind].
  set (fit := inject_Z it).
  assert (Hfit : 1 <= fit) by (unfold fit; change 1 with (inject_Z 1); now rewrite <- Zle_Qle).
  set (wes := we / ((254 # 10) * aesc)).
  assert (Hw : 0 < wes) by (unfold wes; apply Qlt_shift_div_l; lra).
  specialize (Hpow wes Hw).
  rewrite (qeq_false aesc 0) by lra. rewrite (qeq_false (pow13 wes) 0) by lra. cbn [orb].
  set (el := x1 / fit).
  assert (Hel : 0 <= el) by (unfold el; apply Qle_shift_div_l; lra).
  assert (Hels : 0 <= el / ((254 # 10) * aesc)) by (apply Qle_shift_div_l; lra).
  set (term0 := 500 * _ / _).
  assert (Ht0 : 0 <= term0) by (unfold term0; apply Qle_shift_div_l; lra).
  clearbody term0.
  set (term := if qlt 150 term0 then 150 else term0).
  assert (Ht : 0 <= term) by (unfold term; qif; qprop; lra). clearbody term.
  destruct (Hexp term Ht) as [He1 He2].
  set (r1 := 1 / (5 * expf (- term) + 1)).
  assert (Hr1 : 0 <= r1 <= 1).
  { unfold r1. split; [apply Qle_shift_div_l; lra|apply Qle_shift_div_r; lra]. }
  clearbody r1.
  destruct (route_atten r1 el (Z.to_nat it) 0 storge) as [p s] eqn:E.
  apply route_atten_ok in E; auto; try lra. destruct E as (E1 & E2 & E3).
  rewrite Z2Nat.id in E1 by lia. fold fit in E1.
  assert (E4 : fit * el == x1) by (unfold el; field; lra).
  rewrite E4 in E1.
  qif.
  - exists p, s. split; [auto|]. split; [lra|auto].
  - exists (p + s), 0. split; [auto|]. split; [lra|]. split; lra.
Qed.

Lemma route_150_ok expf pow13 it we aesc storge x1 r :
  exp_ok expf -> pow_pos pow13 -> (1 <= it)%Z -> 0 < we -> 0 < aesc ->
  0 <= storge -> 0 <= x1 ->
  exists p s, route_150 expf pow13 it we aesc storge (x1 :: r) = Ret (p, s) /\
    p + s == storge + x1 /\ 0 <= p /\ 0 <= s.
Proof.
  intros. unfold route_150. rewrite aget_1. cbn [bind].
  destruct (qeq (storge + x1) 0) eqn:E1; qprop.
  - exists 0, storge. split; [auto|]. split; [lra|]. split; lra.
  - destruct (qle _ _) eqn:E2; qprop.
    + apply route_160_ok; auto.
    + exists (storge + x1), 0. split; [auto|]. split; [lra|]. split; lra.
Qed.

Lemma route_190_ok x1 r :
  length (route_190 (x1 :: r)) = length (x1 :: r) /\
  qsum (route_190 (x1 :: r)) == qsum r /\
  (Forall (fun x => 0 <= x) r -> Forall (fun x => 0 <= x) (route_190 (x1 :: r))).
Proof.
  cbn [route_190]. split; [rewrite app_length; simpl; lia|]. split.
  - rewrite qsum_app. simpl. ring.
  - intros F. apply Forall_app. split; [auto|]. constructor; [lra|constructor].
Qed.

Definition lag_room (it : Z) (exlag : list Q) : Prop :=
  (533 # 100) < inject_Z (it * (Z.of_nat (length exlag) - 1)).

Lemma route_ok expf pow03 pow13 it excess we aesc storge exlag :
  exp_ok expf -> pow_nonneg pow03 -> pow_pos pow13 -> (1 <= it)%Z ->
  lag_room it exlag ->
  0 <= excess -> 0 < we -> 0 <= storge -> Forall (fun x => 0 <= x) exlag ->
  0 < aesc \/ (excess == 0 /\ storge == 0 /\ Forall (fun x => x == 0) exlag) ->
  exists packro storge' exlag',
    route expf pow03 pow13 it excess we aesc storge exlag = Ret (packro, storge', exlag') /\
    packro + storge' + qsum exlag' == excess + storge + qsum exlag /\
    0 <= packro /\ 0 <= storge' /\ Forall (fun x => 0 <= x) exlag' /\
    length exlag' = length exlag.
Proof.
  intros Hexp Hp3 Hp13 Hit Hroom Hex Hwe Hst HF Hae.
  destruct exlag as [|x1 r].
  { unfold lag_room in Hroom. exfalso. simpl length in Hroom.
    assert (inject_Z (it * (Z.of_nat 0 - 1)) <= 0); [|lra].
    change 0 with (inject_Z 0). rewrite <- Zle_Qle. lia. }
  assert (Hx1 : 0 <= x1) by (inversion HF; auto).
  assert (Hr : Forall (fun x => 0 <= x) r) by (inversion HF; auto).
  unfold route. rewrite aget_1. cbn [bind].
  destruct (qeq excess 0 && qeq (storge + x1) 0) eqn:E1.
  { qprop. destruct (route_190_ok x1 r) as (L1 & L2 & L3).
    exists 0, storge, (route_190 (x1 :: r)). split; [auto|]. split.
    - rewrite L2. simpl. lra.
    - split; [lra|]. split; [lra|]. split; auto. }
  assert (Hae' : 0 < aesc).
  { destruct Hae as [|(A & B & C)]; auto. inversion C; subst.
    rewrite (qeq_true excess 0 A) in E1. rewrite qeq_true in E1 by lra. discriminate. }
  destruct (qeq excess 0 && qle (1 # 10) (storge + x1)) eqn:E2.
  { qprop. destruct (route_160_ok expf pow13 it we aesc storge x1 r) as (p & s & A & B & C & D); auto.
    rewrite A. cbn [bind]. destruct (route_190_ok x1 r) as (L1 & L2 & L3).
    exists p, s, (route_190 (x1 :: r)). split; [auto|]. split.
    - rewrite L2. simpl. lra.
    - split; [lra|]. split; [lra|]. split; auto. }
  assert (HL : exists y1 q,
     (if qlt excess (1 # 10) || qlt we 1 then aset (x1 :: r) 1 (x1 + excess)
      else let n0 := trunc (pow03 (excess * 4) + (1 # 2)) in
           let n := if (n0 =? 0)%Z then 1%Z else n0 in
           route_lag expf it ((3 # 100) * inject_Z it / 6) we excess (inject_Z n) (Z.to_nat n) 1
             (x1 :: r)) = Ret (y1 :: q) /\
     y1 + qsum q == x1 + qsum r + excess /\ Forall (fun x => 0 <= x) (y1 :: q) /\
     length q = length r).
  { destruct (qlt excess (1 # 10) || qlt we 1) eqn:E3.
    - exists (x1 + excess), r. split; [reflexivity|]. split; [ring|]. split; [|auto].
      constructor; [lra|auto].
    - qprop. cbv zeta. set (n0 := trunc _).
      assert (Hn0 : (0 <= n0)%Z).
      { specialize (Hp3 (excess * 4) ltac:(lra)). unfold n0. rewrite trunc_floor by lra.
        apply floor_ge. change (inject_Z 0) with 0. lra. }
      set (n := if (n0 =? 0)%Z then 1%Z else n0).
      assert (Hn : (1 <= n)%Z) by (unfold n; destruct (Z.eqb_spec n0 0); lia).
      assert (Hfn : 1 <= inject_Z n) by (change 1 with (inject_Z 1); rewrite <- Zle_Qle; lia).
      assert (Hfit : 1 <= inject_Z it) by (change 1 with (inject_Z 1); rewrite <- Zle_Qle; lia).
      destruct (route_lag_ok expf it ((3 # 100) * inject_Z it / 6) we excess (inject_Z n))
        with (k := Z.to_nat n) (i := 1%Z) (exlag := x1 :: r) as (e' & A & B & C & D);
        auto; try lra; try lia.
      { apply Qle_shift_div_l; lra. }
      destruct e' as [|y1 q]; [discriminate|].
      exists y1, q. split; [exact A|]. split; [|split; [auto|simpl in B; lia]].
      simpl in C. rewrite Z2Nat.id in C by lia.
      assert (X : inject_Z n * (excess / inject_Z n) == excess) by (field; lra).
      rewrite X in C. lra. }
  destruct HL as (y1 & q & A & B & C & D). cbv zeta in A |- *. rewrite A. cbn [bind].
  assert (Hy : 0 <= y1) by (inversion C; auto).
  assert (Hq : Forall (fun x => 0 <= x) q) by (inversion C; auto).
  destruct (route_150_ok expf pow13 it we aesc storge y1 q) as (p & s & A' & B' & C' & D'); auto.
  rewrite A'. cbn [bind]. destruct (route_190_ok y1 q) as (L1 & L2 & L3).
  exists p, s, (route_190 (y1 :: q)). split; [auto|]. split.
  - rewrite L2. simpl. lra.
  - split; [lra|]. split; [lra|]. split; [auto|]. rewrite L1. simpl. lia.
Qed.

(** ** Snow cover *)
Lemma aes_clamp_range a : (5 # 100) <= aes_clamp a <= 1.
Proof. unfold aes_clamp. repeat qif; qprop; split; try lra; discriminate. Qed.

Lemma aes_clamp_1 : aes_clamp 1 = 1.
Proof. reflexivity. Qed.

Lemma aget_nth a i x : aget a i = Ret x -> nth_error a (Z.to_nat (i - 1)) = Some x.
Proof. unfold aget. destruct (1 <=? i)%Z; [|discriminate]. destruct (nth_error _ _); congruence. Qed.

(** What the new snow cover is, branch by branch. *)
Lemma aesnow_ok adc we liqw sit c :
  length adc = 11%nat -> 0 <= we + liqw ->
  exists c', aesnow adc we liqw sit c = Ret c' /\
    (5 # 100) <= c_aesc c' /\ c_aesc c' <= 1 /\
    c_accmax c' == (if qlt (c_accmax c) (we + liqw) then we + liqw else c_accmax c) /\
    (c_accmax c <= we + liqw \/ sit <= we + liqw -> c_aesc c' == 1) /\
    (we + liqw < c_accmax c -> we + liqw < sit -> we + liqw <= c_sb c ->
       exists v, curve_value adc ((we + liqw) / qmin (c_accmax c) sit) v /\
                 c_aesc c' = aes_clamp v).
Proof.
  intros Hl Ht. unfold aesnow. set (twe := we + liqw) in *. clearbody twe. cbv zeta.
  set (accmax := if qlt (c_accmax c) twe then twe else c_accmax c).
  set (ai := if qlt sit accmax then sit else accmax).
  assert (Hacc : c_accmax c <= accmax /\ twe <= accmax)
    by (unfold accmax; qif; qprop; lra).
  assert (Hai : ai <= accmax /\ ai <= sit) by (unfold ai; qif; qprop; lra).
  assert (Hmax : c_accmax c <= twe \/ sit <= twe -> ai <= twe).
  { intros [H|H]; [|lra]. enough (accmax <= twe) by lra. unfold accmax; qif; qprop; lra. }
  destruct (qle ai twe) eqn:E1.
  { eexists. split; [reflexivity|]. cbn [c_aesc c_accmax]. rewrite aes_clamp_1.
    split; [discriminate|]. split; [lra|]. split; [reflexivity|]. split; [reflexivity|].
    intros A B _. exfalso. qprop. revert E1. unfold ai, accmax. repeat qif; qprop; lra. }
  qprop.
  assert (Hno : ~ (c_accmax c <= twe \/ sit <= twe)) by (intros H; specialize (Hmax H); lra).
  destruct (qle twe (c_sb c)) eqn:E2.
  { set (r := twe / ai * 10 + 1).
    assert (H0 : 0 <= twe / ai) by (apply Qle_shift_div_l; lra).
    assert (H1 : twe / ai < 1) by (apply Qlt_shift_div_r; lra).
    assert (Hn : trunc r = Qfloor r) by (apply trunc_floor; unfold r; lra).
    set (n := trunc r) in *.
    assert (Hb : inject_Z n <= r /\ r < inject_Z n + 1) by (rewrite Hn; apply floor_bounds).
    assert (Hn1 : (1 <= n)%Z).
    { rewrite Hn. apply floor_ge. change (inject_Z 1) with 1. unfold r; lra. }
    assert (Hn2 : (n < 11)%Z).
    { rewrite Hn. apply floor_lt. change (inject_Z 11) with 11. unfold r; lra. }
    clearbody n.
    destruct (aget_ok adc n ltac:(lia)) as (a0 & A0).
    destruct (aget_ok adc (n + 1) ltac:(lia)) as (a1 & A1).
    rewrite A0, A1. cbn [bind].
    eexists. split; [reflexivity|]. cbn [c_aesc c_accmax].
    pose proof (aes_clamp_range (a0 + (a1 - a0) * (r - inject_Z n))) as [C1 C2].
    split; [exact C1|]. split; [exact C2|]. split; [reflexivity|]. split; [tauto|].
    intros A B _. exists (a0 + (a1 - a0) * (r - inject_Z n)). split; [|reflexivity].
    assert (Hm : qmin (c_accmax c) sit == ai).
    { unfold qmin, ai, accmax. repeat qif; qprop; lra. }
    exists (Z.to_nat (n - 1)), a0, a1.
    split; [lia|]. split; [now apply aget_nth|]. split.
    { apply aget_nth in A1. rewrite <- A1. f_equal. lia. }
    rewrite Z2Nat.id by lia. rewrite Hm.
    replace (n - 1)%Z with (n + -1)%Z by lia. rewrite inject_Z_plus.
    change (inject_Z (-1)) with (-(1)).
    unfold r in Hb. split; [lra|]. split; [lra|]. unfold r.
    apply Qplus_comp; [reflexivity|]. apply Qmult_comp; [reflexivity|]. ring. }
  qprop.
  destruct (qle (c_sbws c) twe) eqn:E3.
  { eexists. split; [reflexivity|]. cbn [c_aesc c_accmax]. rewrite aes_clamp_1.
    split; [discriminate|]. split; [lra|]. split; [reflexivity|]. split; [reflexivity|].
    intros; lra. }
  eexists. split; [reflexivity|]. cbn [c_aesc c_accmax].
  match goal with |- context [aes_clamp ?e] => pose proof (aes_clamp_range e) as [C1 C2] end.
  split; [exact C1|]. split; [exact C2|]. split; [reflexivity|]. split; [tauto|].
  intros; lra.
Qed.

(** ** Melt rate *)
Lemma meltrate_ok expf p tair tindex ratio mf rain rainm evp i2 cnhs t' melt evp' :
  0 <= mf -> 0 <= rainm -> 0 <= evp -> 0 <= mr_subr p ->
  meltrate expf p tair tindex ratio mf rain rainm evp i2 = (cnhs, t', melt, evp') ->
  0 <= melt /\ 0 <= evp'.
Proof.
  intros H1 H2 H3 H4 E. unfold meltrate in E.
  set (tmx := if qlt (tair - mr_mbase p) 0 then 0 else tair - mr_mbase p) in *.
  assert (0 <= tmx) by (unfold tmx; qif; qprop; lra). clearbody tmx.
  destruct (qle rain (mr_rfmin p)).
  - inversion E; subst. split; [nra|]. qif; lra.
  - inversion E; subst. split; [|lra]. qif; qprop; lra.
Qed.

(** ** One pass *)
Lemma qsum_zero l : Forall (fun x => x == 0) l -> qsum l == 0.
Proof. induction 1; simpl; lra. Qed.
Lemma qsum_nonneg l : Forall (fun x => 0 <= x) l -> 0 <= qsum l.
Proof. induction 1; simpl; lra. Qed.
Lemma map0_zero (l : list Q) : Forall (fun x => x == 0) (List.map (fun _ => 0) l).
Proof. induction l; constructor; auto. lra. Qed.
Lemma map0_nonneg (l : list Q) : Forall (fun x => 0 <= x) (List.map (fun _ => 0) l).
Proof. induction l; constructor; auto. lra. Qed.

Lemma snow_gone_ok s gmro melt rain soil evap :
  0 <= p_gm s -> 0 <= p_storage s -> Forall (fun x => 0 <= x) (p_lagro s) ->
  0 <= gmro -> 0 <= melt -> 0 <= rain -> 0 <= soil -> 0 <= evap ->
  let '(s', o) := snow_gone s gmro melt rain soil evap in
  pack_ok s' /\ out_ok o /\ pack_water s' == 0 /\
  out_water o == gmro + melt + rain + soil + evap + p_storage s + qsum (p_lagro s) /\
  length (p_lagro s') = length (p_lagro s) /\ p_gm s' = p_gm s.
Proof.
  intros. unfold snow_gone. 
  pose proof (map0_zero (p_lagro s)). pose proof (map0_nonneg (p_lagro s)).
  pose proof (qsum_nonneg _ H1).
  assert (qsum (List.map (fun _ => 0) (p_lagro s)) == 0) by (now apply qsum_zero).
  split; [|split; [|split; [|split; [|split]]]].
  - unfold pack_ok; cbn [p_we p_liqw p_neghs p_cover c_aesc p_storage p_lagro p_gm].
    do 9 (split; [lra || assumption|]). intros _. split; [lra|]. split; [lra|]. auto.
  - unfold out_ok; cbn [o_packro o_soil o_evap]. split; [|split]; lra.
  - unfold pack_water; cbn [p_we p_liqw p_storage p_lagro]. lra.
  - unfold out_water; cbn [o_packro o_soil o_evap]. ring.
  - cbn [p_lagro]. apply map_length.
  - reflexivity.
Qed.

Lemma snow_pass_ok expf pow03 pow13 sp i2 pxi tair s :
  exp_ok expf -> pow_nonneg pow03 -> pow_pos pow13 -> par_ok sp ->
  lag_room (sp_itpx sp) (p_lagro s) ->
  0 <= pxi -> pack_ok s ->
  exists s' o, snow_pass expf pow03 pow13 sp i2 pxi tair s = Ret (s', o) /\
    pack_ok s' /\ out_ok o /\
    pack_water s' + out_water o == pack_water s + pxi /\
    length (p_lagro s') = length (p_lagro s).
Proof.
  intros Hexp Hp3 Hp13 Hpar Hroom Hpx Hok.
  destruct Hpar as (Hmf & Hwc & Hsub & Hadc & Hit).
  destruct Hok as (Hwe & Hlq & Hn0 & Hn1 & Ha0 & Ha1 & Hst & Hlag & Hgm & Hz).
  cbv beta zeta delta [snow_pass].
  set (aesc := c_aesc (p_cover s)) in *.
  set (snowfall := negb (qeq pxi 0) && qle tair (sp_rnorsno sp)).
  set (rainfall := negb (qeq pxi 0) && negb (qle tair (sp_rnorsno sp))).
  assert (Hkind : (snowfall = true /\ rainfall = false) \/
                  (snowfall = false /\ rainfall = true) \/
                  (snowfall = false /\ rainfall = false /\ pxi == 0)).
  { unfold snowfall, rainfall. destruct (qeq pxi 0) eqn:E; qprop; cbn [negb andb].
    - right; right; auto.
    - destruct (qle tair _); cbn [negb]; auto. }
  clearbody snowfall rainfall.
  destruct (rainfall && qeq (p_we s) 0) eqn:E0.
  { qprop. destruct (Hz (or_introl H0)) as (Z1 & Z2 & Z3).
    pose proof (snow_gone_ok s 0 0 0 pxi 0) as G.
    destruct (snow_gone s 0 0 0 pxi 0) as [s' o].
    destruct G as (G1 & G2 & G3 & G4 & G5 & G6); auto; try lra.
    exists s', o. split; [auto|]. split; [auto|]. split; [auto|]. split; [|auto].
    rewrite G3, G4. unfold pack_water. lra. }
  set (we := if snowfall then p_we s + pxi else p_we s).
  set (tindex := if snowfall && qlt _ _ then _ else p_tindex s). clearbody tindex.
  set (accmax := if snowfall && qle _ _ then _ else c_accmax _). clearbody accmax.
  set (sbws := if snowfall then _ else c_sbws _). clearbody sbws.
  set (cnhspx := if snowfall then _ else 0). clearbody cnhspx.
  set (tr := if qlt tair 0 then 0 else tair).
  assert (Htr : 0 <= tr) by (unfold tr; qif; qprop; lra). clearbody tr.
  set (rainm := if rainfall then (125 # 10000) * pxi * tr else 0).
  assert (Hrm : 0 <= rainm) by (unfold rainm; destruct rainfall; nra). clearbody rainm.
  set (rain := if rainfall then pxi else 0).
  assert (Hin : we + rain == p_we s + pxi /\ 0 <= rain /\ p_we s <= we).
  { unfold we, rain. destruct Hkind as [[-> ->]|[[-> ->]|(-> & -> & ?)]]; lra. }
  destruct Hin as (Hin & Hrain & Hwe').
  clearbody we rain. cbv zeta.
  destruct (qle we (p_gm s)) eqn:E1.
  { qprop. pose proof (snow_gone_ok s (we + p_liqw s) 0 0 rain 0) as G.
    destruct (snow_gone s (we + p_liqw s) 0 0 rain 0) as [s' o].
    destruct G as (G1 & G2 & G3 & G4 & G5 & G6); auto; try lra.
    exists s', o. split; [auto|]. split; [auto|]. split; [auto|]. split; [|auto].
    rewrite G3, G4. unfold pack_water. lra. }
  qprop.
  destruct (meltrate expf (sp_mr sp) tair tindex (sp_ratio sp) (sp_mf sp) rain rainm 0 i2)
    as [[[cnhs t'] melt] evap] eqn:EM.
  destruct (meltrate_ok _ _ _ _ _ _ _ _ _ _ _ _ _ _ Hmf Hrm (Qle_refl 0) Hsub EM) as [Hmelt Hevap].
  clear EM.
  (* the part covered by snow *)
  set (f := if qlt aesc 1 then aesc else 1).
  assert (Hf : 0 <= f <= 1 /\ (aesc == 0 -> f == 0)).
  { unfold f. qif; qprop; split; try lra. }
  destruct Hf as (Hf & Hf0).
  set (q0 := p_gm s / we * p_liqw s).
  assert (Hq0 : 0 <= q0 <= p_liqw s).
  { unfold q0. assert (0 <= p_gm s / we) by (apply Qle_shift_div_l; lra).
    assert (p_gm s / we <= 1) by (apply Qle_shift_div_r; lra). nra. }
  clearbody q0.
  set (gm := if qlt aesc 1 then p_gm s * aesc else p_gm s).
  assert (Egm : gm == p_gm s * f) by (unfold gm, f; qif; ring).
  set (gmro := if qlt aesc 1 then (p_gm s + q0) * aesc else p_gm s + q0).
  assert (Egmro : gmro == (p_gm s + q0) * f) by (unfold gmro, f; qif; ring).
  set (gmwlos := if qlt aesc 1 then q0 * aesc else q0).
  assert (Egw : gmwlos == q0 * f) by (unfold gmwlos, f; qif; ring).
  set (melt' := if qlt aesc 1 then melt * aesc else melt).
  assert (Emelt : melt' == melt * f) by (unfold melt', f; qif; ring).
  set (cnhs' := if qlt aesc 1 then cnhs * aesc else cnhs). clearbody cnhs'.
  set (evap' := if qlt aesc 1 then evap * aesc else evap).
  assert (Eev : evap' == evap * f) by (unfold evap', f; qif; ring).
  set (pxsoil := if qlt aesc 1 then rain * (1 - aesc) else 0).
  assert (Epx : pxsoil == rain * (1 - f)) by (unfold pxsoil, f; qif; ring).
  set (rain' := if qlt aesc 1 then rain - pxsoil else rain).
  assert (Era : rain' == rain * f).
  { unfold rain'. assert (~ (qlt aesc 1 = true) -> f == 1) by (unfold f; qif; intros X; [tauto|reflexivity]).
    destruct (qlt aesc 1); [rewrite Epx; ring|rewrite H by discriminate; ring]. }
  clearbody gm gmro gmwlos melt' evap' pxsoil rain' f.
  assert (Bgm : 0 <= gm <= p_gm s) by (rewrite Egm; nra).
  assert (Bgw : 0 <= gmwlos <= p_liqw s) by (rewrite Egw; nra).
  assert (Bgmro : gmro == gm + gmwlos) by (rewrite Egmro, Egm, Egw; ring).
  assert (Bmelt : 0 <= melt') by (rewrite Emelt; nra).
  assert (Bev : 0 <= evap') by (rewrite Eev; nra).
  assert (Bpx : 0 <= pxsoil) by (rewrite Epx; nra).
  assert (Bra : 0 <= rain') by (rewrite Era; nra).
  assert (Brs : rain' + pxsoil == rain) by (rewrite Era, Epx; ring).
  assert (Z0 : aesc == 0 -> melt' == 0 /\ rain' == 0).
  { intros A. specialize (Hf0 A). rewrite Emelt, Era, Hf0. split; ring. }
  clear Egm Egmro Egw Emelt Eev Epx Era.
  set (cn := if qlt (cnhs' + p_neghs s) 0 then _ else cnhs'). clearbody cn.
  set (s1 := Build_pack _ _ _ _ _ _ _ gm).
  destruct (qle (we - gm) melt') eqn:E2.
  { qprop. pose proof (snow_gone_ok s1 gmro (we - gm + (p_liqw s - gmwlos)) rain' pxsoil 0) as G.
    destruct (snow_gone s1 gmro _ rain' pxsoil 0) as [s' o].
    destruct G as (G1 & G2 & G3 & G4 & G5 & G6); unfold s1; cbn [p_gm p_storage p_lagro]; auto; try lra.
    unfold s1 in *; cbn [p_gm p_storage p_lagro] in *.
    exists s', o. split; [auto|]. split; [auto|]. split; [auto|]. split; [|auto].
    rewrite G3, G4. unfold pack_water. lra. }
  qprop.
  destruct (qle (we - gm - melt') evap') eqn:E3.
  { qprop. pose proof (snow_gone_ok s1 gmro (melt' + (we - gm - melt') + (p_liqw s - gmwlos)) rain' pxsoil 0) as G.
    destruct (snow_gone s1 gmro _ rain' pxsoil 0) as [s' o].
    destruct G as (G1 & G2 & G3 & G4 & G5 & G6); unfold s1; cbn [p_gm p_storage p_lagro]; auto; try lra.
    unfold s1 in *; cbn [p_gm p_storage p_lagro] in *.
    exists s', o. split; [auto|]. split; [auto|]. split; [auto|]. split; [|auto].
    rewrite G3, G4. unfold pack_water. lra. }
  qprop. clear s1.
  destruct (heatwatr_ok melt' rain' cn cnhspx (sp_wcplw sp) (we - gm - melt' - evap')
              (p_neghs s) (p_liqw s - gmwlos) t') as (W1 & W2 & W3 & W4 & W5 & W6 & _ & _);
    auto; try lra.
  set (h := heatwatr _ _ _ _ _ _ _ _ _) in *.
  destruct (route_ok expf pow03 pow13 (sp_itpx sp) (h_excess h) (h_we h) aesc (p_storage s)
              (p_lagro s)) as (packro & st' & lag' & R1 & R2 & R3 & R4 & R5 & R6); auto; try lra.
  { destruct (Qlt_le_dec 0 aesc) as [P|P]; [left; auto|right].
    assert (A : aesc == 0) by lra. destruct (Hz (or_intror A)) as (Z1 & Z2 & Z3).
    destruct (Z0 A) as (Z4 & Z5). split; [|auto].
    (* no water can enter, so no excess *)
    clear - W1 W2 W4 W5 W6 Z1 Z4 Z5 Bgw Bgm E2 E3 Hwc Hn0 Hlq Hwe.
    unfold h in *. unfold heatwatr in *. clear W1 W2 W5 W6.
    revert W4. repeat match goal with |- context [if ?b then _ else _] =>
      match b with context [if _ then _ else _] => fail 1 | _ => destruct b eqn:? end end;
    cbn [h_excess]; intros; qprop; try lra; nra. }
  rewrite R1. cbn [bind].
  destruct (aesnow_ok (sp_adc sp) (h_we h) (h_liqw h) (sp_sit sp)
     {| c_accmax := accmax; c_sb := c_sb (p_cover s); c_sbws := sbws; c_aesc := aesc;
        c_sbaesc := c_sbaesc (p_cover s) |}) as (c' & C1 & C2 & C3 & _); auto; try lra.
  rewrite C1. cbn [bind].
  eexists; eexists. split; [reflexivity|].
  split; [|split; [|split]].
  - unfold pack_ok; cbn [p_we p_liqw p_neghs p_cover c_aesc p_storage p_lagro p_gm].
    split; [lra|]. split; [lra|]. split; [lra|]. split; [lra|]. split; [lra|].
    split; [lra|]. split; [lra|]. split; [auto|]. split; [lra|].
    intros [A|A]; lra.
  - unfold out_ok; cbn [o_packro o_soil o_evap]. split; [lra|]. split; lra.
  - unfold pack_water, out_water;
    cbn [p_we p_liqw p_storage p_lagro o_packro o_soil o_evap]. lra.
  - cbn [p_lagro]. exact R6.
Qed.

Lemma snow_loop_ok expf pow03 pow13 sp :
  exp_ok expf -> pow_nonneg pow03 -> pow_pos pow13 -> par_ok sp ->
  forall inp i2 s, lag_room (sp_itpx sp) (p_lagro s) ->
  Forall (fun pt => 0 <= fst pt) inp -> pack_ok s ->
  exists s' os, snow_loop expf pow03 pow13 sp i2 inp s = Ret (s', os) /\
    pack_ok s' /\ Forall out_ok os /\
    pack_water s' + qsum (List.map out_water os)
      == pack_water s + qsum (List.map fst inp) /\
    length (p_lagro s') = length (p_lagro s).
Proof.
  intros He H3 H13 Hp. induction inp as [|[pxi tair] inp IH]; intros i2 s Hr HF Hok.
  - exists s, []. simpl. split; [auto|]. split; [auto|]. split; [constructor|].
    split; [ring|auto].
  - inversion HF as [|? ? F1 F2]; subst. cbn [snow_loop].
    destruct (snow_pass_ok expf pow03 pow13 sp i2 pxi tair s) as (s' & o & A & B & C & D & E); auto.
    rewrite A. cbn [bind].
    destruct (IH (i2 + 1)%Z s') as (s'' & os & A' & B' & C' & D' & E'); auto.
    { unfold lag_room in *. now rewrite E. }
    rewrite A'. cbn [bind]. exists s'', (o :: os). split; [auto|]. split; [auto|].
    split; [constructor; auto|]. split; [|congruence].
    cbn [List.map qsum fst] in *. lra.
Qed.

Lemma snow_day_ok expf pow03 pow13 sp daygm pmru tmn tmx tmxpre s :
  exp_ok expf -> pow_nonneg pow03 -> pow_pos pow13 -> par_ok sp ->
  lag_room (sp_itpx sp) (p_lagro s) ->
  0 <= pmru -> 0 <= daygm -> pack_ok s ->
  exists s' os, snow_day expf pow03 pow13 sp daygm pmru tmn tmx tmxpre s = Ret (s', os) /\
    pack_ok s' /\ Forall out_ok os /\
    pack_water s' + qsum (List.map out_water os) == pack_water s + pmru /\
    length (p_lagro s') = length (p_lagro s).
Proof.
  intros He H3 H13 Hp Hr Hpm Hgm Hok. unfold snow_day.
  destruct (qeq (p_we s) 0 && qeq pmru 0) eqn:E.
  - qprop. exists s, []. split; [auto|]. split; [auto|]. split; [constructor|].
    split; [simpl; lra|auto].
  - set (s0 := Build_pack _ _ _ _ _ _ _ _).
    destruct (snow_loop_ok expf pow03 pow13 sp He H3 H13 Hp
      (List.map (fun t => (pmru / 4, t)) (t6hr tmn tmx tmxpre)) 1%Z s0)
      as (s' & os & A & B & C & D & F).
    + exact Hr.
    + unfold t6hr. cbn [List.map]. 
      repeat (constructor; [cbn [fst]; apply Qle_shift_div_l; lra|]). constructor.
    + destruct Hok as (? & ? & ? & ? & ? & ? & ? & ? & ? & ?).
      unfold s0, pack_ok; cbn [p_we p_liqw p_neghs p_cover c_aesc p_storage p_lagro p_gm].
      do 8 (split; [assumption|]). split; [apply Qle_shift_div_l; lra|assumption].
    + exists s', os. split; [exact A|]. split; [auto|]. split; [auto|]. split; [|exact F].
      rewrite D. unfold t6hr. cbn [List.map qsum fst].
      unfold pack_water, s0; cbn [p_we p_liqw p_storage p_lagro]. field.
Qed.

Lemma lag_room_6 l : (2 <= length l)%nat -> lag_room 6 l.
Proof.
  intros H. unfold lag_room. apply Qlt_le_trans with (inject_Z 6); [reflexivity|].
  rewrite <- Zle_Qle. lia.
Qed.

Lemma snow_run_ok expf pow03 pow13 :
  exp_ok expf -> pow_nonneg pow03 -> pow_pos pow13 ->
  forall days tmxpre s, (2 <= length (p_lagro s))%nat ->
  Forall day_ok days -> pack_ok s ->
  exists s' os, snow_run expf pow03 pow13 days tmxpre s = Ret (s', os) /\
    pack_ok s' /\ Forall out_ok os /\
    pack_water s' + qsum (List.map out_water os)
      == pack_water s + qsum (List.map day_precip days).
Proof.
  intros He H3 H13. induction days as [|d days IH]; intros tmxpre s Hl HF Hok.
  - exists s, []. simpl. split; [auto|]. split; [auto|]. split; [constructor|]. ring.
  - inversion HF as [|? ? F1 F2]; subst. destruct d as [[[[sp daygm] pmru] tmn] tmx].
    destruct F1 as (P1 & P2 & P3 & P4). cbn [snow_run].
    destruct (snow_day_ok expf pow03 pow13 sp daygm pmru tmn tmx tmxpre s)
      as (s' & os & A & B & C & D & E); auto.
    { rewrite P2. now apply lag_room_6. }
    rewrite A. cbn [bind].
    destruct (IH tmx s') as (s'' & os' & A' & B' & C' & D'); auto.
    { now rewrite E. }
    rewrite A'. cbn [bind]. exists s'', (os ++ os'). split; [auto|]. split; [auto|].
    split; [apply Forall_app; auto|].
    rewrite map_app, qsum_app. cbn [List.map qsum day_precip]. lra.
Qed.

(** With a lag array of one element the lagging writes outside it. *)
Lemma aget_out a i : (Z.of_nat (length a) < i)%Z -> aget a i = UB.
Proof.
  intros H. unfold aget. destruct (1 <=? i)%Z; auto.
  replace (nth_error a (Z.to_nat (i - 1))) with (@None Q); auto.
  symmetry. apply nth_error_None. lia.
Qed.

Lemma route_one_lag expf pow03 pow13 it excess we aesc storge x1 :
  exp_ok expf -> pow_nonneg pow03 -> (1 <= it)%Z -> (1 # 10) <= excess -> 1 <= we ->
  route expf pow03 pow13 it excess we aesc storge [x1] = UB.
Proof.
  intros Hexp Hp3 Hit Hex Hwe. unfold route. rewrite aget_1. cbn [bind]. cbv zeta.
  rewrite (qeq_false excess 0) by lra. cbn [andb].
  rewrite (qlt_false excess (1 # 10)) by lra. rewrite (qlt_false we 1) by lra. cbn [orb].
  set (n0 := trunc _).
  assert (Hn0 : (0 <= n0)%Z).
  { specialize (Hp3 (excess * 4) ltac:(lra)). unfold n0. rewrite trunc_floor by lra.
    apply floor_ge. change (inject_Z 0) with 0. lra. }
  set (n := if (n0 =? 0)%Z then 1%Z else n0).
  assert (Hn : (1 <= n)%Z) by (unfold n; destruct (Z.eqb_spec n0 0); lia).
  assert (Hfn : 1 <= inject_Z n) by (change 1 with (inject_Z 1); rewrite <- Zle_Qle; lia).
  clearbody n. destruct (Z.to_nat n) as [|k] eqn:Ek; [lia|].
  cbn [route_lag].
  set (fit := inject_Z it).
  assert (Hfit : 1 <= fit) by (unfold fit; change 1 with (inject_Z 1); now rewrite <- Zle_Qle).
  set (term0 := _ * we * _ / _).
  assert (Ht0 : 0 <= term0).
  { unfold term0. apply Qle_shift_div_l.
    - change (inject_Z 1) with 1. lra.
    - assert (0 <= (3 # 100) * fit / 6) by (apply Qle_shift_div_l; lra).
      assert (0 <= (3 # 100) * fit / 6 * we) by nra. nra. }
  clearbody term0.
  set (term := if qlt 150 term0 then 150 else term0).
  assert (Ht : 0 <= term) by (unfold term; qif; qprop; lra). clearbody term.
  set (flag := (533 # 100) * (1 - expf (- term))).
  assert (Hflag : 0 <= flag) by (unfold flag; destruct (Hexp term Ht); lra).
  clearbody flag.
  assert (Hff : 0 <= flag / fit) by (apply Qle_shift_div_l; lra).
  assert (Hr : (flag + fit) / fit + 1 == flag / fit + 2) by (field; lra).
  rewrite aget_out; [reflexivity|].
  rewrite trunc_floor by lra.
  assert ((2 <= Qfloor ((flag + fit) / fit + 1))%Z); [|simpl length; lia].
  apply floor_ge. change (inject_Z 2) with 2. lra.
Qed.
