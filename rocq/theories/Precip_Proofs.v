From Coq Require Import QArith Qround ZArith Bool List Lia Lqa.
From Coq Require Import ZifyBool.
From Verif Require Import Qx Precip_Model Precip_Spec.
Import ListNotations.
Local Open Scope Q_scope.

Lemma part_nonneg w : sensible w -> tmin w <= allsnow w -> allsnow w < tmax w -> 0 <= rain_part w.
Proof.
  intros [T A] L H. unfold rain_part. apply Qmult_le_0_compat; [|exact A].
  apply Qle_shift_div_l; lra.
Qed.

Lemma ratio_bounds r s : 0 <= r -> 0 <= s -> 0 < r + s ->
  0 <= r / (r + s) /\ r / (r + s) <= 1 /\ r == r / (r + s) * (r + s).
Proof.
  intros R S T. split; [apply Qle_shift_div_l; lra|]. split; [apply Qle_shift_div_r; lra|].
  field. lra.
Qed.

Lemma ppt_ok w ra sa ppt : sensible w -> 0 <= ra -> 0 <= sa -> 0 <= ppt ->
  let '(t, s) := ppt_mru w ra sa ppt in split_ok t s /\ (0 < ppt -> kind_ok w s /\ flag_ok w s) /\
  (t == if qeq ppt 0 then 0 else if qle (tmax w) (allsnow w) then ppt * sa
        else if pptmix s then ppt * (rain_part w * ra + (1 - rain_part w) * sa) else ppt * ra).
Proof.
  intros S R SA P. unfold ppt_mru. destruct (qeq ppt 0) eqn:E0; qprop.
  { unfold split_ok, kind_ok. cbn. split; [repeat split; lra|]. split; [intros; lra | exact E0]. }
  assert (PP : 0 < ppt) by (destruct (Qlt_le_dec 0 ppt); [assumption|]; exfalso; apply E0; lra).
  assert (PR : 0 <= ppt * ra) by (apply Qmult_le_0_compat; lra).
  assert (PS : 0 <= ppt * sa) by (apply Qmult_le_0_compat; lra).
  assert (TT := proj1 S).
  destruct (qle (tmax w) (allsnow w)) eqn:E1; qprop.
  { unfold split_ok, kind_ok, flag_ok. cbn. split; [|split; [|reflexivity]].
    - split; [lra|]. split; [lra|]. split; [exact PS|]. intros H. rewrite (qlt_true _ _ H). lra.
    - intros _. split; [split; [intros; lra|]; split; [intros; lra|discriminate]|]. split; [reflexivity|]. split; [reflexivity|intros; lra]. }
  destruct (qlt (allsnow w) (tmin w) || qle (allrain w) (tmax w)) eqn:E2.
  { unfold split_ok, kind_ok, flag_ok. cbn. split; [|split; [|reflexivity]].
    - split; [lra|]. split; [exact PR|]. split; [lra|]. intros H. rewrite (qlt_true _ _ H). lra.
    - intros _. split; [split; [intros; lra|]; split; [intros; lra|discriminate]|]. split; [intros; lra|]. split; [intros; lra|reflexivity]. }
  apply orb_false_iff in E2. destruct E2 as [E2 E3]. qprop.
  pose proof (part_nonneg w S E2 E1) as PN. set (p := rain_part w) in *. clearbody p.
  destruct (qlt 1 p) eqn:E4; qprop.
  { unfold split_ok, kind_ok, flag_ok. cbn. split; [|split; [|reflexivity]].
    - split; [lra|]. split; [exact PR|]. split; [lra|]. intros H. lra.
    - intros _. split; [split; [intros; lra|]; split; [intros; lra|discriminate]|]. split; [intros; lra|]. split; [intros; lra|reflexivity]. }
  assert (RR : 0 <= p * ppt * ra) by (rewrite <- Qmult_assoc; apply Qmult_le_0_compat; lra).
  assert (SS : 0 <= (1 - p) * ppt * sa) by (rewrite <- Qmult_assoc; apply Qmult_le_0_compat; lra).
  unfold split_ok, kind_ok, flag_ok. cbn [fst snd rain snow prmx pptmix newsnow]. split; [|split; [|ring]].
  - split; [lra|]. split; [exact RR|]. split; [exact SS|]. intros H. apply ratio_bounds; assumption.
  - intros _. split; [split; [intros; lra|]; split; [intros A [B | B]; lra|intros; lra]|]. split; [reflexivity|]. split; [reflexivity|intros; lra].
Qed.

Lemma irr_split_ok w d old : sensible w -> 0 < d ->
  amounts_ok d (irr_split w d old) /\ kind_ok w (irr_split w d old).
Proof.
  intros S P. unfold irr_split, amounts_ok, kind_ok.
  destruct (qle (tmax w) (allsnow w)) eqn:E1; qprop; [cbn; split; [lra|]; split; [intros; lra|]; split; [intros; lra|discriminate]|].
  destruct (qlt (allsnow w) (tmin w) || qle (allrain w) (tmax w)) eqn:E2; [cbn; split; [lra|]; split; [intros; lra|]; split; [intros; lra|discriminate]|].
  apply orb_false_iff in E2. destruct E2 as [E2 E3]. qprop.
  pose proof (part_nonneg w S E2 E1) as PN. assert (TN : (0 <= trunc (rain_part w))%Z) by (rewrite trunc_floor by exact PN; change 0%Z with (Qfloor 0); apply Qfloor_resp_le; exact PN).
  destruct (1 <? trunc (rain_part w))%Z eqn:E4; [cbn; split; [lra|]; split; [intros; lra|]; split; [intros; lra|discriminate]|].
  cbn [rain snow pptmix]. assert (C : trunc (rain_part w) = 0%Z \/ trunc (rain_part w) = 1%Z) by lia.
  destruct C as [-> | ->]; [change (inject_Z 0) with 0; change (inject_Z (1 - 0)) with 1|change (inject_Z 1) with 1; change (inject_Z (1 - 1)) with 0]; (split; [repeat split; lra|]; split; [intros; lra|]; split; [intros A [B | B]; lra|intros; lra]).
Qed.
(** A part below one is dropped. *)
Lemma mixed_split w d old : sensible w -> mixed_day w -> rain_part w < 1 -> irr_split w d old =
  {| rain := inject_Z 0 * d; snow := inject_Z 1 * d; prmx := as_real (trunc (inject_Z 0 * d / (inject_Z 0 * d + inject_Z 1 * d))); pptmix := true; newsnow := one_bits |}.
Proof.
  intros S (M1 & M2 & M3) L. unfold irr_split. rewrite (qle_false (tmax w)) by lra. rewrite (qlt_false (allsnow w) (tmin w)) by lra. rewrite (qle_false (allrain w)) by lra. cbn [orb].
  pose proof (part_nonneg w S M1 M2) as PN. assert (T : trunc (rain_part w) = 0%Z).
  { rewrite trunc_floor by exact PN. assert (A : (Qfloor (rain_part w) <= Qfloor (rain_part w))%Z) by lia. pose proof (Qfloor_le (rain_part w)) as F. assert (B : (0 <= Qfloor (rain_part w))%Z) by (change 0%Z with (Qfloor 0); apply Qfloor_resp_le; exact PN).
    assert (C : inject_Z (Qfloor (rain_part w)) < inject_Z 1) by (change (inject_Z 1) with 1; lra). rewrite <- Zlt_Qlt in C. lia. }
  rewrite T. reflexivity.
Qed.

(** ** Sources *)
Lemma ext_mru_cases ne ie m e : ext_mru ne ie m = Some e ->
  (e = 0 /\ (ne = 0 \/ sched_ext m = 0)%Z) \/ (ne <> 0 /\ 0 < sched_ext m /\ e = ie (sched_ext m))%Z.
Proof.
  unfold ext_mru. destruct (ne =? 0)%Z eqn:A; [intros H; injection H as <-; left; split; [reflexivity | lia]|].
  destruct (sched_ext m =? 0)%Z eqn:B; [intros H; injection H as <-; left; split; [reflexivity | lia]|].
  destruct (0 <? sched_ext m)%Z eqn:C; [|discriminate]. intros H. injection H as <-. right. repeat split; lia.
Qed.
Lemma int_mru_cases ni nx m s h : ni <> 0%Z -> int_mru ni nx m = Some (s, h) ->
  (sched_int m = 0%Z /\ s = 0 /\ h = 0) \/
  (0 < sched_int m /\ int_src m = 0)%Z /\ s = fst nx /\ h = 0 \/
  (0 < sched_int m /\ 0 < int_src m)%Z /\ s = 0 /\ h = snd nx.
Proof.
  intros N. unfold int_mru. replace (ni =? 0)%Z with false by lia.
  destruct (sched_int m =? 0)%Z eqn:A; [intros H; left; split; [lia|]; split; congruence|].
  destruct (0 <? sched_int m)%Z eqn:B; [|discriminate].
  destruct (int_src m =? 0)%Z eqn:C; [intros H; right; left; split; [lia|]; split; congruence|].
  destruct (0 <? int_src m)%Z eqn:D; [|discriminate]. intros H. right. right. split; [lia|]. split; congruence.
Qed.

Definition known (ni : Z) (m : mru) : Prop := ni <> 0%Z \/ (sat_was m == 0 /\ hyd_was m == 0).

Lemma irr_mru_ok ne ni ie nx m o : mru_ok m -> known ni m -> (forall k, 0 <= ie k) ->
  0 <= fst nx -> 0 <= snd nx -> irr_mru ne ni ie nx m = Some o ->
  dep o == m_ppt m + ext o + sat o + hyd o /\ 0 <= ext o /\ 0 <= sat o /\ 0 <= hyd o /\
  out_dep o == dep o /\ rain (out_split o) + snow (out_split o) == dep o /\
  (0 < dep o -> amounts_ok (dep o) (out_split o) /\ kind_ok (m_weather m) (out_split o) /\
     m_ppt m / dep o + frac_ext o + frac_sat o + frac_hyd o == 1 /\
     frac_ext o == ext o / dep o /\ frac_sat o == sat o / dep o /\ frac_hyd o == hyd o / dep o).
Proof.
  intros (SW & P0 & PZ & SN & HN & II) K IE N1 N2. unfold irr_mru.
  destruct (ext_mru ne ie m) as [e|] eqn:E; [|discriminate].
  destruct (int_mru ni nx m) as [[s h]|] eqn:I; [|discriminate]. intros H. injection H as <-.
  assert (EP : 0 <= e) by (destruct (ext_mru_cases _ _ _ _ E) as [[-> _] | [_ [_ ->]]]; [lra | apply IE]).
  assert (SH : 0 <= s /\ 0 <= h /\ ((ni = 0)%Z -> s == 0 /\ h == 0)).
  { destruct (Z.eq_dec ni 0) as [-> | N].
    - unfold int_mru in I. cbn in I. assert (Is : s = sat_was m) by congruence. assert (Ih : h = hyd_was m) by congruence. subst s h.
      destruct K as [K | [K1 K2]]; [congruence|]. repeat split; lra.
    - destruct (int_mru_cases _ _ _ _ _ N I) as [(_ & -> & ->) | [(_ & -> & ->) | (_ & -> & ->)]]; repeat split; try lra; lia. }
  destruct SH as (S0 & H0 & SH). set (d := m_ppt m + e + s + h).
  assert (D0 : 0 <= d) by (unfold d; lra).
  destruct (qeq d 0) eqn:ED; qprop; cbn [ext sat hyd frac_ext frac_sat frac_hyd dep out_dep out_split].
  - assert (M0 : m_ppt m == 0) by (unfold d in ED; lra). destruct (PZ M0) as (A & B & C).
    split; [reflexivity|]. split; [exact EP|]. split; [exact S0|]. split; [exact H0|]. split; [lra|]. split; [lra|]. intros; lra.
  - assert (DP : 0 < d) by (destruct (Qlt_le_dec 0 d); [assumption|]; exfalso; apply ED; lra).
    destruct (irr_split_ok (m_weather m) d (m_split m) SW DP) as [SO KO].
    split; [reflexivity|]. split; [exact EP|]. split; [exact S0|]. split; [exact H0|].
    split; [apply SO|]. split; [apply SO|]. intros _. split; [exact SO|]. split; [exact KO|].
    assert (FE : (if (ne =? 0)%Z then 0 else e / d) == e / d).
    { destruct (ne =? 0)%Z eqn:Z0; [|reflexivity].
      destruct (ext_mru_cases _ _ _ _ E) as [[-> _] | [Z1 _]]; [field; lra | lia]. }
    assert (FS : (if (ni =? 0)%Z then 0 else s / d) == s / d).
    { destruct (ni =? 0)%Z eqn:Z0; [|reflexivity]. destruct SH as [Z1 _]; [lia|]. rewrite Z1. field; lra. }
    assert (FH : (if (ni =? 0)%Z then 0 else h / d) == h / d).
    { destruct (ni =? 0)%Z eqn:Z0; [|reflexivity]. destruct SH as [_ Z1]; [lia|]. rewrite Z1. field; lra. }
    split; [|split; [exact FE | split; [exact FS | exact FH]]].
    rewrite FE, FS, FH. unfold d in *. field. lra.
Qed.

(** ** All MRUs *)
Lemma first_next_nonneg ni m : mru_ok m -> 0 <= fst (first_next ni m) /\ 0 <= snd (first_next ni m).
Proof.
  intros (_ & _ & _ & A & B & C). unfold first_next. destruct (ni =? 0)%Z; [cbn; lra|].
  destruct (1 <=? sched_int m)%Z; [|cbn; lra]. destruct (int_src m =? 0)%Z; cbn; lra.
Qed.

Definition mru_result (m : mru) (o : mru_out) : Prop :=
  dep o == m_ppt m + ext o + sat o + hyd o /\ 0 <= ext o /\ 0 <= sat o /\ 0 <= hyd o /\
  out_dep o == dep o /\ rain (out_split o) + snow (out_split o) == dep o /\
  (0 < dep o -> amounts_ok (dep o) (out_split o) /\ kind_ok (m_weather m) (out_split o) /\
     m_ppt m / dep o + frac_ext o + frac_sat o + frac_hyd o == 1 /\
     frac_ext o == ext o / dep o /\ frac_sat o == sat o / dep o /\ frac_hyd o == hyd o / dep o).

Lemma loop_ok ne ni ie first ms : Forall mru_ok ms -> Forall (known ni) ms -> (forall k, 0 <= ie k) ->
  forall r, irrrun ne ni ie first ms = Some r ->
  Forall2 mru_result ms (outs r) /\
  basin_dep r == weighted out_dep ms (outs r) /\ basin_ext r == weighted ext ms (outs r) /\
  basin_sat r == weighted sat ms (outs r) /\ basin_hyd r == weighted hyd ms (outs r).
Proof.
  intros F K IE. unfold irrrun. induction F as [|m t M F IH]; cbn [irr_loop]; intros r H.
  - injection H as <-. cbn. split; [constructor|]. unfold weighted. cbn. repeat split; reflexivity.
  - apply Forall_cons_iff in K. destruct K as [K1 K].
    set (nx := if first then first_next ni m else (sat_next m, hyd_next m)) in *.
    assert (NX : 0 <= fst nx /\ 0 <= snd nx)
      by (unfold nx; destruct first; [apply first_next_nonneg; exact M | destruct M as (_ & _ & _ & A & B & _); cbn; split; assumption]).
    destruct (irr_mru ne ni ie nx m) as [o|] eqn:E; [|discriminate].
    destruct (irr_loop ne ni ie first t) as [q|] eqn:L; [|discriminate]. injection H as <-.
    destruct (IH K q eq_refl) as (A & B1 & B2 & B3 & B4).
    pose proof (irr_mru_ok ne ni ie nx m o M K1 IE (proj1 NX) (proj2 NX) E) as R.
    cbn [outs basin_dep basin_ext basin_sat basin_hyd]. split; [constructor; assumption|].
    destruct R as (R1 & R2 & R3 & R4 & R5 & _). destruct M as (_ & P0 & _).
    unfold weighted in *. cbn [combine map qsum fst snd].
    destruct (qeq (dep o) 0) eqn:Z; qprop.
    + assert (Z1 : out_dep o == 0) by lra. assert (Z2 : ext o == 0) by lra. assert (Z3 : sat o == 0) by lra. assert (Z4 : hyd o == 0) by lra.
      rewrite Z1, Z2, Z3, Z4, B1, B2, B3, B4. repeat split; ring.
    + rewrite B1, B2, B3, B4. repeat split; ring.
Qed.

Lemma irr_mru_int ne ni ie nx m o : irr_mru ne ni ie nx m = Some o -> int_mru ni nx m = Some (sat o, hyd o).
Proof.
  unfold irr_mru. destruct (ext_mru ne ie m); [|discriminate]. destruct (int_mru ni nx m) as [[s h]|]; [|discriminate].
  intros H. injection H as <-. destruct (qeq _ _); reflexivity.
Qed.

Lemma seg_fed ne ni ie first ms seg : ni <> 0%Z -> (0 < seg)%Z -> forall r, irrrun ne ni ie first ms = Some r ->
  hyd_seg r seg == (if first then 2 else 1) * fed_by ms (outs r) seg.
Proof.
  intros N P. unfold irrrun. induction ms as [|m t IH]; cbn [irr_loop]; intros r H.
  - injection H as <-. unfold fed_by. cbn. destruct first; ring.
  - set (nx := if first then first_next ni m else (sat_next m, hyd_next m)) in *.
    destruct (irr_mru ne ni ie nx m) as [o|] eqn:E; [|discriminate].
    destruct (irr_loop ne ni ie first t) as [q|] eqn:L; [|discriminate]. injection H as <-.
    specialize (IH q eq_refl). cbn [hyd_seg outs]. rewrite IH. unfold fed_by. cbn [combine map qsum fst snd].
    pose proof (irr_mru_int _ _ _ _ _ _ E) as I.
    unfold seg_part, first_seg, hyd_volume, inch2m. replace (ni =? 0)%Z with false by lia. cbn [negb andb].
    destruct (int_mru_cases _ _ _ _ _ N I) as [(A & B & C) | [((A & A') & B & C) | ((A & A') & B & C)]].
    + replace (0 <? sched_int m)%Z with false by lia. replace (1 <=? sched_int m)%Z with false by lia. cbn [andb]. rewrite C.
      destruct (int_src m =? seg)%Z, first; ring.
    + replace (int_src m =? seg)%Z with false by lia. rewrite !andb_false_r. destruct first; ring.
    + replace (0 <? sched_int m)%Z with true by lia. replace (1 <=? sched_int m)%Z with true by lia.
      replace (0 <? int_src m)%Z with true by lia. replace (int_src m =? 0)%Z with false by lia. cbn [negb andb].
      destruct first; destruct (int_src m =? seg)%Z; try ring.
      assert (X : hyd o = int_init m).
      { rewrite C. unfold nx, first_next. replace (ni =? 0)%Z with false by lia. replace (1 <=? sched_int m)%Z with true by lia.
        replace (int_src m =? 0)%Z with false by lia. reflexivity. }
      rewrite X. ring.
Qed.

(** Refusals. *)
Definition acceptable (ne ni : Z) (m : mru) : Prop :=
  (ne = 0 \/ 0 <= sched_ext m)%Z /\
  (ni = 0 \/ sched_int m = 0 \/ (0 < sched_int m /\ 0 <= int_src m))%Z.
Lemma loop_some ne ni ie first ms :
  (exists r, irrrun ne ni ie first ms = Some r) <-> Forall (acceptable ne ni) ms.
Proof.
  unfold irrrun. induction ms as [|m t IH]; cbn [irr_loop].
  - split; [constructor | eauto].
  - rewrite Forall_cons_iff, <- IH. set (nx := if first then _ else _). clearbody nx.
    assert (X : (exists o, irr_mru ne ni ie nx m = Some o) <-> acceptable ne ni m).
    { unfold irr_mru, ext_mru, int_mru, acceptable.
      destruct (ne =? 0)%Z eqn:A, (ni =? 0)%Z eqn:B, (sched_ext m =? 0)%Z eqn:C, (0 <? sched_ext m)%Z eqn:D,
        (sched_int m =? 0)%Z eqn:E, (0 <? sched_int m)%Z eqn:F, (int_src m =? 0)%Z eqn:G, (0 <? int_src m)%Z eqn:H;
      (split; [intros [o O]; first [discriminate | lia] | intros Y; first [eexists; reflexivity | exfalso; lia]]). }
    rewrite <- X. destruct (irr_mru ne ni ie nx m) as [o|].
    + destruct (irr_loop ne ni ie first t) as [q|]; split; eauto; intros [? [? ?]] || intros [? ?]; try discriminate; eauto.
    + split; [intros [? ?]; discriminate | intros [[? ?] _]; discriminate].
Qed.

(** ** Several steps *)
Lemma outs_nth ne ni ie ms r : forall i m o, irrrun ne ni ie false ms = Some r -> nth_error ms i = Some m -> nth_error (outs r) i = Some o -> irr_mru ne ni ie (sat_next m, hyd_next m) m = Some o.
Proof.
  unfold irrrun. revert r. induction ms as [|x t IH]; intros r [|i] m o H N O; try discriminate; cbn [irr_loop] in H;
    destruct (irr_mru ne ni ie (sat_next x, hyd_next x) x) as [y|] eqn:E; try discriminate; destruct (irr_loop ne ni ie false t) as [q|] eqn:L; try discriminate; injection H as <-; cbn [outs nth_error] in N, O.
  - congruence.
  - exact (IH q i m o eq_refl N O).
Qed.
Lemma outs_nth_first ne ni ie ms r : forall i m o, irrrun ne ni ie true ms = Some r -> nth_error ms i = Some m -> nth_error (outs r) i = Some o -> irr_mru ne ni ie (first_next ni m) m = Some o.
Proof.
  unfold irrrun. revert r. induction ms as [|x t IH]; intros r [|i] m o H N O; try discriminate; cbn [irr_loop] in H;
    destruct (irr_mru ne ni ie (first_next ni x) x) as [y|] eqn:E; try discriminate; destruct (irr_loop ne ni ie true t) as [q|] eqn:L; try discriminate; injection H as <-; cbn [outs nth_error] in N, O.
  - congruence.
  - exact (IH q i m o eq_refl N O).
Qed.
Definition fixed_next (m : mru) (n : Q * Q) : Prop := (0 < sched_int m)%Z -> ((int_src m = 0)%Z -> fst n = int_init m) /\ ((0 < int_src m)%Z -> snd n = int_init m).
Lemma nth_params ms l : map params l = map params ms -> forall i m, nth_error ms i = Some m -> exists x, nth_error l i = Some x /\ params x = params m.
Proof.
  intros E i m N. assert (X : nth_error (map params l) i = Some (params m)) by (rewrite E, nth_error_map, N; reflexivity). rewrite nth_error_map in X.
  destruct (nth_error l i) as [x|]; [|discriminate]. exists x. split; [reflexivity|]. cbn in X. congruence.
Qed.
Lemma nth_combine {A B} : forall (l : list A) (l' : list B) i a b, nth_error l i = Some a -> nth_error l' i = Some b -> nth_error (combine l l') i = Some (a, b).
Proof. induction l as [|x l IH]; intros [|y l'] [|i] a b E F; try discriminate; cbn in *; [congruence|]. apply IH; assumption. Qed.
Lemma applied ne ni ie n m y : ni <> 0%Z -> (0 < sched_int m)%Z -> fixed_next m n -> irr_mru ne ni ie n m = Some y -> sat y + hyd y == int_init m.
Proof.
  intros N P F E. apply irr_mru_int in E. destruct (F P) as [F1 F2].
  destruct (int_mru_cases _ _ _ _ _ N E) as [(A & _) | [((A & A') & B & C) | ((A & A') & B & C)]]; [lia| |].
  - rewrite B, C, (F1 A'). ring.
  - rewrite B, C, (F2 A'). ring.
Qed.
Lemma fixed_params m m' n : params m = params m' -> fixed_next m n -> fixed_next m' n.
Proof. unfold params, fixed_next. intros E. injection E as _ -> -> ->. trivial. Qed.
Lemma days_fixed ne ni ms : ni <> 0%Z -> forall days nexts os, same_hillslopes ms days -> (forall i m, nth_error ms i = Some m -> exists n, nth_error nexts i = Some n /\ fixed_next m n) ->
  irr_days ne ni false nexts days = Some os -> forall k r i m y, nth_error os k = Some r -> nth_error ms i = Some m -> nth_error (outs r) i = Some y -> (0 < sched_int m)%Z -> sat y + hyd y == int_init m.
Proof.
  intros N. induction days as [|[ie l] days IH]; intros nexts os SH FX E k r i m y K M O P; cbn [irr_days] in E; [injection E as <-; destruct k; discriminate|].
  apply Forall_cons_iff in SH. destruct SH as [S1 SH]. cbn [snd] in S1.
  set (ms' := map (fun x : Q * Q * mru => with_next (fst x) (snd x)) (combine nexts l)) in *.
  destruct (irrrun ne ni ie false ms') as [o|] eqn:EO; [|discriminate]. destruct (irr_days ne ni false nexts days) as [os'|] eqn:ED; [|discriminate]. injection E as <-.
  destruct k as [|k]; [|exact (IH nexts os' SH FX ED k r i m y K M O P)]. injection K as <-.
  destruct (nth_params _ _ S1 _ _ M) as (x & X1 & X2). destruct (FX _ _ M) as (n & N1 & N2).
  assert (X3 : nth_error ms' i = Some (with_next n x)) by (unfold ms'; rewrite nth_error_map, (nth_combine _ _ _ _ _ N1 X1); reflexivity).
  pose proof (outs_nth _ _ _ _ _ _ _ _ EO X3 O) as R. cbn [with_next sat_next hyd_next] in R. rewrite <- surjective_pairing in R.
  assert (PX : params (with_next n x) = params m) by exact X2. pose proof PX as PX'. unfold params in PX'. injection PX' as _ PX1 _ PX2.
  cbn [with_next] in PX2. rewrite <- PX2. change (int_init x) with (int_init (with_next n x)). eapply applied; [exact N|cbn [with_next sched_int] in *; rewrite PX1; exact P|eapply fixed_params; [symmetry; exact PX|exact N2]|exact R].
Qed.
Lemma first_fixed ni m : ni <> 0%Z -> fixed_next m (first_next ni m).
Proof.
  intros N P. unfold first_next. replace (ni =? 0)%Z with false by lia. replace (1 <=? sched_int m)%Z with true by lia.
  destruct (int_src m =? 0)%Z eqn:E; cbn; split; intros; try reflexivity; lia.
Qed.
Lemma days_first ne ni ms nexts days os : ni <> 0%Z -> length nexts = length ms -> same_hillslopes ms days -> irr_days ne ni true nexts days = Some os ->
  forall k r i m y, nth_error os k = Some r -> nth_error ms i = Some m -> nth_error (outs r) i = Some y -> (0 < sched_int m)%Z -> sat y + hyd y == int_init m.
Proof.
  intros N L SH E k r i m y K M O P. destruct days as [|[ie l] days]; cbn [irr_days] in E; [injection E as <-; destruct k; discriminate|].
  apply Forall_cons_iff in SH. destruct SH as [S1 SH]. cbn [snd] in S1.
  set (ms' := map (fun x : Q * Q * mru => with_next (fst x) (snd x)) (combine nexts l)) in *.
  destruct (irrrun ne ni ie true ms') as [o|] eqn:EO; [|discriminate]. destruct (irr_days ne ni false (map (first_next ni) ms') days) as [os'|] eqn:ED; [|discriminate]. injection E as <-.
  assert (MS : forall i m, nth_error ms i = Some m -> exists n x, nth_error ms' i = Some (with_next n x) /\ params x = params m).
  { intros j m' M'. destruct (nth_params _ _ S1 _ _ M') as (x & X1 & X2). assert (J : (j < length nexts)%nat) by (rewrite L; apply nth_error_Some; congruence).
    destruct (nth_error nexts j) as [n|] eqn:NJ; [|apply nth_error_None in NJ; lia]. exists n, x. split; [|exact X2]. unfold ms'. rewrite nth_error_map, (nth_combine _ _ _ _ _ NJ X1). reflexivity. }
  destruct k as [|k].
  - injection K as <-. destruct (MS _ _ M) as (n & x & X1 & X2). pose proof (outs_nth_first _ _ _ _ _ _ _ _ EO X1 O) as R.
    assert (PX : params (with_next n x) = params m) by exact X2. pose proof PX as PX'. unfold params in PX'. injection PX' as _ PX1 _ PX2.
    cbn [with_next] in PX2. rewrite <- PX2. change (int_init x) with (int_init (with_next n x)). eapply applied; [exact N|cbn [with_next sched_int] in *; rewrite PX1; exact P|apply first_fixed; exact N|exact R].
  - refine (days_fixed ne ni ms N days _ os' SH _ ED k r i m y K M O P). intros j m' M'. destruct (MS _ _ M') as (n & x & X1 & X2). exists (first_next ni (with_next n x)).
    split; [rewrite nth_error_map, X1; reflexivity|]. eapply fixed_params; [exact X2|]. change (fixed_next (with_next n x) (first_next ni (with_next n x))). apply first_fixed. exact N.
Qed.
