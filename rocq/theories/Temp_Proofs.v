(** Proofs about temperatures, season and potential evaporation. *)
From Coq Require Import QArith Qround ZArith Bool List Lia Lqa.
From Coq Require Import ZifyBool.
From Verif Require Import Qx Calendar_Model Calendar_Spec Calendar_Proofs Temp_Model Temp_Spec.
Import ListNotations.
Local Open Scope Q_scope.

(** ** Lapse *)
Lemma next_month d : dm (Next_day d) = dm d \/ dd (Next_day d) = 1%Z.
Proof.
  unfold Next_day. destruct (_ && _)%bool eqn:E; [left; cbn; lia|]. destruct (dd d <? _)%Z; [left; reflexivity|]. destruct (dm d <? 12)%Z; right; reflexivity.
Qed.
Lemma next_dd d : Valid d -> dd (Next_day d) <> dd d.
Proof.
  intros (_ & _ & V & _). unfold Next_day. destruct (_ && _)%bool eqn:E; [cbn; lia|]. destruct (dd d <? Days_in_month (dy d) (dm d))%Z eqn:L; [cbn; lia|].
  assert (28 <= Days_in_month (dy d) (dm d))%Z by (unfold Days_in_month; destruct (dm d =? 2)%Z, (Leap (dy d)), ((dm d =? 4) || (dm d =? 6) || (dm d =? 9) || (dm d =? 11))%Z; lia).
  destruct (dm d <? 12)%Z; cbn; lia.
Qed.
Lemma airs_from p : forall l nstep c d, (1 < nstep)%Z -> c = correction p (dm d) -> follow d (map fst l) ->
  forall i e s a, nth_error l i = Some (e, s) -> nth_error (airs p nstep c l) i = Some a -> a = air_of s (correction p (dm e)).
Proof.
  induction l as [|[e0 s0] l IH]; intros nstep c d N C F [|i] e s a L A; try discriminate; cbn [airs] in A; destruct F as [F0 F].
  - cbn [nth_error] in L, A. injection L as -> ->. injection A as <-. f_equal. unfold update. replace (nstep =? 1)%Z with false by lia. cbn [orb]. cbn [fst] in F0.
    destruct (dd e =? 1)%Z eqn:D1; [reflexivity|]. rewrite C. f_equal. destruct F0 as [-> | ->]; [reflexivity|]. destruct (next_month d) as [M | M]; [congruence|lia].
  - cbn [nth_error] in L, A. cbn [fst] in F0. refine (IH (nstep + 1)%Z _ e0 ltac:(lia) _ F i e s a L A).
    unfold update. replace (nstep =? 1)%Z with false by lia. cbn [orb]. destruct (dd e0 =? 1)%Z eqn:D1; [reflexivity|]. rewrite C. f_equal.
    destruct F0 as [-> | ->]; [reflexivity|]. destruct (next_month d) as [M | M]; [congruence|lia].
Qed.
Lemma airs_run p c d s l : follow d (map fst l) -> forall i e x a, nth_error ((d, s) :: l) i = Some (e, x) -> nth_error (airs p 1 c ((d, s) :: l)) i = Some a -> a = air_of x (correction p (dm e)).
Proof.
  intros F [|i] e x a L A.
  - cbn in L, A. injection L as -> ->. injection A as <-. reflexivity.
  - cbn [airs nth_error] in L, A. refine (airs_from p l (1 + 1)%Z _ d ltac:(lia) _ F i e x a L A). reflexivity.
Qed.
Lemma mean_bounds : forall areas temps lo hi, length areas = length temps -> Forall (fun a => 0 <= a) areas -> Forall (fun t => lo <= t <= hi) temps ->
  lo * qsum areas <= qsum (map (fun x => snd x * fst x) (combine areas temps)) <= hi * qsum areas.
Proof.
  induction areas as [|a areas IH]; intros [|t temps] lo hi L A T; try discriminate; [cbn; lra|]. inversion A as [|? ? A1 A2]; subst. inversion T as [|? ? [T1 T1'] T2]; subst. cbn [combine map qsum fst snd].
  destruct (IH temps lo hi ltac:(cbn in L; lia) A2 T2) as [B1 B2].
  assert (lo * a <= t * a) by (apply Qmult_le_compat_r; assumption). assert (t * a <= hi * a) by (apply Qmult_le_compat_r; assumption). split; lra.
Qed.

(** ** Running means *)
Definition window (n : nat) (h : list Q) : list Q := firstn n (h ++ repeat 0 n).
Lemma window_length n h : length (window n h) = n.
Proof. unfold window. rewrite firstn_length, app_length, repeat_length. lia. Qed.
Lemma firstn_more {A} : forall n k (l : list A) x, (n <= length l)%nat -> firstn n (l ++ repeat x k) = firstn n l.
Proof. intros n k l x L. rewrite firstn_app. replace (n - length l)%nat with 0%nat by lia. cbn. apply app_nil_r. Qed.
Lemma repeat_snoc {A} (x : A) k : repeat x k ++ [x] = repeat x (S k).
Proof. induction k as [|k IH]; [reflexivity|]. cbn [repeat app]. rewrite IH. reflexivity. Qed.
Lemma removelast_is {A} : forall (l : list A) n, length l = S n -> removelast l = firstn n l.
Proof. induction l as [|x l IH]; intros n L; [discriminate|]. destruct l as [|y l]; [cbn in L; injection L as <-; reflexivity|]. destruct n as [|n]; [discriminate|]. cbn [firstn]. rewrite <- (IH n); [reflexivity|]. cbn in *. lia. Qed.
Lemma window_shift n t h : set_first t (cshift (window (S n) h)) = window (S n) (t :: h).
Proof.
  pose proof (window_length (S n) h) as L. unfold cshift. destruct (window (S n) h) as [|x w] eqn:E; [discriminate|]. cbn [set_first]. unfold window at 1. cbn [app firstn]. f_equal.
  rewrite (removelast_is _ n L), <- E. unfold window. rewrite firstn_firstn. replace (Nat.min n (S n)) with n by lia.
  reflexivity.
Qed.
Lemma window_start n t : set_first t (repeat 0 (S n)) = window (S n) [t].
Proof.
  unfold window. cbn [repeat set_first app firstn]. f_equal.
  assert (G : forall a b, (a <= b)%nat -> firstn a (repeat (0:Q) b) = repeat 0 a) by (induction a as [|a IHa]; intros [|b] Hb; try lia; [reflexivity|reflexivity|]; cbn; rewrite IHa by lia; reflexivity).
  change (0 :: repeat 0 n) with (repeat (0:Q) (S n)). rewrite G by lia. reflexivity.
Qed.
(** Everything that fits. *)
Lemma window_zero : forall h room, room <= 0 -> in_window room h == 0.
Proof.
  induction h as [|t h IH]; intros room R; cbn [in_window]; [reflexivity|]. rewrite (qle_false 1 room) by lra. rewrite IH by lra. destruct (qle 0 room) eqn:E; qprop; [|ring].
  assert (Z : room == 0) by lra. rewrite Z. ring.
Qed.
Lemma window_zeros : forall k room, in_window room (repeat 0 k) == 0.
Proof. induction k as [|k IH]; intros room; cbn [repeat in_window]; [reflexivity|]. rewrite IH. ring. Qed.
Lemma window_app : forall h k room, in_window room (h ++ repeat 0 k) == in_window room h.
Proof. induction h as [|t h IH]; intros k room; cbn [app in_window]; [apply window_zeros|]. rewrite IH. reflexivity. Qed.
Lemma window_cut : forall n h room, room <= inject_Z (Z.of_nat n) -> in_window room (firstn n h) == in_window room h.
Proof.
  induction n as [|n IH]; intros h room R; [cbn [firstn in_window]; rewrite window_zero by exact R; reflexivity|].
  destruct h as [|t h]; [reflexivity|]. cbn [firstn in_window]. rewrite IH; [reflexivity|]. rewrite Nat2Z.inj_succ in R. unfold Z.succ in R. rewrite inject_Z_plus in R. change (inject_Z 1) with 1 in R. lra.
Qed.
Lemma sum_window : forall n a room, length a = S n -> inject_Z (Z.of_nat n) < room -> room <= inject_Z (Z.of_nat n) + 1 ->
  in_window room a == qsum a - (inject_Z (Z.of_nat n) + 1 - room) * last a 0.
Proof.
  induction n as [|n IH]; intros a room L R1 R2.
  - destruct a as [|x [|y a]]; try discriminate. cbn [in_window qsum last]. change (inject_Z (Z.of_nat 0)) with 0 in *. destruct (qle 1 room) eqn:E; qprop; [assert (Z : room == 1) by lra; rewrite Z; ring|].
    rewrite qle_true by lra. ring.
  - destruct a as [|x a]; [discriminate|]. injection L as L. rewrite Nat2Z.inj_succ in R1, R2. unfold Z.succ in R1, R2. rewrite inject_Z_plus in R1, R2. change (inject_Z 1) with 1 in R1, R2.
    assert (NN : 0 <= inject_Z (Z.of_nat n)) by (change 0 with (inject_Z 0); rewrite <- Zle_Qle; lia).
    cbn [in_window qsum]. rewrite (qle_true 1 room) by lra. rewrite (IH a (room - 1) L) by lra. destruct a as [|y a]; [discriminate|]. change (last (x :: y :: a) 0) with (last (y :: a) 0).
    rewrite Nat2Z.inj_succ. unfold Z.succ. rewrite inject_Z_plus. change (inject_Z 1) with 1. ring.
Qed.
Lemma columns_pos days : 1 <= days -> exists n, columns days = S n /\ inject_Z (Qceiling days) == inject_Z (Z.of_nat n) + 1 /\ inject_Z (Z.of_nat n) < days /\ days <= inject_Z (Z.of_nat n) + 1.
Proof.
  intros D. pose proof (Qle_ceiling days) as C1. pose proof (Qceiling_lt days) as C2. unfold columns.
  assert (P : (1 <= Qceiling days)%Z) by (change 1%Z with (Qceiling 1); apply Qceiling_resp_le; exact D).
  exists (Z.to_nat (Qceiling days - 1)). split; [lia|]. rewrite Z2Nat.id by lia.
  assert (E : inject_Z (Qceiling days) == inject_Z (Qceiling days - 1) + 1) by (change 1 with (inject_Z 1); rewrite <- inject_Z_plus; replace (Qceiling days - 1 + 1)%Z with (Qceiling days) by lia; reflexivity).
  split; [exact E|]. split; [exact C2|]. lra.
Qed.
Lemma reaction_window days adj h : 1 <= days -> whole_or_far days -> reaction days adj (window (columns days) h) == in_window days h / days + adj.
Proof.
  intros D W. destruct (columns_pos days D) as (n & E & C1 & C2 & C3). rewrite E. unfold reaction. cbv zeta.
  assert (SW : in_window days (window (S n) h) == in_window days h).
  { unfold window. rewrite window_cut; [apply window_app|]. rewrite Nat2Z.inj_succ. unfold Z.succ. rewrite inject_Z_plus. change (inject_Z 1) with 1. exact C3. }
  rewrite <- SW, (sum_window n _ days (window_length _ _) C2 C3).
  destruct (qlt nearzero (inject_Z (Qceiling days) - days)) eqn:EQ; qprop; [rewrite C1; reflexivity|].
  destruct W as [W | W]; [|lra]. assert (Z : inject_Z (Z.of_nat n) + 1 - days == 0) by lra. rewrite Z. field. lra.
Qed.
Fixpoint stats (k : Z) (l : list air) : option (list Q) := match l with [] => Some [] | a :: r => match statistic k a, stats k r with Some t, Some o => Some (t :: o) | _, _ => None end end.
Lemma reactions_from days adj k : 1 <= days -> whole_or_far days -> forall l h o ts, reactions days adj k (cshift (window (columns days) h)) l = Some o -> stats k l = Some ts ->
  forall i x, nth_error o i = Some x -> x == in_window days (rev (firstn (S i) ts) ++ h) / days + adj.
Proof.
  intros D W. destruct (columns_pos days D) as (n & EC & _). induction l as [|a l IH]; intros h o ts E T i x X; cbn [reactions stats] in *; [injection E as <-; destruct i; discriminate|].
  destruct (statistic k a) as [t|]; [|discriminate]. destruct (stats k l) as [ts'|] eqn:ET; [|discriminate]. injection T as <-.
  rewrite EC, window_shift, <- EC in E. destruct (reactions days adj k (cshift (window (columns days) (t :: h))) l) as [o'|] eqn:EO; [|discriminate]. injection E as <-.
  destruct i as [|i]; cbn [nth_error] in X.
  - injection X as <-. rewrite reaction_window by assumption. reflexivity.
  - rewrite (IH (t :: h) o' ts' EO eq_refl i x X). cbn [firstn rev]. rewrite <- app_assoc. reflexivity.
Qed.
Lemma reactions_all days adj k l o ts : 1 <= days -> whole_or_far days -> reactions_run days adj k l = Some o -> stats k l = Some ts ->
  forall i x, nth_error o i = Some x -> x == in_window days (rev (firstn (S i) ts)) / days + adj.
Proof.
  intros D W E T i x X. destruct (columns_pos days D) as (n & EC & _). unfold reactions_run in E. destruct l as [|a l]; cbn [reactions stats] in *; [injection E as <-; destruct i; discriminate|].
  destruct (statistic k a) as [t|]; [|discriminate]. destruct (stats k l) as [ts'|] eqn:ET; [|discriminate]. injection T as <-.
  rewrite EC, window_start, <- EC in E. destruct (reactions days adj k (cshift (window (columns days) [t])) l) as [o'|] eqn:EO; [|discriminate]. injection E as <-.
  destruct i as [|i]; cbn [nth_error] in X.
  - injection X as <-. rewrite reaction_window by assumption. reflexivity.
  - rewrite (reactions_from days adj k D W l [t] o' ts' EO ET i x X). cbn [firstn rev]. reflexivity.
Qed.
Lemma stats_some k l : (1 <= k <= 3)%Z -> exists ts, stats k l = Some ts /\ length ts = length l.
Proof.
  intros K. induction l as [|a l (ts & E & L)]; [exists []; split; reflexivity|]. cbn [stats]. rewrite E. unfold statistic.
  destruct (k =? 1)%Z eqn:A; [eexists; split; [reflexivity|cbn; lia]|]. destruct (k =? 2)%Z eqn:B; [eexists; split; [reflexivity|cbn; lia]|]. destruct (k =? 3)%Z eqn:C; [eexists; split; [reflexivity|cbn; lia]|lia].
Qed.
(** Bounds. *)
Lemma window_bounds : forall h room lo hi, 0 <= room -> room <= inject_Z (Z.of_nat (length h)) -> Forall (fun t => lo <= t <= hi) h -> lo * room <= in_window room h <= hi * room.
Proof.
  induction h as [|t h IH]; intros room lo hi R0 R1 F.
  - cbn [length] in R1. change (inject_Z (Z.of_nat 0)) with 0 in R1. assert (Z : room == 0) by lra. cbn [in_window]. rewrite Z. split; lra.
  - inversion F as [|? ? [T1 T2] F']; subst. cbn [length] in R1. rewrite Nat2Z.inj_succ in R1. unfold Z.succ in R1. rewrite inject_Z_plus in R1. change (inject_Z 1) with 1 in R1. cbn [in_window].
    destruct (qle 1 room) eqn:E; qprop.
    + destruct (IH (room - 1) lo hi ltac:(lra) ltac:(lra) F') as [A B]. split; lra.
    + rewrite (qle_true 0 room) by lra. rewrite window_zero by lra. assert (lo * room <= t * room) by (apply Qmult_le_compat_r; assumption). assert (t * room <= hi * room) by (apply Qmult_le_compat_r; assumption). split; lra.
Qed.
Lemma window_constant : forall n room t, inject_Z (Z.of_nat n) <= room -> in_window room (repeat t n) == t * inject_Z (Z.of_nat n).
Proof.
  induction n as [|n IH]; intros room t R; [cbn [repeat in_window]; change (inject_Z (Z.of_nat 0)) with 0; ring|]. rewrite Nat2Z.inj_succ in *. unfold Z.succ in *. rewrite inject_Z_plus in *. change (inject_Z 1) with 1 in *.
  assert (NN : 0 <= inject_Z (Z.of_nat n)) by (change 0 with (inject_Z 0); rewrite <- Zle_Qle; lia).
  cbn [repeat in_window]. rewrite (qle_true 1 room) by lra. rewrite (IH (room - 1) t) by lra. ring.
Qed.

(** ** The season *)
Lemma season_app p a b s : season_days p (a ++ b) s = season_days p b (season_days p a s).
Proof. apply fold_left_app. Qed.
Lemma quiet p : forall l s, s_check s = false -> Forall (fun x => ~ first_of (p_beg p) (fst x) /\ (s_on s = true -> ~ first_of (p_end p) (fst x))) l -> season_days p l s = s.
Proof.
  unfold season_days. induction l as [|[d t] l IH]; intros s C F; [reflexivity|]. inversion F as [|? ? [F1 F2] F']; subst. cbn [fold_left fst snd] in *.
  assert (E : season_day p d t s = s).
  { unfold season_day. rewrite C. destruct (dd d =? 1)%Z eqn:D; [|reflexivity]. destruct (dm d =? p_beg p)%Z eqn:B; [exfalso; apply F1; unfold first_of; lia|].
    destruct (s_on s) eqn:O; [|reflexivity]. destruct (dm d =? p_end p)%Z eqn:N; [exfalso; apply F2; [reflexivity|unfold first_of; lia]|reflexivity]. }
  rewrite E. apply IH; assumption.
Qed.
Lemma warmed_is s t : warmed s t == s + (if qlt 0 t then t else 0).
Proof. unfold warmed. destruct (qlt 0 t); ring. Qed.
Lemma warm_nonneg l : 0 <= warmth l.
Proof. unfold warmth. induction l as [|t l IH]; cbn [map qsum]; [lra|]. destruct (qlt 0 t) eqn:E; qprop; lra. Qed.
Lemma checking p : forall l s, s_check s = true -> Forall (fun x => ~ first_of (p_beg p) (fst x) /\ ~ first_of (p_end p) (fst x)) l -> l <> [] ->
  (p_tmax p < s_sum s + warmth (map snd l) -> exists q, season_days p l s = mkSeason true false q /\ q == 0) /\
  (s_sum s + warmth (map snd l) <= p_tmax p -> s_on (season_days p l s) = s_on s /\ s_check (season_days p l s) = true /\ s_sum (season_days p l s) == s_sum s + warmth (map snd l)).
Proof.
  unfold season_days. induction l as [|[d t] l IH]; intros s C F N; [congruence|]. inversion F as [|? ? F1 F']; subst. cbn [fold_left fst snd map] in *. unfold warmth. cbn [map qsum]. fold (warmth (map snd l)).
  unfold season_day at 2 4 6 8. rewrite C. pose proof (warmed_is (s_sum s) t) as W. pose proof (warm_nonneg (map snd l)) as WN. assert (TN : 0 <= if qlt 0 t then t else 0) by (destruct (qlt 0 t) eqn:X; qprop; lra).
  destruct (qlt (p_tmax p) (warmed (s_sum s) t)) eqn:E; qprop.
  - assert (QQ : season_days p l (mkSeason true false 0) = mkSeason true false 0) by (apply quiet; [reflexivity|]; eapply Forall_impl; [|exact F']; cbn; tauto).
    unfold season_days in QQ. split; [intros _; exists 0; split; [exact QQ|reflexivity]|intros X; lra].
  - destruct l as [|y l].
    + unfold warmth in *. cbn [map qsum fold_left] in *. split; [intros X; lra|]. intros _. cbn [s_on s_check s_sum]. split; [reflexivity|]. split; [reflexivity|]. lra.
    + destruct (IH (mkSeason (s_on s) true (warmed (s_sum s) t)) eq_refl F' ltac:(discriminate)) as [A B]. cbn [s_on s_sum] in A, B. split.
      * intros X. apply A. lra.
      * intros X. destruct B as (B1 & B2 & B3); [lra|]. split; [exact B1|]. split; [exact B2|]. lra.
Qed.
Lemma checking_zero p : forall l s, s_check s = true -> Forall (fun x => ~ first_of (p_beg p) (fst x) /\ ~ first_of (p_end p) (fst x)) l -> s_check (season_days p l s) = false ->
  season_days p l s = mkSeason true false 0.
Proof.
  unfold season_days. induction l as [|[d t] l IH]; intros s C F N; [cbn in N; congruence|]. inversion F as [|? ? F1 F']; subst. cbn [fold_left fst snd] in *.
  unfold season_day at 2. unfold season_day at 2 in N. rewrite C in *. destruct (qlt (p_tmax p) (warmed (s_sum s) t)); [|apply IH; [reflexivity|exact F'|exact N]].
  apply (quiet p l (mkSeason true false 0)); [reflexivity|]. eapply Forall_impl; [|exact F']. cbn. tauto.
Qed.
(** Dates do not matter while the sum is made. *)
Lemma checking_any p : forall l s, s_check s = true -> s_sum s + warmth (map snd l) <= p_tmax p ->
  s_on (season_days p l s) = s_on s /\ s_check (season_days p l s) = true /\ s_sum (season_days p l s) == s_sum s + warmth (map snd l).
Proof.
  unfold season_days. induction l as [|[d t] l IH]; intros s C L; cbn [fold_left fst snd map] in *; unfold warmth in *; cbn [map qsum] in *; [split; [reflexivity|]; split; [exact C|ring]|].
  fold (warmth (map snd l)) in *. pose proof (warmed_is (s_sum s) t) as W. pose proof (warm_nonneg (map snd l)) as WN.
  assert (E : season_day p d t s = mkSeason (s_on s) true (warmed (s_sum s) t)) by (unfold season_day; rewrite C, qlt_false by lra; reflexivity).
  rewrite E. destruct (IH (mkSeason (s_on s) true (warmed (s_sum s) t)) eq_refl) as (A & B & D); cbn [s_sum s_on] in *; [lra|]. split; [exact A|]. split; [exact B|]. lra.
Qed.
Lemma open_day p d t : first_of (p_beg p) d -> season_day p d t rest = mkSeason false true (warmed 0 t).
Proof. intros [D M]. unfold season_day, rest. cbn [s_check s_on s_sum]. rewrite D, M, !Z.eqb_refl. reflexivity. Qed.
Lemma close_day p d t q : first_of (p_end p) d -> p_beg p <> p_end p -> season_day p d t (mkSeason true false q) = mkSeason false false q.
Proof. intros [D M] N. unfold season_day. cbn [s_check s_on s_sum]. rewrite D, M. cbn [Z.eqb]. replace (p_end p =? p_beg p)%Z with false by lia. rewrite Z.eqb_refl. reflexivity. Qed.
Lemma warmth_cons t l : warmth (t :: l) == warmed 0 t + warmth l.
Proof. unfold warmth. cbn [map qsum]. rewrite warmed_is. ring. Qed.
Lemma warmth_app a b : warmth (a ++ b) == warmth a + warmth b.
Proof. unfold warmth. induction a as [|t a IH]; cbn [app map qsum]; [ring|]. rewrite IH. ring. Qed.

(** ** Potential evaporation *)
Lemma same_day expf coef epan p dt d : forall l s, e_lday s = dd d -> Forall (fun x => e_date x = d) l ->
  pet_run expf coef epan p dt l s = (s, map (fun _ => (if qlt dt 24 then dt / 24 else 1) * e_daily s) l).
Proof.
  induction l as [|x l IH]; intros s L F; [reflexivity|]. inversion F as [|? ? F1 F']; subst. cbn [pet_run map]. unfold pet_step. rewrite L, Z.eqb_refl. rewrite (IH s L F'). reflexivity.
Qed.
Lemma own_days expf coef epan p dt : 24 <= dt -> forall l d s, Valid d -> e_lday s = dd d -> daily d (map e_date l) ->
  exists s' qs, pet_run expf coef epan p dt l s = (s', qs) /\ e_season s' = season_days p (map (fun x => (e_date x, e_max x)) l) (e_season s) /\ Forall2 (fun x q => q == own expf coef epan x) l qs.
Proof.
  intros DT. induction l as [|x l IH]; intros d s V L D; [exists s, []; repeat split; constructor|]. cbn [map daily] in D. destruct D as [D1 D]. cbn [pet_run]. unfold pet_step.
  assert (NE : (e_lday s =? dd (e_date x))%Z = false) by (rewrite D1, L; pose proof (next_dd d V); lia). rewrite NE.
  set (s1 := mkPs (dd (e_date x)) _ _). assert (V' : Valid (e_date x)) by (rewrite D1; apply (Calendar_Proofs.after_valid 1 d V)).
  destruct (IH (e_date x) s1 V' eq_refl D) as (s' & qs & E & S & F). rewrite E. exists s', ((if qlt dt 24 then dt / 24 else 1) * e_daily s1 :: qs). split; [reflexivity|]. split; [exact S|].
  constructor; [|exact F]. rewrite qlt_false by exact DT. unfold s1. cbn [e_daily]. unfold own. ring.
Qed.
Lemma stats_named k : (1 <= k <= 3)%Z -> forall l, stats k l = Some (map (named k) l).
Proof.
  intros K. induction l as [|a l IH]; [reflexivity|]. cbn [stats map]. rewrite IH. unfold statistic, named.
  destruct (k =? 1)%Z eqn:A; [reflexivity|]. destruct (k =? 2)%Z eqn:B; [reflexivity|]. replace (k =? 3)%Z with true by lia. reflexivity.
Qed.
Lemma reactions_length days adj k : (1 <= k <= 3)%Z -> forall l arr, exists o, reactions days adj k arr l = Some o /\ length o = length l.
Proof.
  intros K. induction l as [|a l IH]; intros arr; [exists []; split; reflexivity|]. cbn [reactions].
  assert (ST : exists t, statistic k a = Some t) by (unfold statistic; destruct (k =? 1)%Z eqn:A; [eauto|]; destruct (k =? 2)%Z eqn:B; [eauto|]; replace (k =? 3)%Z with true by lia; eauto).
  destruct ST as (t & ->). destruct (IH (cshift (set_first t arr))) as (o & -> & L). eexists. split; [reflexivity|]. cbn. lia.
Qed.
Lemma season_month_check : forallb (fun b => forallb (fun e => forallb (fun m =>
   Bool.eqb (s_on (season_start (mkPlant b e 0) (mkdate 2000 m 5))) (if (m =? b)%Z then false else ((0 <? (m - b) mod 12) && ((m - b) mod 12 <? (if b =? e then 12 else (e - b) mod 12)))%Z))
   (map Z.of_nat (seq 1 12))) (map Z.of_nat (seq 1 12))) (map Z.of_nat (seq 1 12)) = true.
Proof. vm_compute. reflexivity. Qed.
Lemma month_in m : (1 <= m <= 12)%Z -> In m (map Z.of_nat (seq 1 12)).
Proof. intros H. apply in_map_iff. exists (Z.to_nat m). split; [lia|]. apply in_seq. lia. Qed.
Lemma start_on p d : (1 <= p_beg p <= 12)%Z -> (1 <= p_end p <= 12)%Z -> (1 <= dm d <= 12)%Z ->
  s_on (season_start p d) = true <-> ((dm d = p_beg p /\ 10 < dd d)%Z \/ between_months (p_beg p) (p_end p) (dm d)).
Proof.
  intros B E M. pose proof season_month_check as C. rewrite forallb_forall in C. specialize (C _ (month_in _ B)). rewrite forallb_forall in C. specialize (C _ (month_in _ E)). rewrite forallb_forall in C. specialize (C _ (month_in _ M)).
  apply Bool.eqb_prop in C. unfold between_months. unfold season_start in *. cbn [p_beg p_end p_tmax dm dd] in C.
  destruct (dm d =? p_beg p)%Z eqn:MB.
  - assert (Z0 : dm d = p_beg p) by lia. rewrite Z0, Z.sub_diag. cbn [Z.modulo Z.div_eucl]. change (0 mod 12)%Z with 0%Z. destruct (10 <? dd d)%Z eqn:T; cbn [s_on]; split; intros H; try lia; try discriminate; tauto || (left; lia).
  - set (X := ((dm d - p_beg p) mod 12)%Z) in *. set (Y := ((p_end p - p_beg p) mod 12)%Z) in *. destruct (0 <? p_end p - p_beg p)%Z; cbn [s_on] in *; rewrite C; destruct (p_beg p =? p_end p)%Z; lia.
Qed.
