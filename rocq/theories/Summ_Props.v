(** C121: summaries by day, month, year and run report each step exactly once. *)
From Coq Require Import QArith Qabs ZArith Bool List Lqa Lia.
From Verif Require Import Qx Clock_Model Summ_Model Summ_Spec.
Import ListNotations.
Local Open Scope Q_scope.

Lemma decode_coded s : coded s ->
  f_day (decode (endper s)) = (2 <=? endper s)%Z /\ f_month (decode (endper s)) = (6 <=? endper s)%Z /\
  f_year (decode (endper s)) = (14 <=? endper s)%Z /\ f_run (decode (endper s)) = (30 <=? endper s)%Z.
Proof.
  unfold coded; cbn [In]; intros H.
  repeat (destruct H as [H | H]; [rewrite <- H; repeat split; reflexivity |]). destruct H.
Qed.

Lemma ends_closes s p : coded s -> (ends s p = true <-> closes s p).
Proof.
  intros H. destruct (decode_coded _ H) as (D & M & Y & _).
  unfold ends, closes. destruct p; rewrite ?D, ?M, ?Y, ?Z.leb_le; try tauto. split; [discriminate | tauto].
Qed.

Lemma run_app al ch st a b : run al ch st (a ++ b) = run al ch (run al ch st a) b.
Proof. unfold run. apply fold_left_app. Qed.
Lemma run_snoc al ch st a s : run al ch st (a ++ [s]) = run_step al ch (run al ch st a) s.
Proof. rewrite run_app. reflexivity. Qed.

Lemma nstep_run al ch l : forall st, nstep (run al ch st l) = (nstep st + Z.of_nat (length l))%Z.
Proof.
  induction l as [|s r IH]; intros st; [cbn; lia|].
  change (run al ch st (s :: r)) with (run al ch (run_step al ch st s) r). rewrite IH. cbn [run_step nstep length]. lia.
Qed.

(** What one period's accumulators hold after a segment that started cleared. *)
Fixpoint tally (al : Q -> Q) (ch : bool) (st : state) (l : list step) (q : qty) : Q :=
  match l with [] => 0 | s :: r => adds al ch st s q + tally al ch (run_step al ch st s) r q end.

Lemma tally_app al ch q a : forall st b, tally al ch st (a ++ b) q == tally al ch st a q + tally al ch (run al ch st a) b q.
Proof.
  induction a as [|s r IH]; intros st b; [cbn; ring|].
  cbn [tally app]. rewrite IH. change (run al ch st (s :: r)) with (run al ch (run_step al ch st s) r). ring.
Qed.

Lemma not_ended s p : coded s -> ~ closes s p -> ends s p = false.
Proof. intros H N. destruct (ends s p) eqn:E; auto. apply ends_closes in E; tauto. Qed.

Lemma run_nil al ch st : run al ch st [] = st.
Proof. reflexivity. Qed.
Lemma steps_kept al ch st s p : lastper st p = false -> steps (accs (run_step al ch st s) p) = (steps (accs st p) + 1)%Z.
Proof. intros L. unfold run_step, acc_step, accs. rewrite L. reflexivity. Qed.
Lemma sums_kept al ch st s p q : lastper st p = false -> sums (accs (run_step al ch st s) p) q = sums (accs st p) q + adds al ch st s q.
Proof. intros L. unfold run_step, acc_step, accs. rewrite L. reflexivity. Qed.
Lemma steps_new al ch st s p : lastper st p = true -> steps (accs (run_step al ch st s) p) = 1%Z.
Proof. intros L. unfold run_step, acc_step, accs. rewrite L. reflexivity. Qed.
Lemma sums_new al ch st s p q : lastper st p = true -> sums (accs (run_step al ch st s) p) q = 0 + adds al ch st s q.
Proof. intros L. unfold run_step, acc_step, accs. rewrite L. reflexivity. Qed.

(** Without clearing in between, accumulators grow by the tally. *)
Lemma held al ch p l : forall st, Forall coded l ->
  lastper st p = false ->
  (forall s x y, l = x ++ s :: y -> y <> [] -> ~ closes s p) ->
  steps (accs (run al ch st l) p) = (steps (accs st p) + Z.of_nat (length l))%Z /\
  (forall q, sums (accs (run al ch st l) p) q == sums (accs st p) q + tally al ch st l q).
Proof.
  induction l as [|s r IH]; intros st C L N.
  - cbn. split; [lia | intros; ring].
  - change (run al ch st (s :: r)) with (run al ch (run_step al ch st s) r).
    inversion C as [|? ? Cs Cr]; subst.
    destruct r as [|s' r'].
    + rewrite run_nil, steps_kept by assumption. split; [cbn [length]; lia|].
      intros q. rewrite sums_kept by assumption. cbn [tally]. ring.
    + assert (E : lastper (run_step al ch st s) p = false).
      { cbn [run_step lastper]. apply not_ended; [assumption|]. apply (N s [] (s' :: r')); [reflexivity | discriminate]. }
      destruct (IH (run_step al ch st s) Cr E) as [A B].
      { intros t x y D F. apply (N t (s :: x) y); [rewrite D; reflexivity | assumption]. }
      split.
      * rewrite A, steps_kept by assumption. cbn [length]. lia.
      * intros q. rewrite B, sums_kept by assumption. cbn [tally]. ring.
Qed.

Lemma lastper_at al ch junk before p : Forall coded before ->
  before = [] \/ (exists b l, before = b ++ [l] /\ closes l p) ->
  lastper (run al ch (start junk) before) p = true.
Proof.
  intros C [-> | (b & l & -> & D)]; [reflexivity|].
  rewrite run_snoc. cbn [run_step lastper]. apply ends_closes; [|assumption].
  rewrite Forall_forall in C. apply C, in_or_app. right. now left.
Qed.

Lemma current_held al ch junk p before seg : Forall coded (before ++ seg) -> current p before seg ->
  steps (accs (run al ch (start junk) (before ++ seg)) p) = Z.of_nat (length seg) /\
  (forall q, sums (accs (run al ch (start junk) (before ++ seg)) p) q == tally al ch (run al ch (start junk) before) seg q).
Proof.
  intros C (NE & B & N). apply Forall_app in C. destruct C as [Cb Cs].
  pose proof (lastper_at al ch junk before p Cb B) as L.
  rewrite run_app. set (st := run al ch (start junk) before) in *.
  destruct seg as [|s r]; [congruence|]. inversion Cs as [|? ? C1 C2]; subst.
  change (run al ch st (s :: r)) with (run al ch (run_step al ch st s) r).
  destruct r as [|s' r'].
  - rewrite run_nil, steps_new by assumption. split; [reflexivity|]. intros q. rewrite sums_new by assumption. cbn [tally]. ring.
  - assert (E : lastper (run_step al ch st s) p = false).
    { cbn [run_step lastper]. apply not_ended; [assumption|]. apply (N s [] (s' :: r')); [reflexivity | discriminate]. }
    destruct (held al ch p (s' :: r') (run_step al ch st s) C2 E) as [A D].
    { intros t x y F G. apply (N t (s :: x) y); [rewrite F; reflexivity | assumption]. }
    split.
    + rewrite A, steps_new by assumption. cbn [length]. lia.
    + intros q. rewrite D, sums_new by assumption. cbn [tally]. ring.
Qed.

Definition plain (q : qty) : Prop := match q with Bal | Obj _ => False | _ => True end.

Lemma adds_amount al st s q : plain q -> adds al true st s q = amount s q.
Proof. destruct q as [| | |f| |j|w|w t|m j]; cbn [plain adds amount]; try reflexivity; try tauto. Qed.

Lemma tally_amount al q : plain q -> forall l st, tally al true st l q == qsum (map (fun s => amount s q) l).
Proof.
  intros P. induction l as [|s r IH]; intros st; [reflexivity|]. cbn [tally map qsum]. rewrite IH, adds_amount by assumption. reflexivity.
Qed.

(** C121: the totals of the current day, month, year and of the run are the sums over the steps of that period, every one counted once
    and none of an earlier period. *)
Theorem C121_totals : forall alog junk p before seg q,
  Forall coded (before ++ seg) -> current p before seg -> plain q ->
  let a := accs (run alog true (start junk) (before ++ seg)) p in
  steps a = Z.of_nat (length seg) /\ sums a q == qsum (map (fun s => amount s q) seg).
Proof.
  intros al junk p before seg q C U P a. destruct (current_held al true junk p before seg C U) as [A B].
  split; [exact A|]. unfold a. rewrite B. now apply tally_amount.
Qed.
Print Assumptions C121_totals.

(** C121: radiation and discharge of a period are means over its steps. *)
Theorem C121_means : forall alog junk p before seg q,
  Forall coded (before ++ seg) -> current p before seg -> plain q ->
  let a := accs (run alog true (start junk) (before ++ seg)) p in
  mean a q * inject_Z (Z.of_nat (length seg)) == qsum (map (fun s => amount s q) seg).
Proof.
  intros al junk p before seg q C U P a. destruct (C121_totals al junk p before seg q C U P) as [A B]. fold a in A, B.
  unfold mean. rewrite A, <- B. field.
  destruct U as (NE & _). destruct seg; [congruence|]. intros F.
  change 0 with (inject_Z 0) in F. apply (proj1 (inject_Z_injective _ _)) in F. cbn [length] in F. lia.
Qed.
Print Assumptions C121_means.

Lemma run_extremes al ch p l : forall st, Forall coded l -> lastper st p = false ->
  (forall s x y, l = x ++ s :: y -> y <> [] -> ~ closes s p) ->
  let a := accs st p in let b := accs (run al ch st l) p in
  (tmx b = tmx a \/ In (tmx b) (map tmaxc l)) /\ tmx a <= tmx b /\ Forall (fun s => tmaxc s <= tmx b) l /\
  (tmn b = tmn a \/ In (tmn b) (map tminc l)) /\ tmn b <= tmn a /\ Forall (fun s => tmn b <= tminc s) l.
Proof.
  induction l as [|s r IH]; intros st C L N a b.
  - unfold b, a. rewrite run_nil. repeat split; auto using Qle_refl.
  - inversion C as [|? ? Cs Cr]; subst.
    set (st1 := run_step al ch st s) in *.
    assert (H1 : (tmx (accs st1 p) = tmx a \/ tmx (accs st1 p) = tmaxc s) /\ tmx a <= tmx (accs st1 p) /\ tmaxc s <= tmx (accs st1 p) /\
                 (tmn (accs st1 p) = tmn a \/ tmn (accs st1 p) = tminc s) /\ tmn (accs st1 p) <= tmn a /\ tmn (accs st1 p) <= tminc s).
    { unfold st1, a, run_step, acc_step, accs. rewrite L. cbn [tmx tmn]. fold (accs st p).
      destruct (qlt (tmx (accs st p)) (tmaxc s)) eqn:E1, (qlt (tminc s) (tmn (accs st p))) eqn:E2; qprop; repeat split; auto; lra. }
    destruct r as [|s' r'].
    + subst b. cbn [run fold_left]. fold st1. destruct H1 as (A & B & D & E & F & G).
      repeat split; auto; cbn [map In]; try (destruct A as [A | A]; rewrite A; auto); try (destruct E as [E | E]; rewrite E; auto).
    + assert (E1 : lastper st1 p = false).
      { unfold st1. cbn [run_step lastper]. apply not_ended; [assumption|]. apply (N s [] (s' :: r')); [reflexivity | discriminate]. }
      destruct (IH st1 Cr E1) as (A & B & D & E & F & G).
      { intros t x y H I. apply (N t (s :: x) y); [rewrite H; reflexivity | assumption]. }
      change (run al ch st (s :: s' :: r')) with (run al ch st1 (s' :: r')) in b. fold b in A, B, D, E, F, G.
      destruct H1 as (A1 & B1 & D1 & F1 & G1 & I1).
      assert (K1 : tmx b = tmx a \/ In (tmx b) (map tmaxc (s :: s' :: r'))).
      { destruct A as [A | A]; [|right; right; exact A]. rewrite A. destruct A1 as [A1 | A1]; rewrite A1; [now left | right; now left]. }
      assert (K2 : tmn b = tmn a \/ In (tmn b) (map tminc (s :: s' :: r'))).
      { destruct E as [E | E]; [|right; right; exact E]. rewrite E. destruct F1 as [F1 | F1]; rewrite F1; [now left | right; now left]. }
      split; [exact K1|]. split; [lra|]. split; [constructor; [lra | exact D]|].
      split; [exact K2|]. split; [lra|]. constructor; [lra | exact G].
Qed.

(** C121: the highest and lowest temperature of a period are those of one of its steps and bound those of all of its steps, as long
    as temperatures stay within the values the accumulators start from. *)
Theorem C121_extremes : forall alog chem junk p before seg,
  Forall coded (before ++ seg) -> current p before seg ->
  Forall (fun s => -(999 # 1) < tmaxc s /\ tminc s < 999 # 1) seg ->
  let a := accs (run alog chem (start junk) (before ++ seg)) p in
  In (tmx a) (map tmaxc seg) /\ Forall (fun s => tmaxc s <= tmx a) seg /\
  In (tmn a) (map tminc seg) /\ Forall (fun s => tmn a <= tminc s) seg.
Proof.
  intros al ch junk p before seg C (NE & B & N) R. cbv zeta. apply Forall_app in C. destruct C as [Cb Cs].
  pose proof (lastper_at al ch junk before p Cb B) as L.
  rewrite run_app. set (st := run al ch (start junk) before) in *.
  destruct seg as [|s r]; [congruence|]. inversion Cs as [|? ? C1 C2]; subst. inversion R as [|? ? [R1 R2] R3]; subst.
  set (st1 := run_step al ch st s).
  change (run al ch st (s :: r)) with (run al ch st1 r).
  assert (H1 : tmx (accs st1 p) = tmaxc s /\ tmn (accs st1 p) = tminc s).
  { unfold st1, run_step, acc_step, accs. rewrite L. cbn [tmx tmn zeroed]. rewrite !qlt_true by assumption. auto. }
  destruct H1 as [H1 H2].
  destruct r as [|s' r'].
  - cbn [run fold_left map In]. rewrite H1, H2. repeat split; auto; constructor; auto; lra.
  - assert (E1 : lastper st1 p = false).
    { unfold st1. cbn [run_step lastper]. apply not_ended; [assumption|]. apply (N s [] (s' :: r')); [reflexivity | discriminate]. }
    destruct (run_extremes al ch p (s' :: r') st1 C2 E1) as (A & D & E & F & G & I1).
    { intros t x y H I. apply (N t (s :: x) y); [rewrite H; reflexivity | assumption]. }
    rewrite H1 in A, D. rewrite H2 in F, G.
    repeat split.
    + destruct A as [A | A]; [rewrite A; left; reflexivity | right; exact A].
    + constructor; assumption.
    + destruct F as [F | F]; [rewrite F; left; reflexivity | right; exact F].
    + constructor; assumption.
Qed.
Print Assumptions C121_extremes.

Lemma last_known al ch junk b z : last_sto (run al ch (start junk) (b ++ [z])) = sto z /\
  last_chan (run al ch (start junk) (b ++ [z])) = chan_sto z.
Proof. rewrite run_snoc. split; reflexivity. Qed.

Lemma balance_later al ch junk b z s :
  balance (run al ch (start junk) (b ++ [z])) s == net s + land z - land s.
Proof.
  unfold balance. rewrite nstep_run, app_length. cbn [start nstep length].
  destruct (0 + Z.of_nat (length b + 1) + 1 =? 1)%Z eqn:E; [apply Z.eqb_eq in E; lia|].
  destruct (last_known al ch junk b z) as [-> ->]. unfold net, land. ring.
Qed.

Lemma tally_balance al ch junk seg : forall b z,
  tally al ch (run al ch (start junk) (b ++ [z])) seg Bal ==
  qsum (map net seg) + land z - land (last seg z).
Proof.
  induction seg as [|s r IH]; intros b z; [cbn; ring|].
  cbn [tally map qsum adds]. rewrite <- run_snoc. rewrite (IH (b ++ [z]) s). rewrite balance_later.
  replace (last (s :: r) z) with (last r s); [ring|].
  destruct r as [|s' r']; [reflexivity|]. clear. revert s s'. induction r' as [|x r' IH]; intros; [reflexivity|].
  change (last (s' :: x :: r') s) with (last (x :: r') s). change (last (s :: s' :: x :: r') z) with (last (s' :: x :: r') z).
  rewrite (IH s x). change (last (s :: x :: r') z) with (last (x :: r') z).
  change (last (s' :: x :: r') z) with (last (x :: r') z). reflexivity.
Qed.

(** C121: the water balance of a period that does not begin with the run is what came in less what went out, plus the water on the
    land before the period less that at its end. *)
Theorem C121_balance : forall alog chem junk p before z seg,
  Forall coded ((before ++ [z]) ++ seg) -> current p (before ++ [z]) seg ->
  sums (accs (run alog chem (start junk) ((before ++ [z]) ++ seg)) p) Bal
  == qsum (map net seg) + land z - land (last seg z).
Proof.
  intros al ch junk p before z seg C U. destruct (current_held al ch junk p _ _ C U) as [_ B]. rewrite B. apply tally_balance.
Qed.
Print Assumptions C121_balance.

Lemma kept_sum seg : forall z, kept z seg ->
  qsum (map net seg) + land z - land (last seg z) == qsum (map (fun s => depth s ChanDiv - depth s IrrHyd) seg).
Proof.
  induction seg as [|s r IH]; intros z K; [cbn; ring|].
  cbn [kept] in K. destruct K as [(B1 & B2 & B3) K]. cbn [map qsum]. rewrite <- (IH s K).
  replace (last (s :: r) z) with (last r s).
  - unfold net, land in *. lra.
  - destruct r as [|s' r']; [reflexivity|]. clear. revert s s'. induction r' as [|x r' IH]; intros; [reflexivity|].
    change (last (s' :: x :: r') s) with (last (x :: r') s). change (last (s :: s' :: x :: r') z) with (last (s' :: x :: r') z).
    rewrite (IH s x). reflexivity.
Qed.

(** C121: with the books of the reservoirs kept, the reported error of the water balance of a period is the water taken from channels
    for irrigation less the water from channels put on the land in the same period: it is zero if both are the same. *)
Theorem C121_error : forall alog chem junk p before z seg,
  Forall coded ((before ++ [z]) ++ seg) -> current p (before ++ [z]) seg -> kept z seg ->
  sums (accs (run alog chem (start junk) ((before ++ [z]) ++ seg)) p) Bal
  == qsum (map (fun s => depth s ChanDiv - depth s IrrHyd) seg).
Proof. intros al ch junk p before z seg C U K. rewrite (C121_balance al ch junk p before z seg C U). now apply kept_sum. Qed.
Print Assumptions C121_error.

(** C121 finding: the reported error of the water balance of the first step is zero whatever the step did: an error there never shows,
    in the totals of the first day, month and year or in those of the run. *)
Theorem C121_first_step_refuted : forall alog chem junk p s,
  coded s -> sums (accs (run alog chem (start junk) [s]) p) Bal == 0.
Proof. intros al ch junk p s _. cbn. unfold balance. cbn. ring. Qed.
Print Assumptions C121_first_step_refuted.

(** C121: the run's total of the errors is that of all steps after the first. *)
Theorem C121_run_error : forall alog chem junk z seg,
  Forall coded (z :: seg) -> kept z seg ->
  sums (accs (run alog chem (start junk) (z :: seg)) Run) Bal == qsum (map (fun s => depth s ChanDiv - depth s IrrHyd) seg).
Proof.
  intros al ch junk z seg C K.
  destruct (current_held al ch junk Run [] (z :: seg) C) as [_ B].
  { repeat split; [discriminate | now left | intros s x y _ _ H; exact H]. }
  cbn [app] in B. rewrite B. cbn [tally run fold_left].
  change (run_step al ch (start junk) z) with (run al ch (start junk) ([] ++ [z])).
  rewrite tally_balance, kept_sum by assumption. cbn [adds]. unfold balance. cbn. ring.
Qed.
Print Assumptions C121_run_error.

(** C121: without a chemical simulation the totals of water are the same, and those of chemistry are zero. *)
Theorem C121_water_only : forall alog junk p before seg q,
  Forall coded (before ++ seg) -> current p before seg ->
  match q with Rad | QsimS | QobsS | Depth _ => True | _ => False end ->
  let a := accs (run alog false (start junk) (before ++ seg)) p in
  steps a = Z.of_nat (length seg) /\ sums a q == qsum (map (fun s => amount s q) seg) /\
  forall w t m j, sums a (Vol w) == 0 /\ sums a (Wtd w t) == 0 /\ sums a (Mol m j) == 0.
Proof.
  intros al junk p before seg q C U P a. destruct (current_held al false junk p before seg C U) as [A B].
  split; [exact A|]. split.
  - unfold a. rewrite B. generalize (run al false (start junk) before). clear - P.
    induction seg as [|s r IH]; intros st; [reflexivity|]. cbn [tally map qsum]. rewrite IH.
    destruct q; cbn [adds amount] in *; try tauto; reflexivity.
  - assert (Z : forall q', (forall st s, adds al false st s q' = 0) -> sums a q' == 0).
    { intros q' H. unfold a. rewrite B. generalize (run al false (start junk) before).
      clear - H. induction seg as [|s r IH]; intros st; [reflexivity|]. cbn [tally]. rewrite IH, H. ring. }
    intros; repeat split; apply Z; reflexivity.
Qed.
Print Assumptions C121_water_only.

(** C121: the sums of differences between observed and simulated discharge are those of the steps of the period; absolute and squared
    differences are never below zero, and the absolute ones bound the plain one. *)
Theorem C121_objectives : forall alog chem junk p before seg,
  Forall coded (before ++ seg) -> current p before seg ->
  let a := accs (run alog chem (start junk) (before ++ seg)) p in
  sums a (Obj 1) == qsum (map (fun s => Qabs.Qabs (qobs_m3s s - qsim_m3s s)) seg) /\
  sums a (Obj 2) == qsum (map (fun s => (qobs_m3s s - qsim_m3s s) * (qobs_m3s s - qsim_m3s s)) seg) /\
  sums a (Obj 3) == qsum (map (fun s => Qabs.Qabs (alog (qobs_m3s s + 1) - alog (qsim_m3s s + 1))) seg) /\
  sums a (Obj 4) == qsum (map (fun s => (alog (qobs_m3s s + 1) - alog (qsim_m3s s + 1)) * (alog (qobs_m3s s + 1) - alog (qsim_m3s s + 1))) seg) /\
  sums a (Obj 5) == qsum (map (fun s => qobs_m3s s - qsim_m3s s) seg).
Proof.
  intros al ch junk p before seg C U a. destruct (current_held al ch junk p before seg C U) as [_ B].
  assert (G : forall j f, (forall s, objective al s j == f s) -> sums a (Obj j) == qsum (map f seg)).
  { intros j f H. unfold a. rewrite B. generalize (run al ch (start junk) before). clear - H.
    induction seg as [|s r IH]; intros st; [reflexivity|]. cbn [tally map qsum adds]. rewrite IH, H. reflexivity. }
  assert (ABS : forall x, qabs x == Qabs.Qabs x).
  { intros x. unfold qabs. destruct (qlt x 0) eqn:E; qprop.
    - rewrite Qabs.Qabs_neg by lra. reflexivity.
    - rewrite Qabs.Qabs_pos by lra. reflexivity. }
  repeat split; apply G; intros s; cbn [objective]; try reflexivity; apply ABS.
Qed.
Print Assumptions C121_objectives.

Lemma lines_of_app p a b : lines_of p (a ++ b) = lines_of p a ++ lines_of p b.
Proof. unfold lines_of. apply flat_map_app. Qed.

Lemma qsum_app' (l : list Q) : forall m, qsum (l ++ m) == qsum l + qsum m.
Proof. induction l as [|x l IH]; intros m; cbn [app qsum]; [ring | rewrite IH; ring]. Qed.

Lemma lines_here w ts st' s p : coded s -> wanted w ts p -> p <> Run ->
  lines_of p (lines w ts st' s) = if ends s p then [accs st' p] else [].
Proof.
  intros C W N. unfold lines, ends. destruct (decode (endper s)) as [fs fd fm fy fr]. cbn [f_day f_month f_year f_run].
  rewrite !lines_of_app.
  destruct p; cbn [wanted] in W; try tauto; try congruence.
  - destruct W as [W1 W2]. rewrite W1, (qlt_true _ _ W2). destruct (uprt w), fd, fm, (mprt w), fy, (yprt w), fr, (tprt w); reflexivity.
  - rewrite W. destruct (uprt w), (dprt w), (qlt ts 24), fd, fm, fy, (yprt w), fr, (tprt w); reflexivity.
  - rewrite W. destruct (uprt w), (dprt w), (qlt ts 24), fd, fm, fy, (mprt w), fr, (tprt w); reflexivity.
Qed.

Lemma lines_of_run w ts st' s : coded s -> wanted w ts Run ->
  lines_of Run (lines w ts st' s) = if (30 <=? endper s)%Z then [accs st' Run] else [].
Proof.
  intros C W. destruct (decode_coded _ C) as (_ & _ & _ & R). rewrite <- R. unfold lines.
  destruct (decode (endper s)) as [fs fd fm fy fr]. cbn [f_day f_month f_year f_run wanted] in *. rewrite !lines_of_app, W.
  destruct (uprt w), (dprt w), (qlt ts 24), fd, fm, fy, (mprt w), (yprt w), fr; reflexivity.
Qed.

(** What is printed for a period, plus what it holds, is the tally. *)
Lemma printed_and_held al ch w ts p l : wanted w ts p -> p <> Run -> forall st, Forall coded l ->
  forall q,
  qsum (map (fun a => sums a q) (lines_of p (print_all al ch w ts st l)))
  + (if lastper (run al ch st l) p then 0 else sums (accs (run al ch st l) p) q)
  == (if lastper st p then 0 else sums (accs st p) q) + tally al ch st l q.
Proof.
  intros W N. induction l as [|s r IH]; intros st C q; [cbn; ring|].
  inversion C as [|? ? Cs Cr]; subst.
  change (run al ch st (s :: r)) with (run al ch (run_step al ch st s) r).
  cbn [print_all tally]. rewrite lines_of_app, map_app, qsum_app', (lines_here w ts _ s p Cs W N).
  specialize (IH (run_step al ch st s) Cr q).
  assert (D : sums (accs (run_step al ch st s) p) q == (if lastper st p then 0 else sums (accs st p) q) + adds al ch st s q).
  { destruct (lastper st p) eqn:L; [rewrite sums_new by assumption | rewrite sums_kept by assumption]; ring. }
  change (lastper (run_step al ch st s) p) with (ends s p) in IH.
  destruct (ends s p); cbn [map qsum]; rewrite D in *; lra.
Qed.

(** C121: the lines printed for the days of a run that has reached its end add up to the run's totals; so do the lines of its months,
    and those of its years, in every column that is a sum. *)
Theorem C121_lines_add_up : forall alog chem junk w timestep p l z q,
  wanted w timestep p -> p <> Run -> Forall coded (l ++ [z]) -> last_of_run z ->
  let st := run alog chem (start junk) (l ++ [z]) in
  qsum (map (fun a => sums a q) (lines_of p (print_all alog chem w timestep (start junk) (l ++ [z])))) == sums (accs st Run) q.
Proof.
  intros al ch junk w ts p l z q W N C Z st.
  pose proof (printed_and_held al ch w ts p (l ++ [z]) W N (start junk) C q) as H. fold st in H.
  destruct (current_held al ch junk Run [] (l ++ [z]) C) as [_ B].
  { repeat split; [destruct l; discriminate | now left | intros s x y _ _ F; exact F]. }
  specialize (B q). change (run al ch (start junk) ([] ++ l ++ [z])) with st in B.
  change (run al ch (start junk) []) with (start junk) in B. rewrite B.
  assert (L : lastper st p = true).
  { unfold st. rewrite run_snoc. cbn [run_step lastper]. apply ends_closes.
    - rewrite Forall_forall in C. apply C, in_or_app. right. now left.
    - unfold closes, last_of_run in *. destruct p; cbn [wanted] in W; try tauto; try congruence; lia. }
  rewrite L in H. cbn [start lastper] in H. lra.
Qed.
Print Assumptions C121_lines_add_up.

(** C121: one line for the run is printed, at its end, with the totals of all of its steps. *)
Theorem C121_run_line : forall alog chem junk w timestep l z,
  wanted w timestep Run -> Forall coded (l ++ [z]) -> Forall (fun s => ~ last_of_run s) l -> last_of_run z ->
  lines_of Run (print_all alog chem w timestep (start junk) (l ++ [z])) = [accs (run alog chem (start junk) (l ++ [z])) Run].
Proof.
  intros al ch junk w ts l z W C F Z. generalize (start junk). revert C F. induction l as [|s r IH]; intros C F st.
  - cbn [app print_all]. rewrite app_nil_r. inversion C; subst. rewrite lines_of_run by assumption.
    unfold last_of_run in Z. rewrite (proj2 (Z.leb_le _ _) Z). reflexivity.
  - cbn [app print_all]. rewrite lines_of_app. cbn [app] in C. inversion C; subst. inversion F as [|? ? F1 F2]; subst.
    rewrite lines_of_run by assumption. unfold last_of_run in F1.
    destruct (30 <=? endper s)%Z eqn:E; [apply Z.leb_le in E; tauto|]. cbn [app].
    rewrite IH by assumption. reflexivity.
Qed.
Print Assumptions C121_run_line.

Lemma qsum_bounds {A} (f g : A -> Q) l lo hi : (forall x, In x l -> 0 <= g x /\ lo <= f x /\ f x <= hi) ->
  lo * qsum (map g l) <= qsum (map (fun x => f x * g x) l) /\ qsum (map (fun x => f x * g x) l) <= hi * qsum (map g l).
Proof.
  induction l as [|x r IH]; intros H; cbn [map qsum]; [lra|].
  destruct (H x (or_introl eq_refl)) as (A1 & A2 & A3). destruct IH as [I1 I2]; [intros y Y; apply H; now right|].
  assert (lo * g x <= f x * g x) by (apply Qmult_le_compat_r; assumption).
  assert (f x * g x <= hi * g x) by (apply Qmult_le_compat_r; assumption).
  lra.
Qed.

(** C121: the average temperature, pH or isotopic value of a water over a period lies between the lowest and the highest value of its
    steps, if some of that water flowed. *)
Theorem C121_weighted : forall alog junk p before seg w t lo hi,
  Forall coded (before ++ seg) -> current p before seg ->
  (forall s, In s seg -> 0 <= vol s w /\ lo <= val s w t /\ val s w t <= hi) ->
  (exists s, In s seg /\ 0 < vol s w) ->
  let a := accs (run alog true (start junk) (before ++ seg)) p in
  exists x, weighted a w t = Number x /\ lo <= x /\ x <= hi /\
    x * qsum (map (fun s => vol s w) seg) == qsum (map (fun s => val s w t * vol s w) seg).
Proof.
  intros al junk p before seg w t lo hi C U H (s & S1 & S2) a.
  destruct (C121_totals al junk p before seg (Vol w) C U Logic.I) as [_ V].
  destruct (C121_totals al junk p before seg (Wtd w t) C U Logic.I) as [_ X]. fold a in V, X. cbn [amount] in V, X.
  assert (P : 0 < qsum (map (fun s => vol s w) seg)).
  { clear - H S1 S2. induction seg as [|x r IH]; [destruct S1|].
    assert (Z : 0 <= qsum (map (fun s => vol s w) r)).
    { clear - H. induction r as [|y r IH]; cbn [map qsum]; [lra|].
      assert (0 <= vol y w) by (apply H; right; now left).
      assert (0 <= qsum (map (fun s => vol s w) r)) by (apply IH; intros s0 S0; apply H; destruct S0; [left; assumption | right; right; assumption]). lra. }
    cbn [map qsum]. destruct S1 as [-> | S1]; [lra|].
    assert (0 <= vol x w) by (apply H; now left).
    assert (0 < qsum (map (fun s => vol s w) r)) by (apply IH; [intros; apply H; now right | assumption]). lra. }
  destruct (qsum_bounds (fun s => val s w t) (fun s => vol s w) seg lo hi H) as [B1 B2].
  unfold weighted. rewrite qeq_false by (rewrite V; lra).
  exists (sums a (Wtd w t) / sums a (Vol w)). split; [reflexivity|]. rewrite X, V.
  split; [apply Qle_shift_div_l; assumption|]. split; [apply Qle_shift_div_r; assumption|]. field. lra.
Qed.
Print Assumptions C121_weighted.

(** C121: a period without any input shows "NA" for the average values of the input. *)
Theorem C121_no_input : forall alog junk p before seg t,
  Forall coded (before ++ seg) -> current p before seg ->
  (forall s, In s seg -> vol s Input == 0) ->
  weighted (accs (run alog true (start junk) (before ++ seg)) p) Input t = NotAvailable.
Proof.
  intros al junk p before seg t C U H.
  destruct (C121_totals al junk p before seg (Vol Input) C U Logic.I) as [_ V]. cbn [amount] in V.
  unfold weighted. rewrite qeq_true; [reflexivity|]. rewrite V. clear - H.
  induction seg as [|s r IH]; [reflexivity|]. cbn [map qsum]. rewrite IH by (intros; apply H; now right).
  rewrite (H s) by now left. ring.
Qed.
Print Assumptions C121_no_input.

(** C121 finding: only the averages of the input are guarded.  A month, year or run without evaporation, without outflow or with a dry
    outlet divides by a volume of zero when its line is printed. *)
Theorem C121_no_output_refuted : forall alog junk p before seg w t,
  Forall coded (before ++ seg) -> current p before seg -> w <> Input ->
  (forall s, In s seg -> vol s w == 0) ->
  weighted (accs (run alog true (start junk) (before ++ seg)) p) w t = DividedByZero.
Proof.
  intros al junk p before seg w t C U N H.
  destruct (C121_totals al junk p before seg (Vol w) C U Logic.I) as [_ V]. cbn [amount] in V.
  unfold weighted. rewrite qeq_true; [destruct w; congruence|]. rewrite V. clear - H.
  induction seg as [|s r IH]; [reflexivity|]. cbn [map qsum]. rewrite IH by (intros; apply H; now right).
  rewrite (H s) by now left. ring.
Qed.
Print Assumptions C121_no_output_refuted.

(** C121: the print frequency is the sum of 16 for steps, 8 for days, 4 for months, 2 for years and 1 for the run; with steps of a
    day or longer the days are printed as steps. *)
Theorem C121_switches : forall u d m y t timestep,
  let b (x : bool) (k : Z) := if x then k else 0%Z in
  decode_freq (b u 16 + b d 8 + b m 4 + b y 2 + b t 1)%Z timestep
  = {| uprt := u || (d && qle 24 timestep); dprt := d; mprt := m; yprt := y; tprt := t |}.
Proof. intros [] [] [] [] [] ts b; reflexivity. Qed.
Print Assumptions C121_switches.

Lemma units_app a b : units_of (a ++ b) = units_of a ++ units_of b.
Proof. unfold units_of. apply flat_map_app. Qed.

(** C121: with daily printing and steps of a day or longer each step is printed once and in order. *)
Theorem C121_daily_steps : forall alog chem st d m y t timestep l,
  24 <= timestep -> d = true ->
  let b (x : bool) (k : Z) := if x then k else 0%Z in
  let w := decode_freq (b d 8 + b m 4 + b y 2 + b t 1)%Z timestep in
  units_of (print_all alog chem w timestep st l) = l /\ lines_of Day (print_all alog chem w timestep st l) = [].
Proof.
  intros al ch st d m y t ts l T -> b w.
  assert (W : uprt w = true) by (unfold w, b; destruct m, y, t; cbn; apply qle_true; assumption).
  assert (Q : qlt ts 24 = false) by (apply qlt_false; assumption).
  revert st. clearbody w. induction l as [|s r IH]; intros st; [split; reflexivity|].
  cbn [print_all]. destruct (IH (run_step al ch st s)) as [A B].
  rewrite units_app, lines_of_app, A, B. unfold lines. rewrite W, Q.
  destruct (decode (endper s)) as [fs fd fm fy fr]. cbn [f_day f_month f_year f_run].
  destruct fd, fm, fy, fr, (dprt w), (mprt w), (yprt w), (tprt w); split; reflexivity.
Qed.
Print Assumptions C121_daily_steps.

(** C121 finding: a print frequency above 31 is not refused: all lines but that of the run are printed, whether or not the frequency
    contains the 1 that stands for it. *)
Theorem C121_frequency_refuted : forall k timestep, (32 <= k)%Z ->
  decode_freq k timestep = {| uprt := true; dprt := true; mprt := true; yprt := true; tprt := false |}.
Proof.
  intros k ts H. unfold decode_freq. cbv zeta.
  rewrite (proj2 (Z.leb_le 16 k)) by lia. rewrite (proj2 (Z.leb_le 8 (k - 16))) by lia.
  rewrite (proj2 (Z.leb_le 4 (k - 16 - 8))) by lia. rewrite (proj2 (Z.leb_le 2 (k - 16 - 8 - 4))) by lia.
  rewrite (proj2 (Z.eqb_neq (k - 16 - 8 - 4 - 2) 1)) by lia. reflexivity.
Qed.
Print Assumptions C121_frequency_refuted.

(** C121: printed radiation is within a quarter of a percent of langleys a day (41840 J/m2 in 86400 s) as watts per square metre. *)
Theorem C121_watts : forall alog chem st s, 0 <= orad s ->
  let exact := orad s * (41840 # 86400) in
  exact * (9975 # 10000) <= adds alog chem st s Rad /\ adds alog chem st s Rad <= exact.
Proof. intros al ch st s H exact. unfold exact, adds, Ld2Wm2. split; lra. Qed.
Print Assumptions C121_watts.

(** C121: the reported error of a day of one step shows every difference between the water withdrawn from channels and the water from
    channels put on the land. *)
Theorem C121_error_shows : forall alog chem junk before z s,
  Forall coded ((before ++ [z]) ++ [s]) -> closes z Day -> books z s -> ~ depth s ChanDiv == depth s IrrHyd ->
  ~ sums (accs (run alog chem (start junk) ((before ++ [z]) ++ [s])) Day) Bal == 0.
Proof.
  intros al ch junk before z s C D B N. rewrite (C121_error al ch junk Day before z [s] C).
  - cbn [map qsum]. lra.
  - split; [discriminate|]. split; [right; exists before, z; auto|].
    intros t x y E F. destruct x as [|x1 x2]; [injection E as _ <-; congruence | destruct x2; discriminate].
  - cbn [kept]. auto.
Qed.
Print Assumptions C121_error_shows.

(** A run of four steps of half a day that ends after two days: hypotheses of the theorems hold of it. *)
Definition ex_step (e : Z) (x : Q) : step :=
  {| endper := e; orad := 400 * x; tmaxc := 10 + x; tminc := x; potet_in := x; depth := fun f => match f with Ppt => x | Stflow => x | QsimCm => x | _ => 0 end;
     sto := 100; chan_sto := 5; qsim_m3s := x; qobs_m3s := x + 1; vol := fun w => match w with Vapor => 0 | _ => x end;
     val := fun _ _ => x; mol := fun _ _ => x |}.
Definition ex_run : list step := [ex_step 0 1; ex_step 2 2; ex_step 0 3; ex_step 30 4].
Definition ex_junk : period -> acc := fun _ => {| steps := 77; tmx := 5; tmn := 5; sums := fun _ => 13 |}.

Example ex_current : Forall coded ex_run /\ current Day [ex_step 0 1; ex_step 2 2] [ex_step 0 3; ex_step 30 4] /\
  current Run [] ex_run /\ kept (ex_step 0 1) [ex_step 2 2; ex_step 0 3; ex_step 30 4].
Proof.
  split; [repeat (apply Forall_cons; [unfold coded; cbn; lia|]); apply Forall_nil|]. split; [|split].
  - split; [discriminate|]. split.
    + right. exists [ex_step 0 1], (ex_step 2 2). split; [reflexivity|]. cbn. lia.
    + intros s x y E F. destruct x as [|a x]; [injection E as <- <-; cbn; lia|].
      destruct x as [|b x]; [injection E as _ <- <-; congruence | destruct x; discriminate].
  - split; [discriminate|]. split; [now left|]. intros s x y _ _ H. exact H.
  - cbn [kept]. unfold books; cbn. repeat split; lra.
Qed.

Example ex_lines :
  let out := print_all (fun x => x) true (decode_freq 31 12) 12 (start ex_junk) ex_run in
  map (fun a => Qred (sums a (Depth Ppt))) (lines_of Day out) = [3; 7]
  /\ map (fun a => Qred (sums a (Depth Ppt))) (lines_of Run out) = [10]
  /\ map (fun a => weighted a Vapor Temp) (lines_of Month out) = [DividedByZero]
  /\ length (units_of out) = 4%nat.
Proof. vm_compute. auto. Qed.
