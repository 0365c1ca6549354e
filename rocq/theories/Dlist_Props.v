(** C128: periods made from a series in TSPROC. *)
From Coq Require Import List ZArith Bool Arith Lia Permutation Sorted.
From Verif Require Import Tsdate_Model Tsdate_Spec Tsdate_Props Dlist_Model Dlist_Spec.
Import ListNotations.
Local Open Scope Z_scope.

Lemma day_ok d : 1721426 <= d -> Valid (gregorian_date d) /\ julian_day (gregorian_date d) = d.
Proof. intros H. assert (V : Valid (mkdate 1 1 1)) by (unfold Valid; cbn; lia). now apply (proj2 (proj2 (C123_numbers _ V))). Qed.
Lemma in_month_falls y m d : 1721426 <= d -> (in_month y m d = true <-> Falls y m d).
Proof.
  intros H. destruct (day_ok d H) as [V J]. unfold in_month. rewrite andb_true_iff, !Z.eqb_eq. split.
  - intros [Y M]. exists (da (gregorian_date d)). destruct (gregorian_date d) as [y' m' k]. cbn in *. subst. split; [exact V | reflexivity].
  - intros (k & V' & <-). rewrite (proj1 (C123_numbers _ V')). split; reflexivity.
Qed.
Lemma in_year_falls y d : 1721426 <= d -> (in_year y d = true <-> exists m, Falls y m d).
Proof.
  intros H. unfold in_year. rewrite Z.eqb_eq. split.
  - intros Y. exists (mo (gregorian_date d)). apply in_month_falls; [exact H|]. unfold in_month. now rewrite Y, !Z.eqb_refl.
  - intros [m F]. apply in_month_falls in F; [|exact H]. unfold in_month in F. apply andb_true_iff in F. now apply Z.eqb_eq.
Qed.
Lemma filter_perm (f : Z -> bool) l : Permutation l (filter f l ++ filter (fun x => negb (f x)) l).
Proof.
  induction l as [|x l IH]; [reflexivity|]. cbn [filter]. destruct (f x); cbn [negb app]; [now constructor|]. rewrite IH at 1. apply Permutation_middle.
Qed.
Lemma perm_filter (f : Z -> bool) l l' : Permutation l l' -> length (filter f l) = length (filter f l').
Proof. induction 1; cbn [filter]; repeat match goal with |- context [if ?b then _ else _] => destruct b end; cbn [length]; congruence. Qed.
Lemma filter_all (f : Z -> bool) l : Forall (fun x => f x = true) l -> filter f l = l.
Proof. induction 1 as [|x l H _ IH]; [reflexivity|]. cbn [filter]. now rewrite H, IH. Qed.
Lemma filter_none (f : Z -> bool) l : Forall (fun x => f x = false) l -> filter f l = [].
Proof. induction 1 as [|x l H _ IH]; [reflexivity|]. cbn [filter]. now rewrite H. Qed.
Lemma number_filter (f : Z -> bool) P dates n : (forall d, In d dates -> (f d = true <-> P d)) -> (Number P dates n <-> length (filter f dates) = n).
Proof.
  intros R. split.
  - intros (a & b & PM & A & B & <-). rewrite (perm_filter f _ _ PM), filter_app, app_length. rewrite Forall_forall in A, B.
    assert (IN : forall x, In x a \/ In x b -> In x dates) by (intros x X; apply (Permutation_in _ (Permutation_sym PM)), in_or_app, X).
    rewrite (filter_all f a), (filter_none f b); [cbn; lia | |]; apply Forall_forall; intros x X.
    + destruct (f x) eqn:E; [|reflexivity]. apply R in E; [destruct (B x X E) | apply IN; now right].
    + apply R; [apply IN; now left | now apply A].
  - intros L. exists (filter f dates), (filter (fun x => negb (f x)) dates). split; [apply filter_perm|]. split; [|split; [|exact L]]; apply Forall_forall; intros x X; apply filter_In in X; destruct X as [I E].
    + now apply R.
    + apply negb_true_iff in E. intros HP. apply R in HP; [congruence | exact I].
Qed.
Lemma minval_ok l : l <> [] -> Forall (fun d => d <= 2147483647) l -> In (minval l) l /\ forall d, In d l -> minval l <= d.
Proof.
  induction l as [|x l IH]; intros N F; [congruence|]. inversion F as [|? ? F1 F2]. subst. cbn [minval fold_right]. fold (minval l). destruct l as [|y l].
  - cbn. split; [left; lia | intros d [<- | []]; lia].
  - destruct (IH ltac:(discriminate) F2) as [I M]. split.
    + destruct (Z.min_spec x (minval (y :: l))) as [[_ ->] | [_ ->]]; [now left | now right].
    + intros d [<- | D]; [lia | specialize (M d D); lia].
Qed.
Lemma maxval_ok l : l <> [] -> Forall (fun d => 0 <= d) l -> In (maxval l) l /\ forall d, In d l -> d <= maxval l.
Proof.
  induction l as [|x l IH]; intros N F; [congruence|]. inversion F as [|? ? F1 F2]. subst. cbn [maxval fold_right]. fold (maxval l). destruct l as [|y l].
  - cbn. split; [left; lia | intros d [<- | []]; lia].
  - destruct (IH ltac:(discriminate) F2) as [I M]. split.
    + destruct (Z.max_spec x (maxval (y :: l))) as [[_ ->] | [_ ->]]; [now right | now left].
    + intros d [<- | D]; [lia | specialize (M d D); lia].
Qed.
Lemma in_range a b x : In x (range a b) <-> a <= x <= b.
Proof.
  unfold range. rewrite in_map_iff. split.
  - intros (k & <- & K). apply in_seq in K. lia.
  - intros H. exists (Z.to_nat (x - a)). split; [lia | apply in_seq; lia].
Qed.
Lemma record_bounds dates d : Record_of dates -> In d dates -> 1721426 <= d <= 2147483647.
Proof. intros [_ F] I. rewrite Forall_forall in F. now apply F. Qed.
Lemma sub_bounds (f : Z -> bool) dates : Record_of dates -> Forall (fun d => d <= 2147483647) (filter f dates) /\ Forall (fun d => 0 <= d) (filter f dates).
Proof. intros R. split; apply Forall_forall; intros d D; apply filter_In in D; pose proof (record_bounds dates d R (proj1 D)); lia. Qed.
Lemma extremes (f : Z -> bool) P dates : Record_of dates -> (forall d, In d dates -> (f d = true <-> P d)) -> (exists d, In d dates /\ P d) ->
  First P dates (minval (filter f dates)) /\ Last P dates (maxval (filter f dates)).
Proof.
  intros R H (d & D & PD). assert (N : filter f dates <> []) by (intros E; assert (I : In d (filter f dates)) by (apply filter_In; split; [exact D | now apply H]); rewrite E in I; destruct I).
  destruct (sub_bounds f dates R) as [B1 B2]. destruct (minval_ok _ N B1) as [I1 M1]. destruct (maxval_ok _ N B2) as [I2 M2].
  split; [apply filter_In in I1; destruct I1 as [I1 E1]; split; [exact I1|]; split; [now apply H|] | apply filter_In in I2; destruct I2 as [I2 E2]; split; [exact I2|]; split; [now apply H|]];
    intros e E PE; [apply M1 | apply M2]; apply filter_In; (split; [exact E | now apply H]).
Qed.

Lemma year_order a b : 1721426 <= a -> a <= b -> yr (gregorian_date a) <= yr (gregorian_date b).
Proof.
  intros A AB. destruct (day_ok a A) as [VA JA]. destruct (day_ok b ltac:(lia)) as [VB JB]. destruct (Z.eq_dec a b) as [-> | N]; [lia|].
  assert (B : Before (gregorian_date a) (gregorian_date b)) by (apply C123_order; [exact VA | exact VB | lia]). destruct B as [B | [B _]]; lia.
Qed.
Lemma sorted_ends d r x : StronglySorted Z.le (d :: r) -> In x (d :: r) -> d <= x <= last r d.
Proof.
  revert d x. induction r as [|e r IH]; intros d x S0 I; [destruct I as [<- | []]; cbn; lia|]. inversion S0 as [|? ? S1 F]. subst. rewrite Forall_forall in F.
  assert (LE : last (e :: r) d = last r e) by (clear; revert e d; induction r as [|z r IH]; intros e d; [reflexivity|]; change (last (z :: r) d = last (z :: r) e); rewrite (IH z d), (IH z e); reflexivity).
  rewrite LE. pose proof (F e (or_introl eq_refl)). destruct I as [<- | I]; [pose proof (IH e e S1 (or_introl eq_refl)); lia | pose proof (IH e x S1 I); lia].
Qed.
Lemma years_ok dates : Record_of dates -> dates <> [] -> exists a b, years dates = Some (range a b) /\ forall d, In d dates -> a <= yr (gregorian_date d) <= b.
Proof.
  intros R N. destruct dates as [|d r]; [congruence|]. exists (yr (gregorian_date d)), (yr (gregorian_date (last r d))). split; [reflexivity|]. intros x X.
  pose proof (sorted_ends d r x (proj1 R) X). pose proof (record_bounds _ d R (or_introl eq_refl)). split; apply year_order; lia.
Qed.
Lemma falls_year y m d : Falls y m d -> yr (gregorian_date d) = y /\ mo (gregorian_date d) = m /\ 1 <= m <= 12.
Proof. intros (k & V & <-). rewrite (proj1 (C123_numbers _ V)). cbn. destruct V as (_ & M & _). auto. Qed.

(** C128: by months there is one period for each month with 25 samples or more and no other, from the first to the last day with a sample in that
    month. *)
Theorem C128_monthly : forall dates, Record_of dates -> dates <> [] -> exists l, monthly dates = Some l /\
  forall f t, In (f, t) l <-> exists y m n, Number (Falls y m) dates n /\ (25 <= n)%nat /\ First (Falls y m) dates f /\ Last (Falls y m) dates t.
Proof.
  intros dates R N. destruct (years_ok dates R N) as (a & b & E & B). unfold monthly. rewrite E. eexists. split; [reflexivity|].
  assert (H : forall y m d, In d dates -> (in_month y m d = true <-> Falls y m d)) by (intros y m d D; apply in_month_falls; pose proof (record_bounds _ d R D); lia).
  intros f t. rewrite in_flat_map. split.
  - intros ([y m] & _ & I). unfold one_month in I. cbv zeta in I. cbn [fst snd] in I. destruct (Nat.ltb_spec (length (filter (in_month y m) dates)) 25) as [C | C]; [destruct I|].
    destruct I as [I | []]. injection I as <- <-. exists y, m, (length (filter (in_month y m) dates)). split; [apply (number_filter (in_month y m)); [intros; now apply H | reflexivity]|]. split; [exact C|].
    apply (extremes (in_month y m) (Falls y m) dates R); [intros; now apply H|]. destruct (filter (in_month y m) dates) as [|d r] eqn:F; [cbn in C; lia|].
    assert (D : In d (filter (in_month y m) dates)) by (rewrite F; now left). apply filter_In in D. exists d. split; [apply D | apply H; apply D].
  - intros (y & m & n & NB & N25 & (F1 & F2 & F3) & (L1 & L2 & L3)). exists (y, m). pose proof (falls_year y m f F2) as (FY & FM & M). split.
    + unfold months. apply in_flat_map. exists y. split; [apply in_range; rewrite <- FY; now apply B|]. apply in_map_iff. exists m. split; [reflexivity | now apply in_range].
    + unfold one_month. cbv zeta. cbn [fst snd]. assert (LN : length (filter (in_month y m) dates) = n) by (apply (number_filter (in_month y m) (Falls y m)); [intros; now apply H | exact NB]).
      rewrite LN. destruct (Nat.ltb_spec n 25); [lia|]. left.
      destruct (extremes (in_month y m) (Falls y m) dates R) as [(A1 & A2 & A3) (B1 & B2 & B3)]; [intros; now apply H | exists f; now split|].
      f_equal; apply Z.le_antisymm; [now apply A3 | now apply F3 | now apply L3 | now apply B3].
Qed.
Print Assumptions C128_monthly.

Lemma sorted_flat {A B} (RA : A -> A -> Prop) (RB : B -> B -> Prop) (g : A -> list B) l : StronglySorted RA l ->
  (forall x, StronglySorted RB (g x)) -> (forall x y a b, RA x y -> In a (g x) -> In b (g y) -> RB a b) -> StronglySorted RB (flat_map g l).
Proof.
  intros S0 S1 X. induction S0 as [|x l _ IH F]; [constructor|]. cbn [flat_map]. assert (G : forall a b, In a (g x) -> In b (flat_map g l) -> RB a b).
  { intros a b I J. apply in_flat_map in J. destruct J as (y & Y & J). rewrite Forall_forall in F. exact (X x y a b (F y Y) I J). }
  clear F. specialize (S1 x). induction S1 as [|a r _ IHr F]; [exact IH|]. cbn [app]. constructor; [apply IHr; intros a' b I; apply G; now right|].
  apply Forall_app. split; [exact F|]. apply Forall_forall. intros b J. apply G; [now left | exact J].
Qed.
Lemma sorted_range a b : StronglySorted Z.lt (range a b).
Proof.
  unfold range. generalize 0%nat. induction (Z.to_nat (b - a + 1)) as [|n IH]; intros s; [constructor|]. cbn [seq map]. constructor; [apply IH|].
  apply Forall_forall. intros x X. apply in_map_iff in X. destruct X as (k & <- & K). apply in_seq in K. lia.
Qed.
Definition earlier (p q : Z * Z) : Prop := fst p < fst q \/ (fst p = fst q /\ snd p < snd q).
Lemma sorted_months a b : StronglySorted earlier (months (range a b)).
Proof.
  unfold months. apply (sorted_flat Z.lt); [apply sorted_range | |].
  - intros y. pose proof (sorted_range 1 12) as H. induction H as [|m l _ IH F]; [constructor|]. cbn [map]. constructor; [exact IH|]. apply Forall_forall. intros p P.
    apply in_map_iff in P. destruct P as (m' & <- & M). rewrite Forall_forall in F. right. split; [reflexivity | now apply F].
  - intros x y p q H P Q. apply in_map_iff in P, Q. destruct P as (m & <- & _), Q as (m' & <- & _). left. exact H.
Qed.

(** C128: the periods by months come in order, each begins after the one before has ended, and none ends before it begins. *)
Theorem C128_order : forall dates l, Record_of dates -> monthly dates = Some l ->
  StronglySorted (fun p q => snd p < fst q) l /\ Forall (fun p => fst p <= snd p) l.
Proof.
  intros dates l R E. assert (N : dates <> []) by (intros ->; discriminate). split.
  - destruct (years_ok dates R N) as (a & b & E' & _). unfold monthly in E. rewrite E' in E. injection E as <-. apply (sorted_flat earlier); [apply sorted_months | |].
    + intros ym. unfold one_month. cbv zeta. destruct (_ <? 25)%nat; repeat constructor.
    + assert (H : forall ym p, In p (one_month dates ym) -> Falls (fst ym) (snd ym) (fst p) /\ Falls (fst ym) (snd ym) (snd p)).
      { intros [y m] p I. unfold one_month in I. cbv zeta in I. cbn [fst snd] in *. destruct (Nat.ltb_spec (length (filter (in_month y m) dates)) 25) as [C | C]; [destruct I|]. destruct I as [<- | []].
        destruct (filter (in_month y m) dates) as [|d r] eqn:F; [cbn in C; lia|]. assert (D : In d (filter (in_month y m) dates)) by (rewrite F; now left). rewrite <- F. apply filter_In in D.
        assert (HH : forall d, In d dates -> (in_month y m d = true <-> Falls y m d)) by (intros d' D'; apply in_month_falls; pose proof (record_bounds _ d' R D'); lia).
        destruct (extremes (in_month y m) (Falls y m) dates R HH) as [(_ & A & _) (_ & B & _)]; [exists d; split; [apply D | apply HH; apply D]|]. split; [exact A | exact B]. }
      intros [y m] [y' m'] p q X P Q. destruct (H _ _ P) as [_ (k & V & <-)]. destruct (H _ _ Q) as [(k' & V' & <-) _]. cbn [fst snd] in *. apply (C123_order _ _ V V').
      destruct X as [X | [X Y]]; cbn [fst snd] in *; [left; exact X | right; split; [exact X | left; exact Y]].
  - destruct (C128_monthly dates R N) as (l' & E' & H). rewrite E in E'. injection E' as <-. apply Forall_forall. intros [f t] I. apply H in I.
    destruct I as (y & m & n & _ & _ & (_ & _ & F) & (L & P & _)). now apply F.
Qed.
Print Assumptions C128_order.

(** C128: by years, a year with 350 samples or more, one of them in January and one in December, has a period from the first day with a sample in
    January to the last in December. *)
Theorem C128_annual : forall dates y n f t, Record_of dates -> Number (fun d => exists m, Falls y m d) dates n -> (350 <= n)%nat ->
  First (Falls y 1) dates f -> Last (Falls y 12) dates t -> exists l, annual dates = Some l /\ In (f, t) l /\ f < t.
Proof.
  intros dates y n f t R NB N350 (F1 & F2 & F3) (L1 & L2 & L3). assert (N : dates <> []) by (intros ->; destruct F1). destruct (years_ok dates R N) as (a & b & E & B).
  unfold annual. rewrite E. eexists. split; [reflexivity|]. assert (H : forall m d, In d dates -> (in_month y m d = true <-> Falls y m d)) by (intros m d D; apply in_month_falls; pose proof (record_bounds _ d R D); lia).
  split.
  - apply in_flat_map. exists y. pose proof (falls_year y 1 f F2) as (FY & _). split; [apply in_range; rewrite <- FY; now apply B|]. unfold one_year.
    assert (LN : length (filter (in_year y) dates) = n) by (apply (number_filter (in_year y) (fun d => exists m, Falls y m d)); [intros d D; apply in_year_falls; pose proof (record_bounds _ d R D); lia | exact NB]).
    rewrite LN. destruct (Nat.ltb_spec n 350); [lia|]. left.
    destruct (extremes (in_month y 1) (Falls y 1) dates R) as [(A1 & A2 & A3) _]; [intros; now apply H | exists f; now split|].
    destruct (extremes (in_month y 12) (Falls y 12) dates R) as [_ (B1 & B2 & B3)]; [intros; now apply H | exists t; now split|].
    f_equal; apply Z.le_antisymm; [now apply A3 | now apply F3 | now apply L3 | now apply B3].
  - destruct F2 as (k & V & <-). destruct L2 as (k' & V' & <-). apply (C123_order _ _ V V'). right. split; [reflexivity|]. left. cbn. lia.
Qed.
Print Assumptions C128_annual.

(** C128 finding: a year with 350 samples or more but none in January has a period from the day number 2147483647 on, which does not begin before its
    end. *)
Theorem C128_january_refuted : forall dates y n, Record_of dates -> Number (fun d => exists m, Falls y m d) dates n -> (350 <= n)%nat ->
  (forall d, In d dates -> ~ Falls y 1 d) -> exists l t, annual dates = Some l /\ In (2147483647, t) l /\ t <= 2147483647.
Proof.
  intros dates y n R NB N350 J. assert (N : dates <> []).
  { intros ->. destruct NB as (these & others & P & _ & _ & L). apply Permutation_nil in P. destruct these; [cbn in L; lia | discriminate]. }
  destruct (years_ok dates R N) as (a & b & E & B). unfold annual. rewrite E. eexists _, (maxval (filter (in_month y 12) dates)). split; [reflexivity|]. split.
  - apply in_flat_map. exists y. assert (LN : length (filter (in_year y) dates) = n) by (apply (number_filter (in_year y) (fun d => exists m, Falls y m d)); [intros d D; apply in_year_falls; pose proof (record_bounds _ d R D); lia | exact NB]).
    split.
    + destruct (filter (in_year y) dates) as [|d r] eqn:F; [cbn in LN; lia|]. assert (D : In d (filter (in_year y) dates)) by (rewrite F; now left). apply filter_In in D. destruct D as [D Y].
      unfold in_year in Y. apply Z.eqb_eq in Y. apply in_range. rewrite <- Y. now apply B.
    + unfold one_year. rewrite LN. destruct (Nat.ltb_spec n 350); [lia|]. left. f_equal. rewrite filter_none; [reflexivity|]. apply Forall_forall. intros d D.
      destruct (in_month y 1 d) eqn:EM; [|reflexivity]. apply in_month_falls in EM; [destruct (J d D EM) | pose proof (record_bounds _ d R D); lia].
  - destruct (filter (in_month y 12) dates) as [|d r] eqn:F; [cbn; lia|]. rewrite <- F. destruct (maxval_ok (filter (in_month y 12) dates)) as [I _]; [congruence | apply (sub_bounds _ _ R)|].
    apply filter_In in I. pose proof (record_bounds dates _ R (proj1 I)). lia.
Qed.
Print Assumptions C128_january_refuted.

(** C128 finding: samples are counted, not days: 25 samples of one day are taken for a month, with a period of that day. *)
Theorem C128_samples_refuted : forall d, 1721426 <= d <= 2147483647 -> exists l, monthly (repeat d 25) = Some l /\ In (d, d) l.
Proof.
  intros d D. assert (AL : forall x, In x (repeat d 25) -> x = d) by (intros x X; now apply repeat_spec in X).
  assert (R : Record_of (repeat d 25)).
  { split; [cbn [repeat]; repeat (apply SSorted_cons; [|repeat constructor; lia]); apply SSorted_nil | apply Forall_forall; intros x X; rewrite (AL x X); exact D]. }
  destruct (C128_monthly _ R ltac:(discriminate)) as (l & E & H). exists l. split; [exact E|]. apply H. destruct (day_ok d ltac:(lia)) as [V J].
  assert (F : Falls (yr (gregorian_date d)) (mo (gregorian_date d)) d) by (apply in_month_falls; [lia | unfold in_month; now rewrite !Z.eqb_refl]).
  exists (yr (gregorian_date d)), (mo (gregorian_date d)), 25%nat. split; [|split; [lia|]].
  - exists (repeat d 25), []. split; [now rewrite app_nil_r|]. split; [apply Forall_forall; intros x X; rewrite (AL x X); exact F|]. split; [constructor | reflexivity].
  - split; (split; [now left|]; split; [exact F|]; intros x X _; rewrite (AL x X); lia).
Qed.
Print Assumptions C128_samples_refuted.

Definition winter : list Z := range (julian_day (mkdate 2001 1 3)) (julian_day (mkdate 2001 3 10)).
Example C128_example : option_map (map (fun p => (gregorian_date (fst p), gregorian_date (snd p)))) (monthly winter) =
  Some [(mkdate 2001 1 3, mkdate 2001 1 31); (mkdate 2001 2 1, mkdate 2001 2 28)] /\ annual winter = Some [].
Proof. split; vm_compute; reflexivity. Qed.
(** Two samples a day meet the hypotheses of C128_january_refuted and, from January on, those of C128_annual. *)
Definition twice (a b : Z) : list Z := flat_map (fun d => [d; d]) (range a b).
Lemma twice_record a b : 1721426 <= a -> b <= 2147483647 -> Record_of (twice a b).
Proof.
  intros A B. split.
  - apply (sorted_flat Z.lt); [apply sorted_range | intros x; repeat constructor; lia | intros x y p q H [<- | [<- | []]] [<- | [<- | []]]; lia].
  - apply Forall_forall. intros x X. apply in_flat_map in X. destruct X as (d & D & X). apply in_range in D. destruct X as [<- | [<- | []]]; lia.
Qed.
Lemma twice_number y a b : 1721426 <= a -> Number (fun d => exists m, Falls y m d) (twice a b) (length (filter (in_year y) (twice a b))).
Proof.
  intros A. apply (number_filter (in_year y)); [|reflexivity]. intros x X. apply in_flat_map in X. destruct X as (d & D & X). apply in_range in D. apply in_year_falls. destruct X as [<- | [<- | []]]; lia.
Qed.
Example C128_example_year :
  (350 <= length (filter (in_year 2001) (twice (julian_day (mkdate 2001 1 2)) (julian_day (mkdate 2001 12 30)))))%nat /\
  (350 <= length (filter (in_year 2001) (twice (julian_day (mkdate 2001 2 1)) (julian_day (mkdate 2001 12 30)))))%nat /\
  annual (twice (julian_day (mkdate 2001 1 2)) (julian_day (mkdate 2001 12 30))) = Some [(julian_day (mkdate 2001 1 2), julian_day (mkdate 2001 12 30))] /\
  annual (twice (julian_day (mkdate 2001 2 1)) (julian_day (mkdate 2001 12 30))) = Some [(2147483647, julian_day (mkdate 2001 12 30))].
Proof. split; [apply Nat.leb_le; vm_compute; reflexivity|]. split; [apply Nat.leb_le; vm_compute; reflexivity|]. split; vm_compute; reflexivity. Qed.
