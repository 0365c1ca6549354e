From Coq Require Import QArith Qround ZArith Bool List String Lia Lqa.
From Coq Require Import ZifyBool.
From Verif Require Import Qx Calendar_Model Calendar_Spec Calendar_Proofs Clock_Model Clock_Spec.
Import ListNotations.
Local Open Scope Z_scope.

(** ** Days of the year *)
Lemma jd_of y m d : 1582 < y -> 1 <= m <= 12 -> 1 <= d <= Days_in_month y m ->
  Valid (mkdate y m d) /\ julday (mkdate y m d) = Some (jd_greg y m d).
Proof.
  intros Y M D. assert (V : Valid (mkdate y m d)) by (unfold Valid; cbn [dy dm dd]; lia).
  split; [exact V|]. apply julday_greg; [exact V|]. unfold greg. lia.
Qed.

Lemma calendar_first t k : Valid t -> 1583 < dy t -> julian "calendar" t = Ok k ->
  (k = 1 <-> dm t = 1 /\ dd t = 1).
Proof.
  intros V Y H. destruct t as [y m d]. cbn [dy dm dd] in *. unfold julian, reftime in H.
  cbn [String.eqb Ascii.eqb Bool.eqb dy dm dd] in H.
  pose proof V as (_ & VM & VD & _). cbn [dy dm dd] in *.
  destruct (jd_of y m d) as [_ J1]; [lia..|]. rewrite J1 in H.
  destruct (jd_of (y - 1) 12 31) as [_ J2]; [lia | lia | cbn; lia |]. rewrite J2 in H.
  destruct (jd_of y 1 1) as [V3 J3]; [lia | lia | cbn; lia |].
  assert (E : jd_greg y 1 1 = jd_greg (y - 1) 12 31 + 1).
  { unfold jd_greg, month_off. change (2 <? 1) with false. change (2 <? 12) with true. cbn iota.
    change (306001 * (1 + 13) / 10000) with 428. change (306001 * (12 + 1) / 10000) with 397. lia. }
  injection H as <-. split.
  - intros K. assert (X : mkdate y m d = mkdate y 1 1).
    { apply (julday_inj _ _ (jd_greg y 1 1) V V3); [rewrite J1; f_equal; lia | exact J3]. }
    injection X as -> ->. lia.
  - intros [-> ->]. lia.
Qed.

Lemma water_last t w : Valid t -> 1583 < dy t -> julian "water" t = Ok w ->
  (w = 365 + isleap (dy t) <-> dm t = 9 /\ dd t = 30).
Proof.
  intros V Y H. destruct t as [y m d]. cbn [dy dm dd] in *. unfold julian, reftime in H.
  cbn [String.eqb Ascii.eqb Bool.eqb dy dm dd] in H.
  pose proof V as (_ & VM & VD & _). cbn [dy dm dd] in *.
  destruct (jd_of y m d) as [_ J1]; [lia..|].
  destruct (jd_of (y - 1) 9 30) as [_ J2]; [lia | lia | cbn; lia |].
  destruct (jd_of y 9 30) as [V3 J3]; [lia | lia | cbn; lia |].
  destruct (9 <? m) eqn:E9.
  - rewrite J1, J3 in H. injection H as <-.
    assert (B : jd_greg y m d - jd_greg y 9 30 < 100).
    { unfold jd_greg, month_off. replace (2 <? m) with true by lia. change (2 <? 9) with true. cbn iota.
      pose proof (dim_bounds y m). assert (m = 10 \/ m = 11 \/ m = 12) as [-> | [-> | ->]] by lia.
      - change (306001 * (10 + 1) / 10000) with 336. change (306001 * (9 + 1) / 10000) with 306. lia.
      - change (306001 * (11 + 1) / 10000) with 367. change (306001 * (9 + 1) / 10000) with 306. lia.
      - change (306001 * (12 + 1) / 10000) with 397. change (306001 * (9 + 1) / 10000) with 306. lia. }
    destruct (isleap_01 y); lia.
  - rewrite J1, J2 in H. injection H as <-.
    assert (E : jd_greg y 9 30 = jd_greg (y - 1) 9 30 + (365 + isleap y)).
    { unfold jd_greg. change (2 <? 9) with true. cbn iota. rewrite isleap_leap.
      generalize (month_off 9). intros o.
      destruct (((y mod 4 =? 0) && negb (y mod 100 =? 0)) || (y mod 400 =? 0)) eqn:E; lia. }
    split.
    + intros K. assert (X : mkdate y m d = mkdate y 9 30).
      { apply (julday_inj _ _ (jd_greg y 9 30) V V3); [rewrite J1; f_equal; lia | exact J3]. }
      injection X as -> ->. lia.
    + intros [-> ->]. lia.
Qed.

Lemma julians t : Valid t -> 1583 < dy t ->
  exists w k, julian "water" t = Ok w /\ julian "calendar" t = Ok k.
Proof.
  intros V Y. destruct t as [y m d]. cbn [dy] in Y. pose proof V as (_ & VM & VD & _). cbn [dy dm dd] in *.
  unfold julian, reftime. cbn [String.eqb Ascii.eqb Bool.eqb dy dm dd].
  destruct (jd_of y m d) as [_ J1]; [lia..|].
  destruct (jd_of (y - 1) 9 30) as [_ J2]; [lia | lia | cbn; lia |].
  destruct (jd_of y 9 30) as [_ J3]; [lia | lia | cbn; lia |].
  destruct (jd_of (y - 1) 12 31) as [_ J4]; [lia | lia | cbn; lia |].
  rewrite J1, J4. destruct (9 <? m); [rewrite J3 | rewrite J2]; eauto.
Qed.

(** ** The saved state *)
Definition tuned (c : clock) (y : Z) : Prop := yrdays c = 365 + isleap y /\ feb c = 28 + isleap y.

Lemma wind_tuned c y k : step1 c = true \/ k = 1 \/ tuned c y -> tuned (wind c y k) y /\ step1 (wind c y k) = false \/
  wind c y k = c /\ tuned c y.
Proof.
  intros H. unfold wind. destruct (step1 c || (k =? 1)) eqn:E.
  - left. destruct (isleap_01 y) as [L | L]; rewrite L; cbn; unfold tuned; cbn; rewrite L; lia.
  - right. split; [reflexivity|]. destruct H as [H | [H | H]]; [rewrite H in E; discriminate | lia | exact H].
Qed.

Lemma modays_right c t : tuned c (dy t) -> 1583 < dy t -> 1 <= dm t <= 12 ->
  modays c (dm t) = Days_in_month (dy t) (dm t).
Proof.
  intros [_ F] Y M. unfold modays, Days_in_month. rewrite F.
  assert (L : (if Leap (dy t) then 29 else 28) = 28 + isleap (dy t)).
  { rewrite isleap_leap. unfold Leap. replace (dy t <? 0) with false by lia. replace (dy t <=? 1582) with false by lia.
    destruct (_ || _); reflexivity. }
  rewrite L. destruct (month_cases _ M) as [E|[E|[E|[E|[E|[E|[E|[E|[E|[E|[E|E]]]]]]]]]]]; rewrite E; reflexivity.
Qed.

(** ** The end of the day *)
Lemma tod_bounds h m s : 0 <= h < 24 -> 0 <= m < 60 -> 0 <= s < 60 ->
  (0 <= time_of_day h m s /\ time_of_day h m s < 1)%Q.
Proof.
  intros H M S. unfold time_of_day, Qle, Qlt, Qplus. cbn [Qnum Qden]. lia.
Qed.

Lemma end_of_day_right n h m s dt x : 0 <= n -> 0 <= h < 24 -> 0 <= m < 60 -> 0 <= s < 60 -> (0 <= dt)%Q ->
  (x == inject_Z n + time_of_day h m s)%Q ->
  (end_of_day x dt = true <-> (24 <= dt \/ 1 <= time_of_day h m s + (11 # 10) * dt / 24)%Q).
Proof.
  intros N H M S D X. destruct (tod_bounds h m s H M S) as [T1 T2].
  assert (N' : (0 <= inject_Z n)%Q) by (change 0%Q with (inject_Z 0); rewrite <- Zle_Qle; lia).
  unfold end_of_day. destruct (qle 24 dt) eqn:E; qprop; [intuition|].
  set (u := ((11 # 10) * dt / 24)%Q). assert (U : (0 <= u)%Q) by (unfold u, Qdiv; apply Qmult_le_0_compat; [lra | discriminate]).
  rewrite (trunc_floor x) by lra. rewrite (trunc_floor (u + x)) by lra.
  assert (F : Qfloor x = n).
  { assert (A : (n <= Qfloor x)%Z) by (apply floor_ge; lra).
    assert (B : (Qfloor x < n + 1)%Z) by (apply floor_lt; rewrite inject_Z_plus; change (inject_Z 1) with 1%Q; lra). lia. }
  rewrite F. rewrite Z.ltb_lt. split.
  - intros G. right. assert (A : (inject_Z (n + 1) <= u + x)%Q).
    { apply Qle_trans with (inject_Z (Qfloor (u + x))); [rewrite <- Zle_Qle; lia | apply Qfloor_le]. }
    rewrite inject_Z_plus in A. change (inject_Z 1) with 1%Q in A. lra.
  - intros [G | G]; [lra|]. assert (A : (n + 1 <= Qfloor (u + x))%Z)
      by (apply floor_ge; rewrite inject_Z_plus; change (inject_Z 1) with 1%Q; lra). lia.
Qed.

(** ** Flags *)
Lemma decode_encode f : (f_run f = true -> f_year f = true) -> (f_year f = true -> f_month f = true) ->
  (f_month f = true -> f_day f = true) -> decode (encode f) = f.
Proof.
  destruct f as [[] [] [] [] []]; cbn [f_storm f_day f_month f_year f_run]; intros A B C;
    first [reflexivity | specialize (A eq_refl); discriminate | specialize (B eq_refl); discriminate | specialize (C eq_refl); discriminate].
Qed.
Lemma set_nested c mo day wyday j e t : let f := set_flags c mo day wyday j e t in
  (f_run f = true -> f_year f = true) /\ (f_year f = true -> f_month f = true) /\
  (f_month f = true -> f_day f = true).
Proof.
  cbv zeta. unfold set_flags. destruct (qle e j); [auto|]. destruct (end_of_day j t).
  - rewrite !andb_true_r. destruct (_ =? _); [auto|]. destruct (_ =? _); cbn; auto.
  - rewrite !andb_false_r. cbn. auto.
Qed.

Lemma iorun_right e c m : proper m -> (0 <= step_hours m)%Q -> (exists n, julday (on m) = Some n /\ 0 <= n) ->
  step1 c = true \/ (dm (on m) = 1 /\ dd (on m) = 1) \/ tuned c (dy (on m)) ->
  exists c' k, iorun e c m = Some (c', k) /\ tuned c' (dy (on m)) /\
    flags_right e m (decode k).
Proof.
  intros (V & Y & H & MI & SE) D (n & JN & N0) T.
  destruct (julians _ V Y) as (w & k & W & K). unfold iorun. rewrite W, K.
  unfold djulian, dreftime, reftime. cbn [String.eqb Ascii.eqb Bool.eqb]. unfold julday_jt. rewrite JN.
  assert (TW : tuned (wind c (dy (on m)) k) (dy (on m))).
  { destruct (wind_tuned c (dy (on m)) k) as [[A _] | [-> A]]; [|exact A..].
    destruct T as [T | [T | T]]; [left; exact T | right; left; apply (calendar_first _ _ V Y K); exact T | right; right; exact T]. }
  set (c' := wind _ _ _) in *. clearbody c'. do 2 eexists. split; [reflexivity|]. split; [exact TW|].
  set (x := (inject_Z n + time_of_day (hour m) (minute m) (second m))%Q).
  destruct (set_nested c' (dm (on m)) (dd (on m)) w x e (step_hours m)) as (N1 & N2 & N3).
  rewrite decode_encode by assumption. clear N1 N2 N3.
  exists x. split; [exists n; split; [exact JN | reflexivity]|].
  pose proof (end_of_day_right n _ _ _ (step_hours m) x N0 H MI SE D ltac:(reflexivity)) as ED.
  fold (closes_day m) in ED. pose proof (water_last _ _ V Y W) as WL. destruct TW as [T1 T2].
  assert (MD : modays c' (dm (on m)) = Days_in_month (dy (on m)) (dm (on m)))
    by (apply modays_right; [split; assumption | exact Y | apply V]).
  assert (SEP : dm (on m) = 9 /\ dd (on m) = 30 -> dd (on m) = Days_in_month (dy (on m)) (dm (on m)))
    by (intros [-> ->]; reflexivity).
  unfold set_flags, last_of_month, last_of_year. rewrite T1, MD.
  destruct (qle e x) eqn:EX; qprop.
  - cbn. intuition.
  - assert (NX : ~ (e <= x)%Q) by lra.
    destruct (end_of_day x (step_hours m)) eqn:EE.
    + assert (CD : closes_day m) by (apply ED; reflexivity). rewrite !andb_true_r.
      destruct (w =? 365 + isleap (dy (on m))) eqn:E1.
      * apply Z.eqb_eq in E1. apply WL in E1. cbn. specialize (SEP E1). intuition discriminate.
      * assert (~ (dm (on m) = 9 /\ dd (on m) = 30)) by (intros Z; apply WL in Z; lia).
        destruct (dd (on m) =? _) eqn:E2; [apply Z.eqb_eq in E2 | apply Z.eqb_neq in E2]; cbn; intuition discriminate.
    + assert (CD : ~ closes_day m) by (intros Z; apply ED in Z; discriminate). rewrite !andb_false_r. cbn. intuition discriminate.
Qed.

Lemma run_right e ms : Forall (fun m => proper m /\ (0 <= step_hours m)%Q) ms -> enters_by_january ms ->
  forall c, (step1 c = true \/ match ms with [] => True | m :: _ => (dm (on m) = 1 /\ dd (on m) = 1) \/ tuned c (dy (on m)) end) ->
  exists l, iorun_all e c ms = Some l /\ Forall2 (fun m k => flags_right e m (decode k)) ms l.
Proof.
  intros F. induction F as [|m r [P D] F IH]; intros J c T; [exists []; split; [reflexivity | constructor]|].
  assert (N : exists n, julday (on m) = Some n /\ 0 <= n).
  { destruct P as (V & Y & _). destruct (on m) as [y mo d] eqn:O. cbn [dy] in Y.
    pose proof V as (_ & VM & VD & _). cbn [dy dm dd] in *.
    destruct (jd_of y mo d) as [_ J1]; [lia..|]. eexists. split; [exact J1|].
    unfold jd_greg, month_off. destruct (2 <? mo) eqn:?; lia. }
  destruct (iorun_right e c m P D N) as (c' & k & R & TC & FR).
  { destruct T as [T | [T | T]]; auto. }
  cbn [iorun_all]. rewrite R.
  destruct (IH) with (c := c') as (l & L & FL).
  - destruct r; [exact I | apply J].
  - right. destruct r as [|b r]; [exact I|]. destruct J as [[J | J] _]; [right; rewrite <- J; exact TC | left; exact J].
  - rewrite L. eexists. split; [reflexivity|]. constructor; assumption.
Qed.
