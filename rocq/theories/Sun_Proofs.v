(** Proofs about the table of the sun. *)
From Coq Require Import QArith ZArith Bool String List Lia Lqa.
From Coq Require Import ZifyBool.
From Verif Require Import Qx Calendar_Model Calendar_Spec Calendar_Proofs Temp_Spec Temp_Proofs Sun_Model Sun_Spec.
Import ListNotations.
Local Open Scope Q_scope.

(** ** Dates *)
Lemma leapb y : negb (isleap y =? 0)%Z = leap_year y.
Proof. rewrite isleap_leap. unfold leap_year. destruct (_ || _)%bool; reflexivity. Qed.
Definition len (leap : bool) : Z := if leap then 366%Z else 365%Z.
Lemma dec21_valid y : (1582 <= y)%Z -> Valid (mkdate y 12 21).
Proof. intros H. unfold Valid. cbn [dy dm dd]. unfold Days_in_month. cbn. lia. Qed.
Lemma dec21_greg y : (1582 <= y)%Z -> julday (mkdate y 12 21) = Some (jd_greg y 12 21).
Proof. intros H. apply julday_greg; [apply dec21_valid; exact H|]. unfold greg. lia. Qed.
Lemma dec21_year y : (1583 <= y)%Z -> (jd_greg y 12 21 = jd_greg (y - 1) 12 21 + len (leap_year y))%Z.
Proof. intros H. unfold jd_greg, month_off, leap_year, len. change (2 <? 12)%Z with true. cbv iota. destruct (_ || _)%bool eqn:E; lia. Qed.
Lemma solar_year_ge d : (1583 <= dy d)%Z -> (1583 <= solar_year d)%Z.
Proof. intros H. unfold solar_year. destruct (_ && _)%bool; lia. Qed.
Lemma solar_of d : Valid d -> (1583 <= dy d)%Z -> exists a, julday d = Some a /\ julian "solar" d = Ok (a - jd_greg (solar_year d - 1) 12 21)%Z.
Proof.
  intros V Y. destruct (julday_some d V) as (a & A). exists a. split; [exact A|]. unfold julian. change (reftime "solar" d) with (if ((dm d =? 12) && (21 <? dd d))%Z then Some (mkdate (dy d) 12 21) else Some (mkdate (dy d - 1) 12 21)).
  unfold solar_year. rewrite A. destruct ((dm d =? 12) && (21 <? dd d))%Z; [rewrite dec21_greg by lia; replace (dy d + 1 - 1)%Z with (dy d) by lia; reflexivity|rewrite dec21_greg by lia; reflexivity].
Qed.
Lemma solar_range d j : Valid d -> (1583 <= dy d)%Z -> julian "solar" d = Ok j ->
  (1 <= j <= len (leap_year (solar_year d)))%Z /\ ((j = len (leap_year (solar_year d)))%Z <-> dm d = 12%Z /\ dd d = 21%Z).
Proof.
  intros V Y J. destruct (solar_of d V Y) as (a & A & E). rewrite E in J. injection J as J. set (y := solar_year d) in *.
  assert (YB : (1583 <= y)%Z) by (unfold y, solar_year; destruct (_ && _)%bool; lia).
  pose proof (dec21_year y YB) as LEN. pose proof (dec21_greg y ltac:(lia)) as G1. pose proof (dec21_greg (y - 1) ltac:(lia)) as G0.
  assert (B0 : Before (mkdate (y - 1) 12 21) d) by (unfold Before, y, solar_year in *; cbn [dy dm dd] in *; destruct ((dm d =? 12) && (21 <? dd d))%Z eqn:C; lia).
  pose proof (julday_before _ _ _ _ (dec21_valid (y - 1) ltac:(lia)) V B0 G0 A) as L0.
  assert (CASE : d = mkdate y 12 21 \/ Before d (mkdate y 12 21)).
  { destruct V as (_ & VM & VD & _). destruct d as [yy mm d0]. unfold Before, y, solar_year in *. cbn [dy dm dd] in *. destruct ((mm =? 12) && (21 <? d0))%Z eqn:C; [right; lia|].
    destruct (Z.eq_dec mm 12) as [-> |]; [|right; lia]. destruct (Z.eq_dec d0 21) as [-> |]; [left; reflexivity|right; lia]. }
  destruct CASE as [CE | CB].
  - pose proof (f_equal julday CE) as CJ. rewrite A, G1 in CJ. injection CJ as CJ. pose proof (f_equal dm CE) as CM. pose proof (f_equal dd CE) as CD. cbn [dm dd] in CM, CD. split; [lia|]. split; [intros _; split; assumption|intros _; lia].
  - pose proof (julday_before _ _ _ _ V (dec21_valid y ltac:(lia)) CB A G1) as L1. split; [lia|]. split; [intros X; lia|]. intros [M D]. exfalso. unfold Before, y, solar_year in CB. cbn [dy dm dd] in CB. rewrite M, D in CB. cbn in CB. lia.
Qed.
Lemma next_year_ge d : Valid d -> (1583 <= dy d)%Z -> (1583 <= dy (Next_day d))%Z.
Proof. intros V Y. unfold Next_day. replace (dy d =? 1582)%Z with false by lia. cbn [andb]. destruct (dd d <? _)%Z; [exact Y|]. destruct (dm d <? 12)%Z; [exact Y|]. cbn [dy]. unfold Next_year. destruct (dy d =? -1)%Z eqn:X; lia. Qed.
Lemma solar_next d : Valid d -> (1583 <= dy d)%Z ->
  solar_year (Next_day d) = if ((dm d =? 12) && (dd d =? 21))%Z then (solar_year d + 1)%Z else solar_year d.
Proof.
  intros (_ & VM & VD & _) Y. unfold Next_day. replace (dy d =? 1582)%Z with false by lia. cbn [andb]. destruct d as [y m e]. cbn [dy dm dd] in *.
  assert (D12 : m = 12%Z -> Days_in_month y m = 31%Z) by (intros ->; reflexivity).
  destruct (e <? Days_in_month y m)%Z eqn:L.
  - unfold solar_year. cbn [dy dm dd]. destruct (Z.eq_dec m 12) as [M | M].
    + rewrite M in *. cbn [Z.eqb Pos.eqb andb]. destruct (21 <? e)%Z eqn:A, (e =? 21)%Z eqn:B, (21 <? e + 1)%Z eqn:C; lia.
    + replace (m =? 12)%Z with false by lia. cbn [andb]. reflexivity.
  - destruct (m <? 12)%Z eqn:M; unfold solar_year; cbn [dy dm dd].
    + replace (m =? 12)%Z with false by lia. cbn [andb]. replace ((m + 1 =? 12) && (21 <? 1))%Z with false by lia. reflexivity.
    + assert (M2 : m = 12%Z) by lia. specialize (D12 M2). rewrite M2 in *. assert (e = 31%Z) by lia. subst e. cbn. unfold Next_year. destruct (y =? -1)%Z eqn:N; lia.
Qed.
Lemma solar_step d j : Valid d -> (1583 <= dy d)%Z -> julian "solar" d = Ok j ->
  julian "solar" (Next_day d) = Ok (if ((dm d =? 12) && (dd d =? 21))%Z then 1%Z else (j + 1)%Z).
Proof.
  intros V Y J. destruct (solar_of d V Y) as (a & A & E). rewrite E in J. injection J as J. destruct (solar_of (Next_day d) (next_valid d V) (next_year_ge d V Y)) as (b & B & E2). rewrite E2. rewrite (julday_next d a V A) in B. injection B as B. f_equal.
  rewrite (solar_next d V Y). destruct ((dm d =? 12) && (dd d =? 21))%Z eqn:C; [|lia]. destruct (solar_range d j V Y ltac:(rewrite E; f_equal; exact J)) as [_ [_ R]]. specialize (R ltac:(lia)).
  replace (solar_year d + 1 - 1)%Z with (solar_year d) by lia. pose proof (solar_year_ge d Y) as YB. pose proof (dec21_year _ YB). lia.
Qed.

(** ** Places *)
Definition canon (leap : bool) (j : Z) : place :=
  let l5 := if leap then 16%Z else 15%Z in let '(ls, np) := search j 1 1 (Lp l5) in
  mkPlace np ls (item (Lp l5) ls - (np - j) + 1) (item (Lp l5) ls) false l5.
Definition place_eqb (a b : place) : bool :=
  ((nper a =? nper b) && (lsv a =? lsv b) && (cnt a =? cnt b) && (sper a =? sper b) && Bool.eqb (kck a) (kck b) && (lp5 a =? lp5 b))%Z.
Lemma place_eqb_true a b : place_eqb a b = true -> a = b.
Proof.
  unfold place_eqb. destruct a as [a1 a2 a3 a4 a5 a6], b as [b1 b2 b3 b4 b5 b6]. cbn [nper lsv cnt sper kck lp5]. rewrite !andb_true_iff, !Z.eqb_eq. intros (((((H1 & H2) & H3) & H4) & H5) & H6). apply Bool.eqb_prop in H5. congruence.
Qed.
Definition bump (p : place) : place := mkPlace (nper p) (lsv p) (cnt p + 1) (sper p) (kck p) (lp5 p).
Definition pair_eqb (a b : Z * Z) : bool := ((fst a =? fst b) && (snd a =? snd b))%Z.
Lemma pair_eqb_true a b : pair_eqb a b = true -> a = b.
Proof. unfold pair_eqb. destruct a, b. cbn. rewrite andb_true_iff, !Z.eqb_eq. intros []. congruence. Qed.
Definition good (r : place * use) (was now : place) : bool :=
  match r with
  | (p, Direct ip jp) => place_eqb p now && pair_eqb (ip, jp) (ends (lsv now)) && (cnt now =? 1)%Z
  | (p, Fresh ip jp) => place_eqb (bump p) now && pair_eqb (ip, jp) (ends (lsv now))
  | (p, Old) => place_eqb (bump p) now && pair_eqb (ends (lsv was)) (ends (lsv now))
  end.
Definition days (leap : bool) : list Z := map Z.of_nat (seq 1 (Z.to_nat (len leap) - 1)).
Lemma days_in leap j : (1 <= j < len leap)%Z -> In j (days leap).
Proof. intros H. apply in_map_iff. exists (Z.to_nat j). split; [lia|]. apply in_seq. destruct leap; unfold len in *; lia. Qed.
Definition at_spot (leap : bool) (j : Z) : bool :=
  match spot (j - 1) (knots leap) with
  | Some (a, b, x, n) => let c := canon leap j in pair_eqb (a, b) (ends (lsv c)) && (x =? cnt c - 1)%Z && (n =? sper c)%Z && (0 <? n)%Z
  | None => false
  end.
Lemma spots leap j : (1 <= j < len leap)%Z -> at_spot leap j = true.
Proof. assert (A : forall l, forallb (at_spot l) (days l) = true) by (intros []; vm_compute; reflexivity). intros H. specialize (A leap). rewrite forallb_forall in A. apply A, days_in, H. Qed.
Lemma starts leap j w : (1 <= j < len leap)%Z -> good (settle (first_place leap j)) w (canon leap j) = true /\ match snd (settle (first_place leap j)) with Old => False | _ => True end.
Proof.
  assert (A : forall l, forallb (fun j => good (settle (first_place l j)) place0 (canon l j) && match snd (settle (first_place l j)) with Old => false | _ => true end) (days l) = true) by (intros []; vm_compute; reflexivity).
  intros H. specialize (A leap). rewrite forallb_forall in A. specialize (A j (days_in _ _ H)). rewrite andb_true_iff in A. destruct A as [A1 A2]. destruct (settle (first_place leap j)) as [p [ | | ]]; cbn [snd] in *; try discriminate; split; try exact A1; exact Logic.I.
Qed.
Lemma nexts leap leap' j : (1 <= j < len leap - 1)%Z -> good (next_place leap' (j + 1) (canon leap j)) (canon leap j) (canon leap (j + 1)) = true.
Proof.
  assert (A : forall l l', forallb (fun j => (len l - 1 <=? j)%Z || good (next_place l' (j + 1) (canon l j)) (canon l j) (canon l (j + 1))) (days l) = true) by (intros [] []; vm_compute; reflexivity).
  intros H. specialize (A leap leap'). rewrite forallb_forall in A. specialize (A j (days_in leap j ltac:(lia))). rewrite orb_true_iff in A. destruct A as [A | A]; [lia|exact A].
Qed.
Definition closed (leap' : bool) : place := mkPlace 1 0 19 18 false (if leap' then 16%Z else 15%Z).
Lemma lasts leap leap' : next_place leap' (len leap) (canon leap (len leap - 1)) = (mkPlace 1 0 18 18 false (if leap' then 16%Z else 15%Z), Old) /\ ends (lsv (canon leap (len leap - 1))) = (10, 356)%Z.
Proof. destruct leap, leap'; vm_compute; split; reflexivity. Qed.
Lemma firsts leap leap' : next_place leap' 1 (closed leap) = (canon leap 1, Direct 356 10) /\ ends (lsv (canon leap 1)) = (356, 10)%Z.
Proof. destruct leap, leap'; vm_compute; split; reflexivity. Qed.
Lemma curve_canon tab leap j : (1 <= j < len leap)%Z -> exists ip jp q, ends (lsv (canon leap j)) = (ip, jp) /\ curve tab leap j = Some q /\
  q == tab ip + inject_Z (cnt (canon leap j) - 1) / inject_Z (sper (canon leap j)) * (tab jp - tab ip).
Proof.
  intros H. pose proof (spots leap j H) as S. unfold at_spot in S. unfold curve. destruct (spot (j - 1) (knots leap)) as [[[[a b] x] n]|]; [|discriminate].
  rewrite !andb_true_iff in S. destruct S as (((S1 & S2) & S3) & S4). apply pair_eqb_true in S1. exists a, b. eexists. split; [congruence|]. split; [reflexivity|]. apply Z.eqb_eq in S2, S3. rewrite S2, S3. reflexivity.
Qed.
Lemma curve_last tab leap : exists q, curve tab leap (len leap) = Some q /\ q == tab 356%Z.
Proof. destruct leap; eexists; (split; [reflexivity|]); cbn [inject_Z]; unfold Qdiv; ring. Qed.

(** ** The run *)
Definition held (tab : Z -> Q) (d : date) (s : Z * sun) : Prop :=
  fst s = dd d /\ exists j, julian "solar" d = Ok j /\
  let L := leap_year (solar_year d) in
  (exists q, curve tab L j = Some q /\ drad (snd s) == q) /\
  ((j < len L)%Z -> s_place (snd s) = canon L j /\ exists ip jp, ends (lsv (canon L j)) = (ip, jp) /\ psv (snd s) = tab ip /\ ssv (snd s) = tab jp - tab ip) /\
  (j = len L -> s_place (snd s) = closed (leap_year (solar_year d + 1))).
Lemma good_step tab r was now s leap j : good r was now = true -> now = canon leap j -> (1 <= j < len leap)%Z ->
  (match snd r with Old => exists ip jp, ends (lsv was) = (ip, jp) /\ psv s = tab ip /\ ssv s = tab jp - tab ip | _ => True end) ->
  let s' := interpolate tab (snd r) s (fst r) in
  s_place s' = now /\ (exists ip jp, ends (lsv now) = (ip, jp) /\ psv s' = tab ip /\ ssv s' = tab jp - tab ip) /\ exists q, curve tab leap j = Some q /\ drad s' == q.
Proof.
  intros G N R O. destruct (curve_canon tab leap j R) as (ip & jp & q & E & C & QE). rewrite <- N in E, QE. destruct r as [p [a b | a b | ]]; cbn [fst snd good interpolate] in *.
  - rewrite !andb_true_iff in G. destruct G as [[G1 G2] G3]. apply place_eqb_true in G1. apply pair_eqb_true in G2. rewrite E in G2. injection G2 as -> ->. cbn [s_place psv ssv drad]. split; [exact G1|]. split; [exists ip, jp; auto|].
    exists q. split; [exact C|]. rewrite QE. apply Z.eqb_eq in G3. rewrite G3. change (inject_Z (1 - 1)) with 0. unfold Qdiv. ring.
  - rewrite !andb_true_iff in G. destruct G as [G1 G2]. apply place_eqb_true in G1. apply pair_eqb_true in G2. rewrite E in G2. injection G2 as -> ->. cbn [s_place psv ssv drad]. split; [exact G1|]. split; [exists ip, jp; auto|].
    exists q. split; [exact C|]. rewrite QE, <- G1. unfold bump. cbn [cnt sper]. replace (cnt p + 1 - 1)%Z with (cnt p) by lia. reflexivity.
  - rewrite !andb_true_iff in G. destruct G as [G1 G2]. apply place_eqb_true in G1. apply pair_eqb_true in G2. destruct O as (ip' & jp' & O1 & O2 & O3). assert (ip' = ip /\ jp' = jp) as [-> ->] by (rewrite G2, E in O1; injection O1; auto).
    cbn [s_place psv ssv drad]. split; [exact G1|]. split; [exists ip, jp; auto|]. exists q. split; [exact C|]. rewrite QE, <- G1, O2, O3. unfold bump. cbn [cnt sper]. replace (cnt p + 1 - 1)%Z with (cnt p) by lia. reflexivity.
Qed.
Lemma held_next tab nstep d s : (1 < nstep)%Z -> Valid d -> (1583 <= dy d)%Z -> held tab d s -> exists s', sun_step tab nstep (Next_day d) s = Some s' /\ held tab (Next_day d) s'.
Proof.
  intros NS V Y (F & j & J & DR & IN & OUT). destruct (solar_range d j V Y J) as [R RE]. pose proof (solar_step d j V Y J) as JN. pose proof (solar_next d V Y) as SN.
  unfold sun_step. replace (fst s =? dd (Next_day d))%Z with false by (pose proof (next_dd d V); lia). rewrite JN. unfold locate. replace (nstep =? 1)%Z with false by lia. rewrite leapb.
  destruct ((dm d =? 12) && (dd d =? 21))%Z eqn:C.
  - assert (EL : j = len (leap_year (solar_year d))) by (apply RE; lia). rewrite (OUT EL). set (L' := leap_year (solar_year d + 1)). destruct (firsts L' (leap_year (dy (Next_day d) + 1))) as [FP FE]. rewrite FP.
    eexists. split; [reflexivity|]. unfold held. cbn [fst snd]. split; [reflexivity|]. exists 1%Z. split; [exact JN|]. rewrite SN. fold L'. cbn [interpolate s_place psv ssv drad].
    assert (R1 : (1 <= 1 < len L')%Z) by (destruct L'; unfold len; lia). destruct (curve_canon tab L' 1 R1) as (ip & jp & q & E & CV & QE). rewrite FE in E. injection E as <- <-.
    split; [exists q; split; [exact CV|]; rewrite QE; replace (cnt (canon L' 1) - 1)%Z with 0%Z by (destruct L'; reflexivity); change (inject_Z 0) with 0; unfold Qdiv; ring|].
    split; [intros _; split; [reflexivity|]; exists 356%Z, 10%Z; auto|]. intros X. lia.
  - assert (NL : (j < len (leap_year (solar_year d)))%Z) by (assert (j <> len (leap_year (solar_year d))) by (intros X; apply RE in X; lia); lia). destruct (IN NL) as [PL (ip & jp & E & P1 & P2)]. rewrite PL. set (L := leap_year (solar_year d)) in *.
    set (l' := leap_year (dy (Next_day d) + 1)).
    destruct (Z.eq_dec (j + 1) (len L)) as [X | X].
    + assert (Ej : j = (len L - 1)%Z) by lia. rewrite X, Ej. destruct (lasts L l') as [LA LE]. rewrite LA. eexists. split; [reflexivity|]. unfold held. cbn [fst snd]. split; [reflexivity|]. exists (j + 1)%Z. split; [exact JN|]. rewrite SN. fold L.
      cbn [interpolate s_place psv ssv drad nper lsv cnt sper kck lp5]. rewrite Ej, LE in E. injection E as <- <-. split; [|split; [intros K; lia|]].
      * destruct (curve_last tab L) as (q & Q1 & Q2). exists q. rewrite X. split; [exact Q1|]. rewrite Q2, P1, P2. change (inject_Z 18) with 18. field.
      * intros _. unfold closed, l'. assert (YY : dy (Next_day d) = solar_year d).
        { destruct (solar_range (Next_day d) (j + 1) (next_valid d V) (next_year_ge d V Y) JN) as [_ [K _]]. rewrite SN in K. fold L in K. specialize (K X). rewrite <- SN. unfold solar_year. replace ((dm (Next_day d) =? 12) && (21 <? dd (Next_day d)))%Z with false by lia. reflexivity. }
        rewrite YY. reflexivity.
    + assert (R2 : (1 <= j < len L - 1)%Z) by lia. pose proof (nexts L l' j R2) as G. destruct (next_place l' (j + 1) (canon L j)) as [p u] eqn:EP. eexists. split; [reflexivity|]. unfold held. cbn [fst snd]. split; [reflexivity|]. exists (j + 1)%Z. split; [exact JN|]. rewrite SN. fold L.
      destruct (good_step tab (p, u) (canon L j) (canon L (j + 1)) (snd s) L (j + 1) G eq_refl ltac:(lia)) as (A1 & A2 & A3); [cbn [snd]; destruct u; try exact Logic.I; exists ip, jp; auto|]. cbn [fst snd] in *.
      split; [destruct A3 as (q & Q1 & Q2); exists q; auto|]. split; [intros _; split; [exact A1|exact A2]|]. intros K. lia.
Qed.
Lemma held_first tab d : Valid d -> (1583 <= dy d)%Z -> ~ (dm d = 12 /\ dd d = 21)%Z -> exists s', sun_step tab 1 d sun0 = Some s' /\ held tab d s'.
Proof.
  intros V Y N. destruct (solar_of d V Y) as (a & A & J). set (j := (a - jd_greg (solar_year d - 1) 12 21)%Z) in *. destruct (solar_range d j V Y J) as [R RE]. unfold sun_step, sun0. cbn [fst snd]. destruct V as (V1 & VM & VD & V4).
  replace (0 =? dd d)%Z with false by lia. rewrite J. unfold locate. change (1 =? 1)%Z with true. cbv iota. rewrite leapb.
  assert (NL : (j < len (leap_year (solar_year d)))%Z) by (assert (j <> len (leap_year (solar_year d))) by (intros X; apply RE in X; lia); lia).
  assert (YY : (if (j <? 11)%Z then (dy d + 1)%Z else dy d) = solar_year d).
  { unfold solar_year in *. destruct ((dm d =? 12) && (21 <? dd d))%Z eqn:C.
    - assert (J10 : (j <= 10)%Z); [|replace (j <? 11)%Z with true by lia; reflexivity]. unfold j. replace (dy d + 1 - 1)%Z with (dy d) by lia. destruct d as [y m e]. cbn [dy dm dd] in *. assert (m = 12%Z) by lia. subst m.
      rewrite julday_greg in A; [|unfold Valid; cbn [dy dm dd]; auto|unfold greg; lia]. injection A as <-. unfold jd_greg. unfold Days_in_month in VD. cbn in VD. lia.
    - assert (J11 : (11 <= j)%Z); [|replace (j <? 11)%Z with false by lia; reflexivity]. unfold j. assert (K : (jd_greg (dy d - 1) 12 31 < a)%Z).
      { assert (V31 : Valid (mkdate (dy d - 1) 12 31)) by (unfold Valid; cbn [dy dm dd]; unfold Days_in_month; cbn; lia).
        refine (julday_before (mkdate (dy d - 1) 12 31) d _ _ V31 _ _ (julday_greg _ _ _ V31 _) A); [unfold Valid; auto|unfold Before; cbn [dy]; lia|unfold greg; lia]. }
      unfold jd_greg in *. lia. }
  rewrite YY. set (L := leap_year (solar_year d)) in *. assert (R2 : (1 <= j < len L)%Z) by lia. destruct (starts L j place0 R2) as [G O]. destruct (settle (first_place L j)) as [p u] eqn:EP. cbn [snd] in O.
  eexists. split; [reflexivity|]. unfold held. cbn [fst snd]. split; [reflexivity|]. exists j. split; [exact J|]. fold L.
  destruct (good_step tab (p, u) place0 (canon L j) (mkSun place0 0 0 0) L j G eq_refl R2) as (A1 & A2 & A3); [cbn [snd]; destruct u; [exact Logic.I|exact Logic.I|contradiction]|]. cbn [fst snd] in *.
  split; [destruct A3 as (q & Q1 & Q2); exists q; auto|]. split; [intros _; split; [exact A1|exact A2]|]. intros K. lia.
Qed.
Lemma held_same tab nstep d s : held tab d s -> sun_step tab nstep d s = Some s.
Proof. intros (F & _). unfold sun_step. rewrite F, Z.eqb_refl. reflexivity. Qed.
Lemma run_held tab : forall l nstep d s, (1 < nstep)%Z -> Valid d -> (1583 <= dy d)%Z -> held tab d s -> follow d l ->
  exists o, sun_steps tab nstep l s = Some o /\ length o = length l /\ forall i e v, nth_error l i = Some e -> nth_error o i = Some v -> exists j q, julian "solar" e = Ok j /\ curve tab (leap_year (solar_year e)) j = Some q /\ v == q.
Proof.
  induction l as [|e l IH]; intros nstep d s NS V Y H F; [exists []; split; [reflexivity|]; split; [reflexivity|]; intros [|i] ? ? X; discriminate|]. destruct F as [F0 F]. cbn [sun_steps].
  assert (E : exists s', sun_step tab nstep e s = Some s' /\ held tab e s' /\ Valid e /\ (1583 <= dy e)%Z).
  { destruct F0 as [-> | ->]; [exists s; split; [apply held_same; exact H|auto]|]. destruct (held_next tab nstep d s NS V Y H) as (s' & S1 & S2). exists s'. split; [exact S1|]. split; [exact S2|]. split; [apply next_valid; exact V|apply next_year_ge; assumption]. }
  destruct E as (s' & -> & H' & V' & Y'). destruct (IH (nstep + 1)%Z e s' ltac:(lia) V' Y' H' F) as (o & -> & L & P). eexists. split; [reflexivity|]. split; [cbn; lia|].
  intros [|i] e' v X W; cbn [nth_error] in X, W; [|exact (P i e' v X W)]. injection X as <-. injection W as <-. destruct H' as (_ & j & J & (q & C & D) & _). exists j, q. auto.
Qed.
Lemma run_all tab d l : Valid d -> (1583 <= dy d)%Z -> ~ (dm d = 12 /\ dd d = 21)%Z -> follow d l ->
  exists o, sun_run tab (d :: l) = Some o /\ length o = S (length l) /\ forall i e v, nth_error (d :: l) i = Some e -> nth_error o i = Some v -> exists j q, julian "solar" e = Ok j /\ curve tab (leap_year (solar_year e)) j = Some q /\ v == q.
Proof.
  intros V Y N F. unfold sun_run. cbn [sun_steps]. destruct (held_first tab d V Y N) as (s' & -> & H). destruct (run_held tab l (1 + 1)%Z d s' ltac:(lia) V Y H F) as (o & -> & L & P). eexists. split; [reflexivity|]. split; [cbn; lia|].
  intros [|i] e v X W; cbn [nth_error] in X, W; [|exact (P i e v X W)]. injection X as <-. injection W as <-. destruct H as (_ & j & J & (q & C & D) & _). exists j, q. auto.
Qed.

(** ** Runs that start on 21 December *)
Definition stuck (tab : Z -> Q) (leap : bool) (n : Z) (d : date) (s : Z * sun) : Prop :=
  fst s = dd d /\ s_place (snd s) = mkPlace (len leap) 24 (19 + n) 18 false (if leap then 16%Z else 15%Z) /\ psv (snd s) = tab 10%Z /\ ssv (snd s) = tab 356%Z - tab 10%Z /\
  drad (snd s) == tab 356%Z + inject_Z n / 18 * (tab 356%Z - tab 10%Z).
Lemma stuck_next tab leap nstep n d s j : (1 < nstep)%Z -> Valid d -> stuck tab leap n d s -> julian "solar" (Next_day d) = Ok j -> j <> len leap ->
  exists s', sun_step tab nstep (Next_day d) s = Some s' /\ stuck tab leap (n + 1) (Next_day d) s'.
Proof.
  intros NS V (F & PL & P1 & P2 & D) J N. unfold sun_step. replace (fst s =? dd (Next_day d))%Z with false by (pose proof (next_dd d V); lia). rewrite J. unfold locate. replace (nstep =? 1)%Z with false by lia.
  unfold next_place. rewrite PL. cbn [nper]. replace (len leap =? j)%Z with false by lia. cbn [negb]. eexists. split; [reflexivity|]. unfold stuck. cbn [fst snd interpolate s_place psv ssv drad nper lsv cnt sper kck lp5].
  split; [reflexivity|]. split; [f_equal; lia|]. split; [exact P1|]. split; [exact P2|]. rewrite P1, P2. replace (19 + n)%Z with (18 + (n + 1))%Z by lia. rewrite (inject_Z_plus 18). change (inject_Z 18) with 18. field.
Qed.
Lemma stuck_first tab y : (1583 <= y)%Z -> exists s', sun_step tab 1 (mkdate y 12 21) sun0 = Some s' /\ stuck tab (leap_year y) 0 (mkdate y 12 21) s'.
Proof.
  intros Y. pose proof (dec21_valid y ltac:(lia)) as V. destruct (solar_of _ V Y) as (a & A & J). destruct (solar_range _ _ V Y J) as [R [_ RE]]. specialize (RE (conj eq_refl eq_refl)). change (solar_year (mkdate y 12 21)) with y in *. rewrite RE in J.
  unfold sun_step, sun0. cbn [fst snd dd]. change (0 =? 21)%Z with false. cbv iota. rewrite J. unfold locate. change (1 =? 1)%Z with true. cbv iota. cbn [dy]. replace (len (leap_year y) <? 11)%Z with false by (destruct (leap_year y); reflexivity). rewrite leapb.
  destruct (leap_year y); eexists; (split; [reflexivity|]); unfold stuck; cbn [fst snd dd]; (split; [reflexivity|]); (split; [reflexivity|]); (split; [reflexivity|]); (split; [reflexivity|]); change (tab 10%Z + 18 / 18 * (tab 356%Z - tab 10%Z) == tab 356%Z + 0 / 18 * (tab 356%Z - tab 10%Z)); field.
Qed.
Lemma stuck_run tab leap : forall n nstep m d s, (1 < nstep)%Z -> Valid d -> stuck tab leap m d s -> (forall k, (1 <= k <= n)%nat -> exists j, julian "solar" (After k d) = Ok j /\ j <> len leap) ->
  exists o, sun_steps tab nstep (map (fun k => After k d) (seq 1 n)) s = Some o /\ length o = n /\ forall k v, nth_error o k = Some v -> v == tab 356%Z + inject_Z (m + 1 + Z.of_nat k) / 18 * (tab 356%Z - tab 10%Z).
Proof.
  induction n as [|n IH]; intros nstep m d s NS V H A; [exists []; split; [reflexivity|]; split; [reflexivity|]; intros [|k] v X; discriminate|].
  cbn [seq map sun_steps]. destruct (A 1%nat ltac:(lia)) as (j & J & N). destruct (stuck_next tab leap nstep m d s j NS V H J N) as (s' & E & H'). change (After 1 d) with (Next_day d). rewrite E.
  assert (SH : map (fun k => After k d) (seq 2 n) = map (fun k => After k (Next_day d)) (seq 1 n)).
  { rewrite <- seq_shift, map_map. apply map_ext. intros k. clear. induction k as [|k IHk]; [reflexivity|]. cbn [After] in *. f_equal. exact IHk. }
  assert (SA : forall k, After (S k) d = After k (Next_day d)) by (clear; induction k as [|k IHk]; [reflexivity|]; cbn [After] in *; f_equal; exact IHk).
  rewrite SH. destruct (IH (nstep + 1)%Z (m + 1)%Z (Next_day d) s' ltac:(lia) (next_valid d V) H') as (o & -> & L & P).
  { intros k K. destruct (A (S k) ltac:(lia)) as (j' & J' & N'). rewrite SA in J'. eauto. }
  eexists. split; [reflexivity|]. split; [cbn; lia|]. intros [|k] v X; cbn [nth_error] in X.
  - injection X as <-. destruct H' as (_ & _ & _ & _ & D). rewrite D. replace (m + 1 + Z.of_nat 0)%Z with (m + 1)%Z by lia. reflexivity.
  - rewrite (P k v X). replace (m + 1 + 1 + Z.of_nat k)%Z with (m + 1 + Z.of_nat (S k))%Z by lia. reflexivity.
Qed.
(** The solar days after 21 December. *)
Lemma after_dec21 y : (1583 <= y)%Z -> forall n, (1 <= Z.of_nat n <= len (leap_year (y + 1)))%Z ->
  julian "solar" (After n (mkdate y 12 21)) = Ok (Z.of_nat n) /\ solar_year (After n (mkdate y 12 21)) = (y + 1)%Z /\ Valid (After n (mkdate y 12 21)) /\ (1583 <= dy (After n (mkdate y 12 21)))%Z.
Proof.
  intros Y. pose proof (dec21_valid y ltac:(lia)) as V. destruct (solar_of _ V Y) as (a & A & J).
  induction n as [|n IH]; intros N; [lia|]. destruct n as [|n].
  - cbn [After]. pose proof (solar_step _ _ V Y J) as JN. pose proof (solar_next _ V Y) as SN. cbn [dm dd] in JN, SN. change ((12 =? 12) && (21 =? 21))%Z with true in JN, SN. split; [exact JN|]. split; [exact SN|]. split; [apply next_valid; exact V|apply next_year_ge; assumption].
  - destruct IH as (J1 & S1 & V1 & Y1); [lia|]. change (After (S (S n)) (mkdate y 12 21)) with (Next_day (After (S n) (mkdate y 12 21))). set (d := After (S n) (mkdate y 12 21)) in *.
    destruct (solar_range d _ V1 Y1 J1) as [_ [_ RE]]. rewrite S1 in RE. assert (NC : ((dm d =? 12) && (dd d =? 21))%Z = false).
    { destruct ((dm d =? 12) && (dd d =? 21))%Z eqn:C; [|reflexivity]. specialize (RE ltac:(lia)). lia. }
    pose proof (solar_step d _ V1 Y1 J1) as JN. pose proof (solar_next d V1 Y1) as SN. rewrite NC in *. split; [rewrite JN; f_equal; lia|]. split; [congruence|]. split; [apply next_valid; exact V1|apply next_year_ge; assumption].
Qed.
Lemma year_later y : (1583 <= y)%Z -> forall m, After (Z.to_nat (len (leap_year (y + 1))) + m) (mkdate y 12 21) = After m (mkdate (y + 1) 12 21).
Proof.
  intros Y. set (n := Z.to_nat (len (leap_year (y + 1)))). assert (NN : Z.of_nat n = len (leap_year (y + 1))) by (unfold n; destruct (leap_year (y + 1)); reflexivity).
  assert (E : After n (mkdate y 12 21) = mkdate (y + 1) 12 21).
  { destruct (after_dec21 y Y n) as (J & S1 & V & Y1); [rewrite NN; destruct (leap_year (y + 1)); unfold len; lia|]. destruct (solar_range _ _ V Y1 J) as [_ [K _]]. rewrite S1 in K. specialize (K NN). destruct (After n (mkdate y 12 21)) as [yy mm d0]. cbn [dm dd] in K. destruct K as [-> ->]. unfold solar_year in S1. cbn in S1. rewrite S1. reflexivity. }
  induction m as [|m IH]; [rewrite Nat.add_0_r; exact E|]. rewrite Nat.add_succ_r. cbn [After]. rewrite IH. reflexivity.
Qed.

(** ** Hours of sun *)
Lemma common_empty a b c d : a <= b -> c <= d -> b <= c \/ d <= a -> common a b c d == 0.
Proof.
  intros A B H. unfold common. cbv zeta. destruct (qlt b d) eqn:E1; qprop; destruct (qlt a c) eqn:E2; qprop; match goal with |- context [qlt ?x 0] => destruct (qlt x 0) eqn:E3; qprop end; destruct H; lra.
Qed.
Lemma common_is a b c d : a <= b -> c <= d -> c <= b -> a <= d -> common a b c d == (if qlt b d then b else d) - (if qlt a c then c else a).
Proof.
  intros A B H1 H2. unfold common. cbv zeta. destruct (qlt b d) eqn:E1; qprop; destruct (qlt a c) eqn:E2; qprop; match goal with |- context [qlt ?x 0] => destruct (qlt x 0) eqn:E3; qprop end; lra.
Qed.
Definition meets_hours (ta tb l2 : Q) : Prop := l2 <= pi_ \/ (l2 <= 3 * pi_ / 2 /\ ((ta <= pi_ / 2 /\ tb <= pi_ / 2) \/ (pi_ / 2 <= ta /\ pi_ / 2 <= tb))).
Lemma first_part ta tb l2 : 0 <= ta -> 0 <= tb ->
  let '(t2, t3) := if qle (qmax2 (- ta - l2) (- tb)) (qmin2 (ta - l2) tb) then (qmax2 (- ta - l2) (- tb), qmin2 (ta - l2) tb) else (0, 0) in t3 - t2 == common (- ta - l2) (ta - l2) (- tb) tb.
Proof.
  intros A B. unfold common, qmin2, qmax2. cbv zeta. destruct (qlt tb (ta - l2)) eqn:E1; destruct (qlt (- ta - l2) (- tb)) eqn:E2; destruct (qlt (ta - l2) tb) eqn:E3; qprop; try lra;
  match goal with |- context [qle ?x ?y] => destruct (qle x y) eqn:E4; qprop end; match goal with |- context [qlt ?x 0] => destruct (qlt x 0) eqn:E5; qprop end; lra.
Qed.
Lemma hours_exact ta tb l2 : 0 <= ta <= pi_ -> 0 <= tb <= pi_ -> - pi_ / 2 <= l2 -> meets_hours ta tb l2 ->
  sun_hours false ta tb l2 == (common (- ta - l2) (ta - l2) (- tb) tb + common (- ta - l2 + two_pi) (ta - l2 + two_pi) (- tb) tb + common (- ta - l2 - two_pi) (ta - l2 - two_pi) (- tb) tb) * (38197 # 10000) / 12.
Proof.
  intros [A0 A1] [B0 B1] L M. assert (TP : two_pi == 2 * pi_) by reflexivity. assert (PP : 0 < pi_) by reflexivity. pose proof (first_part ta tb l2 A0 B0) as FP. unfold sun_hours. cbv zeta.
  destruct (if qle (qmax2 (- ta - l2) (- tb)) (qmin2 (ta - l2) tb) then _ else _) as [t2 t3]. unfold meets_hours in M. assert (HP : - pi_ / 2 == - (1 # 2) * pi_) by reflexivity. rewrite HP in L.
  assert (M' : l2 <= pi_ \/ l2 <= (3 # 2) * pi_ /\ (ta <= (1 # 2) * pi_ /\ tb <= (1 # 2) * pi_ \/ (1 # 2) * pi_ <= ta /\ (1 # 2) * pi_ <= tb)).
  { assert (H2 : pi_ / 2 == (1 # 2) * pi_) by reflexivity. assert (H3 : 3 * pi_ / 2 == (3 # 2) * pi_) by reflexivity. rewrite H2, H3 in M. exact M. }
  clear M HP. set (p := pi_) in *. set (w := two_pi) in *. clearbody p w.
  destruct (qlt (- ta - l2 + w) tb) eqn:E1; qprop.
  - rewrite (common_empty (- ta - l2 - w) (ta - l2 - w) (- tb) tb) by (try lra; left; destruct M' as [M | [M [[]|[]]]]; lra).
    rewrite (common_is (- ta - l2 + w) (ta - l2 + w) (- tb) tb) by (destruct M' as [M | [M [[]|[]]]]; lra).
    assert (Y : (if qlt (- ta - l2 + w) (- tb) then - tb else - ta - l2 + w) = - ta - l2 + w) by (rewrite qlt_false; [reflexivity|destruct M' as [M | [M [[]|[]]]]; lra]). rewrite Y.
    assert (X : (if qlt (ta - l2 + w) tb then ta - l2 + w else tb) == tb) by (destruct (qlt (ta - l2 + w) tb) eqn:E2; qprop; [destruct M' as [M | [M [[]|[]]]]; lra|reflexivity]). rewrite X, <- FP. field.
  - rewrite (common_empty (- ta - l2 + w) (ta - l2 + w) (- tb) tb) by (try lra; right; lra). destruct (qlt (- tb) (ta - l2 - w)) eqn:E2; qprop.
    + rewrite (common_is (- ta - l2 - w) (ta - l2 - w) (- tb) tb) by lra. rewrite (qlt_true (- ta - l2 - w) (- tb)) by lra.
      assert (X : (if qlt (ta - l2 - w) tb then ta - l2 - w else tb) == ta - l2 - w) by (destruct (qlt (ta - l2 - w) tb) eqn:E3; qprop; [reflexivity|lra]). rewrite X, <- FP. field.
    + rewrite (common_empty (- ta - l2 - w) (ta - l2 - w) (- tb) tb) by (try lra; left; lra). rewrite <- FP. field.
Qed.
Lemma hours_bounds ta tb l2 : 0 <= ta <= pi_ -> 0 <= tb <= pi_ -> - pi_ / 2 <= l2 -> meets_hours ta tb l2 -> 0 <= sun_hours false ta tb l2 <= sun_hours true ta tb l2.
Proof.
  intros [A0 A1] [B0 B1] L M. assert (TP : two_pi == 2 * pi_) by reflexivity. rewrite (hours_exact ta tb l2) by (try split; assumption). unfold sun_hours. cbv zeta.
  set (c1 := common (- ta - l2) _ _ _). set (c2 := common (- ta - l2 + two_pi) _ _ _). set (c3 := common (- ta - l2 - two_pi) _ _ _).
  assert (C : 0 <= c1 /\ 0 <= c2 /\ 0 <= c3) by (unfold c1, c2, c3, common; cbv zeta; split; [|split]; match goal with |- context [qlt ?x 0] => destruct (qlt x 0) eqn:E; qprop; lra end).
  assert (S : c1 + c2 + c3 <= tb - - tb).
  { clear M. unfold c1, c2, c3, common. cbv zeta. set (w := two_pi) in *. set (p := pi_) in *. clearbody p w. clear c1 c2 c3 C.
    assert (G : forall a b, a <= b -> exists x y, (if qlt ((if qlt b tb then b else tb) - (if qlt a (- tb) then - tb else a)) 0 then 0 else (if qlt b tb then b else tb) - (if qlt a (- tb) then - tb else a)) == y - x /\ x <= y /\ ((x == - tb /\ y == - tb /\ b <= - tb) \/ (x == tb /\ y == tb /\ tb <= a) \/ (a <= x /\ y <= b /\ - tb <= x /\ y <= tb))).
    { intros a b AB. destruct (Qlt_le_dec b (- tb)) as [H1 | H1]; [exists (- tb), (- tb)|destruct (Qlt_le_dec tb a) as [H2 | H2]; [exists tb, tb|exists (if qlt a (- tb) then - tb else a), (if qlt b tb then b else tb)]].
      - split; [|split; [lra|left; repeat split; lra]]. destruct (qlt b tb) eqn:E1; qprop; destruct (qlt a (- tb)) eqn:E2; qprop; match goal with |- context [qlt ?x 0] => destruct (qlt x 0) eqn:E3; qprop end; lra.
      - split; [|split; [lra|right; left; repeat split; lra]]. destruct (qlt b tb) eqn:E1; qprop; destruct (qlt a (- tb)) eqn:E2; qprop; match goal with |- context [qlt ?x 0] => destruct (qlt x 0) eqn:E3; qprop end; lra.
      - split; [|split; [|right; right]]; destruct (qlt b tb) eqn:E1; qprop; destruct (qlt a (- tb)) eqn:E2; qprop; try (repeat split; lra); match goal with |- context [qlt ?x 0] => destruct (qlt x 0) eqn:E3; qprop end; lra. }
    destruct (G (- ta - l2) (ta - l2) ltac:(lra)) as (x1 & y1 & -> & O1 & D1). destruct (G (- ta - l2 + w) (ta - l2 + w) ltac:(lra)) as (x2 & y2 & -> & O2 & D2). destruct (G (- ta - l2 - w) (ta - l2 - w) ltac:(lra)) as (x3 & y3 & -> & O3 & D3).
    destruct D1 as [(?&?&?)|[(?&?&?)|(?&?&?&?)]]; destruct D2 as [(?&?&?)|[(?&?&?)|(?&?&?&?)]]; destruct D3 as [(?&?&?)|[(?&?&?)|(?&?&?&?)]]; lra. }
  set (c := c1 + c2 + c3) in *. assert (C0 : 0 <= c) by (unfold c; lra). unfold Qdiv. change (/ 12) with (1 # 12). split; lra.
Qed.
Lemma spot_over : forall l y, Forall (fun k => (0 < snd k)%Z) l -> (fold_right Z.add 0 (map snd l) <= y)%Z -> spot y l = if (y =? fold_right Z.add 0 (map snd l))%Z then Some (356, 356, 0, 1)%Z else None.
Proof.
  induction l as [|[a n] l IH]; intros y F L; cbn [spot map snd fold_right] in *; [reflexivity|]. inversion F as [|? ? F1 F']; subst. cbn [snd] in F1.
  assert (P : (0 <= fold_right Z.add 0 (map snd l))%Z) by (clear -F'; induction F' as [|k l H F IH]; cbn; lia). replace (y <? n)%Z with false by lia. rewrite IH by (try assumption; lia).
  replace (y - n =? fold_right Z.add 0 (map snd l))%Z with (y =? n + fold_right Z.add 0 (map snd l))%Z by lia. reflexivity.
Qed.
Lemma spot_knots leap j : (len leap <= j)%Z -> spot (j - 1) (knots leap) = if (j =? len leap)%Z then Some (356, 356, 0, 1)%Z else None.
Proof.
  intros L. assert (E : fold_right Z.add 0%Z (map snd (knots leap)) = (len leap - 1)%Z) by (destruct leap; reflexivity). rewrite spot_over; rewrite ?E; [|destruct leap; repeat (apply Forall_cons; [reflexivity|]); apply Forall_nil|lia].
  replace (j - 1 =? len leap - 1)%Z with (j =? len leap)%Z by lia. reflexivity.
Qed.
