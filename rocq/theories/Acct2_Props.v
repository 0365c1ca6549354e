(** C87 and C89, continued: which calls reach the account of the unsaturated zone, and the deltas of flows. *)
From Coq Require Import ZArith QArith Qfield List Bool Lia Lqa ZifyBool.
From Verif Require Import Qx Soln_Model Acct_Model Acct_Spec Acct_Proofs Acct2_Proofs Acct3_Proofs
  Acct4_Proofs Acct5_Proofs Acct_Props.
Import ListNotations.
Local Open Scope Q_scope.

(** ** The account of the unsaturated zone *)
Definition three (s : acct) : (Z -> geo) * (Z -> geo) * (Z -> geo) := (uzg s, uzr s, uzu s).
Lemma three_into k e b m h f s : three (into k e b m false h f s) = three s.
Proof. unfold into. cbv zeta. destruct b, m, h; reflexivity. Qed.
Lemma three_cc i f s : three (on_cc i f s) = three s. Proof. reflexivity. Qed.
Lemma three_bas f s : three (on_bas f s) = three s. Proof. reflexivity. Qed.
Lemma three_hyd f s : three (on_hyd f s) = three s. Proof. reflexivity. Qed.

Section Other.
Variables (k : cfg) (e : call).
Hypothesis U : is_unsat e = false.
Lemma three_water s : three (book_water k e s) = three s.
Proof. unfold book_water. cbv zeta. now rewrite U, three_into, three_cc. Qed.
Lemma three_solute v w n : three (fst (book_solute k e v w n)) = three (fst w).
Proof.
  destruct w as [s nis]. unfold book_solute. cbv zeta. cbn [fst]. rewrite U, three_into.
  destruct (iso k n); [destruct (is_stream e && react e); rewrite ?three_cc |];
    destruct (negb (is_direct e) && is_stream e && react e && (column e =? 3)%Z); rewrite ?three_cc; reflexivity.
Qed.
Lemma three_fold {A B} (f : acct * A -> B -> acct * A) : (forall w x, three (fst (f w x)) = three (fst w)) ->
  forall l w, three (fst (fold_left f l w)) = three (fst w).
Proof. intros H. induction l as [| x l IH]; intros w; [reflexivity |]. cbn [fold_left]. now rewrite IH, H. Qed.
Lemma three_fold1 {B} (f : acct -> B -> acct) : (forall w x, three (f w x) = three w) ->
  forall l w, three (fold_left f l w) = three w.
Proof. intros H. induction l as [| x l IH]; intros w; [reflexivity |]. cbn [fold_left]. now rewrite IH, H. Qed.
Lemma three_mass s : three (book_mass k e s) = three s.
Proof. unfold book_mass. destruct (column e =? 1)%Z; [| reflexivity]. apply three_fold1. intros; apply three_cc. Qed.
Lemma three_final v s : three (book_final k e v s) = three s.
Proof.
  unfold book_final. cbv zeta. destruct (is_stream e); [destruct (1 <? ih_ e)%Z; reflexivity |].
  now rewrite U, !three_into, three_bas.
Qed.
Lemma three_reaction r w n : three (fst (book_reaction k e r w n)) = three (fst w).
Proof.
  destruct w as [s nis]. unfold book_reaction. cbv zeta.
  set (s1 := on_cc (indx e) (set_mol n c_fin _) s).
  set (s2 := if iso k n then into k e true (is_mru e) (is_unsat e) (is_stream e) _ _ else _).
  assert (E2 : three s2 = three s).
  { unfold s2. destruct (iso k n); [rewrite U, three_into |]; rewrite three_cc; apply three_cc. }
  set (s3 := if negb (ih_ e =? 1)%Z then _ else _).
  assert (E3 : three s3 = three s) by (unfold s3; destruct (negb (ih_ e =? 1)%Z); rewrite ?three_bas; exact E2).
  set (s4 := into k e false (is_mru e) (is_unsat e) (is_stream e) _ s3).
  assert (E4 : three s4 = three s) by (unfold s4; rewrite U, three_into; exact E3).
  destruct (if iso k n then (s4, 0) else fold_left (book_entity k e r n) (entities k) (s4, 0)) as [s5 sum] eqn:E5.
  assert (T5 : three s5 = three s).
  { destruct (iso k n); [injection E5 as <- _; exact E4 |]. change s5 with (fst (s5, sum)). rewrite <- E5.
    rewrite three_fold; [exact E4 |]. intros [x y] j. unfold book_entity. cbv zeta. cbn [fst]. now rewrite U, three_into, three_cc. }
  cbn [fst]. rewrite U, three_into, three_cc. exact T5.
Qed.
Lemma three_update s : three (update_chem k s e) = three s.
Proof.
  unfold update_chem. cbv zeta.
  assert (E : forall v, three (book_mass k e (fst (fold_left (book_solute k e v) (solutes k) (book_water k e s, 0%Z)))) = three s).
  { intros v. rewrite three_mass, three_fold by (intros; apply three_solute). apply three_water. }
  destruct (react e); [| apply E]. unfold book_change. rewrite three_fold1 by (intros; apply three_cc).
  rewrite three_fold by (intros; apply three_reaction). cbn [fst]. rewrite three_final. apply E.
Qed.
End Other.

Lemma uzg_into k e b m u h f s i : uzg (into k e b m u h f s) i = if u && (i =? is_ e)%Z then f (uzg s i) else uzg s i.
Proof.
  unfold into. cbv zeta.
  assert (E : forall x, uzg (if u then on_uz (rip k (ia_ e) (is_ e)) (is_ e) f x else x) i = if u && (i =? is_ e)%Z then f (uzg x i) else uzg x i).
  { intros x. destruct u; [| reflexivity]. cbn [andb]. unfold on_uz. destruct (rip k (ia_ e) (is_ e)); cbn [uzg]; unfold upd; destruct (Z.eqb_spec i (is_ e)); subst; reflexivity. }
  destruct h; cbn [uzg on_hyd]; rewrite E; destruct b, m; reflexivity.
Qed.
(** The inputs and outputs of water, columns 2 and 3 of the unsaturated zone, are written by [book_water] only. *)
Section Flow.
Variables (k : cfg) (e : call) (i c : Z).
Hypothesis C : (c = 2 \/ c = 3)%Z.
Definition wet (s : acct) : Q := vol (uzg s i) c.
Lemma wet_into b m u h f s : (forall g, vol (f g) c = vol g c) -> wet (into k e b m u h f s) = wet s.
Proof. intros H. unfold wet. rewrite uzg_into. destruct (u && (i =? is_ e)%Z); [apply H | reflexivity]. Qed.
Lemma wet_fold {A B} (f : acct * A -> B -> acct * A) : (forall w x, wet (fst (f w x)) = wet (fst w)) ->
  forall l w, wet (fst (fold_left f l w)) = wet (fst w).
Proof. intros H. induction l as [| x l IH]; intros w; [reflexivity |]. cbn [fold_left]. now rewrite IH, H. Qed.
Lemma wet_fold1 {B} (f : acct -> B -> acct) : (forall w x, wet (f w x) = wet w) -> forall l w, wet (fold_left f l w) = wet w.
Proof. intros H. induction l as [| x l IH]; intros w; [reflexivity |]. cbn [fold_left]. now rewrite IH, H. Qed.
Lemma wet_solute v w n : wet (fst (book_solute k e v w n)) = wet (fst w).
Proof.
  destruct w as [s nis]. unfold book_solute. cbv zeta. cbn [fst]. rewrite wet_into by (intros g; destruct (iso k n); reflexivity).
  destruct (iso k n); [destruct (is_stream e && react e) |];
    destruct (negb (is_direct e) && is_stream e && react e && (column e =? 3)%Z); reflexivity.
Qed.
Lemma wet_mass s : wet (book_mass k e s) = wet s.
Proof. unfold book_mass. destruct (column e =? 1)%Z; [| reflexivity]. apply wet_fold1. reflexivity. Qed.
Lemma wet_final v s : wet (book_final k e v s) = wet s.
Proof.
  unfold book_final. cbv zeta. destruct (is_stream e); [destruct (1 <? ih_ e)%Z; reflexivity |].
  rewrite wet_into by (intros g; cbn [vol add_vol set_vol]; unfold upd, c_rxn; destruct (Z.eqb_spec c 4); [lia | reflexivity]).
  rewrite wet_into by (intros g; cbn [vol add_pH set_pH add_temp set_temp add_vol set_vol]; unfold upd, c_fin; destruct (Z.eqb_spec c 5); [lia | reflexivity]).
  reflexivity.
Qed.
Lemma wet_reaction r w n : wet (fst (book_reaction k e r w n)) = wet (fst w).
Proof.
  destruct w as [s nis]. unfold book_reaction. cbv zeta.
  set (s2 := if iso k n then into k e true (is_mru e) (is_unsat e) (is_stream e) _ _ else _).
  assert (E2 : wet s2 = wet s).
  { unfold s2. destruct (iso k n); [rewrite wet_into by reflexivity |]; reflexivity. }
  set (s3 := if negb (ih_ e =? 1)%Z then _ else _).
  assert (E3 : wet s3 = wet s) by (unfold s3; destruct (negb (ih_ e =? 1)%Z); exact E2).
  set (s4 := into k e false (is_mru e) (is_unsat e) (is_stream e) _ s3).
  assert (E4 : wet s4 = wet s) by (unfold s4; rewrite wet_into by reflexivity; exact E3).
  destruct (if iso k n then (s4, 0) else fold_left (book_entity k e r n) (entities k) (s4, 0)) as [s5 sum] eqn:E5.
  assert (T5 : wet s5 = wet s).
  { destruct (iso k n); [injection E5 as <- _; exact E4 |]. change s5 with (fst (s5, sum)). rewrite <- E5.
    rewrite wet_fold; [exact E4 |]. intros [x y] j. unfold book_entity. cbv zeta. cbn [fst]. rewrite wet_into by reflexivity. reflexivity. }
  cbn [fst]. rewrite wet_into by reflexivity. exact T5.
Qed.
Lemma wet_water s : column e = c ->
  wet (book_water k e s) = if is_unsat e && (i =? is_ e)%Z then wet s + totvol e else wet s.
Proof.
  intros Co. assert (F : is_flow e = true) by (unfold is_flow; rewrite Co; lia).
  unfold book_water. cbv zeta. unfold wet. rewrite uzg_into. destruct (is_unsat e && (i =? is_ e)%Z); [| reflexivity].
  cbn [vol add_pH set_pH add_temp set_temp add_vol set_vol]. rewrite Co. unfold upd at 1. rewrite Z.eqb_refl. unfold moved. rewrite F. reflexivity.
Qed.
Lemma wet_update s : column e = c ->
  wet (update_chem k s e) = if is_unsat e && (i =? is_ e)%Z then wet s + totvol e else wet s.
Proof.
  intros Co. rewrite <- (wet_water s Co). unfold update_chem. cbv zeta.
  assert (E : forall v, wet (book_mass k e (fst (fold_left (book_solute k e v) (solutes k) (book_water k e s, 0%Z)))) = wet (book_water k e s)).
  { intros v. rewrite wet_mass, wet_fold by (intros; apply wet_solute). reflexivity. }
  destruct (react e); [| apply E]. unfold book_change. rewrite wet_fold1 by reflexivity.
  rewrite wet_fold by (intros; apply wet_reaction). cbn [fst]. rewrite wet_final. apply E.
Qed.
End Flow.

(** The account of the unsaturated zone of a hillslope gets the water of the calls for its unsaturated reservoirs (kind 5), and
    of no other call; a call for another kind of reservoir changes nothing in it or in its two parts. *)
Theorem C87_booked : forall k s e i c,
  (restype e <> 5%Z -> uzg (update_chem k s e) = uzg s /\ uzr (update_chem k s e) = uzr s /\ uzu (update_chem k s e) = uzu s) /\
  (restype e = 5%Z -> In (imetric e, c) [(0, 2); (2, 2); (3, 3)]%Z ->
   (i = is_ e -> vol (uzg (update_chem k s e) i) c == vol (uzg s i) c + totvol e) /\
   (i <> is_ e -> vol (uzg (update_chem k s e) i) c == vol (uzg s i) c)).
Proof.
  intros k s e i c. split.
  - intros R. assert (U : is_unsat e = false) by (unfold is_unsat; lia). pose proof (three_update k e U s) as T. unfold three in T.
    injection T as T1 T2 T3. auto.
  - intros R M. assert (U : is_unsat e = true) by (unfold is_unsat, is_mru; lia).
    assert (Co : column e = c /\ (c = 2 \/ c = 3)%Z).
    { cbn [In] in M. unfold column. destruct M as [M | [M | [M | []]]]; injection M as M1 M2; rewrite <- M1; cbn [Z.eqb Pos.eqb]; lia. }
    destruct Co as [Co C]. pose proof (wet_update k e i c C s Co) as W. unfold wet in W. rewrite U in W. cbn [andb] in W.
    split; intros H; rewrite W; [rewrite H, Z.eqb_refl | replace (i =? is_ e)%Z with false by lia]; reflexivity.
Qed.
Print Assumptions C87_booked.

(** ** Deltas of flows *)
Lemma solute_own k e v s nis n : is_stream e && react e = false ->
  let w := book_solute k e v (s, nis) n in
  dlt (cc (fst w) (indx e)) n (column e) =
    (if iso k n then dlt (cc s (indx e)) n (column e) + conc e (nsol k + (nis + 1))%Z * v else dlt (cc s (indx e)) n (column e)) /\
  snd w = (nis + if iso k n then 1 else 0)%Z.
Proof.
  intros S. cbv zeta. unfold book_solute. cbv zeta. cbn [fst snd]. rewrite cc_into.
  assert (S' : negb (is_direct e) && is_stream e && react e && (column e =? 3)%Z = false).
  { destruct (is_stream e), (react e), (is_direct e), (column e =? 3)%Z; try discriminate; reflexivity. }
  rewrite S'. split; [| destruct (iso k n); lia].
  destruct (iso k n).
  - rewrite S, cc_same. cbn [dlt add_dlt set_dlt]. rewrite upd2_same, cc_same.
    destruct (is_direct e); [| destruct (negb (is_stream e))]; reflexivity.
  - rewrite cc_same. destruct (is_direct e); [| destruct (negb (is_stream e))]; reflexivity.
Qed.
Lemma solute_rank k e v : is_stream e && react e = false -> forall l w, snd (fold_left (book_solute k e v) l w) = (snd w + Z.of_nat (length (filter (iso k) l)))%Z.
Proof.
  intros S. induction l as [| n l IH]; intros [s nis]; [cbn; lia |]. cbn [fold_left]. rewrite IH.
  pose proof (solute_own k e v s nis n S) as (_ & H). cbv zeta in H. rewrite H. cbn [snd filter]. destruct (iso k n); cbn [length]; lia.
Qed.
(** A flow of a reservoir that is not a reacting stream segment carries the delta of each isotope, in the order of the isotopes, times its water. *)
Theorem C89_flow_delta : forall k s e n c, In (imetric e, c) [(0, 2); (2, 2); (3, 3)]%Z -> react e = false ->
  (1 <= n <= nsol k)%Z ->
  dlt (cc (update_chem k s e) (indx e)) n c ==
    if iso k n then dlt (cc s (indx e)) n c + conc e (nsol k + rank k n)%Z * totvol e else dlt (cc s (indx e)) n c.
Proof.
  intros k s e n c M R N.
  assert (C : column e = c /\ (c = 2 \/ c = 3)%Z).
  { cbn [In] in M. unfold column. destruct M as [M | [M | [M | []]]]; injection M as M1 M2; rewrite <- M1; cbn [Z.eqb Pos.eqb]; lia. }
  destruct C as (C & C23). assert (FL : is_flow e = true) by (unfold is_flow; rewrite C; lia).
  assert (S : is_stream e && react e = false) by (rewrite R; apply andb_false_r).
  unfold update_chem. cbv zeta. rewrite R. set (v := moved s e). assert (V : v = totvol e) by (unfold v, moved; now rewrite FL).
  set (w0 := (book_water k e s, 0%Z)).
  pose proof (mass_keep k e (fst (fold_left (book_solute k e v) (solutes k) w0)) (indx e)) as K. cbv zeta in K.
  destruct K as (_ & _ & _ & _ & K & _). rewrite K. clear K.
  unfold solutes. rewrite (upto_split 1 (nsol k) n N), fold_left_app. cbn [fold_left].
  pose proof (solute_fold_keep k e v (indx e) (upto 1 (n - 1)) w0) as A. cbv zeta in A. destruct A as [_ A].
  specialize (A n c ltac:(rewrite in_upto; lia)). destruct A as [_ A]. unfold w0 in A at 2. cbn [fst] in A.
  pose proof (water_cc k e s (indx e)) as W. cbv zeta in W. destruct W as (_ & W & _). rewrite W in A. clear W.
  pose proof (solute_rank k e v S (upto 1 (n - 1)) w0) as Rk. unfold w0 in Rk at 2. cbn [snd] in Rk.
  destruct (fold_left (book_solute k e v) (upto 1 (n - 1)) w0) as [sa na]. cbn [fst snd] in *.
  pose proof (solute_fold_keep k e v (indx e) (upto (n + 1) (nsol k)) (book_solute k e v (sa, na) n)) as B. cbv zeta in B. destruct B as [_ B].
  specialize (B n c ltac:(rewrite in_upto; lia)). destruct B as [_ B]. rewrite B. clear B.
  pose proof (solute_own k e v sa na n S) as (O & _). cbv zeta in O. rewrite C in O. rewrite O, A, V.
  destruct (iso k n) eqn:I; [| reflexivity].
  assert (E : (na + 1 = rank k n)%Z).
  { unfold rank. replace n with (n - 1 + 1)%Z at 1 by lia. rewrite upto_snoc by lia. rewrite filter_app, app_length. cbn [filter]. replace (n - 1 + 1)%Z with n by lia.
    rewrite I. cbn [length]. lia. }
  rewrite E. reflexivity.
Qed.
Print Assumptions C89_flow_delta.
(** Rain with a delta of -8 on reservoir 11: 2 m3 with one isotope, the second of two solutes. *)
Example C89_flow_delta_case :
  let k := {| nsol := 2; nrows := 2; ncols := 3; iso := fun n => (n =? 2)%Z; tly := fun _ => 1%Z; tlye := fun _ => 2%Z;
              mult := fun _ => 1; rip := fun ia _ => (ia <=? 2)%Z; vstream := inject_Z; qout := 4 |} in
  let e := {| indx := 11%Z; totvol := 2; imetric := 2; conc := fun j => if (j =? 3)%Z then -8 else 1; apH := 7; tempc := 10;
              tally := tb; mrubnd := true; basbnd := true; restype := 5; react := false; is_ := 1%Z; ia_ := 1%Z; ih_ := 0%Z |} in
  rank k 2 = 1%Z /\ dlt (cc (update_chem k nothing e) 11%Z) 2 2 == -16 /\ vol (uzg (update_chem k nothing e) 1%Z) 2 == 2.
Proof. vm_compute. repeat split; reflexivity. Qed.
