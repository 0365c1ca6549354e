(** The account of the streams, and mean temperatures of inflow. *)
From Coq Require Import ZArith QArith Qfield List Bool Lia Lqa ZifyBool.
From Verif Require Import Qx Soln_Model Acct_Model Acct_Spec Acct_Proofs Acct3_Proofs Acct4_Proofs.
Import ListNotations.
Local Open Scope Q_scope.

Lemma hyd_into k e b m u h f s : hyd (into k e b m u h f s) = if h then f (hyd s) else hyd s.
Proof.
  assert (U : forall b i f s, hyd (on_uz b i f s) = hyd s) by (intros [] *; reflexivity).
  unfold into. cbv zeta. destruct h; cbn [hyd on_hyd]; (destruct u; rewrite ?U);
    (destruct m; cbn [hyd on_mru]); destruct b; reflexivity.
Qed.
Lemma hyd_cc i f s : hyd (on_cc i f s) = hyd s. Proof. reflexivity. Qed.
Lemma hyd_bas f s : hyd (on_bas f s) = hyd s. Proof. reflexivity. Qed.

Lemma hv_solute k e v : forall l w,
  vol (hyd (fst (fold_left (book_solute k e v) l w))) = vol (hyd (fst w)).
Proof.
  induction l as [| n l IH]; intros w; cbn [fold_left]; [reflexivity |]. rewrite IH.
  destruct w as [s nis]. unfold book_solute. cbv zeta. cbn [fst]. rewrite hyd_into.
  match goal with |- vol (if _ then _ else hyd ?x) = _ => assert (E : hyd x = hyd s) end.
  { destruct (iso k n); [destruct (is_stream e && react e) |];
      destruct (negb (is_direct e) && is_stream e && react e && (column e =? 3)%Z); reflexivity. }
  rewrite E. destruct (to_hyd e); [| reflexivity]. destruct (iso k n); reflexivity.
Qed.
Lemma hv_mass k e s : hyd (book_mass k e s) = hyd s.
Proof.
  unfold book_mass. destruct (column e =? 1)%Z; [| reflexivity].
  generalize (entities k). intros l. revert s. induction l as [| j l IH]; intros s; cbn [fold_left]; [reflexivity |].
  now rewrite IH.
Qed.
Lemma hv_change k e s : hyd (book_change k e s) = hyd s.
Proof.
  unfold book_change. generalize (entities k). intros l. revert s.
  induction l as [| j l IH]; intros s; cbn [fold_left]; [reflexivity |]. now rewrite IH.
Qed.
Lemma hv_entity k e r n : forall l w,
  vol (hyd (fst (fold_left (book_entity k e r n) l w))) = vol (hyd (fst w)).
Proof.
  induction l as [| j l IH]; intros w; cbn [fold_left]; [reflexivity |]. rewrite IH.
  destruct w as [s x]. unfold book_entity. cbv zeta. cbn [fst]. rewrite hyd_into, hyd_cc.
  destruct (is_stream e); reflexivity.
Qed.
Lemma hv_reaction k e r : forall l w,
  vol (hyd (fst (fold_left (book_reaction k e r) l w))) = vol (hyd (fst w)).
Proof.
  induction l as [| n l IH]; intros w; cbn [fold_left]; [reflexivity |]. rewrite IH.
  destruct w as [s nis]. unfold book_reaction. cbv zeta.
  match goal with |- context [if iso k n then (?x, 0) else ?y] => set (s3 := x) end.
  assert (C3 : vol (hyd s3) = vol (hyd s)).
  { unfold s3. rewrite hyd_into.
    destruct (negb (ih_ e =? 1)%Z); rewrite ?hyd_bas; (destruct (iso k n);
      rewrite ?hyd_into, ?hyd_cc; destruct (is_stream e); reflexivity). }
  clearbody s3.
  assert (C4 : vol (hyd (fst (if iso k n then (s3, 0)
                        else fold_left (book_entity k e r n) (entities k) (s3, 0)))) = vol (hyd s)).
  { destruct (iso k n); [exact C3 |]. rewrite hv_entity. exact C3. }
  destruct (if iso k n then (s3, 0) else _) as [s4 sum]. cbn [fst] in *.
  rewrite hyd_into, hyd_cc. destruct (is_stream e); exact C4.
Qed.

Lemma hv_update k s e c : is_stream e = true -> In (column e) [2; 3]%Z ->
  let a := fun c => if to_hyd e && (c =? column e)%Z then vol (hyd s) c + totvol e else vol (hyd s) c in
  vol (hyd (update_chem k s e)) c =
  if react e && (1 <? ih_ e)%Z && (c =? 5)%Z then a (column e) + vstream k (ih_ e - 1)%Z else a c.
Proof.
  intros ST C. cbv zeta. unfold update_chem. cbv zeta.
  set (s1 := book_mass k e _).
  assert (V : forall d, vol (hyd s1) d =
    if to_hyd e && (d =? column e)%Z then vol (hyd s) d + totvol e else vol (hyd s) d).
  { intros d. unfold s1. rewrite hv_mass, hv_solute. cbn [fst]. unfold book_water. cbv zeta.
    rewrite hyd_into, hyd_cc. destruct (to_hyd e); [| reflexivity]. cbn [vol add_pH set_pH add_temp set_temp add_vol set_vol andb].
    unfold upd, moved, is_flow. replace ((column e =? 3)%Z || (column e =? 2)%Z) with true
      by (cbn [In] in C; lia).
    destruct (Z.eqb_spec d (column e)) as [-> | ]; reflexivity. }
  clearbody s1. destruct (react e) eqn:R; [| apply V].
  rewrite hv_change, hv_reaction. cbn [fst]. unfold book_final, reacting. cbv zeta. rewrite ST. cbn [andb].
  destruct (1 <? ih_ e)%Z eqn:I; cbn [andb].
  - cbn [hyd on_hyd on_bas vol add_pH set_pH add_temp set_temp set_vol]. unfold upd, c_fin.
    destruct (Z.eqb_spec c 5) as [-> | N]; [now rewrite V | apply V].
  - rewrite hyd_bas. apply V.
Qed.

Section Streams.
Variables (k : cfg) (w : reach).
Notation hv s c := (vol (hyd s) c).

Lemma hv_call s ih i v im m b r c : (0 < ih < e8)%Z -> In im [2; 3]%Z ->
  let a := fun c => if ((ih =? 1)%Z || negb r) && (c =? im)%Z then hv s c + v else hv s c in
  hv (update_chem k s (call_of w ih i v im m b r)) c =
  if r && (1 <? ih)%Z && (c =? 5)%Z then a im + vstream k (ih - 1)%Z else a c.
Proof.
  intros H I. cbv zeta.
  assert (C : column (call_of w ih i v im m b r) = im).
  { unfold column, call_of. cbn [imetric]. cbn [In] in I. destruct I as [<- | [<- | []]]; reflexivity. }
  assert (ST : is_stream (call_of w ih i v im m b r) = true) by (apply call_stream; lia).
  rewrite hv_update; [| exact ST | rewrite C; exact I]. cbv zeta. rewrite C.
  unfold to_hyd. rewrite ST. reflexivity.
Qed.

Lemma hv_segment s ih : (0 < ih < e8)%Z -> 0 < onward k ih + away w ih ->
  hv (segment k w s ih) 2%Z == hv s 2%Z + (water_in w ih + if (1 <? ih)%Z then vstream k (ih - 1)%Z else 0) /\
  hv (segment k w s ih) 3%Z == hv s 3%Z + (away w ih + if (1 <? ih)%Z then 0 else qout k) /\
  ((1 < ih)%Z -> hv (segment k w s ih) 5%Z == hv s 3%Z + away w ih + vstream k (ih - 1)%Z) /\
  (ih = 1%Z -> hv (segment k w s ih) 5%Z == hv s 5%Z).
Proof.
  intros H P. rewrite segment_halves. cbv zeta. apply qlt_true in P. rewrite P.
  assert (F : forall c, hv (first_half k w s ih) c ==
     if (c =? 2)%Z then hv s c + water_in w ih else hv s c).
  { intros c. unfold first_half, water_in. cbv zeta. destruct (qlt 0 (hills w ih)).
    - rewrite hv_call by (cbn; auto). cbv zeta. cbn [andb negb]. rewrite orb_true_r. cbn [andb].
      destruct (c =? 2)%Z; reflexivity.
    - rewrite hyd_cc. destruct (c =? 2)%Z; ring. }
  unfold onward in *. destruct (1 <? ih)%Z eqn:I.
  - assert (I1 : (ih =? 1)%Z = false) by lia.
    split; [| split; [| split; [intros _ | lia]]].
    + rewrite hv_call by (cbn; auto). cbv zeta. cbn [andb negb]. rewrite I1. cbn [orb andb Z.eqb Pos.eqb].
      rewrite hv_call by (cbn; auto). cbv zeta. rewrite I1. cbn [orb andb negb Z.eqb Pos.eqb].
      rewrite andb_false_r.
      rewrite hv_call by (cbn; auto). cbv zeta. rewrite I1. cbn [orb andb negb Z.eqb Pos.eqb].
      rewrite F. cbn [Z.eqb Pos.eqb]. ring.
    + rewrite hv_call by (cbn; auto). cbv zeta. cbn [andb negb]. rewrite I1. cbn [orb andb Z.eqb Pos.eqb].
      rewrite hv_call by (cbn; auto). cbv zeta. rewrite I1. cbn [orb andb negb Z.eqb Pos.eqb].
      rewrite andb_false_r.
      rewrite hv_call by (cbn; auto). cbv zeta. rewrite I1. cbn [orb andb negb Z.eqb Pos.eqb].
      rewrite F. cbn [Z.eqb Pos.eqb]. ring.
    + rewrite hv_call by (cbn; auto). cbv zeta. cbn [andb negb]. rewrite I1. cbn [orb andb Z.eqb Pos.eqb].
      rewrite hv_call by (cbn; auto). cbv zeta. rewrite I1, I. cbn [orb andb negb Z.eqb Pos.eqb].
      rewrite hv_call by (cbn; auto). cbv zeta. rewrite I1. cbn [orb andb negb Z.eqb Pos.eqb].
      rewrite F. cbn [Z.eqb Pos.eqb]. ring.
  - assert (ih = 1)%Z by lia. subst ih.
    split; [| split; [| split; [lia | intros _]]].
    + rewrite hv_call by (cbn; auto). cbv zeta. cbn [andb negb orb Z.eqb Pos.eqb Z.ltb Z.compare Pos.compare Pos.compare_cont].
      rewrite hv_call by (cbn; auto). cbv zeta. cbn [andb negb orb Z.eqb Pos.eqb].
      rewrite F. cbn [Z.eqb Pos.eqb]. ring.
    + rewrite hv_call by (cbn; auto). cbv zeta. cbn [andb negb orb Z.eqb Pos.eqb Z.ltb Z.compare Pos.compare Pos.compare_cont].
      rewrite hv_call by (cbn; auto). cbv zeta. cbn [andb negb orb Z.eqb Pos.eqb].
      rewrite F. cbn [Z.eqb Pos.eqb]. ring.
    + rewrite hv_call by (cbn; auto). cbv zeta. cbn [andb negb orb Z.eqb Pos.eqb Z.ltb Z.compare Pos.compare Pos.compare_cont].
      rewrite hv_call by (cbn; auto). cbv zeta. cbn [andb negb orb Z.eqb Pos.eqb].
      rewrite F. cbn [Z.eqb Pos.eqb]. ring.
Qed.

Lemma hv_fold : forall (l : list Z) s, (forall ih, In ih l -> (1 < ih < e8)%Z /\ 0 < vstream k (ih - 1)%Z + away w ih) ->
  let s' := fold_left (segment k w) l s in
  hv s' 2%Z == hv s 2%Z + qsum (map (water_in w) l) + qsum (map (fun ih => vstream k (ih - 1)%Z) l) /\
  hv s' 3%Z == hv s 3%Z + qsum (map (away w) l).
Proof.
  induction l as [| ih l IH]; intros s H; cbv zeta; cbn [fold_left map qsum]; [split; ring |].
  destruct (H ih (or_introl eq_refl)) as [A B].
  destruct (hv_segment s ih) as (X & Y & _); [lia | |].
  { unfold onward. replace (1 <? ih)%Z with true by lia. exact B. }
  replace (1 <? ih)%Z with true in X, Y by lia.
  destruct (IH (segment k w s ih)) as [U V]; [intros z Z'; apply H; now right |]. cbv zeta in U, V.
  rewrite U, V, X, Y. split; ring.
Qed.

Lemma qsum_perm_snoc a l : qsum (l ++ [a]) == a + qsum l.
Proof. rewrite qsum_app. cbn [qsum]. ring. Qed.
Lemma qsum_rev (f : Z -> Q) l : qsum (map f (rev l)) == qsum (map f l).
Proof.
  induction l as [| a l IH]; [reflexivity |]. cbn [rev map]. rewrite map_app. cbn [map].
  rewrite qsum_perm_snoc, IH. reflexivity.
Qed.

Lemma hv_pass s : (2 <= segs w < e8)%Z ->
  (forall ih, (1 <= ih <= segs w)%Z -> 0 < onward k ih + away w ih) ->
  let s' := stream_pass k w s in
  hv s' 2%Z == hv s 2%Z + total (water_in w) 1 (segs w) + total (vstream k) 1 (segs w - 1) /\
  hv s' 3%Z == hv s 3%Z + total (away w) 1 (segs w) + qout k /\
  hv s' 5%Z == hv s 3%Z + total (away w) 2 (segs w) + vstream k 1%Z.
Proof.
  intros S P. cbv zeta. unfold stream_pass.
  rewrite (rev_upto_split 1 (segs w)) by lia. rewrite !fold_left_app. cbn [app fold_left].
  replace (upto 1 (1 - 1)) with (@nil Z) by reflexivity. cbn [rev fold_left].
  replace (1 + 2)%Z with 3%Z by lia. replace (1 + 1)%Z with 2%Z by lia.
  destruct (hv_fold (rev (upto 3 (segs w))) s) as [U V].
  { intros ih I. apply in_rev in I. apply in_upto in I. split; [lia |].
    specialize (P ih ltac:(lia)). unfold onward in P. replace (1 <? ih)%Z with true in P by lia. exact P. }
  cbv zeta in U, V. set (s1 := fold_left (segment k w) (rev (upto 3 (segs w))) s) in *. clearbody s1.
  rewrite (qsum_rev (water_in w)), (qsum_rev (fun ih => vstream k (ih - 1)%Z)) in U.
  rewrite (qsum_rev (away w)) in V.
  destruct (hv_segment s1 2) as (A2 & A3 & A5 & _); [lia | apply P; lia |].
  specialize (A5 ltac:(lia)).
  replace (1 <? 2)%Z with true in A2, A3 by reflexivity. change (2 - 1)%Z with 1%Z in A2, A5.
  destruct (hv_segment (segment k w s1 2) 1) as (B2 & B3 & _ & B5); [lia | apply P; lia |].
  specialize (B5 eq_refl). replace (1 <? 1)%Z with false in B2, B3 by reflexivity.
  rewrite B2, B3, B5, A2, A3, A5, U, V.
  assert (T : forall f, total f 1 (segs w) == f 1%Z + (f 2%Z + qsum (map f (upto 3 (segs w))))).
  { intros f. unfold total. rewrite (upto_split 1 (segs w) 1) by lia.
    rewrite (upto_split (1 + 1) (segs w) 2) by lia. reflexivity. }
  assert (T2 : forall f, total f 2 (segs w) == f 2%Z + qsum (map f (upto 3 (segs w)))).
  { intros f. unfold total. rewrite (upto_split 2 (segs w) 2) by lia. reflexivity. }
  assert (T3 : total (vstream k) 1 (segs w - 1) ==
               vstream k 1%Z + qsum (map (fun ih => vstream k (ih - 1)%Z) (upto 3 (segs w)))).
  { unfold total. rewrite (upto_split 1 (segs w - 1) 1) by lia. cbn [app].
    replace (upto 1 (1 - 1)) with (@nil Z) by reflexivity. cbn [app map qsum].
    replace (1 + 1)%Z with 2%Z by lia. apply Qplus_comp; [reflexivity |].
    assert (G : forall n a, qsum (map (vstream k) (count_from a n))
                            == qsum (map (fun ih => vstream k (ih - 1)%Z) (count_from (a + 1) n))).
    { induction n as [| n IHn]; intros a; cbn [count_from map qsum]; [reflexivity |].
      rewrite IHn. replace (a + 1 - 1)%Z with a by lia. reflexivity. }
    unfold upto. replace (Z.to_nat (segs w - 1 - 2 + 1)) with (Z.to_nat (segs w - 3 + 1)) by lia.
    rewrite G. reflexivity. }
  rewrite !T, T2, T3.
  split; [ring |]. split; ring.
Qed.
End Streams.

(** ** Mean temperature of the inflow *)
Section Mean.
Variables (lo hi : Q).
Definition Mean (g : geo) : Prop := lo * vol g 2%Z <= temp g 2%Z <= hi * vol g 2%Z.
Definition AllMean (s : acct) : Prop :=
  Mean (bas s) /\ Mean (hyd s) /\ (forall i, Mean (mru s i)) /\ (forall i, Mean (uzg s i)) /\
  (forall i, Mean (uzr s i)) /\ (forall i, Mean (uzu s i)).
Definition Keeps (f : geo -> geo) : Prop := forall g, Mean g -> Mean (f g).

Lemma mean_upd (f : Z -> geo) i g : (forall j, Mean (f j)) -> Mean g -> forall j, Mean (upd f i g j).
Proof. intros H G j. unfold upd. destruct (Z.eqb j i); auto. Qed.
Lemma am_cc i f s : AllMean s -> AllMean (on_cc i f s). Proof. auto. Qed.
Lemma am_bas f s : Keeps f -> AllMean s -> AllMean (on_bas f s).
Proof. intros K (A & B). split; [cbn [bas on_bas]; auto | exact B]. Qed.
Lemma am_hyd f s : Keeps f -> AllMean s -> AllMean (on_hyd f s).
Proof. intros K (A & B & C). split; [exact A |]. split; [cbn [hyd on_hyd]; auto | exact C]. Qed.
Lemma am_mru i f s : Keeps f -> AllMean s -> AllMean (on_mru i f s).
Proof.
  intros K (A & B & C & D). split; [exact A |]. split; [exact B |]. split; [| exact D].
  cbn [mru on_mru]. apply mean_upd; auto.
Qed.
Lemma am_uz b i f s : Keeps f -> AllMean s -> AllMean (on_uz b i f s).
Proof.
  intros K (A & B & C & D & E & F). unfold on_uz.
  destruct b; (split; [exact A |]); (split; [exact B |]); (split; [exact C |]);
    cbn [uzg uzr uzu]; (split; [apply mean_upd; auto |]); split; try assumption; apply mean_upd; auto.
Qed.
Lemma am_into k e b m u h f s : Keeps f -> AllMean s -> AllMean (into k e b m u h f s).
Proof.
  intros K H. unfold into. cbv zeta.
  assert (H1 : AllMean (if b then on_bas f s else s)) by (destruct b; [apply am_bas |]; assumption).
  set (s1 := if b then _ else _) in *. clearbody s1.
  assert (H2 : AllMean (if m then on_mru (is_ e) f s1 else s1)) by (destruct m; [apply am_mru |]; assumption).
  set (s2 := if m then _ else _) in *. clearbody s2.
  assert (H3 : AllMean (if u then on_uz (rip k (ia_ e) (is_ e)) (is_ e) f s2 else s2))
    by (destruct u; [apply am_uz |]; assumption).
  destruct h; [apply am_hyd |]; assumption.
Qed.

Lemma k_other f : (forall g, vol (f g) 2%Z = vol g 2%Z /\ temp (f g) 2%Z = temp g 2%Z) -> Keeps f.
Proof. intros H g M. unfold Mean. destruct (H g) as [-> ->]. exact M. Qed.
Lemma k_flow c t p v : (c = 2%Z -> 0 <= v /\ lo <= t <= hi) ->
  Keeps (fun g => add_pH c (v * p) (add_temp c (v * t) (add_vol c v g))).
Proof.
  intros H g M. unfold Mean in *. cbn [vol temp add_pH set_pH add_temp set_temp add_vol set_vol]. unfold upd.
  destruct (Z.eqb_spec 2 c) as [<- | N]; [| exact M].
  destruct (H eq_refl) as (V & L & U).
  assert (lo * v <= v * t) by (rewrite (Qmult_comm v t); apply Qmult_le_compat_r; assumption).
  assert (v * t <= hi * v) by (rewrite (Qmult_comm v t); apply Qmult_le_compat_r; assumption).
  lra.
Qed.

Notation Mild := (Mild lo hi).

Ltac other := apply k_other; intros ?; split; reflexivity.

Lemma am_solute k e v w n : AllMean (fst w) -> AllMean (fst (book_solute k e v w n)).
Proof.
  destruct w as [s nis]. cbn [fst]. intros H. unfold book_solute. cbv zeta. cbn [fst].
  apply am_into; [destruct (iso k n); other |].
  destruct (iso k n); [destruct (is_stream e && react e) |];
      destruct (negb (is_direct e) && is_stream e && react e && (column e =? 3)%Z);
      repeat apply am_cc; exact H.
Qed.
Lemma am_final k e v s : AllMean s -> AllMean (book_final k e v s).
Proof.
  intros H. unfold book_final. cbv zeta. destruct (is_stream e).
  - destruct (1 <? ih_ e)%Z; [apply am_hyd; [other |]; apply am_bas; [other |] |]; apply am_bas; try other; exact H.
  - apply am_into; [other |]. apply am_into; [other |]. apply am_bas; [other | exact H].
Qed.
Lemma am_reaction k e r w n : AllMean (fst w) -> AllMean (fst (book_reaction k e r w n)).
Proof.
  destruct w as [s nis]. cbn [fst]. intros H. unfold book_reaction. cbv zeta.
  match goal with |- context [if iso k n then (?x, 0) else ?y] => set (s3 := x) end.
  assert (C3 : AllMean s3).
  { unfold s3. apply am_into; [other |].
    destruct (negb (ih_ e =? 1)%Z); repeat (apply am_bas; [other |]);
      (destruct (iso k n); [apply am_into; [other |] |]; repeat apply am_cc; exact H). }
  clearbody s3.
  assert (C4 : AllMean (fst (if iso k n then (s3, 0)
                        else fold_left (book_entity k e r n) (entities k) (s3, 0)))).
  { destruct (iso k n); [exact C3 |].
    apply (fold_inv (fun w => AllMean (fst w))); [| exact C3].
    intros [s0 x] j H0. unfold book_entity. cbv zeta. cbn [fst].
    apply am_into; [other |]. apply am_cc. exact H0. }
  destruct (if iso k n then (s3, 0) else _) as [s4 sum]. cbn [fst] in *.
  apply am_into; [other |]. apply am_cc. exact C4.
Qed.
Lemma am_fold {B} (f : acct -> B -> acct) l s :
  (forall s b, AllMean s -> AllMean (f s b)) -> AllMean s -> AllMean (fold_left f l s).
Proof. intros H. revert s. induction l as [| b l IH]; intros s S; cbn [fold_left]; auto. Qed.

Lemma am_update k s e : Mild (EUpdate e) -> AllMean s -> AllMean (update_chem k s e).
Proof.
  intros M H. unfold update_chem. cbv zeta.
  assert (H1 : AllMean (book_water k e s)).
  { unfold book_water. cbv zeta. apply am_into; [| apply am_cc; exact H].
    apply k_flow. intros C. cbn [Mild] in M. unfold moved, is_flow. rewrite C. cbn [Z.eqb Pos.eqb orb].
    apply M. unfold column in C. cbn [In].
    destruct (Z.eqb_spec (imetric e) 0) as [E | E]; [left; congruence |].
    destruct (Z.eqb_spec (imetric e) (-1)); [discriminate |]. right; left; congruence. }
  assert (H2 : AllMean (fst (fold_left (book_solute k e (moved s e)) (solutes k) (book_water k e s, 0%Z)))).
  { apply (fold_inv (fun w => AllMean (fst w))); [| exact H1]. intros w n. apply am_solute. }
  set (s2 := fst _) in *. clearbody s2.
  assert (H3 : AllMean (book_mass k e s2)).
  { unfold book_mass. destruct (column e =? 1)%Z; [| exact H2]. apply am_fold; [| exact H2].
    intros; apply am_cc; assumption. }
  destruct (react e); [| exact H3].
  unfold book_change. apply am_fold; [intros; apply am_cc; assumption |].
  apply (fold_inv (fun w => AllMean (fst w))); [intros w n; apply am_reaction |]. cbn [fst].
  apply am_final. exact H3.
Qed.
Lemma mean_fresh g : Mean (fresh g).
Proof. unfold Mean, fresh. cbn [vol temp Z.eqb Pos.eqb]. lra. Qed.
Lemma am_step s : AllMean (new_step s).
Proof.
  unfold AllMean, new_step. cbn [bas hyd mru uzg uzr uzu].
  repeat (split; [intros; apply mean_fresh |]). intros; apply mean_fresh.
Qed.
Lemma fold_mol_keeps c cs v l g :
  vol (fold_left (fun g n => add_mol n c (cs n * v * 1000) g) l g) = vol g /\
  temp (fold_left (fun g n => add_mol n c (cs n * v * 1000) g) l g) = temp g.
Proof.
  revert g. induction l as [| n l IH]; intros g; cbn [fold_left]; [auto |].
  destruct (IH (add_mol n c (cs n * v * 1000) g)) as [A B]. rewrite A, B. auto.
Qed.
Lemma am_act k s ev : Mild ev -> AllMean s -> AllMean (act k s ev).
Proof.
  intros M H. destruct ev; cbn [act].
  - now apply am_update.
  - apply am_step.
  - apply am_cc. exact H.
  - assert (K : Keeps (fun g =>
      fold_left (fun g n => add_mol n (if b then c_in else c_out) (cs n * v * 1000) g) (solutes k)
        (if b then add_pH (if b then c_in else c_out) (p * v)
                     (add_temp (if b then c_in else c_out) (t * v) (add_vol (if b then c_in else c_out) v g))
         else add_vol (if b then c_in else c_out) v g))).
    { intros g G. unfold Mean.
      destruct (fold_mol_keeps (if b then c_in else c_out) cs v (solutes k)
        (if b then add_pH (if b then c_in else c_out) (p * v)
                     (add_temp (if b then c_in else c_out) (t * v) (add_vol (if b then c_in else c_out) v g))
         else add_vol (if b then c_in else c_out) v g)) as [-> ->].
      destruct b; [| exact G]. cbn [Mild] in M. unfold Mean in G.
      cbn [vol temp add_pH set_pH add_temp set_temp add_vol set_vol]. unfold upd, c_in. rewrite Z.eqb_refl.
      destruct M as (V & L & U).
      assert (lo * v <= t * v) by (apply Qmult_le_compat_r; assumption).
      assert (t * v <= hi * v) by (apply Qmult_le_compat_r; assumption). lra. }
    unfold ground. cbv zeta. apply am_bas; [exact K |]. apply am_mru; [exact K | exact H].
  - unfold evaporate. apply am_fold; [| exact H]. intros s0 n H0. destruct (iso k n); [| exact H0].
    apply am_cc, am_bas; [other |]. apply am_cc. exact H0.
Qed.
Lemma am_history k l : Forall Mild l -> forall s, AllMean s -> AllMean (history k l s).
Proof.
  induction 1 as [| ev l M _ IH]; intros s H; [exact H |]. unfold history. cbn [fold_left].
  apply IH. now apply am_act.
Qed.
End Mean.

(** ** Final water of a hillslope *)
Definition Same5 (g g' : geo) : Prop := vol g' 5%Z = vol g 5%Z /\ temp g' 5%Z = temp g 5%Z.
Lemma s5_refl g : Same5 g g. Proof. split; reflexivity. Qed.
Lemma s5_trans a b c : Same5 a b -> Same5 b c -> Same5 a c.
Proof. intros [A B] [C D]. split; congruence. Qed.
Lemma mru_uz b i f s : mru (on_uz b i f s) = mru s. Proof. destruct b; reflexivity. Qed.
Lemma mru_into k e b m u h f s i :
  mru (into k e b m u h f s) i = if m && (i =? is_ e)%Z then f (mru s i) else mru s i.
Proof.
  unfold into. cbv zeta.
  assert (A : forall s, mru (if h then on_hyd f s else s) = mru s) by (intros; destruct h; reflexivity).
  rewrite A.
  assert (B : forall s, mru (if u then on_uz (rip k (ia_ e) (is_ e)) (is_ e) f s else s) = mru s)
    by (intros; destruct u; [apply mru_uz | reflexivity]).
  rewrite B. destruct m; cbn [andb].
  - cbn [mru on_mru]. unfold upd. destruct (Z.eqb_spec i (is_ e)) as [-> | N]; destruct b; reflexivity.
  - destruct b; reflexivity.
Qed.
Lemma s5_into k e b m u h f s i : (forall g, Same5 g (f g)) -> Same5 (mru s i) (mru (into k e b m u h f s) i).
Proof. intros H. rewrite mru_into. destruct (m && (i =? is_ e)%Z); [apply H | apply s5_refl]. Qed.
Ltac same5 := intros ?; split; reflexivity.

Lemma s5_solute k e v i : forall l w,
  Same5 (mru (fst w) i) (mru (fst (fold_left (book_solute k e v) l w)) i).
Proof.
  induction l as [| n l IH]; intros w; cbn [fold_left]; [apply s5_refl |].
  eapply s5_trans; [| apply IH]. destruct w as [s nis]. unfold book_solute. cbv zeta. cbn [fst].
  match goal with |- Same5 _ (mru (into _ _ _ _ _ _ ?f ?x) _) => assert (E : mru x = mru s); [| pose proof (s5_into k e (basbnd e) (mrubnd e) (is_unsat e) (to_hyd e) f x i) as P] end.
  { destruct (iso k n); [destruct (is_stream e && react e) |];
      destruct (negb (is_direct e) && is_stream e && react e && (column e =? 3)%Z); reflexivity. }
  rewrite E in P. apply P. destruct (iso k n); same5.
Qed.
Lemma s5_reaction k e r i : forall l w,
  Same5 (mru (fst w) i) (mru (fst (fold_left (book_reaction k e r) l w)) i).
Proof.
  induction l as [| n l IH]; intros w; cbn [fold_left]; [apply s5_refl |].
  eapply s5_trans; [| apply IH]. destruct w as [s nis]. unfold book_reaction. cbv zeta. cbn [fst].
  match goal with |- context [if iso k n then (?x, 0) else ?y] => set (s3 := x) end.
  assert (C3 : Same5 (mru s i) (mru s3 i)).
  { unfold s3. eapply s5_trans; [| apply s5_into; same5].
    destruct (negb (ih_ e =? 1)%Z); cbn [mru on_bas]; (destruct (iso k n);
      [eapply s5_trans; [| apply s5_into; same5] |]; apply s5_refl). }
  clearbody s3.
  assert (C4 : Same5 (mru s i) (mru (fst (if iso k n then (s3, 0)
                        else fold_left (book_entity k e r n) (entities k) (s3, 0))) i)).
  { destruct (iso k n); [exact C3 |].
    apply (fold_inv (fun w => Same5 (mru s i) (mru (fst w) i))); [| exact C3].
    intros [s0 x] j H0. unfold book_entity. cbv zeta. cbn [fst].
    eapply s5_trans; [exact H0 |]. apply (s5_into k e true (is_mru e) (is_unsat e) (is_stream e)
      (add_ent n j (tally e (tlye k n) j * mult k j * r * 1000))
      (on_cc (indx e) (set_ent n j (tally e (tlye k n) j * mult k j * r * 1000)) s0) i). same5. }
  destruct (if iso k n then (s3, 0) else _) as [s4 sum]. cbn [fst] in *.
  eapply s5_trans; [exact C4 |].
  match goal with |- Same5 _ (mru (into _ _ _ _ _ _ ?f ?x) _) =>
    exact (s5_into k e true (is_mru e) (is_unsat e) (is_stream e) f x i ltac:(same5)) end.
Qed.
Lemma mru_mass k e s : mru (book_mass k e s) = mru s.
Proof.
  unfold book_mass. destruct (column e =? 1)%Z; [| reflexivity].
  generalize (entities k). intros l. revert s. induction l as [| j l IH]; intros s; cbn [fold_left]; [reflexivity |].
  now rewrite IH.
Qed.
Lemma mru_change k e s : mru (book_change k e s) = mru s.
Proof.
  unfold book_change. generalize (entities k). intros l. revert s.
  induction l as [| j l IH]; intros s; cbn [fold_left]; [reflexivity |]. now rewrite IH.
Qed.
Lemma mru_update k s e : column e = 3%Z -> react e = true -> is_stream e = false -> is_unsat e = false ->
  vol (mru (update_chem k s e) (is_ e)) 5%Z == vol (mru s (is_ e)) 5%Z + vol (cc s (indx e)) 5%Z /\
  temp (mru (update_chem k s e) (is_ e)) 5%Z == temp (mru s (is_ e)) 5%Z + totvol e * tempc e.
Proof.
  intros C R ST U. unfold update_chem. cbv zeta. fold (early k s e). rewrite R, reacting_early.
  assert (E : Same5 (mru s (is_ e)) (mru (early k s e) (is_ e))).
  { unfold early. rewrite mru_mass. eapply s5_trans; [| apply s5_solute]. cbn [fst].
    unfold book_water. cbv zeta.
    match goal with |- Same5 _ (mru (into _ _ _ _ _ _ ?f ?x) _) =>
      apply (s5_into k e (basbnd e) (mrubnd e) (is_unsat e) (to_hyd e) f x (is_ e)) end.
    rewrite C. same5. }
  rewrite mru_change.
  match goal with |- context [fold_left (book_reaction k e ?r) ?l ?w] =>
    destruct (s5_reaction k e r (is_ e) l w) as [A B] end.
  rewrite A, B. cbn [fst]. unfold book_final. cbv zeta. rewrite ST, !mru_into, Z.eqb_refl. cbn [andb].
  cbn [mru on_bas vol temp add_vol set_vol add_temp set_temp add_pH set_pH]. unfold c_rxn, c_fin.
  rewrite upd_other by discriminate. rewrite !upd_same. destruct E as [-> ->].
  rewrite reacting_early. unfold reaction_volume. rewrite ST.
  unfold moved, is_flow. rewrite C. cbn [Z.eqb Pos.eqb orb]. split; reflexivity.
Qed.
