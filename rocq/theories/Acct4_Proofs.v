(** The moles that a call enters, and the pass over the stream segments. *)
From Coq Require Import ZArith QArith Qfield List Bool Lia Lqa ZifyBool.
From Verif Require Import Qx Soln_Model Acct_Model Acct_Spec Acct_Proofs Acct3_Proofs.
Import ListNotations.
Local Open Scope Q_scope.

Definition entered (k : cfg) (e : call) (x : Q) (m : Z -> Z -> Q) (i c : Z) : Q :=
  let at_ := ((i =? indx e) && (c =? column e))%Z in
  if is_direct e then if at_ then m i c + x else m i c
  else if negb (is_stream e) then if at_ then x else m i c
  else if react e && (column e =? 3)%Z && (i =? indx e - 1)%Z && (c =? 2)%Z
       then m (indx e) 3%Z + x + x
  else if react e && (column e =? 3)%Z && (i =? indx e - 1)%Z && (c =? 1)%Z then x
  else if at_ then m i c + x else m i c.

Lemma solute_mol k e v s nis n i c :
  mol (cc (fst (book_solute k e v (s, nis) n)) i) n c =
  entered k e (moles k e v n) (fun i c => mol (cc s i) n c) i c.
Proof.
  unfold book_solute. cbv zeta. cbn [fst]. rewrite cc_into.
  match goal with |- context [if iso k n then ?a else ?b] => set (s2 := b) end.
  match goal with |- context [if iso k n then ?a else s2] => set (s3 := a) end.
  assert (E : mol (cc (if iso k n then s3 else s2) i) n c = mol (cc s2 i) n c).
  { destruct (iso k n); [| reflexivity]. unfold s3. destruct (is_stream e && react e).
    - destruct (Z.eq_dec i (indx e - 1)) as [-> | N].
      + rewrite cc_same. cbn [mol set_dlt]. rewrite cc_other by lia. reflexivity.
      + rewrite cc_other by exact N. destruct (Z.eq_dec i (indx e)) as [-> | N'].
        * rewrite cc_same. reflexivity.
        * now rewrite cc_other.
    - destruct (Z.eq_dec i (indx e)) as [-> | N'].
      * rewrite cc_same. reflexivity.
      * now rewrite cc_other. }
  rewrite E. clear E s3. unfold s2. clear s2. unfold entered. cbv zeta.
  set (x := moles k e v n).
  set (s1 := on_cc (indx e) _ s).
  assert (S1 : forall j d, mol (cc s1 j) n d =
     if is_direct e then if ((j =? indx e) && (d =? column e))%Z then mol (cc s j) n d + x else mol (cc s j) n d
     else if negb (is_stream e) then if ((j =? indx e) && (d =? column e))%Z then x else mol (cc s j) n d
     else if ((j =? indx e) && (d =? column e))%Z then mol (cc s j) n d + x else mol (cc s j) n d).
  { intros j d. unfold s1. destruct (Z.eqb_spec j (indx e)) as [-> | N].
    - rewrite cc_same. destruct (is_direct e); [| destruct (negb (is_stream e))];
        cbn [mol add_mol set_mol andb]; unfold upd2; rewrite Z.eqb_refl; cbn [andb];
        destruct (Z.eqb_spec d (column e)) as [-> | ]; reflexivity.
    - rewrite cc_other by exact N. cbn [andb].
      destruct (is_direct e), (negb (is_stream e)); reflexivity. }
  clearbody s1.
  destruct (is_direct e) eqn:D; cbn [negb andb]; [apply S1 |].
  destruct (is_stream e) eqn:ST; cbn [negb andb] in *; [| apply S1].
  destruct (react e) eqn:R; cbn [andb]; [| apply S1].
  destruct (Z.eqb_spec (column e) 3) as [C3 | C3]; cbn [andb]; [| apply S1].
  destruct (Z.eqb_spec i (indx e - 1)) as [-> | N].
  - rewrite cc_same. cbn [mol set_mol andb]. unfold upd2 at 1. rewrite Z.eqb_refl. cbn [andb].
    unfold c_init, c_in. destruct (Z.eqb_spec c 1) as [-> | N1]; [reflexivity |].
    unfold upd2. rewrite Z.eqb_refl. cbn [andb].
    destruct (Z.eqb_spec c 2) as [-> | N2]; [| apply S1].
    rewrite S1, Z.eqb_refl. cbn [andb]. rewrite C3. reflexivity.
  - rewrite cc_other by exact N. cbn [andb]. rewrite S1, C3. reflexivity.
Qed.

Lemma entered_ext k e x m m' i c : (forall i c, m i c = m' i c) -> entered k e x m i c = entered k e x m' i c.
Proof. intros H. unfold entered. cbv zeta. rewrite !H. reflexivity. Qed.

Lemma early_mol k s e n i c : (1 <= n <= nsol k)%Z ->
  mol (cc (early k s e) i) n c =
  entered k e (moles k e (moved s e) n) (fun i c => mol (cc s i) n c) i c.
Proof.
  intros N. unfold early.
  match goal with |- context [book_mass k e ?a] => pose proof (mass_keep k e a i) as M end.
  cbv zeta in M. destruct M as (_ & _ & _ & M & _). rewrite M. clear M.
  unfold solutes. rewrite (upto_split 1 (nsol k) n N), fold_left_app. cbn [fold_left].
  destruct (fold_left (book_solute k e (moved s e)) (upto 1 (n - 1)) (book_water k e s, 0%Z))
    as [sa na] eqn:EA.
  pose proof (solute_fold_keep k e (moved s e) i (upto (n + 1) (nsol k))
                (book_solute k e (moved s e) (sa, na) n)) as L. cbv zeta in L.
  destruct L as (_ & L). destruct (L n c) as [L1 _]; [rewrite in_upto; lia |]. rewrite L1.
  rewrite solute_mol. apply entered_ext. intros j d.
  pose proof (solute_fold_keep k e (moved s e) j (upto 1 (n - 1)) (book_water k e s, 0%Z)) as F.
  cbv zeta in F. rewrite EA in F. destruct F as (_ & F). destruct (F n d) as [F1 _]; [rewrite in_upto; lia |].
  cbn [fst] in F1. rewrite F1. pose proof (water_cc k e s j) as W. cbv zeta in W.
  destruct W as (W & _). now rewrite W.
Qed.

(** Calls without reactions enter moles where they belong. *)
Lemma update_plain k s e n i c : react e = false -> In (column e) [2; 3]%Z -> (1 <= n <= nsol k)%Z ->
  mol (cc (update_chem k s e) i) n c =
  if ((i =? indx e) && (c =? column e))%Z then mol (cc s i) n c + conc e n * totvol e * 1000
  else mol (cc s i) n c.
Proof.
  intros R C N. unfold update_chem. cbv zeta. fold (early k s e). rewrite R.
  rewrite early_mol by exact N. unfold entered, moles. cbv zeta. rewrite R. cbn [andb negb].
  destruct (is_direct e) eqn:D; [reflexivity |].
  destruct (is_stream e) eqn:ST; cbn [negb]; [reflexivity |].
  exfalso. unfold is_direct in D. rewrite ST in D. cbn [negb andb] in D.
  apply orb_false_iff in D. cbn [In] in C. lia.
Qed.

Lemma update_far k s e n i c : react e = true -> i <> indx e -> (1 <= n <= nsol k)%Z ->
  mol (cc (update_chem k s e) i) n c = mol (cc (early k s e) i) n c.
Proof.
  intros R N H. unfold update_chem. cbv zeta. fold (early k s e). rewrite R.
  rewrite change_far by exact N. rewrite reaction_far by exact N. cbn [fst]. now rewrite final_cc.
Qed.

(** A call with reactions that moves water out of a stream segment. *)
Lemma update_route k s e n : react e = true -> column e = 3%Z -> is_stream e = true ->
  (1 <= n <= nsol k)%Z ->
  let x := tally e (tly k n) 2%Z * totvol e * 1000 in
  mol (cc (update_chem k s e) (indx e)) n 2%Z = mol (cc s (indx e)) n 2%Z /\
  mol (cc (update_chem k s e) (indx e)) n 3%Z = mol (cc s (indx e)) n 3%Z + x /\
  mol (cc (update_chem k s e) (indx e - 1)) n 2%Z = mol (cc s (indx e)) n 3%Z + x + x /\
  mol (cc (update_chem k s e) (indx e - 1)) n 3%Z = mol (cc s (indx e - 1)) n 3%Z /\
  (forall i c, i <> indx e -> i <> (indx e - 1)%Z ->
     mol (cc (update_chem k s e) i) n c = mol (cc s i) n c).
Proof.
  intros R C ST N. cbv zeta.
  assert (D : is_direct e = false).
  { unfold is_direct. rewrite ST, C. reflexivity. }
  assert (X : moles k e (moved s e) n = tally e (tly k n) 2%Z * totvol e * 1000).
  { unfold moles. rewrite D, ST, R. cbn [negb]. unfold moved, is_flow. rewrite C. reflexivity. }
  pose proof (update_react k s e n R N) as U. cbv zeta in U. destruct U as (_ & _ & _ & U).
  split; [rewrite U by discriminate |].
  { rewrite early_mol by exact N. unfold entered. rewrite D, ST, R, C. cbv zeta.
    replace (indx e =? indx e - 1)%Z with false by lia. rewrite Z.eqb_refl. reflexivity. }
  split; [rewrite U by discriminate |].
  { rewrite early_mol by exact N. unfold entered. rewrite D, ST, R, C, X. cbv zeta.
    replace (indx e =? indx e - 1)%Z with false by lia. rewrite Z.eqb_refl. reflexivity. }
  split; [rewrite update_far by (assumption || lia) |].
  { rewrite early_mol by exact N. unfold entered. rewrite D, ST, R, C, X. cbv zeta.
    rewrite (Z.eqb_refl (indx e - 1)). reflexivity. }
  split; [rewrite update_far by (assumption || lia) |].
  { rewrite early_mol by exact N. unfold entered. rewrite D, ST, R, C. cbv zeta.
    rewrite (Z.eqb_refl (indx e - 1)). replace (indx e - 1 =? indx e)%Z with false by lia. reflexivity. }
  intros i c Hi Hi'. rewrite update_far by assumption. rewrite early_mol by exact N.
  unfold entered. rewrite D, ST, R, C. cbv zeta.
  replace (i =? indx e - 1)%Z with false by lia. replace (i =? indx e)%Z with false by lia. reflexivity.
Qed.

(** ** Rows of the segments *)
Lemma decode_row w ih : (0 <= ih < e8)%Z ->
  isoln (nchem w) (nmru w) (nac w) (solnnum 0 99 0 0 0 ih) =
  cut_hydro (nchem w) (nmru w) (nac w) ih.
Proof.
  intros H.
  assert (E : solnnum 0 99 0 0 0 ih = (300000000 + ih)%Z) by reflexivity.
  rewrite E. clear E. unfold isoln, e8, e6 in *.
  replace ((300000000 + ih <? 1) || (6 * 100000000 <=? 300000000 + ih))%Z with false by lia.
  replace (300000000 + ih =? 1)%Z with false by lia.
  replace (300000000 + ih <? 1000000)%Z with false by lia.
  replace (4 * 100000000 <=? 300000000 + ih)%Z with false by lia.
  replace (3 * 100000000 <=? 300000000 + ih)%Z with true by lia.
  f_equal. lia.
Qed.
Lemma row_step w a b : (0 <= a < e8)%Z -> (0 <= b < e8)%Z -> row w b = (row w a + (b - a))%Z.
Proof.
  intros A B. unfold row. rewrite !decode_row by assumption. unfold cut_hydro. cbn [d_row]. lia.
Qed.
Lemma call_stream w ih i v im m b r : (0 <= ih < e8)%Z ->
  is_stream (call_of w ih i v im m b r) = true.
Proof.
  intros H. unfold is_stream, call_of. cbn [restype]. rewrite decode_row by exact H. reflexivity.
Qed.

(** ** One segment *)
Definition inflow (w : reach) (ih n : Z) : Q :=
  if qlt 0 (hills w ih) then m_conc (hillmix w ih) n * hills w ih * 1000 else 0.
Definition water_in (w : reach) (ih : Z) : Q := if qlt 0 (hills w ih) then hills w ih else 0.
Definition away (w : reach) (ih : Z) : Q := divert w ih + loss w ih.
Definition onward (k : cfg) (ih : Z) : Q := if (1 <? ih)%Z then vstream k (ih - 1)%Z else qout k.

Section Segment.
Variables (k : cfg) (w : reach) (n : Z).
Hypothesis N : (1 <= n <= nsol k)%Z.

Lemma plain_call s ih i v im m b j c : In im [2; 3]%Z -> 
  mol (cc (update_chem k s (call_of w ih i v im m b false)) j) n c =
  if ((j =? i) && (c =? im))%Z then mol (cc s j) n c + m_conc m n * v * 1000 else mol (cc s j) n c.
Proof.
  intros H. assert (C : column (call_of w ih i v im m b false) = im).
  { unfold column, call_of. cbn [imetric]. cbn [In] in H. destruct H as [<- | [<- | []]]; reflexivity. }
  rewrite update_plain; [rewrite C; reflexivity | reflexivity | rewrite C; exact H | exact N].
Qed.
Lemma any_vol s ih i v im m b r j c : In im [2; 3]%Z ->
  vol (cc (update_chem k s (call_of w ih i v im m b r)) j) c =
  if ((j =? i) && (c =? im))%Z then vol (cc s j) c + v else vol (cc s j) c.
Proof.
  intros H. assert (C : column (call_of w ih i v im m b r) = im).
  { unfold column, call_of. cbn [imetric]. cbn [In] in H. destruct H as [<- | [<- | []]]; reflexivity. }
  rewrite update_vol. unfold is_flow. rewrite C. cbn [indx totvol call_of].
  replace ((im =? 3)%Z || (im =? 2)%Z) with true; [now rewrite andb_true_r |].
  cbn [In] in H. lia.
Qed.

Definition first_half (s : acct) (ih : Z) : acct :=
  let s := on_cc (row w ih) (set_vol c_fin (vstream k ih)) s in
  if qlt 0 (hills w ih)
  then update_chem k s (call_of w ih (row w ih) (hills w ih) 2 (hillmix w ih) false false) else s.

Lemma first_mol s ih j c :
  mol (cc (first_half s ih) j) n c =
  if ((j =? row w ih) && (c =? 2))%Z && qlt 0 (hills w ih)
  then mol (cc s j) n c + m_conc (hillmix w ih) n * hills w ih * 1000 else mol (cc s j) n c.
Proof.
  unfold first_half. cbv zeta.
  assert (E : mol (cc (on_cc (row w ih) (set_vol c_fin (vstream k ih)) s) j) = mol (cc s j)).
  { destruct (Z.eq_dec j (row w ih)) as [-> | H]; [rewrite cc_same | rewrite cc_other by exact H]; reflexivity. }
  destruct (qlt 0 (hills w ih)).
  - rewrite plain_call by (cbn; auto). rewrite E, andb_true_r. reflexivity.
  - rewrite E, andb_false_r. reflexivity.
Qed.
Lemma first_vol s ih j c : c <> 5%Z ->
  vol (cc (first_half s ih) j) c =
  if ((j =? row w ih) && (c =? 2))%Z && qlt 0 (hills w ih)
  then vol (cc s j) c + hills w ih else vol (cc s j) c.
Proof.
  intros C5. unfold first_half. cbv zeta.
  assert (E : vol (cc (on_cc (row w ih) (set_vol c_fin (vstream k ih)) s) j) c = vol (cc s j) c).
  { destruct (Z.eq_dec j (row w ih)) as [-> | H]; [rewrite cc_same | rewrite cc_other by exact H]; [| reflexivity].
    cbn [vol set_vol]. apply upd_other. exact C5. }
  destruct (qlt 0 (hills w ih)).
  - rewrite any_vol by (cbn; auto). rewrite E, andb_true_r. reflexivity.
  - rewrite E, andb_false_r. reflexivity.
Qed.

Lemma segment_halves s ih : segment k w s ih =
  (let a := away w ih in
   let f := onward k ih + a in
   let i := row w ih in
   let m := routed w ih in
   if qlt 0 f
   then let s := update_chem k (first_half s ih) (call_of w ih i a 3 m true false) in
        if (1 <? ih)%Z
        then update_chem k (update_chem k s (call_of w ih i (f - a) 3 m false true))
               (call_of w ih (row w (ih - 1)) (f - a) 2 m false false)
        else update_chem k s (call_of w ih i (f - a) 3 m true true)
   else first_half s ih).
Proof. reflexivity. Qed.

Definition R3 (ih : Z) (v : Q) : Q := m_tally (routed w ih) (tly k n) 2%Z * v * 1000.

Lemma route_call s ih v b : (0 < ih < e8)%Z ->
  let s' := update_chem k s (call_of w ih (row w ih) v 3 (routed w ih) b true) in
  mol (cc s' (row w ih)) n 2%Z = mol (cc s (row w ih)) n 2%Z /\
  mol (cc s' (row w (ih - 1))) n 2%Z = mol (cc s (row w ih)) n 3%Z + R3 ih v + R3 ih v /\
  mol (cc s' (row w (ih - 1))) n 3%Z = mol (cc s (row w (ih - 1))) n 3%Z /\
  (forall i c, i <> row w ih -> i <> row w (ih - 1) -> mol (cc s' i) n c = mol (cc s i) n c).
Proof.
  intros H. cbv zeta.
  pose proof (update_route k s (call_of w ih (row w ih) v 3 (routed w ih) b true) n) as U.
  cbv zeta in U. cbn [indx call_of tally totvol] in U.
  replace (row w (ih - 1)) with (row w ih - 1)%Z by (rewrite (row_step w ih (ih - 1)) by lia; lia).
  destruct U as (U1 & U2 & U3 & U4 & U5); try reflexivity; try exact N.
  { apply call_stream. lia. }
  repeat (split; [assumption |]). exact U5.
Qed.

Lemma segment_far s ih i c : (0 < ih < e8)%Z -> i <> row w ih -> i <> row w (ih - 1) ->
  mol (cc (segment k w s ih) i) n c = mol (cc s i) n c /\
  (c <> 5%Z -> vol (cc (segment k w s ih) i) c = vol (cc s i) c).
Proof.
  intros H A B. rewrite segment_halves. cbv zeta.
  assert (F : mol (cc (first_half s ih) i) n c = mol (cc s i) n c).
  { rewrite first_mol. replace (i =? row w ih)%Z with false by lia. reflexivity. }
  assert (V : c <> 5%Z -> vol (cc (first_half s ih) i) c = vol (cc s i) c).
  { intros C. rewrite first_vol by exact C. replace (i =? row w ih)%Z with false by lia. reflexivity. }
  destruct (qlt 0 (onward k ih + away w ih)); [| auto].
  destruct (1 <? ih)%Z.
  - split; [| intros C].
    + rewrite plain_call by (cbn; auto). replace (i =? row w (ih - 1))%Z with false by lia. cbn [andb].
      match goal with |- context [update_chem k ?s1 (call_of w ih (row w ih) ?v 3 _ false true)] =>
        destruct (route_call s1 ih v false H) as (_ & _ & _ & U) end.
      rewrite U by assumption. rewrite plain_call by (cbn; auto).
      replace (i =? row w ih)%Z with false by lia. exact F.
    + rewrite !any_vol by (cbn; auto). replace (i =? row w (ih - 1))%Z with false by lia.
      replace (i =? row w ih)%Z with false by lia. now apply V.
  - split; [| intros C].
    + match goal with |- context [update_chem k ?s1 (call_of w ih (row w ih) ?v 3 _ true true)] =>
        destruct (route_call s1 ih v true H) as (_ & _ & _ & U) end.
      rewrite U by assumption. rewrite plain_call by (cbn; auto).
      replace (i =? row w ih)%Z with false by lia. exact F.
    + rewrite !any_vol by (cbn; auto). replace (i =? row w ih)%Z with false by lia. now apply V.
Qed.

(** The row of the segment itself: what comes in is what the hillslopes give. *)
Lemma segment_own s ih : (0 < ih < e8)%Z ->
  mol (cc (segment k w s ih) (row w ih)) n 2%Z == mol (cc s (row w ih)) n 2%Z + inflow w ih n /\
  vol (cc (segment k w s ih) (row w ih)) 2%Z == vol (cc s (row w ih)) 2%Z + water_in w ih.
Proof.
  intros H. rewrite segment_halves. cbv zeta.
  assert (NE : (row w ih =? row w (ih - 1))%Z = false).
  { rewrite (row_step w ih (ih - 1)) by lia. lia. }
  assert (F : mol (cc (first_half s ih) (row w ih)) n 2%Z == mol (cc s (row w ih)) n 2%Z + inflow w ih n).
  { rewrite first_mol. rewrite !Z.eqb_refl. cbn [andb]. unfold inflow.
    destruct (qlt 0 (hills w ih)); ring. }
  assert (V : vol (cc (first_half s ih) (row w ih)) 2%Z == vol (cc s (row w ih)) 2%Z + water_in w ih).
  { rewrite first_vol by discriminate. rewrite !Z.eqb_refl. cbn [andb]. unfold water_in.
    destruct (qlt 0 (hills w ih)); ring. }
  destruct (qlt 0 (onward k ih + away w ih)); [| auto].
  destruct (1 <? ih)%Z.
  - split.
    + rewrite plain_call by (cbn; auto). rewrite NE. cbn [andb].
      match goal with |- context [update_chem k ?s1 (call_of w ih (row w ih) ?v 3 _ false true)] =>
        destruct (route_call s1 ih v false H) as (U & _) end.
      rewrite U. rewrite plain_call by (cbn; auto).
      replace (2 =? 3)%Z with false by reflexivity. rewrite andb_false_r. exact F.
    + rewrite !any_vol by (cbn; auto). rewrite NE. replace (2 =? 3)%Z with false by reflexivity.
      rewrite !andb_false_r. cbn [andb]. exact V.
  - split.
    + match goal with |- context [update_chem k ?s1 (call_of w ih (row w ih) ?v 3 _ true true)] =>
        destruct (route_call s1 ih v true H) as (U & _) end.
      rewrite U. rewrite plain_call by (cbn; auto).
      replace (2 =? 3)%Z with false by reflexivity. rewrite andb_false_r. exact F.
    + rewrite !any_vol by (cbn; auto). replace (2 =? 3)%Z with false by reflexivity.
      rewrite !andb_false_r. exact V.
Qed.

(** The row of the next segment. *)
Lemma segment_next s ih : (1 < ih < e8)%Z -> 0 < vstream k (ih - 1)%Z + away w ih ->
  mol (cc (segment k w s ih) (row w (ih - 1))) n 2%Z ==
    mol (cc s (row w ih)) n 3%Z + m_conc (routed w ih) n * away w ih * 1000 +
    R3 ih (vstream k (ih - 1)%Z) + R3 ih (vstream k (ih - 1)%Z) +
    m_conc (routed w ih) n * vstream k (ih - 1)%Z * 1000 /\
  vol (cc (segment k w s ih) (row w (ih - 1))) 2%Z ==
    vol (cc s (row w (ih - 1))) 2%Z + vstream k (ih - 1)%Z.
Proof.
  intros H P. rewrite segment_halves. cbv zeta.
  assert (NE : (row w ih =? row w (ih - 1))%Z = false).
  { rewrite (row_step w ih (ih - 1)) by lia. lia. }
  assert (NE' : (row w (ih - 1) =? row w ih)%Z = false) by lia.
  unfold onward. replace (1 <? ih)%Z with true by lia. apply qlt_true in P. rewrite P. split.
  - rewrite plain_call by (cbn; auto). rewrite !Z.eqb_refl. cbn [andb].
    match goal with |- context [update_chem k ?s1 (call_of w ih (row w ih) ?v 3 _ false true)] =>
      destruct (route_call s1 ih v false ltac:(lia)) as (_ & U & _) end.
    rewrite U. rewrite plain_call by (cbn; auto). rewrite !Z.eqb_refl. cbn [andb].
    rewrite first_mol. replace (3 =? 2)%Z with false by reflexivity. rewrite andb_false_r. cbn [andb].
    unfold R3. ring.
  - rewrite !any_vol by (cbn; auto). rewrite NE'. rewrite !Z.eqb_refl. cbn [andb].
    rewrite first_vol by discriminate. rewrite NE'. cbn [andb]. ring.
Qed.
Lemma segment_out s ih : (0 < ih < e8)%Z ->
  mol (cc (segment k w s ih) (row w (ih - 1))) n 3%Z = mol (cc s (row w (ih - 1))) n 3%Z.
Proof.
  intros H. rewrite segment_halves. cbv zeta.
  assert (NE' : (row w (ih - 1) =? row w ih)%Z = false).
  { rewrite (row_step w ih (ih - 1)) by lia. lia. }
  assert (F : mol (cc (first_half s ih) (row w (ih - 1))) n 3%Z = mol (cc s (row w (ih - 1))) n 3%Z).
  { rewrite first_mol, NE'. reflexivity. }
  destruct (qlt 0 (onward k ih + away w ih)); [| auto].
  destruct (1 <? ih)%Z.
  - rewrite plain_call by (cbn; auto). replace (3 =? 2)%Z with false by reflexivity. rewrite andb_false_r.
    match goal with |- context [update_chem k ?s1 (call_of w ih (row w ih) ?v 3 _ false true)] =>
      destruct (route_call s1 ih v false H) as (_ & _ & U & _) end.
    rewrite U, plain_call by (cbn; auto). rewrite NE'. exact F.
  - match goal with |- context [update_chem k ?s1 (call_of w ih (row w ih) ?v 3 _ true true)] =>
      destruct (route_call s1 ih v true H) as (_ & _ & U & _) end.
    rewrite U, plain_call by (cbn; auto). rewrite NE'. exact F.
Qed.

(** ** The whole pass *)
Lemma fold_far i c : forall l s,
  (forall x, In x l -> (0 < x < e8)%Z /\ i <> row w x /\ i <> row w (x - 1)) ->
  mol (cc (fold_left (segment k w) l s) i) n c = mol (cc s i) n c /\
  (c <> 5%Z -> vol (cc (fold_left (segment k w) l s) i) c = vol (cc s i) c).
Proof.
  induction l as [| x l IH]; intros s H; cbn [fold_left]; [auto |].
  destruct (IH (segment k w s x)) as [A B]; [intros y Y; apply H; now right |].
  destruct (H x (or_introl eq_refl)) as (H1 & H2 & H3).
  destruct (segment_far s x i c H1 H2 H3) as [C D]. rewrite A.
  split; [exact C |]. intros E. rewrite B by exact E. now apply D.
Qed.

Lemma rev_upto_split j m : (1 <= j < m)%Z ->
  rev (upto 1 m) = rev (upto (j + 2) m) ++ [(j + 1)%Z; j] ++ rev (upto 1 (j - 1)).
Proof.
  intros H. rewrite (upto_split 1 m j) by lia.
  rewrite (upto_split (j + 1) m (j + 1)) by lia.
  replace (upto (j + 1) (j + 1 - 1)) with (@nil Z).
  2: { unfold upto. replace (Z.to_nat (j + 1 - 1 - (j + 1) + 1)) with 0%nat by lia. reflexivity. }
  cbn [app]. replace (j + 1 + 1)%Z with (j + 2)%Z by lia.
  rewrite rev_app_distr. cbn [rev]. rewrite <- !app_assoc. reflexivity.
Qed.

Lemma row_ne a b : (0 <= a < e8)%Z -> (0 <= b < e8)%Z -> a <> b -> row w a <> row w b.
Proof. intros A B H. rewrite (row_step w a b) by assumption. lia. Qed.

(** Out-column of row x is untouched by segments above it. *)
Lemma above_out x : (0 <= x)%Z -> forall l s, (forall y, In y l -> (x < y < e8)%Z) ->
  mol (cc (fold_left (segment k w) l s) (row w x)) n 3%Z = mol (cc s (row w x)) n 3%Z.
Proof.
  intros X. induction l as [| y l IH]; intros s H; cbn [fold_left]; [reflexivity |].
  rewrite IH by (intros z Z'; apply H; now right).
  specialize (H y (or_introl eq_refl)). destruct (Z.eq_dec x (y - 1)) as [-> | NE].
  - apply segment_out. lia.
  - apply segment_far; [lia | apply row_ne; lia | apply row_ne; lia].
Qed.

Lemma pass_next s j : (1 <= j < segs w)%Z -> (segs w < e8)%Z ->
  0 < vstream k j + away w (j + 1)%Z ->
  mol (cc (stream_pass k w s) (row w j)) n 2%Z ==
    mol (cc s (row w (j + 1))) n 3%Z + m_conc (routed w (j + 1)) n * away w (j + 1)%Z * 1000 +
    R3 (j + 1) (vstream k j) + R3 (j + 1) (vstream k j) +
    m_conc (routed w (j + 1)) n * vstream k j * 1000 + inflow w j n /\
  vol (cc (stream_pass k w s) (row w j)) 2%Z ==
    vol (cc s (row w j)) 2%Z + vstream k j + water_in w j.
Proof.
  intros J SE P. unfold stream_pass. rewrite (rev_upto_split j (segs w)) by exact J.
  rewrite !fold_left_app. cbn [fold_left app].
  set (s1 := fold_left (segment k w) (rev (upto (j + 2) (segs w))) s).
  assert (M1 : mol (cc s1 (row w (j + 1))) n 3%Z = mol (cc s (row w (j + 1))) n 3%Z).
  { unfold s1. apply above_out; [lia |]. intros y Y. apply in_rev in Y. apply in_upto in Y. lia. }
  assert (V1 : vol (cc s1 (row w j)) 2%Z = vol (cc s (row w j)) 2%Z).
  { unfold s1. apply fold_far; [| discriminate]. intros y Y. apply in_rev in Y. apply in_upto in Y.
    split; [lia |]. split; apply row_ne; lia. }
  clearbody s1.
  assert (F : forall z, mol (cc (fold_left (segment k w) (rev (upto 1 (j - 1))) z) (row w j)) n 2%Z
                        = mol (cc z (row w j)) n 2%Z /\
                        vol (cc (fold_left (segment k w) (rev (upto 1 (j - 1))) z) (row w j)) 2%Z
                        = vol (cc z (row w j)) 2%Z).
  { intros z. destruct (fold_far (row w j) 2%Z (rev (upto 1 (j - 1))) z) as [A B].
    - intros y Y. apply in_rev in Y. apply in_upto in Y. split; [lia |]. split; apply row_ne; lia.
    - split; [exact A | apply B; discriminate]. }
  match goal with |- context [fold_left (segment k w) (rev (upto 1 (j - 1))) ?z] =>
    destruct (F z) as [FA FB] end.
  rewrite FA, FB. clear F FA FB.
  destruct (segment_own (segment k w s1 (j + 1)) j) as [O1 O2]; [lia |]. rewrite O1, O2.
  destruct (segment_next s1 (j + 1)) as [X1 X2]; [lia | |].
  { replace (j + 1 - 1)%Z with j by lia. exact P. }
  replace (j + 1 - 1)%Z with j in X1, X2 by lia. rewrite X1, X2, M1, V1. split; ring.
Qed.
End Segment.
