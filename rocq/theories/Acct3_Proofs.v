From Coq Require Import ZArith QArith List Bool Lqa Lia.
From Verif Require Import Qx Soln_Model Acct_Model Acct_Spec Acct_Proofs Acct2_Proofs.
Import ListNotations.
Local Open Scope Q_scope.

(** ** Lists of indices *)
Lemma in_count a n x : In x (count_from a n) <-> (a <= x < a + Z.of_nat n)%Z.
Proof.
  revert a. induction n as [| n IH]; intros a; cbn [count_from In]; [lia |].
  rewrite IH. lia.
Qed.
Lemma in_upto a b x : In x (upto a b) <-> (a <= x <= b)%Z.
Proof. unfold upto. rewrite in_count. lia. Qed.
Lemma nodup_count a n : NoDup (count_from a n).
Proof.
  revert a. induction n as [| n IH]; intros a; cbn [count_from]; constructor; auto.
  rewrite in_count. lia.
Qed.
Lemma nodup_upto a b : NoDup (upto a b). Proof. apply nodup_count. Qed.
Lemma count_split a n m : count_from a (n + m) = count_from a n ++ count_from (a + Z.of_nat n) m.
Proof.
  revert a. induction n as [| n IH]; intros a; cbn [count_from Nat.add app].
  - f_equal. lia.
  - f_equal. rewrite IH. f_equal. f_equal. lia.
Qed.
Lemma upto_split a b x : (a <= x <= b)%Z -> upto a b = upto a (x - 1) ++ x :: upto (x + 1) b.
Proof.
  intros H. unfold upto.
  replace (Z.to_nat (b - a + 1)) with (Z.to_nat (x - 1 - a + 1) + S (Z.to_nat (b - (x + 1) + 1)))%nat
    by lia.
  rewrite count_split. cbn [count_from]. f_equal.
  replace (a + Z.of_nat (Z.to_nat (x - 1 - a + 1)))%Z with x by lia. reflexivity.
Qed.
Lemma upto_snoc a b : (a <= b)%Z -> upto a b = upto a (b - 1) ++ [b].
Proof.
  intros H. rewrite (upto_split a b b) by lia. f_equal. unfold upto.
  replace (Z.to_nat (b - (b + 1) + 1)) with 0%nat by lia. reflexivity.
Qed.

(** One index of a loop sets what the others leave alone. *)
Lemma fold_at {A} (P0 P1 : A -> Prop) (f : A -> Z -> A) n :
  (forall w p, p <> n -> P0 w -> P0 (f w p)) -> (forall w, P0 w -> P1 (f w n)) ->
  (forall w p, p <> n -> P1 w -> P1 (f w p)) ->
  forall l w, NoDup l -> In n l -> P0 w -> P1 (fold_left f l w).
Proof.
  intros H0 H1 H2 l. induction l as [| p l IH]; intros w ND I W; [contradiction |].
  inversion ND as [| ? ? NI ND' E]; subst. cbn [fold_left].
  destruct I as [-> | I].
  - apply H1 in W. clear IH. revert W NI. generalize (f w n). clear - H2.
    induction l as [| p l IH]; intros a W NI; cbn [fold_left]; auto.
    apply IH; [apply H2; auto |]; intros C; apply NI; [subst; now left | now right].
  - apply IH; auto. apply H0; auto. intros ->. contradiction.
Qed.

(** ** What a call does to the accounts of the reservoirs *)
Lemma cc_bas f s : cc (on_bas f s) = cc s. Proof. reflexivity. Qed.
Lemma cc_hyd f s : cc (on_hyd f s) = cc s. Proof. reflexivity. Qed.
Lemma cc_mru i f s : cc (on_mru i f s) = cc s. Proof. reflexivity. Qed.
Lemma cc_uz b i f s : cc (on_uz b i f s) = cc s. Proof. destruct b; reflexivity. Qed.
Lemma cc_into k e b m u h f s : cc (into k e b m u h f s) = cc s.
Proof.
  unfold into. cbv zeta. destruct h; rewrite ?cc_hyd; (destruct u; rewrite ?cc_uz);
    (destruct m; rewrite ?cc_mru); destruct b; reflexivity.
Qed.
Lemma cc_same i f s : cc (on_cc i f s) i = f (cc s i).
Proof. cbn [cc on_cc]. apply upd_same. Qed.
Lemma cc_other i f s j : j <> i -> cc (on_cc i f s) j = cc s j.
Proof. intros H. cbn [cc on_cc]. now apply upd_other. Qed.

Lemma upd2_same f n c x : upd2 f n c x n c = x.
Proof. unfold upd2. now rewrite !Z.eqb_refl. Qed.
Lemma upd2_n f n c x i j : i <> n -> upd2 f n c x i j = f i j.
Proof. intros H. unfold upd2. destruct (Z.eqb_spec i n); [congruence | reflexivity]. Qed.
Lemma upd2_c f n c x i j : j <> c -> upd2 f n c x i j = f i j.
Proof.
  intros H. unfold upd2. destruct (Z.eqb_spec j c); [congruence |]. now rewrite andb_false_r.
Qed.

(** Entities of one solute. *)
Definition x_ent (k : cfg) (e : call) (r : Q) (n j : Z) : Q := tally e (tlye k n) j * mult k j * r * 1000.
Definition keep_but_ent (g g' : geo) : Prop :=
  vol g' = vol g /\ temp g' = temp g /\ pH g' = pH g /\ mol g' = mol g /\ dlt g' = dlt g /\
  efr g' = efr g /\ mass g' = mass g /\ mdf g' = mdf g.

Lemma entity_fold k e r n : forall l w, NoDup l ->
  let w' := fold_left (book_entity k e r n) l w in
  let g := cc (fst w) (indx e) in
  let g' := cc (fst w') (indx e) in
  keep_but_ent g g' /\ (forall p j, p <> n -> ent g' p j = ent g p j) /\
  (forall j, ~ In j l -> ent g' n j = ent g n j) /\
  (forall j, In j l -> ent g' n j = x_ent k e r n j) /\
  snd w' == snd w + qsum (map (x_ent k e r n) l).
Proof.
  induction l as [| j l IH]; intros w ND; cbv zeta; cbn [fold_left].
  - split; [unfold keep_but_ent; tauto |]. split; [reflexivity |]. split; [reflexivity |].
    split; [contradiction |]. cbn [map qsum]. ring.
  - inversion ND as [| ? ? NI ND' E]; subst.
    destruct w as [s x].
    specialize (IH (book_entity k e r n (s, x) j) ND'). cbv zeta in IH.
    set (w' := fold_left _ l _) in *.
    assert (G : cc (fst (book_entity k e r n (s, x) j)) (indx e)
                = set_ent n j (x_ent k e r n j) (cc s (indx e))).
    { unfold book_entity. cbv zeta. cbn [fst]. rewrite cc_into, cc_same. reflexivity. }
    rewrite G in IH. cbn [fst snd] in *. destruct IH as (K & I1 & I2 & I3 & I4).
    split; [exact K |].
    split. { intros p i Hp. rewrite I1 by exact Hp. cbn [ent set_ent]. now apply upd2_n. }
    split. { intros i Hi. rewrite I2 by (intros C; apply Hi; now right). cbn [ent set_ent].
             apply upd2_c. intros ->. apply Hi. now left. }
    split. { intros i [-> | Hi]; [| now apply I3].
             destruct (in_dec Z.eq_dec i l) as [C | C]; [contradiction |].
             rewrite I2 by exact C. cbn [ent set_ent]. apply upd2_same. }
    rewrite I4. unfold book_entity. cbv zeta. cbn [snd map qsum]. fold (x_ent k e r n j). ring.
Qed.

Definition made (k : cfg) (e : call) (r : Q) (n : Z) : Q := tally e (tly k n) 2%Z * r * 1000.

Lemma reaction_at k e r s nis n :
  let g := cc s (indx e) in
  let g' := cc (fst (book_reaction k e r (s, nis) n)) (indx e) in
  (vol g' = vol g /\ temp g' = temp g /\ pH g' = pH g /\ mass g' = mass g /\ mdf g' = mdf g) /\
  (forall p, p <> n -> (forall c, mol g' p c = mol g p c) /\ (forall c, dlt g' p c = dlt g p c) /\
                       (forall c, ent g' p c = ent g p c) /\ efr g' p = efr g p) /\
  (forall c, c <> 4%Z -> c <> 5%Z -> mol g' n c = mol g n c) /\
  mol g' n 5%Z = made k e r n /\
  (iso k n = true -> mol g' n 4%Z = mol g n 4%Z /\ dlt g' n 5%Z = conc e (nsol k + (nis + 1))%Z * r) /\
  (iso k n = false ->
     mol g' n 4%Z = made k e r n - conc e n * r * 1000 /\
     (forall j, In j (entities k) -> ent g' n j = x_ent k e r n j) /\
     exists sum, sum == qsum (map (x_ent k e r n) (entities k)) /\
       efr g' n = if qlt 0 sum then (made k e r n - conc e n * r * 1000) / sum else 0) /\
  snd (book_reaction k e r (s, nis) n) = (if iso k n then nis + 1 else nis)%Z.
Proof.
  cbv zeta. unfold book_reaction. cbv zeta. fold (made k e r n).
  set (s1 := on_cc (indx e) (set_mol n c_fin (made k e r n)) s).
  set (diff := if iso k n then mol (cc s1 (indx e)) n c_rxn else made k e r n - conc e n * r * 1000).
  set (d := conc e (nsol k + (if iso k n then nis + 1 else nis))%Z * r).
  set (s2 := if iso k n then into k e true (is_mru e) _ _ _ _ else on_cc _ _ _).
  set (s2b := if negb (ih_ e =? 1)%Z then _ else on_bas (add_mol n c_rxn diff) s2).
  assert (C2b : cc s2b = cc s2) by (unfold s2b; destruct (negb (ih_ e =? 1)%Z); reflexivity).
  clearbody s2b.
  set (s3 := into k e false (is_mru e) (is_unsat e) (is_stream e) _ s2b).
  assert (C3 : cc s3 (indx e) = cc s2 (indx e)) by (unfold s3; now rewrite cc_into, C2b).
  clearbody s3.
  assert (C2 : cc s2 (indx e) =
     if iso k n then set_dlt n c_fin d (set_mol n c_fin (made k e r n) (cc s (indx e)))
     else set_mol n c_rxn diff (set_mol n c_fin (made k e r n) (cc s (indx e)))).
  { unfold s2, s1. destruct (iso k n); rewrite ?cc_into, !cc_same; reflexivity. }
  clearbody s2. unfold diff, d in *. clear diff d. destruct (iso k n) eqn:I.
  - cbn [fst snd]. rewrite cc_into, cc_same, C3, C2.
    cbn [vol temp pH mol dlt ent efr mass mdf set_efr set_dlt set_mol].
    split; [tauto |]. split.
    { intros p Hp. unfold upd, upd2. destruct (Z.eqb_spec p n); [congruence |]. auto. }
    split. { intros c H4 H5. apply upd2_c. exact H5. }
    split; [apply upd2_same |].
    split; [| split; [discriminate | reflexivity]].
    intros _. split; [apply upd2_c; discriminate | apply upd2_same].
  - pose proof (entity_fold k e r n (entities k) (s3, 0) (nodup_upto _ _)) as F. cbv zeta in F.
    destruct (fold_left (book_entity k e r n) (entities k) (s3, 0)) as [s4 sum].
    cbn [fst snd] in *. rewrite cc_into, cc_same. rewrite C3, C2 in F.
    destruct F as ((F1 & F2 & F3 & F4 & F5 & F6 & F7 & F8) & G1 & G2 & G3 & G4).
    cbn [vol temp pH mol dlt ent efr mass mdf set_efr set_dlt set_mol] in *.
    rewrite F1, F2, F3, F4, F5, F6, F7, F8.
    split; [tauto |]. split.
    { intros p Hp. split; [| split; [reflexivity | split]].
      - intros c. rewrite !upd2_n by exact Hp. reflexivity.
      - intros c. now apply G1.
      - now apply upd_other. }
    split. { intros c H4 H5. rewrite upd2_c by exact H4. now apply upd2_c. }
    split. { rewrite upd2_c by discriminate. apply upd2_same. }
    split; [discriminate |]. split; [| reflexivity].
    intros _. split; [apply upd2_same |]. split; [exact G3 |].
    exists sum. split; [rewrite G4; ring |]. apply upd_same.
Qed.

Lemma reaction_fold k e r : forall l w,
  let g := cc (fst w) (indx e) in
  let w' := fold_left (book_reaction k e r) l w in
  let g' := cc (fst w') (indx e) in
  (vol g' = vol g /\ temp g' = temp g /\ pH g' = pH g /\ mass g' = mass g /\ mdf g' = mdf g) /\
  (forall n c, c <> 4%Z -> c <> 5%Z -> mol g' n c = mol g n c) /\
  snd w' = (snd w + Z.of_nat (length (filter (iso k) l)))%Z.
Proof.
  induction l as [| n l IH]; intros w; cbv zeta; cbn [fold_left].
  - split; [tauto |]. split; [reflexivity |]. cbn [filter length]. lia.
  - destruct w as [s nis]. pose proof (reaction_at k e r s nis n) as A. cbv zeta in A.
    specialize (IH (book_reaction k e r (s, nis) n)). cbv zeta in IH.
    destruct A as ((A1 & A2 & A3 & A4 & A5) & B & C & _ & _ & _ & D).
    destruct IH as ((E1 & E2 & E3 & E4 & E5) & F & G). cbn [fst snd] in *.
    split; [rewrite E1, E2, E3, E4, E5; tauto |].
    split. { intros p c H4 H5. rewrite F by assumption. destruct (Z.eq_dec p n) as [-> | N].
             - now apply C.
             - now apply B. }
    rewrite G, D. cbn [filter]. destruct (iso k n); cbn [length]; lia.
Qed.

(** Other reservoirs are left alone by the reaction loop. *)
Lemma entity_far k e r n i : i <> indx e -> forall l w,
  cc (fst (fold_left (book_entity k e r n) l w)) i = cc (fst w) i.
Proof.
  intros N. induction l as [| j l IH]; intros w; cbn [fold_left]; [reflexivity |].
  rewrite IH. destruct w as [s x]. unfold book_entity. cbv zeta. cbn [fst].
  rewrite cc_into. now apply cc_other.
Qed.
Lemma reaction_far k e r i : i <> indx e -> forall l w,
  cc (fst (fold_left (book_reaction k e r) l w)) i = cc (fst w) i.
Proof.
  intros N. induction l as [| n l IH]; intros w; cbn [fold_left]; [reflexivity |].
  rewrite IH. destruct w as [s nis]. unfold book_reaction. cbv zeta.
  match goal with |- context [if iso k n then (?x, 0) else ?y] => set (s3 := x) end.
  assert (C3 : cc s3 i = cc s i).
  { unfold s3. rewrite cc_into.
    destruct (negb (ih_ e =? 1)%Z); rewrite ?cc_bas; (destruct (iso k n);
      rewrite ?cc_into; rewrite !cc_other by exact N; reflexivity). }
  clearbody s3.
  assert (C4 : cc (fst (if iso k n then (s3, 0)
                        else fold_left (book_entity k e r n) (entities k) (s3, 0))) i = cc s i).
  { destruct (iso k n); [exact C3 |]. rewrite entity_far by exact N. exact C3. }
  destruct (if iso k n then (s3, 0) else _) as [s4 sum]. cbn [fst] in *.
  rewrite cc_into, cc_other by exact N. exact C4.
Qed.
Lemma change_far k e i s : i <> indx e -> cc (book_change k e s) i = cc s i.
Proof.
  intros N. unfold book_change. generalize (entities k). intros l. revert s.
  induction l as [| j l IH]; intros s; cbn [fold_left]; [reflexivity |].
  rewrite IH. now apply cc_other.
Qed.

(** The last loop: moles of the entities. *)
Definition keep_but_mass (g g' : geo) : Prop :=
  vol g' = vol g /\ temp g' = temp g /\ pH g' = pH g /\ mol g' = mol g /\ dlt g' = dlt g /\
  ent g' = ent g /\ efr g' = efr g.
Lemma change_at k e s : forall l, NoDup l ->
  let g := cc s (indx e) in
  let g' := cc (fold_left (fun s j => let x := tally e (nrows k + 1)%Z j in
                  on_cc (indx e) (fun g => set_mass j x (set_mdf j (mass g j - x) g)) s) l s) (indx e) in
  keep_but_mass g g' /\
  (forall j, In j l -> mass g' j = tally e (nrows k + 1)%Z j /\
                       mdf g' j = mass g j - tally e (nrows k + 1)%Z j) /\
  (forall j, ~ In j l -> mass g' j = mass g j /\ mdf g' j = mdf g j).
Proof.
  intros l. revert s. induction l as [| j l IH]; intros s ND; cbv zeta; cbn [fold_left].
  - split; [unfold keep_but_mass; tauto |]. split; [contradiction | auto].
  - inversion ND as [| ? ? NI ND' E]; subst.
    match goal with |- context [fold_left _ l ?x] => set (s1 := x) end.
    specialize (IH s1 ND'). cbv zeta in IH.
    assert (G : cc s1 (indx e) = set_mass j (tally e (nrows k + 1)%Z j)
       (set_mdf j (mass (cc s (indx e)) j - tally e (nrows k + 1)%Z j) (cc s (indx e)))).
    { unfold s1. now rewrite cc_same. }
    clearbody s1. rewrite G in IH. destruct IH as (K & I1 & I2).
    split; [exact K |]. cbn [mass mdf set_mass set_mdf] in *.
    split.
    + intros i [-> | Hi].
      * destruct (I2 i NI) as [M D]. rewrite M, D. rewrite !upd_same. auto.
      * destruct (I1 i Hi) as [M D]. rewrite M, D. split; [reflexivity |].
        rewrite upd_other; [reflexivity |]. intros ->. contradiction.
    + intros i Hi. destruct (I2 i) as [M D]; [intros C; apply Hi; now right |].
      rewrite M, D. rewrite !upd_other; [auto | |]; intros ->; apply Hi; now left.
Qed.

(** ** The first loops *)
Lemma solute_cc k e v s nis n i :
  let g := cc s i in
  let g' := cc (fst (book_solute k e v (s, nis) n)) i in
  (vol g' = vol g /\ temp g' = temp g /\ pH g' = pH g /\ ent g' = ent g /\ efr g' = efr g /\
   mass g' = mass g /\ mdf g' = mdf g) /\
  (forall p c, p <> n -> mol g' p c = mol g p c /\ dlt g' p c = dlt g p c).
Proof.
  cbv zeta. unfold book_solute. cbv zeta. cbn [fst]. rewrite cc_into.
  set (s1 := on_cc (indx e) _ s).
  assert (K1 : forall j, (vol (cc s1 j) = vol (cc s j) /\ temp (cc s1 j) = temp (cc s j) /\
     pH (cc s1 j) = pH (cc s j) /\ ent (cc s1 j) = ent (cc s j) /\ efr (cc s1 j) = efr (cc s j) /\
     mass (cc s1 j) = mass (cc s j) /\ mdf (cc s1 j) = mdf (cc s j)) /\
     (forall p c, p <> n -> mol (cc s1 j) p c = mol (cc s j) p c /\ dlt (cc s1 j) p c = dlt (cc s j) p c)).
  { intros j. unfold s1. destruct (Z.eq_dec j (indx e)) as [-> | N].
    - rewrite cc_same. destruct (is_direct e); [| destruct (negb (is_stream e))];
        cbn [vol temp pH mol dlt ent efr mass mdf add_mol set_mol]; (split; [tauto |]);
        intros p c Hp; split; try reflexivity; now apply upd2_n.
    - rewrite cc_other by exact N. split; [tauto | auto]. }
  clearbody s1.
  set (s2 := if negb (is_direct e) && is_stream e && react e && (column e =? 3)%Z then _ else s1).
  assert (K2 : forall j, (vol (cc s2 j) = vol (cc s j) /\ temp (cc s2 j) = temp (cc s j) /\
     pH (cc s2 j) = pH (cc s j) /\ ent (cc s2 j) = ent (cc s j) /\ efr (cc s2 j) = efr (cc s j) /\
     mass (cc s2 j) = mass (cc s j) /\ mdf (cc s2 j) = mdf (cc s j)) /\
     (forall p c, p <> n -> mol (cc s2 j) p c = mol (cc s j) p c /\ dlt (cc s2 j) p c = dlt (cc s j) p c)).
  { intros j. unfold s2.
    destruct (negb (is_direct e) && is_stream e && react e && (column e =? 3)%Z); [| apply K1].
    destruct (Z.eq_dec j (indx e - 1)) as [-> | N].
    - rewrite cc_same. cbn [vol temp pH mol dlt ent efr mass mdf set_mol].
      destruct (K1 (indx e - 1)%Z) as [A B]. split; [exact A |]. intros p c Hp.
      rewrite !upd2_n by exact Hp. now apply B.
    - rewrite cc_other by exact N. apply K1. }
  clearbody s2. destruct (iso k n); [| apply K2].
  set (d := conc e _).
  set (s3 := on_cc (indx e) (add_dlt n (column e) (d * v)) s2).
  assert (K3 : forall j, (vol (cc s3 j) = vol (cc s j) /\ temp (cc s3 j) = temp (cc s j) /\
     pH (cc s3 j) = pH (cc s j) /\ ent (cc s3 j) = ent (cc s j) /\ efr (cc s3 j) = efr (cc s j) /\
     mass (cc s3 j) = mass (cc s j) /\ mdf (cc s3 j) = mdf (cc s j)) /\
     (forall p c, p <> n -> mol (cc s3 j) p c = mol (cc s j) p c /\ dlt (cc s3 j) p c = dlt (cc s j) p c)).
  { intros j. unfold s3. destruct (Z.eq_dec j (indx e)) as [-> | N].
    - rewrite cc_same. cbn [vol temp pH mol dlt ent efr mass mdf add_dlt set_dlt].
      destruct (K2 (indx e)) as [A B]. split; [exact A |]. intros p c Hp.
      rewrite upd2_n by exact Hp. now apply B.
    - rewrite cc_other by exact N. apply K2. }
  clearbody s3. destruct (is_stream e && react e); [| apply K3].
  destruct (Z.eq_dec i (indx e - 1)) as [-> | N].
  - rewrite cc_same. cbn [vol temp pH mol dlt ent efr mass mdf set_dlt].
    destruct (K3 (indx e - 1)%Z) as [A B]. split; [exact A |]. intros p c Hp.
    rewrite !upd2_n by exact Hp. now apply B.
  - rewrite cc_other by exact N. apply K3.
Qed.

Lemma solute_fold_keep k e v i : forall l w,
  let g := cc (fst w) i in
  let g' := cc (fst (fold_left (book_solute k e v) l w)) i in
  (vol g' = vol g /\ temp g' = temp g /\ pH g' = pH g /\ ent g' = ent g /\ efr g' = efr g /\
   mass g' = mass g /\ mdf g' = mdf g) /\
  (forall p c, ~ In p l -> mol g' p c = mol g p c /\ dlt g' p c = dlt g p c).
Proof.
  induction l as [| n l IH]; intros w; cbv zeta; cbn [fold_left]; [split; [tauto | auto] |].
  destruct w as [s nis]. pose proof (solute_cc k e v s nis n i) as A. cbv zeta in A.
  specialize (IH (book_solute k e v (s, nis) n)). cbv zeta in IH. cbn [fst] in *.
  destruct A as ((A1 & A2 & A3 & A4 & A5 & A6 & A7) & A8).
  destruct IH as ((B1 & B2 & B3 & B4 & B5 & B6 & B7) & B8).
  split; [rewrite B1, B2, B3, B4, B5, B6, B7; tauto |].
  intros p c Hp. destruct (B8 p c) as [X Y]; [intros C; apply Hp; now right |].
  destruct (A8 p c) as [X' Y']; [intros ->; apply Hp; now left |]. rewrite X, Y. auto.
Qed.

Lemma mass_keep k e s i :
  let g := cc s i in let g' := cc (book_mass k e s) i in
  vol g' = vol g /\ temp g' = temp g /\ pH g' = pH g /\ mol g' = mol g /\ dlt g' = dlt g /\
  ent g' = ent g /\ efr g' = efr g /\ (column e <> 1%Z -> mass g' = mass g /\ mdf g' = mdf g).
Proof.
  cbv zeta. unfold book_mass. destruct (Z.eqb_spec (column e) 1) as [E | N]; [| tauto].
  generalize (entities k). intros l. revert s.
  induction l as [| j l IH]; intros s; cbn [fold_left]; [tauto |].
  match goal with |- context [fold_left _ l ?x] => set (s1 := x) end.
  specialize (IH s1).
  assert (K : vol (cc s1 i) = vol (cc s i) /\ temp (cc s1 i) = temp (cc s i) /\ pH (cc s1 i) = pH (cc s i)
     /\ mol (cc s1 i) = mol (cc s i) /\ dlt (cc s1 i) = dlt (cc s i) /\ ent (cc s1 i) = ent (cc s i)
     /\ efr (cc s1 i) = efr (cc s i)).
  { unfold s1. destruct (Z.eq_dec i (indx e)) as [-> | N];
      [rewrite cc_same; cbn [vol temp pH mol dlt ent efr set_mass] | rewrite cc_other by exact N]; tauto. }
  destruct IH as (A1 & A2 & A3 & A4 & A5 & A6 & A7 & A8).
  destruct K as (K1 & K2 & K3 & K4 & K5 & K6 & K7).
  rewrite A1, A2, A3, A4, A5, A6, A7. repeat (split; [assumption |]). lia.
Qed.

Lemma water_cc k e s i :
  let g := cc s i in let g' := cc (book_water k e s) i in
  mol g' = mol g /\ dlt g' = dlt g /\ ent g' = ent g /\ efr g' = efr g /\ mass g' = mass g /\
  mdf g' = mdf g /\
  forall c, vol g' c = if (i =? indx e)%Z && (c =? column e)%Z && is_flow e
                       then vol g c + totvol e else vol g c.
Proof.
  cbv zeta. unfold book_water. cbv zeta. rewrite cc_into.
  destruct (Z.eqb_spec i (indx e)) as [-> | N].
  - rewrite cc_same. destruct (is_flow e) eqn:F;
      cbn [vol temp pH mol dlt ent efr mass mdf add_pH set_pH add_temp set_temp add_vol set_vol].
    + repeat (split; [reflexivity |]). intros c. rewrite andb_true_r. cbn [andb].
      unfold moved, upd. rewrite F. destruct (Z.eqb_spec c (column e)); subst; reflexivity.
    + repeat (split; [reflexivity |]). intros c. rewrite andb_false_r. reflexivity.
  - rewrite cc_other by exact N. repeat (split; [reflexivity |]). reflexivity.
Qed.

(** The state before reactions. *)
Definition early (k : cfg) (s : acct) (e : call) : acct :=
  book_mass k e (fst (fold_left (book_solute k e (moved s e)) (solutes k) (book_water k e s, 0%Z))).

Lemma early_cc k s e i :
  let g := cc s i in let g' := cc (early k s e) i in
  ent g' = ent g /\ efr g' = efr g /\
  (forall c, vol g' c = if (i =? indx e)%Z && (c =? column e)%Z && is_flow e
                        then vol g c + totvol e else vol g c) /\
  (forall n c, ~ (1 <= n <= nsol k)%Z -> mol g' n c = mol g n c) /\
  (column e <> 1%Z -> mass g' = mass g /\ mdf g' = mdf g).
Proof.
  cbv zeta. unfold early.
  pose proof (mass_keep k e (fst (fold_left (book_solute k e (moved s e)) (solutes k)
    (book_water k e s, 0%Z))) i) as M. cbv zeta in M.
  pose proof (solute_fold_keep k e (moved s e) i (solutes k) (book_water k e s, 0%Z)) as A.
  cbv zeta in A. cbn [fst] in A.
  pose proof (water_cc k e s i) as W. cbv zeta in W.
  destruct M as (M1 & M2 & M3 & M4 & M5 & M6 & M7 & M8).
  destruct A as ((A1 & A2 & A3 & A4 & A5 & A6 & A7) & A8).
  destruct W as (W1 & W2 & W3 & W4 & W5 & W6 & W7).
  split; [now rewrite M6, A4, W3 |]. split; [now rewrite M7, A5, W4 |].
  split; [intros c; rewrite M1, A1; apply W7 |].
  split. { intros n c H. rewrite M4. rewrite (proj1 (A8 n c ltac:(unfold solutes; rewrite in_upto; exact H))).
           now rewrite W1. }
  intros C. destruct (M8 C) as [X Y]. rewrite X, Y, A6, A7. auto.
Qed.

Lemma final_cc k e v s : cc (book_final k e v s) = cc s.
Proof.
  unfold book_final. cbv zeta. destruct (is_stream e); [destruct (1 <? ih_ e)%Z; reflexivity |].
  now rewrite !cc_into.
Qed.

Lemma update_vol k s e i c :
  vol (cc (update_chem k s e) i) c =
  if (i =? indx e)%Z && (c =? column e)%Z && is_flow e then vol (cc s i) c + totvol e
  else vol (cc s i) c.
Proof.
  unfold update_chem. cbv zeta. fold (early k s e).
  destruct (early_cc k s e i) as (_ & _ & V & _). destruct (react e); [| apply V].
  rewrite <- V. set (r := reacting k e (early k s e)). unfold book_change.
  set (s1 := fst (fold_left (book_reaction k e r) (solutes k) _)).
  assert (V1 : vol (cc s1 i) = vol (cc (early k s e) i)).
  { unfold s1. destruct (Z.eq_dec i (indx e)) as [-> | N].
    - destruct (reaction_fold k e r (solutes k) (book_final k e (moved s e) (early k s e), 0%Z))
        as ((A & _) & _). cbv zeta in A. rewrite A. cbn [fst]. now rewrite final_cc.
    - rewrite reaction_far by exact N. cbn [fst]. now rewrite final_cc. }
  rewrite <- V1. destruct (Z.eq_dec i (indx e)) as [-> | N].
  - destruct (change_at k e s1 (entities k) (nodup_upto _ _)) as ((A & _) & _). cbv zeta in A.
    now rewrite A.
  - fold (book_change k e s1). now rewrite change_far.
Qed.

(** ** A reservoir after a call with reactions *)
Lemma column_cases e : In (imetric e) [0; 1; 2; 3; -1]%Z -> In (column e) [1; 2; 3; 5]%Z.
Proof.
  unfold column. cbn [In]. intros H.
  destruct H as [H | [H | [H | [H | [H | []]]]]]; rewrite <- H; cbn; tauto.
Qed.
Lemma flow_not5 e : is_flow e = true -> column e <> 5%Z.
Proof.
  unfold is_flow. intros H. apply orb_true_iff in H. rewrite !Z.eqb_eq in H. lia.
Qed.
Lemma reacting_early k s e : reacting k e (early k s e) = reaction_volume k s e.
Proof.
  unfold reacting, reaction_volume. destruct (is_stream e); [reflexivity |].
  destruct (early_cc k s e (indx e)) as (_ & _ & V & _). unfold c_fin. rewrite V.
  destruct (is_flow e) eqn:F; [| now rewrite andb_false_r].
  apply flow_not5 in F. rewrite Z.eqb_refl. cbn [andb].
  destruct (Z.eqb_spec 5 (column e)); [congruence | reflexivity].
Qed.

Lemma reaction_other k e r p : forall l w, ~ In p l ->
  let g := cc (fst w) (indx e) in
  let g' := cc (fst (fold_left (book_reaction k e r) l w)) (indx e) in
  (forall c, mol g' p c = mol g p c) /\ (forall c, dlt g' p c = dlt g p c) /\
  (forall c, ent g' p c = ent g p c) /\ efr g' p = efr g p.
Proof.
  induction l as [| n l IH]; intros w H; cbv zeta; cbn [fold_left]; [tauto |].
  destruct w as [s nis]. pose proof (reaction_at k e r s nis n) as A. cbv zeta in A.
  destruct A as (_ & B & _). destruct (B p) as (B1 & B2 & B3 & B4); [intros ->; apply H; now left |].
  destruct (IH (book_reaction k e r (s, nis) n)) as (C1 & C2 & C3 & C4);
    [intros C; apply H; now right |]. cbn [fst].
  split; [intros c; now rewrite C1, B1 |]. split; [intros c; now rewrite C2, B2 |].
  split; [intros c; now rewrite C3, B3 | now rewrite C4, B4].
Qed.

Lemma update_react k s e n : react e = true -> (1 <= n <= nsol k)%Z ->
  let r := reaction_volume k s e in
  let g' := cc (update_chem k s e) (indx e) in
  mol g' n 5%Z = made k e r n /\
  (iso k n = true -> mol g' n 4%Z = mol (cc (early k s e) (indx e)) n 4%Z /\
                     dlt g' n 5%Z = conc e (nsol k + rank k n)%Z * r) /\
  (iso k n = false ->
     mol g' n 4%Z = made k e r n - conc e n * r * 1000 /\
     (forall j, In j (entities k) -> ent g' n j = x_ent k e r n j) /\
     exists sum, sum == qsum (map (x_ent k e r n) (entities k)) /\
       efr g' n = if qlt 0 sum then (made k e r n - conc e n * r * 1000) / sum else 0) /\
  (forall c, c <> 4%Z -> c <> 5%Z -> mol g' n c = mol (cc (early k s e) (indx e)) n c).
Proof.
  intros R N. cbv zeta. unfold update_chem. cbv zeta. fold (early k s e). rewrite R.
  rewrite reacting_early. set (r := reaction_volume k s e). unfold book_change.
  set (s0 := book_final k e (moved s e) (early k s e)).
  set (s1 := fst (fold_left (book_reaction k e r) (solutes k) (s0, 0%Z))).
  destruct (change_at k e s1 (entities k) (nodup_upto _ _)) as ((_ & _ & _ & C1 & C2 & C3 & C4) & _).
  cbv zeta in C1, C2, C3, C4. rewrite C1, C2, C3, C4. clear C1 C2 C3 C4.
  assert (S0 : cc s0 (indx e) = cc (early k s e) (indx e)) by (unfold s0; now rewrite final_cc).
  assert (SP : s1 = fst (fold_left (book_reaction k e r) (upto (n + 1) (nsol k))
            (book_reaction k e r (fold_left (book_reaction k e r) (upto 1 (n - 1)) (s0, 0%Z)) n))).
  { unfold s1, solutes. rewrite (upto_split 1 (nsol k) n N), fold_left_app. reflexivity. }
  clearbody s1. subst s1.
  pose proof (reaction_fold k e r (upto 1 (n - 1)) (s0, 0%Z)) as L. cbv zeta in L.
  destruct L as (_ & _ & L). cbn [fst snd] in L.
  destruct (reaction_other k e r n (upto 1 (n - 1)) (s0, 0%Z)) as (M1 & _);
    [rewrite in_upto; lia |]. cbn [fst] in M1. rewrite S0 in M1.
  destruct (fold_left (book_reaction k e r) (upto 1 (n - 1)) (s0, 0%Z)) as [sa na] eqn:EA.
  cbn [fst snd] in *. clear EA.
  destruct (reaction_other k e r n (upto (n + 1) (nsol k)) (book_reaction k e r (sa, na) n))
    as (O1 & O2 & O3 & O4); [rewrite in_upto; lia |].
  pose proof (reaction_at k e r sa na n) as A. cbv zeta in A.
  destruct A as (_ & _ & A1 & A2 & A3 & A4 & _).
  rewrite !O1, O2, O4, A2. split; [reflexivity |].
  split. { intros E. destruct (A3 E) as [X Y]. rewrite X, Y, M1. split; [reflexivity |].
           f_equal. f_equal. unfold rank.
           replace n with (n - 1 + 1)%Z at 2 by lia. rewrite upto_snoc by lia. rewrite filter_app.
           rewrite app_length. cbn [filter]. replace (n - 1 + 1)%Z with n by lia. rewrite E.
           cbn [length]. lia. }
  split. { intros E. destruct (A4 E) as (X & Y & Z). split; [exact X |]. split; [| exact Z].
           intros j J. rewrite O3. now apply Y. }
  intros c H4 H5. rewrite O1, A1 by assumption. apply M1.
Qed.
