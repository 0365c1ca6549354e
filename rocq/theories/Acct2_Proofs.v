From Coq Require Import ZArith QArith List Bool Lqa Lia.
From Verif Require Import Qx Soln_Model Acct_Model Acct_Spec Acct_Proofs.
Import ListNotations.
Local Open Scope Q_scope.

(** ** The reaction entries of the basin *)
Lemma sum_ext m f g : (forall i, (1 <= i <= Z.of_nat m)%Z -> f i == g i) -> sum_to m f == sum_to m g.
Proof.
  induction m as [| m IH]; intros H; cbn [sum_to]; [reflexivity |].
  rewrite IH by (intros i Hi; apply H; lia). rewrite (H (Z.of_nat (S m))) by lia. reflexivity.
Qed.
Lemma sum_upd {A} (p : A -> Q) m (f : Z -> A) i x : (1 <= i <= Z.of_nat m)%Z ->
  sum_to m (fun j => p (upd f i x j)) == sum_to m (fun j => p (f j)) - p (f i) + p x.
Proof.
  induction m as [| m IH]; intros H; [lia |]. cbn [sum_to].
  destruct (Z.eq_dec i (Z.of_nat (S m))) as [E | N].
  - rewrite (sum_ext m (fun j => p (upd f i x j)) (fun j => p (f j))).
    + rewrite <- E, upd_same. ring.
    + intros j Hj. rewrite upd_other by lia. reflexivity.
  - rewrite IH by lia. rewrite (upd_other f i x (Z.of_nat (S m))) by lia. ring.
Qed.
Lemma sum_zero m f : (forall i, f i == 0) -> sum_to m f == 0.
Proof. intros H. induction m as [| m IH]; cbn [sum_to]; [reflexivity |]. rewrite IH, H. ring. Qed.

Inductive probe := PM (n : Z) | PE (n j : Z) | PF (n : Z).
Definition get (q : probe) (g : geo) : Q :=
  match q with PM n => mol g n 4%Z | PE n j => ent g n j | PF n => efr g n end.

Definition Bal (m : nat) (q : probe) (s : acct) (x : Q) : Prop :=
  get q (bas s) == sum_to m (fun i => get q (mru s i)) + get q (hyd s) + x.
Definition on (b : bool) (d : Q) : Q := if b then d else 0.

Lemma bal_eq m q s x y : x == y -> Bal m q s x -> Bal m q s y.
Proof. unfold Bal. intros E H. rewrite H, E. reflexivity. Qed.
Lemma bal_cc m q i f s x : Bal m q s x -> Bal m q (on_cc i f s) x.
Proof. auto. Qed.
Lemma bal_bas m q f s x d : (forall g, get q (f g) == get q g + d) -> Bal m q s x ->
  Bal m q (on_bas f s) (x + d).
Proof. unfold Bal. intros F H. cbn [bas mru hyd on_bas]. rewrite F, H. ring. Qed.
Lemma bal_hyd m q f s x d : (forall g, get q (f g) == get q g + d) -> Bal m q s x ->
  Bal m q (on_hyd f s) (x - d).
Proof. unfold Bal. intros F H. cbn [bas mru hyd on_hyd]. rewrite F, H. ring. Qed.
Lemma bal_mru m q i f s x d : (1 <= i <= Z.of_nat m)%Z -> (forall g, get q (f g) == get q g + d) ->
  Bal m q s x -> Bal m q (on_mru i f s) (x - d).
Proof.
  unfold Bal. intros I F H. cbn [bas mru hyd on_mru]. rewrite (sum_upd (get q) m (mru s) i _ I), F, H.
  ring.
Qed.
Lemma bal_uz m q b i f s x : Bal m q s x -> Bal m q (on_uz b i f s) x.
Proof. destruct b; auto. Qed.

Lemma bal_into k e m q b h u t f s x d : (forall g, get q (f g) == get q g + d) ->
  (h = true -> (1 <= is_ e <= Z.of_nat m)%Z) -> Bal m q s x ->
  Bal m q (into k e b h u t f s) (x + on b d - on h d - on t d).
Proof.
  intros F I H. unfold into. cbv zeta.
  assert (H1 : Bal m q (if b then on_bas f s else s) (x + on b d)).
  { destruct b; cbn [on]; [now apply bal_bas | apply (bal_eq _ _ _ x); [ring | exact H]]. }
  revert H1. generalize (if b then on_bas f s else s). intros s1 H1.
  assert (H2 : Bal m q (if h then on_mru (is_ e) f s1 else s1) (x + on b d - on h d)).
  { destruct h; cbn [on]; [now apply bal_mru; [apply I | |] |].
    apply (bal_eq _ _ _ (x + on b d)); [ring | exact H1]. }
  revert H2. generalize (if h then on_mru (is_ e) f s1 else s1). intros s2 H2.
  assert (H3 : Bal m q (if u then on_uz (rip k (ia_ e) (is_ e)) (is_ e) f s2 else s2)
                 (x + on b d - on h d)) by (destruct u; [now apply bal_uz | exact H2]).
  revert H3. generalize (if u then on_uz (rip k (ia_ e) (is_ e)) (is_ e) f s2 else s2). intros s3 H3.
  destruct t; cbn [on]; [now apply bal_hyd |].
  apply (bal_eq _ _ _ (x + on b d - on h d)); [ring | exact H3].
Qed.

Lemma bal_into0 k e m q b h u t f s x : (forall g, get q (f g) == get q g) ->
  (h = true -> (1 <= is_ e <= Z.of_nat m)%Z) -> Bal m q s x -> Bal m q (into k e b h u t f s) x.
Proof.
  intros F I H. apply (bal_eq _ _ _ (x + on b 0 - on h 0 - on t 0)).
  - destruct b, h, t; cbn [on]; ring.
  - apply bal_into; auto. intros g. rewrite F. ring.
Qed.
Lemma bal_bas0 m q f s x : (forall g, get q (f g) == get q g) -> Bal m q s x -> Bal m q (on_bas f s) x.
Proof.
  intros F H. apply (bal_eq _ _ _ (x + 0)); [ring |]. apply bal_bas; auto. intros g; rewrite F; ring.
Qed.
Lemma bal_hyd0 m q f s x : (forall g, get q (f g) == get q g) -> Bal m q s x -> Bal m q (on_hyd f s) x.
Proof.
  intros F H. apply (bal_eq _ _ _ (x - 0)); [ring |]. apply bal_hyd; auto. intros g; rewrite F; ring.
Qed.

Lemma get_flow q c x y z g : get q (add_pH c x (add_temp c y (add_vol c z g))) == get q g.
Proof. destruct q; reflexivity. Qed.
Lemma get_vol q c x g : get q (add_vol c x g) == get q g. Proof. destruct q; reflexivity. Qed.
Lemma get_dlt q n c x g : get q (add_dlt n c x g) == get q g. Proof. destruct q; reflexivity. Qed.
Lemma get_mol q n c x g : c <> 4%Z -> get q (add_mol n c x g) == get q g.
Proof.
  intros C. destruct q; try reflexivity. cbn [get add_mol set_mol mol]. unfold upd2.
  destruct (Z.eqb_spec 4 c); [lia |]. rewrite andb_false_r. reflexivity.
Qed.

Definition sh_mol (q : probe) (n : Z) (x : Q) : Q :=
  match q with PM n' => if (n' =? n)%Z then x else 0 | _ => 0 end.
Definition sh_ent (q : probe) (n j : Z) (x : Q) : Q :=
  match q with PE n' j' => if (n' =? n)%Z && (j' =? j)%Z then x else 0 | _ => 0 end.
Definition sh_efr (q : probe) (n : Z) (x : Q) : Q :=
  match q with PF n' => if (n' =? n)%Z then x else 0 | _ => 0 end.
Lemma get_rxn q n x g : get q (add_mol n 4 x g) == get q g + sh_mol q n x.
Proof.
  destruct q; cbn [get add_mol set_mol mol ent efr sh_mol]; try ring. unfold upd2.
  destruct (Z.eqb_spec n0 n); subst; cbn [andb Z.eqb Pos.eqb]; ring.
Qed.
Lemma get_ent q n j x g : get q (add_ent n j x g) == get q g + sh_ent q n j x.
Proof.
  destruct q; cbn [get add_ent set_ent mol ent efr sh_ent]; try ring. unfold upd2.
  destruct (Z.eqb_spec n0 n); destruct (Z.eqb_spec j0 j); subst; cbn [andb]; ring.
Qed.
Lemma get_efr q n x g : get q (add_efr n x g) == get q g + sh_efr q n x.
Proof.
  destruct q; cbn [get add_efr set_efr mol ent efr sh_efr]; try ring. unfold upd.
  destruct (Z.eqb_spec n0 n); subst; ring.
Qed.

Section Update.
Variables (k : cfg) (e : call) (m : nat).
Hypothesis met : In (imetric e) [0; 1; 2; 3; -1]%Z.
Hypothesis bnd : mrubnd e = true -> (1 <= is_ e <= Z.of_nat m)%Z.

Lemma column_not4 : column e <> 4%Z.
Proof.
  unfold column. cbn [In] in met.
  destruct met as [H | [H | [H | [H | [H | []]]]]]; rewrite <- H; cbn; lia.
Qed.

Lemma bal_water q s : Bal m q s 0 -> Bal m q (book_water k e s) 0.
Proof.
  intros H. unfold book_water. cbv zeta. apply bal_into0; auto.
  intros g; apply get_flow.
Qed.
Lemma bal_solute v q w n : Bal m q (fst w) 0 -> Bal m q (fst (book_solute k e v w n)) 0.
Proof.
  destruct w as [s nis]. cbn [fst]. intros H. unfold book_solute. cbv zeta. cbn [fst].
  apply bal_into0; auto.
  - intros g. destruct (iso k n); [rewrite get_dlt |]; apply get_mol, column_not4.
  - destruct (iso k n); [destruct (is_stream e && react e) |];
      (destruct (negb (is_direct e) && is_stream e && react e && (column e =? 3)%Z));
      repeat apply bal_cc; exact H.
Qed.
Lemma bal_mass q s : Bal m q s 0 -> Bal m q (book_mass k e s) 0.
Proof.
  intros H. unfold book_mass. destruct (column e =? 1)%Z; auto.
  apply (fold_inv (fun s => Bal m q s 0)); auto.
Qed.

Hypothesis kind : (1 <= restype e <= 9)%Z /\ (1 <= is_ e <= Z.of_nat m)%Z \/ restype e = 99%Z.

Lemma kinds : is_mru e = true /\ is_stream e = false /\ (1 <= is_ e <= Z.of_nat m)%Z \/
              is_mru e = false /\ is_stream e = true.
Proof.
  unfold is_mru, is_stream. destruct kind as [[R I] | R].
  - left. split; [| split; [| exact I]].
    + apply andb_true_iff; split; apply Z.ltb_lt; lia.
    + apply Z.eqb_neq. lia.
  - right. rewrite R. split; reflexivity.
Qed.

Lemma bal_final v q s : Bal m q s 0 -> Bal m q (book_final k e v s) 0.
Proof.
  intros H. unfold book_final. cbv zeta.
  assert (B : Bal m q (on_bas (add_vol c_rxn (vol (cc s (indx e)) c_rxn)) s) 0)
    by (apply bal_bas0; [intros; apply get_vol | exact H]).
  destruct kinds as [(M & S & I) | (M & S)]; rewrite S.
  - apply bal_into0; [intros; apply get_vol | auto |].
    apply bal_into0; [intros; apply get_flow | auto | exact B].
  - destruct (1 <? ih_ e)%Z; [| exact B].
    apply bal_hyd0; [intros g; destruct q; reflexivity |].
    apply bal_bas0; [intros; apply get_flow | exact B].
Qed.

(** A quantity added to the basin and to exactly one of hillslope and streams. *)
Lemma bal_both q u f s d : (forall g, get q (f g) == get q g + d) -> Bal m q s 0 ->
  Bal m q (into k e true (is_mru e) u (is_stream e) f s) 0.
Proof.
  intros F H.
  apply (bal_eq _ _ _ (0 + on true d - on (is_mru e) d - on (is_stream e) d)).
  - destruct kinds as [(M & S & I) | (M & S)]; rewrite M, S; cbn [on]; ring.
  - apply bal_into; auto. intros M. destruct kinds as [(_ & _ & I) | (M' & _)]; [exact I | congruence].
Qed.

Lemma bal_entity r q n w j : Bal m q (fst w) 0 -> Bal m q (fst (book_entity k e r n w j)) 0.
Proof.
  destruct w as [s x]. cbn [fst]. intros H. unfold book_entity. cbv zeta. cbn [fst].
  eapply bal_both; [intros; apply get_ent | apply bal_cc, H].
Qed.

Lemma bal_reaction r q w n : Bal m q (fst w) 0 -> Bal m q (fst (book_reaction k e r w n)) 0.
Proof.
  destruct w as [s nis]. cbn [fst]. intros H. unfold book_reaction. cbv zeta.
  set (s1 := on_cc (indx e) _ s).
  set (diff := if iso k n then mol (cc s1 (indx e)) n c_rxn else _).
  set (made := tally e (tly k n) 2%Z * r * 1000).
  set (s2 := if iso k n then into k e true _ _ _ _ _ else on_cc _ _ _).
  assert (H2 : Bal m q s2 0).
  { unfold s2. destruct (iso k n); [| repeat apply bal_cc; exact H].
    eapply bal_both; [intros g; rewrite get_dlt; instantiate (1 := 0); ring |].
    repeat apply bal_cc; exact H. }
  clearbody s2. clearbody diff.
  set (s3 := into k e false (is_mru e) (is_unsat e) (is_stream e) _ _).
  assert (H3 : Bal m q s3 0).
  { unfold s3.
    apply (bal_eq _ _ _ (0 + sh_mol q n diff + on false (sh_mol q n diff)
                         - on (is_mru e) (sh_mol q n diff) - on (is_stream e) (sh_mol q n diff))).
    - destruct kinds as [(M & S & I) | (M & S)]; rewrite M, S; cbn [on]; ring.
    - apply bal_into.
      + intros g. unfold c_fin, c_rxn. rewrite get_mol by lia. apply get_rxn.
      + intros M. destruct kinds as [(_ & _ & I) | (M' & _)]; [exact I | congruence].
      + destruct (negb (ih_ e =? 1)%Z);
          [apply bal_bas0; [intros g; apply get_mol; unfold c_fin; lia |] |];
          (apply bal_bas; [intros g; apply get_rxn | exact H2]). }
  clearbody s3.
  assert (H4 : Bal m q (fst (if iso k n then (s3, 0)
                             else fold_left (book_entity k e r n) (entities k) (s3, 0))) 0).
  { destruct (iso k n); [exact H3 |].
    apply (fold_inv (fun w => Bal m q (fst w) 0)); [intros; now apply bal_entity | exact H3]. }
  destruct (if iso k n then (s3, 0) else _) as [s4 sum]. cbn [fst] in H4 |- *.
  eapply bal_both; [intros; apply get_efr | apply bal_cc, H4].
Qed.
End Update.

Lemma bal_update k m q s e : Proper m (EUpdate e) -> Bal m q s 0 -> Bal m q (update_chem k s e) 0.
Proof.
  intros (met & kd & bnd) H. unfold update_chem. cbv zeta.
  assert (H1 : Bal m q (book_mass k e (fst (fold_left (book_solute k e (moved s e)) (solutes k)
                    (book_water k e s, 0%Z)))) 0).
  { apply bal_mass. apply (fold_inv (fun w => Bal m q (fst w) 0)).
    - intros; now apply bal_solute.
    - now apply bal_water. }
  destruct (react e); [| exact H1]. specialize (kd eq_refl).
  unfold book_change. apply (fold_inv (fun s => Bal m q s 0)); [intros; now apply bal_cc |].
  apply (fold_inv (fun w => Bal m q (fst w) 0)); [intros; now apply bal_reaction |].
  now apply bal_final.
Qed.

Lemma get_fold_mol q c (f : Z -> Q) l : c <> 4%Z -> forall g,
  get q (fold_left (fun g n => add_mol n c (f n) g) l g) == get q g.
Proof.
  intros C. induction l as [| n l IH]; intros g; cbn [fold_left]; [reflexivity |].
  rewrite IH. now apply get_mol.
Qed.

Lemma bal_act k m q s ev : Proper m ev -> Bal m q s 0 -> Bal m q (act k s ev) 0.
Proof.
  intros P H. destruct ev as [e | | | b i v t p cs | i v permil tl]; cbn [act].
  - now apply bal_update.
  - unfold Bal, new_step; cbn [bas mru hyd].
    assert (Z0 : forall g, get q (fresh g) == 0) by (intros g; destruct q; reflexivity).
    rewrite !Z0, sum_zero by (intros; apply Z0). ring.
  - unfold preset. now apply bal_cc.
  - unfold ground. cbv zeta. cbn [Proper] in P.
    match goal with |- Bal m q (on_bas ?F _) 0 => set (f := F) end.
    assert (F0 : forall g, get q (f g) == get q g).
    { intros g. unfold f. rewrite get_fold_mol by (destruct b; discriminate).
      destruct b; [apply get_flow | apply get_vol]. }
    apply bal_bas0; auto. apply (bal_eq _ _ _ (0 - 0)); [ring |].
    apply bal_mru; auto. intros g. rewrite F0. ring.
  - unfold evaporate. apply (fold_inv (fun s => Bal m q s 0)); auto.
    intros b n Hb. destruct (iso k n); [| exact Hb].
    apply bal_cc. apply bal_bas0; [intros; apply get_dlt |]. now apply bal_cc.
Qed.

Lemma bal_history k m q l : Forall (Proper m) l -> forall s, Bal m q s 0 -> Bal m q (history k l s) 0.
Proof.
  unfold history. induction 1 as [| ev l P F IH]; intros s H; cbn [fold_left]; auto.
  apply IH. now apply bal_act.
Qed.

Lemma adds_up_bal m s : Adds_up m s <-> forall q, Bal m q s 0.
Proof.
  unfold Adds_up, Bal. split.
  - intros (A & B & C) q. destruct q as [n | n j | n]; cbn [get].
    + rewrite A. ring.
    + rewrite B. ring.
    + rewrite C. ring.
  - intros H. split; [| split]; intros.
    + pose proof (H (PM n)) as E. cbn [get] in E. rewrite E. ring.
    + pose proof (H (PE n j)) as E. cbn [get] in E. rewrite E. ring.
    + pose proof (H (PF n)) as E. cbn [get] in E. rewrite E. ring.
Qed.

Lemma adds_up_history k m l s : Forall (Proper m) l -> Adds_up m s -> Adds_up m (history k l s).
Proof.
  intros P H. apply adds_up_bal. intros q. apply bal_history; auto. now apply adds_up_bal.
Qed.
