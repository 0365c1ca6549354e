From Coq Require Import ZArith QArith List Bool Lqa Lia.
From Verif Require Import Qx Soln_Model Acct_Model Acct_Spec.
Import ListNotations.
Local Open Scope Q_scope.

Lemma upd_same {A} (f : Z -> A) k x : upd f k x k = x.
Proof. unfold upd. now rewrite Z.eqb_refl. Qed.
Lemma upd_other {A} (f : Z -> A) k x i : i <> k -> upd f k x i = f i.
Proof. intros H. unfold upd. destruct (Z.eqb_spec i k); congruence. Qed.

(** ** Statements that add a fixed amount *)
Definition Adds (f : geo -> geo) : Prop := exists d, forall g, Parts (f g) g d.

Lemma adds_id : Adds (fun g => g).
Proof. exists empty. intros g. unfold Parts, empty; cbn [vol temp pH mol dlt ent efr].
  repeat (split; [intros; ring |]). intros; ring. Qed.
Lemma adds_comp f h : Adds f -> Adds h -> Adds (fun g => f (h g)).
Proof.
  intros [d F] [d' H].
  exists (Build_geo (fun c => vol d c + vol d' c) (fun c => temp d c + temp d' c)
            (fun c => pH d c + pH d' c) (fun n c => mol d n c + mol d' n c)
            (fun n c => dlt d n c + dlt d' n c) (fun n c => ent d n c + ent d' n c)
            (fun n => efr d n + efr d' n) (fun _ => 0) (fun _ => 0)).
  intros g. destruct (F (h g)) as (A1 & A2 & A3 & A4 & A5 & A6 & A7).
  destruct (H g) as (B1 & B2 & B3 & B4 & B5 & B6 & B7).
  unfold Parts; cbn [vol temp pH mol dlt ent efr].
  split; [intros; rewrite A1, B1; ring |]. split; [intros; rewrite A2, B2; ring |].
  split; [intros; rewrite A3, B3; ring |]. split; [intros; rewrite A4, B4; ring |].
  split; [intros; rewrite A5, B5; ring |]. split; [intros; rewrite A6, B6; ring |].
  intros; rewrite A7, B7; ring.
Qed.

Ltac one_entry :=
  intros g; unfold Parts, empty, upd, upd2; cbn [vol temp pH mol dlt ent efr];
  repeat split; intros;
  repeat match goal with
         | |- context [(?a =? ?b)%Z] => destruct (Z.eqb_spec a b); subst
         end; cbn [andb]; ring.

Lemma adds_vol c x : Adds (add_vol c x).
Proof. exists (Build_geo (upd (fun _ => 0) c x) (fun _ => 0) (fun _ => 0) (fun _ _ => 0) (fun _ _ => 0)
   (fun _ _ => 0) (fun _ => 0) (fun _ => 0) (fun _ => 0)). unfold add_vol, set_vol. one_entry. Qed.
Lemma adds_temp c x : Adds (add_temp c x).
Proof. exists (Build_geo (fun _ => 0) (upd (fun _ => 0) c x) (fun _ => 0) (fun _ _ => 0) (fun _ _ => 0)
   (fun _ _ => 0) (fun _ => 0) (fun _ => 0) (fun _ => 0)). unfold add_temp, set_temp. one_entry. Qed.
Lemma adds_pH c x : Adds (add_pH c x).
Proof. exists (Build_geo (fun _ => 0) (fun _ => 0) (upd (fun _ => 0) c x) (fun _ _ => 0) (fun _ _ => 0)
   (fun _ _ => 0) (fun _ => 0) (fun _ => 0) (fun _ => 0)). unfold add_pH, set_pH. one_entry. Qed.
Lemma adds_mol n c x : Adds (add_mol n c x).
Proof. exists (Build_geo (fun _ => 0) (fun _ => 0) (fun _ => 0) (upd2 (fun _ _ => 0) n c x) (fun _ _ => 0)
   (fun _ _ => 0) (fun _ => 0) (fun _ => 0) (fun _ => 0)). unfold add_mol, set_mol. one_entry. Qed.
Lemma adds_dlt n c x : Adds (add_dlt n c x).
Proof. exists (Build_geo (fun _ => 0) (fun _ => 0) (fun _ => 0) (fun _ _ => 0) (upd2 (fun _ _ => 0) n c x)
   (fun _ _ => 0) (fun _ => 0) (fun _ => 0) (fun _ => 0)). unfold add_dlt, set_dlt. one_entry. Qed.
Lemma adds_ent n c x : Adds (add_ent n c x).
Proof. exists (Build_geo (fun _ => 0) (fun _ => 0) (fun _ => 0) (fun _ _ => 0) (fun _ _ => 0)
   (upd2 (fun _ _ => 0) n c x) (fun _ => 0) (fun _ => 0) (fun _ => 0)). unfold add_ent, set_ent. one_entry. Qed.
Lemma adds_efr n x : Adds (add_efr n x).
Proof. exists (Build_geo (fun _ => 0) (fun _ => 0) (fun _ => 0) (fun _ _ => 0) (fun _ _ => 0)
   (fun _ _ => 0) (upd (fun _ => 0) n x) (fun _ => 0) (fun _ => 0)). unfold add_efr, set_efr. one_entry. Qed.

Lemma adds_flow c x y z : Adds (fun g => add_pH c x (add_temp c y (add_vol c z g))).
Proof.
  apply (adds_comp (add_pH c x)); [apply adds_pH |].
  apply (adds_comp (add_temp c y)); [apply adds_temp | apply adds_vol].
Qed.

(** ** The unsaturated zone *)
Definition UZ (s : acct) : Prop := forall i, Parts (uzg s i) (uzr s i) (uzu s i).

Lemma uz_cc i f s : UZ s -> UZ (on_cc i f s). Proof. auto. Qed.
Lemma uz_bas f s : UZ s -> UZ (on_bas f s). Proof. auto. Qed.
Lemma uz_hyd f s : UZ s -> UZ (on_hyd f s). Proof. auto. Qed.
Lemma uz_mru i f s : UZ s -> UZ (on_mru i f s). Proof. auto. Qed.

Lemma uz_uz b i f s : Adds f -> UZ s -> UZ (on_uz b i f s).
Proof.
  intros [d F] H j. specialize (H j).
  destruct b; unfold on_uz; cbn [uzg uzr uzu]; destruct (Z.eq_dec j i) as [-> | N];
    rewrite ?upd_same, ?(upd_other _ _ _ _ N); auto.
  - destruct H as (A1 & A2 & A3 & A4 & A5 & A6 & A7).
    destruct (F (uzg s i)) as (B1 & B2 & B3 & B4 & B5 & B6 & B7).
    destruct (F (uzr s i)) as (C1 & C2 & C3 & C4 & C5 & C6 & C7).
    unfold Parts.
    split; [intros; rewrite B1, C1, A1; ring |]. split; [intros; rewrite B2, C2, A2; ring |].
    split; [intros; rewrite B3, C3, A3; ring |]. split; [intros; rewrite B4, C4, A4; ring |].
    split; [intros; rewrite B5, C5, A5; ring |]. split; [intros; rewrite B6, C6, A6; ring |].
    intros; rewrite B7, C7, A7; ring.
  - destruct H as (A1 & A2 & A3 & A4 & A5 & A6 & A7).
    destruct (F (uzg s i)) as (B1 & B2 & B3 & B4 & B5 & B6 & B7).
    destruct (F (uzu s i)) as (C1 & C2 & C3 & C4 & C5 & C6 & C7).
    unfold Parts.
    split; [intros; rewrite B1, C1, A1; ring |]. split; [intros; rewrite B2, C2, A2; ring |].
    split; [intros; rewrite B3, C3, A3; ring |]. split; [intros; rewrite B4, C4, A4; ring |].
    split; [intros; rewrite B5, C5, A5; ring |]. split; [intros; rewrite B6, C6, A6; ring |].
    intros; rewrite B7, C7, A7; ring.
Qed.

Lemma uz_into k e b m u h f s : Adds f -> UZ s -> UZ (into k e b m u h f s).
Proof.
  intros F H. unfold into. cbv zeta.
  assert (H1 : UZ (if b then on_bas f s else s)) by (destruct b; auto).
  assert (H2 : UZ (if m then on_mru (is_ e) f (if b then on_bas f s else s)
                   else if b then on_bas f s else s)) by (destruct m; auto).
  destruct u; destruct h; auto; try apply uz_hyd; now apply uz_uz.
Qed.

Lemma fold_inv {A B} (P : A -> Prop) (f : A -> B -> A) :
  (forall a b, P a -> P (f a b)) -> forall l a, P a -> P (fold_left f l a).
Proof. intros H l. induction l as [| b l IH]; intros a Pa; cbn [fold_left]; auto. Qed.

Lemma uz_water k e s : UZ s -> UZ (book_water k e s).
Proof. intros H. unfold book_water. cbv zeta. apply uz_into; [apply adds_flow | apply uz_cc, H]. Qed.

Lemma adds_solute n c x y (b : bool) :
  Adds (fun g => let g := add_mol n c x g in if b then add_dlt n c y g else g).
Proof.
  destruct b; cbv zeta; [apply (adds_comp (add_dlt n c y)); [apply adds_dlt | apply adds_mol] |
                         apply adds_mol].
Qed.

Lemma uz_solute k e v w n : UZ (fst w) -> UZ (fst (book_solute k e v w n)).
Proof.
  destruct w as [s nis]. cbn [fst]. intros H. unfold book_solute. cbv zeta. cbn [fst].
  apply uz_into; [apply adds_solute |].
  destruct (iso k n); [destruct (is_stream e && react e) |];
    (destruct (negb (is_direct e) && is_stream e && react e && (column e =? 3)%Z));
    repeat apply uz_cc; exact H.
Qed.

Lemma uz_mass k e s : UZ s -> UZ (book_mass k e s).
Proof.
  intros H. unfold book_mass. destruct (column e =? 1)%Z; auto.
  apply (fold_inv UZ); auto.
Qed.

Lemma uz_final k e v s : UZ s -> UZ (book_final k e v s).
Proof.
  intros H. unfold book_final. cbv zeta.
  destruct (is_stream e).
  - destruct (1 <? ih_ e)%Z; auto.
  - apply uz_into; [apply adds_vol |]. apply uz_into; [apply adds_flow | apply uz_bas, H].
Qed.

Lemma uz_entity k e r n w j : UZ (fst w) -> UZ (fst (book_entity k e r n w j)).
Proof.
  destruct w as [s x]. cbn [fst]. intros H. unfold book_entity. cbv zeta. cbn [fst].
  apply uz_into; [apply adds_ent | apply uz_cc, H].
Qed.

Lemma adds_two n c x c' y : Adds (fun g => add_mol n c x (add_mol n c' y g)).
Proof. apply (adds_comp (add_mol n c x)); apply adds_mol. Qed.

Lemma uz_reaction k e r w n : UZ (fst w) -> UZ (fst (book_reaction k e r w n)).
Proof.
  destruct w as [s nis]. cbn [fst]. intros H. unfold book_reaction. cbv zeta.
  match goal with |- context [if iso k n then (?x, 0) else ?y] => set (s3 := x) end.
  assert (H3 : UZ s3).
  { unfold s3. apply uz_into; [apply adds_two |].
    destruct (negb (ih_ e =? 1)%Z); repeat apply uz_bas;
      (destruct (iso k n); [apply uz_into; [apply adds_dlt |] |]; repeat apply uz_cc; exact H). }
  assert (H4 : UZ (fst (if iso k n then (s3, 0)
                        else fold_left (book_entity k e r n) (entities k) (s3, 0)))).
  { destruct (iso k n); [exact H3 |].
    apply (fold_inv (fun w => UZ (fst w))); [intros; now apply uz_entity | exact H3]. }
  destruct (if iso k n then (s3, 0) else _) as [s4 sum]. cbn [fst] in H4 |- *.
  apply uz_into; [apply adds_efr | apply uz_cc, H4].
Qed.

Lemma uz_update k s e : UZ s -> UZ (update_chem k s e).
Proof.
  intros H. unfold update_chem. cbv zeta.
  assert (H1 : UZ (book_mass k e (fst (fold_left (book_solute k e (moved s e)) (solutes k)
                    (book_water k e s, 0%Z))))).
  { apply uz_mass. apply (fold_inv (fun w => UZ (fst w))).
    - intros; now apply uz_solute.
    - now apply uz_water. }
  destruct (react e); [| exact H1].
  unfold book_change. apply (fold_inv UZ); [intros; now apply uz_cc |].
  apply (fold_inv (fun w => UZ (fst w))); [intros; now apply uz_reaction |].
  now apply uz_final.
Qed.

Lemma uz_step s : UZ s -> UZ (new_step s).
Proof.
  intros H i. destruct (H i) as (A1 & A2 & A3 & A4 & A5 & A6 & A7).
  unfold new_step, fresh, Parts; cbn [uzg uzr uzu vol temp pH mol dlt ent efr].
  split; [intros c; destruct (c =? 1)%Z; [apply A1 | ring] |].
  split; [intros c; destruct (c =? 1)%Z; [apply A2 | ring] |].
  split; [intros c; destruct (c =? 1)%Z; [apply A3 | ring] |].
  split; [intros n c; destruct (c =? 1)%Z; [apply A4 | ring] |].
  split; [intros n c; destruct (c =? 1)%Z; [apply A5 | ring] |].
  split; intros; ring.
Qed.

Lemma uz_history k l s : UZ s -> UZ (history k l s).
Proof.
  unfold history. apply (fold_inv UZ). intros a ev H. destruct ev; cbn [act].
  - now apply uz_update.
  - now apply uz_step.
  - unfold preset. now apply uz_cc.
  - unfold ground. cbv zeta. now apply uz_bas, uz_mru.
  - unfold evaporate. apply (fold_inv UZ); auto.
    intros b n Hb. destruct (iso k n); auto.
Qed.
