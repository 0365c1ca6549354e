(** Lemmas for C77-C79: lines, keys and jumps. *)
From Coq Require Import String Ascii List ZArith QArith Qround Qabs Bool Lia Lqa.
From Verif Require Import CStr_Model CNum_Model Qx Ckpt_Model Elem_Spec Elem_Proofs Ckpt_Spec Ckpt_Proofs Basic_Model Basic_Spec Basic_Proofs Basic2_Proofs Prog_Model Prog_Spec Prog_Proofs.
Import ListNotations.
Local Open Scope string_scope.
Local Open Scope list_scope.
Local Open Scope Z_scope.

(** ** Keys *)
Fixpoint comma_in (s : string) : bool := match s with "" => false | String c r => Ascii.eqb c "," || comma_in r end.
Lemma comma_app a b : comma_in (a ++ b)%string = comma_in a || comma_in b.
Proof. induction a as [|c a IH]; [reflexivity|]. cbn. rewrite IH. apply orb_assoc. Qed.
Lemma numeral_comma s v : numeral s v -> comma_in s = false.
Proof.
  assert (D : forall k, (k <= 9)%nat -> comma_in (String (ascii_of_nat (48 + k)) "") = false) by (intros k K; do 10 (destruct k as [|k]; [reflexivity|]); lia).
  induction 1 as [k K|s v k _ IH K]; [apply D; exact K|]. rewrite comma_app, IH. apply D. exact K.
Qed.
Lemma numeral_one s v v' : numeral s v -> numeral s v' -> v = v'.
Proof. intros H H'. apply numeral_digs in H as (l & E & _ & ->). apply numeral_digs in H' as (l' & E' & _ & ->). congruence. Qed.
Lemma numeral_sign s v : numeral s v -> forall r, s <> String "-" r.
Proof. intros H. apply numeral_digs in H as (l & E & _ & _). intros r ->. cbn in E. discriminate. Qed.
Lemma dec_inj a b : dec a = dec b -> a = b.
Proof.
  unfold dec. destruct (a <? 0) eqn:A; destruct (b <? 0) eqn:B; intros E.
  - injection E as E. pose proof (dec_abs_numeral (- a) ltac:(lia)) as H. rewrite E in H. pose proof (numeral_one _ _ _ H (dec_abs_numeral (- b) ltac:(lia))). lia.
  - exfalso. apply (numeral_sign _ _ (dec_abs_numeral b ltac:(lia)) (dec_abs (- a))). symmetry. exact E.
  - exfalso. apply (numeral_sign _ _ (dec_abs_numeral a ltac:(lia)) (dec_abs (- b))). exact E.
  - pose proof (dec_abs_numeral a ltac:(lia)) as H. rewrite E in H. exact (numeral_one _ _ _ H (dec_abs_numeral b ltac:(lia))).
Qed.
Lemma dec_comma a : comma_in (dec a) = false.
Proof. unfold dec. destruct (a <? 0) eqn:A; cbn; eapply numeral_comma; apply dec_abs_numeral; lia. Qed.
Lemma cut_comma a b x y : comma_in a = false -> comma_in b = false -> (a ++ String "," x)%string = (b ++ String "," y)%string -> a = b /\ x = y.
Proof.
  revert b. induction a as [|c a IH]; intros b A B E; destruct b as [|d b]; cbn in *.
  - injection E as ->. auto.
  - injection E as <- E. discriminate.
  - injection E as -> E. discriminate.
  - injection E as -> E. apply orb_false_elim in A as [_ A]. apply orb_false_elim in B as [_ B]. destruct (IH b A B E) as [-> ->]. auto.
Qed.
Lemma key_inj : forall a b, key a = key b -> a = b.
Proof.
  assert (K : forall j s, (key_part j ++ s)%string = (dec j ++ String "," s)%string) by (intros; unfold key_part; rewrite append_assoc; reflexivity).
  assert (E0 : forall j s, (key_part j ++ s)%string <> "") by (intros j s; rewrite K; destruct (dec j); discriminate).
  induction a as [|i a IH]; intros [|j b] E; cbn [key] in E; [reflexivity|symmetry in E; destruct (E0 _ _ E)|destruct (E0 _ _ E)|].
  rewrite !K in E. apply cut_comma in E as [E1 E2]; try apply dec_comma. apply dec_inj in E1 as ->. rewrite (IH b E2). reflexivity.
Qed.

(** ** Lines *)
Lemma enter_numbers n t p l : In l (enter n t p) -> l = (n, t) \/ In l p.
Proof.
  induction p as [|[k u] r IH]; cbn [enter].
  - destruct t; [intros []|]. intros [<-|[]]. auto.
  - destruct (k <? n). { intros [<-|H]; [right; left; reflexivity|]. destruct (IH H); [auto|right; right; assumption]. }
    destruct (k =? n); destruct t; cbn zeta; cbn; intuition.
Qed.
Lemma enter_ascending n t p : ascending p -> ascending (enter n t p).
Proof.
  induction p as [|[k u] r IH]; cbn [enter ascending]; [destruct t; cbn; auto|]. intros [H1 H2]. destruct (k <? n) eqn:L.
  - cbn [ascending]. split; [|apply IH; exact H2]. apply Forall_forall. intros l I0. apply enter_numbers in I0 as [->|I0]; [cbn; lia|]. rewrite Forall_forall in H1. apply H1. exact I0.
  - destruct (k =? n) eqn:E; cbn zeta; destruct t as [|x t]; cbn [ascending]; auto.
    + split; [|exact H2]. eapply Forall_impl; [|exact H1]. cbn. lia.
    + split; [|auto]. constructor; [cbn; lia|]. eapply Forall_impl; [|exact H1]. cbn. lia.
Qed.
Lemma text_above p k : Forall (fun l => k < fst l) p -> text_at p k = None.
Proof. induction 1 as [|[n t] r H _ IH]; [reflexivity|]. cbn in *. replace (n =? k) with false by lia. exact IH. Qed.
Lemma enter_text n t p k : ascending p -> text_at (enter n t p) k = if k =? n then match t with [] => None | _ => Some t end else text_at p k.
Proof.
  induction p as [|[m u] r IH]; cbn [enter ascending].
  - intros _. destruct t; cbn; destruct (k =? n) eqn:E; try reflexivity; [replace (n =? k) with true by lia|replace (n =? k) with false by lia]; reflexivity.
  - intros [H1 H2]. destruct (m <? n) eqn:L.
    + cbn [text_at]. rewrite IH by exact H2. destruct (k =? n) eqn:E; [replace (m =? k) with false by lia; reflexivity|reflexivity].
    + destruct (m =? n) eqn:E; cbn zeta.
      * assert (T : text_at r n = None) by (apply text_above; eapply Forall_impl; [|exact H1]; cbn; lia). destruct t as [|x t]; cbn [text_at]; destruct (k =? n) eqn:Ek.
        -- replace k with n by lia. exact T.
        -- replace (m =? k) with false by lia. reflexivity.
        -- replace (n =? k) with true by lia. reflexivity.
        -- replace (n =? k) with false by lia. replace (m =? k) with false by lia. reflexivity.
      * destruct t as [|x t]; cbn [text_at]; destruct (k =? n) eqn:Ek.
        -- replace (m =? k) with false by lia. apply text_above. eapply Forall_impl; [|exact H1]. cbn. lia.
        -- reflexivity.
        -- replace (n =? k) with true by lia. reflexivity.
        -- replace (n =? k) with false by lia. reflexivity.
Qed.
Lemma find_text p n : match find_line n p with Some ((k, t) :: _) => k = n /\ text_at p n = Some t | Some [] => False | None => text_at p n = None end.
Proof. induction p as [|[k t] r IH]; [reflexivity|]. cbn [find_line text_at]. destruct (k =? n) eqn:E; [split; [lia|reflexivity]|exact IH]. Qed.

(** ** RENUM *)
Lemma renum_length p first inc k l : length (renum_lines p first inc k l) = length l.
Proof. revert k. induction l as [|[n t] r IH]; intros k; [reflexivity|]. cbn. rewrite IH. reflexivity. Qed.
Lemma renum_numbers p first inc k l : 0 < inc -> Forall (fun x => k <= fst x) (renum_lines p first inc k l).
Proof.
  intros H. revert k. induction l as [|[n t] r IH]; intros k; [constructor|]. cbn. constructor; [cbn; lia|]. eapply Forall_impl; [|apply IH]. cbn. lia.
Qed.
Lemma renum_line p first inc l k n i : 0 < inc -> names_line l n i ->
  new_number l n k inc = Some (k + inc * Z.of_nat i) /\ names_line (renum_lines p first inc k l) (k + inc * Z.of_nat i) i.
Proof.
  intros H. revert l k. induction i as [|i IH]; intros l k (before & t & r & -> & N & Li).
  - destruct before; [|discriminate]. cbn. rewrite Z.eqb_refl. split; [f_equal; lia|]. replace (k + inc * 0) with k by lia. exists [], (renum_toks p first inc Outside t), (renum_lines p first inc (k + inc) r). repeat split. intros [].
  - destruct before as [|[m u] before]; [discriminate|]. cbn in Li, N. injection Li as Li. cbn [app new_number renum_lines]. replace (m =? n) with false by (symmetry; apply Z.eqb_neq; intros ->; apply N; left; reflexivity).
    destruct (IH (before ++ (n, t) :: r) (k + inc)) as [E (b2 & t2 & r2 & E2 & N2 & L2)]. { exists before, t, r. repeat split; [|exact Li]. intros X. apply N. right. exact X. }
    replace (k + inc * Z.of_nat (S i)) with (k + inc + inc * Z.of_nat i) by lia. split; [exact E|]. exists ((k, renum_toks p first inc Outside u) :: b2), t2, r2. rewrite E2. repeat split; [|cbn; congruence].
    cbn. intros [X|X]; [nia|]. contradiction.
Qed.
Lemma new_none l n k inc : text_at l n = None -> new_number l n k inc = None.
Proof. revert k. induction l as [|[m t] r IH]; intros k; [reflexivity|]. cbn. destruct (m =? n); [discriminate|apply IH]. Qed.
Lemma line_found5 p n i : names_line p n i -> exists t r, find_line n p = Some ((n, t) :: r) /\ skipn i p = (n, t) :: r.
Proof.
  intros (before & t & r & -> & N & <-). exists t, r. split.
  - induction before as [|[k u] before IH]; cbn [app find_line]; [rewrite Z.eqb_refl; reflexivity|]. replace (k =? n) with false by (symmetry; apply Z.eqb_neq; intros ->; apply N; left; reflexivity). apply IH. intros X. apply N. right. exact X.
  - induction before as [|x before IH]; [reflexivity|]. cbn. apply IH. intros X. apply N. right. exact X.
Qed.
Lemma floor_half n : Qfloor (inject_Z n + (1 # 2)) = n.
Proof. unfold Qfloor, inject_Z, Qplus. cbn [Qnum Qden]. change (Z.pos (1 * 2)) with 2. replace (n * 2 + 1 * 1) with (1 + n * 2) by lia. rewrite Z.div_add by lia. reflexivity. Qed.
