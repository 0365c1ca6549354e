(** Proofs about combining lists of elements and reactions. *)
From Coq Require Import String Ascii List ZArith QArith Qabs Bool NArith Lia Lqa Sorting.Permutation Sorting.Sorted ZifyBool.
From Verif Require Import CStr_Model CNum_Model Qx Sort_Proofs Chem_Model Chem_Spec Chem_Proofs.
Import ListNotations.
Local Open Scope string_scope.
Local Open Scope list_scope.
Local Open Scope Z_scope.

Lemma cut_short s : (String.length s <= 256)%nat -> cut256 s = s.
Proof.
  unfold cut256. generalize 256%nat. induction s as [|c s IH]; intros n L; [destruct n; reflexivity|]. cbn [String.length] in L. destruct n as [|n]; [lia|]. cbn [substring]. f_equal. apply IH. lia.
Qed.
Lemma le_antisym a b : String.compare a b <> Gt -> String.compare b a <> Gt -> a = b.
Proof. intros A B. destruct (String.compare a b) eqn:E; [apply scompare_eq; exact E| |congruence]. exfalso. apply B. apply sgt_slt. exact E. Qed.
Lemma combine_amount e l : forall j, (amount e (combine_from j l) == amount e (j :: l))%Q.
Proof.
  induction l as [|i l IH]; intros j; [reflexivity|]. cbn [combine_from]. destruct (String.eqb (fst i) (fst j)) eqn:E.
  - apply String.eqb_eq in E. rewrite IH. unfold amount. cbn. rewrite E. destruct (String.eqb (fst j) e); cbn; ring.
  - unfold amount in *. cbn. rewrite IH. cbn. reflexivity.
Qed.
Lemma combine_names l : forall j x, In x (map fst (combine_from j l)) <-> In x (map fst (j :: l)).
Proof.
  induction l as [|i l IH]; intros j x; [reflexivity|]. cbn [combine_from]. destruct (String.eqb (fst i) (fst j)) eqn:E.
  - apply String.eqb_eq in E. rewrite IH. cbn. rewrite E. tauto.
  - cbn [map In]. rewrite IH. cbn. tauto.
Qed.
Lemma combine_nodup l : forall j, StronglySorted (fun a b => String.compare (fst a) (fst b) <> Gt) (j :: l) -> NoDup (map fst (combine_from j l)).
Proof.
  induction l as [|i l IH]; intros j H; [cbn; constructor; [intros []|constructor]|]. inversion H as [|? ? H1 H2]; subst. inversion H2 as [|? ? H3 H4]; subst. cbn [combine_from]. destruct (String.eqb (fst i) (fst j)) eqn:E.
  - apply IH. inversion H1; subst. constructor; [assumption|]. cbn. exact H4.
  - cbn [map]. constructor; [|apply IH; exact H1]. rewrite combine_names. intros X. apply String.eqb_neq in E. cbn [map In] in X. destruct X as [X|X]; [congruence|]. apply in_map_iff in X. destruct X as (y & Y1 & Y2). inversion H1 as [|? ? H5 H6]; subst. rewrite Forall_forall in H6. specialize (H6 y Y2). apply E. symmetry. apply le_antisym; [exact H3|]. rewrite <- Y1. exact H6.
Qed.
Lemma sorted_short l : StronglySorted in_order l -> short_names l -> StronglySorted (fun a b => String.compare (fst a) (fst b) <> Gt) l.
Proof.
  induction 1 as [|a l A IH B]; intros HS; constructor; inversion HS; subst; [apply IH; assumption|]. rewrite Forall_forall in *. intros x X. specialize (B x X). unfold in_order in B. rewrite !cut_short in B; [exact B|apply (H2 x X)|assumption].
Qed.
Lemma amount_perm e l m : Permutation l m -> (amount e l == amount e m)%Q.
Proof.
  unfold amount. induction 1; cbn; [reflexivity| |ring|].
  - rewrite IHPermutation. reflexivity.
  - etransitivity; eassumption.
Qed.
Lemma elt_combine_amount e l : (amount e (elt_combine l) == amount e l)%Q.
Proof. destruct l as [|j l]; [reflexivity|]. apply combine_amount. Qed.
Lemma elt_combine_names l x : In x (map fst (elt_combine l)) <-> In x (map fst l).
Proof. destruct l as [|j l]; [reflexivity|]. apply combine_names. Qed.
Lemma elt_combine_nodup l : StronglySorted in_order l -> short_names l -> NoDup (map fst (elt_combine l)).
Proof. intros A B. destruct l as [|j l]; [constructor|]. apply combine_nodup. apply sorted_short; assumption. Qed.
(** With distinct names the list is its amounts. *)
Lemma amount_absent e l : ~ In e (map fst l) -> (amount e l == 0)%Q.
Proof.
  unfold amount. induction l as [|[n q] l IH]; cbn; intros H; [reflexivity|]. rewrite IH by tauto. destruct (String.eqb n e) eqn:E; [apply String.eqb_eq in E; tauto|ring].
Qed.
Lemma amount_in e q l : NoDup (map fst l) -> In (e, q) l -> (amount e l == q)%Q.
Proof.
  induction l as [|[n x] l IH]; cbn [map In fst]; intros H K; [contradiction|]. inversion H; subst. destruct K as [K|K].
  - injection K as -> ->. unfold amount. cbn. rewrite String.eqb_refl. fold (amount e l). rewrite amount_absent by assumption. ring.
  - unfold amount. cbn. fold (amount e l). rewrite IH by assumption. destruct (String.eqb n e) eqn:E; [|ring]. apply String.eqb_eq in E. subst n. exfalso. apply H2. change e with (fst (e, q)). now apply in_map.
Qed.

(** ** Reactions *)
Lemma near_ok a b e : near a b e = true <-> (Qabs (a - b) <= e)%Q.
Proof. unfold near. split; [apply qle_t|]. intros H. destruct (qle (Qabs (a - b)) e) eqn:E; [reflexivity|]. apply qle_f in E. lra. Qed.
Lemma coef_app n a b : (coef_of n (a ++ b) == coef_of n a + coef_of n b)%Q.
Proof. unfold coef_of. rewrite map_app. induction (map _ a) as [|x l IH]; cbn; [ring|]. rewrite IH. ring. Qed.
Lemma coef_rev n a : (coef_of n (rev a) == coef_of n a)%Q.
Proof. induction a as [|x a IH]; [reflexivity|]. cbn [rev]. rewrite coef_app, IH. unfold coef_of. cbn. ring. Qed.
Lemma coef_perm n a b : Permutation a b -> (coef_of n a == coef_of n b)%Q.
Proof. unfold coef_of. induction 1; cbn; [reflexivity| |ring|]. - rewrite IHPermutation. reflexivity. - etransitivity; eassumption. Qed.
Definition few n (l : list rtok) : Q := inject_Z (Z.of_nat (length (named n l))).
Lemma few_cons n x l : (few n (x :: l) == (if String.eqb (r_name x) n then 1 else 0) + few n l)%Q.
Proof. unfold few, named. cbn [filter]. destruct (String.eqb (r_name x) n); [|ring]. cbn [length]. rewrite Nat2Z.inj_succ, <- Z.add_1_r, inject_Z_plus. change (inject_Z 1) with 1%Q. ring. Qed.
Lemma few_perm n a b : Permutation a b -> few n a = few n b.
Proof. intros H. unfold few, named. do 2 f_equal. induction H; cbn; [reflexivity| | |congruence]. - destruct (String.eqb (r_name x) n); cbn; congruence. - destruct (String.eqb (r_name x) n), (String.eqb (r_name y) n); reflexivity. Qed.
Lemma comb_sum n l : forall done, (Qabs (coef_of n (comb done l) - (coef_of n done + coef_of n l)) <= (1 # 100000) * few n l)%Q.
Proof.
  induction l as [|k l IH]; intros done.
  - cbn [comb]. apply Qabs_Qle_condition. pose proof (coef_rev n done) as X. change (coef_of n []) with 0%Q. change (few n []) with 0%Q. split; lra.
  - assert (KC : (coef_of n (k :: l) == (if String.eqb (r_name k) n then r_coef k else 0) + coef_of n l)%Q) by reflexivity.
    assert (KF := few_cons n k l).
    assert (PS : (Qabs (coef_of n (comb (k :: done) l) - (coef_of n done + coef_of n (k :: l))) <= (1 # 100000) * few n (k :: l))%Q).
    { specialize (IH (k :: done)). assert (D : (coef_of n (k :: done) == (if String.eqb (r_name k) n then r_coef k else 0) + coef_of n done)%Q) by reflexivity. setoid_replace (coef_of n (comb (k :: done) l) - (coef_of n done + coef_of n (k :: l)))%Q with (coef_of n (comb (k :: done) l) - (coef_of n (k :: done) + coef_of n l))%Q by (rewrite KC, D; ring). rewrite KF. destruct (String.eqb (r_name k) n); lra. }
    cbn [comb]. destruct done as [|j d]; [exact PS|]. destruct (String.eqb (r_name k) (r_name j)) eqn:E; [|exact PS]. apply String.eqb_eq in E. cbv zeta. destruct (near (r_coef j + r_coef k) 0 (1 # 100000)) eqn:N.
    + apply near_ok in N. specialize (IH d). assert (D : (coef_of n (j :: d) == (if String.eqb (r_name j) n then r_coef j else 0) + coef_of n d)%Q) by reflexivity. rewrite <- E in D. rewrite KF.
      apply Qabs_Qle_condition in N. apply Qabs_Qle_condition in IH. apply Qabs_Qle_condition. rewrite KC, D. destruct (String.eqb (r_name k) n); split; lra.
    + specialize (IH (mkRtok (r_name j) (r_coef j + r_coef k) :: d)). assert (D : (coef_of n (mkRtok (r_name j) (r_coef j + r_coef k) :: d) == (if String.eqb (r_name j) n then r_coef j + r_coef k else 0) + coef_of n d)%Q) by reflexivity. assert (D2 : (coef_of n (j :: d) == (if String.eqb (r_name j) n then r_coef j else 0) + coef_of n d)%Q) by reflexivity. rewrite E in KC, KF. rewrite KF.
      apply Qabs_Qle_condition in IH. apply Qabs_Qle_condition. rewrite KC, D2. rewrite D in IH. destruct (String.eqb (r_name j) n); split; lra.
Qed.
Lemma comb_sorted l : forall done, StronglySorted (fun a b => slt (r_name b) (r_name a)) done -> StronglySorted r_order l -> Forall (fun a => Forall (fun b => r_order a b) l) done -> NoDup (map r_name (comb done l)).
Proof.
  induction l as [|k l IH]; intros done D L B.
  - cbn [comb]. rewrite map_rev. apply NoDup_rev. clear -D. induction D as [|a d D1 IH D2]; cbn; constructor; [|exact IH]. intros X. apply in_map_iff in X. destruct X as (y & Y1 & Y2). rewrite Forall_forall in D2. specialize (D2 y Y2). rewrite Y1 in D2. exact (slt_irrefl _ D2).
  - inversion L as [|? ? L1 L2]; subst. assert (B2 : Forall (fun a => Forall (fun b => r_order a b) l) done). { rewrite Forall_forall in *. intros a A. specialize (B a A). inversion B; assumption. }
    cbn [comb]. destruct done as [|j d].
    + apply IH; [repeat constructor|exact L1|]. constructor; [exact L2|constructor].
    + inversion D as [|? ? D1 D2]; subst. inversion B as [|? ? B3 B4]; subst. inversion B2 as [|? ? B5 B6]; subst. destruct (String.eqb (r_name k) (r_name j)) eqn:E.
      * cbv zeta. destruct (near _ _ _); [apply IH; assumption|]. apply IH; [constructor; assumption|exact L1|constructor; [exact B5|exact B6]].
      * apply IH; [|exact L1|constructor; [exact L2|exact B2]]. assert (JK : slt (r_name j) (r_name k)). { inversion B3 as [|? ? B7 B8]; subst. unfold r_order in B7. destruct (String.compare (r_name j) (r_name k)) eqn:C; [apply scompare_eq in C; rewrite C, String.eqb_refl in E; discriminate|exact C|congruence]. }
        constructor; [exact D|]. constructor; [exact JK|]. rewrite Forall_forall in *. intros y Y. eapply slt_trans; [apply D2; exact Y|exact JK].
Qed.
Lemma comb_names l : forall done x, In x (map r_name (comb done l)) -> In x (map r_name done) \/ In x (map r_name l).
Proof.
  induction l as [|k l IH]; intros done x; [cbn [comb]; rewrite map_rev, <- in_rev; tauto|]. cbn [comb]. destruct done as [|j d]; [intros H; apply IH in H; cbn in *; tauto|]. destruct (String.eqb (r_name k) (r_name j)) eqn:E; [cbv zeta; destruct (near _ _ _)|]; intros H; apply IH in H; cbn in *; tauto.
Qed.
Lemma comb_count l : forall done, (length (comb done l) <= length done + length l)%nat.
Proof.
  induction l as [|k l IH]; intros done; [cbn; rewrite rev_length; lia|]. cbn [comb]. destruct done as [|j d]; [specialize (IH [k]); cbn in *; lia|]. destruct (String.eqb (r_name k) (r_name j)); [cbv zeta; destruct (near _ _ _)|].
  - specialize (IH d). cbn in *. lia.
  - specialize (IH (mkRtok (r_name j) (r_coef j + r_coef k) :: d)). cbn in *. lia.
  - specialize (IH (k :: j :: d)). cbn in *. lia.
Qed.
Lemma put_firstn (v : list rtok) i t : (i <= length v)%nat -> firstn (S i) (put v i t) = firstn i v ++ [t].
Proof. intros L. unfold put. rewrite firstn_app, firstn_firstn, firstn_length. replace (Nat.min (S i) i) with i by lia. replace (S i - Nat.min i (length v))%nat with 1%nat by lia. reflexivity. Qed.
Lemma put_length (v : list rtok) i t : (i <= length v)%nat -> (S i <= length (put v i t))%nat.
Proof. intros L. unfold put. rewrite app_length, firstn_length. cbn. lia. Qed.
Lemma add_tokens_ok coef l : forall v n, (n <= length v)%nat -> let '(v', n') := add_tokens v n coef l in n' = (n + length l)%nat /\ (n' <= length v')%nat /\ firstn n' v' = firstn n v ++ map (fun t => mkRtok (r_name t) (coef * r_coef t)) l.
Proof.
  induction l as [|t l IH]; intros v n L; cbn [add_tokens map length]; [rewrite app_nil_r; split; [lia|]; split; [exact L|reflexivity]|].
  specialize (IH (put v n (mkRtok (r_name t) (coef * r_coef t))) (S n) (put_length _ _ _ L)). destruct (add_tokens _ _ _ _) as [v' n']. destruct IH as (A & B & C). split; [lia|]. split; [exact B|]. rewrite C, put_firstn by exact L. rewrite <- app_assoc. reflexivity.
Qed.
Lemma combine_ok sorted r : rsorts sorted -> (2 <= cnt r <= length (vec r))%nat ->
  exists r' h tl, trxn_combine sorted r = Ret r' /\ tokens r = h :: tl /\ logk r' = logk r /\ (cnt r' <= cnt r)%nat /\ exists tl', tokens r' = h :: tl' /\ NoDup (map r_name tl') /\
    (forall n, (Qabs (coef_of n tl' - coef_of n tl) <= (1 # 100000) * few n tl)%Q).
Proof.
  intros HS L. unfold trxn_combine. assert (LT : length (firstn (cnt r) (vec r)) = cnt r) by (rewrite firstn_length; lia). unfold tokens at 1. destruct (firstn (cnt r) (vec r)) as [|h [|t0 t1]] eqn:E; [cbn in LT; lia|cbn in LT; lia|].
  destruct (HS (t0 :: t1)) as [P1 P2]. set (tl := t0 :: t1) in *. assert (PL := Permutation_length P1). destruct (sorted tl) as [|s0 s1] eqn:ES; [cbn in PL; lia|]. cbv zeta.
  set (tl' := comb [s0] s1). set (out := h :: tl'). exists (mkRxn (out ++ skipn (length out) (h :: (s0 :: s1) ++ skipn (cnt r) (vec r))) (length out) (logk r)), h, tl. split; [reflexivity|]. split; [reflexivity|]. split; [reflexivity|]. split; [pose proof (comb_count s1 [s0]) as X; fold tl' in X; unfold out; cbn in X, PL, LT |- *; lia|].
  exists tl'. split; [unfold tokens; cbn [cnt vec]; rewrite firstn_app, firstn_all, Nat.sub_diag; cbn; now rewrite app_nil_r|]. split.
  - inversion P2 as [|? ? Q1 Q2]; subst. apply comb_sorted; [repeat constructor|exact Q1|constructor; [exact Q2|constructor]].
  - intros n. pose proof (comb_sum n s1 [s0]) as C. fold tl' in C. pose proof (coef_perm n _ _ P1) as CP. pose proof (few_perm n _ _ P1) as FP. assert (X : (coef_of n (s0 :: s1) == coef_of n [s0] + coef_of n s1)%Q) by apply (coef_app n [s0] s1). pose proof (few_cons n s0 s1) as FC. rewrite <- FP in FC. rewrite X in CP. rewrite <- CP in C. rewrite FC. destruct (String.eqb (r_name s0) n); lra.
Qed.
Lemma nth_put (v : list rtok) k t i d : (k < length v)%nat -> nth i (put v k t) d = if Nat.eqb i k then t else nth i v d.
Proof.
  intros L. unfold put. destruct (Nat.eqb i k) eqn:E.
  - apply Nat.eqb_eq in E. subst i. rewrite app_nth2; rewrite firstn_length; [|lia]. replace (k - Nat.min k (length v))%nat with 0%nat by lia. reflexivity.
  - apply Nat.eqb_neq in E. destruct (Nat.lt_ge_cases i k) as [H|H].
    + rewrite app_nth1; [|rewrite firstn_length; lia]. clear -H L. revert i v H L. induction k as [|k IH]; intros [|i] [|x v] H L; cbn in *; try lia; try reflexivity. apply IH; lia.
    + rewrite app_nth2; rewrite firstn_length; [|lia]. replace (i - Nat.min k (length v))%nat with (S (i - S k)) by lia. cbn [nth]. clear -H E L. revert v i H E L. induction k as [|k IH]; intros [|x v] i H E L; cbn [skipn length] in *; try lia; (destruct i as [|i]; [lia|]); cbn [nth].
      * f_equal. lia.
      * rewrite <- (IH v i) by (cbn in *; lia). f_equal.
Qed.
Lemma length_put (v : list rtok) k t : (k < length v)%nat -> length (put v k t) = length v.
Proof. intros L. unfold put. rewrite app_length, firstn_length. cbn [length]. rewrite skipn_length. lia. Qed.
Lemma find_tok_ok n l : forall i j, find_tok n l i = Some j -> (i <= j < i + length l)%nat /\ String.eqb (r_name (nth (j - i) l dead)) n = true.
Proof.
  induction l as [|t l IH]; intros i j; [discriminate|]. cbn [find_tok]. destruct (String.eqb (r_name t) n) eqn:E.
  - intros X; injection X as <-. rewrite Nat.sub_diag. cbn. split; [lia|exact E].
  - intros X. apply IH in X. destruct X as [X Y]. cbn [length]. split; [lia|]. replace (j - i)%nat with (S (j - S i)) by lia. exact Y.
Qed.
Lemma find_tok_none n l : forall i, find_tok n l i = None -> Forall (fun t => r_name t <> n) l.
Proof. induction l as [|t l IH]; intros i; [constructor|]. cbn [find_tok]. destruct (String.eqb (r_name t) n) eqn:E; [discriminate|]. intros X. constructor; [apply String.eqb_neq; exact E|]. eapply IH. exact X. Qed.
Lemma nth_firstn (v : list rtok) k i d : (i < k)%nat -> nth i (firstn k v) d = nth i v d.
Proof. revert v i. induction k as [|k IH]; intros v i H; [lia|]. destruct v as [|x v]; [now destruct i|]. destruct i as [|i]; [reflexivity|]. cbn. apply IH. lia. Qed.
Definition swapped (j i : nat) : nat := if Nat.eqb i 0 then j else if Nat.eqb i j then 0%nat else i.
Lemma swap_ok r n : (cnt r < length (vec r))%nat -> forall r', trxn_swap r n = Ret (Some r') ->
  exists j, (j < cnt r)%nat /\ r_name (nth j (tokens r) dead) = n /\ cnt r' = cnt r /\
    let c := r_coef (nth j (tokens r) dead) in
    logk r' = map (fun x => (x * (- (1) / c))%Q) (logk r) /\ length (tokens r') = cnt r /\
    (forall i, (i < cnt r)%nat -> let t := nth (swapped j i) (tokens r) dead in nth i (tokens r') dead = mkRtok (r_name t) (r_coef t * (- (1) / c))).
Proof.
  intros L r'. unfold trxn_swap. destruct (find_tok n (firstn (cnt r) (vec r)) 0) as [j|] eqn:F; [|discriminate]. replace (Nat.leb (length (vec r)) (cnt r)) with false by (symmetry; apply Nat.leb_gt; lia). apply find_tok_ok in F. rewrite Nat.sub_0_r, firstn_length in F. destruct F as [J N]. apply String.eqb_eq in N. assert (JC : (j < cnt r)%nat) by lia. cbv zeta.
  set (v0 := vec r) in *. set (v1 := put v0 (cnt r) (nth 0 v0 dead)). set (v2 := put v1 0 (nth j v1 dead)). set (v3 := put v2 j (nth (cnt r) v2 dead)).
  assert (L1 : length v1 = length v0) by (apply length_put; lia). assert (L2 : length v2 = length v0) by (unfold v2; rewrite length_put; lia). assert (L3 : length v3 = length v0) by (unfold v3; rewrite length_put; lia).
  assert (A1 : forall i, nth i v1 dead = if Nat.eqb i (cnt r) then nth 0 v0 dead else nth i v0 dead) by (intros; apply nth_put; lia).
  assert (A2 : forall i, nth i v2 dead = if Nat.eqb i 0 then nth j v1 dead else nth i v1 dead) by (intros; apply nth_put; lia).
  assert (A3 : forall i, nth i v3 dead = if Nat.eqb i j then nth (cnt r) v2 dead else nth i v2 dead) by (intros; apply nth_put; lia).
  assert (B : forall i, (i < cnt r)%nat -> nth i v3 dead = nth (swapped j i) v0 dead).
  { intros i HI. rewrite A3, !A2, !A1. unfold swapped. replace (Nat.eqb (cnt r) 0) with false by (symmetry; apply Nat.eqb_neq; lia). rewrite Nat.eqb_refl. replace (Nat.eqb j (cnt r)) with false by (symmetry; apply Nat.eqb_neq; lia). replace (Nat.eqb i (cnt r)) with false by (symmetry; apply Nat.eqb_neq; lia). destruct (Nat.eqb i 0) eqn:E0; destruct (Nat.eqb i j) eqn:EJ; try reflexivity. apply Nat.eqb_eq in E0, EJ. now subst. }
  assert (SW : forall i, (i < cnt r)%nat -> (swapped j i < cnt r)%nat) by (intros i HI; unfold swapped; destruct (Nat.eqb i 0); [lia|]; destruct (Nat.eqb i j); lia).
  intros X. injection X as <-. exists j. split; [exact JC|]. split; [exact N|]. split; [reflexivity|]. cbv zeta. assert (C : r_coef (nth 0 v3 dead) = r_coef (nth j (tokens r) dead)). { rewrite B by lia. unfold swapped. cbn [Nat.eqb]. unfold tokens. fold v0. now rewrite nth_firstn. }
  rewrite C. split; [reflexivity|]. assert (T : forall k, tokens (trxn_multiply (mkRxn v3 (cnt r) (logk r)) k) = map (fun t => mkRtok (r_name t) (r_coef t * k)) (firstn (cnt r) v3)).
  { intros k. unfold trxn_multiply, tokens. cbn [cnt vec logk]. rewrite firstn_app, map_length, firstn_length. replace (cnt r - Nat.min (cnt r) (length v3))%nat with 0%nat by lia. rewrite firstn_O, app_nil_r. apply firstn_all2. rewrite map_length, firstn_length. lia. }
  rewrite T. split; [rewrite map_length, firstn_length; lia|]. intros i HI. set (k := (- (1) / _)%Q). rewrite (nth_indep _ dead ((fun t => mkRtok (r_name t) (r_coef t * k)) dead)) by (rewrite map_length, firstn_length; lia). rewrite (map_nth (fun t => mkRtok (r_name t) (r_coef t * k))). rewrite nth_firstn, B by lia. unfold tokens. fold v0. rewrite nth_firstn by (apply SW; lia). reflexivity.
Qed.
Lemma swap_perm r n r' : (cnt r < length (vec r))%nat -> trxn_swap r n = Ret (Some r') -> exists j, (j < cnt r)%nat /\ r_name (nth j (tokens r) dead) = n /\ let k := (- (1) / r_coef (nth j (tokens r) dead))%Q in nth 0 (tokens r') dead = mkRtok n (r_coef (nth j (tokens r) dead) * k) /\ logk r' = map (fun x => (x * k)%Q) (logk r) /\ Permutation (map (fun t => mkRtok (r_name t) (r_coef t * k)) (tokens r)) (tokens r').
Proof.
  intros L H. destruct (swap_ok r n L r' H) as (j & J & N & C & LK & LT & A). cbv zeta in *. exists j. split; [exact J|]. split; [exact N|]. set (k := (- (1) / r_coef (nth j (tokens r) dead))%Q) in *. split; [rewrite A by lia; cbn [swapped Nat.eqb]; unfold swapped; cbn [Nat.eqb]; rewrite N; reflexivity|]. split; [exact LK|].
  assert (LR : length (tokens r) = cnt r) by (unfold tokens; rewrite firstn_length; lia).
  apply (Permutation_nth _ _ dead). cbv zeta. rewrite map_length, LR. split; [exact LT|]. exists (swapped j). split; [intros x X; unfold swapped; destruct (Nat.eqb x 0); [lia|]; destruct (Nat.eqb x j); lia|]. split.
  - intros x y X Y. unfold swapped. destruct (Nat.eqb x 0) eqn:E1, (Nat.eqb y 0) eqn:E2, (Nat.eqb x j) eqn:E3, (Nat.eqb y j) eqn:E4; rewrite ?Nat.eqb_eq, ?Nat.eqb_neq in *; lia.
  - intros x X. rewrite A by exact X. rewrite (nth_indep (map (fun t => mkRtok (r_name t) (r_coef t * k)) (tokens r)) dead ((fun t => mkRtok (r_name t) (r_coef t * k)) dead)). 2:{ rewrite map_length, LR. unfold swapped. destruct (Nat.eqb x 0); [lia|]; destruct (Nat.eqb x j); lia. } rewrite (map_nth (fun t => mkRtok (r_name t) (r_coef t * k))). reflexivity.
Qed.
