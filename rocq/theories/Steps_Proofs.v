(** Lemmas on batch reactions in steps. *)

From Coq Require Import String Ascii List ZArith QArith Bool Lia Lqa ZifyBool.
From Verif Require Import Steps_Model Steps_Spec.
Import ListNotations.
Local Open Scope string_scope.
Local Open Scope list_scope.
Local Open Scope Z_scope.

Lemma inject_nz : forall n, 0 < n -> ~ (inject_Z n == 0)%Q.
Proof. intros n H E. unfold Qeq in E. cbn in E. lia. Qed.

Lemma share_end : forall q n k, 0 < n -> n <= k -> (share q n k == q)%Q.
Proof.
  intros q n k H L. unfold share. rewrite Z.min_r by lia.
  field. apply inject_nz; assumption.
Qed.

Lemma share_before : forall q n k, k <= n -> share q n k = (q * inject_Z k / inject_Z n)%Q.
Proof. intros q n k L. unfold share. rewrite Z.min_l by lia. reflexivity. Qed.

Lemma sum_share : forall f q n k, 0 < n ->
  (forall j, 1 <= j <= n -> f j = (q / inject_Z n)%Q) ->
  (forall j, n < j -> f j = 0%Q) ->
  (sum_to f k == share q n (Z.of_nat k))%Q.
Proof.
  intros f q n k H A B. induction k as [|k IH].
  - unfold share. rewrite Z.min_l by lia. cbn [sum_to]. change (inject_Z (Z.of_nat 0)) with 0%Q.
    field. apply inject_nz; assumption.
  - cbn [sum_to]. rewrite IH. destruct (Z_lt_le_dec n (Z.of_nat (S k))) as [L | L].
    + rewrite B by lia. rewrite !share_end by lia. ring.
    + rewrite A by lia. rewrite !share_before by lia.
      rewrite Nat2Z.inj_succ. unfold Z.succ. rewrite inject_Z_plus.
      field. apply inject_nz; assumption.
Qed.

Lemma rxn_equal_total : forall v n k, 0 < n -> 1 <= k ->
  (rxn_amount false (mkSched [v] true n) k == share v n k)%Q.
Proof.
  intros v n k H K. unfold rxn_amount, steps_of. cbn [s_list s_equal s_count negb].
  change (at_ (mkSched [v] true n) 1) with v.
  destruct (n <? k) eqn:E.
  - rewrite share_end by lia. reflexivity.
  - rewrite share_before by lia. reflexivity.
Qed.

Lemma rxn_equal_sum : forall v n k, 0 < n ->
  (sum_to (rxn_amount true (mkSched [v] true n)) k == share v n (Z.of_nat k))%Q.
Proof.
  intros v n k H. apply sum_share; [assumption | |]; intros j J;
    unfold rxn_amount, steps_of; cbn [s_list s_equal s_count negb];
    change (at_ (mkSched [v] true n) 1) with v.
  - replace (n <? j) with false by lia. reflexivity.
  - replace (n <? j) with true by lia. reflexivity.
Qed.

Lemma kin_equal_total : forall v n k, 0 < n -> 1 <= k ->
  (kin_time false (mkSched [v] true n) k == share v n k)%Q.
Proof.
  intros v n k H K. unfold kin_time. cbn [s_list s_equal s_count negb].
  change (at_ (mkSched [v] true n) 1) with v.
  destruct (n <? k) eqn:E.
  - rewrite share_end by lia. reflexivity.
  - rewrite share_before by lia. field. apply inject_nz; lia.
Qed.

Lemma kin_equal_sum : forall v n k, 0 < n ->
  (sum_to (kin_time true (mkSched [v] true n)) k == share v n (Z.of_nat k))%Q.
Proof.
  intros v n k H. apply sum_share; [assumption | |]; intros j J;
    unfold kin_time; cbn [s_list s_equal s_count negb];
    change (at_ (mkSched [v] true n) 1) with v.
  - replace (n <? j) with false by lia. reflexivity.
  - replace (n <? j) with true by lia. reflexivity.
Qed.

Lemma at_kth : forall l e c k q, l <> [] -> (1 <= k)%nat -> kth l k q ->
  (if len (mkSched l e c) <? Z.of_nat k
   then at_ (mkSched l e c) (len (mkSched l e c))
   else at_ (mkSched l e c) (Z.of_nat k)) = q.
Proof.
  intros l e c k q NE K H. unfold kth in H.
  assert (L : (1 <= length l)%nat) by (destruct l; [congruence | cbn; lia]).
  unfold at_, len. cbn [s_list].
  destruct (Z.of_nat (length l) <? Z.of_nat k) eqn:E.
  - rewrite Nat.min_r in H by lia.
    replace (Z.to_nat (Z.of_nat (length l) - 1)) with (length l - 1)%nat by lia.
    apply nth_error_nth. exact H.
  - rewrite Nat.min_l in H by lia.
    replace (Z.to_nat (Z.of_nat k - 1)) with (k - 1)%nat by lia.
    apply nth_error_nth. exact H.
Qed.

Lemma rxn_list_amount : forall inc l c k q, (1 <= k)%nat -> kth l k q ->
  rxn_amount inc (mkSched l false c) (Z.of_nat k) = q.
Proof.
  intros inc l c k q K H.
  assert (NE : l <> []) by (intros ->; unfold kth in H; destruct (Nat.min k _ - 1)%nat in H; discriminate).
  pose proof (at_kth l false c k q NE K H) as E.
  unfold rxn_amount. cbn [s_list s_equal negb].
  destruct l as [|a l]; [congruence |]. destruct inc; cbn [negb]; exact E.
Qed.

Lemma kin_list_time : forall inc l c k q, (1 <= k)%nat -> kth l k q ->
  kin_time inc (mkSched l false c) (Z.of_nat k) = q.
Proof.
  intros inc l c k q K H.
  assert (NE : l <> []) by (intros ->; unfold kth in H; destruct (Nat.min k _ - 1)%nat in H; discriminate).
  pose proof (at_kth l false c k q NE K H) as E.
  unfold kin_time. cbn [s_list s_equal negb].
  destruct l as [|a l]; [congruence |]. destruct inc; cbn [negb]; exact E.
Qed.

Lemma level_list : forall l c k q, (1 <= k)%nat -> kth l k q ->
  level (mkSched l false c) (Z.of_nat k) = q.
Proof.
  intros l c k q K H.
  assert (NE : l <> []) by (intros ->; unfold kth in H; destruct (Nat.min k _ - 1)%nat in H; discriminate).
  pose proof (at_kth l false c k q NE K H) as E.
  unfold level. cbn [s_list s_equal negb].
  destruct l as [|a l]; [congruence |]. exact E.
Qed.

(** * Reading *)

Lemma read_incs_amounts : forall ts acc errs rest,
  Forall is_amount ts -> (forall t r, rest = t :: r -> exists w, t = Word w) ->
  read_incs (ts ++ rest) acc errs = (acc ++ numbers ts, errs, rest).
Proof.
  induction ts as [|t ts IH]; intros acc errs rest F W; cbn [app numbers].
  - rewrite app_nil_r. destruct rest as [|t r]; [reflexivity |].
    destruct (W t r eq_refl) as [w ->]. reflexivity.
  - inversion F as [|? ? A F']; subst. destruct t; try contradiction; cbn [read_incs numbers].
    + rewrite IH by assumption. rewrite <- app_assoc. reflexivity.
    + rewrite IH by assumption. rewrite <- app_assoc. reflexivity.
Qed.

Lemma find_count_at : forall pre t post n, Forall no_int pre -> int_of t = Some n -> 0 < n ->
  find_count (pre ++ t :: post) = Some n.
Proof.
  induction pre as [|p pre IH]; intros t post n F T P; cbn [app find_count].
  - rewrite T. replace (0 <? n) with true by lia. reflexivity.
  - inversion F as [|? ? A F']; subst. unfold no_int in A. rewrite A. apply IH; assumption.
Qed.

Lemma kin_run_amounts : forall ts s,
  Forall is_amount ts ->
  fold_left kin_token ts (mkKread s None O false false) =
  mkKread (mkSched (s_list s ++ numbers ts) (s_equal s) (s_count s)) None O false false.
Proof.
  induction ts as [|t ts IH]; intros s F; cbn [fold_left numbers].
  - rewrite app_nil_r. destruct s; reflexivity.
  - inversion F as [|? ? A F']; subst. destruct t; try contradiction;
      cbn [kin_token k_stop k_seek k_sched k_units k_errs];
      rewrite IH by assumption; cbn [s_list s_equal s_count]; rewrite <- app_assoc; reflexivity.
Qed.

Lemma kin_seek : forall pre s u t post n, Forall no_int pre -> int_of t = Some n ->
  fold_left kin_token (pre ++ t :: post) (mkKread s u O true false) =
  fold_left kin_token post
    (mkKread (mkSched (s_list s) (s_equal s) (Z.abs n)) u O false false).
Proof.
  induction pre as [|p pre IH]; intros s u t post n F T; cbn [app fold_left].
  - unfold kin_token at 2. cbn [k_stop k_seek]. rewrite T. reflexivity.
  - inversion F as [|? ? A F']; subst. unfold no_int in A.
    unfold kin_token at 2. cbn [k_stop k_seek]. rewrite A. apply IH; assumption.
Qed.

(** * The store *)

Lemma kind_eqb_eq : forall a b, kind_eqb a b = true <-> a = b.
Proof. intros a b. split; [destruct a, b; cbn; congruence | intros ->; destruct b; reflexivity]. Qed.

Lemma kind_eqb_refl : forall a, kind_eqb a a = true.
Proof. destruct a; reflexivity. Qed.

Lemma kind_eqb_neq : forall a b, kind_eqb a b = false <-> a <> b.
Proof. intros a b. rewrite <- kind_eqb_eq. destruct (kind_eqb a b); split; congruence. Qed.

Lemma put_same : forall V (st : store V) k n v, put st k n v k n = Some v.
Proof. intros. unfold put. rewrite kind_eqb_refl, Z.eqb_refl. reflexivity. Qed.

Lemma put_other : forall V (st : store V) k n v k' n', k' <> k \/ n' <> n ->
  put st k n v k' n' = st k' n'.
Proof.
  intros V st k n v k' n' H. unfold put.
  destruct (kind_eqb k' k && (n' =? n)) eqn:E; [|reflexivity].
  apply andb_prop in E. destruct E as [E1 E2]. apply kind_eqb_eq in E1. lia || (destruct H; [congruence | lia]).
Qed.

Lemma copy_other : forall V (st : store V) k i j k' n', k' <> k \/ n' <> j ->
  rxn_copy st k i j k' n' = st k' n'.
Proof. intros V st k i j k' n' H. unfold rxn_copy. destruct (st k i); [apply put_other; assumption | reflexivity]. Qed.

Lemma copy_same : forall V (st : store V) k i j v, st k i = Some v -> rxn_copy st k i j k j = Some v.
Proof. intros V st k i j v H. unfold rxn_copy. rewrite H. apply put_same. Qed.

Lemma copy_self : forall V (st : store V) k i k' n', rxn_copy st k i i k' n' = st k' n'.
Proof.
  intros V st k i k' n'. unfold rxn_copy. destruct (st k i) as [v|] eqn:E; [|reflexivity].
  unfold put. destruct (kind_eqb k' k && (n' =? i)) eqn:B; [|reflexivity].
  apply andb_prop in B. destruct B as [B1 B2]. apply kind_eqb_eq in B1. apply Z.eqb_eq in B2. subst. congruence.
Qed.

Lemma from_In : forall n i j, In j (from_ i n) <-> i <= j < i + Z.of_nat n.
Proof.
  induction n as [|n IH]; intros i j; cbn [from_ In].
  - lia.
  - rewrite IH. lia.
Qed.

Lemma fold_copy_other : forall V js (st : store V) k i k' n', k' <> k \/ ~ In n' js ->
  fold_left (fun st j => rxn_copy st k i j) js st k' n' = st k' n'.
Proof.
  induction js as [|j js IH]; intros st k i k' n' H; cbn [fold_left]; [reflexivity |].
  rewrite IH.
  - apply copy_other. destruct H as [H | H]; [left; assumption | right; intros ->; apply H; left; reflexivity].
  - destruct H as [H | H]; [left; assumption | right; intros X; apply H; right; assumption].
Qed.

Lemma fold_copy_keep : forall V js (st : store V) k i v, st k i = Some v ->
  fold_left (fun st j => rxn_copy st k i j) js st k i = Some v.
Proof.
  induction js as [|j js IH]; intros st k i v H; cbn [fold_left]; [assumption |].
  apply IH. unfold rxn_copy. rewrite H. unfold put.
  destruct (kind_eqb k k && (i =? j)); [reflexivity | assumption].
Qed.

Lemma fold_copy_in : forall V js (st : store V) k i v n, st k i = Some v -> In n js ->
  fold_left (fun st j => rxn_copy st k i j) js st k n = Some v.
Proof.
  induction js as [|j js IH]; intros st k i v n H I'; [destruct I' |]. cbn [fold_left].
  assert (K : rxn_copy st k i j k i = Some v).
  { unfold rxn_copy. rewrite H. unfold put. destruct (kind_eqb k k && (i =? j)); [reflexivity | assumption]. }
  destruct I' as [<- | I'].
  - destruct (in_dec Z.eq_dec j js) as [D | D]; [apply IH; assumption |].
    rewrite fold_copy_other by (right; assumption). apply copy_same. assumption.
  - apply IH; assumption.
Qed.

(** One kind of copy_use. *)
Definition use_copy {V} (u : use) (i : Z) (st : store V) (k : kind) : store V :=
  match u k with Some n => rxn_copy st k n i | None => st end.

Lemma use_copy_other : forall V u i (st : store V) k k' n, k' <> k \/ n <> i ->
  use_copy u i st k k' n = st k' n.
Proof. intros V u i st k k' n H. unfold use_copy. destruct (u k); [apply copy_other; assumption | reflexivity]. Qed.

Lemma fold_use_other : forall V u i ks (st : store V) k n, ~ In k ks \/ n <> i ->
  fold_left (use_copy u i) ks st k n = st k n.
Proof.
  induction ks as [|a ks IH]; intros st k n H; cbn [fold_left]; [reflexivity |].
  rewrite IH.
  - apply use_copy_other. destruct H as [H | H]; [left; intros ->; apply H; left; reflexivity | right; assumption].
  - destruct H as [H | H]; [left; intros X; apply H; right; assumption | right; assumption].
Qed.

Lemma fold_use_in : forall V u i ks (st : store V) k n v, NoDup ks -> In k ks ->
  u k = Some n -> st k n = Some v -> fold_left (use_copy u i) ks st k i = Some v.
Proof.
  induction ks as [|a ks IH]; intros st k n v D I' U S'; [destruct I' |]. cbn [fold_left].
  inversion D as [|? ? N D']; subst. destruct I' as [-> | I'].
  - rewrite fold_use_other by (left; assumption). unfold use_copy. rewrite U. apply copy_same. assumption.
  - apply IH with (n := n); try assumption.
    rewrite use_copy_other; [assumption |]. left. intros ->. contradiction.
Qed.

Lemma copied_nodup : NoDup copied.
Proof. unfold copied. repeat (constructor; [cbn; intuition discriminate |]). constructor. Qed.

Lemma copied_all : forall k, In k copied.
Proof. destruct k; cbn; tauto. Qed.

Lemma copy_use_other : forall V u i (st : store V) k n, n <> i -> copy_use u i st k n = st k n.
Proof. intros. apply fold_use_other. right. assumption. Qed.

Lemma copy_use_in : forall V u i (st : store V) k n v, u k = Some n -> st k n = Some v ->
  copy_use u i st k i = Some v.
Proof. intros. eapply fold_use_in; eauto using copied_nodup, copied_all. Qed.

(** One kind of saver. *)
Definition save_kind {V} (sv : save) (res : results V) (st : store V) (k : kind) : store V :=
  match sv k with
  | Some (n, e) =>
    let st' := match res k with Some v => put st k n v | None => st end in
    rxn_copies st' k n e
  | None => st
  end.

Lemma save_kind_other : forall V sv res (st : store V) k k' j,
  k' <> k \/ (forall n e, sv k = Some (n, e) -> j <> n /\ ~ (n <= j <= e)) ->
  save_kind sv res st k k' j = st k' j.
Proof.
  intros V sv res st k k' j H. unfold save_kind. destruct (sv k) as [[n e]|] eqn:E; [|reflexivity].
  cbv zeta. unfold rxn_copies. rewrite fold_copy_other.
  - destruct (res k); [|reflexivity]. apply put_other.
    destruct H as [H | H]; [left; assumption | right; apply (H n e eq_refl)].
  - destruct H as [H | H]; [left; assumption | right]. rewrite from_In. specialize (H n e eq_refl). lia.
Qed.

Lemma save_kind_in : forall V sv res (st : store V) k n e j v,
  sv k = Some (n, e) -> res k = Some v -> n <= j <= e ->
  save_kind sv res st k k j = Some v.
Proof.
  intros V sv res st k n e j v E R J. unfold save_kind. rewrite E, R. cbv zeta. unfold rxn_copies.
  destruct (Z.eq_dec j n) as [-> | NJ].
  - apply fold_copy_keep. apply put_same.
  - apply fold_copy_in; [apply put_same | rewrite from_In; lia].
Qed.

Lemma fold_save_other : forall V sv res ks (st : store V) k j,
  ~ In k ks \/ (forall n e, sv k = Some (n, e) -> j <> n /\ ~ (n <= j <= e)) ->
  fold_left (save_kind sv res) ks st k j = st k j.
Proof.
  induction ks as [|a ks IH]; intros st k j H; cbn [fold_left]; [reflexivity |].
  rewrite IH.
  - apply save_kind_other. destruct (kind_eqb k a) eqn:B.
    + apply kind_eqb_eq in B. subst a. right. destruct H as [H | H]; [exfalso; apply H; left; reflexivity | assumption].
    + left. apply kind_eqb_neq. assumption.
  - destruct H as [H | H]; [left; intros X; apply H; right; assumption | right; assumption].
Qed.

Lemma fold_save_in : forall V sv res ks (st : store V) k n e j v, NoDup ks -> In k ks ->
  sv k = Some (n, e) -> res k = Some v -> n <= j <= e ->
  fold_left (save_kind sv res) ks st k j = Some v.
Proof.
  induction ks as [|a ks IH]; intros st k n e j v D I' E R J; [destruct I' |]. cbn [fold_left].
  inversion D as [|? ? N D']; subst. destruct I' as [-> | I'].
  - rewrite fold_save_other by (left; assumption). eapply save_kind_in; eassumption.
  - eapply IH; eassumption.
Qed.

Lemma saved_nodup : NoDup saved.
Proof. unfold saved. repeat (constructor; [cbn; intuition discriminate |]). constructor. Qed.

Lemma saver_unfold : forall V u sv res (st : store V),
  saver u sv res st =
  let st1 := fold_left (save_kind sv res) saved st in
  match sv KKin, u KKin with
  | Some (n, e), Some _ =>
    fold_left (fun st j => rxn_copy st KKin (-2) j) (from_ n (Z.to_nat (e - n + 1))) st1
  | _, _ => st1
  end.
Proof. reflexivity. Qed.

Lemma saver_other : forall V u sv res (st : store V) k j,
  (forall n e, sv k = Some (n, e) -> j <> n /\ ~ (n <= j <= e)) ->
  saver u sv res st k j = st k j.
Proof.
  intros V u sv res st k j H. rewrite saver_unfold. cbv zeta.
  assert (A : fold_left (save_kind sv res) saved st k j = st k j)
    by (apply fold_save_other; right; assumption).
  destruct (sv KKin) as [[n e]|] eqn:E; [|exact A]. destruct (u KKin); [|exact A].
  rewrite fold_copy_other; [exact A |].
  destruct (kind_eqb k KKin) eqn:B.
  - apply kind_eqb_eq in B. subst k. right. rewrite from_In. specialize (H n e E). lia.
  - left. apply kind_eqb_neq. assumption.
Qed.

Lemma saver_in : forall V u sv res (st : store V) k n e j v, In k saved ->
  sv k = Some (n, e) -> res k = Some v -> n <= j <= e -> saver u sv res st k j = Some v.
Proof.
  intros V u sv res st k n e j v I' E R J. rewrite saver_unfold. cbv zeta.
  assert (A : fold_left (save_kind sv res) saved st k j = Some v)
    by (eapply fold_save_in; eauto using saved_nodup).
  assert (NK : k <> KKin) by (intros ->; cbn in I'; intuition discriminate).
  destruct (sv KKin) as [[n' e']|]; [|exact A]. destruct (u KKin); [|exact A].
  rewrite fold_copy_other by (left; assumption). exact A.
Qed.

Lemma saver_kin : forall V u sv res (st : store V) m n e j v,
  u KKin = Some m -> sv KKin = Some (n, e) -> st KKin (-2) = Some v -> n <= j <= e ->
  saver u sv res st KKin j = Some v.
Proof.
  intros V u sv res st m n e j v U E H J. rewrite saver_unfold. cbv zeta. rewrite E, U.
  assert (NK : ~ In KKin saved) by (cbn; intuition discriminate).
  apply fold_copy_in; [rewrite fold_save_other by (left; assumption); assumption | rewrite from_In; lia].
Qed.

(** A kind that saver does not save. *)
Lemma saver_kept : forall V u sv res (st : store V) k j, ~ In k saved -> k <> KKin ->
  saver u sv res st k j = st k j.
Proof.
  intros V u sv res st k j N NK. rewrite saver_unfold. cbv zeta.
  assert (A : fold_left (save_kind sv res) saved st k j = st k j)
    by (apply fold_save_other; left; assumption).
  destruct (sv KKin) as [[n' e']|]; [|exact A]. destruct (u KKin); [|exact A].
  rewrite fold_copy_other by (left; assumption). exact A.
Qed.

(** Saving back into -2 leaves the kinetics at -2. *)
Lemma saver_kin_back : forall V u res (st : store V) j,
  saver u (save_use u (-2)) res st KKin j = st KKin j.
Proof.
  intros V u res st j. rewrite saver_unfold. cbv zeta.
  assert (NK : ~ In KKin saved) by (cbn; intuition discriminate).
  assert (A : fold_left (save_kind (save_use u (-2)) res) saved st KKin j = st KKin j)
    by (apply fold_save_other; left; assumption).
  unfold save_use at 1. destruct (u KKin) as [m|] eqn:U; [|exact A].
  change (from_ (-2) (Z.to_nat (-2 - -2 + 1))) with [-2]. cbn [fold_left].
  rewrite copy_self. exact A.
Qed.

Lemma leave_other : forall V u w (st : store V) k n, n <> -2 -> leave u w st k n = st k n.
Proof. intros. unfold leave. replace (n =? -2) with false by lia. reflexivity. Qed.

Lemma save_use_range : forall u k n e, save_use u (-2) k = Some (n, e) -> n = -2 /\ e = -2.
Proof. intros u k n e H. unfold save_use in H. destruct k; try discriminate; try (destruct (u _); [|discriminate]); injection H as <- <-; auto. Qed.

Lemma saver_back_other : forall V u res (st : store V) k j, j <> -2 ->
  saver u (save_use u (-2)) res st k j = st k j.
Proof.
  intros. apply saver_other. intros n e E. apply save_use_range in E. lia.
Qed.

(** A step changes nothing but what is numbered -2. *)
Lemma one_step_other : forall V times parts run inc u count (l : lstate V) i k n, n <> -2 ->
  l_st (one_step times parts run inc u count l i) k n = l_st l k n.
Proof.
  intros V times parts run inc u count l i k n N. unfold one_step.
  set (st0 := if (1 <? i) && negb inc then copy_use u (-2) (l_st l) else l_st l).
  assert (A : st0 k n = l_st l k n).
  { unfold st0. destruct ((1 <? i) && negb inc); [apply copy_use_other; assumption | reflexivity]. }
  cbv zeta. destruct (run i _ _) as [w res]. cbn [l_st].
  destruct (i <? count).
  - rewrite saver_back_other by assumption. rewrite leave_other by assumption. exact A.
  - rewrite leave_other by assumption. exact A.
Qed.

Lemma steps_other : forall V times parts run inc u count is (l : lstate V) k n, n <> -2 ->
  l_st (fold_left (one_step times parts run inc u count) is l) k n = l_st l k n.
Proof.
  induction is as [|i is IH]; intros l k n N; cbn [fold_left]; [reflexivity |].
  rewrite IH by assumption. apply one_step_other. assumption.
Qed.

(** * What missing says *)

Lemma missing_none : forall V u (st : store V), missing u st = None ->
  forall k n, u k = Some n -> exists v, st k n = Some v.
Proof.
  intros V u st H k n U.
  assert (G : forall ks a, fold_left (fun a k => match a with
                        | Some _ => a
                        | None => match u k with
                                  | Some n => match st k n with
                                              | Some _ => None
                                              | None => Some (k, n)
                                              end
                                  | None => None
                                  end
                        end) ks a = None -> a = None /\ forall k n, In k ks -> u k = Some n -> exists v, st k n = Some v).
  { induction ks as [|a ks IH]; intros x F; cbn [fold_left] in F.
    - split; [assumption | intros ? ? []].
    - apply IH in F. destruct F as [F1 F2]. destruct x as [x|]; [discriminate |]. split; [reflexivity |].
      intros k0 n0 [-> | I'] U0.
      + rewrite U0 in F1. destruct (st k0 n0) as [v|]; [eauto | discriminate].
      + eapply F2; eassumption. }
  destruct (G looked_for None H) as [_ G2]. eapply G2; [|eassumption]. destruct k; cbn; tauto.
Qed.

(** * The views *)

Lemma look_begin : forall V parts u (st st0 : store V),
  (forall k n, u k = Some n -> 0 <= n) ->
  (in_use u KSol || in_use u KMix) = true ->
  (forall k n, u k = Some n -> exists v, st k n = Some v) ->
  (forall k n, n <> -2 -> st0 k n = st k n) ->
  look parts u true (copy_use u (-2) st0) = beginning parts u st.
Proof.
  intros V parts u st st0 P SM D E.
  assert (C : forall k n, u k = Some n -> copy_use u (-2) st0 k (-2) = st k n).
  { intros k n U. destruct (D k n U) as [v Hv]. rewrite Hv. eapply copy_use_in; [eassumption |].
    rewrite E; [assumption |]. specialize (P k n U). lia. }
  unfold look, beginning. cbn [andb]. f_equal.
  - apply map_ext. intros k. destruct k; unfold in_use;
      try (destruct (u _) as [n|] eqn:U; [apply C; assumption | reflexivity]).
    destruct (u KMix) as [n|] eqn:U; [reflexivity |].
    destruct (u KSol) as [n|] eqn:U2; [apply C; assumption |].
    unfold in_use in SM. rewrite U, U2 in SM. discriminate.
  - unfold in_use. destruct (u KMix) as [n|] eqn:U; [|reflexivity].
    rewrite (C _ _ U). destruct (st KMix n) as [m|]; [|reflexivity].
    apply map_ext_in. intros a A. apply filter_In in A. destruct A as [_ A]. apply Z.leb_le in A.
    rewrite copy_use_other by lia. apply E. lia.
Qed.

Lemma time_begin : forall V times parts inc u (st st1 : store V) i,
  (forall k n, u k = Some n -> exists v, st k n = Some v) ->
  (forall k n v, u k = Some n -> st k n = Some v -> st1 k (-2) = Some v) ->
  match u KKin, st1 KKin (-2) with
  | Some _, Some v => kin_time inc (times v) i
  | _, _ => 0%Q
  end = time_of times inc (beginning parts u st) i.
Proof.
  intros V times parts inc u st st1 i D C. unfold time_of, entity, beginning. cbn.
  destruct (u KKin) as [n|] eqn:U; [|reflexivity].
  destruct (D _ _ U) as [v Hv]. rewrite Hv. rewrite (C _ _ _ U Hv). reflexivity.
Qed.

(** * Steps apart *)

Lemma steps_apart : forall V times parts run u count (st : store V) n i (l : lstate V),
  user_numbers u -> (in_use u KSol || in_use u KMix) = true ->
  (forall k n, u k = Some n -> exists v, st k n = Some v) ->
  (forall k n, n <> -2 -> l_st l k n = st k n) ->
  1 <= i -> (i = 1 -> l_st l = copy_use u (-2) st) ->
  l_rows (fold_left (one_step times parts run false u count) (from_ i n) l) =
  l_rows l ++ apart times run (beginning parts u st) i n.
Proof.
  induction n as [|n IH]; intros i l P SM D E I1 I2; cbn [from_ fold_left apart].
  - rewrite app_nil_r. reflexivity.
  - assert (X : (if (1 <? i) && negb false then copy_use u (-2) (l_st l) else l_st l)
                = copy_use u (-2) (if 1 <? i then l_st l else st)).
    { destruct (1 <? i) eqn:B; cbn [andb negb]; [reflexivity | apply I2; lia]. }
    assert (Y : forall k n, n <> -2 -> (if 1 <? i then l_st l else st) k n = st k n)
      by (intros; destruct (1 <? i); [apply E; assumption | reflexivity]).
    rewrite IH; try assumption; try lia.
    + unfold one_step. rewrite X. cbv zeta. cbn [negb orb].
      rewrite (look_begin V parts u st) by assumption.
      assert (Z2 : forall k m v, u k = Some m -> st k m = Some v ->
                copy_use u (-2) (if 1 <? i then l_st l else st) k (-2) = Some v).
      { intros k m v U Hv. eapply copy_use_in; [eassumption |].
        rewrite Y; [assumption | specialize (P k m U); lia]. }
      rewrite (time_begin V times parts false u st _ i D Z2).
      destruct (run i (time_of times false (beginning parts u st) i) (beginning parts u st)) as [w res] eqn:R.
      cbn [l_rows snd]. rewrite <- app_assoc. reflexivity.
    + intros k m M. rewrite one_step_other by assumption. apply E. assumption.
Qed.

(** * Steps in a chain *)

Lemma time_look : forall V times parts inc u m (st : store V) i,
  match u KKin, st KKin (-2) with
  | Some _, Some v => kin_time inc (times v) i
  | _, _ => 0%Q
  end = time_of times inc (look parts u m st) i.
Proof.
  intros V times parts inc u m st i. unfold time_of, entity, look, in_use. cbn.
  destruct (u KKin); reflexivity.
Qed.

Lemma look_next : forall V parts u w res (st : store V),
  (exists s, res KSol = Some s) ->
  (forall k, in_use u k = true -> (exists a, w k = Some a) /\ (exists b, res k = Some b)) ->
  look parts u false (saver u (save_use u (-2)) res (leave u w st)) = next_view u w res.
Proof.
  intros V parts u w res st [s Hs] C. unfold look, next_view. cbn [andb]. f_equal.
  apply map_ext. intros k.
  assert (R : forall k, In k saved -> in_use u k = true ->
              saver u (save_use u (-2)) res (leave u w st) k (-2) = res k).
  { intros k0 I' U. destruct (C k0 U) as [_ [b Hb]]. rewrite Hb.
    apply saver_in with (n := -2) (e := -2); try assumption; try lia.
    unfold in_use in U. unfold save_use.
    destruct k0; cbn in I'; try (intuition discriminate); try reflexivity;
      destruct (u _); [reflexivity | discriminate | reflexivity | discriminate
        | reflexivity | discriminate | reflexivity | discriminate | reflexivity | discriminate]
      || (destruct (u _); [reflexivity | discriminate]). }
  assert (W : forall k, ~ In k saved -> in_use u k = true ->
              saver u (save_use u (-2)) res (leave u w st) k (-2) = w k).
  { intros k0 N U. destruct (C k0 U) as [[a Ha] _]. rewrite Ha.
    destruct (kind_eqb k0 KKin) eqn:B.
    - apply kind_eqb_eq in B. subst k0. rewrite saver_kin_back. unfold leave. rewrite U, Ha. reflexivity.
    - apply kind_eqb_neq in B. rewrite saver_kept by assumption. unfold leave. rewrite U, Ha. reflexivity. }
  destruct k; try reflexivity;
    try (destruct (in_use u _) eqn:U; [|reflexivity]; apply R; [cbn; tauto | assumption]);
    try (destruct (in_use u _) eqn:U; [|reflexivity]; apply W; [cbn; intuition discriminate | assumption]).
  rewrite Hs. apply saver_in with (n := -2) (e := -2); [cbn; tauto | reflexivity | assumption | lia].
Qed.

Lemma steps_chained : forall V times parts run u count n i (l : lstate V) v,
  complete u run -> i + Z.of_nat n - 1 <= count ->
  look parts u (i =? 1) (l_st l) = v -> 1 <= i ->
  l_rows (fold_left (one_step times parts run true u count) (from_ i n) l) =
  l_rows l ++ chained times run u v i (l_start l) n.
Proof.
  induction n as [|n IH]; intros i l v C B E I1; cbn [from_ fold_left chained].
  - rewrite app_nil_r. reflexivity.
  - destruct (run i (time_of times true v i) v) as [w res] eqn:R.
    destruct n as [|n].
    + cbn [from_ fold_left chained]. unfold one_step. rewrite andb_false_r. cbv zeta. cbn [negb orb].
      rewrite (time_look V times parts true u (i =? 1)), E, R. reflexivity.
    + rewrite IH with (v := next_view u w res); try assumption; try lia.
      * unfold one_step. rewrite andb_false_r. cbv zeta. cbn [negb orb].
        rewrite (time_look V times parts true u (i =? 1)), E, R.
        replace (i <? count) with true by lia. cbn [l_rows l_start].
        rewrite <- app_assoc. reflexivity.
      * replace (i + 1 =? 1) with false by lia.
        unfold one_step. rewrite andb_false_r. cbv zeta. cbn [negb orb].
        rewrite (time_look V times parts true u (i =? 1)), E, R.
        replace (i <? count) with true by lia. cbn [l_st].
        pose proof (C i (time_of times true v i) v) as [C1 C2]. rewrite R in C1, C2. cbn [fst snd] in C1, C2.
        apply look_next; assumption.
Qed.

Lemma steps_rows_length : forall V times parts run inc u count is (l : lstate V),
  length (l_rows (fold_left (one_step times parts run inc u count) is l)) =
  (length (l_rows l) + length is)%nat.
Proof.
  induction is as [|i is IH]; intros l; cbn [fold_left length]; [lia |].
  rewrite IH. unfold one_step. cbv zeta. destruct (run _ _ _) as [w res]. cbn [l_rows].
  rewrite app_length. cbn [length]. lia.
Qed.

Lemma from_length : forall n i, length (from_ i n) = n.
Proof. induction n as [|n IH]; intros i; cbn [from_ length]; [reflexivity | rewrite IH; reflexivity]. Qed.

Lemma from_snoc : forall n i, from_ i (S n) = from_ i n ++ [i + Z.of_nat n].
Proof.
  induction n as [|n IH]; intros i.
  - cbn. rewrite Z.add_0_r. reflexivity.
  - change (from_ i (S (S n))) with (i :: from_ (i + 1) (S n)). rewrite IH. cbn [from_ app].
    do 3 f_equal. lia.
Qed.

Lemma count_positive : forall V amounts u (st : store V), 1 <= count_steps amounts u st.
Proof.
  intros V amounts u st. unfold count_steps.
  assert (G : forall ks n, 1 <= n -> 1 <= fold_left (fun n k =>
    match u k with
    | Some m => match st k m with
                | Some v => Z.max n (steps_of (amounts k v))
                | None => n
                end
    | None => n
    end) ks n).
  { induction ks as [|k ks IH]; intros n H; cbn [fold_left]; [assumption |]. apply IH.
    destruct (u k); [|assumption]. destruct (st k z); [lia | assumption]. }
  apply G. lia.
Qed.

Lemma count_upper : forall V amounts u (st : store V) m, 1 <= m ->
  (forall k n v, In k [KRxn; KKin; KTemp; KPres] -> u k = Some n -> st k n = Some v -> steps_of (amounts k v) <= m) ->
  count_steps amounts u st <= m.
Proof.
  intros V amounts u st m M H. unfold count_steps.
  assert (G : forall ks n, n <= m -> (forall k, In k ks -> In k [KRxn; KKin; KTemp; KPres]) -> fold_left (fun n k =>
    match u k with
    | Some m => match st k m with
                | Some v => Z.max n (steps_of (amounts k v))
                | None => n
                end
    | None => n
    end) ks n <= m).
  { induction ks as [|k ks IH]; intros n L I'; cbn [fold_left]; [assumption |]. apply IH.
    - destruct (u k) as [z|] eqn:U; [|assumption]. destruct (st k z) as [v|] eqn:S'; [|assumption].
      specialize (H k z v (I' k (or_introl eq_refl)) U S'). lia.
    - intros k' X. apply I'. right. assumption. }
  apply G; [assumption | auto].
Qed.

Lemma count_lower : forall V amounts u (st : store V) k n v,
  In k [KRxn; KKin; KTemp; KPres] -> u k = Some n -> st k n = Some v ->
  steps_of (amounts k v) <= count_steps amounts u st.
Proof.
  intros V amounts u st k n v I' U S'. unfold count_steps.
  assert (G0 : forall ks n, n <= fold_left (fun n k =>
    match u k with
    | Some m => match st k m with
                | Some v => Z.max n (steps_of (amounts k v))
                | None => n
                end
    | None => n
    end) ks n).
  { induction ks as [|a ks IH]; intros x; cbn [fold_left]; [lia |].
    etransitivity; [|apply IH]. destruct (u a); [|lia]. destruct (st a z); lia. }
  assert (G : forall ks x, In k ks -> steps_of (amounts k v) <= fold_left (fun n k =>
    match u k with
    | Some m => match st k m with
                | Some v => Z.max n (steps_of (amounts k v))
                | None => n
                end
    | None => n
    end) ks x).
  { induction ks as [|a ks IH]; intros x J; [destruct J |]. cbn [fold_left].
    destruct J as [-> | J]; [|apply IH; assumption].
    etransitivity; [|apply G0]. rewrite U, S'. lia. }
  apply G. assumption.
Qed.

(** What the last step leaves at number -2, for the kinetics. *)
Lemma last_step_kin : forall V times parts run inc u count (l : lstate V) i,
  forall m, u KKin = Some m -> complete u run ->
  exists v w res t vw,
    run i t vw = (w, res) /\ w KKin = Some v /\
    l_rows (one_step times parts run inc u count l i) = l_rows l ++ [mkRow i t (w_clock (last (l_rows (one_step times parts run inc u count l i)) (mkRow 0 0%Q 0%Q (fun _ => None)))) res] /\
    l_st (one_step times parts run inc u count l i) KKin (-2) = Some v.
Proof.
  intros V times parts run inc u count l i m U C. unfold one_step. cbv zeta.
  set (st0 := if (1 <? i) && negb inc then copy_use u (-2) (l_st l) else l_st l). clearbody st0.
  set (t := match u KKin with Some _ => _ | None => 0%Q end). clearbody t.
  set (vw := look parts u (negb inc || (i =? 1)) st0). clearbody vw.
  pose proof (C i t vw) as [_ C2].
  destruct (run i t vw) as [w res] eqn:R. cbn [fst snd] in C2.
  assert (IU : in_use u KKin = true) by (unfold in_use; rewrite U; reflexivity).
  destruct (C2 KKin IU) as [[v Hv] _].
  exists v, w, res, t, vw. cbn [l_rows l_st]. repeat split; try assumption.
  - rewrite last_last. cbn [w_clock]. reflexivity.
  - destruct (i <? count); [rewrite saver_kin_back |]; unfold leave; rewrite IU, Hv; reflexivity.
Qed.

(** "v in" at the head of a line of times. *)
Lemma kin_in : forall v i w r, first_low w = Some "i"%char ->
  fold_left kin_token (Num v i :: Word w :: r) (mkKread (mkSched [] false 0) None O false false) =
  fold_left kin_token r (mkKread (mkSched [v] true 0) None O true false).
Proof.
  intros v i w r W. cbn [fold_left].
  change (kin_token (mkKread (mkSched [] false 0) None O false false) (Num v i))
    with (mkKread (mkSched [v] false 0) None O false false).
  f_equal. unfold kin_token. cbn [k_stop k_seek]. rewrite W. reflexivity.
Qed.

(** "v unit in" at the head of a line of times. *)
Lemma kin_unit_in : forall v i u w r c, first_low u = Some c -> Ascii.eqb c "i" = false ->
  first_low w = Some "i"%char ->
  fold_left kin_token (Num v i :: Word u :: Word w :: r) (mkKread (mkSched [] false 0) None O false false) =
  fold_left kin_token r (mkKread (mkSched [v] true 0) (Some u) O true false).
Proof.
  intros v i u w r c U C W. cbn [fold_left].
  change (kin_token (mkKread (mkSched [] false 0) None O false false) (Num v i))
    with (mkKread (mkSched [v] false 0) None O false false).
  assert (E : kin_token (mkKread (mkSched [v] false 0) None O false false) (Word u) =
              mkKread (mkSched [v] false 0) (Some u) O false false)
    by (unfold kin_token; cbn [k_stop k_seek]; rewrite U, C; reflexivity).
  rewrite E. f_equal. unfold kin_token. cbn [k_stop k_seek]. rewrite W. reflexivity.
Qed.

Lemma missing_some : forall V u (st : store V) k n, missing u st = Some (k, n) ->
  u k = Some n /\ st k n = None.
Proof.
  intros V u st k n H. unfold missing in H.
  assert (G : forall ks a, (forall k n, a = Some (k, n) -> u k = Some n /\ st k n = None) ->
    forall k n, fold_left (fun a k => match a with
                        | Some _ => a
                        | None => match u k with
                                  | Some n => match st k n with
                                              | Some _ => None
                                              | None => Some (k, n)
                                              end
                                  | None => None
                                  end
                        end) ks a = Some (k, n) -> u k = Some n /\ st k n = None).
  { induction ks as [|x ks IH]; intros a A k0 n0 F; cbn [fold_left] in F; [apply A; assumption |].
    eapply IH; [|exact F]. intros k1 n1 E. destruct a as [a|]; [apply A; assumption |].
    destruct (u x) as [z|] eqn:U; [|discriminate]. destruct (st x z) as [v|] eqn:S'; [discriminate |].
    injection E as <- <-. auto. }
  eapply G; [|exact H]. intros; discriminate.
Qed.
