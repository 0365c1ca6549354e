(** Boolean comparisons on exact rationals used by the models of Fortran/C++ REAL code,
    conversion lemmas and truncation. *)
From Coq Require Import QArith Qround ZArith Bool List Lqa Lia.
Import ListNotations.
Local Open Scope Q_scope.

(** Fortran [.LE.], [.LT.], [.GE.], [.GT.], [.EQ.] on REAL. *)
Definition qle (a b : Q) : bool := Qle_bool a b.
Definition qlt (a b : Q) : bool := negb (Qle_bool b a).
Definition qeq (a b : Q) : bool := Qeq_bool a b.

(** Fortran conversion REAL -> INTEGER: truncation towards zero. *)
Definition trunc (q : Q) : Z := if qle 0 q then Qfloor q else Qceiling q.

Definition qmin (a b : Q) : Q := if qle a b then a else b.
Definition qmax (a b : Q) : Q := if qle a b then b else a.

Fixpoint qsum (l : list Q) : Q := match l with [] => 0 | x :: r => x + qsum r end.

Lemma qle_t a b : qle a b = true -> a <= b.
Proof. unfold qle; intros; now apply Qle_bool_iff. Qed.
Lemma qle_f a b : qle a b = false -> b < a.
Proof.
  unfold qle; intros H. apply Qnot_le_lt. intros C. apply Qle_bool_iff in C. congruence.
Qed.
Lemma qlt_t a b : qlt a b = true -> a < b.
Proof. unfold qlt; intros H. apply negb_true_iff in H. now apply qle_f. Qed.
Lemma qlt_f a b : qlt a b = false -> b <= a.
Proof. unfold qlt; intros H. apply negb_false_iff in H. now apply qle_t. Qed.
Lemma qeq_t a b : qeq a b = true -> a == b.
Proof. unfold qeq; intros; now apply Qeq_bool_iff. Qed.
Lemma qeq_f a b : qeq a b = false -> ~ a == b.
Proof. unfold qeq; intros H C. apply Qeq_bool_iff in C. congruence. Qed.

Lemma qle_true a b : a <= b -> qle a b = true.
Proof. intros; now apply Qle_bool_iff. Qed.
Lemma qle_false a b : b < a -> qle a b = false.
Proof. intros H. destruct (qle a b) eqn:E; auto. apply qle_t in E. lra. Qed.
Lemma qlt_true a b : a < b -> qlt a b = true.
Proof. intros. unfold qlt. now rewrite qle_false. Qed.
Lemma qlt_false a b : b <= a -> qlt a b = false.
Proof. intros. unfold qlt. now rewrite qle_true. Qed.
Lemma qeq_true a b : a == b -> qeq a b = true.
Proof. intros; now apply Qeq_bool_iff. Qed.
Lemma qeq_false a b : ~ a == b -> qeq a b = false.
Proof. intros H. destruct (qeq a b) eqn:E; auto. apply qeq_t in E. tauto. Qed.

(** Turn every boolean comparison hypothesis into an inequality. *)
Ltac qprop :=
  repeat match goal with
  | H : qle _ _ = true |- _ => apply qle_t in H
  | H : qle _ _ = false |- _ => apply qle_f in H
  | H : qlt _ _ = true |- _ => apply qlt_t in H
  | H : qlt _ _ = false |- _ => apply qlt_f in H
  | H : qeq _ _ = true |- _ => apply qeq_t in H
  | H : qeq _ _ = false |- _ => apply qeq_f in H
  | H : _ && _ = true |- _ => apply andb_true_iff in H; destruct H
  | H : _ || _ = false |- _ => apply orb_false_iff in H; destruct H
  end.

(** Split on the first comparison of the goal. *)
Ltac qif :=
  match goal with
  | |- context [if ?b then _ else _] =>
      match b with
      | context [if _ then _ else _] => fail 1
      | _ => destruct b eqn:?
      end
  end.

Lemma qmin_l a b : qmin a b <= a.
Proof. unfold qmin; qif; qprop; lra. Qed.
Lemma qmin_r a b : qmin a b <= b.
Proof. unfold qmin; qif; qprop; lra. Qed.

Lemma trunc_floor q : 0 <= q -> trunc q = Qfloor q.
Proof. intros; unfold trunc; now rewrite qle_true. Qed.

Lemma floor_ge (z : Z) q : inject_Z z <= q -> (z <= Qfloor q)%Z.
Proof. intros H. rewrite <- (Qfloor_Z z). now apply Qfloor_resp_le. Qed.
Lemma floor_lt (z : Z) q : q < inject_Z z -> (Qfloor q < z)%Z.
Proof.
  intros H. apply Z.nle_gt; intros C.
  assert (inject_Z z <= inject_Z (Qfloor q)) by (rewrite <- Zle_Qle; auto).
  pose proof (Qfloor_le q). lra.
Qed.
Lemma floor_bounds q : inject_Z (Qfloor q) <= q /\ q < inject_Z (Qfloor q) + 1.
Proof.
  split; [apply Qfloor_le|]. pose proof (Qlt_floor q).
  rewrite inject_Z_plus in H. exact H.
Qed.

Lemma qsum_app a b : qsum (a ++ b) == qsum a + qsum b.
Proof. induction a; simpl; [ring|]. rewrite IHa; ring. Qed.
