(** A further theorem on mixing of heat (C118). *)
From Coq Require Import List ZArith QArith Qabs Qround Bool Lia Lqa.
From Verif Require Import Qx Trans_Model.
Import ListNotations.
Local Open Scope Z_scope.

(** C118: heat is exchanged between cells exactly when there are two cells or more, heat conducts better than solutes diffuse, some cell
    or the solution after the last cell is more than a degree from solution 0, and some factor is above zero. *)
Theorem C118_takes_place : forall p heat tempr nmix temp,
  fst (init_heat p heat tempr nmix temp) <> 0 <->
  ((diffc p < heat)%Q /\ (2 <= cells p)%nat /\
   (exists i, (1 <= i <= S (cells p))%nat /\ (1 < Qabs (temp i - temp 0%nat))%Q) /\
   zero (fold_left larger (heat_factors p heat tempr nmix) 0%Q) = false /\
   1 + Qfloor (3 * fold_left larger (heat_factors p heat tempr nmix) 0%Q) <> 0).
Proof.
  intros p heat tempr nmix temp.
  assert (U : uneven p temp = true <-> exists i, (1 <= i <= S (cells p))%nat /\ (1 < Qabs (temp i - temp 0%nat))%Q).
  { unfold uneven. rewrite existsb_exists. split.
    - intros (i & IN & N). rewrite in_seq in IN. exists i. split; [lia|]. apply negb_true_iff in N. now apply qle_f.
    - intros (i & R & N). exists i. rewrite in_seq. split; [lia|]. apply negb_true_iff. now apply qle_false. }
  unfold init_heat. change (Qle_bool heat (diffc p)) with (qle heat (diffc p)).
  destruct (qle heat (diffc p)) eqn:A; qprop; cbn [orb].
  { cbn [fst]. split; [congruence|]. intros (H & _). lra. }
  destruct (cells p <? 2)%nat eqn:B; cbn [orb].
  { cbn [fst]. apply Nat.ltb_lt in B. split; [congruence|]. intros (_ & H & _). lia. }
  apply Nat.ltb_ge in B.
  destruct (uneven p temp) eqn:C; cbn [negb].
  - cbv zeta. destruct (zero (fold_left larger (heat_factors p heat tempr nmix) 0%Q)) eqn:D; cbn [fst].
    + split; [congruence|]. intros (_ & _ & _ & H & _). congruence.
    + split; [intros H; tauto | tauto].
  - cbn [fst]. split; [congruence|]. intros (_ & _ & H & _). apply U in H. congruence.
Qed.
Print Assumptions C118_takes_place.
