From Coq Require Import ZArith List Bool Lia FinFun.
Import ListNotations.
From Verif Require Import Unit_Model.
Local Open Scope Z_scope.

Lemma is_open_in o u : is_open o u = true <-> In u o.
Proof.
  unfold is_open. rewrite existsb_exists. split.
  - intros (x & A & B). apply Z.eqb_eq in B. now subst.
  - intros H. exists u. split; auto. apply Z.eqb_refl.
Qed.

Lemma loop_some fuel o n u m : newunit_loop fuel o n = Some (u, m) ->
  n <= u /\ m = u + 1 /\ ~ In u o /\ (forall v, n <= v < u -> In v o).
Proof.
  revert n. induction fuel as [|f IH]; intros n H; simpl in H; [discriminate|].
  destruct (is_open o n) eqn:E.
  - apply IH in H as (A & B & C & D). split; [lia|]. split; [auto|]. split; [auto|].
    intros v Hv. destruct (Z.eq_dec v n) as [->|]; [now apply is_open_in|apply D; lia].
  - injection H as <- <-. split; [lia|]. split; [auto|]. split.
    + intros C. apply is_open_in in C. congruence.
    + intros; lia.
Qed.

Lemma loop_none fuel o n : newunit_loop fuel o n = None ->
  forall v, n <= v < n + Z.of_nat fuel -> In v o.
Proof.
  revert n. induction fuel as [|f IH]; intros n H v Hv; simpl in H; [lia|].
  destruct (is_open o n) eqn:E; [|discriminate].
  destruct (Z.eq_dec v n) as [->|]; [now apply is_open_in|].
  apply (IH _ H). lia.
Qed.

Lemma newunit_ok o n : exists u, my_newunit o n = Some (u, u + 1) /\
  n <= u /\ ~ In u o /\ (forall v, n <= v < u -> In v o).
Proof.
  unfold my_newunit. destruct (newunit_loop _ o n) as [[u m]|] eqn:E.
  - apply loop_some in E as (A & -> & B & C). exists u. auto.
  - exfalso. pose proof (loop_none _ _ _ E) as H.
    assert (I : incl (map (fun k => n + Z.of_nat k) (seq 0 (S (length o)))) o).
    { intros x Hx. apply in_map_iff in Hx as (k & <- & Hk). apply in_seq in Hk.
      apply H. lia. }
    assert (ND : NoDup (map (fun k => n + Z.of_nat k) (seq 0 (S (length o))))).
    { apply Injective_map_NoDup; [|apply seq_NoDup]. intros x y Hxy. lia. }
    pose proof (NoDup_incl_length ND I) as L. rewrite map_length, seq_length in L. lia.
Qed.

Definition inv (s : state) : Prop :=
  100 <= next s /\ NoDup (given s) /\ (forall u, In u (given s) -> 100 <= u < next s).

Lemma run_inv ops : forall s, inv s -> exists s', run s ops = Some s' /\ inv s'.
Proof.
  induction ops as [|o ops IH]; intros s H; simpl; [eauto|].
  destruct H as (A & B & C).
  destruct o as [|u|u]; simpl.
  - destruct (newunit_ok (opened s) (next s)) as (u & -> & D & E & F).
    apply IH. unfold inv; simpl. split; [lia|]. split.
    + constructor; auto. intros G. apply C in G. lia.
    + intros v [<-|G]; [lia|]. apply C in G. lia.
  - apply IH. unfold inv; simpl; auto.
  - apply IH. unfold inv; simpl; auto.
Qed.

Lemma unit_history ops :
  exists s, run init ops = Some s /\ NoDup (given s) /\
    exists u s', step s Request = Some s' /\ given s' = u :: given s /\
      opened s' = opened s /\ ~ In u (opened s) /\ ~ In u (given s) /\ 100 <= u.
Proof.
  destruct (run_inv ops init) as (s & A & B & C & D).
  { unfold inv, init; simpl. split; [lia|]. split; [constructor|tauto]. }
  exists s. split; [auto|]. split; [auto|].
  destruct (newunit_ok (opened s) (next s)) as (u & E & F & G & H).
  exists u. simpl. rewrite E. eexists. split; [reflexivity|]. simpl.
  split; [auto|]. split; [auto|]. split; [auto|]. split; [|lia].
  intros I. apply D in I. lia.
Qed.
