(** Correctness of the bubble sort and order facts about strings. *)
From Coq Require Import String Ascii List Arith NArith Lia Sorted Permutation Bool.
From Verif Require Import CStr_Model Sort_Model.
Import ListNotations.

Definition sle (a b : string) : Prop := String.compare a b <> Gt.
Definition slt (a b : string) : Prop := String.compare a b = Lt.

Lemma acompare_eq : forall a b : ascii, Ascii.compare a b = Eq -> a = b.
Proof. intros a b; apply Ascii.compare_eq_iff. Qed.

Lemma scompare_refl : forall a, String.compare a a = Eq.
Proof.
  induction a as [|c a IH]; cbn; auto.
  unfold Ascii.compare; rewrite N.compare_refl; auto.
Qed.

Lemma scompare_eq : forall a b, String.compare a b = Eq <-> a = b.
Proof. split; [apply String.compare_eq_iff | intros ->; apply scompare_refl]. Qed.

Lemma scompare_trans : forall c a b d,
  String.compare a b = c -> String.compare b d = c -> String.compare a d = c.
Proof.
  intros c a; induction a as [|x a IH]; intros [|y b] [|z d] H1 H2; cbn in *; try congruence.
  unfold Ascii.compare in *.
  destruct (N.compare (N_of_ascii x) (N_of_ascii y)) eqn:E1;
  destruct (N.compare (N_of_ascii y) (N_of_ascii z)) eqn:E2;
  rewrite ?N.compare_eq_iff, ?N.compare_lt_iff, ?N.compare_gt_iff in *;
  destruct (N.compare (N_of_ascii x) (N_of_ascii z)) eqn:E3;
  rewrite ?N.compare_eq_iff, ?N.compare_lt_iff, ?N.compare_gt_iff in *;
  try lia; try congruence; eauto.
  all: subst c; try congruence; lia.
Qed.

Lemma slt_trans : forall a b c, slt a b -> slt b c -> slt a c.
Proof. unfold slt; eauto using scompare_trans. Qed.

Lemma slt_irrefl : forall a, ~ slt a a.
Proof. unfold slt; intros a; rewrite scompare_refl; discriminate. Qed.

Lemma sle_lt_eq : forall a b, sle a b <-> slt a b \/ a = b.
Proof.
  unfold sle, slt; intros a b; destruct (String.compare a b) eqn:E; split; intros H;
    try tauto; try congruence.
  - right; apply scompare_eq; auto.
  - destruct H as [|H]; try congruence; subst; rewrite scompare_refl in E; discriminate.
Qed.

Lemma sle_refl : forall a, sle a a.
Proof. intros; apply sle_lt_eq; auto. Qed.

Lemma sle_trans : forall a b c, sle a b -> sle b c -> sle a c.
Proof.
  intros a b c; rewrite !sle_lt_eq; intros [|] [|]; subst; eauto using slt_trans.
Qed.

Lemma sgt_slt : forall a b, String.compare a b = Gt <-> slt b a.
Proof.
  intros; unfold slt; rewrite (String.compare_antisym b a).
  destruct (String.compare a b); cbn; split; congruence.
Qed.

Lemma seqb_compare : forall a b, String.eqb a b = true <-> String.compare a b = Eq.
Proof. intros; rewrite String.eqb_eq, scompare_eq; tauto. Qed.

Section Correct.
Context {A : Type} (key : A -> string) (gt : A -> A -> outcome bool) (P : A -> Prop).
Hypothesis gt_spec : forall a b, P a -> P b -> gt a b = Ret (strcmp_pos (key a) (key b)).

Definition kle (a b : A) : Prop := sle (key a) (key b).

Lemma pass_spec : forall n l, n < length l -> Forall P l ->
  exists p m s, bubble_pass gt n l = Ret (p ++ m :: s) /\ length p = n /\
    s = skipn (S n) l /\ Permutation (p ++ [m]) (firstn (S n) l) /\ Forall (fun x => kle x m) p.
Proof.
  induction n as [|n IH]; intros l L F.
  - destruct l as [|a r]; cbn in L; [lia|]. exists [], a, r; cbn; repeat split; auto.
  - destruct l as [|a [|b r]]; cbn in L; try lia.
    inversion F as [|? ? Pa F']; subst; inversion F' as [|? ? Pb F'']; subst.
    cbn [bubble_pass]; rewrite gt_spec by auto; cbn [bind].
    unfold strcmp_pos; destruct (String.compare (key a) (key b)) eqn:E.
    1,2: destruct (IH (b :: r)) as (p & m & s & E1 & Lp & -> & Pm & Fm); [cbn; lia | auto |];
      rewrite E1; cbn [bind]; exists (a :: p), m, (skipn (S n) (b :: r)); repeat split;
      [cbn; lia | cbn [firstn]; rewrite <- Pm; reflexivity | constructor; [|auto]];
      assert (I : In b (p ++ [m])) by (rewrite Pm; left; reflexivity);
      apply in_app_iff in I; destruct I as [I|[->|[]]];
      [ eapply sle_trans with (key b); [unfold sle; congruence | rewrite Forall_forall in Fm; apply Fm; auto]
      | unfold kle, sle; congruence ].
    destruct (IH (a :: r)) as (p & m & s & E1 & Lp & -> & Pm & Fm); [cbn; lia | auto |].
    rewrite E1; cbn [bind]; exists (b :: p), m, (skipn (S n) (a :: r)); repeat split.
    + cbn; lia.
    + cbn [firstn] in *. rewrite <- app_comm_cons, Pm. apply perm_swap.
    + constructor; [|auto].
      apply sgt_slt in E.
      assert (I : In a (p ++ [m])) by (rewrite Pm; left; reflexivity).
      apply in_app_iff in I; destruct I as [I|[->|[]]].
      * eapply sle_trans with (key a); [apply sle_lt_eq; auto | rewrite Forall_forall in Fm; apply Fm; auto].
      * apply sle_lt_eq; auto.
Qed.

Lemma bubble_from_spec : forall k l t, length l = S k -> Forall P (l ++ t) ->
  StronglySorted kle t -> (forall x y, In x l -> In y t -> kle x y) ->
  exists l', bubble_from gt k (l ++ t) = Ret l' /\ Permutation l' (l ++ t) /\ StronglySorted kle l'.
Proof.
  induction k as [|k IH]; intros l t L F S1 O.
  - destruct l as [|a [|]]; cbn in L; try lia. exists (a :: t); cbn; repeat split; auto.
    constructor; auto. apply Forall_forall; intros; apply O; cbn; auto.
  - cbn [bubble_from].
    destruct (pass_spec (S k) (l ++ t)) as (p & m & s & E & Lp & Es & Pm & Fm);
      [rewrite app_length; lia | auto |].
    assert (Efn : firstn (S (S k)) (l ++ t) = l).
    { rewrite <- L, firstn_app, Nat.sub_diag, firstn_all, firstn_O, app_nil_r; reflexivity. }
    assert (Esn : skipn (S (S k)) (l ++ t) = t).
    { rewrite <- L, skipn_app, Nat.sub_diag, skipn_all; reflexivity. }
    rewrite Efn in Pm; rewrite Esn in Es; subst s.
    rewrite E; cbn [bind].
    assert (Pf : Permutation (p ++ m :: t) (l ++ t)).
    { change (m :: t) with ([m] ++ t). rewrite app_assoc, Pm. reflexivity. }
    destruct (IH p (m :: t)) as (l' & E' & P' & S').
    + auto.
    + rewrite Forall_forall in *; intros x I; apply F. rewrite <- Pf; auto.
    + constructor; auto. apply Forall_forall; intros; apply O; auto.
      rewrite <- Pm. apply in_app_iff; right; left; auto.
    + intros x y Ix [->|Iy].
      * rewrite Forall_forall in Fm; auto.
      * apply O; auto. rewrite <- Pm; apply in_app_iff; auto.
    + exists l'; split; [exact E'|split; auto]. rewrite P'; auto.
Qed.

Lemma bubble_sort_spec : forall l, Forall P l ->
  exists l', bubble_sort gt l = Ret l' /\ Permutation l' l /\ StronglySorted kle l'.
Proof.
  intros [|a l] F; unfold bubble_sort.
  - exists []; cbn; repeat constructor.
  - destruct (bubble_from_spec (length l) (a :: l) []) as (l' & E & Pm & S').
    + reflexivity.
    + rewrite app_nil_r; auto.
    + constructor.
    + intros ? ? ? [].
    + rewrite app_nil_r in *. exists l'.
      replace (length (a :: l) - 1) with (length l) by (cbn; lia). auto.
Qed.

(** With distinct keys the sorted order is strict. *)
Lemma sorted_strict : forall l, StronglySorted kle l -> NoDup (map key l) ->
  StronglySorted (fun a b => slt (key a) (key b)) l.
Proof.
  induction 1 as [|a l S1 IH F]; intros N; constructor; inversion N; subst; auto.
  rewrite Forall_forall in *; intros x I.
  destruct (proj1 (sle_lt_eq _ _) (F x I)) as [|Eq]; auto.
  exfalso; apply H1. rewrite Eq; apply in_map; auto.
Qed.
End Correct.
