(** Further theorems on mixing of heat (C118), chosen variables (C91), onset of ponding (C49) and averages of mixtures (C58). *)
From Coq Require Import String List ZArith QArith Qabs Qround Bool Lia Lqa.
From Verif Require Import Qx Acct_Model Acct_Spec Infil_Model Blend_Model.
Import ListNotations.
Local Open Scope Q_scope.

(** C91: a variable per volume divides by the volume of the same metric: for the net amount, by the change of volume. *)
Theorem C91_volume : forall g n met conv area u v,
  (7 <= u <= 12)%Z ->
  v == (if (met =? 6)%Z then Acct_Model.vol g 5%Z - Acct_Model.vol g 1%Z else Acct_Model.vol g met) -> 0 < v ->
  exists z, var_sol g n met u conv area = VQ z /\
    z * v * 1000 == (if (met =? 6)%Z then mol g n 5%Z - mol g n 1%Z else mol g n met) * conv.
Proof.
  intros g n met conv area u v U V P.
  assert (E3 : (3 <= Z.quot (u - 1) 3 + 1 < 5)%Z).
  { rewrite Z.quot_div_nonneg by lia.
    assert (2 <= (u - 1) / 3 < 4)%Z; [| lia]. split; [apply Z.div_le_lower_bound; lia |].
    apply Z.div_lt_upper_bound; lia. }
  unfold var_sol. cbv zeta.
  replace (Z.quot (u - 1) 3 + 1 =? 1)%Z with false by lia.
  replace (Z.quot (u - 1) 3 + 1 =? 2)%Z with false by lia.
  replace (Z.quot (u - 1) 3 + 1 <? 5)%Z with true by lia.
  unfold var_vol, var_mol. change Acct_Model.c_fin with 5%Z. change Acct_Model.c_init with 1%Z.
  destruct (met =? 6)%Z eqn:M;
    rewrite qlt_true by (rewrite <- V; exact P); eexists; (split; [reflexivity|]); rewrite V; field; rewrite <- V; lra.
Qed.
Print Assumptions C91_volume.
Example C91_volume_case : var_sol (set_vol 1 1 (set_vol 5 3 (set_mol 1 5 8 Acct_Spec.empty))) 1 6 8 2 1 = VQ ((8 - 0) * 2 / (3 - 1) / 1000).
Proof. reflexivity. Qed.

(** C49: when the rain of a step exceeds the capacity at its start, infiltration is sought from the depth at its start plus half of
    the rain of the step. *)
Theorem C49_onset : forall expf logf p it rint dt s, irof s = false -> ~ cumf s == 0 -> capacity expf p (cumf s) < rint ->
  exists guess c t, guess == cumf s + rint * dt / 2 /\ t == (inject_Z it - 1) * dt /\
    (let x := newton expf logf p it dt t c 40 guess in
     snd (expinf expf logf p it rint dt s) = if qlt x (cumf s + rint * dt) then x - cumf s else rint * dt).
Proof.
  intros expf logf p it rint dt s I0 NZ L. unfold expinf. rewrite I0, (qeq_false _ _ NZ), (qlt_true _ _ L).
  unfold ponded, excess. cbv zeta. cbn [tp const].
  match goal with |- context [newton expf logf p it dt ?t ?c 40 ?g] => exists g, c, t end.
  split; [field|]. split; [reflexivity|]. unfold finish. cbn [cumf].
  match goal with |- context [qlt ?x ?y] => destruct (qlt x y) end; reflexivity.
Qed.
Print Assumptions C49_onset.

(** The average of two values by amount, or their mean when the amounts cancel. *)
Definition averaged (x a xa ya z : Q) : Prop :=
  (~ a + x == 0 -> z * (a + x) == a * xa + x * ya) /\ (a + x == 0 -> z == (xa + ya) / 2).

Lemma weights_average a x xa ya f1 f2 : weights a x = (f1, f2) -> averaged x a xa ya (xa * f1 + ya * f2).
Proof.
  unfold weights. destruct (qeq (a + x) 0) eqn:E; cbn [negb]; intros H; injection H as <- <-; qprop; split; intros N; try contradiction.
  - field.
  - field. exact N.
Qed.
Lemma weights_average' a x xa ya f1 f2 : weights a x = (f1, f2) -> averaged x a xa ya (f1 * xa + f2 * ya).
Proof.
  intros H. destruct (weights_average a x xa ya f1 f2 H) as [A B].
  split; intros N; [rewrite <- (A N) | rewrite <- (B N)]; ring.
Qed.

(** C58: in a mixture, saturation indices of phases, potentials of surfaces and pressures of gases are averages by amount; if there is no
    amount, or amounts cancel, they are plain means. *)
Theorem C58_averages :
  (forall a b e, ~ e == 0 -> p_name b <> ""%string -> p_formula a = p_formula b ->
     averaged (p_moles b * e) (p_moles a) (p_si a) (p_si b) (p_si (pp_add a b e)) /\
     averaged (p_moles b * e) (p_moles a) (p_si_org a) (p_si_org b) (p_si_org (pp_add a b e))) /\
  (forall a b e, ~ e == 0 -> u_formula b <> ""%string -> averaged (u_moles b * e) (u_moles a) (u_la a) (u_la b) (u_la (su_add a b e))) /\
  (forall a b e, ~ e == 0 -> h_name b <> ""%string ->
     averaged (h_area b * h_grams b * e) (h_area a * h_grams a) (h_area a) (h_area b) (h_area (ch_add a b e)) /\
     averaged (h_area b * h_grams b * e) (h_area a * h_grams a) (h_psi a) (h_psi b) (h_psi (ch_add a b e))) /\
  (forall a b e, ~ e == 0 -> g_name b <> ""%string ->
     averaged (g_moles b * e) (g_moles a) (g_p a) (g_p b) (g_p (ga_add a b e)) /\
     averaged (g_moles b * e) (g_moles a) (g_p_read a) (g_p_read b) (g_p_read (ga_add a b e)) /\
     averaged (g_moles b * e) (g_moles a) (g_phi a) (g_phi b) (g_phi (ga_add a b e)) /\
     averaged (g_moles b * e) (g_moles a) (g_f a) (g_f b) (g_f (ga_add a b e))).
Proof.
  assert (NB : forall n, n <> ""%string -> String.eqb n "" = false) by (intros n H; now apply String.eqb_neq).
  assert (QE : forall e, ~ e == 0 -> qeq e 0 = false) by (intros e H; now apply qeq_false).
  split; [|split; [|split]].
  - intros a b e E N F. unfold pp_add. rewrite (QE e E), (NB _ N). cbn [orb].
    destruct (weights (p_moles a) (p_moles b * e)) as [f1 f2] eqn:W. rewrite F, String.eqb_refl. cbn [negb p_si p_si_org].
    split; apply weights_average; exact W.
  - intros a b e E N. unfold su_add. rewrite (QE e E), (NB _ N). cbn [orb].
    destruct (weights (u_moles a) (u_moles b * e)) as [f1 f2] eqn:W. cbn [u_la]. apply weights_average'; exact W.
  - intros a b e E N. unfold ch_add. rewrite (QE e E), (NB _ N), andb_false_r. cbn [orb].
    destruct (weights (h_area a * h_grams a) (h_area b * h_grams b * e)) as [f1 f2] eqn:W. cbn [h_area h_psi].
    split; [apply weights_average' | apply weights_average]; exact W.
  - intros a b e E N. unfold ga_add. rewrite (QE e E), (NB _ N). cbn [orb].
    destruct (weights (g_moles a) (g_moles b * e)) as [f1 f2] eqn:W. cbn [g_p g_p_read g_phi g_f].
    repeat match goal with |- _ /\ _ => split end; apply weights_average; exact W.
Qed.
Print Assumptions C58_averages.
Example C58_averages_case : let a := mkPp "Calcite" "" 1 1 0 0 0 in let b := mkPp "Calcite" "" 2 2 0 0 0 in p_si (pp_add a b 3) == 3 / 2.
Proof. reflexivity. Qed.
