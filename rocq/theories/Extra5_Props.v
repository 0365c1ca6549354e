(** Further theorems: C59 (related exchangers and surfaces), C74 (codes of characters), C93 (kinetics without steps). *)
From Coq Require Import String Ascii List ZArith QArith Bool Lia Lqa.
From Verif Require Import Qx Blend_Model Steps_Model Steps_Spec.
Import ListNotations.
Local Open Scope string_scope.
Local Open Scope list_scope.
Local Open Scope Q_scope.

Lemma related_phase p f1 f2 x y : p <> "" -> related p "" p "" f1 f2 x y = x * f1 + y * f2.
Proof. intros P. unfold related. rewrite String.eqb_refl. rewrite (proj2 (String.eqb_neq _ _) P). reflexivity. Qed.
Lemma related_rate r f1 f2 x y : r <> "" -> related "" r "" r f1 f2 x y = x * f1 + y * f2.
Proof. intros P. unfold related. rewrite !String.eqb_refl. rewrite (proj2 (String.eqb_neq _ _) P). reflexivity. Qed.
Lemma qeq_no e : ~ e == 0 -> qeq e 0 = false.
Proof. intros E. unfold qeq. destruct (Qeq_bool e 0) eqn:X; [apply Qeq_bool_iff in X; contradiction | reflexivity]. Qed.

(** C59: the proportion of exchange sites to a mineral or a kinetic reactant is, after mixing two exchangers related to the same one,
    halfway between theirs; without relation it stays as it is. *)
Theorem C59_related : forall a b e, ~ e == 0 -> e_formula b <> "" -> e_phase b = e_phase a -> e_rate b = e_rate a ->
  (e_phase a <> "" -> e_rate a = "" -> e_proportion (ex_add a b e) == (e_proportion a + e_proportion b) / 2) /\
  (e_phase a = "" -> e_rate a <> "" -> e_proportion (ex_add a b e) == (e_proportion a + e_proportion b) / 2) /\
  (e_phase a = "" -> e_rate a = "" -> e_proportion (ex_add a b e) == e_proportion a).
Proof.
  intros a b e E F P R. unfold ex_add. rewrite (qeq_no e E), (proj2 (String.eqb_neq _ _) F). cbn [orb e_proportion]. rewrite P, R.
  split; [|split]; intros A B.
  - rewrite B, related_phase by exact A. unfold Qdiv. change (/ 2) with (1 # 2). lra.
  - rewrite A, related_rate by exact B. unfold Qdiv. change (/ 2) with (1 # 2). lra.
  - rewrite A, B. reflexivity.
Qed.
Print Assumptions C59_related.

(** C59: that of surface sites is the average by sites. *)
Theorem C59_related_surface : forall a b e, ~ e == 0 -> u_formula b <> "" -> ~ u_moles a + u_moles b * e == 0 ->
  u_phase b = u_phase a -> u_rate b = u_rate a ->
  (u_phase a <> "" /\ u_rate a = "" \/ u_phase a = "" /\ u_rate a <> "" ->
    u_proportion (su_add a b e) * (u_moles a + u_moles b * e) == u_proportion a * u_moles a + u_proportion b * (u_moles b * e)) /\
  (u_phase a = "" -> u_rate a = "" -> u_proportion (su_add a b e) == u_proportion a).
Proof.
  intros a b e E F M P R. unfold su_add. rewrite (qeq_no e E), (proj2 (String.eqb_neq _ _) F). cbn [orb]. unfold weights.
  rewrite (qeq_no _ M). cbn [negb u_proportion]. rewrite P, R. split.
  - intros [[A B] | [A B]].
    + rewrite B, related_phase by exact A. field. exact M.
    + rewrite A, related_rate by exact B. field. exact M.
  - intros A B. rewrite A, B. reflexivity.
Qed.
Print Assumptions C59_related_surface.

Example C59_related_example :
  let a := mkEx "X" [] 0 0 "Calcite" "" (1 # 10) in
  e_proportion (ex_add a (mkEx "X" [] 0 0 "Calcite" "" (3 # 10)) 5) == 1 # 5.
Proof. reflexivity. Qed.

(** C93: kinetics without steps are run for one step of one second. *)
Theorem C93_empty : exists s, read_kin [] = (s, O) /\ steps_of s = 1%Z /\ forall inc, kin_time inc s 1 == 1.
Proof. eexists. split; [reflexivity|]. split; [reflexivity|]. intros []; reflexivity. Qed.
Print Assumptions C93_empty.
