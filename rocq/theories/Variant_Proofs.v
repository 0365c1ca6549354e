(** Proofs for C29. *)
From Coq Require Import String ZArith QArith Bool List Lia ZifyBool.
From Verif Require Import Variant_Model Variant_Spec.
Import ListNotations.
Local Open Scope string_scope.
Local Open Scope list_scope.
Local Open Scope Z_scope.

Lemma upd_eq {A} (f : Z -> A) k x : upd f k x k = x.
Proof. unfold upd. rewrite Z.eqb_refl. reflexivity. Qed.
Lemma upd_neq {A} (f : Z -> A) k x j : j <> k -> upd f k x j = f j.
Proof. intros N. unfold upd. replace (j =? k) with false by lia. reflexivity. Qed.

Record inv (s : state) (w : values) : Prop := {
  i_reads : forall v, reads s v (w v);
  i_excl : exclusive s;
  i_leak : no_leak s;
  i_next : forall a, next s <= a -> heap s a = Unused }.

(** After the storage of [v] has been given up: like the invariant, with [v] holding no buffer. *)
Lemma clear_ok s w v : inv s w -> w v <> Absent ->
  exists s', var_clear s v = Some (s', VR_OK) /\ inv s' (upd w v VEmpty).
Proof.
  intros I N. pose proof (i_reads s w I v) as R. unfold reads in R. unfold var_clear.
  assert (PLAIN : (forall p, vars s v <> Str (Some p)) -> inv (var_init s v) (upd w v VEmpty)).
  { intros P. constructor.
    - intros u. unfold reads, var_init, set_var. cbn. unfold upd. destruct (u =? v) eqn:E; [reflexivity|].
      exact (i_reads s w I u).
    - intros u x a. unfold var_init, set_var. cbn. unfold upd. destruct (u =? v); [discriminate|]. destruct (x =? v); [discriminate|].
      apply (i_excl s w I).
    - intros a t L. cbn in L. destruct (i_leak s w I a t L) as [u U]. exists u. unfold var_init, set_var. cbn.
      rewrite upd_neq; [exact U|]. intros ->. apply (P a U).
    - exact (i_next s w I). }
  destruct (vars s v) as [|c|n|x|[a|]|] eqn:E; cbn [free_string].
  1-4: (eexists; split; [reflexivity|]; apply PLAIN; discriminate).
  - destruct R as (t & L & _). rewrite L. eexists. split; [reflexivity|]. constructor.
    + intros u. unfold reads, var_init, set_var. cbn. destruct (Z.eq_dec u v) as [->|Q1]; [rewrite !upd_eq; reflexivity|].
      rewrite (upd_neq (vars s) v) by exact Q1. rewrite (upd_neq w v) by exact Q1.
      pose proof (i_reads s w I u) as Ru. unfold reads in Ru. destruct (vars s u) as [| | | |[b|]|] eqn:U; try exact Ru.
      destruct Ru as (t' & L' & X). exists t'. split; [|exact X]. rewrite upd_neq; [exact L'|]. intros ->.
      exact (Q1 (i_excl s w I u v a U E)).
    + intros u x b. unfold var_init, set_var. cbn. unfold upd. destruct (u =? v); [discriminate|]. destruct (x =? v); [discriminate|].
      apply (i_excl s w I).
    + intros b t' L'. unfold var_init, set_var in L'. cbn in L'. unfold upd in L'. destruct (b =? a) eqn:Q1; [discriminate|].
      destruct (i_leak s w I b t' L') as [u U]. exists u. unfold var_init, set_var. cbn. rewrite upd_neq; [exact U|].
      intros ->. rewrite E in U. injection U as ->. lia.
    + intros b B. unfold var_init, set_var. cbn. unfold var_init, set_var in B. cbn in B. rewrite upd_neq; [apply (i_next s w I); exact B|].
      intros ->. rewrite (i_next s w I a B) in L. discriminate.
  - eexists. split; [reflexivity|]. apply PLAIN. discriminate.
  - rewrite R in N. contradiction.
Qed.
(** Giving a variant without buffer a plain value. *)
Definition plain (x : var) (y : value) : Prop :=
  match x with
  | Empty => y = VEmpty | Error c => y = VError c | Long n => y = VLong n | Double q => y = VDouble q
  | Str None => y = VString None | Bad => y = Absent | Str (Some _) => False
  end.
Definition bufferless (s : state) (v : Z) : Prop := forall a, vars s v <> Str (Some a).
Lemma value_bufferless s w v : inv s w -> (forall t, w v <> VString (Some t)) -> bufferless s v.
Proof.
  intros I N a E. pose proof (i_reads s w I v) as R. unfold reads in R. rewrite E in R. destruct R as (t & _ & R). apply (N t R).
Qed.
Lemma set_plain s w v x y : inv s w -> bufferless s v -> plain x y -> inv (set_var s v x) (upd w v y).
Proof.
  intros I B P. constructor.
  - intros u. unfold reads, set_var. cbn. unfold upd. destruct (u =? v); [|exact (i_reads s w I u)].
    destruct x as [| | | |[a|]|]; exact P || destruct P.
  - intros u u' a. unfold set_var. cbn. unfold upd. destruct (u =? v) eqn:E1.
    + intros ->. destruct P.
    + destruct (u' =? v) eqn:E2; [intros _ ->; destruct P | apply (i_excl s w I)].
  - intros a t L. cbn in L. destruct (i_leak s w I a t L) as [u U]. exists u. unfold set_var. cbn. rewrite upd_neq; [exact U|].
    intros ->. apply (B a U).
  - exact (i_next s w I).
Qed.
(** Giving it a fresh buffer. *)
Lemma set_fresh s w v t : inv s w -> bufferless s v ->
  inv (set_var (mkS (upd (heap s) (next s) (Live t)) (next s + 1) (vars s)) v (Str (Some (next s)))) (upd w v (VString (Some t))).
Proof.
  intros I B.
  assert (FR : forall u a, vars s u = Str (Some a) -> a <> next s).
  { intros u a U ->. pose proof (i_reads s w I u) as R. unfold reads in R. rewrite U in R. destruct R as (t' & L & _).
    rewrite (i_next s w I) in L by lia. discriminate. }
  constructor.
  - intros u. unfold reads, set_var. cbn. destruct (Z.eq_dec u v) as [->|E].
    + rewrite !(upd_eq _ v). exists t. split; [apply upd_eq | reflexivity].
    + rewrite (upd_neq (vars s) v) by exact E. rewrite (upd_neq w v) by exact E. pose proof (i_reads s w I u) as R. unfold reads in R. destruct (vars s u) as [| | | |[a|]|] eqn:U; try exact R.
      destruct R as (t' & L & X). exists t'. split; [|exact X]. rewrite upd_neq; [exact L | apply (FR u a U)].
  - intros u u' a. unfold set_var. cbn. unfold upd. destruct (u =? v) eqn:E1, (u' =? v) eqn:E2.
    + lia.
    + intros [= <-] U. exfalso. apply (FR u' (next s) U). reflexivity.
    + intros U [= <-]. exfalso. apply (FR u (next s) U). reflexivity.
    + apply (i_excl s w I).
  - intros a t' L. unfold set_var in L. cbn in L. unfold upd in L. destruct (a =? next s) eqn:E.
    + exists v. unfold set_var. cbn. rewrite upd_eq. do 2 f_equal. lia.
    + destruct (i_leak s w I a t' L) as [u U]. exists u. unfold set_var. cbn. rewrite upd_neq; [exact U|]. intros ->. apply (B a U).
  - intros a L. unfold set_var in *. cbn in *. rewrite upd_neq by lia. apply (i_next s w I). lia.
Qed.
Lemma set_string_ok s w v t ok : inv s w -> bufferless s v -> inv (set_string s v t ok) (upd w v (string_value t ok)).
Proof.
  intros I B. unfold set_string, alloc_string, string_value. destruct t as [t|]; [destruct ok|].
  - apply set_fresh; assumption.
  - apply set_plain; [assumption | assumption | reflexivity].
  - apply set_plain; [assumption | assumption | reflexivity].
Qed.

(** The functions of [vars] and values need only be compared pointwise. *)
Lemma inv_ext s w w' : inv s w -> (forall v, w v = w' v) -> inv s w'.
Proof. intros [A B C D] E. constructor; try assumption. intros v. rewrite <- E. apply A. Qed.
Lemma inv_upd2 s w v x y : inv s (upd (upd w v x) v y) -> inv s (upd w v y).
Proof. intros I. apply (inv_ext _ _ _ I). intros u. unfold upd. destruct (u =? v); reflexivity. Qed.

Lemma copy_ok s w v src ok : inv s w -> w v <> Absent -> w src <> Absent -> v <> src ->
  exists s', internal_copy s v src ok = Some s' /\ inv s' (upd w v (copied (w src) ok)).
Proof.
  intros I N NS D. unfold internal_copy, var_copy. destruct (clear_ok s w v I N) as (s1 & E & I1). rewrite E.
  pose proof (i_reads _ _ I1 src) as R. rewrite upd_neq in R by congruence. unfold reads in R.
  assert (B : bufferless s1 v) by (apply (value_bufferless _ _ _ I1); intros t; rewrite upd_eq; discriminate).
  destruct (vars s1 src) as [|c|n|x|[a|]|] eqn:U.
  1-4: (eexists; split; [reflexivity|]; rewrite R; cbn [copied Z.eqb VR_OK];
        apply (inv_upd2 _ _ _ VEmpty); apply set_plain; [exact I1 | exact B | reflexivity]).
  - destruct R as (t & L & X). cbn [read_string]. rewrite L. unfold alloc_string. destruct ok; rewrite X; cbn [copied string_value].
    + eexists. split; [reflexivity|]. apply (inv_upd2 _ _ _ VEmpty). apply set_fresh; assumption.
    + eexists. split; [reflexivity|]. cbn. apply (inv_upd2 _ _ _ (VError VR_OUTOFMEMORY)). apply set_plain.
      * apply (inv_upd2 _ _ _ VEmpty). apply set_plain; [exact I1 | exact B | reflexivity].
      * intros a'. unfold set_var. cbn. rewrite upd_eq. discriminate.
      * reflexivity.
  - eexists. split; [reflexivity|]. rewrite R. cbn [copied string_value Z.eqb VR_OK]. apply (inv_upd2 _ _ _ VEmpty).
    apply set_plain; [exact I1 | exact B | reflexivity].
  - rewrite R in NS. contradiction.
Qed.

Lemma step_ok s w o : inv s w -> allowed w o -> exists s', step s o = Some s' /\ inv s' (effect w o).
Proof.
  intros I A.
  assert (AB : forall v, w v = Absent -> bufferless s v) by (intros v E; apply (value_bufferless _ _ _ I); intros t; congruence).
  destruct o as [v|v src ok|v x|v n|v t ok|v src ok|v x|v t ok|v ok|v|v]; cbn [step effect allowed] in *.
  - eexists. split; [reflexivity|]. apply set_plain; [exact I | apply AB; exact A | reflexivity].
  - destruct A as [A1 A2].
    assert (D : v <> src) by congruence.
    assert (I1 : inv (set_var s v Empty) (upd w v VEmpty)) by (apply set_plain; [exact I | apply AB; exact A1 | reflexivity]).
    destruct (copy_ok _ _ v src ok I1) as (s' & E & I2); [rewrite upd_eq; discriminate | rewrite upd_neq by congruence; exact A2 | exact D|].
    exists s'. split; [exact E|]. rewrite (upd_neq _ _ _ src) in I2 by congruence. apply (inv_upd2 _ _ _ VEmpty). exact I2.
  - eexists. split; [reflexivity|]. apply set_plain; [exact I | apply AB; exact A | reflexivity].
  - eexists. split; [reflexivity|]. apply set_plain; [exact I | apply AB; exact A | reflexivity].
  - assert (I1 : inv (set_var s v Empty) (upd w v VEmpty)) by (apply set_plain; [exact I | apply AB; exact A | reflexivity]).
    destruct (clear_ok _ _ v I1) as (s1 & E & I2); [rewrite upd_eq; discriminate|]. rewrite E. eexists. split; [reflexivity|].
    apply (inv_upd2 _ _ _ VEmpty). apply (inv_upd2 _ _ _ VEmpty). apply set_string_ok; [exact I2|].
    apply (value_bufferless _ _ _ I2). intros u. rewrite upd_eq. discriminate.
  - destruct A as (A1 & A2 & A3). apply copy_ok; assumption.
  - assert (G : exists s1 r, var_clear s v = Some (s1, r) /\ inv s1 (upd w v VEmpty)).
    { destruct (clear_ok s w v I A) as (s1 & E & I1). eauto. }
    destruct G as (s1 & r & E & I1).
    assert (I2 : inv (set_var s1 v (Double x)) (upd w v (VDouble x))).
    { apply (inv_upd2 _ _ _ VEmpty). apply set_plain; [exact I1 | | reflexivity]. apply (value_bufferless _ _ _ I1). intros u. rewrite upd_eq. discriminate. }
    destruct (vars s v) eqn:V; try (rewrite E; eexists; split; [reflexivity | exact I2]).
    eexists. split; [reflexivity|]. apply set_plain; [exact I | intros a; rewrite V; discriminate | reflexivity].
  - destruct (clear_ok s w v I A) as (s1 & E & I1). rewrite E. eexists. split; [reflexivity|].
    apply (inv_upd2 _ _ _ VEmpty). apply set_string_ok; [exact I1|]. apply (value_bufferless _ _ _ I1). intros u. rewrite upd_eq. discriminate.
  - destruct A.
  - destruct (clear_ok s w v I A) as (s1 & E & I1). rewrite E. eexists. split; [reflexivity | exact I1].
  - destruct (clear_ok s w v I A) as (s1 & E & I1). rewrite E. eexists. split; [reflexivity|].
    apply (inv_upd2 _ _ _ VEmpty). apply set_plain; [exact I1 | | reflexivity]. apply (value_bufferless _ _ _ I1). intros u. rewrite upd_eq. discriminate.
Qed.
Lemma start_inv : inv start nothing.
Proof.
  constructor; [reflexivity | intros u u' a; discriminate | intros a t; discriminate | reflexivity].
Qed.
Lemma run_inv l : forall s w, inv s w -> all_allowed w l -> exists s', run s l = Some s' /\ inv s' (effects w l).
Proof.
  induction l as [|o r IH]; intros s w I A; [exists s; auto|]. destruct A as [A1 A2].
  destruct (step_ok s w o I A1) as (s1 & E & I1). cbn [run effects]. rewrite E. apply IH; assumption.
Qed.
Lemma run_ok l : all_allowed nothing l ->
  exists s, run start l = Some s /\ (forall v, reads s v (effects nothing l v)) /\ exclusive s /\ no_leak s.
Proof.
  intros A. destruct (run_inv l start nothing start_inv A) as (s & E & I). exists s. split; [exact E|].
  split; [apply (i_reads _ _ I)|]. split; [apply (i_excl _ _ I) | apply (i_leak _ _ I)].
Qed.
Lemma all_gone l s : all_allowed nothing l -> run start l = Some s -> (forall v t, effects nothing l v <> VString (Some t)) ->
  forall a t, heap s a <> Live t.
Proof.
  intros A R N a t L. destruct (run_ok l A) as (s' & E & RD & _ & NL). rewrite E in R. injection R as ->.
  destruct (NL a t L) as [v V]. pose proof (RD v) as X. unfold reads in X. rewrite V in X. destruct X as (t' & _ & X). apply (N v t' X).
Qed.

Lemma upd_const {A} (f : Z -> A) k x j : upd f k x j = if j =? k then x else f j.
Proof. reflexivity. Qed.
Lemma code_ok s w d src : inv s w -> w d <> Absent -> w src <> Absent -> d <> src ->
  forall ok, exists s' r, var_copy s d src ok = Some (s', r) /\ (r = VR_OK \/ r = VR_OUTOFMEMORY) /\
    (r = VR_OK -> reads s' d (w src) /\ reads s' src (w src)) /\ (ok = true -> r = VR_OK).
Proof.
  intros I N NS D ok. destruct (copy_ok s w d src ok I N NS D) as (s1 & E & I1). unfold internal_copy in E.
  destruct (var_copy s d src ok) as [[s' r]|] eqn:V; [|discriminate]. exists s', r. split; [reflexivity|].
  unfold var_copy in V. destruct (clear_ok s w d I N) as (s2 & E2 & I2). rewrite E2 in V.
  pose proof (i_reads _ _ I2 src) as R. rewrite upd_neq in R by congruence. unfold reads in R.
  assert (RC : (r = VR_OK \/ r = VR_OUTOFMEMORY /\ ok = false) /\ (r = VR_OK -> copied (w src) ok = w src)).
  { destruct (vars s2 src) as [|c|n|x|[a|]|] eqn:U; cbn [read_string] in V.
    1-4: (injection V as _ <-; split; [left; reflexivity | rewrite R; reflexivity]).
    - destruct R as (t & L & X). rewrite L in V. destruct ok; cbn in V; injection V as _ <-; rewrite X.
      + split; [left; reflexivity | reflexivity].
      + split; [right; split; reflexivity | discriminate].
    - cbn in V. injection V as _ <-. split; [left; reflexivity | rewrite R; reflexivity].
    - rewrite R in NS. contradiction. }
  destruct RC as [RC CP]. split; [tauto|]. split.
  - intros ->. cbn in E. injection E as ->. specialize (CP eq_refl). split.
    + pose proof (i_reads _ _ I1 d) as X. rewrite upd_eq, CP in X. exact X.
    + pose proof (i_reads _ _ I1 src) as X. rewrite upd_neq in X by congruence. exact X.
  - intros ->. destruct RC as [RC|[_ RC]]; [exact RC | discriminate].
Qed.

Definition hello : list op := [NewString 0 (Some "Ca") true; NewString 1 (Some "Mg") true].
Lemma self_assign : exists l s, all_allowed nothing l /\ run start (l ++ [Assign 0 0 true]) = Some s /\
  effects nothing l 0 = VString (Some "Ca") /\ reads s 0 VEmpty.
Proof.
  exists hello. eexists. split; [cbn; split; [reflexivity|]; split; [reflexivity | exact I]|]. split; [reflexivity|]. split; reflexivity.
Qed.
Lemma own_characters : exists l, all_allowed nothing l /\ run start (l ++ [AssignOwn 0 true]) = None.
Proof. exists hello. split; [cbn; split; [reflexivity|]; split; [reflexivity | exact I]|]. reflexivity. Qed.
Lemma copy_reachable l s d src ok : all_allowed nothing l -> run start l = Some s ->
  effects nothing l d <> Absent -> effects nothing l src <> Absent -> d <> src ->
  exists s' r, var_copy s d src ok = Some (s', r) /\ (r = VR_OK \/ r = VR_OUTOFMEMORY /\ ok = false) /\
    (r = VR_OK -> reads s' d (effects nothing l src) /\ reads s' src (effects nothing l src)).
Proof.
  intros A R N NS D. destruct (run_inv l start nothing start_inv A) as (s0 & E & I). rewrite E in R. injection R as ->.
  destruct (code_ok s _ d src I N NS D ok) as (s' & r & V & C & X & O). exists s', r. split; [exact V|]. split; [|exact X].
  destruct C as [C|C]; [left; exact C|]. right. split; [exact C|]. destruct ok; [|reflexivity]. rewrite (O eq_refl) in C. discriminate.
Qed.
