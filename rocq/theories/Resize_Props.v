(** Property C09. *)
From Coq Require Import String List ZArith Bool Arith Lia ZifyBool.
From Verif Require Import CStr_Model Resize_Model Resize_Spec Resize_Proofs.
Import ListNotations.
Local Open Scope string_scope.
Local Open Scope list_scope.
Local Open Scope nat_scope.

(** [complete ds p]: no dimension is used twice, none is zero, and the three arrays of the parameter hold a value
    for every coordinate.  A change to a non-zero value then works, for any number of dimensions and any
    position: every parameter stays complete; each coordinate of the new table holds the value of the nearest
    coordinate of the old one; minima and maxima likewise; parameters bounded by the dimension are capped. *)
Theorem C09_values : forall s d n, Forall (complete (s_dims s)) (s_params s) -> 1 <= n -> n <> d_value (s_dims s d) ->
  exists s', reset_dim s d n = Ret s' /\ (forall x, d_value (s_dims s' x) = if String.eqb x d then n else d_value (s_dims s x)) /\
    Forall2 (fun p q => complete (s_dims s') q /\ moved (s_dims s) (s_dims s') d n p q) (s_params s) (s_params s').
Proof. intros s d n K N NE. destruct (reset_dim_ok s d n K N NE) as [s' [E [V [F _]]]]. exists s'. split; [exact E|split; assumption]. Qed.
Print Assumptions C09_values.
(** In words of coordinates: what existed keeps its value, what is new takes the value of the last old coordinate. *)
Theorem C09_kept : forall e c, inside e c -> nearest e c = c.
Proof. exact nearest_in. Qed.
Print Assumptions C09_kept.
Theorem C09_new : forall e1 n e2 c1 x c2, inside e1 c1 -> inside e2 c2 -> n <= x ->
  nearest (e1 ++ n :: e2) (c1 ++ x :: c2) = c1 ++ (n - 1) :: c2.
Proof.
  intros e1 n e2 c1 x c2 I1 I2 X. rewrite nearest_app by (apply inside_len; exact I1). cbn [nearest]. rewrite !nearest_in by assumption. rewrite Nat.min_r by lia. reflexivity.
Qed.
Print Assumptions C09_new.
(** Public variables that use the dimension get the product of their dimension values as size, the others keep theirs. *)
Theorem C09_variables : forall s d n s' k v, reset_dim s d n = Ret s' -> n <> d_value (s_dims s d) -> nth_error (s_vars s) k = Some v ->
  exists v', nth_error (s_vars s') k = Some v' /\ v_dims v' = v_dims v /\
    v_size v' = (if v_private v then v_size v else if in_dec string_dec d (v_dims v) then count (values (s_dims s') (v_dims v)) else v_size v).
Proof.
  intros s d n s' k v H NE K. unfold reset_dim in H. destruct (Nat.eqb_spec n (d_value (s_dims s d))) as [C|_]; [contradiction|].
  destruct (each (reset_param _ _ _ _) _) as [ps| |]; cbn [bind] in H; try discriminate. destruct (each (rebound d n) ps) as [ps2| |]; cbn [bind] in H; try discriminate.
  injection H as <-. cbn [s_vars s_dims]. rewrite nth_error_map, K. cbn [option_map]. eexists. split; [reflexivity|]. unfold reset_var. destruct (v_private v) eqn:P; [split; reflexivity|].
  destruct (in_dec string_dec d (v_dims v)) as [I|I].
  - assert (G : forall l i acc, In d l \/ acc <> None -> last_use d l i acc <> None).
    { induction l as [|x l IH]; intros i acc [A|A]; cbn [last_use]; try contradiction; try exact A.
      - apply IH. destruct A as [->|A]; [right; rewrite String.eqb_refl; discriminate|left; exact A].
      - apply IH. right. destruct (String.eqb d x); [discriminate|exact A]. }
    specialize (G (v_dims v) 0 None (or_introl I)). destruct (last_use d (v_dims v) 0 None) as [j|]; [|contradiction]. cbn [v_dims v_size]. split; [reflexivity|]. apply product_count.
  - rewrite (last_none d (v_dims v) 0 None I). split; reflexivity.
Qed.
Print Assumptions C09_variables.
(** The index names: the old ones stay, new indices have none. *)
Theorem C09_names : forall s d n s' names, reset_dim s d n = Ret s' -> 1 <= n -> d_names (s_dims s d) = Some names -> length names = d_value (s_dims s d) ->
  exists names', d_names (s_dims s' d) = Some names' /\ length names' = n /\
    forall i, i < n -> nth_error names' i = Some (if Nat.ltb i (d_value (s_dims s d)) then nth i names None else None).
Proof.
  intros s d n s' names H N E L.
  assert (NI : forall i, i < d_value (s_dims s d) -> nth_error names i = Some (nth i names None)) by (intros i I; apply nth_error_nth'; lia).
  unfold reset_dim in H. destruct (Nat.eqb_spec n (d_value (s_dims s d))) as [->|NE].
  - injection H as <-. exists names. split; [exact E|]. split; [exact L|]. intros i I. rewrite (proj2 (Nat.ltb_lt _ _) I). apply NI. exact I.
  - destruct (each (reset_param _ _ _ _) _) as [ps| |]; cbn [bind] in H; try discriminate. destruct (each (rebound d n) ps) as [ps2| |]; cbn [bind] in H; try discriminate.
    injection H as <-. cbn [s_dims]. rewrite String.eqb_refl. cbn [d_names]. unfold relabel. rewrite E. destruct (Nat.ltb_spec (d_value (s_dims s d)) n) as [G|G].
    + eexists. split; [reflexivity|]. split; [rewrite app_length, repeat_length; lia|]. intros i I. destruct (Nat.ltb_spec i (d_value (s_dims s d))) as [J|J].
      * rewrite nth_error_app1 by lia. apply NI. exact J.
      * rewrite nth_error_app2 by lia. apply nth_error_repeat. lia.
    + destruct (Nat.eqb_spec n 0) as [Z|_]; [lia|]. eexists. split; [reflexivity|]. split; [rewrite firstn_length; lia|]. intros i I.
      rewrite (proj2 (Nat.ltb_lt i (d_value (s_dims s d)))) by lia. rewrite <- NI by lia. clear - I. revert i I. generalize n. induction names as [|x l IH]; intros [|m] i I; try lia; [reflexivity|]. cbn [firstn]. destruct i as [|i]; [reflexivity|]. cbn. apply IH. lia.
Qed.
Print Assumptions C09_names.
(** Over any history of changes to non-zero values nothing goes wrong, and a coordinate that exists all the time keeps its value. *)
Theorem C09_history : forall l s, Forall (complete (s_dims s)) (s_params s) -> Forall (fun dn => 1 <= snd dn) l ->
  exists s', resets s l = Ret s' /\ Forall (complete (s_dims s')) (s_params s') /\
    forall k p c, nth_error (s_params s) k = Some p -> p_bound p = None ->
      (forall l1 l2 sm, l = l1 ++ l2 -> resets s l1 = Ret sm -> inside (values (s_dims sm) (p_dims p)) c) ->
      exists q, nth_error (s_params s') k = Some q /\ cell (values (s_dims s') (p_dims p)) (p_value q) c = cell (values (s_dims s) (p_dims p)) (p_value p) c.
Proof.
  intros l s K H. destruct (history_ok l s K H) as [s' [E K']]. exists s'. split; [exact E|]. split; [exact K'|]. intros k p c P B I.
  destruct (history_keeps l s s' k p c K H E P B I) as [q [Q [_ Q']]]. exists q. split; assumption.
Qed.
Print Assumptions C09_history.

Definition dims_ex : dims := fun x => if String.eqb x "a" then mkDimen 2 (Some [Some "i"; None]) None else mkDimen 3 None None.
Definition par_ex (v : list Z) (ds : list string) : param :=
  mkPar ds (length v) (map Some v) (map Some v) (map Some v) (repeat None (length v)) None.
(** Growing from zero reads before the array. *)
Theorem C09_from_zero_refuted : exists s d n, reset_dim s d n = UB /\ s_params s = [par_ex [7]%Z ["a"]] /\ 1 <= n.
Proof. exists (mkStore (fun _ => mkDimen 0 None None) [par_ex [7]%Z ["a"]] []), "a", 2. split; [vm_compute; reflexivity|]. split; [reflexivity|lia]. Qed.
Print Assumptions C09_from_zero_refuted.
(** Shrinking to zero leaves one cell that was never written, instead of a value. *)
Theorem C09_to_zero_refuted : exists s d s', Forall (complete (s_dims s)) (s_params s) /\ reset_dim s d 0 = Ret s' /\
  map p_value (s_params s) = [[Some 7; Some 8]]%Z /\ map p_value (s_params s') = [[None]].
Proof.
  exists (mkStore dims_ex [par_ex [7; 8]%Z ["a"]] []), "a". eexists. split; [|split; [vm_compute; reflexivity|split; reflexivity]].
  constructor; [|constructor]. constructor; cbn.
  - constructor; [intros []|constructor].
  - constructor; [lia|constructor].
  - reflexivity.
  - split; [reflexivity|]. repeat (constructor; try discriminate).
  - split; [reflexivity|]. repeat (constructor; try discriminate).
  - split; [reflexivity|]. repeat (constructor; try discriminate).
Qed.
Print Assumptions C09_to_zero_refuted.
(** A dimension used twice: growing a 2 by 2 table to 3 by 3 reads outside of the old array. *)
Theorem C09_twice_refuted : exists s d n, reset_dim s d n = UB /\ s_params s = [par_ex [1; 2; 3; 4]%Z ["a"; "a"]] /\ d_value (s_dims s d) = 2 /\ n = 3.
Proof. exists (mkStore dims_ex [par_ex [1; 2; 3; 4]%Z ["a"; "a"]] []), "a", 3. split; [vm_compute; reflexivity|]. repeat split. Qed.
Print Assumptions C09_twice_refuted.
(** The descriptions of the values stay where they are when the values move. *)
Theorem C09_descriptions_refuted : exists s d n s' p q, reset_dim s d n = Ret s' /\ s_params s = [p] /\ s_params s' = [q] /\
  cell [2; 3] (p_value p) [0; 1] = Some (Some 3%Z) /\ cell [2; 3] (p_desc p) [0; 1] = Some (Some "three") /\
  cell [4; 3] (p_value q) [0; 1] = Some (Some 3%Z) /\ cell [4; 3] (p_desc q) [0; 1] = Some None.
Proof.
  exists (mkStore dims_ex [mkPar ["a"; "b"] 6 (map Some [1; 2; 3; 4; 5; 6]%Z) (map Some [1; 2; 3; 4; 5; 6]%Z) (map Some [1; 2; 3; 4; 5; 6]%Z) [None; None; Some "three"; None; None; None] None] []), "a", 4.
  eexists. eexists. eexists. split; [vm_compute; reflexivity|]. repeat split.
Qed.
Print Assumptions C09_descriptions_refuted.

(** The hypotheses are met: a 2 by 3 table grown to 4 by 3 and shrunk to 1 by 3. *)
Lemma complete_ex : complete dims_ex (par_ex [1; 2; 3; 4; 5; 6]%Z ["a"; "b"]).
Proof.
  constructor; cbn.
  - constructor; [intros [C|[]]; discriminate|]. constructor; [intros []|constructor].
  - repeat (constructor; [lia|]). constructor.
  - reflexivity.
  - split; [reflexivity|]. repeat (constructor; try discriminate).
  - split; [reflexivity|]. repeat (constructor; try discriminate).
  - split; [reflexivity|]. repeat (constructor; try discriminate).
Qed.
Example C09_ex : exists s1 s2, let s := mkStore dims_ex [par_ex [1; 2; 3; 4; 5; 6]%Z ["a"; "b"]] [mkPub ["b"; "a"] 6 false] in
  Forall (complete (s_dims s)) (s_params s) /\ reset_dim s "a" 4 = Ret s1 /\ resets s [("a", 4); ("a", 1)] = Ret s2 /\
  map p_value (s_params s1) = [map Some [1; 2; 2; 2; 3; 4; 4; 4; 5; 6; 6; 6]%Z] /\ map p_value (s_params s2) = [map Some [1; 3; 5]%Z] /\
  map v_size (s_vars s1) = [12] /\ d_names (s_dims s1 "a") = Some [Some "i"; None; None; None].
Proof.
  eexists. eexists. cbn zeta. split; [constructor; [exact complete_ex|constructor]|]. split; [vm_compute; reflexivity|]. split; [vm_compute; reflexivity|]. repeat split.
Qed.
