(** Property C11. *)
From Coq Require Import String Ascii List ZArith Bool Lia.
From Verif Require Import CStr_Model Xchg_Model Xchg_Spec Xchg_Proofs.
Import ListNotations.
Local Open Scope string_scope.
Local Open Scope list_scope.

Definition type_names : list string := ["integer"; "long"; "real"; "float"; "double precision"; "double"].
Lemma known ty : In ty type_names -> known_type ty = true.
Proof. intros H. unfold known_type. apply existsb_exists. exists ty. split; [exact H|apply String.eqb_refl]. Qed.

(** One-dimensional variables of every type: what one module puts, another gets, and nothing else of its array changes. *)
Theorem C11_list : forall name name' v d room ty ty' inp out m r,
  v_dims v = [d] -> In ty type_names -> In ty' type_names -> v_size v <= room ->
  putvar name (Some v) room ty inp = Ret (0%Z, Some m) -> getvar name' (Some (with_mem v m)) room ty' out = Ret r ->
  r = (0%Z, overwrite (v_size v * csize (v_type v)) inp out).
Proof.
  intros name name' v d room ty ty' inp out m r D T T' R P G. pose proof (round v name name' room ty ty' inp out m r (or_introl (ex_intro _ d D)) (known _ T) (known _ T') P R G) as E.
  unfold moved in E. rewrite D in E. exact E.
Qed.
Print Assumptions C11_list.
(** Tables of floats or doubles: the same for the first [leading * n2] elements. *)
Theorem C11_table : forall name name' v d1 d2 room ty ty' inp out m r,
  v_dims v = [d1; d2] -> v_type v <> TLong -> value d1 <= max d1 -> v_size v = value d1 * value d2 ->
  In ty type_names -> In ty' type_names -> v_size v <= room ->
  putvar name (Some v) room ty inp = Ret (0%Z, Some m) -> getvar name' (Some (with_mem v m)) room ty' out = Ret r ->
  r = (0%Z, overwrite (leading (value d1) (max d1) (value d2) room * value d2 * csize (v_type v)) inp out).
Proof.
  intros name name' v d1 d2 room ty ty' inp out m r D TY L S T T' R P G.
  pose proof (round v name name' room ty ty' inp out m r (or_intror (ex_intro _ d1 (ex_intro _ d2 (conj D (conj TY (conj L S)))))) (known _ T) (known _ T') P R G) as E.
  unfold moved in E. rewrite D in E. exact E.
Qed.
Print Assumptions C11_table.
(** In terms of elements: element [k] = i + leading * j of the putting array arrives as element [k] of the getting array. *)
Theorem C11_element : forall n w k src dst, n <= length src -> n <= length dst -> w * (k + 1) <= n ->
  element w k (overwrite n src dst) = element w k src.
Proof. intros n w k src dst. apply element_over. Qed.
Print Assumptions C11_element.
(** Putting writes exactly these bytes of the variable and leaves the rest of its storage alone. *)
Theorem C11_put : forall name v d1 d2 room ty inp r,
  v_dims v = [d1; d2] -> v_type v <> TLong -> value d1 <= max d1 -> v_size v = value d1 * value d2 -> In ty type_names -> v_size v <= room ->
  putvar name (Some v) room ty inp = Ret r ->
  r = (0%Z, Some (overwrite (leading (value d1) (max d1) (value d2) room * value d2 * csize (v_type v)) inp (v_mem v))).
Proof.
  intros name v d1 d2 room ty inp r D TY L S T R P.
  assert (N : String.length name < 128) by (unfold putvar in P; destruct (Nat.ltb_spec (String.length name) 128); [assumption|discriminate]).
  rewrite (put_ok name v room ty inp (or_intror (ex_intro _ d1 (ex_intro _ d2 (conj D (conj TY (conj L S)))))) N (known _ T) R) in P.
  destruct (_ && _); [|discriminate]. injection P as <-. unfold moved. rewrite D. reflexivity.
Qed.
Print Assumptions C11_put.
(** No memory outside of the blocks is touched when the caller's array has the announced room and the storage
    of the variable holds what is moved. *)
Theorem C11_safe : forall name v room ty inp out,
  ((exists d, v_dims v = [d] /\ v_size v * csize (v_type v) <= length (v_mem v)) \/
   (exists d1 d2, v_dims v = [d1; d2] /\ v_type v <> TLong /\ value d1 <= max d1 /\ v_size v = value d1 * value d2 /\
                  leading (value d1) (max d1) (value d2) room * value d2 * csize (v_type v) <= length (v_mem v))) ->
  String.length name < 128 -> In ty type_names -> v_size v <= room ->
  length inp = room * csize (v_type v) -> length out = room * csize (v_type v) ->
  (exists m, putvar name (Some v) room ty inp = Ret (0%Z, Some m) /\ length m = length (v_mem v)) /\
  (exists r, getvar name (Some v) room ty out = Ret (0%Z, r) /\ length r = length out).
Proof.
  intros name v room ty inp out H N T R LI LO.
  assert (SV : simple v) by (destruct H as [[d [D _]]|[d1 [d2 [D [TY [L [S _]]]]]]]; [left; exists d; exact D|right; exists d1, d2; repeat split; assumption]).
  assert (M : moved v room <= length (v_mem v)) by (unfold moved; destruct H as [[d [D K]]|[d1 [d2 [D [TY [L [S K]]]]]]]; rewrite D; exact K).
  pose proof (moved_room v room SV R) as Q. rewrite (put_ok name v room ty inp SV N (known _ T) R), (get_ok name v room ty out SV N (known _ T) R).
  rewrite (proj2 (Nat.leb_le _ (length inp))) by lia. rewrite (proj2 (Nat.leb_le _ (length (v_mem v)))) by lia. rewrite (proj2 (Nat.leb_le _ (length out))) by lia. cbn [andb].
  split; eexists; split; try reflexivity; apply over_length; lia.
Qed.
Print Assumptions C11_safe.
(** A variable larger than the room announced, or unknown, is refused and nothing is written. *)
Theorem C11_refused : forall name v room ty inp out, String.length name < 128 -> In ty type_names -> room < v_size v ->
  putvar name (Some v) room ty inp = Ret (1%Z, Some (v_mem v)) /\ getvar name (Some v) room ty out = Ret (1%Z, out) /\
  putvar name None room ty inp = Ret (1%Z, None) /\ getvar name None room ty out = Ret (1%Z, out).
Proof.
  intros name v room ty inp out N T R. unfold putvar, getvar. rewrite (proj2 (Nat.ltb_lt _ _) N), (known _ T), (proj2 (Nat.ltb_lt _ _) R). repeat split.
Qed.
Print Assumptions C11_refused.

(** Integer tables: with arrays of 4-byte integers every table of two columns or more is accessed out of bounds. *)
Theorem C11_integer_table_refuted : forall name v d1 d2 ty inp,
  v_dims v = [d1; d2] -> v_type v = TLong -> value d1 = max d1 -> 1 <= value d1 -> 2 <= value d2 -> v_size v = value d1 * value d2 ->
  String.length name < 128 -> In ty type_names -> length inp = v_size v * 4 -> putvar name (Some v) (v_size v) ty inp = UB.
Proof.
  intros name v d1 d2 ty inp D TY E A B S N T L. unfold putvar. rewrite (proj2 (Nat.ltb_lt _ _) N), (known _ T). cbn [negb]. rewrite (proj2 (Nat.ltb_ge _ _)) by lia.
  rewrite D, TY. cbn zeta. replace (if Nat.ltb (v_size v) (max d1 * value d2) then value d1 else max d1) with (value d1) by (destruct (Nat.ltb _ _); [reflexivity|exact E]).
  rewrite rows_ub; [reflexivity|lia|]. right. cbn [csize psize]. rewrite L, S. nia.
Qed.
Print Assumptions C11_integer_table_refuted.
(** ... and with 8-byte integers half of each column is not transferred. *)
Definition vt : pubvar := mkVar TLong 2 [mkDim 2 2; mkDim 1 1] (repeat 0%Z 16).
Theorem C11_long_table_refuted : exists inp m, length inp = 16 /\ putvar "v" (Some vt) 2 "long" inp = Ret (0%Z, Some m) /\ element 8 1 m <> element 8 1 inp.
Proof. exists (repeat 7%Z 16). eexists. split; [reflexivity|]. split; [vm_compute; reflexivity|]. vm_compute. discriminate. Qed.
Print Assumptions C11_long_table_refuted.
(** With three dimensions success is reported although nothing is transferred. *)
Theorem C11_cube_refuted : forall name v d1 d2 d3 room ty inp, v_dims v = [d1; d2; d3] -> String.length name < 128 -> In ty type_names -> v_size v <= room ->
  putvar name (Some v) room ty inp = Ret (0%Z, Some (v_mem v)).
Proof.
  intros name v d1 d2 d3 room ty inp D N T R. unfold putvar. rewrite (proj2 (Nat.ltb_lt _ _) N), (known _ T), (proj2 (Nat.ltb_ge _ _) R), D. reflexivity.
Qed.
Print Assumptions C11_cube_refuted.
(** The storage of the variable is overrun when it holds just the variable and the caller has room for maximal rows. *)
Theorem C11_storage_refuted : exists v room inp, length (v_mem v) = v_size v * csize (v_type v) /\ length inp = room * csize (v_type v) /\
  v_size v <= room /\ putvar "v" (Some v) room "double" inp = UB.
Proof.
  exists (mkVar TDouble 4 [mkDim 2 3; mkDim 2 2] (repeat 0%Z 32)), 6, (repeat 1%Z 48). repeat split. cbn. lia.
Qed.
Print Assumptions C11_storage_refuted.

(** Concrete case: a table of floats with room for maximal rows. *)
Definition tab : pubvar := mkVar TFloat 4 [mkDim 2 3; mkDim 2 4] (repeat 0%Z 48).
Example C11_ex : leading 2 3 2 12 = 3 /\ match putvar "q" (Some tab) 12 "real" (map Z.of_nat (seq 1 48)) with
  | Ret (0%Z, Some m) => getvar "q" (Some (with_mem tab m)) 12 "float" (repeat 9%Z 48) = Ret (0%Z, map Z.of_nat (seq 1 24) ++ repeat 9%Z 24)
  | _ => False end.
Proof. split; reflexivity. Qed.
