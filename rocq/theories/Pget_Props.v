(** Property C10. *)
From Coq Require Import String Ascii List ZArith Bool Lia ZifyBool.
From Verif Require Import CStr_Model Xchg_Model Xchg_Spec Xchg_Proofs Xchg_Props Pget_Model Pget_Spec Pget_Proofs.
Import ListNotations.
Local Open Scope string_scope.
Local Open Scope list_scope.

(** A parameter of one dimension: its elements are the first elements of the caller's array, the rest stays. *)
Theorem C10_list : forall p d room ty out, p_dims p = [d] -> In ty type_names -> p_size p <= room ->
  p_size p * csize (p_type p) <= length (p_mem p) -> room * csize (p_type p) <= length out ->
  getparam (Some p) (Z.of_nat room) ty out = Ret (0%Z, overwrite (p_size p * csize (p_type p)) (p_mem p) out).
Proof. intros p d room ty out D T. apply (get_list p d room ty out D (known _ T)). Qed.
Print Assumptions C10_list.
(** A table: no access outside of the blocks, element (i,j) at i + stride * j, everything else unchanged. *)
Theorem C10_table : forall p d1 d2 room ty out,
  p_dims p = [d1; d2] -> In ty type_names -> p_size p = value d1 * value d2 -> p_size p <= room ->
  value d1 <= max d1 -> value d2 <= max d2 ->
  p_size p * csize (p_type p) <= length (p_mem p) -> room * csize (p_type p) <= length out ->
  exists r, getparam (Some p) (Z.of_nat room) ty out = Ret (0%Z, r) /\
    delivered (csize (p_type p)) (value d1) (value d2) (stride (value d1) (max d1) (value d2) (max d2) room) (p_mem p) out r.
Proof. intros p d1 d2 room ty out D T. exact (Pget_Proofs.get_table p d1 d2 room ty out D (known _ T)). Qed.
Print Assumptions C10_table.
(** An unknown parameter and an array that is too small are refused; nothing is written. *)
Theorem C10_refused : forall p maxsize ty out, In ty type_names -> (maxsize < Z.of_nat (p_size p))%Z ->
  getparam (Some p) maxsize ty out = Ret (1%Z, out) /\ getparam None maxsize ty out = Ret (1%Z, out).
Proof.
  intros p maxsize ty out T H. unfold getparam. rewrite (known _ T). cbn [negb]. destruct (Z.gtb_spec (Z.of_nat (p_size p)) maxsize) as [_|K]; [split; reflexivity|lia].
Qed.
Print Assumptions C10_refused.
(** Integers read from a parameter file arrive with their values, whatever was stored before. *)
Theorem C10_integers : forall l mem d room ty out, In ty type_names -> 4 * length l <= length mem -> length l <= room -> room * 4 <= length out ->
  exists mem' r, put_all put_int mem 0 l = Ret mem' /\
    getparam (Some (mkParam TLong (length l) [d] mem')) (Z.of_nat room) ty out = Ret (0%Z, r) /\
    forall k v, nth_error l k = Some v -> integer_at k r = (v mod 2 ^ 32)%Z.
Proof.
  intros l mem d room ty out T M R O. eexists. eexists. split; [apply put_ints_0; exact M|]. split.
  - apply (C10_list (mkParam TLong (length l) [d] _) d room ty out eq_refl T); cbn [p_size p_type p_mem csize]; [exact R| |exact O].
    rewrite app_length, flat_length. lia.
  - intros k v K. cbn [p_size p_type p_mem csize]. rewrite <- (flat_at l k v (skipn (4 * length l) mem) K). unfold integer_at. f_equal.
    assert (KL : k < length l) by (apply nth_error_Some; rewrite K; discriminate).
    change (element 4 k (overwrite (length l * 4) (flat l ++ skipn (4 * length l) mem) out) = element 4 k (flat l ++ skipn (4 * length l) mem)).
    apply C11_element; [rewrite app_length, flat_length; lia|lia|lia].
Qed.
Print Assumptions C10_integers.
Theorem C10_integer_table : forall l mem d1 d2 room ty out, In ty type_names -> length l = value d1 * value d2 ->
  value d1 <= max d1 -> value d2 <= max d2 -> 4 * length l <= length mem -> length l <= room -> room * 4 <= length out ->
  exists mem' r, put_all put_int mem 0 l = Ret mem' /\
    getparam (Some (mkParam TLong (length l) [d1; d2] mem')) (Z.of_nat room) ty out = Ret (0%Z, r) /\
    forall i j v, i < value d1 -> j < value d2 -> nth_error l (i + value d1 * j) = Some v ->
      integer_at (i + stride (value d1) (max d1) (value d2) (max d2) room * j) r = (v mod 2 ^ 32)%Z.
Proof.
  intros l mem d1 d2 room ty out T S L1 L2 M R O.
  destruct (C10_table (mkParam TLong (length l) [d1; d2] (flat l ++ skipn (4 * length l) mem)) d1 d2 room ty out eq_refl T) as [r [E D]];
    cbn [p_size p_type p_mem csize]; [exact S|exact R|exact L1|exact L2|rewrite app_length, flat_length; lia|exact O|].
  exists (flat l ++ skipn (4 * length l) mem), r. split; [apply put_ints_0; exact M|]. split; [exact E|]. intros i j v I J V. cbn [p_type p_mem csize] in D.
  rewrite (delivered_integer _ _ _ _ _ _ _ _ D I J). apply flat_at. exact V.
Qed.
Print Assumptions C10_integer_table.
(** After a change every registered array is refreshed, with the current number of rows as stride. *)
Theorem C10_update : forall p d1 d2 refs, p_dims p = [d1; d2] -> p_size p = value d1 * value d2 -> 1 <= value d2 ->
  p_size p * csize (p_type p) <= length (p_mem p) -> Forall (fun r => p_size p * csize (p_type p) <= length r) refs ->
  exists refs', updateparam (Some p) refs = Ret refs' /\
    Forall2 (fun old new => delivered (csize (p_type p)) (value d1) (value d2) (value d1) (p_mem p) old new) refs refs'.
Proof. intros p d1 d2 refs D S B PM F. exact (update_table p d1 d2 D S B PM refs F). Qed.
Print Assumptions C10_update.

(** An array of maximal shape is therefore filled with another layout by the update than by the fetch. *)
Theorem C10_update_refuted : exists p d1 d2 room ty out r r',
  p_dims p = [d1; d2] /\ In ty type_names /\ p_size p = value d1 * value d2 /\ p_size p <= room /\ length (p_mem p) = p_size p * csize (p_type p) /\
  length out = room * csize (p_type p) /\ room = max d1 * max d2 /\
  getparam (Some p) (Z.of_nat room) ty out = Ret (0%Z, r) /\ updateparam (Some p) [r] = Ret [r'] /\ r' <> r.
Proof.
  exists (mkParam TFloat 2 [mkDim 1 2; mkDim 2 2] [11; 12; 13; 14; 21; 22; 23; 24]%Z), (mkDim 1 2), (mkDim 2 2), 4, "real", (repeat 0%Z 16). eexists. eexists.
  split; [reflexivity|]. split; [right; right; left; reflexivity|]. do 5 (split; [first [reflexivity | (cbn; lia)]|]). split; [vm_compute; reflexivity|]. split; [vm_compute; reflexivity|]. vm_compute. discriminate.
Qed.
Print Assumptions C10_update_refuted.
(** Declared defaults of integer parameters are stored as longs; only the first one arrives. *)
Theorem C10_default_refuted : exists l mem mem' r, put_all put_long mem 0 l = Ret mem' /\ length mem = 8 * length l /\
  getparam (Some (mkParam TLong (length l) [mkDim 3 3] mem')) 3 "integer" (repeat 0%Z 12) = Ret (0%Z, r) /\
  l = [5; 5; 5]%Z /\ map (fun k => integer_at k r) [0; 1; 2] = [5; 0; 5]%Z.
Proof. exists [5; 5; 5]%Z, (repeat 0%Z 24). eexists. eexists. split; [vm_compute; reflexivity|]. split; [reflexivity|]. split; [vm_compute; reflexivity|]. split; reflexivity. Qed.
Print Assumptions C10_default_refuted.
(** Of a parameter of three dimensions only the first layer arrives, with success reported. *)
Theorem C10_cube_refuted : exists p ty out r, In ty type_names /\ length (p_dims p) = 3 /\ p_size p = 2 /\ length (p_mem p) = 8 /\ length out = 8 /\
  getparam (Some p) 2 ty out = Ret (0%Z, r) /\ firstn 4 r = firstn 4 (p_mem p) /\ skipn 4 r = skipn 4 out /\ skipn 4 r <> skipn 4 (p_mem p).
Proof.
  exists (mkParam TFloat 2 [mkDim 1 1; mkDim 1 1; mkDim 2 2] [1; 2; 3; 4; 5; 6; 7; 8]%Z), "real", (repeat 0%Z 8). eexists.
  split; [right; right; left; reflexivity|]. do 4 (split; [reflexivity|]). split; [vm_compute; reflexivity|]. repeat split. vm_compute. discriminate.
Qed.
Print Assumptions C10_cube_refuted.

(** The hypotheses are met: a table of 2 by 2 integers in an array of maximal shape 3 by 2. *)
Example C10_ex : exists r, getparam (Some (mkParam TLong 4 [mkDim 2 3; mkDim 2 2] [1;0;0;0; 2;0;0;0; 3;0;0;0; 4;0;0;0]%Z)) 6 "integer" (repeat 9%Z 24) = Ret (0%Z, r) /\
  map (fun k => integer_at k r) [0; 1; 3; 4] = [1; 2; 3; 4]%Z /\ firstn 4 (skipn 8 r) = [9; 9; 9; 9]%Z /\ stride 2 3 2 2 6 = 3 /\ stride 2 3 2 2 4 = 2 /\ stride 2 3 2 2 5 = 2.
Proof. eexists. split; [vm_compute; reflexivity|]. repeat split. Qed.
