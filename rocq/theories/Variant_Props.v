(** Property C29. *)
From Coq Require Import String ZArith QArith Bool List.
From Verif Require Import Variant_Model Variant_Spec Variant_Proofs.
Import ListNotations.
Local Open Scope string_scope.
Local Open Scope list_scope.
Local Open Scope Z_scope.

(** Any sequence of constructions, copies, assignments, clears and destructions of any number of
    variants runs without touching a buffer that is not live (so none is released twice), every
    variant reads as if it held its own plain value, no buffer is shared and none is lost. *)
Theorem C29_values l : all_allowed nothing l ->
  exists s, run start l = Some s /\ (forall v, reads s v (effects nothing l v)) /\ exclusive s /\ no_leak s.
Proof. exact (run_ok l). Qed.
(** When no variant holds a string any more, every buffer has been released. *)
Theorem C29_released l s : all_allowed nothing l -> run start l = Some s ->
  (forall v t, effects nothing l v <> VString (Some t)) -> forall a t, heap s a <> Live t.
Proof. exact (all_gone l s). Qed.
(** A copy reports success, or lack of memory when allocation failed; on success both variants read
    as the source did, whatever kind of value it was. *)
Theorem C29_copy l s d src ok : all_allowed nothing l -> run start l = Some s ->
  effects nothing l d <> Absent -> effects nothing l src <> Absent -> d <> src ->
  exists s' r, var_copy s d src ok = Some (s', r) /\ (r = VR_OK \/ r = VR_OUTOFMEMORY /\ ok = false) /\
    (r = VR_OK -> reads s' d (effects nothing l src) /\ reads s' src (effects nothing l src)).
Proof. exact (copy_reachable l s d src ok). Qed.
(** Refuted: a variant assigned to itself becomes empty. *)
Theorem C29_self_refuted : exists l s, all_allowed nothing l /\ run start (l ++ [Assign 0 0 true]) = Some s /\
  effects nothing l 0 = VString (Some "Ca") /\ reads s 0 VEmpty.
Proof. exact self_assign. Qed.
(** Refuted: assigning a variant its own characters reads a released buffer. *)
Theorem C29_own_refuted : exists l, all_allowed nothing l /\ run start (l ++ [AssignOwn 0 true]) = None.
Proof. exact own_characters. Qed.

Example C29_ex : let l := [NewString 0 (Some "Ca") true; NewCopy 1 0 true; AssignString 0 (Some "Mg") true; NewLong 2 5;
    Assign 2 1 true; Clear 1; Delete 0] in
  all_allowed nothing l /\ effects nothing l 2 = VString (Some "Ca") /\ effects nothing l 1 = VEmpty /\
  exists s, run start l = Some s /\ reads s 2 (VString (Some "Ca")).
Proof.
  cbv zeta. split; [cbn; repeat split; discriminate|]. split; [reflexivity|]. split; [reflexivity|].
  eexists. split; [reflexivity|]. exists "Ca". split; reflexivity.
Qed.

Print Assumptions C29_values.
Print Assumptions C29_released.
Print Assumptions C29_copy.
Print Assumptions C29_self_refuted.
Print Assumptions C29_own_refuted.
