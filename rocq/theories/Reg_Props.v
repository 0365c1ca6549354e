(** C22: instance ids. *)
From Coq Require Import String ZArith Bool List.
From Verif Require Import SelOut_Model Inst_Model Reg_Model Reg_Spec Reg_Proofs.
Import ListNotations.
Local Open Scope Z_scope.

(** The ids returned by successful creations are all different, even after destructions. *)
Theorem C22_fresh : forall h, few h -> Forall int_ids h -> NoDup (ids start h) /\ ids start h = map (fun n => ACode (Z.of_nat n)) (seq 0 (made h)).
Proof. intros h F I. split; [apply ids_distinct | apply ids_ok]; assumption. Qed.
Print Assumptions C22_fresh.
(** An id leads to an instance exactly from its creation to its destruction, and the instance is
    what the operations made with that id alone lead to. *)
Theorem C22_instances : forall h id, few h -> Forall int_ids h -> is_int id ->
  get_instance (execs start h) id = match object h id with Some (k, l) => Some (k, runs created l) | None => None end.
Proof. exact instances_ok. Qed.
Print Assumptions C22_instances.
(** An invalid id gives the bad-instance code and changes nothing. *)
Theorem C22_bad_id : forall h id p, few h -> Forall int_ids h -> is_int id -> object h id = None ->
  exec (execs start h) (Use id p) = (execs start h, ACode IPQ_BADINSTANCE) /\
  exec (execs start h) (Destroy id) = (execs start h, ACode IPQ_BADINSTANCE) /\
  exec (execs start h) (DestroyMms id) = (execs start h, ACode IPQ_BADINSTANCE).
Proof. exact bad_ok. Qed.
Print Assumptions C22_bad_id.
(** A valid id gives the result of the operation on its instance; an object of the base class cannot
    be destroyed by the derived class's function. *)
Theorem C22_good_id : forall h id p k l, few h -> Forall int_ids h -> is_int id -> object h id = Some (k, l) ->
  snd (exec (execs start h) (Use id p)) = AResult (snd (fst (step (runs created l) p))) /\
  snd (exec (execs start h) (Destroy id)) = ACode IPQ_OK /\
  snd (exec (execs start h) (DestroyMms id)) = ACode (match k with Mms => IPQ_OK | Plain => IPQ_BADINSTANCE end).
Proof. exact good_ok. Qed.
Print Assumptions C22_good_id.
(** A call does not change the instances of other ids. *)
Theorem C22_independent : forall h c id, few (h ++ [c]) -> Forall int_ids (h ++ [c]) -> is_int id ->
  (match c with Create _ _ => object h id <> None | Destroy j | DestroyMms j | Use j _ => j <> id end) ->
  get_instance (execs start (h ++ [c])) id = get_instance (execs start h) id.
Proof. exact others_ok. Qed.
Print Assumptions C22_independent.

Definition h_ex : list call := [Create Plain true; Create Mms false; Create Mms true; Use 1 (SetCurrent 4); Destroy 0; Use 0 (SetCurrent 5); Create Plain true; Use (-3) (SetCurrent 1)].
Example C22_ex : few h_ex /\ Forall int_ids h_ex /\ object h_ex 0 = None /\ object h_ex 1 = Some (Mms, [SetCurrent 4]) /\ object h_ex 2 = Some (Plain, []) /\
  object h_ex (-3) = None /\ object h_ex 3 = None.
Proof. split; [reflexivity|]. split; [repeat constructor; cbn; discriminate|]. vm_compute. repeat split. Qed.
