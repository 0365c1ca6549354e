(** Property theorems C05 (variable registry lookup). *)
From Coq Require Import String List ZArith Lia.
From Verif Require Import CStr_Model Dim_Model Var_Model Var_Spec Var_Proofs.
Import ListNotations.
Local Open Scope string_scope.
Local Open Scope list_scope.

(** C05: after any history of declarations that are each correct in themselves (legal type
    name, at most three declared dimensions, size within the given space; duplicates of
    earlier names allowed), in any order, looking up a declared name gives the descriptor
    of its first declaration, and any other name is reported as not found.  Missing for the
    full property: histories with a refused incorrect declaration (refuted below). *)
Theorem C05_lookup_partial : forall pm h, (forall c, In c h -> exists v, Makes c v) ->
  exists db codes, run_vars pm h = Ret (db, codes) /\
   (forall key c v, FirstVar key h c -> Makes c v -> var_addr (vars db) key = Ret (Some v)) /\
   (forall key, (forall c, In c h -> call_name c <> key) -> var_addr (vars db) key = Ret None).
Proof. exact lookup_main. Qed.
Print Assumptions C05_lookup_partial.

(** C05: such a call returns 0 exactly when its name is new; a duplicate is refused with 1
    (0 in print mode for public variables). *)
Theorem C05_codes_partial : forall pm h, (forall c, In c h -> exists v, Makes c v) ->
  exists db codes, run_vars pm h = Ret (db, codes) /\ length codes = length h /\
    forall i c, nth_error h i = Some c ->
      (nth_error codes i = Some 0%Z /\ forall c', In c' (firstn i h) -> call_name c' <> call_name c) \/
      (nth_error codes i = Some (match c with CallVar _ _ _ _ _ _ _ => if pm then 0 else 1 | _ => 1 end)%Z /\
        exists c', In c' (firstn i h) /\ call_name c' = call_name c).
Proof. exact codes_main. Qed.
Print Assumptions C05_codes_partial.

(** C05, refuted for a refused incorrect declaration: after 'b' has been declared and a
    declaration of 'a' with an undeclared dimension has been refused with code 1, looking up
    any name greater than 'b' reads an uninitialised key. *)
Theorem C05_refused_declaration_refuted : exists dims h db,
  dim_addr dims "one" <> None /\ run_vars false h = Ret (db, [0; 1]%Z) /\
  var_addr (vars db) "c" = UB.
Proof.
  exists [mkdim "one" 1 1 false],
    [CallVar [mkdim "one" 1 1 false] "m" "b" "one" 1 "real" 0;
     CallVar [mkdim "one" 1 1 false] "m" "a" "nosuch" 1 "real" 0].
  eexists; split; [discriminate|]. split; [vm_compute; reflexivity|]. reflexivity.
Qed.
Print Assumptions C05_refused_declaration_refuted.

(** C05, refuted: an illegal type name is not refused cleanly, an unset local is read. *)
Theorem C05_illegal_type_refuted : exists h, run_vars false h = UB /\
  forall c, In c h -> exists dims n, c = CallVar dims "m" n "one" 1 "string" 0.
Proof.
  exists [CallVar [mkdim "one" 1 1 false] "m" "b" "one" 1 "string" 0]. split; [reflexivity|].
  intros c [<-|[]]; eauto.
Qed.
Print Assumptions C05_illegal_type_refuted.

(** Non-vacuity: four public variables, one private, one duplicate, unsorted. *)
Definition ex_dims : dimdb := [mkdim "nac" 9 50 false; mkdim "nmru" 3 500 false; mkdim "one" 1 1 false].
Definition ex_h : list varcall :=
  [CallVar ex_dims "m1" "q" "one" 1 "real" 10; CallVar ex_dims "m2" "uz" "nac,nmru" 25000 "double" 11;
   CallVar ex_dims "m2" "b" "nmru" 500 "integer" 12; CallPri "priv" 4 "long" 13;
   CallVar ex_dims "m3" "q" "nmru" 500 "real" 14; CallVar ex_dims "m3" "r" "one" 1 "float" 15].
Lemma ex_h_makes : forall c, In c ex_h -> exists v, Makes c v.
Proof.
  unfold ex_h; intros c I.
  repeat (destruct I as [<-|I]; [eexists; constructor; try constructor;
    try (cbn; lia);
    try (change (strtok is_comma "one") with ["one"]; repeat (econstructor; [reflexivity|]); constructor);
    try (change (strtok is_comma "nmru") with ["nmru"]; repeat (econstructor; [reflexivity|]); constructor);
    try (change (strtok is_comma "nac,nmru") with ["nac"; "nmru"]; repeat (econstructor; [reflexivity|]); constructor);
    cbn; lia|]).
  destruct I.
Qed.
Example C05_nonvacuous : exists db, run_vars false ex_h = Ret (db, [0; 0; 0; 0; 1; 0]%Z) /\
  map (option_map v_key) (vars db) = [Some "b"; Some "priv"; Some "q"; Some "r"; Some "uz"] /\
  var_addr (vars db) "uz" = Ret (Some (mkvar "uz" "m2" ["nac"; "nmru"] 27 M_DOUBLE 11 false)) /\
  var_addr (vars db) "s" = Ret None.
Proof. eexists; split; [vm_compute; reflexivity|]. vm_compute; auto. Qed.
