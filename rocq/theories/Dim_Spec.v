(** What a dimension registry is, in terms of the history of calls only. *)
From Coq Require Import String List ZArith Bool.
From Verif Require Import Dim_Model.
Import ListNotations.
Local Open Scope string_scope.
Local Open Scope list_scope.
Local Open Scope Z_scope.

(** A declaration whose size is legal. *)
Definition Legal (c : dimcall) : Prop := 0 <= c_value c <= c_max c.

(** [First name h c]: [c] is the first legal declaration of [name] in history [h]. *)
Definition First (name : string) (h : list dimcall) (c : dimcall) : Prop :=
  exists h1 h2, h = h1 ++ c :: h2 /\ c_name c = name /\ Legal c /\
    forall c', In c' h1 -> c_name c' = name -> ~ Legal c'.

Definition Never (name : string) (h : list dimcall) : Prop :=
  forall c, In c h -> c_name c = name -> ~ Legal c.
