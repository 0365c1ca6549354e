(** Names of elements and redox states, and what the operations should do. *)
From Coq Require Import String Ascii ZArith QArith Bool List Sorted.
From Verif Require Import Qx Map_Model Name_Model.
Import ListNotations.
Local Open Scope string_scope.
Local Open Scope list_scope.

(** Amount of a name: zero when it is absent. *)
Definition amount (m : nd) (k : string) : Q := match mfind m k with Some x => x | None => 0%Q end.
Definition present (m : nd) (k : string) : Prop := In k (map fst m).
(** The state of every std::map: names in increasing order, each once. *)
Definition proper (m : nd) : Prop := StronglySorted (fun a b => String.compare (fst a) (fst b) = Lt) m.

(** Every character comes at or after the opening parenthesis in the character table (letters,
    digits, brackets, signs, underscore). *)
Fixpoint plain (s : string) : Prop :=
  match s with EmptyString => True | String c r => (40 <= nat_of_ascii c)%nat /\ plain r end.
(** [n] is the element [e] itself or one of its redox states "e(v)". *)
Definition state_of (n e : string) : Prop :=
  has_paren e = false /\ plain n /\
  (n = e \/ exists v, n = (e ++ "(" ++ v ++ ")")%string /\ v <> "" /\ e <> "").
Definition all_named (m : nd) : Prop := forall p, In p m -> exists e, state_of (fst p) e.
(** Sum over the entries that belong to element e. *)
Inductive element_sum (e : string) : nd -> Q -> Prop :=
| Sum_nil : element_sum e [] 0%Q
| Sum_in n x m s : state_of n e -> element_sum e m s -> element_sum e ((n, x) :: m) (x + s)%Q
| Sum_out n x m s : ~ state_of n e -> element_sum e m s -> element_sum e ((n, x) :: m) s.

(** Sum of the coefficients given for a name. *)
Definition coef_sum (l : list (option string * Q)) (k : string) : Q :=
  qsum (map snd (filter (fun p => match fst p with Some n => String.eqb n k | None => false end) l)).

(** Words added one after the other. *)
Definition after (l : list string) : dictionary :=
  fold_left (fun d w => fst (find_word d w)) l empty_dictionary.
