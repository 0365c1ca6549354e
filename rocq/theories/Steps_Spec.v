(** What the properties on batch reactions in steps say, apart from the model. *)

From Coq Require Import String Ascii List ZArith QArith Bool.
From Verif Require Import Steps_Model.
Import ListNotations.
Local Open Scope string_scope.
Local Open Scope list_scope.
Local Open Scope Z_scope.

(** [f 1 + f 2 + ... + f n]. *)
Fixpoint sum_to (f : Z -> Q) (n : nat) : Q :=
  match n with
  | O => 0
  | S m => sum_to f m + f (Z.of_nat (S m))
  end%Q.

(** The part of [total] reached after [k] of [n] equal increments; all of it
    after the last. *)
Definition share (total : Q) (n k : Z) : Q :=
  (total * inject_Z (Z.min k n) / inject_Z n)%Q.

(** A token that stands for numbers. *)
Definition is_amount (t : tok) : Prop :=
  match t with Times _ _ | Num _ _ => True | _ => False end.

(** The numbers that a line of such tokens stands for. *)
Fixpoint numbers (ts : list tok) : list Q :=
  match ts with
  | [] => []
  | Times n v :: r => repeat v (Z.to_nat n) ++ numbers r
  | Num q _ :: r => q :: numbers r
  | _ :: r => numbers r
  end.

(** A token in which no int can be read. *)
Definition no_int (t : tok) : Prop := int_of t = None.

(** The [k]-th of a list of numbers, counting from 1, the last one when the
    list is shorter. *)
Definition kth (l : list Q) (k : nat) (q : Q) : Prop :=
  nth_error l (Nat.min k (length l) - 1) = Some q.

(** The entity of a kind in a view. *)
Definition entity {V} (v : view V) (k : kind) : option V :=
  let fix go ks ws :=
    match ks, ws with
    | k' :: ks', w :: ws' => if kind_eqb k k' then w else go ks' ws'
    | _, _ => None
    end in
  go copied (v_work v).

(** What a batch reaction starts from: each entity in use as the user defined
    it; with a mixture, the solutions the mixture names take the place of the
    solution. *)
Definition beginning {V} (parts : V -> list Z) (u : use) (st : store V) : view V :=
  let own k := match u k with Some n => st k n | None => None end in
  mkView (map (fun k => match k with
                        | KSol => if in_use u KMix then None else own KSol
                        | _ => own k
                        end) copied)
         (match own KMix with
          | Some m => map (st KSol) (filter (Z.leb 0) (parts m))
          | None => []
          end).

(** What the next step starts from when reactions are incremental: the
    solution and the reactants in use as the step before left them, no
    mixture. *)
Definition next_view {V} (u : use) (w : kind -> option V) (res : results V) : view V :=
  mkView (map (fun k => match k with
                        | KMix => None
                        | KSol => res KSol
                        | KPp | KEx | KSurf | KGas | KSs => if in_use u k then res k else None
                        | KRxn | KKin | KTemp | KPres => if in_use u k then w k else None
                        end) copied) [].

(** The time of step [i] from a view. *)
Definition time_of {V} (times : V -> sched) (inc : bool) (v : view V) (i : Z) : Q :=
  match entity v KKin with
  | Some e => kin_time inc (times e) i
  | None => 0%Q
  end.

(** [n] steps from step [i] on, all from the same beginning. *)
Fixpoint apart {V} (times : V -> sched) (run : runner V) (v : view V) (i : Z) (n : nat)
  : list (row V) :=
  match n with
  | O => []
  | S m =>
    let t := time_of times false v i in
    mkRow i t t (snd (run i t v)) :: apart times run v (i + 1) m
  end.

(** [n] steps from step [i] on, each from the end of the one before. *)
Fixpoint chained {V} (times : V -> sched) (run : runner V) (u : use) (v : view V)
    (i : Z) (start : Q) (n : nat) : list (row V) :=
  match n with
  | O => []
  | S m =>
    let t := time_of times true v i in
    let '(w, res) := run i t v in
    mkRow i t (start + t)%Q res
      :: chained times run u (next_view u w res) (i + 1) (start + t)%Q m
  end.

(** The calculation gives a solution and each reactant in use. *)
Definition complete {V} (u : use) (run : runner V) : Prop :=
  forall i t v,
    (exists s, snd (run i t v) KSol = Some s) /\
    forall k, in_use u k = true ->
      (exists a, fst (run i t v) k = Some a) /\ (exists b, snd (run i t v) k = Some b).

(** The entities in use bear numbers that a user can give. *)
Definition user_numbers (u : use) : Prop :=
  forall k n, u k = Some n -> 0 <= n.
