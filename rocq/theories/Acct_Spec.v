(** What the theorems on the accounts of water and solutes say, in terms of the accounts alone. *)
From Coq Require Import ZArith QArith List Bool.
From Verif Require Import Qx Soln_Model Acct_Model.
Import ListNotations.
Local Open Scope Q_scope.

(** Every entry of the first account is the sum of the entries of the two others. *)
Definition Parts (g a b : geo) : Prop :=
  (forall c, vol g c == vol a c + vol b c) /\
  (forall c, temp g c == temp a c + temp b c) /\
  (forall c, pH g c == pH a c + pH b c) /\
  (forall n c, mol g n c == mol a n c + mol b n c) /\
  (forall n c, dlt g n c == dlt a n c + dlt b n c) /\
  (forall n j, ent g n j == ent a n j + ent b n j) /\
  (forall n, efr g n == efr a n + efr b n).

(** The sum of a quantity over hillslopes 1 to m. *)
Fixpoint sum_to (m : nat) (f : Z -> Q) : Q :=
  match m with O => 0 | S m' => sum_to m' f + f (Z.of_nat m) end.

(** The reaction entries of the basin are those of the m hillslopes plus those of the streams. *)
Definition Adds_up (m : nat) (s : acct) : Prop :=
  (forall n, mol (bas s) n 4%Z == sum_to m (fun i => mol (mru s i) n 4%Z) + mol (hyd s) n 4%Z) /\
  (forall n j, ent (bas s) n j == sum_to m (fun i => ent (mru s i) n j) + ent (hyd s) n j) /\
  (forall n, efr (bas s) n == sum_to m (fun i => efr (mru s i) n) + efr (hyd s) n).

(** Calls that the main routine makes: one of the five metrics; what reacts is a reservoir of a
    hillslope that exists or a stream. *)
Definition Proper (m : nat) (ev : event) : Prop :=
  match ev with
  | EUpdate e =>
      In (imetric e) [0; 1; 2; 3; -1]%Z /\
      (react e = true ->
       (1 <= restype e <= 9)%Z /\ (1 <= is_ e <= Z.of_nat m)%Z \/ restype e = 99%Z) /\
      (mrubnd e = true -> (1 <= is_ e <= Z.of_nat m)%Z)
  | EGround _ i _ _ _ _ => (1 <= i <= Z.of_nat m)%Z
  | _ => True
  end.

(** An account with nothing in it. *)
Definition empty : geo :=
  Build_geo (fun _ => 0) (fun _ => 0) (fun _ => 0) (fun _ _ => 0) (fun _ _ => 0) (fun _ _ => 0)
    (fun _ => 0) (fun _ => 0) (fun _ => 0).
Definition nothing : acct :=
  Build_acct (fun _ => empty) empty empty (fun _ => empty) (fun _ => empty) (fun _ => empty)
    (fun _ => empty).

(** What the entities of a reservoir made of a solute, together. *)
Definition made_by (k : cfg) (g : geo) (n : Z) : Q := qsum (map (ent g n) (entities k)).

(** The rank of solute n among the isotopes. *)
Definition rank (k : cfg) (n : Z) : Z := Z.of_nat (length (filter (iso k) (upto 1 n))).

(** The sum of a quantity over segments a to b. *)
Definition total (f : Z -> Q) (a b : Z) : Q := qsum (map f (upto a b)).

(** The volume that reacts in a call: what the call leaves in a reservoir; for a stream segment the
    water that goes on to the next one, and for the outlet the discharge. *)
Definition reaction_volume (k : cfg) (s : acct) (e : call) : Q :=
  if is_stream e then if (1 <? ih_ e)%Z then vstream k (ih_ e - 1)%Z else qout k
  else vol (cc s (indx e)) 5%Z.

(** Events that bring in no negative volumes, and only water between lo and hi degrees. *)
Definition Mild (lo hi : Q) (ev : event) : Prop :=
  match ev with
  | EUpdate e => In (imetric e) [0; 2]%Z -> 0 <= totvol e /\ lo <= tempc e <= hi
  | EGround true _ v t _ _ => 0 <= v /\ lo <= t <= hi
  | _ => True
  end.
