(** Coordinates in tables stored with the first index running fastest. *)
From Coq Require Import String List ZArith.
From Verif Require Import Resize_Model.
Import ListNotations.

(** Position of the cell with coordinates [c] in a table with the given extents. *)
Fixpoint position (extents c : list nat) : nat :=
  match extents, c with n :: ns, x :: xs => x + n * position ns xs | _, _ => 0 end.
Definition inside (extents c : list nat) : Prop := Forall2 (fun n x => x < n) extents c.
Definition cell {A} (extents : list nat) (l : list A) (c : list nat) : option A := nth_error l (position extents c).
Fixpoint count (extents : list nat) : nat := match extents with [] => 1 | n :: ns => n * count ns end.

(** The coordinate existing in a table of the given extents that is nearest to [c]. *)
Fixpoint nearest (extents c : list nat) : list nat :=
  match extents, c with n :: ns, x :: xs => Nat.min x (n - 1) :: nearest ns xs | _, _ => [] end.
(** Values capped at [n]. *)
Definition cap (n : nat) (v : option Z) : option Z := match v with Some x => Some (Z.min x (Z.of_nat n)) | None => None end.

(** A parameter with complete arrays. *)
Definition full (n : nat) (l : cells) : Prop := length l = n /\ Forall (fun c => c <> None) l.
Record complete (ds : dims) (p : param) : Prop := {
  k_dims : NoDup (p_dims p);
  k_pos : Forall (fun n => 1 <= n) (values ds (p_dims p));
  k_size : p_size p = count (values ds (p_dims p));
  k_value : full (p_size p) (p_value p);
  k_min : full (p_size p) (p_min p);
  k_max : full (p_size p) (p_max p) }.
(** What happens to a parameter when dimension [d] goes to [n]. *)
Record moved (ds ds' : dims) (d : string) (n : nat) (p q : param) : Prop := {
  m_dims : p_dims q = p_dims p;
  m_bound : p_bound q = p_bound p;
  m_value : forall c, inside (values ds' (p_dims p)) c -> cell (values ds' (p_dims p)) (p_value q) c =
     let old := cell (values ds (p_dims p)) (p_value p) (nearest (values ds (p_dims p)) c) in
     match p_bound p with Some b => if String.eqb b d then option_map (cap n) old else old | None => old end;
  m_min : forall c, inside (values ds' (p_dims p)) c -> cell (values ds' (p_dims p)) (p_min q) c = cell (values ds (p_dims p)) (p_min p) (nearest (values ds (p_dims p)) c);
  m_max : forall c, inside (values ds' (p_dims p)) c -> cell (values ds' (p_dims p)) (p_max q) c =
     let old := cell (values ds (p_dims p)) (p_max p) (nearest (values ds (p_dims p)) c) in
     match p_bound p with Some b => if String.eqb b d then Some (Some (Z.of_nat n)) else old | None => old end }.
