(** The table as a history of writes. *)
From Coq Require Import String ZArith QArith Bool List.
From Verif Require Import SelOut_Model.
Import ListNotations.
Local Open Scope string_scope.
Local Open Scope list_scope.

(** The events after the last Clear. *)
Fixpoint since (h : list event) (acc : list event) : list event :=
  match h with [] => acc | Clear :: r => since r [] | e :: r => since r (acc ++ [e]) end.
Definition recent (h : list event) : list event := since h [].

(** Headings in the order of first use. *)
Fixpoint first_uses (seen : list string) (h : list event) : list string :=
  match h with
  | [] => []
  | Push k _ :: r => if existsb (String.eqb k) seen then first_uses seen r else k :: first_uses (k :: seen) r
  | _ :: r => first_uses seen r
  end.
Definition heads (h : list event) : list string := first_uses [] (recent h).

(** The writes between row ends; the last segment is the row not ended yet. *)
Fixpoint segments (h : list event) : list (list (string * val)) :=
  match h with
  | [] => [[]]
  | Push k v :: r => match segments r with s :: ss => ((k, v) :: s) :: ss | [] => [[(k, v)]] end
  | End :: r => [] :: segments r
  | Clear :: r => segments r
  end.
(** Row ends before the first write do not make rows. *)
Fixpoint drop_empty {A} (l : list (list A)) : list (list A) :=
  match l with [] :: r => drop_empty r | _ => l end.
Definition rows (h : list event) : list (list (string * val)) := drop_empty (removelast (segments (recent h))).
(** The last value written for heading [k] in a row. *)
Fixpoint last_write (row : list (string * val)) (k : string) : val :=
  match row with
  | [] => VEmpty
  | (n, v) :: r => if String.eqb n k && negb (existsb (fun p => String.eqb (fst p) k) r) then v else last_write r k
  end.
