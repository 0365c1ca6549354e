(** Command lines, independent of the code. *)
From Coq Require Import String Ascii List ZArith Bool.
Import ListNotations.
Local Open Scope string_scope.
Local Open Scope list_scope.

Inductive switch := Batch | Esp | Rosenbrock | Print | Por | Rtg.
Definition switch_text (s : switch) : string :=
  match s with Batch => "-batch" | Esp => "-esp" | Rosenbrock => "-rosenbrock" | Print => "-print" | Por => "-por" | Rtg => "-rtg" end.
Inductive item := Switch (s : switch) | Control (f : string) | Environment (f : string) | Set_ (name value : string) | File (f : string) | Debug (n : string).
Definition option_starts : list string := ["-C"; "-E"; "-batch"; "-esp"; "-rosenbrock"; "-print"; "-por"; "-rtg"; "-set"].
(** Not an option. *)
Definition is_file (f : string) : Prop := f <> "-debug" /\ Forall (fun o => prefix o f = false) option_starts.
Definition arguments (i : item) : list string :=
  match i with
  | Switch s => [switch_text s] | Control f => [("-C" ++ f)%string] | Environment f => [("-E" ++ f)%string] | Set_ n v => ["-set"; n; v] | File f => [f] | Debug n => ["-debug"; n]
  end.
Definition good (i : item) : Prop := match i with File f => is_file f | Debug n => is_file n | _ => True end.
Definition no_debug (i : item) : Prop := match i with Debug _ => False | _ => True end.
(** The last one named, or the default. *)
Fixpoint control_of (default : string) (l : list item) : string :=
  match l with [] => default | Control f :: l => control_of f l | File f :: l => control_of f l | _ :: l => control_of default l end.
Fixpoint environment_of (default : option string) (l : list item) : option string :=
  match l with [] => default | Environment f :: l => environment_of (Some f) l | _ :: l => environment_of default l end.
Fixpoint pairs_of (l : list item) : list (string * string) := match l with [] => [] | Set_ n v :: l => (n, v) :: pairs_of l | _ :: l => pairs_of l end.
(** Values separated by commas. *)
Definition value_text (t : string) : Prop := t <> "" /\ ~ In ","%char (list_ascii_of_string t).
Inductive comma_list : string -> list string -> Prop :=
| cl_one t : value_text t -> comma_list t [t]
| cl_more t s ts : value_text t -> comma_list s ts -> comma_list (t ++ "," ++ s) (t :: ts).
