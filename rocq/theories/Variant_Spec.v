(** Variants as plain values. *)
From Coq Require Import String ZArith QArith Bool List.
From Verif Require Import Variant_Model.
Import ListNotations.
Local Open Scope Z_scope.

(** [Absent]: not constructed, or destroyed. *)
Inductive value := Absent | VEmpty | VError (code : Z) | VLong (n : Z) | VDouble (x : Q) | VString (t : option string).
Definition values := Z -> value.

(** A string value, or the error of a failed allocation. *)
Definition string_value (t : option string) (ok : bool) : value :=
  match t with Some _ => if ok then VString t else VError VR_OUTOFMEMORY | None => VString None end.
Definition copied (x : value) (ok : bool) : value :=
  match x with VString t => string_value t ok | _ => x end.
(** What each operation does to the values: only the named variant changes. *)
Definition effect (w : values) (o : op) : values :=
  match o with
  | New v => upd w v VEmpty
  | NewCopy v src ok | Assign v src ok => upd w v (copied (w src) ok)
  | NewDouble v x | AssignDouble v x => upd w v (VDouble x)
  | NewLong v n => upd w v (VLong n)
  | NewString v t ok | AssignString v t ok => upd w v (string_value t ok)
  | AssignOwn v ok => w
  | Clear v => upd w v VEmpty
  | Delete v => upd w v Absent
  end.
(** C++ rules on object life time; a variant is not assigned to itself nor from its own characters. *)
Definition allowed (w : values) (o : op) : Prop :=
  match o with
  | New v | NewDouble v _ | NewLong v _ | NewString v _ _ => w v = Absent
  | NewCopy v src _ => w v = Absent /\ w src <> Absent
  | Assign v src _ => w v <> Absent /\ w src <> Absent /\ v <> src
  | AssignDouble v _ | AssignString v _ _ | Clear v | Delete v => w v <> Absent
  | AssignOwn _ _ => False
  end.
Fixpoint effects (w : values) (l : list op) : values :=
  match l with [] => w | o :: r => effects (effect w o) r end.
Fixpoint all_allowed (w : values) (l : list op) : Prop :=
  match l with [] => True | o :: r => allowed w o /\ all_allowed (effect w o) r end.
Definition nothing : values := fun _ => Absent.

(** The value of variant [v] as its user reads it; a buffer that is not live cannot be read. *)
Definition reads (s : state) (v : Z) (x : value) : Prop :=
  match vars s v with
  | Empty => x = VEmpty
  | Error c => x = VError c
  | Long n => x = VLong n
  | Double y => x = VDouble y
  | Str None => x = VString None
  | Str (Some a) => exists t, heap s a = Live t /\ x = VString (Some t)
  | Bad => x = Absent
  end.
(** Buffers are neither shared nor lost. *)
Definition exclusive (s : state) : Prop := forall v w a, vars s v = Str (Some a) -> vars s w = Str (Some a) -> v = w.
Definition no_leak (s : state) : Prop := forall a t, heap s a = Live t -> exists v, vars s v = Str (Some a).
