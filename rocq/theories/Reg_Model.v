(** The instance registry: IPhreeqc.cpp 15-17, 24-93, IPhreeqcLib.cpp 1040-1084 and
    IPhreeqcMMS/src/IPhreeqcMMSLib.cpp 34-75.  Locking is not modelled (one thread). *)
From Coq Require Import String ZArith Bool List.
From Verif Require Import SelOut_Model Inst_Model.
Import ListNotations.
Local Open Scope Z_scope.

Definition IPQ_OK : Z := 0.
Definition IPQ_OUTOFMEMORY : Z := -1.
Definition IPQ_BADINSTANCE : Z := -6.

(** Class of the object: IPhreeqc or IPhreeqcMMS. *)
Inductive kind := Plain | Mms.
(** Instances (an ordered map from size_t) and InstancesIndex. *)
Record registry := mkR { live : list (Z * (kind * inst)); next : Z }.
Definition start : registry := mkR [] 0.
(** C conversions between int (32 bits) and size_t (64 bits). *)
Definition to_int (n : Z) : Z := let m := n mod 2 ^ 32 in if m <? 2 ^ 31 then m else m - 2 ^ 32.
Definition to_size (n : Z) : Z := n mod 2 ^ 64.
Fixpoint lookup {A} (m : list (Z * A)) (k : Z) : option A :=
  match m with [] => None | (n, x) :: r => if n =? k then Some x else lookup r k end.
(** map::insert: an existing entry is kept. *)
Fixpoint insert {A} (m : list (Z * A)) (k : Z) (x : A) : list (Z * A) :=
  match m with
  | [] => [(k, x)]
  | (n, y) :: r => if n =? k then m else if k <? n then (k, x) :: m else (n, y) :: insert r k x
  end.
Fixpoint erase {A} (m : list (Z * A)) (k : Z) : list (Z * A) :=
  match m with [] => [] | (n, x) :: r => if n =? k then r else (n, x) :: erase r k end.
Fixpoint update {A} (m : list (Z * A)) (k : Z) (x : A) : list (Z * A) :=
  match m with [] => [] | (n, y) :: r => if n =? k then (n, x) :: r else (n, y) :: update r k x end.

(** IPhreeqcLib::CreateIPhreeqc and IPhreeqcMMSLib::CreateIPhreeqcMMS; [ok] false: out of memory
    before the constructor registers the object. *)
Definition create (r : registry) (k : kind) (ok : bool) : registry * Z :=
  if ok then (mkR (insert (live r) (next r) (k, created)) (to_size (next r + 1)), to_int (next r))
  else (r, IPQ_OUTOFMEMORY).
(** GetInstance. *)
Definition get_instance (r : registry) (id : Z) : option (kind * inst) := lookup (live r) (to_size id).
(** DestroyIPhreeqc. *)
Definition destroy (r : registry) (id : Z) : registry * Z :=
  if id >=? 0 then
    match get_instance r id with
    | Some _ => (mkR (erase (live r) (to_size id)) (next r), IPQ_OK)
    | None => (r, IPQ_BADINSTANCE)
    end
  else (r, IPQ_BADINSTANCE).
(** DestroyIPhreeqcMMS: the cast fails for an object of the other class. *)
Definition destroy_mms (r : registry) (id : Z) : registry * Z :=
  if id >=? 0 then
    match get_instance r id with
    | Some (Mms, _) => (mkR (erase (live r) (to_size id)) (next r), IPQ_OK)
    | _ => (r, IPQ_BADINSTANCE)
    end
  else (r, IPQ_BADINSTANCE).
(** The C functions of IPhreeqcLib.cpp that act on an instance, e.g. AccumulateLine 18-34,
    RunString 780-789, SetCurrentSelectedOutputUserNumber 829-843. *)
Inductive answer := ACode (n : Z) | AResult (r : result).
Definition use (r : registry) (id : Z) (p : op) : registry * answer :=
  match get_instance r id with
  | Some (k, s) => (mkR (update (live r) (to_size id) (k, stepi s p)) (next r), AResult (snd (fst (step s p))))
  | None => (r, ACode IPQ_BADINSTANCE)
  end.

Inductive call := Create (k : kind) (ok : bool) | Destroy (id : Z) | DestroyMms (id : Z) | Use (id : Z) (p : op).
Definition exec (r : registry) (c : call) : registry * answer :=
  match c with
  | Create k ok => let (r1, n) := create r k ok in (r1, ACode n)
  | Destroy id => let (r1, n) := destroy r id in (r1, ACode n)
  | DestroyMms id => let (r1, n) := destroy_mms r id in (r1, ACode n)
  | Use id p => use r id p
  end.
Definition execs (r : registry) (h : list call) : registry := fold_left (fun r c => fst (exec r c)) h r.
