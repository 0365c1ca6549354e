(** Value variants: IPhreeqcMMS/IPhreeqc/src/Var.c and the class CVar of CVar.hxx, with an explicit
    heap of string buffers.  Doubles are rationals (only copied).  Assertions are taken as switched
    off.  Whether malloc succeeds is an argument. *)
From Coq Require Import String ZArith QArith Bool List.
Import ListNotations.
Local Open Scope Z_scope.

(** VAR (Var.h 43-51): the member of the union selected by the type; the others are never read.
    [Str None] is a NULL pointer; [Bad] is any other type (uninitialised storage). *)
Inductive var := Empty | Error (code : Z) | Long (n : Z) | Double (x : Q) | Str (p : option Z) | Bad.
Definition VR_OK : Z := 0.
Definition VR_OUTOFMEMORY : Z := -1.
Definition VR_BADVARTYPE : Z := -2.

Inductive cell := Unused | Live (s : string) | Freed.
(** The heap, the next address to be given out, and the variants by number. *)
Record state := mkS { heap : Z -> cell; next : Z; vars : Z -> var }.

Definition upd {A} (f : Z -> A) (k : Z) (x : A) : Z -> A := fun j => if j =? k then x else f j.
Definition set_var (s : state) (v : Z) (x : var) : state := mkS (heap s) (next s) (upd (vars s) v x).

(** Var.c 87-90 (free of anything but a live buffer is undefined: None). *)
Definition free_string (s : state) (p : option Z) : option state :=
  match p with
  | None => Some s
  | Some a => match heap s a with
              | Live _ => Some (mkS (upd (heap s) a Freed) (next s) (vars s))
              | _ => None
              end
  end.
(** Var.c 78-85: the copy of the characters [src]; [ok]: malloc succeeds. *)
Definition alloc_string (s : state) (src : option string) (ok : bool) : state * option Z :=
  match src with
  | None => (s, None)
  | Some t => if ok then (mkS (upd (heap s) (next s) (Live t)) (next s + 1) (vars s), Some (next s)) else (s, None)
  end.
(** Reading the characters behind a pointer. *)
Definition read_string (s : state) (p : option Z) : option (option string) :=
  match p with
  | None => Some None
  | Some a => match heap s a with Live t => Some (Some t) | _ => None end
  end.

(** Var.c 9-14. *)
Definition var_init (s : state) (v : Z) : state := set_var s v Empty.
(** Var.c 16-36. *)
Definition var_clear (s : state) (v : Z) : option (state * Z) :=
  match vars s v with
  | Bad => Some (s, VR_BADVARTYPE)
  | Str p => match free_string s p with Some s' => Some (var_init s' v, VR_OK) | None => None end
  | _ => Some (var_init s v, VR_OK)
  end.
(** Var.c 38-76. *)
Definition var_copy (s : state) (d src : Z) (ok : bool) : option (state * Z) :=
  match var_clear s d with
  | None => None
  | Some (s1, _) =>
      match vars s1 src with
      | Empty => Some (set_var s1 d Empty, VR_OK)
      | Long n => Some (set_var s1 d (Long n), VR_OK)
      | Double x => Some (set_var s1 d (Double x), VR_OK)
      | Error c => Some (set_var s1 d (Error c), VR_OK)
      | Str p =>
          match read_string s1 p with
          | None => None
          | Some t =>
              let (s2, q) := alloc_string s1 t ok in
              match q, p with
              | None, Some _ => Some (set_var s2 d (Error VR_OUTOFMEMORY), VR_OUTOFMEMORY)
              | _, _ => Some (set_var s2 d (Str q), VR_OK)
              end
          end
      | Bad => Some (set_var s1 d Bad, VR_BADVARTYPE)
      end
  end.

(** CVar.hxx: the constructors on fresh storage, the assignments and the destructor. *)
Inductive op :=
| New (v : Z)                                  (* CVar(void) 11-14 *)
| NewCopy (v src : Z) (ok : bool)              (* CVar(const CVar&) 19-28 *)
| NewDouble (v : Z) (x : Q)                    (* 29-33 *)
| NewLong (v : Z) (n : Z)                      (* 39-43 *)
| NewString (v : Z) (t : option string) (ok : bool)     (* 34-38 *)
| Assign (v src : Z) (ok : bool)               (* operator= 47-56 *)
| AssignDouble (v : Z) (x : Q)                 (* operator=(double) 57-66 *)
| AssignString (v : Z) (t : option string) (ok : bool)  (* operator=(const char* ) 67-79, characters outside the variants *)
| AssignOwn (v : Z) (ok : bool)                (* the same with the variant's own characters: v = v.sVal *)
| Clear (v : Z)                                (* 85 *)
| Delete (v : Z).                              (* ~CVar 15-18 *)

(** 101-109. *)
Definition internal_copy (s : state) (d src : Z) (ok : bool) : option state :=
  match var_copy s d src ok with
  | None => None
  | Some (s', r) => Some (if r =? VR_OK then s' else set_var s' d (Error r))
  end.
(** 67-79, after Clear. *)
Definition set_string (s : state) (v : Z) (t : option string) (ok : bool) : state :=
  let (s', q) := alloc_string s t ok in
  match q, t with
  | None, Some _ => set_var s' v (Error VR_OUTOFMEMORY)
  | _, _ => set_var s' v (Str q)
  end.
Definition step (s : state) (o : op) : option state :=
  match o with
  | New v => Some (var_init s v)
  | NewCopy v src ok => internal_copy (set_var s v Empty) v src ok
  | NewDouble v x => Some (set_var s v (Double x))
  | NewLong v n => Some (set_var s v (Long n))
  | NewString v t ok =>
      match var_clear (set_var s v Empty) v with
      | Some (s1, _) => Some (set_string s1 v t ok)
      | None => None
      end
  | Assign v src ok => internal_copy s v src ok
  | AssignDouble v x =>
      match vars s v with
      | Double _ => Some (set_var s v (Double x))
      | _ => match var_clear s v with
             | Some (s1, _) => Some (set_var s1 v (Double x))
             | None => None
             end
      end
  | AssignString v t ok =>
      match var_clear s v with
      | Some (s1, _) => Some (set_string s1 v t ok)
      | None => None
      end
  | AssignOwn v ok =>
      match vars s v with
      | Str p =>
          match var_clear s v with
          | None => None
          | Some (s1, _) => match read_string s1 p with
                            | None => None
                            | Some t => Some (set_string s1 v t ok)
                            end
          end
      | _ => None
      end
  | Clear v => match var_clear s v with Some (s1, _) => Some s1 | None => None end
  | Delete v => match var_clear s v with Some (s1, _) => Some (set_var s1 v Bad) | None => None end
  end.
Fixpoint run (s : state) (l : list op) : option state :=
  match l with
  | [] => Some s
  | o :: r => match step s o with Some s' => run s' r | None => None end
  end.
Definition start : state := mkS (fun _ => Unused) 0 (fun _ => Bad).
