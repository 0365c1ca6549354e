(** The command line: mmf_c/src/parse_args.c 89-154 and the -set overrides of mmf.c 62-122.  argv is a list; argv[argc]
    is NULL and reading through it is undefined.  The tables of -set have 100 entries (mmf.c 69-70). *)
From Coq Require Import String Ascii List ZArith Bool.
From Verif Require Import CStr_Model CNum_Model Elem_Model Ctrl_Model.
Import ListNotations.
Local Open Scope string_scope.
Local Open Scope list_scope.
Local Open Scope Z_scope.

Record settings := mkSettings { debug : Z; cont_file : string; env_file : option string; batch : bool; esp : bool; rosenbrock : bool;
  print_mode : bool; period_of_record : bool; runtime_graph : bool; set_pairs : list (string * string) }.
(** parse_args.c 94-95; the others are static and zero. *)
Definition initial : settings := mkSettings 0 "control" None false false false false false false [].
Definition set_debug (s : settings) (x : Z) := mkSettings x (cont_file s) (env_file s) (batch s) (esp s) (rosenbrock s) (print_mode s) (period_of_record s) (runtime_graph s) (set_pairs s).
Definition set_cont (s : settings) (x : string) := mkSettings (debug s) x (env_file s) (batch s) (esp s) (rosenbrock s) (print_mode s) (period_of_record s) (runtime_graph s) (set_pairs s).
Definition set_env (s : settings) (x : string) := mkSettings (debug s) (cont_file s) (Some x) (batch s) (esp s) (rosenbrock s) (print_mode s) (period_of_record s) (runtime_graph s) (set_pairs s).
Definition set_batch (s : settings) := mkSettings (debug s) (cont_file s) (env_file s) true (esp s) (rosenbrock s) (print_mode s) (period_of_record s) (runtime_graph s) (set_pairs s).
Definition set_esp (s : settings) := mkSettings (debug s) (cont_file s) (env_file s) (batch s) true (rosenbrock s) (print_mode s) (period_of_record s) (runtime_graph s) (set_pairs s).
Definition set_rosenbrock (s : settings) := mkSettings (debug s) (cont_file s) (env_file s) (batch s) (esp s) true (print_mode s) (period_of_record s) (runtime_graph s) (set_pairs s).
Definition set_print (s : settings) := mkSettings (debug s) (cont_file s) (env_file s) (batch s) (esp s) (rosenbrock s) true (period_of_record s) (runtime_graph s) (set_pairs s).
Definition set_por (s : settings) := mkSettings (debug s) (cont_file s) (env_file s) (batch s) (esp s) (rosenbrock s) (print_mode s) true (runtime_graph s) (set_pairs s).
Definition set_rtg (s : settings) := mkSettings (debug s) (cont_file s) (env_file s) (batch s) (esp s) (rosenbrock s) (print_mode s) (period_of_record s) true (set_pairs s).
Definition set_pair (s : settings) (n v : string) := mkSettings (debug s) (cont_file s) (env_file s) (batch s) (esp s) (rosenbrock s) (print_mode s) (period_of_record s) (runtime_graph s) (set_pairs s ++ [(n, v)]).
(** MAltContFile += 2 *)
Definition skip2 (a : string) : string := substring 2 (String.length a - 2) a.
(** 112-152: the arguments after argv[0]. *)
Fixpoint parse (args : list string) (s : settings) : outcome settings :=
  match args with
  | [] => Ret s
  | a :: r =>
      if String.eqb a "-debug" then match r with n :: _ => parse r (set_debug s (atoi n)) | [] => UB end
      else if prefix "-C" a then parse r (set_cont s (skip2 a))
      else if prefix "-E" a then parse r (set_env s (skip2 a))
      else if prefix "-batch" a then parse r (set_batch s)
      else if prefix "-esp" a then parse r (set_esp s)
      else if prefix "-rosenbrock" a then parse r (set_rosenbrock s)
      else if prefix "-print" a then parse r (set_print s)
      else if prefix "-por" a then parse r (set_por s)
      else if prefix "-rtg" a then parse r (set_rtg s)
      else if prefix "-set" a then
        match r with
        | n :: v :: r => if Nat.ltb (List.length (set_pairs s)) 100 then parse r (set_pair s n v) else UB
        | _ => UB
        end
      else parse r (set_cont s a)
  end.
Definition parse_args (args : list string) : outcome settings := parse args initial.
(** 97-104: the model name. *)
Definition model_name (argv0 : string) : string :=
  match split_last "/" argv0 with
  | Some (_, r) => r
  | None => match split_last "\" argv0 with Some (_, r) => r | None => argv0 end
  end.

Section Over.
Context {V : Type}.
Variable atof : string -> V.
(** mmf.c 97-115: the values of one variable from the [j]-th; no element is checked against the size. *)
Fixpoint set_values (ty : Z) (mem : list (@cell V)) (j : nat) (ts : list string) : outcome (list cell) :=
  match ts with
  | [] => Ret mem
  | t :: ts =>
      do mem <- (if ty =? 3 then put mem ty j (VDouble (atof t)) else if ty =? 2 then put mem ty j (VFloat (atof t))
                 else if ty =? 1 then put mem ty j (VLong (atol t)) else if ty =? 4 then put mem ty j (VString t) else Ret mem);
      set_values ty mem (S j) ts
  end.
(** mmf.c 89-122 *)
Definition set_control (d : @db V) (name value : string) : outcome (@db V) :=
  match control_addr d name with
  | None => Ret d
  | Some c => do mem <- set_values (c_type c) (c_mem c) 0 (strtok is_comma value); Ret (update d (mkControl (c_key c) (c_size c) (c_type c) mem))
  end.
Fixpoint overrides (d : @db V) (l : list (string * string)) : outcome (@db V) :=
  match l with [] => Ret d | (n, v) :: l => do d <- set_control d n v; overrides d l end.
End Over.
