(** Files written at each step of a run: mmf_c/src/batch_run_functions.c
    single_run_pre_init 214-228, 286-308 (file of statistics variables) and
    313-417 (animation files), single_run_post_run 611-659; create_vstats.c
    53-106; write_vstats.c 49-107.

    The texts of numbers and dates are arguments. A variable is published once
    for the run; its values are those of the moment. Dimensions are told apart
    by their names, which are unique (Dim_Model). That files can be opened and
    that the variables were checked (check_vars.c) is assumed; names are shorter
    than the 50 characters of their copies. *)
From Coq Require Import String Ascii ZArith Bool List.
Import ListNotations.
Local Open Scope string_scope.
Local Open Scope list_scope.
Local Open Scope Z_scope.

Definition newline : string := String "010" "".
Definition tab : string := String "009" "".

Inductive type_ := Long | Float | Double | String_.
Definition number := Z.  (* the bits of a value *)

(** PUBVAR: name, type, first dimension. *)
Record pubvar := mkVar { vname : string; vtype : type_; dim0 : string }.

(** What a run is at one moment: the step count and the date as printed, and
    the values of the variables. *)
Record moment := mkMoment { count : string; date : string; stamp : string; values : string -> nat -> number }.

(** How numbers are printed. *)
Record printers := mkPrint {
  as_f : number -> string;        (* %f, of a float *)
  as_lf : number -> string;       (* %lf *)
  as_ld : number -> string;       (* %ld *)
  as_e10 : number -> string;      (* %10.3e *)
  as_e14 : number -> string;      (* %14.6e *)
  as_10ld : number -> string;     (* %10ld *)
  index : nat -> string           (* %10ld of an index *)
}.

(** create_vstats.c 98-99: up to the first point. *)
Fixpoint before_point (s : string) : string :=
  match s with "" => "" | String c r => if Ascii.eqb c "." then "" else String c (before_point r) end.

(** * The file of statistics variables *)

(** A chosen variable: its name and element as in the control file. *)
Record chosen := mkChosen { cname : string; celement : string }.

(** 286-308. [count_of] prints the number of variables. *)
Definition stat_header (count_of : nat -> string) (cs : list chosen) : string :=
  (count_of (List.length cs) ++ newline ++
   fold_right (fun c r => cname c ++ " " ++ celement c ++ newline ++ r) "" cs)%string.

(** create_vstats.c 82-105: key, place of the value, type. [None]: exit. *)
Definition entry := (string * nat * type_)%type.
Fixpoint create_vstats (find : string -> option pubvar) (place : string -> string -> nat) (cs : list chosen) : option (list entry) :=
  match cs with
  | [] => Some []
  | c :: r =>
    let key := before_point (cname c) in
    match find key with
    | None => None
    | Some v =>
      match create_vstats find place r with
      | Some l => Some ((key, place key (celement c), vtype v) :: l)
      | None => None
      end
    end
  end.

(** write_vstats.c 49-107. *)
Definition one_stat (p : printers) (m : moment) (e : entry) : string :=
  let '(key, o, t) := e in
  let x := values m key o in
  match t with
  | Float => (as_f p x ++ " ")%string
  | Double => (as_lf p x ++ " ")%string
  | Long => (as_ld p x ++ " ")%string
  | String_ => ""
  end.
Definition write_vstats (p : printers) (es : list entry) (m : moment) : string :=
  (count m ++ " " ++ date m ++ " " ++ fold_right (fun e r => one_stat p m e ++ r) "" es ++ newline)%string.

(** * Animation files *)

(** The files, by number; fprintf appends. *)
Definition files := nat -> string.
Definition print (fs : files) (i : nat) (s : string) : files :=
  fun k => if Nat.eqb k i then (fs k ++ s)%string else fs k.

(** 341-353: unique first dimensions. *)
Definition known_dim (ds : list string) (d : string) : bool := existsb (String.eqb d) ds.
Definition ani_dims (vs : list pubvar) : list string :=
  fold_left (fun ds v => if known_dim ds (dim0 v) then ds else ds ++ [dim0 v]) vs [].

(** 375-381: the file of a variable; the last match would win. *)
Definition file_of (ds : list string) (v : pubvar) : nat :=
  snd (fold_left (fun '(j, k) d => (S j, if String.eqb (dim0 v) d then j else k)) ds (O, O)).

Definition each_dim (ds : list string) (f : string -> string) (fs : files) : files :=
  snd (fold_left (fun '(i, fs) d => (S i, print fs i (f d))) ds (O, fs)).
Definition each_var (ds : list string) (vs : list pubvar) (f : pubvar -> string) (fs : files) : files :=
  fold_left (fun fs v => print fs (file_of ds v) (f v)) vs fs.

(** 360-417. *)
Definition headers (vs : list pubvar) : files :=
  let ds := ani_dims vs in
  let fs := fun _ => "" in
  let fs := each_dim ds (fun d => "#" ++ newline ++ "# Begin DBF" ++ newline ++
      "# timestamp,#FIELD_ISODATETIME,19,0" ++ newline ++ "# " ++ d ++ ",#FIELD_DECIMAL,10,2" ++ newline)%string fs in
  let fs := each_var ds vs (fun v => "# " ++ vname v ++ ",#FIELD_DECIMAL,10,2" ++ newline)%string fs in
  let fs := each_dim ds (fun _ => "# End DBF" ++ newline ++ "#" ++ newline)%string fs in
  let fs := each_dim ds (fun d => "timestamp" ++ tab ++ d)%string fs in
  let fs := each_var ds vs (fun v => tab ++ vname v)%string fs in
  let fs := each_dim ds (fun _ => newline) fs in
  let fs := each_dim ds (fun _ => "19d" ++ tab ++ "10n")%string fs in
  let fs := each_var ds vs (fun _ => tab ++ "10n")%string fs in
  each_dim ds (fun _ => newline) fs.

(** 637-655 for one variable: the number [k] is that of the variable, [i] that
    of the dimension; integers go to the file of variable [i]. *)
Definition one_value (p : printers) (m : moment) (ds : list string) (vs : list pubvar) (i : nat) (d : string) (j : nat)
    (fs : files) (v : pubvar) : files :=
  if String.eqb (dim0 v) d then
    let x := values m (vname v) j in
    match vtype v with
    | Double => print fs (file_of ds v) (tab ++ as_e10 p x)%string
    | Float => print fs (file_of ds v) (tab ++ as_e14 p x)%string
    | Long =>
      match nth_error vs i with
      | Some w => print fs (file_of ds w) (tab ++ as_10ld p x)%string
      | None => fs
      end
    | String_ => fs
    end
  else fs.

(** 625-657: row [j] of dimension [i]. *)
Definition one_row (p : printers) (m : moment) (ds : list string) (vs : list pubvar) (i : nat) (d : string) (fs : files) (j : nat) : files :=
  let fs := print fs i (stamp m ++ tab ++ index p (S j))%string in
  let fs := fold_left (one_value p m ds vs i d j) vs fs in
  print fs i newline.

(** 622-659; [size] of a dimension. *)
Definition one_step (p : printers) (size : string -> nat) (vs : list pubvar) (fs : files) (m : moment) : files :=
  let ds := ani_dims vs in
  snd (fold_left (fun '(i, fs) d => (S i, fold_left (one_row p m ds vs i d) (seq 0 (size d)) fs)) ds (O, fs)).

(** A run. *)
Definition animation (p : printers) (size : string -> nat) (vs : list pubvar) (ms : list moment) : files :=
  fold_left (one_step p size vs) ms (headers vs).
Definition statistics (p : printers) (count_of : nat -> string) (find : string -> option pubvar) (place : string -> string -> nat)
    (cs : list chosen) (ms : list moment) : option string :=
  match create_vstats find place cs with
  | Some es => Some (fold_left (fun s m => s ++ write_vstats p es m)%string ms (stat_header count_of cs))
  | None => None
  end.
