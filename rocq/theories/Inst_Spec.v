(** What a user of one instance relies on. *)
From Coq Require Import String Ascii ZArith Bool List.
From Verif Require Import SelOut_Model Inst_Model.
Import ListNotations.
Local Open Scope string_scope.
Local Open Scope list_scope.
Local Open Scope Z_scope.

(** ** C24: the accumulated script *)
Definition discards (p : op) : bool :=
  match p with ClearAccumulated | RunString _ _ _ | RunFile _ _ _ | Load _ _ => true | _ => false end.
Fixpoint kept (h acc : list op) : list op :=
  match h with [] => acc | p :: r => kept r (if discards p then [] else acc ++ [p]) end.
(** The lines of each script: a run of the accumulated lines ends a script. *)
Fixpoint scripts (h : list op) : list (list string) :=
  match h with
  | [] => [[]]
  | Accumulate l :: r => match scripts r with x :: xs => (l :: x) :: xs | [] => [[l]] end
  | RunAccumulated _ _ :: r => [] :: scripts r
  | _ :: r => scripts r
  end.
Definition has_lines (l : list string) : bool := match l with [] => false | _ => true end.
(** The last script with any line since lines were last discarded. *)
Definition script_lines (h : list op) : list string := last (filter has_lines (scripts (kept h []))) [].
Fixpoint text_of (l : list string) : string :=
  match l with [] => "" | x :: r => (x ++ nl ++ text_of r)%string end.

(** No call ends with an exception other than the engine's own stop. *)
Definition ends_well (o : outcome) : bool := match o with Crash => false | _ => true end.
Definition orderly (p : op) : bool :=
  match p with
  | RunAccumulated _ o | RunString _ _ o | RunFile _ _ o => ends_well o
  | Load (Some (_, o)) (_, _, o2) => ends_well o && ends_well o2
  | Load None (_, _, o2) => ends_well o2
  | _ => true
  end.

(** ** C25: databases *)
Definition is_error (a : act) : bool := match a with AErr _ | AInputError => true | _ => false end.
(** The database could be opened and was read without an error. *)
Definition read_well (source : option (list act * outcome)) : bool :=
  match source with Some (l, Done) => forallb (fun a => negb (is_error a)) l | _ => false end.
Fixpoint usable (h : list op) (before : bool) : bool :=
  match h with [] => before | Load src _ :: r => usable r (read_well src) | _ :: r => usable r before end.
(** The engine did not report an error during the test run either. *)
Definition test_well (test : string * list act * outcome) : bool :=
  match test with (_, l, Done) => forallb (fun a => negb (is_error a)) l | _ => false end.

(** ** C26: lines *)
Definition one_line (l : string) : Prop := forall c, In c (list_ascii_of_string l) -> c <> Ascii.ascii_of_nat 10.
(** [ls] are the lines of [t]; the last newline may be missing. *)
Definition lines_of (t : string) (ls : list string) : Prop :=
  Forall one_line ls /\
  (text_of ls = t \/ exists ls' l, ls = ls' ++ [l] /\ l <> "" /\ t = (text_of ls' ++ l)%string).

(** ** C28: switches *)
(** The switch last set while [n] was current, since the last database load. *)
Definition current_after (c : Z) (p : op) : Z :=
  match p with SetCurrent n => if 0 <=? n then n else c | Load _ _ => 1 | _ => c end.
Fixpoint file_switch (h : list op) (c : Z) (b : bool) (n : Z) : bool :=
  match h with
  | [] => b
  | SetSelectedFileOn v :: r => file_switch r c (if c =? n then v else b) n
  | Load _ _ :: r => file_switch r 1 false n
  | p :: r => file_switch r (current_after c p) b n
  end.
Fixpoint string_switch (h : list op) (c : Z) (b : bool) (n : Z) : bool :=
  match h with
  | [] => b
  | SetSelectedStringOn v :: r => string_switch r c (if c =? n then v else b) n
  | Load _ _ :: r => string_switch r 1 false n
  | p :: r => string_switch r (current_after c p) b n
  end.
Fixpoint current (h : list op) (c : Z) : Z :=
  match h with [] => c | p :: r => current r (current_after c p) end.
