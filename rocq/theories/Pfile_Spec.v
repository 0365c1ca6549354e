(** What a list of parameter values looks like in a file, independent of the code. *)
From Coq Require Import String Ascii List ZArith Bool.
From Verif Require Import Elem_Spec.
Import ListNotations.
Local Open Scope string_scope.
Local Open Scope list_scope.

Definition newline : string := String "010"%char "".
Definition free_of (c : ascii) (s : string) : Prop := ~ In c (list_ascii_of_string s).
Fixpoint blanks (n : nat) : string := match n with O => "" | S n => String " " (blanks n) end.

(** A value, or "count*value". *)
Inductive entry := One (value : string) | Many (count value : string) (n : Z).
Definition plain (s : string) : Prop := s <> "" /\ free_of " " s /\ free_of "*" s /\ free_of "010" s.
Inductive shows : entry -> string -> Prop :=
| sh_one v : plain v -> shows (One v) v
| sh_many c v n : numeral c n -> (n < 2147483648)%Z -> plain v -> shows (Many c v n) (c ++ "*" ++ v).
Definition texts (e : entry) : list string := match e with One v => [v] | Many _ v n => repeat v (Z.to_nat n) end.
(** Entries separated by one or more blanks. *)
Inductive row : string -> list entry -> Prop :=
| row_one e t : shows e t -> row t [e]
| row_more e t k s es : shows e t -> row s es -> row (t ++ blanks (S k) ++ s) (e :: es).
(** The lines: values, or a note on the value before it. *)
Inductive item := Values (es : list entry) | Note (text : string).
Inductive written : item -> string -> Prop :=
| wr_values k s es close : row s es -> close = newline \/ close = "" -> prefix "@" (blanks k ++ s) = false -> prefix "####" (blanks k ++ s) = false ->
    written (Values es) (blanks k ++ s ++ close)
| wr_note t close : free_of "010" t -> close = newline \/ close = "" -> written (Note t) ("@" ++ t ++ close).
Definition listed (l : list item) : list string := flat_map (fun i => match i with Values es => flat_map texts es | Note _ => [] end) l.
(** The note on value [k] of the lines [l] when [n] values come before them: the last one. *)
Fixpoint note_on (k n : nat) (l : list item) (old : option string) : option string :=
  match l with
  | [] => old
  | Values es :: l => note_on k (n + List.length (flat_map texts es)) l old
  | Note t :: l => note_on k n l (if Nat.eqb n (S k) then Some t else old)
  end.
(** No note comes before the first value. *)
Fixpoint notes_after (n : nat) (l : list item) : Prop :=
  match l with [] => True | Values es :: l => notes_after (n + List.length (flat_map texts es)) l | Note _ :: l => 0 < n /\ notes_after n l end.

(** A number at the start of a line, followed by a blank or the newline. *)
Definition number_line (s : string) (v : Z) : Prop := exists d c r, numeral d v /\ s = (d ++ String c r)%string /\ (c = " " \/ c = "010")%char.
Definition ended (s : string) : Prop := exists t, s = (t ++ newline)%string.
(** The name at the start of a line, followed by the newline or a blank and anything. *)
Definition name_line (s name : string) : Prop :=
  name <> "" /\ free_of " " name /\ free_of "010" name /\ String.length name < 50 /\ prefix "####" name = false /\
  (s = (name ++ newline)%string \/ exists r, s = (name ++ " " ++ r ++ newline)%string).
(** The lines before the values: header, name, number and names of the dimensions, size and type. *)
Inductive heading (name : string) (dims : list string) (size type : Z) : list string -> Prop :=
| hd_lines h k n ds z t : prefix "####" h = true -> ended h -> name_line k name -> number_line n (Z.of_nat (List.length dims)) -> ended n ->
    Forall2 (fun d l => l = (d ++ newline)%string /\ String.length d < 49) dims ds -> number_line z size -> ended z -> number_line t type -> ended t ->
    heading name dims size type (h :: k :: n :: ds ++ [z; t]).

(** A file: blocks of declared parameters with their values, and of parameters nobody declared.  [sig] gives dimensions, size and type. *)
Inductive block := Declared (name : string) (items : list item) | Unknown (name : string).
Inductive block_lines (sig : string -> option (list string * Z * Z)) : block -> list string -> Prop :=
| bl_declared name items dims size type hl vl : sig name = Some (dims, size, type) -> dims <> [] -> List.length dims <= 3 -> (0 < size < 2147483648)%Z ->
    (0 < type < 2147483648)%Z -> heading name dims size type hl -> Forall2 written items vl -> Z.of_nat (List.length (listed items)) = size -> notes_after 0 items ->
    block_lines sig (Declared name items) (hl ++ vl)
| bl_unknown name h k body : sig name = None -> prefix "####" h = true -> ended h -> name_line k name -> Forall (fun l => prefix "####" l = false) body ->
    block_lines sig (Unknown name) (h :: k :: body).
(** The values of the last block of a parameter. *)
Fixpoint last_block (name : string) (bs : list block) : option (list item) :=
  match bs with
  | [] => None
  | b :: bs => match last_block name bs with
               | Some i => Some i
               | None => match b with Declared n items => if String.eqb n name then Some items else None | Unknown _ => None end
               end
  end.
(** All lines end with a newline, except possibly some of the last block; the last block is declared. *)
Fixpoint regular (bs : list block) (lss : list (list string)) : Prop :=
  match bs, lss with
  | [Declared _ _], [_] => True
  | _ :: bs, ls :: lss => Forall ended ls /\ regular bs lss
  | _, _ => False
  end.
