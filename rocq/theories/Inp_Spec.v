(** What the properties on reading input say, apart from the model. *)
From Coq Require Import String Ascii ZArith Bool List.
From Verif Require Import Inp_Model.
Import ListNotations.
Local Open Scope string_scope.
Local Open Scope list_scope.
Local Open Scope Z_scope.

(** * A text, as its author sees it *)

(** Every character of [s] is in [p]. *)
Fixpoint each (p : ascii -> bool) (s : string) : bool :=
  match s with "" => true | String c r => p c && each p r end.

(** A character without special meaning. *)
Definition ordinary (c : ascii) : bool :=
  negb (Ascii.eqb c hash || Ascii.eqb c semicolon || Ascii.eqb c backslash || Ascii.eqb c newline || Ascii.eqb c return_).
(** A blank inside of a line. *)
Definition gap (c : ascii) : bool := isspace c && ordinary c.

(** The parts of a line: text; a backslash followed by blanks and a character
    that is not blank, which both stay; and a backslash at the end of a
    physical line, which joins it to the next. *)
Inductive part :=
| Plain (s : string)
| Escaped (blanks : string) (c : ascii)
| Joined (blanks : string).

(** How a line ends. [Eof]: at the end of the file. *)
Inductive ending := Newline | Semicolon | Remark (s : string) | Eof | RemarkEof (s : string).

Record doc_line := mkLine { parts : list part; fin : ending }.

Definition good_part (p : part) : Prop :=
  match p with
  | Plain s => each ordinary s = true
  | Escaped b c => each gap b = true /\ isspace c = false /\ c <> backslash /\ c <> hash
  | Joined b => each gap b = true
  end.
Definition no_newline (c : ascii) : bool := negb (Ascii.eqb c newline || Ascii.eqb c return_).
Definition good_end (e : ending) : Prop :=
  match e with Remark s | RemarkEof s => each no_newline s = true | _ => True end.
Definition good_line (d : doc_line) : Prop := Forall good_part (parts d) /\ good_end (fin d).
Definition at_eof (d : doc_line) : bool := match fin d with Eof | RemarkEof _ => true | _ => false end.

(** A good text: only its last line ends with the file. *)
Fixpoint good_text (ds : list doc_line) : Prop :=
  match ds with
  | [] => True
  | d :: r => good_line d /\ (at_eof d = true -> r = []) /\ good_text r
  end.

(** The characters. *)
Definition chars_of (p : part) : string :=
  match p with
  | Plain s => s
  | Escaped b c => String backslash (b ++ String c "")
  | Joined b => String backslash (b ++ String newline "")
  end.
Definition end_chars (e : ending) : string :=
  match e with
  | Newline => String newline ""
  | Semicolon => String semicolon ""
  | Remark s => String hash (s ++ String newline "")
  | Eof => ""
  | RemarkEof s => String hash s
  end.
Fixpoint concat_map {A} (f : A -> string) (l : list A) : string :=
  match l with [] => "" | a :: r => (f a ++ concat_map f r)%string end.
Definition line_chars (d : doc_line) : string := (concat_map chars_of (parts d) ++ end_chars (fin d))%string.
Definition text_chars (ds : list doc_line) : string := concat_map line_chars ds.

(** What a line says. *)
Definition said (p : part) : string :=
  match p with
  | Plain s => s
  | Escaped b c => String backslash (b ++ String c "")
  | Joined _ => ""
  end.
Definition content (d : doc_line) : string := concat_map said (parts d).

(** The first word of a line. *)
Definition first_word (line w rest : string) : Prop :=
  exists b, line = (b ++ w ++ rest)%string /\ each isspace b = true /\ w <> "" /\
    each (fun c => negb (isspace c)) w = true /\
    match rest with "" => True | String c _ => isspace c = true end.

(** [f] has no blanks at its ends. *)
Definition trimmed (f : string) : Prop :=
  (exists c r, f = String c r /\ isspace c = false) /\ (exists r d, f = (r ++ String d "")%string /\ isspace d = false).

(** The line asks for file [f]. *)
Definition asks_for (line f : string) : Prop :=
  exists w b e, first_word line w (b ++ f ++ e) /\ each isspace b = true /\ each isspace e = true /\ trimmed f /\
    (prefix "include$" (lower w) = true \/ prefix "include_file" (lower w) = true).

(** The lines that a text stands for: blank lines are dropped, and the lines
    of a file stand where the line that asks for it is. *)
Inductive stands_for (files : string -> option string) : list doc_line -> list string -> Prop :=
| Sf_nil : stands_for files [] []
| Sf_blank : forall d ds out, each isspace (content d) = true -> stands_for files ds out ->
    stands_for files (d :: ds) out
| Sf_line : forall d ds out, each isspace (content d) = false -> (forall f, ~ asks_for (content d) f) ->
    stands_for files ds out -> stands_for files (d :: ds) (content d :: out)
| Sf_file : forall d ds out f inner out', asks_for (content d) f ->
    files f = Some (text_chars inner) -> good_text inner -> stands_for files inner out' ->
    stands_for files ds out -> stands_for files (d :: ds) (out' ++ out).

(** A reader gets these lines, and then the end. *)
Definition gets (keys : list string) (files : string -> option string) (text : string) (out : list string) : Prop :=
  exists n, forall m, (n <= m)%nat ->
    lines m keys files [getcs text] = Some (map (fun l => (kind_of keys l, l)) out, true).

(** Each newline written as return and newline. *)
Fixpoint dos (s : string) : string :=
  match s with
  | "" => ""
  | String c r => if Ascii.eqb c newline then String return_ (String newline (dos r)) else String c (dos r)
  end.

(** The same word, apart from capitals. *)
Definition same_word (a b : string) : Prop := lower a = lower b.

(** [p] begins [s]. *)
Definition begins (p s : string) : Prop := exists t, s = (p ++ t)%string.
