(** How the text of an input is read: IPhreeqcMMS/IPhreeqc/src/phreeqcpp
    common/PHRQ_io.cpp getc 413-426, get_line 682-822, get_logical_line 832-897,
    check_key 899-913; common/Parser.cxx copy_token 587-607; input.cpp get_line
    106-133; read.cpp find_option 8443-8487, get_option 8519-8591;
    utilities.cpp copy_token 331-400, replace 682-722.

    Characters are those of the C locale, none of them the character 0. A
    stream is the text that is left of it. Not modelled: echo of lines, the
    accumulated copy, CParser's own copy of the same functions, the messages. *)
From Coq Require Import String Ascii ZArith Bool List.
Import ListNotations.
Local Open Scope string_scope.
Local Open Scope list_scope.
Local Open Scope Z_scope.

Definition newline : ascii := "010".
Definition return_ : ascii := "013".
Definition backslash : ascii := "092".
Definition hash : ascii := "#".
Definition semicolon : ascii := ";".

(** isspace, isalpha and tolower in the C locale. *)
Definition isspace (c : ascii) : bool :=
  let n := nat_of_ascii c in (Nat.leb 9 n && Nat.leb n 13) || Nat.eqb n 32.
Definition isalpha (c : ascii) : bool :=
  let n := nat_of_ascii c in (Nat.leb 65 n && Nat.leb n 90) || (Nat.leb 97 n && Nat.leb n 122).
Definition tolower (c : ascii) : ascii :=
  let n := nat_of_ascii c in if Nat.leb 65 n && Nat.leb n 90 then ascii_of_nat (n + 32) else c.
Fixpoint lower (s : string) : string :=
  match s with "" => "" | String c r => String (tolower c) (lower r) end.

(** PHRQ_io.cpp 413-426: a return before a newline is skipped. *)
Fixpoint getcs (s : string) : string :=
  match s with
  | String c r =>
    match r with
    | String d _ => if Ascii.eqb c return_ && Ascii.eqb d newline then getcs r else String c (getcs r)
    | "" => s
    end
  | "" => ""
  end.

(** m_line_save += c. *)
Definition snoc (s : string) (c : ascii) : string := (s ++ String c "")%string.

Fixpoint last_char (s : string) : option ascii :=
  match s with "" => None | String c "" => Some c | String _ r => last_char r end.

(** Where get_logical_line is: in the text of a line, after a #, or after a
    backslash, with the place to cut the line at. *)
Inductive mode := Text | Comment | Back (pos : nat).

(** PHRQ_io.cpp 839-891: the line, and what is left of the stream; [None] when
    the end was met. At the end, the last character of a comment is appended a
    second time (855-890) unless it is a semicolon. *)
Fixpoint logical (m : mode) (acc s : string) : string * option string :=
  match s with
  | "" =>
    (match m, last_char acc with
     | Comment, Some c => if Ascii.eqb c semicolon then acc else snoc acc c
     | _, _ => acc
     end, None)
  | String c r =>
    match m with
    | Text =>
      if Ascii.eqb c hash then logical Comment (snoc acc c) r
      else if Ascii.eqb c semicolon || Ascii.eqb c newline then (acc, Some r)
      else if Ascii.eqb c backslash then logical (Back (String.length acc)) (snoc acc c) r
      else logical Text (snoc acc c) r
    | Comment => if Ascii.eqb c newline then (acc, Some r) else logical Comment (snoc acc c) r
    | Back pos =>
      if Ascii.eqb c backslash then logical (Back (String.length acc)) (snoc acc c) r
      else if Ascii.eqb c newline then logical Text (substring 0 pos acc) r
      else if isspace c then logical (Back pos) (snoc acc c) r
      else logical Text (snoc acc c) r
    end
  end.

(** get_logical_line: [None] for LT_EOF. *)
Definition get_logical_line (s : string) : option (string * string) :=
  match logical Text "" s with
  | (l, Some r) => Some (l, r)
  | ("", None) => None
  | (l, None) => Some (l, "")
  end.

(** m_line_save.substr(0, m_line_save.find_first_of('#')). *)
Fixpoint before_hash (s : string) : string :=
  match s with "" => "" | String c r => if Ascii.eqb c hash then "" else String c (before_hash r) end.

Fixpoint blank (s : string) : bool :=
  match s with "" => true | String c r => isspace c && blank r end.

(** Parser.cxx 587-607, copy_token: the word, and what follows it. *)
Fixpoint skip (s : string) : string :=
  match s with "" => "" | String c r => if isspace c then skip r else s end.
Fixpoint word_of (s : string) : string * string :=
  match s with
  | "" => ("", "")
  | String c r => if isspace c then ("", s) else let '(w, t) := word_of r in (String c w, t)
  end.
Definition copy_token (s : string) : string * string := word_of (skip s).

(** Parser.h 287-308, trim. *)
Fixpoint trim_right (s : string) : string :=
  match s with
  | "" => ""
  | String c r => match trim_right r with "" => if isspace c then "" else String c "" | t => String c t end
  end.
Definition trim (s : string) : string := skip (trim_right s).

Inductive kind := Keyword | Option_ | Data.

(** PHRQ_io.cpp 758-776 and 899-913; [keys] are the names of the keywords. *)
Definition kind_of (keys : list string) (line : string) : kind :=
  let w := fst (copy_token line) in
  if existsb (String.eqb (lower w)) keys then Keyword
  else match w with
       | String a (String b _) => if Ascii.eqb a "-" && isalpha b then Option_ else Data
       | _ => Data
       end.

(** PHRQ_io.cpp 778-788: the file a line asks for. *)
Definition includes (line : string) : option string :=
  let '(w, t) := copy_token line in
  if prefix "include$" (lower w) || prefix "include_file" (lower w) then
    match trim t with "" => None | f => Some f end
  else None.

(** What one turn of the loop 705-819 does with the streams. *)
Inductive turn :=
| NoMore                                            (* no stream is left *)
| Again (streams : list string)                     (* empty line, end of a file, or a new file *)
| Line (k : kind) (line : string) (streams : list string)
| NoFile.                                           (* the run stops *)

(** PHRQ_io.cpp 705-819. [files] gives the text of a file that can be opened. *)
Definition one_turn (keys : list string) (files : string -> option string) (streams : list string) : turn :=
  match streams with
  | [] => NoMore
  | s :: r =>
    match get_logical_line s with
    | None => Again r
    | Some (save, rest) =>
      let line := before_hash save in
      if blank line then Again (rest :: r)
      else match includes line with
           | Some f => match files f with Some t => Again (getcs t :: rest :: r) | None => NoFile end
           | None => Line (kind_of keys line) line (rest :: r)
           end
    end
  end.

(** All the lines that a reader gets, one get_line after the other; [None]
    when [fuel] turns are not enough. The flag: whether the end was reached. *)
Fixpoint lines (fuel : nat) (keys : list string) (files : string -> option string) (streams : list string)
  : option (list (kind * string) * bool) :=
  match fuel with
  | O => None
  | S fuel =>
    match one_turn keys files streams with
    | NoMore => Some ([], true)
    | NoFile => Some ([], false)
    | Again ss => lines fuel keys files ss
    | Line k l ss => match lines fuel keys files ss with Some (t, e) => Some ((k, l) :: t, e) | None => None end
    end
  end.

(** * Options *)

(** read.cpp 8443-8487, find_option. *)
Fixpoint find_from (i : Z) (exact : bool) (w : string) (names : list string) : option Z :=
  match names with
  | [] => None
  | n :: r => if (if exact then String.eqb n w else prefix w n) then Some i else find_from (i + 1) exact w r
  end.
Definition find_option (item : string) (names : list string) (exact : bool) : option Z :=
  find_from 0 exact (lower item) names.

(** utilities.cpp 682-722, replace in a buffer of [size] characters: [None]
    when the end is moved out of it. *)
Fixpoint replace_first (a b s : string) : option string :=
  if prefix a s then Some (b ++ substring (String.length a) (String.length s - String.length a) s)%string
  else match s with
       | "" => None
       | String c r => option_map (String c) (replace_first a b r)
       end.
Definition replace (size : Z) (a b s : string) : option string :=
  match replace_first a b s with
  | None => Some s
  | Some t => if Z.of_nat (String.length t) + 1 <=? size then Some t else None
  end.

(** What get_option answers: the option with the text after it, an unknown
    option, text that is no option, or an overrun of the buffer. *)
Inductive answer := Opt (i : Z) (value : string) | BadOption | Other (line : string) | Overrun.

Definition nth_name (names : list string) (i : Z) : string := nth (Z.to_nat i) names "".

(** input.cpp 114-131: the size of the buffers after a line was copied. *)
Definition grow (size : Z) (line save : string) : Z :=
  let l := Z.max (Z.of_nat (String.length line) + 1) (Z.of_nat (String.length save) + 1) in
  if size <=? l then l * 2 else size.

(** utilities.cpp 331-400, the copy_token of the readers: a semicolon ends a
    word as well. *)
Fixpoint word2_of (s : string) : string * string :=
  match s with
  | "" => ("", "")
  | String c r =>
    if isspace c || Ascii.eqb c semicolon then ("", s) else let '(w, t) := word2_of r in (String c w, t)
  end.
Definition copy_token2 (s : string) : string * string := word2_of (skip s).

(** read.cpp 8541-8589 for a line that is no keyword. *)
Definition get_option (size : Z) (names : list string) (k : kind) (line save : string) : answer :=
  let '(w, rest) := copy_token2 line in
  match k with
  | Option_ =>
    match find_option (substring 1 (String.length w - 1) w) names false with
    | Some i =>
      match replace size w (nth_name names i) save, replace size w (nth_name names i) line with
      | Some _, Some l => Opt i (snd (copy_token2 l))
      | _, _ => Overrun
      end
    | None => BadOption
    end
  | _ =>
    match find_option w names true with
    | Some i => Opt i rest
    | None => Other line
    end
  end.
