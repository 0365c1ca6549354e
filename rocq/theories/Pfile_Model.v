(** Parameter files: READ_param_head, READ_param_values and rp of mmf_c/src/read_params.c (420-822) and the part of
    save_params.c that writes the parameters.  A file is the list of its lines, each with its newline except possibly
    the last; lines have at most 255 characters, so that fgets with MAXLNLEN reads one.  The conversion of a value
    text (atof, or atol cut to an int) is an argument.  Messages are not modelled; the errors are numbered. *)
From Coq Require Import String Ascii List ZArith Bool.
From Verif Require Import CStr_Model CNum_Model Elem_Model.
Import ListNotations.
Local Open Scope string_scope.
Local Open Scope list_scope.
Local Open Scope Z_scope.

Definition NL : ascii := "010"%char.
Definition nl : string := String NL "".
Definition is_blank (c : ascii) : bool := Ascii.eqb c " ".
(** strncmp (line, "####", 4) == 0 *)
Definition hashes (line : string) : bool := prefix "####" line.
(** Everything before the newline (strchr and overwriting it). *)
Fixpoint chop (s : string) : string :=
  match s with EmptyString => "" | String c r => if Ascii.eqb c NL then "" else String c (chop r) end.
(** x[strlen(x)-1] = '\0'; before the start of an empty text. *)
Fixpoint drop_last (s : string) : option string :=
  match s with
  | EmptyString => None
  | String c r => match r with EmptyString => Some "" | _ => option_map (String c) (drop_last r) end
  end.
Fixpoint ends_nl (s : string) : bool :=
  match s with EmptyString => false | String c EmptyString => Ascii.eqb c NL | String _ r => ends_nl r end.
(** fgets and feof: end of file is noticed when nothing is left, or by a last line without newline. *)
Record stream := mkStream { lines : list string; eof : bool }.
Definition fgets (f : stream) : option string * stream :=
  match lines f with
  | [] => (None, mkStream [] true)
  | l :: r => (Some l, mkStream r (eof f || negb (ends_nl l)))
  end.
(** fgets with MAXDIMLEN: at most 49 characters of the line, the rest is left. *)
Definition fgets50 (f : stream) : option string * stream :=
  match lines f with
  | [] => (None, mkStream [] true)
  | l :: r => if Nat.ltb (String.length l) 50 then (Some l, mkStream r (eof f || negb (ends_nl l)))
              else (Some (substring 0 49 l), mkStream (substring 49 (String.length l - 49) l :: r) (eof f))
  end.

Section File.
Context {V : Type}.
Variable conv : Z -> string -> V.

Record param := mkParam { q_name : string; q_dims : list string; q_size : Z; q_type : Z; q_vals : list V;
                          q_desc : list (option string); q_width : Z; q_format : option string; q_read : bool }.
Definition set {A} (l : list A) (i : Z) (v : A) : outcome (list A) :=
  if (0 <=? i) && (i <? Z.of_nat (List.length l))
  then Ret (firstn (Z.to_nat i) l ++ v :: skipn (S (Z.to_nat i)) l) else UB.

(** 771-792: a value stored [n] times; the array, i and done. *)
Fixpoint store (n : nat) (size : Z) (v : V) (arr : list V) (i : Z) : outcome (list V * Z * bool) :=
  match n with
  | O => Ret (arr, i, false)
  | S n => if i <? size then do arr <- set arr i v; store n size v arr (i + 1) else Ret (arr, i + 1, true)
  end.
(** 748-769: repeat count (an int) and text of the value of a token. *)
Definition split_token (t : string) : Z * string :=
  match strchr "*" t with
  | None => (1, t)
  | Some (a, b) => (atoi a, match b with String _ r => r | EmptyString => "" end)
  end.
(** 745-795: the tokens of a line. *)
Fixpoint tokens (ty size : Z) (ts : list string) (arr : list V) (i : Z) : outcome (list V * Z * bool) :=
  match ts with
  | [] => Ret (arr, i, false)
  | t :: ts =>
      let (n, text) := split_token t in
      do r <- store (Z.to_nat n) size (conv ty text) arr i;
      match r with (arr, i, done) => if done then Ret (arr, i, true) else tokens ty size ts arr i end
  end.
(** 709-807: the values; the current line and what is left of the file at the end. *)
Fixpoint value_lines (ty size : Z) (ls : list string) (e : bool) (arr : list V) (desc : list (option string)) (i : Z) :
  outcome (list V * list (option string) * Z * option string * stream) :=
  match ls with
  | [] => Ret (arr, desc, i, None, mkStream [] true)
  | line :: ls =>
      let e := e || negb (ends_nl line) in
      if hashes line then Ret (arr, desc, i, Some line, mkStream ls e)
      else
        match line with
        | String "@" text =>
            do desc <- set desc (i - 1) (Some (chop text));
            value_lines ty size ls e arr desc i
        | _ =>
            do r <- tokens ty size (strtok is_blank line) arr i;
            match r with
            | (arr, i, true) => Ret (arr, desc, i, Some line, mkStream ls e)
            | (arr, i, false) => value_lines ty size ls e arr desc i
            end
        end
  end.
(** 688-822: 0, or 10 for too few and 11 for too many values. *)
Definition read_values (p : param) (f : stream) : outcome (Z * param * option string * stream) :=
  do r <- value_lines (q_type p) (q_size p) (lines f) (eof f) (q_vals p) (q_desc p) 0;
  match r with
  | (arr, desc, i, line, f) =>
      let q := mkParam (q_name p) (q_dims p) (q_size p) (q_type p) arr desc (q_width p) (q_format p) (q_read p) in
      Ret (if i <? q_size p then 10 else if i >? q_size p then 11 else 0, q, line, f)
  end.

Definition db := list param.
Definition lookup (d : db) (k : string) : option param := find (fun p => String.eqb (q_name p) k) d.
Fixpoint update (d : db) (p : param) : db :=
  match d with [] => [] | q :: d => if String.eqb (q_name q) (q_name p) then p :: d else q :: update d p end.

(** 501-505: forward to a header line. *)
Fixpoint skip_to (ls : list string) (e : bool) : option stream :=
  match ls with
  | [] => None
  | l :: r => let e := e || negb (ends_nl l) in if hashes l then Some (mkStream r e) else skip_to r e
  end.
(** 577-592: the dimension names. *)
Fixpoint check_dims (f : stream) (ds : list string) : outcome (Z * stream) :=
  match ds with
  | [] => Ret (0, f)
  | d :: ds =>
      match fgets50 f with
      | (None, f) => Ret (4, f)
      | (Some l, f) => match drop_last l with
                       | None => UB
                       | Some l => if String.eqb l d then check_dims f ds else Ret (5, f)
                       end
      end
  end.
Definition isdigit (s : string) : bool := match s with String c _ => match digit c with Some _ => true | None => false end | _ => false end.
(** Outcome of a head: error, a parameter that is not declared (with what strtok left of the line), or the name of
    the parameter whose values follow. *)
Inductive head := HErr (e : Z) (d : db) | HSkip (d : db) (line : string) (f : stream) | HRead (d : db) (key : string) (f : stream).
(** The line after the first strtok: the blanks before the token, and the token. *)
Fixpoint cut_token (s t : string) : string := match s with String c r => if is_blank c then String c (cut_token r t) else t | EmptyString => t end.
(** 490-679, after the header line.  [getdim] is the value of a dimension (the old format, 623-636, sets ndimen to 1 and the size). *)
Definition read_head (getdim : string -> Z) (d : db) (f : stream) : outcome head :=
  match fgets f with
  | (None, f) => Ret (HErr 1 d)
  | (Some line, f) =>
      match strtok is_blank line with
      | [] => UB
      | t :: ts =>
          let key := chop t in
          if negb (Nat.ltb (String.length key) 50) then UB
          else
            let width := match ts with w :: _ => atoi w | [] => 0 end in
            let fmt := match ts with _ :: x :: _ => if Nat.ltb (String.length x) 2 then None else drop_last x | _ => None end in
            match lookup d key with
            | None => Ret (HSkip d (cut_token line key) f)
            | Some p =>
                let p := mkParam (q_name p) (q_dims p) (q_size p) (q_type p) (q_vals p) (q_desc p) width fmt true in
                let d := update d p in
                match fgets f with
                | (None, f) => Ret (HErr 2 d)
                | (Some line, f) =>
                    do r <-
                      (if isdigit line then
                         if negb (Z.of_nat (List.length (q_dims p)) =? atol line) then Ret (3, p, f)
                         else if Z.of_nat (List.length (q_dims p)) =? 0 then Ret (3, p, f)
                         else
                           do r <- check_dims f (q_dims p);
                           match r with
                           | (0, f) =>
                               match fgets f with
                               | (None, f) => Ret (6, p, f)
                               | (Some line, f) =>
                                   let n := atoi line in
                                   if n =? 0 then Ret (7, p, f) else if negb (n =? q_size p) then Ret (7, p, f) else Ret (0, p, f)
                               end
                           | (e, f) => Ret (e, p, f)
                           end
                       else if negb (Nat.ltb (String.length line) 50) then UB
                       else match drop_last line, q_dims p with
                            | Some dn, d0 :: _ =>
                                let p1 := mkParam (q_name p) [d0] (q_size p) (q_type p) (q_vals p) (q_desc p) width fmt true in
                                if negb (String.eqb dn d0) then Ret (5, p1, f)
                                else Ret (0, mkParam (q_name p) [d0] (getdim dn) (q_type p) (q_vals p) (q_desc p) width fmt true, f)
                            | _, _ => UB
                            end);
                    match r with
                    | (0, p, f) =>
                        let d := update d p in
                        match fgets f with
                        | (None, f) => Ret (HErr 8 d)
                        | (Some line, f) =>
                            let ty := atoi line in
                            if ty =? 0 then Ret (HErr 9 d) else if negb (ty =? q_type p) then Ret (HErr 9 d)
                            else Ret (HRead d key f)
                        end
                    | (e, p, f) => Ret (HErr e (update d p))
                    end
                end
            end
      end
  end.
(** 453-475: the loop over the parameters.  [line] is the current line.  The end of the file found while looking for a
    header closes the file twice (502-503 and 457).  Each round uses up lines: S (number of lines) rounds suffice. *)
Fixpoint rounds (getdim : string -> Z) (n : nat) (d : db) (line : string) (f : stream) : outcome (Z * db) :=
  match n with
  | O => UB
  | S n =>
      if eof f then Ret (0, d)
      else
        match (if hashes line then Some f else skip_to (lines f) (eof f)) with
        | None => UB
        | Some f =>
            do h <- read_head getdim d f;
            match h with
            | HErr e d => Ret (e, d)
            | HSkip d line f => rounds getdim n d line f
            | HRead d key f =>
                match lookup d key with
                | None => UB
                | Some p =>
                    do r <- read_values p f;
                    match r with
                    | (e, p, line', f) =>
                        if e =? 0 then rounds getdim n (update d p) (match line' with Some l => l | None => "" end) f
                        else Ret (e, update d p)
                    end
                end
            end
        end
  end.
(** 442-450: the dimension part of the first file is skipped. *)
Fixpoint skip_dims (ls : list string) (e : bool) : option stream :=
  match ls with
  | [] => None
  | l :: r => let e := e || negb (ends_nl l) in if prefix "** Parameters **" l then Some (mkStream r e) else skip_dims r e
  end.
(** 420-479 of an existing file; in an empty first file the line compared has never been set. *)
Definition rp (getdim : string -> Z) (index : Z) (d : db) (ls : list string) : outcome (Z * db) :=
  match fgets (mkStream ls false) with
  | (None, _) => if index =? 0 then UB else Ret (0, d)
  | (Some line, f) =>
      if index =? 0 then
        match skip_dims (line :: lines f) false with
        | None => Ret (0, d)
        | Some f => match fgets f with
                    | (None, f) => Ret (0, d)
                    | (Some line, f) => rounds getdim (S (List.length (lines f))) d line f
                    end
        end
      else rounds getdim (S (List.length (lines f))) d line f
  end.

(** save_params.c 140-214: the lines written for a parameter; [show] prints a value with the format of its type and
    the text of an integer is its decimal numeral. *)
Variable show : Z -> V -> string.
Variable decimal : Z -> string.
Fixpoint save_values (ty : Z) (vals : list V) (desc : list (option string)) : list string :=
  match vals, desc with
  | v :: vals, d :: desc =>
      (show ty v ++ " " ++ nl)%string :: match d with Some t => if String.eqb t "" then [] else [("@" ++ t ++ nl)%string] | None => [] end
      ++ save_values ty vals desc
  | _, _ => []
  end.
Definition save_param (p : param) : list string :=
  ("####" ++ nl)%string :: (q_name p ++ " " ++ decimal (q_width p) ++ match q_format p with Some f => (" " ++ f)%string | None => "" end ++ nl)%string
  :: (decimal (Z.of_nat (List.length (q_dims p))) ++ " " ++ nl)%string :: map (fun d => (d ++ nl)%string) (q_dims p)
  ++ (decimal (q_size p) ++ " " ++ nl)%string :: (decimal (q_type p) ++ " " ++ nl)%string :: save_values (q_type p) (q_vals p) (q_desc p).
End File.
Arguments param : clear implicits.
