(** Numbers of keywords and lists of numbers in PHREEQC input: NumKeyword.cxx 137-187 (read_number_description of a line), read.cpp 2931-2990
    (read_list_ints_range) and the copies for a range, read.cpp 3761-3770 (Utilities::Rxn_copy).  Characters are single bytes; an int
    has 32 bits, and a longer number is stored as glibc does (strtol, then the low 32 bits). *)
From Coq Require Import String Ascii List ZArith Bool.
From Verif Require Import CNum_Model Inp_Model.
Import ListNotations.
Local Open Scope string_scope.
Local Open Scope list_scope.
Local Open Scope Z_scope.

(** What sscanf stores for %d. *)
Definition int_of (v : Z) : Z := (saturate v + 2147483648) mod 4294967296 - 2147483648.

(** One %d: blanks, a sign, digits; [None] when there is no digit. *)
Definition scan_d (s : string) : option (Z * string) :=
  match skip_space s with
  | String c r =>
      if Ascii.eqb c "-" then match udigits r with Some (v, e) => Some (int_of (- v), e) | None => None end
      else if Ascii.eqb c "+" then match udigits r with Some (v, e) => Some (int_of v, e) | None => None end
      else match udigits (String c r) with Some (v, e) => Some (int_of v, e) | None => None end
  | EmptyString => None
  end.

(** Utils.cxx 103-112 and utilities.cpp replace for "-" and " ": the first dash becomes a blank. *)
Fixpoint swap_dash (s : string) : option string :=
  match s with
  | EmptyString => None
  | String c r => if Ascii.eqb c "-" then Some (String " " r) else option_map (String c) (swap_dash r)
  end.
Definition swapped (s : string) : string := match swap_dash s with Some t => t | None => s end.

Record header := { n_user : Z; n_user_end : Z; description : string }.

(** Parser.cxx 550-574: the kind TT_DIGIT. *)
Definition tt_digit (token : string) : bool :=
  match token with
  | String c _ => (match digit c with Some _ => true | None => false end) || Ascii.eqb c "." || Ascii.eqb c "-"
  | EmptyString => false
  end.

(** NumKeyword.cxx 137-187 *)
Definition read_header (line : string) : header :=
  let '(_, rest) := copy_token line in
  let '(token, rest') := copy_token rest in
  if tt_digit token then
    let t := match token with
             | String c r => if Ascii.eqb c "-" then String "-" (swapped r) else swapped token
             | EmptyString => token
             end in
    let '(n, e) := match scan_d t with
                   | None => (1, 1)
                   | Some (n, u) => match scan_d u with None => (n, n) | Some (e, _) => (n, e) end
                   end in
    {| n_user := n; n_user_end := if e <? n then n else e; description := skip rest' |}
  else {| n_user := 1; n_user_end := 1; description := skip (token ++ rest')%string |}.

(** The numbers from [a] to [b]. *)
Fixpoint upward (k : nat) (a : Z) : list Z := match k with O => [] | S k => a :: upward k (a + 1) end.
Definition range (a b : Z) : list Z := upward (Z.to_nat (b - a + 1)) a.

(** read.cpp 3761-3770 with Rxn_copy: an entity defined for a range of numbers. *)
Definition define {E} (store : Z -> option E) (n e : Z) (x : E) : Z -> option E :=
  fold_left (fun st i => fun k => if k =? i then st n else st k) (range (n + 1) e) (fun k => if k =? n then Some x else store k).

(** read.cpp 2951-2985, one token: what is appended and how many errors. *)
Definition token_ints (positive : bool) (value : Z) (token : string) : list Z * Z :=
  let bad := if (value <=? 0) && positive then 1 else 0 in
  match swap_dash token with
  | None => ([value], bad)
  | Some t =>
      match scan_d t with
      | None => ([value], bad + 1)
      | Some (v1, u) =>
          match scan_d u with
          | None => ([value], bad + 1)
          | Some (v2, _) =>
              if v2 <? v1 then ([value], bad + 1)
              else if (v2 <=? 0) && positive then ([value], bad + 1)
              else (value :: range (v1 + 1) v2, bad)
          end
      end
  end.

(** read.cpp 2931-2990: the numbers, the errors, and where reading stopped. *)
Fixpoint read_ints (fuel : nat) (positive : bool) (s : string) : list Z * Z * string :=
  match fuel with
  | O => ([], 0, s)
  | S fuel =>
      let '(token, rest) := copy_token2 s in
      match skip s with
      | EmptyString => ([], 0, "")
      | _ =>
          match scan_d token with
          | None => ([], 0, s)
          | Some (value, _) =>
              let '(l, e) := token_ints positive value token in
              let '(l', e', r) := read_ints fuel positive rest in
              (l ++ l', e + e', r)
          end
      end
  end.
Definition read_list (positive : bool) (s : string) : list Z * Z * string := read_ints (S (String.length s)) positive s.
