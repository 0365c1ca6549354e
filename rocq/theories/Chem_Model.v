(** Chemical formulas, charges and equations: IPhreeqc/src/phreeqcpp/parse.cpp, utilities.cpp (equal, get_token, islegit, replace,
    squeeze_white) and structures.cpp (elt_list_combine, trxn_...).  LDBLE is an exact rational.  Text is what comes before the
    terminating zero.  Elements and species are stored once per name (element_store, structures.cpp:348-384, and
    string_hsave), so equality of pointers is equality of names.  qsort may leave equal keys in any order: the model takes its
    result as an argument, and the theorems hold for every sorted rearrangement.  Error texts are not modelled. *)
From Coq Require Import String Ascii List ZArith QArith Qabs Bool NArith.
From Verif Require Import CStr_Model CNum_Model Qx.
Import ListNotations.
Local Open Scope string_scope.
Local Open Scope list_scope.
Local Open Scope Z_scope.

(** ** Characters (C locale) *)
Definition between (a b : ascii) (c : ascii) : bool := ((N_of_ascii a <=? N_of_ascii c) && (N_of_ascii c <=? N_of_ascii b))%N.
Definition isupper (c : ascii) : bool := between "A" "Z" c.
Definition islower (c : ascii) : bool := between "a" "z" c.
Definition isalpha (c : ascii) : bool := isupper c || islower c.
Definition isdigit (c : ascii) : bool := between "0" "9" c.
Definition among (l : list ascii) (c : ascii) : bool := existsb (Ascii.eqb c) l.
(** utilities.cpp:617-636. *)
Definition islegit (c : ascii) : bool := isalpha c || isdigit c || among ["+"; "-"; "="; "("; ")"; "."; ":"; "_"; "["; "]"]%char c.
Definition MAX_LENGTH : Z := 256.

(** ** Numbers *)
(** Longest run of characters that satisfy [p]. *)
Fixpoint span (p : ascii -> bool) (s : string) : string * string :=
  match s with
  | String c r => if p c then let '(a, b) := span p r in (String c a, b) else ("", s)
  | EmptyString => ("", "")
  end.
(** Value of digits, one point, digits (strtod on such a text; 0 without digits). *)
Definition dvalue (s : string) : Z := fst (digits 0 s).
Definition decimal (s : string) : Q :=
  let '(a, r) := span isdigit s in
  match r with
  | String "." t => let '(b, _) := span isdigit t in (inject_Z (dvalue a) + inject_Z (dvalue b) / inject_Z (10 ^ Z.of_nat (String.length b)))%Q
  | _ => inject_Z (dvalue a)
  end.
(** The characters get_num takes, parse.cpp:953-959: digits and at most one point. *)
Definition num_text (s : string) : string * string :=
  let '(a, r) := span isdigit s in
  match r with
  | String "." t => let '(b, u) := span isdigit t in ((a ++ String "." b)%string, u)
  | _ => (a, r)
  end.
(** get_num, parse.cpp:926-984: number and rest; [None]: ERROR (256 characters or more; fewer cannot overflow). *)
Definition get_num (s : string) : option (Q * string) :=
  let '(a, r) := num_text s in
  if String.eqb a "" then Some (1%Q, r)
  else if MAX_LENGTH <=? Z.of_nat (String.length a) then None else Some (decimal a, r).

(** ** Element names, parse.cpp:491-554 *)
(** Inside brackets: name, rest, whether the bracket is closed; reading on behind the end of the text is undefined. *)
Fixpoint bracket (s : string) : outcome (string * string * bool) :=
  match s with
  | EmptyString => UB
  | String c r =>
      if Ascii.eqb c "]" then Ret ("", s, true) else
      match r with
      | EmptyString => Ret (String c "", "", false)
      | String d t => if Ascii.eqb d "]" then Ret (String c "]", t, true)
                      else do x <- bracket r; let '(n, u, ok) := x in Ret (String c n, u, ok)
      end
  end.
Definition tail_char (c : ascii) : bool := islower c || Ascii.eqb c "_".
(** [Ret None]: ERROR. *)
Definition get_elt (s : string) : outcome (option (string * string * bool)) :=
  match s with
  | EmptyString => Ret None
  | String c r =>
      if Ascii.eqb c "[" then
        do x <- bracket r; let '(n, u, ok) := x in
        let '(t, v) := span tail_char u in Ret (Some (String c (n ++ t)%string, v, ok))
      else let '(t, v) := span tail_char r in Ret (Some (String c t, v, true))
  end.

(** ** Elements of a formula, parse.cpp:558-682.  Result: elements appended, rest, paren_count, whether an unclosed bracket was
    reported (input_error).  [fuel]: nesting and repetitions; the length of the text is enough. *)
Definition scale (d : Q) (l : list (string * Q)) : list (string * Q) := map (fun p => (fst p, (snd p * d)%Q)) l.
Record parsed := mkParsed { found : list (string * Q); rest : string; parens : Z; clean : bool }.
Definition more (l : list (string * Q)) (ok : bool) (p : parsed) : parsed := mkParsed (l ++ found p) (rest p) (parens p) (ok && clean p).
Fixpoint get_elts (fuel : nat) (s : string) (paren_count : Z) (coef : Q) : outcome (option parsed) :=
  match fuel with
  | O => Exit
  | S fuel =>
      let loop l ok s' pc :=
        do x <- get_elts fuel s' pc coef;
        match x with None => Ret None | Some p => Ret (Some (more l ok p)) end in
      match s with
      | EmptyString => if paren_count =? 0 then Ret (Some (mkParsed [] s paren_count true)) else Ret None
      | String c r =>
          if Ascii.eqb c "+" || Ascii.eqb c "-" then if paren_count =? 0 then Ret (Some (mkParsed [] s paren_count true)) else Ret None
          else if Ascii.eqb c ")" then if paren_count - 1 <? 0 then Ret None else Ret (Some (mkParsed [] r (paren_count - 1) true))
          else if isupper c || (Ascii.eqb c "e" && match r with String d _ => Ascii.eqb d "-" | _ => false end) || Ascii.eqb c "[" then
            do x <- get_elt s;
            match x with
            | None => Ret None
            | Some (n, u, ok) => match get_num u with None => Ret None | Some (d, v) => loop [(n, (d * coef)%Q)] ok v paren_count end
            end
          else if Ascii.eqb c "(" then
            do x <- get_elts fuel r (paren_count + 1) coef;
            match x with
            | None => Ret None
            | Some p => match get_num (rest p) with None => Ret None | Some (d, v) => loop (scale d (found p)) (clean p) v (parens p) end
            end
          else if Ascii.eqb c ":" then
            match get_num r with
            | None => Ret None
            | Some (d, v) =>
                do x <- get_elts fuel v paren_count coef;
                match x with None => Ret None | Some p => loop (scale d (found p)) (clean p) (rest p) (parens p) end
            end
          else Ret None
      end
  end.
Definition elements_of (s : string) (coef : Q) : outcome (option parsed) := get_elts (S (String.length s)) s 0 coef.

(** elt_list_compare, structures.cpp:515-524 (strncmp with MAX_LENGTH), and elt_list_combine, 472-513: [l] is the sorted list. *)
Definition cut256 (s : string) : string := substring 0 256 s.
Fixpoint combine_from (j : string * Q) (l : list (string * Q)) : list (string * Q) :=
  match l with
  | [] => [j]
  | i :: r => if String.eqb (fst i) (fst j) then combine_from (fst j, (snd j + snd i)%Q) r else j :: combine_from i r
  end.
Definition elt_combine (l : list (string * Q)) : list (string * Q) := match l with [] => [] | j :: r => combine_from j r end.

(** ** Charges, parse.cpp:263-377 *)
Fixpoint repeats (c : ascii) (s : string) : string * string := match s with String d r => if Ascii.eqb c d then let '(a, b) := repeats c r in (String d a, b) else ("", s) | _ => ("", "") end.
(** strtol with base 0 on a sign and digits (no letters: get_token stops at them): octal after a leading 0.
    Value and rest; [None]: no digits. *)
Definition isoctal (c : ascii) : bool := between "0" "7" c.
Fixpoint octal (acc : Z) (s : string) : Z := match s with String c r => octal (8 * acc + (Z.of_N (N_of_ascii c) - 48)) r | _ => acc end.
Definition strtol0 (s : string) : option (Z * string) :=
  let u (t : string) := match t with
    | String "0" _ => let '(a, b) := span isoctal t in Some (octal 0 a, b)
    | _ => let '(a, b) := span isdigit t in if String.eqb a "" then None else Some (dvalue a, b) end in
  match s with
  | String "-" t => match u t with Some (v, e) => Some (saturate (- v), e) | None => None end
  | String "+" t => match u t with Some (v, e) => Some (saturate v, e) | None => None end
  | _ => u s
  end.
(** Conversion to int. *)
Definition int_of (z : Z) : Z := (z + 2147483648) mod 4294967296 - 2147483648.
(** snprintf "%-+d". *)
Fixpoint dec_digits (fuel : nat) (z : Z) (acc : string) : string :=
  match fuel with O => acc | S f => let acc := String (ascii_of_N (Z.to_N (48 + z mod 10))) acc in if z / 10 =? 0 then acc else dec_digits f (z / 10) acc end.
Definition show_int (z : Z) : string := String (if z <? 0 then "-"%char else "+"%char) (dec_digits 20 (Z.abs z) "").
Definition all_zero (s : string) : bool := match snd (span (Ascii.eqb "0") s) with EmptyString => true | _ => false end.
(** Text and value; [None]: ERROR. *)
Definition charge_int (c : ascii) (i : Z) : string * Q :=
  (if i =? 0 then "" else if Z.abs i =? 1 then String c "" else show_int i, inject_Z i).
Definition get_charge (s : string) : option (string * Q) :=
  match s with
  | EmptyString => Some ("", 0%Q)
  | String c _ =>
      if negb (Ascii.eqb c "+" || Ascii.eqb c "-") then None else
      let '(run, after) := repeats c s in
      match after with
      | EmptyString => let i := Z.of_nat (String.length run) in Some (charge_int c (if Ascii.eqb c "-" then - i else i))
      | _ =>
          match strtol0 s with
          | None => None                                               (* the end pointer is the start: not a number *)
          | Some (v, e) =>
              let i := int_of v in
              match e with
              | EmptyString => Some (charge_int c i)
              | String "." t =>
                  if all_zero t then Some (charge_int c i)
                  else let m := decimal (match s with String _ u => u | _ => "" end) in Some (s, if Ascii.eqb c "-" then (- m)%Q else m)
              | _ => None
              end
          end
      end
  end.

(** ** Coefficients, parse.cpp:379-489 *)
Definition starts_name (c : ascii) : bool := isalpha c || among ["("; ")"; "["; "]"]%char c.
Definition coef_char (c : ascii) : bool := isdigit c || among ["+"; "-"; "."]%char c.
(** strtod on a whole text of such characters: [None] when something is left over. *)
Definition strtod_all (s : string) : option Q :=
  let '(neg, u) := match s with String "-" t => (true, t) | String "+" t => (false, t) | _ => (false, s) end in
  let '(a, r) := num_text u in
  if String.eqb r "" && negb (String.eqb a "") && negb (String.eqb a ".") then Some (if neg then (- decimal u)%Q else decimal u) else None.
Definition get_coef (s : string) : option (Q * string) :=
  match s with
  | EmptyString => None
  | String c r =>
      if starts_name c then Some (1%Q, s)
      else if Ascii.eqb c "+" && match r with String d _ => starts_name d | _ => false end then Some (1%Q, r)
      else if Ascii.eqb c "-" && match r with String d _ => starts_name d | _ => false end then Some ((- (1))%Q, r)
      else if coef_char c then
        let '(t, u) := span coef_char s in
        if MAX_LENGTH <=? Z.of_nat (String.length t) then None
        else match strtod_all t with Some q => Some (q, u) | None => None end
      else None
  end.

(** ** Species, utilities.cpp:456-586 *)
(** The name: up to a sign, an equal sign or the end; brackets are copied whole.  [None]: no closing bracket. *)
Fixpoint species_name (inside : bool) (s : string) : option (string * string) :=
  match s with
  | EmptyString => if inside then None else Some ("", "")
  | String c r =>
      if inside then
        match species_name (negb (Ascii.eqb c "]")) r with Some (n, u) => Some (String c n, u) | None => None end
      else if among ["+"; "-"; "="]%char c then Some ("", s)
      else match species_name (Ascii.eqb c "[") r with Some (n, u) => Some (String c n, u) | None => None end
  end.
Definition charge_char (c : ascii) : bool := negb (isalpha c || among ["("; ")"; "]"; "["; "="]%char c).
(** Before the last sign, and from it on; there is one (the text starts with it). *)
Fixpoint last_sign (s : string) : option (string * string) :=
  match s with
  | EmptyString => None
  | String c r => match last_sign r with
                  | Some (a, b) => Some (String c a, b)
                  | None => if Ascii.eqb c "+" || Ascii.eqb c "-" then Some ("", s) else None
                  end
  end.
Definition get_token (s : string) : option (string * Q * string) :=
  match species_name false s with
  | None => None
  | Some (n, u) =>
      if String.eqb n "" then None else
      match u with
      | EmptyString => Some (n, 0%Q, u)
      | String "=" _ => Some (n, 0%Q, u)
      | _ =>
          let '(ch, v) := span charge_char u in
          if MAX_LENGTH <=? Z.of_nat (String.length ch) then None else
          let '(ch, v) := match v with
                          | EmptyString => (ch, v) | String "=" _ => (ch, v)
                          | _ => match last_sign ch with Some (a, b) => (a, (b ++ v)%string) | None => ("", (ch ++ v)%string) end
                          end in
          match get_charge ch with Some (t, z) => Some ((n ++ t)%string, z, v) | None => None end
      end
  end.

(** ** Equations, parse.cpp:14-164 *)
Record token := mkTok { t_name : string; t_coef : Q; t_z : Q }.
(** get_species, parse.cpp:987-1044. *)
Definition get_species (s : string) : option (token * string) :=
  match get_coef s with
  | None => None
  | Some (q, u) => match get_token u with None => None | Some (n, z, v) => Some (mkTok n q z, v) end
  end.
Definition flip (t : token) : token := mkTok (t_name t) (t_coef t * - (1))%Q (t_z t).
(** One side, up to "=" or the end. *)
Fixpoint side (fuel : nat) (stop : string -> bool) (s : string) : option (list token * string) :=
  match fuel with
  | O => None
  | S fuel =>
      if stop s then Some ([], s) else
      match s with
      | EmptyString => None
      | _ => match get_species s with
             | None => None
             | Some (t, u) => match side fuel stop u with Some (l, v) => Some (t :: l, v) | None => None end
             end
      end
  end.
Definition at_equal (s : string) : bool := match s with String "=" _ => true | _ => false end.
Definition at_end (s : string) : bool := match s with EmptyString => true | _ => false end.
(** squeeze_white, utilities.cpp:808-829. *)
Fixpoint squeeze (s : string) : string := match s with String c r => if is_space c then squeeze r else String c (squeeze r) | _ => "" end.
Fixpoint legit (s : string) : bool := match s with String c r => islegit c && legit r | _ => true end.
(** Swap the first and the last, 77-88. *)
Definition swap_in (l : list token) (t : token) : list token := match l with [] => [t] | h :: r => t :: r ++ [h] end.
(** trxn before sorting; [None]: ERROR. *)
Definition parse_sides (association : bool) (eqn : string) : option (list token) :=
  let s := squeeze eqn in
  if negb (legit s) then None else
  match side (S (String.length s)) at_equal s with
  | None => None
  | Some (lhs, u) =>
      let u := match u with String _ r => r | _ => "" end in
      if association then
        match get_species u with
        | None => None
        | Some (t, v) => match side (S (String.length v)) at_end v with None => None | Some (rhs, _) => Some (swap_in lhs (flip t) ++ map flip rhs) end
        end
      else match side (S (String.length u)) at_end u with None => None | Some (rhs, _) => Some (map flip lhs ++ rhs) end
  end.
(** replace, utilities.cpp:682-722: the first occurrence. *)
Fixpoint replace_first (old new s : string) : string :=
  if String.prefix old s then (new ++ substring (String.length old) (String.length s) s)%string
  else match s with String c r => String c (replace_first old new r) | _ => "" end.
Definition strip_state (s : string) : string := replace_first "(G)" "" (replace_first "(g)" "" (replace_first "(S)" "" (replace_first "(s)" "" s))).
(** The elements of the first species, 128-156; [sorted] is what qsort makes of a list. *)
Definition target_elements (sorted : list (string * Q) -> list (string * Q)) (t : token) : outcome (option (list (string * Q))) :=
  do x <- elements_of (strip_state (t_name t)) (t_coef t);
  match x with None => Ret None | Some p => Ret (Some (scale (- (1))%Q (elt_combine (sorted (found p))))) end.

(** check_eqn, parse.cpp:167-260. *)
Definition TOL : Q := 1 # 1000000000.
Definition near (a b eps : Q) : bool := qle (Qabs (a - b)) eps.                                        (* utilities.cpp:431-441 *)
Fixpoint all_elements (l : list token) : outcome (option (list (string * Q))) :=
  match l with
  | [] => Ret (Some [])
  | t :: r =>
      do x <- elements_of (t_name t) (t_coef t);
      match x with
      | None => Ret None
      | Some p => do y <- all_elements r; match y with None => Ret None | Some m => Ret (Some (found p ++ m)) end
      end
  end.
Definition charge_sum (l : list token) : Q := qsum (map (fun t => (t_coef t * t_z t)%Q) l).
Definition check_eqn (sorted : list (string * Q) -> list (string * Q)) (l : list token) : outcome bool :=
  match l with
  | [] => UB                                                                                           (* trxn.token[0] *)
  | t :: _ =>
      if negb (near (t_coef t) (- (1)) TOL) then Ret false else
      do x <- all_elements l;
      match x with
      | None => Ret false
      | Some m => Ret (near (charge_sum l) 0 TOL &&
                       forallb (fun p => near (snd p) 0 TOL || String.eqb (fst p) "e") (elt_combine (sorted m)))
      end
  end.

(** ** Reactions, structures.cpp:2001-2412.  A reaction: tokens (the vector may be longer than count_trxn), count, log k and volume. *)
Record rtok := mkRtok { r_name : string; r_coef : Q }.
Record rxn := mkRxn { vec : list rtok; cnt : nat; logk : list Q }.
Definition dead : rtok := mkRtok "" 0.
(** trxn_add, 2001-2047, without combination.  The vector grows one by one. *)
Definition put (v : list rtok) (i : nat) (t : rtok) : list rtok := firstn i v ++ t :: skipn (S i) v.
Fixpoint add_tokens (v : list rtok) (n : nat) (coef : Q) (l : list rtok) : list rtok * nat :=
  match l with [] => (v, n) | t :: r => add_tokens (put v n (mkRtok (r_name t) (coef * r_coef t))) (S n) coef r end.
Fixpoint addk (a b : list Q) (coef : Q) : list Q := match a, b with x :: a, y :: b => (x + coef * y)%Q :: addk a b coef | _, _ => a end.
Definition trxn_add (r : rxn) (tokens : list rtok) (k : list Q) (coef : Q) : rxn :=
  let '(v, n) := add_tokens (vec r) (cnt r) coef tokens in
  mkRxn v n (match cnt r with O => k | _ => addk (logk r) k coef end).
(** trxn_combine, 2111-2174, on the sorted tokens behind the first: [done] is reversed. *)
Fixpoint comb (done : list rtok) (l : list rtok) : list rtok :=
  match l with
  | [] => rev done
  | k :: r =>
      match done with
      | j :: d => if String.eqb (r_name k) (r_name j)
                  then let c := (r_coef j + r_coef k)%Q in if near c 0 (1 # 100000) then comb d r else comb (mkRtok (r_name j) c :: d) r
                  else comb (k :: done) r
      | [] => comb [k] r
      end
  end.
(** [tail]: tokens 1 .. count - 1 as sorted by qsort; [UB]: fewer than two tokens in the vector. *)
Definition trxn_combine (sorted : list rtok -> list rtok) (r : rxn) : outcome rxn :=
  match firstn (cnt r) (vec r) with
  | h :: ((_ :: _) as tail) =>
      let out := h :: match sorted tail with [] => [] | t :: u => comb [t] u end in
      Ret (mkRxn (out ++ skipn (length out) (h :: sorted tail ++ skipn (cnt r) (vec r))) (length out) (logk r))
  | _ => if Nat.ltb (length (vec r)) 2 then UB else Ret (mkRxn (vec r) 2 (logk r))
  end.
(** trxn_multiply, 2251-2281. *)
Definition trxn_multiply (r : rxn) (c : Q) : rxn :=
  mkRxn (map (fun t => mkRtok (r_name t) (r_coef t * c)) (firstn (cnt r) (vec r)) ++ skipn (cnt r) (vec r)) (cnt r) (map (fun x => (x * c)%Q) (logk r)).
(** trxn_swap, 2368-2412; [Ret None]: not found.  The element behind the last is used as scratch. *)
Fixpoint find_tok (n : string) (l : list rtok) (i : nat) : option nat := match l with [] => None | t :: r => if String.eqb (r_name t) n then Some i else find_tok n r (S i) end.
Definition trxn_swap (r : rxn) (n : string) : outcome (option rxn) :=
  match find_tok n (firstn (cnt r) (vec r)) 0 with
  | None => Ret None
  | Some j =>
      if Nat.leb (length (vec r)) (cnt r) then UB else
      let v := put (vec r) (cnt r) (nth 0 (vec r) dead) in
      let v := put v 0 (nth j v dead) in
      let v := put v j (nth (cnt r) v dead) in
      let c := r_coef (nth 0 v dead) in
      Ret (Some (trxn_multiply (mkRxn v (cnt r) (logk r)) (- (1) / c)))
  end.
