(** The BASIC interpreter: tokens and expressions, IPhreeqcMMS/IPhreeqc/src/phreeqcpp/PBasic.cpp and PBasic.h.  Numbers are exact
    rationals; exp, log and the other functions of the C library, strtod, printf and the results of the chemical calculation are
    arguments.  The modes of the graphical interface (phreeqci_gui, parse_all) are off.  Memory is unlimited. *)
From Coq Require Import String Ascii List ZArith QArith Qround Qabs Bool.
From Verif Require Import CStr_Model CNum_Model Qx Chem_Model.
From Verif Require Ckpt_Model.
Import ListNotations.
Local Open Scope string_scope.
Local Open Scope list_scope.
Local Open Scope Z_scope.

(** ** Results: a value; an error message that ends the BASIC program; undefined behaviour or an exception that nobody catches; a
    result that is not a number (nothing is modelled after it); recursion deeper than the given bound. *)
Inductive res (A : Type) : Type := Ok (x : A) | Err | Crash | Nan | Deep.
Arguments Ok {A} x. Arguments Err {A}. Arguments Crash {A}. Arguments Nan {A}. Arguments Deep {A}.
Definition rbind {A B} (m : res A) (k : A -> res B) : res B := match m with Ok x => k x | Err => Err | Crash => Crash | Nan => Nan | Deep => Deep end.

(** ** Tokens, PBasic.h:140-340.  Functions of one number of the C library, functions of one name and plain quantities of the chemical
    state are represented by their names; all other keywords are [TOther]. *)
Inductive tok : Type :=
| TVar (x : string) | TNum (q : Q) | TStr (s : string) | TSnerr (c : ascii)
| TPlus | TMinus | TTimes | TDiv | TUp | TLp | TRp | TComma | TSemi | TColon | TEq | TLt | TGt | TLe | TGe | TNe | TAnd | TOr | TXor | TMod | TNot
| TSqr | TAbs | TSgn | TCeil | TFloor | TReal (f : string) | TChem (f : string) | TQuant (f : string)
| TLen | TAsc | TChr | TMid | TInstr | TTrim | TLtrim | TRtrim | TStrf | TVal | TGet | TGetS
| TRem (s : string) | TLet | TPrint | TPunch | TSave | TPut | TPutS | TGoto | TIf | TThen | TElse | TEnd | TStop | TFor | TTo | TStep | TNext | TWhile | TWend
| TGosub | TReturn | TRead | TData | TRestore | TOn | TDim | TErase | TRun | TBye | TRenum | TOther (s : string).

(** ** The text of a line, parse, PBasic.cpp:568-902 *)
Definition lower (c : ascii) : ascii := if isupper c then ascii_of_N (N_of_ascii c + 32) else c.
Fixpoint lowercase (s : string) : string := match s with String c r => String (lower c) (lowercase r) | _ => "" end.
Definition word_char (c : ascii) : bool := Ascii.eqb c "$" || Ascii.eqb c "_" || isalpha c || isdigit c.
Fixpoint prefix_of (n : nat) (s : string) : string := match n, s with S n, String c r => String c (prefix_of n r) | _, _ => "" end.
(** command_tokens, 8117-8350. *)
Definition real_functions : list string := ["sqrt"; "sin"; "cos"; "tan"; "arctan"; "log"; "log10"; "exp"].
Definition name_functions : list string :=
  ["act"; "dh_a0"; "dh_bdot"; "diff_c"; "equi"; "equi_delta"; "gamma"; "gas"; "gfw"; "iso"; "kin"; "kin_delta"; "la"; "lg"; "lk_named"; "lk_phase"; "lk_species"; "lm"; "misc1";
   "misc2"; "mol"; "phase_vm"; "pr_p"; "pr_phi"; "s_s"; "si"; "sr"; "t_sc"; "f_visc"; "tot"; "totmol"; "totmole"; "totmoles"; "vm"; "delta_h_phase"; "delta_h_species"; "calc_value"].
Definition quantities : list string :=
  ["alk"; "aphi"; "cell_no"; "charge_balance"; "current_a"; "debye_length"; "dh_a"; "dh_av"; "dh_b"; "eps_r"; "gas_p"; "gas_vm"; "iterations"; "kappa"; "kin_time"; "m"; "m0"; "mu";
   "osmotic"; "percent_error"; "pot_v"; "pressure"; "qbrn"; "rho"; "rho_0"; "rxn"; "sc"; "sim_no"; "sim_time"; "soln_vol"; "step_no"; "tc"; "time"; "tk"; "total_time"; "viscos"; "viscos_0"].
Definition other_words : list string :=
  ["eol$"; "eol_notab$"; "no_newline$"; "peek"; "input"; "gotoxy"; "poke"; "list"; "new"; "load"; "merge"; "del"; "add_heading"; "callback"; "change_por"; "change_surf"; "description";
   "dist"; "edl"; "edl_species"; "eq_frac"; "equiv_frac"; "exists"; "get_por"; "iso_unit"; "kinetics_formula"; "kinetics_formula$"; "list_s_s"; "mcd_jtot"; "mcd_jconc"; "pad"; "pad$";
   "parm"; "rate_pk"; "rate_svd"; "rate_hermanska"; "meang"; "phase_formula"; "phase_formula$"; "porevolume"; "setdiff_c"; "species_formula"; "species_formula$"; "phase_equation";
   "phase_equation$"; "species_equation"; "species_equation$"; "str_e$"; "str_f$"; "sum_gas"; "sum_s_s"; "sum_species"; "surf"; "sys"; "title"; "cell_pore_volume"; "cell_porosity";
   "cell_saturation"; "cell_volume"; "transport_cell_no"; "velocity_x"; "velocity_y"; "velocity_z"; "sa_declercq"].
Definition fixed_words : list (string * tok) :=
  [("and", TAnd); ("or", TOr); ("xor", TXor); ("not", TNot); ("mod", TMod); ("sqr", TSqr); ("ceil", TCeil); ("floor", TFloor); ("abs", TAbs); ("sgn", TSgn); ("str$", TStrf); ("val", TVal);
   ("chr$", TChr); ("asc", TAsc); ("len", TLen); ("mid$", TMid); ("instr", TInstr); ("trim", TTrim); ("ltrim", TLtrim); ("rtrim", TRtrim); ("get", TGet); ("get$", TGetS); ("put", TPut);
   ("put$", TPutS); ("let", TLet); ("goto", TGoto); ("if", TIf); ("end", TEnd); ("stop", TStop); ("for", TFor); ("next", TNext); ("while", TWhile); ("wend", TWend); ("gosub", TGosub);
   ("return", TReturn); ("read", TRead); ("data", TData); ("restore", TRestore); ("on", TOn); ("dim", TDim); ("erase", TErase); ("run", TRun); ("save", TSave); ("bye", TBye); ("quit", TBye);
   ("renum", TRenum); ("then", TThen); ("else", TElse); ("to", TTo); ("step", TStep); ("print", TPrint); ("punch", TPunch)].
Fixpoint assoc {A} (w : string) (l : list (string * A)) : option A := match l with [] => None | (k, x) :: r => if String.eqb k w then Some x else assoc w r end.
Definition member (w : string) (l : list string) : bool := existsb (String.eqb w) l.
Definition keyword (w : string) : option tok :=
  match assoc w fixed_words with
  | Some t => Some t
  | None => if member w real_functions then Some (TReal w) else if member w name_functions then Some (TChem w) else if member w quantities then Some (TQuant w)
            else if member w other_words then Some (TOther w) else None
  end.
(** Up to the closing quote, 609-617: the text, what follows, whether the quote was there. *)
Fixpoint quoted (q : ascii) (s : string) : string * string * bool :=
  match s with
  | "" => ("", "", false)
  | String c r => if Ascii.eqb c q then ("", r, true) else let '(a, b, f) := quoted q r in (String c a, b, f)
  end.
Definition single (c : ascii) : option tok :=
  match c with
  | "+" => Some TPlus | "-" => Some TMinus | "*" => Some TTimes | "/" => Some TDiv | "^" => Some TUp | "(" => Some TLp | "[" => Some TLp | ")" => Some TRp | "]" => Some TRp
  | "," => Some TComma | ";" => Some TSemi | ":" => Some TColon | "?" => Some TPrint | "=" => Some TEq | _ => None
  end%char.
Definition two (c : ascii) (r : string) : option (tok * string) :=
  if Ascii.eqb c "<" then match r with String d u => if Ascii.eqb d "=" then Some (TLe, u) else if Ascii.eqb d ">" then Some (TNe, u) else Some (TLt, r) | _ => Some (TLt, r) end
  else if Ascii.eqb c ">" then match r with String d u => if Ascii.eqb d "=" then Some (TGe, u) else Some (TGt, r) | _ => Some (TGt, r) end
  else None.
Definition blank (c : ascii) : bool := Ascii.eqb c " ".
Definition tab : ascii := ascii_of_nat 9.
(** One token at a character that is no blank; [number] is strtod: value and what follows, or nothing.  The flag: a quote is missing. *)
Definition one (number : string -> option (Q * string)) (c : ascii) (r : string) : tok * string * bool :=
  if Ascii.eqb c """" || Ascii.eqb c "'" then let '(a, b, f) := quoted c r in (TStr a, b, negb f)
  else match single c with
       | Some t => (t, r, false)
       | None =>
           match two c r with
           | Some (t, u) => (t, u, false)
           | None =>
               if isalpha c then
                 let '(w, u) := span word_char (String c r) in
                 let w := lowercase (prefix_of 20 w) in
                 if String.eqb w "rem" then (TRem u, "", false) else match keyword w with Some t => (t, u, false) | None => (TVar w, u, false) end
               else if isdigit c || Ascii.eqb c "." then match number (String c r) with Some (q, u) => (TNum q, u, false) | None => (TSnerr c, r, false) end
               else (TSnerr c, r, false)
           end
       end.
(** The loop, 579-855: tokens and whether a quote is missing.  A tab at the very end becomes a token. *)
Fixpoint lex_from (number : string -> option (Q * string)) (fuel : nat) (s : string) : list tok * bool :=
  match fuel, s with
  | S fuel, String c r =>
      if blank c || (Ascii.eqb c tab && negb (String.eqb r "")) then lex_from number fuel r
      else let '(t, u, m) := one number c r in let '(l, n) := lex_from number fuel u in (t :: l, m || n)
  | _, _ => ([], false)
  end.
Definition paren (t : tok) : Z := match t with TLp => 1 | TRp => -1 | _ => 0 end.
Definition depth (l : list tok) : Z := fold_right (fun t n => paren t + n) 0 l.
(** A missing quote, and more left than right parentheses or fewer, end the run, 856-901. *)
Definition lex (number : string -> option (Q * string)) (s : string) : res (list tok) :=
  let '(l, missing) := lex_from number (String.length s) s in if missing then Err else if depth l =? 0 then Ok l else Err.

(** ** Variables.  [dims] is empty for a scalar.  [cells] are the elements; the value of a scalar (rv, sv) is cell -1, and an array keeps it. *)
Definition scalar : Z := -1.
Inductive value : Type := VNum (q : Q) | VStr (s : string).
Record var := mkVar { dims : list Z; cells : Z -> value }.
Fixpoint last_char (s : string) : option ascii := match s with "" => None | String c "" => Some c | String _ r => last_char r end.
Definition is_text (x : string) : bool := match last_char x with Some c => Ascii.eqb c "$" | None => false end.
Definition zero_of (x : string) : value := if is_text x then VStr "" else VNum 0.
Definition fresh (x : string) : var := mkVar [] (fun _ => zero_of x).
(** The tokens still to be read (LINK->t), the variables, for each the element used last (UU.U0.val, UU.U1.sval), and the values and texts
    that PUT and PUT$ keep under a key. *)
Record st := mkSt { toks : list tok; vars : string -> var; cur : string -> Z; saved : string -> option Q; texts : string -> option string }.
Definition with_toks (s : st) (t : list tok) : st := mkSt t (vars s) (cur s) (saved s) (texts s).
Definition set {A} (m : string -> A) (x : string) (a : A) : string -> A := fun y => if String.eqb y x then a else m y.
Definition with_cur (s : st) (x : string) (k : Z) : st := mkSt (toks s) (vars s) (set (cur s) x k) (saved s) (texts s).
Definition with_var (s : st) (x : string) (v : var) : st := mkSt (toks s) (set (vars s) x v) (cur s) (saved s) (texts s).

Definition M (A : Type) : Type := st -> res (A * st).
Definition ret {A} (x : A) : M A := fun s => Ok (x, s).
Definition bindM {A B} (m : M A) (k : A -> M B) : M B := fun s => rbind (m s) (fun r => k (fst r) (snd r)).
Notation "'let*' x := m 'in' k" := (bindM m (fun x => k)) (at level 200, x pattern, m at level 100, k at level 200, right associativity).
Definition lift {A} (r : res A) : M A := fun s => rbind r (fun x => Ok (x, s)).
Definition fail {A} : M A := fun _ => Err.

(** The functions that the interpreter calls. *)
Record world := mkWorld {
  number : string -> option (Q * string); expf : Q -> Q; logf : Q -> Q; real : string -> Q -> option Q; chem : string -> string -> Q; quant : string -> Q; to_text : Q -> string }.

(** (long) of a number, and (long) floor(x + 0.5), 1876-1880, 1919-1923. *)
Definition to_long (q : Q) : res Z := let z := trunc q in if (LONG_MIN <=? z) && (z <=? LONG_MAX) then Ok z else Crash.
Definition to_int (q : Q) : res Z := let z := Qfloor (q + (1 # 2)) in if (LONG_MIN <=? z) && (z <=? LONG_MAX) then Ok z else Crash.
Definition num_of (v : value) : res Q := match v with VNum q => Ok q | VStr _ => Err end.
Definition str_of (v : value) : res string := match v with VStr s => Ok s | VNum _ => Err end.
Definition flag (b : bool) : value := VNum (if b then 1 else 0).

(** ** Operators: [before] is checked before the right side is evaluated *)
Record binop := mkOp { before : value -> bool; apply2 : value -> value -> res value }.
Definition any (_ : value) : bool := true.
Definition is_num (v : value) : bool := match v with VNum _ => true | _ => false end.
(** upexpr, 5033-5067. *)
Definition power (w : world) (a b : Q) : res value :=
  if qle 0 a then Ok (VNum (if qlt 0 a then expf w (b * logf w a) else a))
  else rbind (to_long b) (fun k => if qeq b (inject_Z k) then let x := expf w (b * logf w (- a)) in Ok (VNum (if Z.odd k then - x else x)) else Err).
Definition numeric (f : Q -> Q -> res value) (a b : value) : res value := match a, b with VNum a, VNum b => f a b | _, _ => Err end.
Definition op_up (w : world) (t : tok) : option binop := match t with TUp => Some (mkOp is_num (numeric (power w))) | _ => None end.
(** fmod. *)
Definition fmod (a b : Q) : Q := a - inject_Z (trunc (a / b)) * b.
(** term, 5069-5120: a quotient by zero is zero. *)
Definition modulo (a b : Q) : res value :=
  if qeq a 0 then Ok (VNum 0) else if qeq b 0 then Nan else Ok (VNum (Qabs a / a * fmod (Qabs a + (1 # 100000000000000)) b)).
Definition op_term (t : tok) : option binop :=
  match t with
  | TTimes => Some (mkOp any (numeric (fun a b => Ok (VNum (a * b)))))
  | TDiv => Some (mkOp any (numeric (fun a b => Ok (VNum (if qeq b 0 then 0 else a / b)))))
  | TMod => Some (mkOp any (numeric modulo))
  | _ => None
  end.
(** sexpr, 5122-5182. *)
Definition plus (a b : value) : res value := match a, b with VNum a, VNum b => Ok (VNum (a + b)) | VStr a, VStr b => Ok (VStr (a ++ b)%string) | _, _ => Err end.
Definition op_sum (t : tok) : option binop :=
  match t with TPlus => Some (mkOp any plus) | TMinus => Some (mkOp any (numeric (fun a b => Ok (VNum (a - b))))) | _ => None end.
(** relexpr, 5184-5256. *)
Definition relation (t : tok) : option (comparison -> bool) :=
  match t with
  | TEq => Some (fun c => match c with Eq => true | _ => false end) | TLt => Some (fun c => match c with Lt => true | _ => false end)
  | TGt => Some (fun c => match c with Gt => true | _ => false end) | TLe => Some (fun c => match c with Gt => false | _ => true end)
  | TGe => Some (fun c => match c with Lt => false | _ => true end) | TNe => Some (fun c => match c with Eq => false | _ => true end) | _ => None
  end.
Definition compared (r : comparison -> bool) (a b : value) : res value :=
  match a, b with VNum a, VNum b => Ok (flag (r (a ?= b)%Q)) | VStr a, VStr b => Ok (flag (r (String.compare a b))) | _, _ => Err end.
Definition op_rel (t : tok) : option binop := match relation t with Some r => Some (mkOp any (compared r)) | None => None end.
(** andexpr and expr, 5258-5298. *)
Definition bits (f : Z -> Z -> Z) (a b : Q) : res value := rbind (to_long a) (fun a => rbind (to_long b) (fun b => Ok (VNum (inject_Z (f a b))))).
Definition op_and (t : tok) : option binop := match t with TAnd => Some (mkOp any (numeric (bits Z.land))) | _ => None end.
Definition op_or (t : tok) : option binop :=
  match t with TOr => Some (mkOp any (numeric (bits Z.lor))) | TXor => Some (mkOp any (numeric (bits Z.lxor))) | _ => None end.
(** while (LINK->t is an operator of the level). *)
Fixpoint chain (fuel : nat) (op : tok -> option binop) (sub : M value) (n : value) : M value := fun s =>
  match fuel with
  | O => Deep
  | S fuel =>
      match toks s with
      | [] => Ok (n, s)
      | t :: r => match op t with
                  | None => Ok (n, s)
                  | Some o => if before o n then (let* n2 := sub in let* n := lift (apply2 o n n2) in chain fuel op sub n) (with_toks s r) else Err
                  end
      end
  end.

(** require, 1925-1950: an error or the token is passed. *)
Definition require (p : tok -> bool) : M unit := fun s => match toks s with t :: r => if p t then Ok (tt, with_toks s r) else Err | [] => Err end.
Definition is_lp (t : tok) : bool := match t with TLp => true | _ => false end.
Definition is_rp (t : tok) : bool := match t with TRp => true | _ => false end.
Definition is_comma (t : tok) : bool := match t with TComma => true | _ => false end.
Definition is_eq (t : tok) : bool := match t with TEq => true | _ => false end.
(** skipparen, 1953-1976: stops at a right parenthesis or a comma. *)
Fixpoint skipparen (fuel : nat) (t : list tok) : res (list tok) :=
  match fuel with
  | O => Deep
  | S fuel =>
      match t with
      | [] => Err
      | x :: r => if is_rp x || is_comma x then Ok t
                  else if is_lp x then rbind (skipparen fuel r) (fun t => skipparen fuel (tl t)) else skipparen fuel r
      end
  end.
Definition maxdims : Z := 4.
(** The dimensions of an array at its first use, 1999-2012. *)
Fixpoint count_dims (fuel : nat) (i : Z) (t : list tok) : res Z :=
  match fuel with
  | O => Deep
  | S fuel => if maxdims <=? i then Err
              else rbind (skipparen (S (length t)) (tl t)) (fun t => match t with TRp :: _ => Ok (i + 1) | _ => count_dims fuel (i + 1) t end)
  end.
(** The subscripts, 2034-2047. *)
Fixpoint subscripts (intexpr : M Z) (ds : list Z) (k : Z) : M Z :=
  match ds with
  | [] => ret k
  | d :: ds => let* j := intexpr in
               if (j <? 0) || (d <=? j) then fail
               else let* _ := (match ds with [] => ret tt | _ => require is_comma end) in subscripts intexpr ds (k * d + j)
  end.
Definition dimension (s : st) (x : string) (ds : list Z) : st := with_var s x (mkVar ds (fun k => if k =? scalar then cells (vars s x) scalar else zero_of x)).
(** findvar, 1978-2054: the name; the element is then the one used last. *)
Definition findvar (intexpr : M Z) : M string := fun s =>
  match toks s with
  | TVar x :: r =>
      match r with
      | TLp :: r' =>
          rbind (match dims (vars s x) with
                 | [] => rbind (count_dims (S (length r)) 0 r) (fun n => Ok (dimension s x (repeat 11 (Z.to_nat n))))
                 | _ => Ok s
                 end)
            (fun s => (let* k := subscripts intexpr (dims (vars s x)) 0 in let* _ := require is_rp in fun s => Ok (x, with_cur s x k)) (with_toks s r'))
      | _ => match dims (vars s x) with [] => Ok (x, with_toks (with_cur s x scalar) r) | _ => Err end
      end
  | _ => Err
  end.
Definition fetch (s : st) (x : string) : value := cells (vars s x) (cur s x).
Definition store_at (s : st) (x : string) (k : Z) (v : value) : st := let u := vars s x in with_var s x (mkVar (dims u) (fun i => if i =? k then v else cells u i)).

(** ** Strings *)
Fixpoint slength (s : string) : Z := match s with "" => 0 | String _ r => 1 + slength r end.
(** char is signed. *)
Definition code_of (c : ascii) : Z := let n := Z.of_N (N_of_ascii c) in if 128 <=? n then n - 256 else n.
(** std::string::substr, 4984-5003: a start behind the end throws.  A negative length is a large one. *)
Definition substr (s : string) (i j : Z) : res string :=
  let i := if i <? 1 then 1 else i in
  if slength s <? i - 1 then Crash else Ok (substring (Z.to_nat (i - 1)) (if j <? 0 then String.length s else Z.to_nat j) s).
(** strstr, 2823-2842. *)
Fixpoint find_text (n : nat) (p s : string) : Z :=
  if String.prefix p s then Z.of_nat n + 1 else match s with "" => 0 | String _ r => find_text (S n) p r end.
Fixpoint trim_left (s : string) : string := match s with String c r => if is_space c then trim_left r else s | _ => "" end.
Fixpoint trim_right (s : string) : string :=
  match s with "" => "" | String c r => let u := trim_right r in if is_space c && String.eqb u "" then "" else String c u end.
(** The key of PUT and GET: the subscripts, each with a comma. *)
Definition key_part (k : Z) : string := (Ckpt_Model.dec k ++ ",")%string.

(** ** Expressions *)
Inductive level : Type := LExpr | LAnd | LRel | LSum | LTerm | LUp | LFactor.
Section Eval.
Variable w : world.
Section Factor.
Variables (expr fact : M value).
Definition realexpr : M Q := let* n := expr in lift (num_of n).
Definition strexpr : M string := let* n := expr in lift (str_of n).
Definition intexpr : M Z := let* q := realexpr in lift (to_int q).
Definition realfactor : M Q := let* n := fact in lift (num_of n).
Definition strfactor : M string := let* n := fact in lift (str_of n).
Definition intfactor : M Z := let* q := realfactor in lift (to_int q).
(** A call with one text in parentheses. *)
Definition text_call (f : string -> value) : M value := let* _ := require is_lp in let* s := strfactor in let* _ := require is_rp in ret (f s).
(** Further subscripts of GET, 2708-2725, 2752-2769. *)
Fixpoint more_keys (fuel : nat) (k : string) : M string := fun s =>
  match fuel with
  | O => Deep
  | S fuel => match toks s with
              | TComma :: r => (let* j := intexpr in more_keys fuel (k ++ key_part j)%string) (with_toks s r)
              | _ => (let* _ := require is_rp in ret k) s
              end
  end.
Definition get_key (fuel : nat) : M string :=
  let* _ := require is_lp in
  fun s => match toks s with
           | TRp :: _ | [] => more_keys fuel "" s
           | _ => (let* i := intexpr in more_keys fuel (key_part i)) s
           end.
(** factor, 2056-5031. *)
Definition factor (fuel : nat) : M value := fun s =>
  match toks s with
  | [] => Err
  | t :: r =>
      let s' := with_toks s r in
      match t with
      | TNum q => Ok (VNum q, s')
      | TStr x => Ok (VStr x, s')
      | TVar _ => (let* x := findvar intexpr in fun s => Ok (fetch s x, s)) s
      | TLp => (let* n := expr in let* _ := require is_rp in ret n) s'
      | TMinus => (let* q := realfactor in ret (VNum (- q))) s'
      | TPlus => (let* q := realfactor in ret (VNum q)) s'
      | TNot => (let* z := intfactor in ret (VNum (inject_Z (Z.lnot z)))) s'
      | TSqr => (let* q := realfactor in ret (VNum (q * q))) s'
      | TAbs => (let* q := realfactor in ret (VNum (Qabs q))) s'
      | TSgn => (let* q := realfactor in ret (VNum (if qlt 0 q then 1 else if qlt q 0 then -1 else 0))) s'
      | TCeil => (let* q := realfactor in ret (VNum (inject_Z (Qceiling q)))) s'
      | TFloor => (let* q := realfactor in ret (VNum (inject_Z (Qfloor q)))) s'
      | TReal f => (let* q := realfactor in lift (match real w f q with Some x => Ok (VNum x) | None => Nan end)) s'
      | TChem f => (let* x := strfactor in ret (VNum (chem w f x))) s'
      | TQuant f => Ok (VNum (quant w f), s')
      | TLen => (let* x := strfactor in ret (VNum (inject_Z (slength x)))) s'
      | TAsc => (let* x := strfactor in ret (VNum (match x with "" => 0 | String c _ => inject_Z (code_of c) end))) s'
      | TChr => (let* z := intfactor in ret (VStr (let c := ascii_of_N (Z.to_N (z mod 256)) in if Ascii.eqb c (ascii_of_nat 0) then "" else String c ""))) s'
      | TTrim => text_call (fun x => VStr (trim_left (trim_right x))) s'
      | TLtrim => text_call (fun x => VStr (trim_left x)) s'
      | TRtrim => text_call (fun x => VStr (trim_right x)) s'
      | TInstr => (let* _ := require is_lp in let* a := strfactor in let* _ := require is_comma in let* b := strfactor in let* _ := require is_rp in
                   ret (VNum (inject_Z (find_text 0 b a)))) s'
      | TMid => (let* _ := require is_lp in let* x := strexpr in let* _ := require is_comma in let* i := intexpr in
                 let* j := (fun s => match toks s with TComma :: r => intexpr (with_toks s r) | _ => Ok (slength x, s) end) in
                 let* y := lift (substr x i j) in let* _ := require is_rp in ret (VStr y)) s'
      | TStrf => (let* q := realfactor in ret (VStr (to_text w q))) s'
      | TVal => (let* x := strfactor in
                 fun s => rbind (lex (number w) x) (fun l => match l with [] => Ok (VNum 0, s) | _ => rbind (expr (with_toks s l)) (fun r => Ok (fst r, with_toks (snd r) (toks s))) end)) s'
      | TGet => (let* k := get_key fuel in fun s => Ok (VNum (match saved s k with Some q => q | None => 0 end), s)) s'
      | TGetS => (let* k := get_key fuel in fun s => match texts s k with Some x => if 256 <=? slength x then Crash else Ok (VStr x, s) | None => Ok (VStr "unknown", s) end) s'
      | _ => Err
      end
  end.
End Factor.
(** The recursion of expr to factor; each level calls the next one, and loops over its operators. *)
Fixpoint ev (fuel : nat) (l : level) : M value := fun s =>
  match fuel with
  | O => Deep
  | S f =>
      match l with
      | LExpr => (let* n := ev f LAnd in chain f op_or (ev f LAnd) n) s
      | LAnd => (let* n := ev f LRel in chain f op_and (ev f LRel) n) s
      | LRel => (let* n := ev f LSum in chain f op_rel (ev f LSum) n) s
      | LSum => (let* n := ev f LTerm in chain f op_sum (ev f LTerm) n) s
      | LTerm => (let* n := ev f LUp in chain f op_term (ev f LUp) n) s
      | LUp => (let* n := ev f LFactor in chain f (op_up w) (ev f LUp) n) s
      | LFactor => factor (ev f LExpr) (ev f LFactor) f s
      end
  end.
End Eval.
