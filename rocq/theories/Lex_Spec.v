(** Specification for C74 and C77: how the tokens of a BASIC line, and the lines of a program, are written. *)
From Coq Require Import String Ascii List ZArith QArith Bool.
From Verif Require Import CNum_Model Ckpt_Model Basic_Model Prog_Model.
Import ListNotations.
Local Open Scope string_scope.
Local Open Scope list_scope.
Local Open Scope Z_scope.

Definition smalls : list ascii := list_ascii_of_string "abcdefghijklmnopqrstuvwxyz".
Definition bigs : list ascii := list_ascii_of_string "ABCDEFGHIJKLMNOPQRSTUVWXYZ".
Definition digits : list ascii := list_ascii_of_string "0123456789".
Definition is_letter (c : ascii) : Prop := In c smalls \/ In c bigs.
Definition in_word (c : ascii) : Prop := is_letter c \/ In c digits \/ c = "$"%char \/ c = "_"%char.
Fixpoint partner (c : ascii) (l : list (ascii * ascii)) : ascii := match l with [] => c | (a, b) :: r => if Ascii.eqb a c then b else partner c r end.
Fixpoint small (s : string) : string := match s with "" => "" | String c r => String (partner c (combine bigs smalls)) (small r) end.
Fixpoint every (p : ascii -> Prop) (s : string) : Prop := match s with "" => True | String c r => p c /\ every p r end.
Definition begins (p : ascii -> Prop) (s : string) : Prop := match s with "" => False | String c _ => p c end.
(** Characters that are a token by themselves. *)
Definition signs : list (ascii * tok) :=
  [("+", TPlus); ("-", TMinus); ("*", TTimes); ("/", TDiv); ("^", TUp); ("(", TLp); ("[", TLp); (")", TRp); ("]", TRp); (",", TComma); (";", TSemi); (":", TColon); ("?", TPrint); ("=", TEq)]%char.
(** Reserved words, other than the names of functions and quantities. *)
Definition reserved : list (string * tok) :=
  [("abs", TAbs); ("and", TAnd); ("asc", TAsc); ("bye", TBye); ("ceil", TCeil); ("chr$", TChr); ("data", TData); ("dim", TDim); ("else", TElse); ("end", TEnd); ("erase", TErase);
   ("floor", TFloor); ("for", TFor); ("get", TGet); ("get$", TGetS); ("gosub", TGosub); ("goto", TGoto); ("if", TIf); ("instr", TInstr); ("len", TLen); ("let", TLet); ("ltrim", TLtrim);
   ("mid$", TMid); ("mod", TMod); ("next", TNext); ("not", TNot); ("on", TOn); ("or", TOr); ("print", TPrint); ("punch", TPunch); ("put", TPut); ("put$", TPutS); ("quit", TBye);
   ("read", TRead); ("renum", TRenum); ("restore", TRestore); ("return", TReturn); ("rtrim", TRtrim); ("run", TRun); ("save", TSave); ("sgn", TSgn); ("sqr", TSqr); ("step", TStep);
   ("stop", TStop); ("str$", TStrf); ("then", TThen); ("to", TTo); ("trim", TTrim); ("val", TVal); ("wend", TWend); ("while", TWhile); ("xor", TXor)].
Definition is_name (x : string) : Prop := ~ In x (map fst reserved) /\ ~ In x (real_functions ++ name_functions ++ quantities ++ other_words) /\ x <> "rem".

Section Spelling.
Variable number : string -> option (Q * string).
(** The token, its text, and what may follow the text at once. *)
Inductive spells : tok -> string -> (string -> Prop) -> Prop :=
| sp_sign c t : In (c, t) signs -> spells t (String c "") (fun _ => True)
| sp_lt : spells TLt "<" (fun r => ~ begins (fun c => c = "="%char \/ c = ">"%char) r)
| sp_le : spells TLe "<=" (fun _ => True)
| sp_ne : spells TNe "<>" (fun _ => True)
| sp_gt : spells TGt ">" (fun r => ~ begins (fun c => c = "="%char) r)
| sp_ge : spells TGe ">=" (fun _ => True)
| sp_text q a : q = """"%char \/ q = "'"%char -> every (fun c => c <> q) a -> spells (TStr a) (String q (a ++ String q "")) (fun _ => True)
| sp_num v a : begins (fun c => In c digits \/ c = "."%char) a -> spells (TNum v) a (fun r => number (a ++ r)%string = Some (v, r))
| sp_reserved w t a : In (w, t) reserved -> small a = w -> spells t a (fun r => ~ begins in_word r)
| sp_real w a : In w real_functions -> small a = w -> spells (TReal w) a (fun r => ~ begins in_word r)
| sp_chem w a : In w name_functions -> small a = w -> spells (TChem w) a (fun r => ~ begins in_word r)
| sp_quant w a : In w quantities -> small a = w -> spells (TQuant w) a (fun r => ~ begins in_word r)
| sp_name x a : begins is_letter a -> every in_word a -> small (substring 0 20 a) = x -> is_name x -> spells (TVar x) a (fun r => ~ begins in_word r).
(** The text reads as the tokens, and then as [tail]. *)
Inductive reads (tail : string) : string -> list tok -> Prop :=
| rd_done : reads tail tail []
| rd_blank s l : reads tail s l -> reads tail (String " " s) l
| rd_tok t a ok s l : spells t a ok -> ok s -> reads tail s l -> reads tail (a ++ s)%string (t :: l).
Definition lefts (l : list tok) : nat := length (filter (fun t => match t with TLp => true | _ => false end) l).
Definition rights (l : list tok) : nat := length (filter (fun t => match t with TRp => true | _ => false end) l).

(** A line as it is typed: the number, blanks and the statements. *)
Definition plain_char (c : ascii) : Prop := c <> ";"%char /\ c <> newline /\ c <> tab /\ c <> ascii_of_nat 13.
Definition ends_plain (s : string) : Prop := match last_char s with Some c => is_space c = false | None => False end.
Definition good_line (l : Z * string * list tok) : Prop :=
  let '(n, s, t) := l in 1 <= n <= LONG_MAX /\ every plain_char s /\ ends_plain s /\ reads "" s t /\ lefts t = rights t.
(** Lines end with a semicolon or a new line. *)
Inductive text_of : list (Z * string * list tok) -> string -> Prop :=
| to_nil : text_of [] ""
| to_last n s t : text_of [(n, s, t)] (dec n ++ " " ++ s)
| to_line n s t ls rest e : e = ";"%char \/ e = newline -> text_of ls rest -> text_of ((n, s, t) :: ls) (dec n ++ " " ++ s ++ String e rest).
End Spelling.
