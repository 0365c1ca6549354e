(** The BASIC interpreter: the text of a program, IPhreeqcMMS/IPhreeqc/src/phreeqcpp/PBasic.cpp. *)
From Coq Require Import String Ascii List ZArith QArith Bool.
From Verif Require Import CStr_Model CNum_Model Qx Chem_Model Basic_Model Prog_Model.
Import ListNotations.
Local Open Scope string_scope.
Local Open Scope list_scope.
Local Open Scope Z_scope.

(** parseinput, 1707-1727: tabs and carriage returns are blanks, blanks around the line are dropped, and the digits in front are its number. *)
Definition carriage : ascii := ascii_of_nat 13.
Fixpoint blanked (s : string) : string := match s with "" => "" | String c r => String (if Ascii.eqb c tab || Ascii.eqb c carriage then " "%char else c) (blanked r) end.
Definition typed (number : string -> option (Q * string)) (s : string) : res (Z * list tok) :=
  let '(n, r) := line_number 0 (trim_left (trim_right (blanked s))) in
  if LONG_MAX <? n then Crash else rbind (lex number r) (fun t => Ok (n, t)).
(** The loop of basic_compile, 80-130, basic_renumber and basic_run over the text of a program.  A line without a number, or with the number 0,
    is executed at once; here that ends the loop. *)
Inductive compiled : Type := Program (p : list line) | Immediate (p : list line) (t : list tok) (more : string) | BadText | Overflow.
Fixpoint compile_from (number : string -> option (Q * string)) (fuel : nat) (s : string) (p : list line) : compiled :=
  match fuel, s with
  | _, "" => Program p
  | O, _ => Program p
  | S fuel, _ =>
      let '(a, b) := logical_line s in
      match typed number a with
      | Ok (n, t) => if n =? 0 then match t with [] => compile_from number fuel b p | _ => Immediate p t b end else compile_from number fuel b (enter n t p)
      | Err => BadText
      | _ => Overflow
      end
  end.
Definition compile (number : string -> option (Q * string)) (s : string) : compiled := compile_from number (String.length s) s [].
