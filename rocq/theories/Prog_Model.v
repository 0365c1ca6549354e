(** The BASIC interpreter: programs and their statements, IPhreeqcMMS/IPhreeqc/src/phreeqcpp/PBasic.cpp.  As in Basic_Model numbers are
    rationals and the modes of the graphical interface are off. *)
From Coq Require Import String Ascii List ZArith QArith Qround Qabs Bool.
From Verif Require Import CStr_Model CNum_Model Qx Chem_Model Basic_Model.
Import ListNotations.
Local Open Scope string_scope.
Local Open Scope list_scope.
Local Open Scope Z_scope.

(** ** Program text: linerec, PBasic.h; its number and its tokens *)
Definition line : Type := (Z * list tok)%type.
(** A line that is typed in, parseinput, 1709-1770: it goes to its place, replaces the line of that number, or deletes it if it is empty. *)
Fixpoint enter (n : Z) (t : list tok) (l : list line) : list line :=
  match l with
  | [] => match t with [] => [] | _ => [(n, t)] end
  | (k, u) :: r => if k <? n then (k, u) :: enter n t r
                   else let r := if k =? n then r else (k, u) :: r in match t with [] => r | _ => (n, t) :: r end
  end.
(** The number at the start of a line, 1719-1724 (in a long, without a test for overflow). *)
Fixpoint line_number (n : Z) (s : string) : Z * string :=
  match s with
  | String c r => if isdigit c then line_number (n * 10 + Z.of_N (N_of_ascii c) - 48) r else (n, s)
  | "" => (n, "")
  end.
(** sget_logical_line, 393-425: the text up to a semicolon or a new line. *)
Definition newline : ascii := ascii_of_nat 10.
Fixpoint logical_line (s : string) : string * string :=
  match s with
  | "" => ("", "")
  | String c r => if Ascii.eqb c ";" || Ascii.eqb c newline then ("", r) else let '(a, b) := logical_line r in (String c a, b)
  end.
(** findline, 5330-5338: the program from that line on. *)
Fixpoint find_line (n : Z) (l : list line) : option (list line) :=
  match l with [] => None | (k, t) :: r => if k =? n then Some l else find_line n r end.

(** ** The machine.  [here] is the program from the line that is executed (stmtline; none for a line without a number), the tokens of
    [base] are the rest of that line (LINK->t, stmttok); [dhere] and [dtoks] are dataline and datatok. *)
Inductive loop : Type :=
| LFor (x : string) (limit inc : Q) (home : list line) (htok : list tok)
| LWhile (home : list line) (htok : list tok)
| LGosub (home : list line) (htok : list tok).
(** What a program shows: PRINT, its new line, PUNCH, and the value that SAVE hands to the rate (rate_moles). *)
Inductive item : Type := OPrint (v : value) | ONewline | OPunch (v : value) | OSave (q : Q).
Record mach := mkMach { base : st; prog : list line; here : list line; stack : list loop; dhere : list line; dtoks : list tok; shown : list item }.
Definition with_base (m : mach) (s : st) : mach := mkMach s (prog m) (here m) (stack m) (dhere m) (dtoks m) (shown m).
Definition with_here (m : mach) (h : list line) (t : list tok) : mach := mkMach (with_toks (base m) t) (prog m) h (stack m) (dhere m) (dtoks m) (shown m).
Definition with_stack (m : mach) (l : list loop) : mach := mkMach (base m) (prog m) (here m) l (dhere m) (dtoks m) (shown m).
Definition with_data (m : mach) (h : list line) (t : list tok) : mach := mkMach (base m) (prog m) (here m) (stack m) h t (shown m).
Definition show (m : mach) (i : item) : mach := mkMach (base m) (prog m) (here m) (stack m) (dhere m) (dtoks m) (shown m ++ [i]).
Definition rest (m : mach) : list tok := toks (base m).
Definition to (m : mach) (t : list tok) : mach := with_base m (with_toks (base m) t).

Definition P (A : Type) : Type := mach -> res (A * mach).
Definition pret {A} (x : A) : P A := fun m => Ok (x, m).
Definition pbind {A B} (p : P A) (k : A -> P B) : P B := fun m => rbind (p m) (fun r => k (fst r) (snd r)).
Notation "'do*' x := p 'in' k" := (pbind p (fun x => k)) (at level 200, x pattern, p at level 100, k at level 200, right associativity).
Definition pfail {A} : P A := fun _ => Err.
Definition on {A} (e : M A) : P A := fun m => rbind (e (base m)) (fun r => Ok (fst r, with_base m (snd r))).
Definition change (f : mach -> mach) : P unit := fun m => Ok (tt, f m).
Definition get : P mach := fun m => Ok (m, m).

(** iseos and skiptoeos, 5313-5325. *)
Definition eos (t : list tok) : bool := match t with [] | TElse :: _ | TColon :: _ => true | _ => false end.
Fixpoint skip_eos (t : list tok) : list tok := match t with [] => [] | x :: r => if eos t then t else skip_eos r end.
Definition is_to (t : tok) : bool := match t with TTo => true | _ => false end.
Definition is_then (t : tok) : bool := match t with TThen => true | _ => false end.
Definition is_numtok (t : tok) : bool := match t with TNum _ => true | _ => false end.
Definition is_gototok (t : tok) : bool := match t with TGoto => true | _ => false end.
Definition separator (t : tok) : bool := match t with TComma | TSemi => true | _ => false end.

(** The element of a variable that a pointer to it means; a variable without dimensions has one only. *)
Definition target (s : st) (x : string) : Z := match dims (vars s x) with [] => scalar | _ => cur s x end.
Definition put_value (x : string) (v : value) : P unit := change (fun m => with_base m (store_at (base m) x (target (base m) x) v)).
Definition number_at (m : mach) (x : string) : res Q := num_of (cells (vars (base m) x) (target (base m) x)).

(** What a statement asks for: the next statement, or the same without the test for extra tokens (elseflag); the end by STOP; commands
    that are not modelled. *)
Inductive flow : Type := Plain | Open | Break | Unknown.

(** ** Skipping text.  Counters are updated at each token (with the tokens behind it), until one is negative.  6184-6215, 6245-6287. *)
Definition counters : Type := (Z * Z)%type.
Definition below (c : counters) : bool := (fst c <? 0) || (snd c <? 0).
Fixpoint scan_toks (upd : tok -> list tok -> counters -> counters) (c : counters) (t : list tok) : counters + list tok :=
  match t with [] => inl c | x :: r => let c := upd x r c in if below c then inr r else scan_toks upd c r end.
Fixpoint scan (upd : tok -> list tok -> counters -> counters) (c : counters) (t : list tok) (h : list line) : option (list tok * list line) :=
  match scan_toks upd c t with
  | inr r => Some (r, h)
  | inl c => match h with
             | [] => None
             | _ :: h' => match h' with [] => None | (_, u) :: _ => scan upd c u h' end
             end
  end.
Definition names (x : string) (t : list tok) : bool := match t with TVar y :: _ => String.eqb y x | _ => false end.
Definition upd_for (x : string) (t : tok) (r : list tok) (c : counters) : counters :=
  let '(i, j) := c in
  match t with
  | TFor => if names x r then (i, j + 1) else (i + 1, j)
  | TNext => if names x r then (i, j - 1) else (i - 1, j)
  | _ => c
  end.
Definition upd_while (t : tok) (_ : list tok) (c : counters) : counters := match t with TWhile => (fst c + 1, snd c) | TWend => (fst c - 1, snd c) | _ => c end.
Definition skip_to (upd : tok -> list tok -> counters -> counters) : P unit := fun m =>
  match scan upd (0, 0) (rest m) (here m) with Some (t, h) => Ok (tt, with_here m h t) | None => Err end.
(** The part of a line behind its matching ELSE, cmdif, 6156-6169. *)
Fixpoint skip_if (i : Z) (t : list tok) : list tok :=
  match t with
  | [] => []
  | x :: r => let i := match x with TIf => i + 1 | TElse => i - 1 | _ => i end in if i <? 0 then r else skip_if i r
  end.

(** ** Statements *)
Section Stmt.
Variables (w : world) (f : nat).
Definition expr : M value := ev w f LExpr.
Definition realx : P Q := on (realexpr expr).
Definition strx : P string := on (strexpr expr).
Definition intx : P Z := on (intexpr expr).
Definition find : P string := on (findvar (intexpr expr)).
Definition need (p : tok -> bool) : P unit := on (require p).
Definition eosP : P bool := fun m => Ok (eos (rest m), m).

(** cmdlet, 6101-6138: the element is fixed before the right side is evaluated. *)
Definition cmd_let : P flow :=
  do* x := find in do* m0 := get in let k := target (base m0) x in
  do* _ := need is_eq in
  if is_text x then do* s := strx in do* _ := change (fun m => with_base m (store_at (with_cur (base m) x k) x k (VStr s))) in pret Plain
  else do* q := realx in do* _ := change (fun m => with_base m (store_at (with_cur (base m) x k) x k (VNum q))) in pret Plain.
(** cmdgoto and mustfindline, 6140-6146, 5340-5365: to the start of the line. *)
Definition cmd_goto : P flow :=
  do* n := intx in fun m => match find_line n (prog m) with Some (((_, t) :: _) as h) => Ok (Plain, with_here m h t) | _ => Err end.
(** A jump drops the rest of the line, so that what follows is not looked at. *)
Definition jump : P flow := do* _ := cmd_goto in pret Open.
(** cmdif, 6148-6176. *)
Definition cmd_if : P flow :=
  do* q := realx in do* _ := need is_then in
  do* _ := (if qeq q 0 then change (fun m => to m (skip_if 0 (rest m))) else pret tt) in
  fun m => match rest m with TNum _ :: _ => jump m | _ => Ok (Open, m) end.
(** cmdfor, 6218-6298.  [*vp->val = realexpr()] is read as C++17 orders it. *)
Definition outside (v limit inc : Q) : bool := (qle 0 inc && qlt limit v) || (qle inc 0 && qlt v limit).
Definition cmd_for : P flow :=
  do* x := find in
  if is_text x then pfail else
  do* _ := need is_eq in do* a := realx in do* _ := put_value x (VNum a) in
  do* _ := need is_to in do* b := realx in
  do* c := (fun m => match rest m with TStep :: r => realx (to m r) | _ => Ok (1%Q, m) end) in
  fun m => rbind (number_at m x) (fun v =>
    if outside v b c then (do* _ := skip_to (upd_for x) in do* _ := change (fun m => to m (skip_eos (rest m))) in pret Plain) m
    else Ok (Plain, with_stack m (LFor x b c (here m) (rest m) :: stack m))).
(** cmdnext, 6300-6344. *)
Definition is_mine (v : option string) (x : string) : bool := match v with None => true | Some y => String.eqb x y end.
Fixpoint unwind_for (v : option string) (l : list loop) : option (list loop) :=
  match l with
  | LFor x _ _ _ _ :: r => if is_mine v x then Some l else unwind_for v r
  | LWhile _ _ :: r => unwind_for v r
  | _ => None
  end.
Definition within (v limit inc : Q) : bool := (qlt inc 0 || qle v limit) && (qlt 0 inc || qle limit v).
Definition cmd_next : P flow :=
  do* e := eosP in
  do* v := (if e then pret None else do* x := find in pret (Some x)) in
  fun m =>
    match unwind_for v (stack m) with
    | Some ((LFor x limit inc home htok :: below) as l) =>
        let m := with_stack m l in
        rbind (number_at m x) (fun q =>
          let q := (q + inc)%Q in
          (do* _ := put_value x (VNum q) in
           fun m => if within q limit inc then Ok (Plain, with_here m home htok) else Ok (Plain, with_stack m below)) m)
    | _ => Err
    end.
(** cmdwhile, 6347-6395. *)
Definition cmd_while : P flow := fun m =>
  let m1 := with_stack m (LWhile (here m) (rest m) :: stack m) in
  if eos (rest m) then Ok (Plain, m1)
  else (do* q := realx in
        if qeq q 0 then do* _ := skip_to upd_while in do* _ := change (fun m => with_stack m (tl (stack m))) in do* _ := change (fun m => to m (skip_eos (rest m))) in pret Plain
        else pret Plain) m1.
(** cmdwend, 6397-6452. *)
Fixpoint unwind_while (l : list loop) : option (list loop) :=
  match l with LWhile _ _ :: _ => Some l | LFor _ _ _ _ _ :: r => unwind_while r | _ => None end.
Definition cmd_wend : P flow := fun m =>
  match unwind_while (stack m) with
  | Some ((LWhile home htok :: below) as l) =>
      (do* e := eosP in
       do* stop := (if e then pret false else do* q := realx in pret (negb (qeq q 0))) in
       fun m =>
         if stop then Ok (Plain, with_stack m below)
         else (do* e := eosP in
               do* again := (if e then pret true else do* q := realx in pret (negb (qeq q 0))) in
               fun m' => if again then Ok (Plain, m') else Ok (Plain, with_stack (with_here m' (here m) (rest m)) below)) (with_here m home htok)) (with_stack m l)
  | _ => Err
  end.
(** cmdgosub and cmdreturn, 6454-6510. *)
Definition push_gosub : P unit := change (fun m => with_stack m (LGosub (here m) (rest m) :: stack m)).
Definition cmd_gosub : P flow := do* _ := push_gosub in jump.
Fixpoint unwind_gosub (l : list loop) : option (list line * list tok * list loop) :=
  match l with [] => None | LGosub h t :: r => Some (h, t, r) | _ :: r => unwind_gosub r end.
Definition cmd_return : P flow := fun m =>
  match unwind_gosub (stack m) with Some (h, t, below) => Ok (Plain, with_stack (with_here m h (skip_eos t)) below) | None => Err end.
(** cmdread, 6512-6606. *)
Definition is_data (t : tok) : bool := match t with TData => true | _ => false end.
Fixpoint data_toks (t : list tok) : option (list tok) :=
  match t with [] => None | x :: r => if is_data x && negb (eos r) then Some r else data_toks r end.
Fixpoint data_from (t : list tok) (h : list line) : option (list tok * list line) :=
  match data_toks t with
  | Some r => Some (r, h)
  | None => match h with [] => None | _ :: h' => match h' with [] => None | (_, u) :: _ => data_from u h' end end
  end.
(** Where the next datum is; without a program the NULL pointer of its first line is used. *)
Definition next_datum (m : mach) : res (list tok * list line) :=
  rbind (match dhere m with
         | [] => match prog m with [] => Crash | (_, t) :: _ => Ok (t, prog m) end
         | h => Ok (dtoks m, h)
         end)
    (fun '(t, h) => match t with
                    | TComma :: r => Ok (r, h)
                    | _ => match data_from t h with Some x => Ok x | None => Err end
                    end).
Definition read_one : P unit :=
  do* x := find in
  fun m => rbind (next_datum m) (fun '(t, h) =>
    (do* _ := (if is_text x then do* _ := put_value x (VStr "") in do* s := strx in put_value x (VStr s)
               else do* q := realx in put_value x (VNum q)) in
     change (fun m' => to (with_data m' h (rest m')) (rest m))) (to m t)).
Fixpoint read_all (n : nat) : P flow :=
  match n with
  | O => fun _ => Deep
  | S n => do* _ := read_one in do* e := eosP in do* _ := (if e then pret tt else need is_comma) in do* e := eosP in if e then pret Plain else read_all n
  end.
(** cmdrestore, 6614-6633. *)
Definition cmd_restore : P flow :=
  do* e := eosP in
  if e then do* _ := change (fun m => with_data m [] []) in pret Plain
  else do* n := intx in fun m => match find_line n (prog m) with Some (((_, t) :: _) as h) => Ok (Plain, with_data m h t) | _ => Err end.
(** cmdon, 6643-6683. *)
Fixpoint on_list (n : nat) (i : Z) : P flow := fun m =>
  if (1 <? i) && negb (eos (rest m)) then
    match n with
    | O => Deep
    | S n => (do* _ := need is_numtok in do* e := eosP in do* _ := (if e then pret tt else need is_comma) in on_list n (i - 1)) m
    end
  else if eos (rest m) then Ok (Plain, m) else jump m.
Definition cmd_on : P flow :=
  do* i := intx in
  do* _ := (fun m => match rest m with
                     | TGosub :: r => (do* _ := push_gosub in change (fun m => to m r)) m
                     | _ => need is_gototok m
                     end) in
  if i <? 1 then do* _ := change (fun m => to m (skip_eos (rest m))) in pret Plain
  else fun m => on_list (length (rest m)) i m.
(** cmddim, 6685-6759: bounds.  A product beyond a long and a bound of the largest long are undefined. *)
Fixpoint bounds (n : nat) (i : Z) : P (list Z) :=
  match n with
  | O => fun _ => Deep
  | S n =>
      do* j := intx in
      if j =? LONG_MAX then fun _ => Crash else
      let k := j + 1 in
      if (k <? 1) || (maxdims <=? i) then pfail else
      fun m => match rest m with
               | TRp :: r => Ok ([k], to m r)
               | _ => (do* _ := need is_comma in do* l := bounds n (i + 1) in pret (k :: l)) m
               end
  end.
Fixpoint dim_all (n : nat) : P flow := fun m =>
  match n with
  | O => Deep
  | S n =>
      match rest m with
      | TVar x :: r =>
          match dims (vars (base m) x) with
          | _ :: _ => Err
          | [] =>
              (do* _ := need is_lp in do* ds := bounds 6 0 in
               fun m => match dims (vars (base m) x) with
                        | _ :: _ => Ok (Unknown, m) (* the array is used in its own bounds; not modelled *)
                        | [] =>
                            if LONG_MAX <? fold_right Z.mul 1 ds then Crash else
                            (do* _ := change (fun m => with_base m (dimension (base m) x ds)) in
                             do* e := eosP in do* _ := (if e then pret tt else need is_comma) in do* e := eosP in if e then pret Plain else dim_all n) m
                        end) (to m r)
          end
      | _ => Err
      end
  end.
(** cmderase and clearvar, 6761-6781, 443-473. *)
Definition clear (s : st) (x : string) : st := with_cur (with_var s x (fresh x)) x scalar.
Fixpoint erase_all (n : nat) : P flow := fun m =>
  match n with
  | O => Deep
  | S n =>
      match rest m with
      | TVar x :: r => (do* _ := change (fun m => to (with_base m (clear (base m) x)) r) in
                        do* e := eosP in do* _ := (if e then pret tt else need is_comma) in do* e := eosP in if e then pret Plain else erase_all n) m
      | _ => Err
      end
  end.
(** cmdprint, cmdpunch and cmdsave, 5859-5898, 5899-6098, 5563-5587: the texts that numbers are turned into are not modelled. *)
Fixpoint print_all (n : nat) (semi : bool) : P flow := fun m =>
  if eos (rest m) then Ok (Plain, if semi then m else show m ONewline)
  else match n with
       | O => Deep
       | S n => match rest m with
                | t :: r => if separator t then print_all n true (to m r) else (do* v := on expr in do* _ := change (fun m => show m (OPrint v)) in print_all n false) m
                | [] => Deep
                end
       end.
Fixpoint values (n : nat) (k : value -> P unit) : P flow := fun m =>
  if eos (rest m) then Ok (Plain, m)
  else match n with
       | O => Deep
       | S n => match rest m with
                | t :: r => if separator t then values n k (to m r) else (do* v := on expr in do* _ := k v in values n k) m
                | [] => Deep
                end
       end.
Definition punch_one (v : value) : P unit := change (fun m => show m (OPunch v)).
Definition save_one (v : value) : P unit := match v with VNum q => change (fun m => show m (OSave q)) | VStr _ => pfail end.
(** cmdput and cmdput_, 5589-5654: a subscript is stored in an int. *)
Definition int_of (z : Z) : Z := (z + 2147483648) mod 4294967296 - 2147483648.
Fixpoint put_keys (n : nat) (k : string) : P string := fun m =>
  match n with
  | O => Deep
  | S n => match rest m with
           | TComma :: r => (do* j := intx in put_keys n (k ++ key_part (int_of j))%string) (to m r)
           | _ => (do* _ := need is_rp in pret k) m
           end
  end.
Definition cmd_put : P flow :=
  do* _ := need is_lp in do* q := realx in
  do* k := (fun m => put_keys (S (length (rest m))) "" m) in
  do* _ := change (fun m => with_base m (let s := base m in mkSt (toks s) (vars s) (cur s) (set (saved s) k (Some q)) (texts s))) in pret Plain.
Definition cmd_puts : P flow :=
  do* _ := need is_lp in do* x := strx in
  do* k := (fun m => put_keys (S (length (rest m))) "" m) in
  do* _ := change (fun m => with_base m (let s := base m in mkSt (toks s) (vars s) (cur s) (saved s) (set (texts s) k (Some x)))) in pret Plain.
(** cmdrun, 5519-5560, and clearvars.  If more follows on the line the jump is forgotten (exec resets gotoflag), and the line goes on. *)
Definition cleared (m : mach) (h : list line) : mach := let s := base m in mkMach (mkSt (toks s) fresh (fun _ => scalar) (saved s) (texts s)) (prog m) h [] [] [] (shown m).
Definition cmd_run : P flow :=
  do* h := (fun m => match rest m with
                     | TNum _ :: _ => (do* n := intx in fun m => match find_line n (prog m) with Some h => Ok (Some h, m) | None => Err end) m
                     | r => Ok (if eos r then Some (prog m) else None, m)
                     end) in
  match h with
  | None => pret Unknown (* RUN with a file *)
  | Some h => fun m => let m := cleared m h in match rest m, h with [], (_, t) :: _ => Ok (Open, to m t) | _, _ => Ok (Plain, m) end
  end.
Definition end_program (m : mach) : mach := with_here m [] [].

(** The statement that a token begins, exec, 6818-7020. *)
Definition file_words : list string := ["list"; "new"; "load"; "merge"; "del"; "change_por"; "change_surf"; "gotoxy"; "poke"].
Definition stmt (t : tok) : P flow :=
  match t with
  | TRem _ => pret Plain
  | TLet => cmd_let
  | TVar x => fun m => cmd_let (to m (t :: rest m))
  | TPrint => fun m => print_all (length (rest m)) false m
  | TPunch => fun m => values (length (rest m)) punch_one m
  | TSave => fun m => values (length (rest m)) save_one m
  | TPut => cmd_put
  | TPutS => cmd_puts
  | TGoto => jump
  | TIf => cmd_if
  | TElse => do* _ := change (fun m => to m []) in pret Plain
  | TEnd => do* _ := change end_program in pret Plain
  | TStop => pret Break
  | TFor => cmd_for
  | TNext => cmd_next
  | TWhile => cmd_while
  | TWend => cmd_wend
  | TGosub => cmd_gosub
  | TReturn => cmd_return
  | TRead => fun m => read_all (S (length (rest m))) m
  | TData => do* _ := change (fun m => to m (skip_eos (rest m))) in pret Plain
  | TRestore => cmd_restore
  | TOn => cmd_on
  | TDim => fun m => dim_all (S (length (rest m))) m
  | TErase => fun m => erase_all (S (length (rest m))) m
  | TRun => cmd_run
  | TBye => pret Plain (* exitflag is looked at after the line without a number only *)
  | TRenum => pret Unknown (* see [renum] *)
  | TOther x => if member x file_words then pret Unknown else pfail
  | _ => pfail
  end.

(** ** The loop, exec, 6798-7040.  A step is a statement, a colon that is passed, or the next line. *)
Inductive out : Type := Go (m : mach) | Finish (m : mach) | Broken (m : mach) | Fails | Faults | NotNum | TooDeep | Unmodelled.
Definition step (m : mach) : out :=
  match rest m with
  | [] => match here m with
          | _ :: (((_, t) :: _) as h) => Go (with_here m h t)
          | _ => Finish (with_here m [] [])
          end
  | TColon :: r => Go (to m r)
  | t :: r =>
      match stmt t (to m r) with
      | Ok (Plain, m) => if eos (rest m) then Go m else Fails
      | Ok (Open, m) => Go m
      | Ok (Break, m) => Broken m
      | Ok (Unknown, _) => Unmodelled
      | Err => Fails
      | Crash => Faults
      | Nan => NotNum
      | Deep => TooDeep
      end
  end.
Fixpoint exec (n : nat) (m : mach) : out := match n with O => TooDeep | S n => match step m with Go m => exec n m | o => o end end.
End Stmt.

(** basic_run, 255-330, with the command RUN; variables, loops and data are new. *)
Definition started (sv : string -> option Q) (tx : string -> option string) (p : list line) : mach :=
  mkMach (mkSt [TRun] fresh (fun _ => scalar) sv tx) p [] [] [] [] [].

(** ** RENUM, 5779-5857.  Numbers behind these words are line numbers. *)
Definition has_lines (t : tok) : bool :=
  match t with TRestore | TRun | TElse | TThen | TGosub | TGoto => true | TOther x => String.eqb x "del" || String.eqb x "list" | _ => false end.
Fixpoint new_number (old : list line) (n first inc : Z) : option Z :=
  match old with [] => None | (k, _) :: r => if k =? n then Some first else new_number r n (first + inc) inc end.
(** [inside]: the last token is such a word, or a number or a comma after a number of its list. *)
Inductive place : Type := Outside | Inside | AfterNum.
Fixpoint renum_toks (p : list line) (first inc : Z) (at_ : place) (t : list tok) : list tok :=
  match t with
  | [] => []
  | x :: r =>
      match at_, x with
      | (Inside | AfterNum), TNum q => TNum (match new_number p (Qfloor (q + (1 # 2))) first inc with Some n => inject_Z n | None => q end) :: renum_toks p first inc AfterNum r
      | AfterNum, TComma => TComma :: renum_toks p first inc Inside r
      | _, _ => x :: renum_toks p first inc (if has_lines x then Inside else Outside) r
      end
  end.
Fixpoint renum_lines (p : list line) (first inc k : Z) (l : list line) : list line :=
  match l with [] => [] | (_, t) :: r => (k, renum_toks p first inc Outside t) :: renum_lines p first inc (k + inc) r end.
Definition renum (p : list line) (first inc : Z) : list line := renum_lines p first inc first p.
