(** What structured BASIC programs mean, and how they are written (C76-C79). *)
From Coq Require Import String Ascii List ZArith QArith Bool.
From Verif Require Import CStr_Model CNum_Model Qx Basic_Model Basic_Spec Prog_Model.
Import ListNotations.
Local Open Scope string_scope.
Local Open Scope list_scope.
Local Open Scope Z_scope.

(** ** Programs as trees.  The flag of [For]: NEXT names its variable. *)
Inductive lhs : Type := Whole (x : string) | Cell (x : string) (l : list ex).
Inductive cmd : Type :=
| Nop | Let (t : lhs) (e : ex) | Print (l : list ex) (stays : bool) | Punch (l : list ex) | Save (l : list ex)
| Put (e : ex) (l : list ex) | PutText (e : ex) (l : list ex)
| Dim (x : string) (l : list ex) | Erase (x : string) | Read (t : lhs) (more : list lhs) | Restore
| Seq (a b : cmd) | If (e : ex) (a b : cmd)
| For (named : bool) (x : string) (a b : ex) (c : option ex) (body : cmd)
| While (before after : option ex) (body : cmd)
| Call (n : Z) | OnCall (e : ex) (ns : list Z).

(** ** The memory of a program: variables, values and texts kept by PUT, what was shown, and the data that READ will get. *)
Record memory := mkMem { vs : string -> var; sv : string -> option Q; tx : string -> option string; outp : list item; feed : list value }.
Definition value_in (w : world) (s : memory) (e : ex) (v : value) : Prop := well_used (vs s) e /\ den w (vs s) (sv s) (tx s) e = Ok v.
Definition whole_in (w : world) (s : memory) (e : ex) (z : Z) : Prop := exists v, value_in w s e v /\ rounded v = Ok z.
Definition fits (x : string) (v : value) : Prop := match v with VNum _ => is_text x = false | VStr _ => is_text x = true end.
Definition written_to (s : memory) (x : string) (k : Z) (v : value) : memory :=
  mkMem (fun y => if String.eqb y x then mkVar (dims (vs s x)) (fun i => if i =? k then v else cells (vs s x) i) else vs s y) (sv s) (tx s) (outp s) (feed s).
(** A text is emptied before a new one is read into it. *)
Definition emptied (s : memory) (x : string) (k : Z) : memory := if is_text x then written_to s x k (VStr "") else s.
(** The element that a left side means. *)
Inductive stands_for (w : world) (s : memory) : lhs -> string -> Z -> Prop :=
| at_whole x : dims (vs s x) = [] -> stands_for w s (Whole x) x scalar
| at_cell x l js k : l <> [] -> Forall2 (whole_in w s) l js -> position (dims (vs s x)) js 0 = Some k -> stands_for w s (Cell x l) x k.
Definition shows (s : memory) (l : list item) : memory := mkMem (vs s) (sv s) (tx s) (outp s ++ l) (feed s).
Fixpoint key (js : list Z) : string := match js with [] => "" | j :: js => (key_part j ++ key js)%string end.
Definition fits_int (j : Z) : Prop := -2147483648 <= j < 2147483648.
Definition numbers_in (l : list value) (qs : list Q) : Prop := l = map VNum qs.
(** The control variable is still inside the limit. *)
Definition inside (q limit inc : Q) : Prop := match (inc ?= 0)%Q with Gt => (q <= limit)%Q | Lt => (limit <= q)%Q | Eq => (q == limit)%Q end.
Definition truth (w : world) (s : memory) (e : ex) (b : bool) : Prop := exists q, value_in w s e (VNum q) /\ (if b then ~ q == 0 else q == 0)%Q.
Definition check (w : world) (s : memory) (e : option ex) (b : bool) (default : bool) : Prop := match e with None => b = default | Some e => truth w s e b end.

(** ** Meaning.  [procs] are the subroutines at the lines that GOSUB names; [all_data] is what RESTORE brings back. *)
Inductive job : Type := Do (c : cmd) | Rounds (x : string) (limit inc : Q) (body : cmd) | Again (before after : option ex) (body : cmd).
Section Meaning.
Variables (w : world) (procs : Z -> option cmd) (all_data : list value).
Inductive reads : memory -> lhs -> memory -> Prop :=
| reads_one s t x k v l : feed s = v :: l -> stands_for w s t x k -> fits x v -> reads s t (written_to (emptied (mkMem (vs s) (sv s) (tx s) (outp s) l) x k) x k v).
Inductive reads_all : memory -> list lhs -> memory -> Prop :=
| reads_none s : reads_all s [] s
| reads_more s t l s1 s2 : reads s t s1 -> reads_all s1 l s2 -> reads_all s (t :: l) s2.
Inductive does : memory -> job -> memory -> Prop :=
| d_nop s : does s (Do Nop) s
| d_let s t e x k v : stands_for w s t x k -> value_in w s e v -> fits x v -> does s (Do (Let t e)) (written_to s x k v)
| d_print s l l' stays : Forall2 (value_in w s) l l' -> does s (Do (Print l stays)) (shows s (map OPrint l' ++ if stays then [] else [ONewline]))
| d_punch s l l' : Forall2 (value_in w s) l l' -> does s (Do (Punch l)) (shows s (map OPunch l'))
| d_save s l l' qs : Forall2 (value_in w s) l l' -> numbers_in l' qs -> does s (Do (Save l)) (shows s (map OSave qs))
| d_put s e l q js : value_in w s e (VNum q) -> Forall2 (whole_in w s) l js -> Forall fits_int js ->
    does s (Do (Put e l)) (mkMem (vs s) (fun k => if String.eqb k (key js) then Some q else sv s k) (tx s) (outp s) (feed s))
| d_put_text s e l x js : value_in w s e (VStr x) -> Forall2 (whole_in w s) l js -> Forall fits_int js ->
    does s (Do (PutText e l)) (mkMem (vs s) (sv s) (fun k => if String.eqb k (key js) then Some x else tx s k) (outp s) (feed s))
| d_dim s x l js : dims (vs s x) = [] -> Forall2 (whole_in w s) l js -> Forall (fun j => 0 <= j < LONG_MAX) js -> size (map (fun j => j + 1) js) <= LONG_MAX ->
    does s (Do (Dim x l))
      (mkMem (fun y => if String.eqb y x then mkVar (map (fun j => j + 1) js) (fun k => if k =? scalar then cells (vs s x) scalar else if is_text x then VStr "" else VNum 0) else vs s y)
        (sv s) (tx s) (outp s) (feed s))
| d_erase s x : does s (Do (Erase x)) (mkMem (fun y => if String.eqb y x then mkVar [] (fun _ => if is_text x then VStr "" else VNum 0) else vs s y) (sv s) (tx s) (outp s) (feed s))
| d_read s t more s' : reads_all s (t :: more) s' -> does s (Do (Read t more)) s'
| d_restore s : does s (Do Restore) (mkMem (vs s) (sv s) (tx s) (outp s) all_data)
| d_seq s a b s1 s2 : does s (Do a) s1 -> does s1 (Do b) s2 -> does s (Do (Seq a b)) s2
| d_then s e a b s' : truth w s e true -> does s (Do a) s' -> does s (Do (If e a b)) s'
| d_else s e a b s' : truth w s e false -> does s (Do b) s' -> does s (Do (If e a b)) s'
| d_for s named x a b c body qa qb qc s' : is_text x = false -> dims (vs s x) = [] -> value_in w s a (VNum qa) ->
    let s1 := written_to s x scalar (VNum qa) in
    value_in w s1 b (VNum qb) -> match c with None => qc = 1%Q | Some c => value_in w s1 c (VNum qc) end ->
    does s1 (Rounds x qb qc body) s' -> does s (Do (For named x a b c body)) s'
| d_last s x limit inc body q : cells (vs s x) scalar = VNum q -> ~ inside q limit inc -> does s (Rounds x limit inc body) s
| d_round s x limit inc body q s1 q1 s2 : cells (vs s x) scalar = VNum q -> inside q limit inc -> does s (Do body) s1 ->
    dims (vs s1 x) = [] -> cells (vs s1 x) scalar = VNum q1 -> does (written_to s1 x scalar (VNum (q1 + inc))) (Rounds x limit inc body) s2 ->
    does s (Rounds x limit inc body) s2
| d_while s e1 e2 body s' : does s (Again e1 e2 body) s' -> does s (Do (While e1 e2 body)) s'
| d_stop s e1 e2 body : check w s e1 false true -> does s (Again e1 e2 body) s
| d_leave s e1 e2 body s1 : check w s e1 true true -> does s (Do body) s1 -> check w s1 e2 true false -> does s (Again e1 e2 body) s1
| d_again s e1 e2 body s1 s2 : check w s e1 true true -> does s (Do body) s1 -> check w s1 e2 false false -> does s1 (Again e1 e2 body) s2 -> does s (Again e1 e2 body) s2
| d_call s n c s' : procs n = Some c -> does s (Do c) s' -> does s (Do (Call n)) s'
| d_on s e ns i n c s' : whole_in w s e i -> 1 <= i -> nth_error ns (Z.to_nat (i - 1)) = Some n -> procs n = Some c -> does s (Do c) s' -> does s (Do (OnCall e ns)) s'.
End Meaning.

(** ** How programs are written: between two places of the text.  A place is the rest of a line, with the program from that line on. *)
Definition pos : Type := (list tok * list line)%type.
Definition written_lhs (t : lhs) : list tok := match t with Whole x => [TVar x] | Cell x l => TVar x :: TLp :: separated (map written l) ++ [TRp] end.
(** Statements are separated by colons and ends of lines. *)
Inductive next_stmt : pos -> pos -> Prop :=
| by_colon t h : next_stmt (TColon :: t, h) (t, h)
| by_line l n t r : next_stmt ([], l :: (n, t) :: r) (t, (n, t) :: r)
| by_more p q r : next_stmt p q -> next_stmt q r -> next_stmt p r.
(** Values, each followed by a comma or a semicolon, the last one perhaps not. *)
Inductive listed : list ex -> list tok -> bool -> Prop :=
| l_none : listed [] [] false
| l_last e : listed [e] (written e) false
| l_more e x l t b : separator x = true -> listed l t b -> listed (e :: l) (written e ++ x :: t) (match l with [] => true | _ => b end).
(** In a THEN that is followed by ELSE there is no further IF. *)
Fixpoint no_if (c : cmd) : Prop :=
  match c with If _ _ _ => False | Seq a b => no_if a /\ no_if b | For _ _ _ _ _ a => no_if a | While _ _ a => no_if a | _ => True end.
(** Inside a loop over [x] no loop over [x] ends in a NEXT without a name. *)
Fixpoint tidy (x : string) (c : cmd) : Prop :=
  match c with
  | If _ a b => tidy x a /\ tidy x b | Seq a b => tidy x a /\ tidy x b
  | For named y _ _ _ a => (named = false -> y <> x) /\ tidy x a | While _ _ a => tidy x a
  | _ => True
  end.
Definition option_text (o : option ex) : list tok := match o with None => [] | Some e => written e end.
Definition step_text (o : option ex) : list tok := match o with None => [] | Some e => TStep :: written e end.
Fixpoint lines_text (ns : list Z) : list tok := match ns with [] => [] | [n] => [TNum (inject_Z n)] | n :: r => TNum (inject_Z n) :: TComma :: lines_text r end.
Inductive spelled : pos -> cmd -> pos -> Prop :=
| s_rem x r h : eos r = true -> spelled (TRem x :: r, h) Nop (r, h)
| s_data t r h : Forall (fun x => x <> TColon /\ x <> TElse /\ x <> TFor /\ x <> TNext /\ x <> TWhile /\ x <> TWend /\ x <> TIf) t -> eos r = true -> spelled (TData :: t ++ r, h) Nop (r, h)
| s_let t e r h : eos r = true -> spelled (TLet :: written_lhs t ++ TEq :: written e ++ r, h) (Let t e) (r, h)
| s_assign t e r h : eos r = true -> spelled (written_lhs t ++ TEq :: written e ++ r, h) (Let t e) (r, h)
| s_print l t b r h : listed l t b -> eos r = true -> spelled (TPrint :: t ++ r, h) (Print l b) (r, h)
| s_punch l t b r h : listed l t b -> eos r = true -> spelled (TPunch :: t ++ r, h) (Punch l) (r, h)
| s_save l t b r h : listed l t b -> eos r = true -> spelled (TSave :: t ++ r, h) (Save l) (r, h)
| s_put e l r h : eos r = true -> spelled (TPut :: TLp :: separated (map written (e :: l)) ++ TRp :: r, h) (Put e l) (r, h)
| s_put_text e l r h : eos r = true -> spelled (TPutS :: TLp :: separated (map written (e :: l)) ++ TRp :: r, h) (PutText e l) (r, h)
| s_dim x l r h : (1 <= length l <= 4)%nat -> eos r = true -> spelled (TDim :: TVar x :: TLp :: separated (map written l) ++ TRp :: r, h) (Dim x l) (r, h)
| s_erase x r h : eos r = true -> spelled (TErase :: TVar x :: r, h) (Erase x) (r, h)
| s_read t more r h : eos r = true -> spelled (TRead :: separated (map written_lhs (t :: more)) ++ r, h) (Read t more) (r, h)
| s_restore r h : eos r = true -> spelled (TRestore :: r, h) Restore (r, h)
| s_seq p a p1 p2 b p' : spelled p a p1 -> next_stmt p1 p2 -> spelled p2 b p' -> spelled p (Seq a b) p'
| s_if e a b t u h : spelled (t, h) a (TElse :: u, h) -> no_if a -> spelled (u, h) b ([], h) -> spelled (TIf :: written e ++ TThen :: t, h) (If e a b) ([], h)
| s_if_only e a t h : spelled (t, h) a ([], h) -> spelled (TIf :: written e ++ TThen :: t, h) (If e a Nop) ([], h)
| s_for (named : bool) x a b c body r h p1 p2 r' h' : eos r = true -> next_stmt (r, h) p1 -> spelled p1 body p2 -> tidy x body ->
    next_stmt p2 (TNext :: (if named then [TVar x] else []) ++ r', h') -> eos r' = true ->
    spelled (TFor :: TVar x :: TEq :: written a ++ TTo :: written b ++ step_text c ++ r, h) (For named x a b c body) (r', h')
| s_while e1 e2 body r h p1 p2 r' h' : eos r = true -> next_stmt (r, h) p1 -> spelled p1 body p2 ->
    next_stmt p2 (TWend :: option_text e2 ++ r', h') -> eos r' = true ->
    spelled (TWhile :: option_text e1 ++ r, h) (While e1 e2 body) (r', h')
| s_call n r h : LONG_MIN <= n <= LONG_MAX -> eos r = true -> spelled (TGosub :: TNum (inject_Z n) :: r, h) (Call n) (r, h)
| s_on e ns r h : Forall (fun n => LONG_MIN <= n <= LONG_MAX) ns -> eos r = true -> spelled (TOn :: written e ++ TGosub :: lines_text ns ++ r, h) (OnCall e ns) (r, h).
(** The first line of a number, as a place. *)
Definition line_at (p : list line) (n : Z) (q : pos) : Prop :=
  exists before t r, p = before ++ (n, t) :: r /\ ~ In n (map fst before) /\ q = (t, (n, t) :: r).
(** A subroutine is written from its line to a RETURN. *)
Definition subroutines (p : list line) (procs : Z -> option cmd) : Prop :=
  forall n c, procs n = Some c -> exists q p1 r h, line_at p n q /\ spelled q c p1 /\ next_stmt p1 (TReturn :: r, h) /\ eos r = true.
(** ** Data: the constants of the DATA statements in the order of the lines *)
Inductive constant : list tok -> value -> Prop :=
| c_num q : constant [TNum q] (VNum q)
| c_neg q : constant [TMinus; TNum q] (VNum (- q))
| c_str s : constant [TStr s] (VStr s).
Inductive data_list : list tok -> list value -> Prop :=
| dl_one c v : constant c v -> data_list c [v]
| dl_more c v t l : constant c v -> data_list t l -> data_list (c ++ TComma :: t) (v :: l).
Inductive data_text : list tok -> list value -> Prop :=
| dt_none t : ~ In TData t -> data_text t []
| dt_data pre t l r l' : ~ In TData pre -> data_list t l -> eos r = true -> data_text r l' -> data_text (pre ++ TData :: t ++ r) (l ++ l').
Fixpoint data_of (p : list line) (l : list value) : Prop :=
  match p with [] => l = [] | (_, t) :: r => exists a b, data_text t a /\ data_of r b /\ l = a ++ b end.

(** ** Running *)
Inductive reaches (w : world) : mach -> mach -> Prop :=
| r_here m : reaches w m m
| r_step m m1 m2 : (exists enough, forall f, (enough <= f)%nat -> step w f m = Go m1) -> reaches w m1 m2 -> reaches w m m2.
(** A program ends in a state, with as much recursion and as many steps as it takes. *)
Definition ends_in_state (w : world) (m m' : mach) : Prop := exists enough n, forall f k, (enough <= f)%nat -> (n <= k)%nat -> exec w f k m = Finish m'.
(** The end of a program: behind its last line, or END. *)
Inductive at_end : pos -> Prop :=
| e_last l : at_end ([], [l])
| e_end p r h : next_stmt p (TEnd :: r, h) -> at_end p.

(** ** Lines (C77) *)
Fixpoint text_at (p : list line) (k : Z) : option (list tok) := match p with [] => None | (n, t) :: r => if n =? k then Some t else text_at r k end.
Fixpoint ascending (p : list line) : Prop := match p with [] => True | (n, _) :: r => Forall (fun l => n < fst l) r /\ ascending r end.
(** The text that was last typed for a number; an empty one deletes the line. *)
Fixpoint last_typed (ls : list line) (k : Z) : option (list tok) :=
  match ls with [] => None | (n, t) :: r => match last_typed r k with Some u => Some u | None => if n =? k then Some t else None end end.
(** [n] names the line at place [i]. *)
Definition names_line (p : list line) (n : Z) (i : nat) : Prop := exists before t r, p = before ++ (n, t) :: r /\ ~ In n (map fst before) /\ length before = i.
(** ** Single steps (C79) *)
Definition memory_of (m : mach) : memory := mkMem (vars (base m)) (saved (base m)) (texts (base m)) (shown m) [].
(** Nothing but the position (and which element of an array was used last) has changed. *)
Definition only_moved (m m' : mach) : Prop := memory_of m' = memory_of m /\ prog m' = prog m /\ dhere m' = dhere m /\ dtoks m' = dtoks m.
Definition at_pos (m : mach) (p : pos) : Prop := rest m = fst p /\ here m = snd p.
(** A program ends with an error message. *)
Definition stops_with_error (w : world) (m : mach) : Prop := exists enough n, forall f k, (enough <= f)%nat -> (n <= k)%nat -> exec w f k m = Fails.
