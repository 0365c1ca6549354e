(** What BASIC expressions mean and how they are written (C74-C75). *)
From Coq Require Import String Ascii List ZArith QArith Qround Qabs Bool.
From Verif Require Import CStr_Model Qx Basic_Model.
Import ListNotations.
Local Open Scope string_scope.
Local Open Scope list_scope.
Local Open Scope Z_scope.

(** ** Expressions as trees *)
Inductive unary : Type := Neg | Pos | Not | Sqr | Abs | Sgn | Ceil | Floor | Real (f : string) | Chem (f : string) | Len | Asc | Chr | StrF.
Inductive binary : Type := Or | Xor | And | Equal | Less | Greater | AtMost | AtLeast | Differs | Add | Sub | Mul | Div | Mod | Pow.
Inductive trim : Type := Both | AtLeft | AtRight.
Inductive ex : Type :=
| Num (q : Q) | Text (s : string) | Var (x : string) | Elem (x : string) (l : list ex) | Quant (f : string)
| Un (u : unary) (e : ex) | Bin (b : binary) (e1 e2 : ex) | Instr (e1 e2 : ex) | Trim (k : trim) (e : ex) | Mid (e i j : ex)
| Par (e : ex) | Get (l : list ex) | GetText (l : list ex).

(** ** Meaning: values of the parts first, from left to right *)
Definition number_of (v : value) (f : Q -> res value) : res value := match v with VNum q => f q | VStr _ => Err end.
Definition text_of (v : value) (f : string -> res value) : res value := match v with VStr s => f s | VNum _ => Err end.
Definition rounded (v : value) : res Z := match v with VNum q => to_int q | VStr _ => Err end.
Definition un_value (w : world) (u : unary) (v : value) : res value :=
  match u with
  | Neg => number_of v (fun q => Ok (VNum (- q)))
  | Pos => number_of v (fun q => Ok (VNum q))
  | Not => rbind (rounded v) (fun z => Ok (VNum (inject_Z (- z - 1))))
  | Sqr => number_of v (fun q => Ok (VNum (q * q)))
  | Abs => number_of v (fun q => Ok (VNum (Qabs q)))
  | Sgn => number_of v (fun q => Ok (VNum (match (q ?= 0)%Q with Gt => 1 | Lt => -1 | Eq => 0 end)))
  | Ceil => number_of v (fun q => Ok (VNum (inject_Z (Qceiling q))))
  | Floor => number_of v (fun q => Ok (VNum (inject_Z (Qfloor q))))
  | Real f => number_of v (fun q => match real w f q with Some x => Ok (VNum x) | None => Nan end)
  | Chem f => text_of v (fun s => Ok (VNum (chem w f s)))
  | Len => text_of v (fun s => Ok (VNum (inject_Z (Z.of_nat (String.length s)))))
  | Asc => text_of v (fun s => Ok (VNum (match s with "" => 0 | String c _ => inject_Z (code_of c) end)))
  | Chr => rbind (rounded v) (fun z => Ok (VStr (if z mod 256 =? 0 then "" else String (ascii_of_N (Z.to_N (z mod 256))) "")))
  | StrF => number_of v (fun q => Ok (VStr (to_text w q)))
  end.
Definition numbers2 (a b : value) (f : Q -> Q -> res value) : res value := match a, b with VNum a, VNum b => f a b | _, _ => Err end.
Definition order (a b : value) (f : comparison -> bool) : res value :=
  match a, b with
  | VNum a, VNum b => Ok (VNum (if f (a ?= b)%Q then 1 else 0))
  | VStr a, VStr b => Ok (VNum (if f (String.compare a b) then 1 else 0))
  | _, _ => Err
  end.
Definition longs (a b : value) (f : Z -> Z -> Z) : res value := numbers2 a b (fun a b => rbind (to_long a) (fun a => rbind (to_long b) (fun b => Ok (VNum (inject_Z (f a b)))))).
Definition bin_value (w : world) (o : binary) (a b : value) : res value :=
  match o with
  | Or => longs a b Z.lor | Xor => longs a b Z.lxor | And => longs a b Z.land
  | Equal => order a b (fun c => match c with Eq => true | _ => false end)
  | Less => order a b (fun c => match c with Lt => true | _ => false end)
  | Greater => order a b (fun c => match c with Gt => true | _ => false end)
  | AtMost => order a b (fun c => match c with Gt => false | _ => true end)
  | AtLeast => order a b (fun c => match c with Lt => false | _ => true end)
  | Differs => order a b (fun c => match c with Eq => false | _ => true end)
  | Add => match a, b with VNum a, VNum b => Ok (VNum (a + b)) | VStr a, VStr b => Ok (VStr (a ++ b)%string) | _, _ => Err end
  | Sub => numbers2 a b (fun a b => Ok (VNum (a - b)))
  | Mul => numbers2 a b (fun a b => Ok (VNum (a * b)))
  | Div => numbers2 a b (fun a b => Ok (VNum (if Qeq_bool b 0 then 0 else a / b)))
  | Mod => numbers2 a b modulo
  | Pow => numbers2 a b (power w)
  end.
(** The place of an element: the last subscript runs fastest. *)
Fixpoint position (ds js : list Z) (k : Z) : option Z :=
  match ds, js with
  | [], [] => Some k
  | d :: ds, j :: js => if (0 <=? j) && (j <? d) then position ds js (k * d + j) else None
  | _, _ => None
  end.
(** Texts without the white space at an end. *)
Definition trimmed (k : trim) (s : string) : string := match k with Both => trim_left (trim_right s) | AtLeft => trim_left s | AtRight => trim_right s end.
Section Meaning.
Variables (w : world) (vs : string -> var) (sv : string -> option Q) (tx : string -> option string).
Fixpoint den (e : ex) : res value :=
  match e with
  | Num q => Ok (VNum q)
  | Text s => Ok (VStr s)
  | Var x => Ok (cells (vs x) scalar)
  | Elem x l =>
      rbind ((fix go (l : list ex) (ds : list Z) (k : Z) : res Z :=
                match l, ds with
                | e :: l, d :: ds => rbind (den e) (fun v => rbind (rounded v) (fun j => if (0 <=? j) && (j <? d) then go l ds (k * d + j) else Err))
                | [], _ => Ok k
                | _, _ => Err
                end) l (dims (vs x)) 0) (fun k => Ok (cells (vs x) k))
  | Quant f => Ok (VNum (quant w f))
  | Un u e => rbind (den e) (un_value w u)
  | Bin Pow a b => rbind (den a) (fun x => match x with VStr _ => Err | _ => rbind (den b) (bin_value w Pow x) end)
  | Bin o a b => rbind (den a) (fun x => rbind (den b) (bin_value w o x))
  | Instr a b => rbind (den a) (fun x => text_of x (fun s => rbind (den b) (fun y => text_of y (fun p => Ok (VNum (inject_Z (find_text 0 p s)))))))
  | Trim k a => rbind (den a) (fun x => text_of x (fun s => Ok (VStr (trimmed k s))))
  | Mid a i j => rbind (den a) (fun x => text_of x (fun s => rbind (den i) (fun i => rbind (rounded i) (fun i => rbind (den j) (fun j => rbind (rounded j) (fun j =>
                   rbind (substr s i j) (fun y => Ok (VStr y))))))))
  | Par a => den a
  | Get l => rbind ((fix key (l : list ex) : res string := match l with [] => Ok "" | e :: l => rbind (den e) (fun v => rbind (rounded v) (fun j => rbind (key l) (fun r => Ok (key_part j ++ r)%string))) end) l)
               (fun k => Ok (VNum (match sv k with Some q => q | None => 0 end)))
  | GetText l => rbind ((fix key (l : list ex) : res string := match l with [] => Ok "" | e :: l => rbind (den e) (fun v => rbind (rounded v) (fun j => rbind (key l) (fun r => Ok (key_part j ++ r)%string))) end) l)
               (fun k => match tx k with Some x => if 256 <=? Z.of_nat (String.length x) then Crash else Ok (VStr x) | None => Ok (VStr "unknown") end)
  end.
End Meaning.

(** ** How a tree is written: parentheses only where the usual order of operations needs them.  From the loosest to the tightest: OR and
    XOR; AND; comparisons; + and -; *, / and MOD; ^; signs and functions.  All operators group to the left but ^, which groups to the right. *)
Definition op_level (o : binary) : nat :=
  match o with
  | Or | Xor => 0 | And => 1 | Equal | Less | Greater | AtMost | AtLeast | Differs => 2 | Add | Sub => 3 | Mul | Div | Mod => 4 | Pow => 5
  end.
Definition op_token (o : binary) : tok :=
  match o with
  | Or => TOr | Xor => TXor | And => TAnd | Equal => TEq | Less => TLt | Greater => TGt | AtMost => TLe | AtLeast => TGe | Differs => TNe
  | Add => TPlus | Sub => TMinus | Mul => TTimes | Div => TDiv | Mod => TMod | Pow => TUp
  end.
Definition trim_token (k : trim) : tok := match k with Both => TTrim | AtLeft => TLtrim | AtRight => TRtrim end.
Definition un_token (u : unary) : tok :=
  match u with
  | Neg => TMinus | Pos => TPlus | Not => TNot | Sqr => TSqr | Abs => TAbs | Sgn => TSgn | Ceil => TCeil | Floor => TFloor | Real f => TReal f | Chem f => TChem f
  | Len => TLen | Asc => TAsc | Chr => TChr | StrF => TStrf
  end.
Definition tightness (e : ex) : nat := match e with Bin o _ _ => op_level o | _ => 6 end.
Fixpoint separated (l : list (list tok)) : list tok := match l with [] => [] | [x] => x | x :: r => x ++ TComma :: separated r end.
Fixpoint written (e : ex) : list tok :=
  let part (n : nat) (e : ex) := if Nat.leb n (tightness e) then written e else TLp :: written e ++ [TRp] in
  match e with
  | Num q => [TNum q]
  | Text s => [TStr s]
  | Var x => [TVar x]
  | Elem x l => TVar x :: TLp :: separated (map written l) ++ [TRp]
  | Quant f => [TQuant f]
  | Un u e => un_token u :: part 6%nat e
  | Bin Pow a b => part 6%nat a ++ TUp :: part 5%nat b
  | Bin o a b => part (op_level o) a ++ op_token o :: part (S (op_level o)) b
  | Instr a b => TInstr :: TLp :: part 6%nat a ++ TComma :: part 6%nat b ++ [TRp]
  | Trim k a => trim_token k :: TLp :: part 6%nat a ++ [TRp]
  | Mid a i j => TMid :: TLp :: written a ++ TComma :: written i ++ TComma :: written j ++ [TRp]
  | Par a => TLp :: written a ++ [TRp]
  | Get l => TGet :: TLp :: separated (map written l) ++ [TRp]
  | GetText l => TGetS :: TLp :: separated (map written l) ++ [TRp]
  end.
(** Scalars and arrays are used as such. *)
Fixpoint well_used (vs : string -> var) (e : ex) : Prop :=
  match e with
  | Var x => dims (vs x) = []
  | Elem x l => l <> [] /\ length l = length (dims (vs x)) /\ (fix all (l : list ex) : Prop := match l with [] => True | e :: l => well_used vs e /\ all l end) l
  | Un _ e => well_used vs e
  | Bin _ a b => well_used vs a /\ well_used vs b
  | Instr a b => well_used vs a /\ well_used vs b
  | Trim _ a => well_used vs a
  | Par a => well_used vs a
  | Get l | GetText l => l <> [] /\ (fix all (l : list ex) : Prop := match l with [] => True | e :: l => well_used vs e /\ all l end) l
  | Mid a i j => well_used vs a /\ well_used vs i /\ well_used vs j
  | _ => True
  end.
(** Tokens that continue an expression. *)
Definition continues (t : tok) : bool :=
  match t with TOr | TXor | TAnd | TEq | TLt | TGt | TLe | TGe | TNe | TPlus | TMinus | TTimes | TDiv | TMod | TUp | TLp => true | _ => false end.
Definition ends (rest : list tok) : Prop := match rest with t :: _ => continues t = false | [] => True end.
(** Evaluation, with as much recursion as it takes. *)
Definition evaluates (w : world) (s : st) (r : res (value * st)) : Prop := r <> Deep /\ exists enough, forall f, (enough <= f)%nat -> ev w f LExpr s = r.
(** States that differ in what was used last only. *)
Definition same_but_cur (s s' : st) : Prop := vars s' = vars s /\ saved s' = saved s /\ texts s' = texts s.
(** Subscripts inside the bounds, and the number of elements. *)
Definition in_range (ds js : list Z) : Prop := Forall2 (fun d j => 0 <= j < d) ds js.
Definition size (ds : list Z) : Z := fold_right Z.mul 1 ds.
(** No comma in the text. *)
Definition comma_free (e : ex) : Prop := ~ In TComma (written e).
