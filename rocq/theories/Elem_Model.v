(** Element addressing: mmf_c/src/get_elem_add.c.  The registries are arguments: the lookup of a name gives
    the type and the current values of the declared dimensions.  Writing past a fixed-size buffer is undefined
    ([UB]); malloc is assumed to succeed; the long arithmetic of the offset is exact. *)
From Coq Require Import String Ascii List ZArith Bool.
From Verif Require Import CStr_Model CNum_Model.
Import ListNotations.
Local Open Scope string_scope.
Local Open Scope list_scope.
Local Open Scope Z_scope.

Record arr := mkArr { a_type : Z; a_dims : list Z }.
Definition M_LONG : Z := 1.
Definition M_FLOAT : Z := 2.
Definition M_DOUBLE : Z := 3.

(** strchr: the text before the character and the text from it on. *)
Fixpoint strchr (c : ascii) (s : string) : option (string * string) :=
  match s with
  | EmptyString => None
  | String a r =>
      if Ascii.eqb a c then Some ("", s)
      else match strchr c r with Some (x, y) => Some (String a x, y) | None => None end
  end.
Definition cut_at (c : ascii) (s : string) : string := match strchr c s with Some (x, _) => x | None => s end.
(** 127-131 and 300-304: from '(' on (the parenthesis itself is kept), up to ')'. *)
Definition strip_parens (s : string) : string :=
  let temp := match strchr "(" s with Some (_, y) => y | None => s end in cut_at ")" temp.
(** 142-160 and 315-334: the pieces between commas; each is copied to a buffer of 20 bytes. *)
Fixpoint pieces_from (cur : string) (s : string) : list string :=
  match s with
  | EmptyString => [cur]
  | String c r => if Ascii.eqb c "," then cur :: pieces_from "" r else pieces_from (cur ++ String c "")%string r
  end.
Definition fits (n : nat) (s : string) : bool := Nat.ltb (String.length s) n.
Definition pieces (s : string) : outcome (list string) :=
  let l := pieces_from "" s in if forallb (fits 20) l then Ret l else UB.

(** 186-189: the loop over the characters of an index. *)
Fixpoint all_digits (t : string) : bool :=
  match t with
  | EmptyString => false
  | String c EmptyString => match digit c with Some _ => true | None => false end
  | String c r => match digit c with Some _ => all_digits r | None => false end
  end.
(** atoi of glibc: strtol truncated to 32 bits. *)
Definition atoi (s : string) : Z := (atol s + 2147483648) mod 4294967296 - 2147483648.

(** 180-202: the loop over the indices. *)
Fixpoint check_each (l : list string) (dims : list Z) : Z :=
  match l, dims with
  | t :: l, d :: dims =>
      if negb (all_digits t) then 3
      else if atoi t <? 1 then 4
      else if atoi t >? d then 5
      else check_each l dims
  | _, _ => 0
  end.
(** 87-208: CheckIndices; [found] is the parameter or variable of that name. *)
Definition check_indices (found : option arr) (elem : string) : outcome Z :=
  match found with
  | None => Ret 1
  | Some a =>
      if negb (fits 80 elem) then UB
      else
        do l <- pieces (strip_parens elem);
        if negb (Nat.eqb (List.length (a_dims a)) (List.length l)) then Ret 2
        else Ret (check_each l (a_dims a))
  end.

(** 249-260: leading blanks stripped, then cut at the first blank and the first dot. *)
Fixpoint skip_blanks (s : string) : string * string :=
  match s with
  | String c r => if Ascii.eqb c " " then let (a, b) := skip_blanks r in (String c a, b) else ("", s)
  | EmptyString => ("", "")
  end.
(** 340-356: the offset, in elements; reading a dimension beyond the declared ones is undefined. *)
Fixpoint offset_from (l : list string) (dims : list Z) (offset prod : Z) : outcome Z :=
  match l, dims with
  | [], _ => Ret offset
  | t :: l, d :: dims => offset_from l dims (offset + (atol t - 1) * prod) (prod * d)
  | _ :: _, [] => UB
  end.
(** 229-369: GetElemAddress; the byte offset from the start of the values, or NULL. *)
Definition get_elem_address (is_param : bool) (find : string -> option arr) (key elem : string) : outcome (option Z) :=
  if negb (fits 80 key) then UB
  else
    let (blanks, rest) := skip_blanks key in
    let ptr := cut_at "." (cut_at " " rest) in
    let tkey := (blanks ++ ptr)%string in
    let found := if is_param then match find ptr with Some a => Ret (Some a) | None => UB end else Ret (find tkey) in
    do f <- found;
    match f with
    | None => Ret None
    | Some a =>
        if negb (fits 80 elem) then UB
        else
          do l <- pieces (strip_parens elem);
          do offset <- offset_from l (a_dims a) 0 1;
          if a_type a =? M_LONG then Ret (Some (offset * 8))
          else if a_type a =? M_FLOAT then Ret (Some (offset * 4))
          else if a_type a =? M_DOUBLE then Ret (Some (offset * 8))
          else Ret None
    end.
