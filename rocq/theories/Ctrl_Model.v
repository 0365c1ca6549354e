(** Control variables and control files: mmf_c/src/decl_control.c, control_addr.c, control_array.c, control_var.c,
    read_control.c and control_var_size of read_line.c.  A file is the list of its lines as in Pfile_Model.  The
    storage of a control variable is a list of 4-byte words; a float takes one, a long, a double and a pointer to a
    text take two.  A word knows the value it is part of and its position in it.  atof is an argument; the cast of a
    double to a float is not modelled.  Memory returned by malloc is [None].  Messages are numbered errors. *)
From Coq Require Import String Ascii List ZArith Bool.
From Verif Require Import CStr_Model CNum_Model Pfile_Model.
Import ListNotations.
Local Open Scope string_scope.
Local Open Scope list_scope.
Local Open Scope Z_scope.

(** fgets with a buffer of [num] characters: a longer line is left for the next call. *)
Definition fgets_n (num : nat) (f : stream) : option string * stream :=
  match lines f with
  | [] => (None, mkStream [] true)
  | l :: r => if Nat.ltb (String.length l) num
              then (Some l, mkStream r (eof f || negb (ends_nl l) && Nat.ltb (S (String.length l)) num))
              else (Some (substring 0 (num - 1) l), mkStream (substring (num - 1) (String.length l - (num - 1)) l :: r) (eof f))
  end.
(** The text before the first "//" (strstr, read_control.c 258-262). *)
Fixpoint before_slashes (s : string) : option string :=
  if prefix "//" s then Some ""
  else match s with EmptyString => None | String c r => option_map (String c) (before_slashes r) end.
(** read_control.c 236-273.  Without a blank before the comment the search for it leaves the buffer. *)
Fixpoint fgets_rc (fuel num : nat) (f : stream) : outcome (option string * stream) :=
  match fuel with
  | O => UB
  | S fuel =>
      match fgets_n num f with
      | (None, f) => Ret (None, f)
      | (Some s, f) =>
          if prefix "//" s then fgets_rc fuel num f
          else if Nat.leb (String.length s) 1 then fgets_rc fuel num f
          else match before_slashes s with
               | Some t => match split_last " " t with Some (x, _) => Ret (Some (x ++ " ")%string, f) | None => UB end
               | None => Ret (Some s, f)
               end
      end
  end.
(** An upper bound of the number of calls. *)
Definition measure (f : stream) : nat := fold_right (fun l n => S (String.length l + n)) O (lines f).
Definition getline (num : nat) (f : stream) : outcome (option string * stream) := fgets_rc (S (measure f)) num f.

Section Ctrl.
Context {V : Type}.
Variable atof : string -> V.

Inductive value := VLong (z : Z) | VFloat (x : V) | VDouble (x : V) | VString (s : string).
Definition cell := option (value * nat).
(** c_mem is the storage start_ptr points to. *)
Record control := mkControl { c_key : string; c_size : Z; c_type : Z; c_mem : list cell }.
(** sizeof / 4 of M_LONG 1, M_FLOAT 2, M_DOUBLE 3, M_STRING 4 (defs.h 73-76). *)
Definition width (ty : Z) : nat := if ty =? 2 then 1 else 2.
Definition put (mem : list cell) (ty : Z) (i : nat) (v : value) : outcome (list cell) :=
  if Nat.leb (S i * width ty) (List.length mem)
  then Ret (firstn (i * width ty) mem ++ map (fun k => Some (v, k)) (seq 0 (width ty)) ++ skipn (S i * width ty) mem) else UB.
(** What element [i] of an array of this type contains. *)
Definition kind (v : value) : Z := match v with VLong _ => 1 | VFloat _ => 2 | VDouble _ => 3 | VString _ => 4 end.
Definition get (mem : list cell) (ty : Z) (i : nat) : option value :=
  match nth_error mem (i * width ty) with
  | Some (Some (v, O)) => if kind v =? ty then Some v else None
  | _ => None
  end.

Definition db := list control.
(** control_addr.c 53-65 *)
Definition control_addr (d : db) (key : string) : option control := find (fun c => String.eqb (c_key c) key) d.
Fixpoint update (d : db) (c : control) : db :=
  match d with [] => [] | x :: d => if String.eqb (c_key x) (c_key c) then c :: d else x :: update d c end.
(** decl_control.c 83-127 *)
Definition add_control (d : db) (key : string) (ty size : Z) : outcome db :=
  match control_addr d key with
  | Some _ => Exit
  | None => if (1 <=? ty) && (ty <=? 4) then Ret (d ++ [mkControl key size ty (repeat None (Z.to_nat size * width ty))]) else Exit
  end.
(** decl_control.c 136-161: the storage is the caller's. *)
Definition decl_control (d : db) (key : string) (ty size : Z) (mem : list cell) : outcome db :=
  match control_addr d key with
  | Some _ => Exit
  | None => Ret (d ++ [mkControl key size ty mem])
  end.

(** read_control.c 169-221: [n] values from the [i]-th; code, storage, current line. *)
Fixpoint values (n i : nat) (ty : Z) (mem : list cell) (line : string) (f : stream) : outcome (Z * list cell * string * stream) :=
  match n with
  | O => Ret (0, mem, line, f)
  | S n =>
      do r <- getline 256 f;
      match r with
      | (None, f) => Ret (8, mem, line, f)
      | (Some l, f) =>
          do lv <- (if ty =? 3 then Ret (l, VDouble (atof l)) else if ty =? 2 then Ret (l, VFloat (atof l)) else if ty =? 1 then Ret (l, VLong (atol l))
                    else match drop_last l with Some l => Ret (l, VString l) | None => UB end);
          do mem <- put mem ty i (snd lv);
          values n (S i) ty mem (fst lv) f
      end
  end.
(** read_control.c 121-126: forward to a header; [None] at the end of the file. *)
Fixpoint seek (fuel : nat) (line : string) (f : stream) : outcome (option stream) :=
  match fuel with
  | O => UB
  | S fuel =>
      if hashes line then Ret (Some f)
      else do r <- getline 256 f;
           match r with (None, _) => Ret None | (Some l, f) => seek fuel l f end
  end.
(** read_control.c 116-225.  A type other than 1-4 of a variable that exists is not looked at. *)
Fixpoint rounds (fuel : nat) (d : db) (line : string) (f : stream) : outcome (Z * db) :=
  match fuel with
  | O => UB
  | S fuel =>
      if eof f then Ret (0, d)
      else
        do s <- seek (S (measure f)) line f;
        match s with
        | None => Ret (0, d)
        | Some f =>
            do r <- getline 50 f;
            match r with
            | (None, f) => Ret (3, d)
            | (Some k, f) =>
                match drop_last k with
                | None => UB
                | Some key =>
                    do r <- getline 256 f;
                    match r with
                    | (None, f) => Ret (4, d)
                    | (Some l, f) =>
                        let size := atol l in
                        if size <? 0 then Ret (5, d)
                        else
                          do r <- getline 256 f;
                          match r with
                          | (None, f) => Ret (6, d)
                          | (Some l, f) =>
                              let ty := atol l in
                              if ty =? 0 then Ret (7, d)
                              else
                                do d <- (match control_addr d key with Some _ => Ret d | None => add_control d key ty size end);
                                match control_addr d key with
                                | None => UB
                                | Some c =>
                                    if (1 <=? ty) && (ty <=? 4) then
                                      do r <- values (Z.to_nat size) 0 ty (c_mem c) l f;
                                      match r with
                                      | (e, mem, line, f) =>
                                          let d := update d (mkControl (c_key c) (c_size c) (c_type c) mem) in
                                          if e =? 0 then rounds fuel d line f else Ret (e, d)
                                      end
                                    else rounds fuel d l f
                                end
                          end
                    end
                end
            end
        end
  end.
(** read_control.c 93-226; [None] is a file that cannot be opened. *)
Definition rc (d : db) (file : option (list string)) : outcome (Z * db) :=
  match file with
  | None => Ret (1, d)
  | Some ls =>
      do r <- getline 256 (mkStream ls false);
      match r with
      | (None, _) => Ret (2, d)
      | (Some line, f) => rounds (S (measure (mkStream ls false))) d line f
      end
  end.
(** read_control.c 61-84: [foo] is the name of the file read before; after an error it is read again.  Names have less than 256 characters. *)
Definition read_control (fs : string -> option (list string)) (foo : option string) (d : db) (name : string) : outcome (Z * db * option string) :=
  let old := match foo with Some o => o | None => name end in
  do r <- rc d (fs name);
  match r with
  | (0, d) => Ret (0, d, Some name)
  | (e, d) => do r <- rc d (fs old); Ret (e, snd r, Some old)
  end.

(** control_array.c 58-91: the element the pointer returned leads to; a negative index leads outside. *)
Definition control_array (d : db) (key : string) (ind : Z) : outcome (option value) :=
  match control_addr d key with
  | None => Exit
  | Some c => if ind >=? c_size c then Exit else if ind <? 0 then UB else Ret (get (c_mem c) (c_type c) (Z.to_nat ind))
  end.
(** control_var.c 47-59: the first element. *)
Definition control_var (d : db) (key : string) : outcome (option value) :=
  match control_addr d key with None => Exit | Some c => Ret (get (c_mem c) (c_type c) 0) end.
(** read_line.c 571-580 *)
Definition control_var_size (d : db) (key : string) : Z := match control_addr d key with None => 1 | Some c => c_size c end.
(** control_var.c 111-121: memset and strncpy into [len] characters, NUL after the text. *)
Definition control_string (d : db) (key : string) (len : nat) : outcome (list ascii) :=
  do v <- control_var d key;
  match v with
  | Some (VString s) => let t := list_ascii_of_string s in Ret (firstn len t ++ repeat "000"%char (len - List.length t))
  | _ => UB
  end.
(** control_var.c 130-139: one (signed) character is read. *)
Definition control_integer (d : db) (key : string) : outcome Z :=
  do v <- control_var d key;
  match v with
  | Some (VLong z) => Ret ((z + 128) mod 256 - 128)
  | _ => UB
  end.
End Ctrl.
