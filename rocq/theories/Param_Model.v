(** Parameter data base and default values of the C framework. *)
From Coq Require Import String Ascii List ZArith QArith Bool Arith.
From Verif Require Import CStr_Model CNum_Model Sort_Model Dim_Model Var_Model.
Import ListNotations.
Local Open Scope string_scope.
Local Open Scope list_scope.
Local Open Scope Z_scope.

(** Delimiters " ,\t\n" of mmf_c/src/str_to_vals.c:89,179. *)
Definition is_valsep (c : ascii) : bool :=
  let n := N_of_ascii c in ((n =? 32) || (n =? 44) || (n =? 9) || (n =? 10))%N%bool.

Definition MAXTOKLEN : nat := 128. (* mmf_c/src/defs.h:106 *)

Section S2V.
Context {V : Type}.
(** [strtod]/[strtol] on the value part with the element type's conversion; [None] when
    errno is set (str_to_vals.c:122-149). The end pointer is not looked at by the code. *)
Variable conv : string -> option V.

(** Result of decoding one token, str_to_vals.c:95-149: undefined when the token does not
    fit in [tcopy], [None] for S2V_ERROR, else repeat count and value. *)
Definition decode (token : string) : outcome (option (Z * V)) :=
  if (MAXTOKLEN <=? String.length token)%nat then UB
  else
    match split_last "*" token with
    | None => Ret (match conv token with None => None | Some v => Some (1, v) end)
    | Some (cnt, valstr) =>
        let (repeat, end_point) := strtol cnt in
        if ((repeat <=? 0) || negb (String.eqb end_point ""))%bool then Ret None
        else Ret (match conv valstr with None => None | Some v => Some (repeat, v) end)
    end.

(** The token loop, str_to_vals.c:93-181. [acc] is the part of the array written so far
    ([ndecoded] elements); [ndecoded + repeat] is a signed addition. *)
Fixpoint decode_all (size : Z) (acc : list V) (toks : list string) : outcome (option (list V)) :=
  match toks with
  | [] => Ret (Some acc)
  | t :: r =>
      do d <- decode t;
      match d with
      | None => Ret None
      | Some (repeat, v) =>
          let ndecoded := Z.of_nat (length acc) in
          if ndecoded + repeat >? LONG_MAX then UB
          else
            let repeat := if ndecoded + repeat >? size then size - ndecoded else repeat in
            decode_all size (acc ++ List.repeat v (Z.to_nat repeat)) r
      end
  end.

(** The filling loop, str_to_vals.c:187-221: [n] cells still to write, read position
    [isource]; a read of a cell not yet written is undefined. *)
Fixpoint cycle (n : nat) (acc : list V) (ndecoded isource : nat) : outcome (list V) :=
  match n with
  | O => Ret acc
  | S n' =>
      match nth_error acc isource with
      | None => UB
      | Some v =>
          let is' := S isource in
          cycle n' (acc ++ [v]) ndecoded (if Nat.eqb is' ndecoded then 0%nat else is')
      end
  end.

(** mmf_c/src/str_to_vals.c:58-226: [None] is S2V_ERROR, [Some l] the array filled. *)
Definition str_to_vals (s : string) (size : Z) : outcome (option (list V)) :=
  do d <- decode_all size [] (strtok is_valsep s);
  match d with
  | None => Ret None
  | Some acc =>
      do l <- cycle (Z.to_nat size - length acc) acc (length acc) 0;
      Ret (Some l)
  end.
End S2V.

(** Conversion for M_LONG: [strtol], ERANGE refused. *)
Definition conv_long (s : string) : option Z :=
  if strtol_erange s then None else Some (fst (strtol s)).

Section Load.
(** [strtod] followed by rounding to the element type is a parameter; [None] for ERANGE. *)
Variable strtod : vtype -> string -> option Q.

Definition conv (t : vtype) (s : string) : option Q :=
  match t with
  | M_LONG => match conv_long s with Some z => Some (inject_Z z) | None => None end
  | _ => strtod t s
  end.

(** Bounds of a parameter: a pair of strings, or the value of the bounding dimension. *)
Inductive bounds := Strings (min_string max_string : string) | ByDim (value : Z).

(** Arrays of a PARAM after [load_param]. *)
Record arrays := mkarr { a_min : list Q; a_max : list Q; a_def : list Q; a_value : list Q }.

(** The element loop of mmf_c/src/load_param.c:159-188, 198-227, 237-265. *)
Fixpoint in_range (mins maxs vals : list Q) : bool :=
  match mins, maxs, vals with
  | mn :: r1, mx :: r2, v :: r3 =>
      if negb (Qle_bool mn mx) then false
      else if (negb (Qle_bool mn v) || negb (Qle_bool v mx))%bool then false
      else in_range r1 r2 r3
  | _, _, _ => true
  end.

(** mmf_c/src/load_param.c:56-269; returns the code and, once decoded, the arrays.
    Bounded parameters are integers (declparam.c:432). *)
Definition load_param (t : vtype) (size : Z) (b : bounds) (value_string : string)
  : outcome (Z * option arrays) :=
  do mn <- (match b with
            | ByDim _ => Ret (Some (List.repeat (inject_Z 0) (Z.to_nat size)))
            | Strings s _ => str_to_vals (conv t) s size end);
  match mn with None => Ret (1, None) | Some mn =>
  do mx <- (match b with
            | ByDim v => Ret (Some (List.repeat (inject_Z v) (Z.to_nat size)))
            | Strings _ s => str_to_vals (conv t) s size end);
  match mx with None => Ret (1, None) | Some mx =>
  do df <- str_to_vals (conv t) value_string size;
  match df with None => Ret (1, None) | Some df =>
    Ret (if in_range mn mx df then 0 else 1, Some (mkarr mn mx df df))
  end end end.

(** [PARAM] of mmf_c/src/structs.h:23-51, the fields used here. [p_dimen = None]: the
    dimension pointers have not been set; [p_data = None]: the arrays have not been filled. *)
Record param := mkparam {
  p_key : string; p_module : string; p_dimen : option (list string); p_type : vtype;
  p_size : Z; p_data : option arrays }.

Definition paramdb := list param.

(** mmf_c/src/param_addr.c:32-55. *)
Fixpoint param_addr (db : paramdb) (key : string) : option param :=
  match db with
  | [] => None
  | p :: r => if strcmp_zero (p_key p) key then Some p else param_addr r key
  end.

(** mmf_c/src/declparam.c:587-599: [None] for an illegal type name. *)
Definition VAR_type (s : string) : option vtype :=
  if (strcmp_zero s "integer" || strcmp_zero s "long")%bool then Some M_LONG
  else if (strcmp_zero s "real" || strcmp_zero s "float")%bool then Some M_FLOAT
  else if (strcmp_zero s "double precision" || strcmp_zero s "double")%bool then Some M_DOUBLE
  else None.

(** mmf_c/src/declparam.c:505-578: only whether the parameter exists matters for the
    result; reading [dimen[0]->name] (525) is undefined when there is no dimension.
    Message buffers are assumed large enough. *)
Definition CHECK_param_in_db (db : paramdb) (key : string) : outcome bool :=
  match param_addr db key with
  | None => Ret false
  | Some p => match p_dimen p with Some (_ :: _) => Ret true | _ => UB end
  end.

(** mmf_c/src/sort_params.c:76-84. *)
Definition param_gt (a b : param) : outcome bool := Ret (strcmp_pos (p_key a) (p_key b)).
Definition sort_params (db : paramdb) : outcome paramdb := bubble_sort param_gt db.

(** Size of the parameter, declparam.c:457-477; reading the name of an undeclared
    dimension (465) dereferences NULL. *)
Fixpoint param_size (dims : dimdb) (toks : list string) (acc : Z) : outcome Z :=
  match toks with
  | [] => Ret (if acc =? 0 then 1 else acc)
  | t :: r => match dim_addr dims t with None => UB | Some d => param_size dims r (acc * d_value d) end
  end.

(** mmf_c/src/declparam.c:323-495.  The capacity check (338-342) keeps the block large
    enough as for variables (Var_Model) and is not modelled again.  A parameter left behind
    by a refused declaration is the last, unsorted entry. *)
Definition declparam (dims : dimdb) (db : paramdb)
  (module name dimen type value minimum maximum : string) : outcome (paramdb * Z) :=
  match VAR_type type with
  | None => Ret (db, 0)
  | Some t =>
      do found <- CHECK_param_in_db db name;
      if found : bool then Ret (db, 0)
      else
        let toks := strtok is_comma dimen in
        let stub := mkparam name module None t 0 None in
        if (3 <? length toks)%nat then Ret (db ++ [stub], 1)
        else
          let stub := mkparam name module (Some toks) t 0 None in
          let bounded := strcmp_zero minimum "bounded" in
          if (bounded && negb (match t with M_LONG => true | _ => false end))%bool
          then Ret (db ++ [stub], 1)
          else
          match (if bounded then match dim_addr dims maximum with
                                 | None => None | Some d => Some (ByDim (d_value d)) end
                 else Some (Strings minimum maximum)) with
          | None => Ret (db ++ [stub], 1)
          | Some b =>
              do size <- param_size dims toks 1;
              do (ret, data) <- load_param t size b value;
              let p := mkparam name module (Some toks) t size data in
              if negb (ret =? 0) then Ret (db ++ [p], ret)
              else do db' <- sort_params (db ++ [p]); Ret (db', 0)
          end
  end.

(** One call; [q_dims] is the dimension data base at the time of the call. *)
Record paramcall := mkpcall {
  q_dims : dimdb; q_module : string; q_name : string; q_dimen : string; q_type : string;
  q_value : string; q_min : string; q_max : string }.
Definition do_pcall (db : paramdb) (c : paramcall) : outcome (paramdb * Z) :=
  declparam (q_dims c) db (q_module c) (q_name c) (q_dimen c) (q_type c) (q_value c) (q_min c) (q_max c).

Fixpoint run_pcalls (db : paramdb) (h : list paramcall) : outcome (paramdb * list Z) :=
  match h with
  | [] => Ret (db, [])
  | c :: r =>
      do (db1, code) <- do_pcall db c;
      do (db2, codes) <- run_pcalls db1 r;
      Ret (db2, code :: codes)
  end.
End Load.
