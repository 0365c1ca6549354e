(** Checkpoints: mmf_c/src/save_vars.c and read_vars.c.  A file is the list of its lines, each with its newline except
    possibly the last.  Printing and reading a real value of a variable (%.12e, %.20le and atof) are arguments; the
    step length, printed with %f, is an exact rational.  Messages and the memory of strdup are not modelled.  Variables
    are looked up by key in a list (var_addr, C05).  On the platform modelled long has 8 bytes and a Fortran integer 4. *)
From Coq Require Import String Ascii List ZArith QArith Qround Qabs Bool.
From Verif Require Import CStr_Model CNum_Model Qx Dim_Model Pfile_Model Ctrl_Model.
Import ListNotations.
Local Open Scope string_scope.
Local Open Scope list_scope.
Local Open Scope Z_scope.

(** printf %ld. *)
Definition chr (d : Z) : ascii := ascii_of_nat (48 + Z.to_nat d).
Fixpoint dec_from (fuel : nat) (n : Z) : string :=
  match fuel with
  | O => ""
  | S fuel => if n <? 10 then String (chr n) "" else (dec_from fuel (n / 10) ++ String (chr (n mod 10)) "")%string
  end.
Definition dec_abs (n : Z) : string := dec_from (S (Z.to_nat (Z.log2 n))) n.
Definition dec (n : Z) : string := if n <? 0 then ("-" ++ dec_abs (- n))%string else dec_abs n.
(** printf %f: six digits after the point, rounded to the nearest (ties to even). *)
Definition nearest (x : Q) : Z :=
  let f := Qfloor x in
  let r := (x - inject_Z f)%Q in
  if qlt r (1 # 2) then f else if qlt (1 # 2) r then f + 1 else if Z.even f then f else f + 1.
Fixpoint pad (k : nat) (n : Z) : string :=
  match k with O => "" | S k => (pad k (n / 10) ++ String (chr (n mod 10)) "")%string end.
Definition fixed6 (x : Q) : string :=
  let n := nearest (Qabs x * 1000000) in
  ((if qlt x 0 then "-" else "") ++ dec_abs (n / 1000000) ++ "." ++ pad 6 (n mod 1000000))%string.
(** strtod of a decimal number (exponents, hexadecimal numbers, infinities and NaNs are not modelled; %f of a finite
    number writes none of them). *)
Definition udec (s : string) : Q :=
  match digits 0 s with
  | (i, String "." r) => let (f, e) := digits 0 r in
                         (inject_Z i + inject_Z f / inject_Z (10 ^ Z.of_nat (String.length r - String.length e)))%Q
  | (i, _) => inject_Z i
  end.
Definition strtod (s : string) : Q :=
  match skip_space s with String "-" r => (- udec r)%Q | String "+" r => udec r | r => udec r end.

Section Ckpt.
Context {V : Type}.
Variable show : Z -> V -> string.
Variable atof : Z -> string -> V.

(** What var->value points to: longs, Fortran integers (32-bit words), or reals of the type of the variable. *)
Inductive mem := Longs (l : list Z) | Ints (l : list Z) | Reals (l : list V).
(** PUBVAR, structs.h 75-87; ndimen and the names of the dimensions. *)
Record var := mkVar { v_key : string; v_ndimen : Z; v_dims : list string; v_size : Z; v_type : Z; v_mem : mem; v_private : bool }.
Record state := mkState { s_info : string; s_nsteps : Z; s_now : Q; s_dt : Q; s_dtnext : Q; s_dims : dimdb; s_vars : list var }.

Definition signed32 (z : Z) : Z := (z + 2147483648) mod 4294967296 - 2147483648.
Definition put {A} (l : list A) (i : nat) (x : A) : list A := firstn i l ++ x :: skipn (S i) l.
(** lvalptr[j]: two words of Fortran integers make a long. *)
Definition peek_long (m : mem) (j : nat) : outcome Z :=
  match m with
  | Longs l => match nth_error l j with Some z => Ret z | None => UB end
  | Ints l => match nth_error l (2 * j), nth_error l (2 * j + 1) with
              | Some lo, Some hi => Ret (lo mod 4294967296 + 4294967296 * hi) | _, _ => UB end
  | Reals _ => UB
  end.
Definition poke_long (m : mem) (j : nat) (z : Z) : outcome mem :=
  match m with
  | Longs l => if Nat.ltb j (List.length l) then Ret (Longs (put l j z)) else UB
  | Ints l => if Nat.ltb (2 * j + 1) (List.length l)
              then Ret (Ints (put (put l (2 * j) (signed32 z)) (2 * j + 1) (z / 4294967296))) else UB
  | Reals _ => UB
  end.
Definition peek_real (m : mem) (j : nat) : outcome V :=
  match m with Reals l => match nth_error l j with Some x => Ret x | None => UB end | _ => UB end.
Definition poke_real (m : mem) (j : nat) (x : V) : outcome mem :=
  match m with Reals l => if Nat.ltb j (List.length l) then Ret (Reals (put l j x)) else UB | _ => UB end.

(** save_vars.c 165-188. *)
Definition value_line (ty : Z) (m : mem) (j : nat) : outcome string :=
  if ty =? 1 then do z <- peek_long m j; Ret (dec z ++ " " ++ nl)%string
  else do x <- peek_real m j; Ret (show ty x ++ " " ++ nl)%string.
Fixpoint value_lines (ty : Z) (m : mem) (n j : nat) : outcome (list string) :=
  match n with
  | O => Ret []
  | S n => do l <- value_line ty m j; do r <- value_lines ty m n (S j); Ret (l :: r)
  end.
Definition save_values (ty : Z) (m : mem) (size : Z) : outcome (list string) :=
  if (ty =? 1) || (ty =? 2) || (ty =? 3) then value_lines ty m (Z.to_nat size) 0 else Ret [].
(** save_vars.c 149-190. *)
Definition save_var (v : var) : outcome (list string) :=
  do ds <- (if v_private v then Ret [("1" ++ nl)%string; ("PRIVATE" ++ nl)%string]
            else if Z.of_nat (List.length (v_dims v)) <? v_ndimen v then UB
            else Ret ((dec (v_ndimen v) ++ " " ++ nl)%string :: map (fun d => (d ++ nl)%string) (firstn (Z.to_nat (v_ndimen v)) (v_dims v))));
  do vs <- save_values (v_type v) (v_mem v) (v_size v);
  Ret (("####" ++ nl)%string :: (v_key v ++ nl)%string :: ds ++ (dec (v_size v) ++ " " ++ nl)%string :: (dec (v_type v) ++ " " ++ nl)%string :: vs).
Fixpoint save_all (vs : list var) : outcome (list string) :=
  match vs with [] => Ret [] | v :: vs => do a <- save_var v; do b <- save_all vs; Ret (a ++ b) end.
(** save_vars.c 139-143. *)
Definition save_dims (ds : dimdb) : list string :=
  flat_map (fun d => [("####" ++ nl)%string; (d_name d ++ nl)%string; (dec (d_value d) ++ nl)%string]) ds.
(** save_vars.c 88-195; [can] tells whether the file can be created.  The file written, and the return value. *)
Definition save_vars (can : bool) (st : state) : outcome (option (list string) * Z) :=
  if negb can then Ret (None, 1)
  else
    do vs <- save_all (s_vars st);
    Ret (Some ((chop (s_info st) ++ nl)%string :: ("last nstep " ++ dec (s_nsteps st) ++ nl)%string
               :: ("last julian time " ++ fixed6 (s_now st) ++ nl)%string :: ("last delta time " ++ fixed6 (s_dt st) ++ nl)%string
               :: ("** Dimensions **" ++ nl)%string :: save_dims (s_dims st) ++ ("** Variables **" ++ nl)%string :: vs), 0).

(** read_vars.c 166-178: forward to a header or to the variables. *)
Inductive place := Gone | AtVariables (f : stream) | AtHeader (f : stream).
Fixpoint to_dim (fuel : nat) (f : stream) : outcome place :=
  match fuel with
  | O => UB
  | S fuel => match fgets_n 256 f with
              | (None, _) => Ret Gone
              | (Some l, f) => if prefix "** Variables **" l then Ret (AtVariables f)
                               else if hashes l then Ret (AtHeader f) else to_dim fuel f
              end
  end.
(** read_vars.c 161-231: the return value, or the file at the variables. *)
Fixpoint read_dims (fuel : nat) (ds : dimdb) (f : stream) : outcome (Z + stream) :=
  match fuel with
  | O => UB
  | S fuel =>
      if eof f then Ret (inr f)
      else
        do p <- to_dim (S (measure f)) f;
        match p with
        | Gone => Ret (inl 0)
        | AtVariables f => Ret (inr f)
        | AtHeader f =>
            match fgets_n 50 f with
            | (None, _) => Ret (inl 1)
            | (Some k, f) =>
                match drop_last k with
                | None => UB
                | Some k =>
                    match dim_addr ds k with
                    | None => Ret (inl 0)
                    | Some d =>
                        match fgets_n 256 f with
                        | (None, _) => Ret (inl 1)
                        | (Some l, f) =>
                            if strtol_erange l then Ret (inl 1)
                            else if d_value d =? fst (strtol l) then read_dims fuel ds f else Ret (inl 0)
                        end
                    end
                end
            end
        end
  end.

(** read_vars.c 283-301: the names of the dimensions; reading past the array dimen is undefined. *)
Fixpoint read_names (n i : nat) (ds : list string) (f : stream) : outcome (bool * stream) :=
  match n with
  | O => Ret (true, f)
  | S n => match fgets_n 50 f with
           | (None, f) => Ret (false, f)
           | (Some l, f) =>
               match drop_last l with
               | None => UB
               | Some l => if String.eqb l "PRIVATE" then read_names n (S i) ds f
                           else match nth_error ds i with
                                | None => UB
                                | Some d => if String.eqb l d then read_names n (S i) ds f else Ret (false, f)
                                end
               end
           end
  end.
(** read_vars.c 355-388. *)
Definition store_line (ty : Z) (m : mem) (j : nat) (l : string) : outcome mem :=
  if ty =? 1 then poke_long m j (atol l) else poke_real m j (atof ty l).
Fixpoint read_values (ty : Z) (n j : nat) (m : mem) (f : stream) : outcome (bool * mem * stream) :=
  match n with
  | O => Ret (true, m, f)
  | S n => match fgets_n 256 f with
           | (None, f) => Ret (false, m, f)
           | (Some l, f) => do m <- store_line ty m j l; read_values ty n (S j) m f
           end
  end.
Definition set_mem (v : var) (m : mem) : var := mkVar (v_key v) (v_ndimen v) (v_dims v) (v_size v) (v_type v) m (v_private v).
Definition set_ndimen (v : var) (n : Z) : var := mkVar (v_key v) n (v_dims v) (v_size v) (v_type v) (v_mem v) (v_private v).
(** read_vars.c 260-389: the variable, whether to go on, and the rest of the file. *)
Definition read_var (v : var) (f : stream) : outcome (var * bool * stream) :=
  match fgets_n 256 f with
  | (None, f) => Ret (v, false, f)
  | (Some l, f) =>
      let v := set_ndimen v (atol l) in
      if v_ndimen v =? 0 then Ret (v, false, f)
      else
        do r <- read_names (Z.to_nat (v_ndimen v)) 0 (v_dims v) f;
        match r with
        | (false, f) => Ret (v, false, f)
        | (true, f) =>
            match fgets_n 256 f with
            | (None, f) => Ret (v, false, f)
            | (Some l, f) =>
                let size := fst (strtol l) in
                if strtol_erange l then Ret (v, false, f)
                else if negb (size =? v_size v) then Ret (v, false, f)
                else
                  match fgets_n 256 f with
                  | (None, f) => Ret (v, false, f)
                  | (Some l, f) =>
                      let ty := atol l in
                      if ty =? 0 then Ret (v, false, f)
                      else if negb (ty =? v_type v) then Ret (v, false, f)
                      else if (ty =? 1) || (ty =? 2) || (ty =? 3) then
                        do r <- read_values ty (Z.to_nat size) 0 (v_mem v) f;
                        match r with (ok, m, f) => Ret (set_mem v m, ok, f) end
                      else Ret (v, true, f)
                  end
            end
        end
  end.
Definition lookup (vs : list var) (k : string) : option var := find (fun v => String.eqb (v_key v) k) vs.
Fixpoint update (vs : list var) (v : var) : list var :=
  match vs with [] => [] | w :: vs => if String.eqb (v_key w) (v_key v) then v :: vs else w :: update vs v end.
(** read_vars.c 243-250. *)
Fixpoint to_header (fuel : nat) (f : stream) : outcome (option stream) :=
  match fuel with
  | O => UB
  | S fuel => match fgets_n 256 f with
              | (None, _) => Ret None
              | (Some l, f) => if hashes l then Ret (Some f) else to_header fuel f
              end
  end.
(** read_vars.c 237-396. *)
Fixpoint read_blocks (fuel : nat) (vs : list var) (f : stream) : outcome (list var * Z) :=
  match fuel with
  | O => UB
  | S fuel =>
      if eof f then Ret (vs, 0)
      else
        do p <- to_header (S (measure f)) f;
        match p with
        | None => Ret (vs, 0)
        | Some f =>
            match fgets_n 50 f with
            | (None, _) => Ret (vs, 1)
            | (Some k, f) =>
                match drop_last k with
                | None => UB
                | Some k =>
                    match lookup vs k with
                    | None => read_blocks fuel vs f
                    | Some v =>
                        do r <- read_var v f;
                        match r with
                        | (v, true, f) => read_blocks fuel (update vs v) f
                        | (v, false, _) => Ret (update vs v, 1)
                        end
                    end
                end
            end
        end
  end.
(** &line[n]: past the end of the line the buffer holds older text. *)
Definition from (n : nat) (l : string) : outcome string :=
  if Nat.leb n (String.length l) then Ret (substring n (String.length l - n) l) else UB.
(** read_vars.c 87-396; [None] is a file that cannot be opened.  The state and the return value. *)
Definition read_vars (file : option (list string)) (st : state) : outcome (state * Z) :=
  match file with
  | None => Ret (st, 0)
  | Some ls =>
      match fgets_n 80 (mkStream ls false) with
      | (None, _) => Ret (st, 0)
      | (Some l, f) =>
          let st := mkState l (s_nsteps st) (s_now st) (s_dt st) (s_dtnext st) (s_dims st) (s_vars st) in
          match fgets_n 80 f with
          | (None, _) => Ret (st, 0)
          | (Some l, f) =>
              do t <- from 11 l;
              let st := mkState (s_info st) (fst (strtol t)) (s_now st) (s_dt st) (s_dtnext st) (s_dims st) (s_vars st) in
              match fgets_n 80 f with
              | (None, _) => Ret (st, 0)
              | (Some l, f) =>
                  match fgets_n 80 f with
                  | (None, _) => Ret (st, 0)
                  | (Some l, f) =>
                      do t <- from 16 l;
                      let st := mkState (s_info st) (s_nsteps st) (s_now st) (strtod t) (strtod t) (s_dims st) (s_vars st) in
                      do r <- read_dims (S (measure f)) (s_dims st) f;
                      match r with
                      | inl c => Ret (st, c)
                      | inr f =>
                          do r <- read_blocks (S (measure f)) (s_vars st) f;
                          match r with
                          | (vs, c) => Ret (mkState (s_info st) (s_nsteps st) (s_now st) (s_dt st) (s_dtnext st) (s_dims st) vs, c)
                          end
                      end
                  end
              end
          end
      end
  end.
End Ckpt.
