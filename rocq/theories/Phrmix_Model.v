(** The mixing call of webmod: IPhreeqcMMS/src/phr_mix.F90 phr_mix and
    phr_multicopy.f90 phr_multicopy, with RunMixF (Mix_Model), RunAccumulated
    (IPhreeqc.cpp 735-794, do_run 1182-1470, check_database) and the table of
    selected output (SelOut_Model).

    Not modelled: messages, clocks, the file of selected mixes and the switch of
    the output file. *)
From Coq Require Import String Ascii ZArith QArith Bool List.
From Verif Require Import Qx Ckpt_Model Mix_Model SelOut_Model.
Import ListNotations.
Local Open Scope string_scope.
Local Open Scope list_scope.
Local Open Scope Z_scope.

(** What the engine makes of one simulation: a row of selected output, or it
    stops before that with a count of errors (error_msg with STOP throws,
    IPhreeqc.cpp 756-759; get_input_errors 793). *)
Inductive sim_end := Punched (cells : list (string * val)) | Stopped (errors : Z).

(** The engine: the lines of the simulations before, and those of this one. *)
Definition engine := list line -> list line -> sim_end.

(** The lines up to the first END, and the rest; [None] without END: the
    file ends. *)
Fixpoint cut_end (l : list line) : option (list line * list line) :=
  match l with
  | [] => None
  | END :: r => Some ([END], r)
  | x :: r => match cut_end r with Some (a, b) => Some (x :: a, b) | None => None end
  end.

(** do_run, 1222-1440: one simulation after the other; it gives the writes to
    the table and the count of errors. Lines after the last END are a
    simulation as well. *)
Fixpoint simulate (fuel : nat) (eng : engine) (done todo : list line) : list event * Z :=
  match fuel, todo with
  | _, [] => ([], 0)
  | O, _ => ([], 0)
  | S fuel, _ =>
    let '(this, rest) := match cut_end todo with Some p => p | None => (todo, []) end in
    match eng done this with
    | Stopped n => ([], n)
    | Punched cells =>
      let '(ev, n) := simulate fuel eng (done ++ this) rest in
      (map (fun p => Push (fst p) (snd p)) cells ++ [End] ++ ev, n)
    end
  end.

(** check_database, 1153-1164: the table is emptied before each run. *)
Definition run_accumulated (eng : engine) (l : list line) : list event * Z :=
  let '(ev, n) := simulate (length l) eng [] l in (Clear :: ev, n).

(** What phr_mix gives back. *)
Record reply := mkReply { code : Z; r_ph : Q; r_final : Q; r_temp : Q; r_conc : list Q }.

(** Undefined: an element outside of conc_conserv is written. *)
Inductive answer := Undefined | Reply (r : reply).

(** phr_mix.F90 59-64: -987654321. is a literal of default kind (32 bits), the
    nearest of which is this. *)
Definition marker : Q := -987654336.

(** GetSelectedOutputValueF (fwrap.cpp 329-368): whether vtype is TT_DOUBLE,
    and then the value. *)
Definition as_double (v : val) : option Q :=
  match v with
  | VLong n => Some (inject_Z n)
  | VDouble x => Some x
  | _ => None
  end.

(** GetSelectedOutputRowCountF (fwrap.cpp 318-326). *)
Definition rows_f (t : table) : Z := if 0 <? row_count t then row_count t - 1 else 0.

(** A value from the table into a variable; columns count from 1 (fwrap.cpp
    336). [None] where the table is read outside of its vectors. *)
Definition fetch (t : table) (row col : Z) (old : Q) : option (Z * Q) :=
  match get t row (col - 1) with
  | None => None
  | Some (c, v) => Some (c, match as_double v with Some x => x | None => old end)
  end.

(** conc_conserv(i) = x. *)
Definition store_at (l : list Q) (i : Z) (x : Q) : option (list Q) :=
  if (1 <=? i) && (i <=? Z.of_nat (length l)) then Some (replace_nth l (Z.to_nat (i - 1)) x) else None.

(** phr_mix.F90 159-169: the columns from the third on. *)
Fixpoint fetch_columns (t : table) (i : Z) (n : nat) (r : reply) : answer :=
  match n with
  | O => Reply r
  | S n =>
    match get t 1 (i - 1) with
    | None => Undefined
    | Some (c, v) =>
      if c =? 0 then
        match as_double v with
        | Some x =>
          match store_at (r_conc r) (i - 2) x with
          | None => Undefined
          | Some l => fetch_columns t (i + 1) n (mkReply 0 (r_ph r) (r_final r) (r_temp r) l)
          end
        | None => fetch_columns t (i + 1) n (mkReply 0 (r_ph r) (r_final r) (r_temp r) (r_conc r))
        end
      else Reply (mkReply c (r_ph r) (r_final r) (r_temp r) (r_conc r))
    end
  end.

(** phr_mix.F90 98-169: the table is read; [n] is the result of RunMixF, [size]
    the length of conc_conserv. *)
Definition read_reply (n : Z) (size : nat) (t : table) : answer :=
  let conc := repeat marker size in
  if negb (rows_f t =? 1) && negb (rows_f t =? 3) then Reply (mkReply n marker marker marker conc)
  else
    match fetch t 0 1 marker with
    | None => Undefined
    | Some (c, _) =>
      if negb (c =? 0) then Reply (mkReply c marker marker marker conc) else
      match fetch t 1 1 marker with
      | None => Undefined
      | Some (c, ph) =>
        if negb (c =? 0) then Reply (mkReply c marker marker marker conc) else
        match fetch t 2 1 marker with
        | None => Undefined
        | Some (c, final) =>
          let final := if c =? 0 then final else marker in
          match fetch t 0 2 marker with
          | None => Undefined
          | Some (c, _) =>
            if negb (c =? 0) then Reply (mkReply c ph final marker conc) else
            match fetch t 1 2 marker with
            | None => Undefined
            | Some (c, temp) =>
              if negb (c =? 0) then Reply (mkReply c ph final marker conc) else
              fetch_columns t 3 (Z.to_nat (col_count t - 2)) (mkReply c ph final temp conc)
            end
          end
        end
      end
    end.

(** phr_mix.F90 59-64: the arguments that are set before RunMixF gets them. *)
Definition overwritten (r : request) : request :=
  mkReq (sols r) (n_rxn r) (n_cons r) (fill r) (user r) (rxnmols r) marker (tsec r).

(** phr_mix.F90: the request, what was accumulated before, and the engine. *)
Definition phr_mix (w : world) (eng : engine) (size : nat) (accumulated : list line) (r : request) : answer :=
  let '(ev, n) := run_accumulated eng (run_mix w (overwritten r) accumulated) in
  match run empty ev with
  | None => Undefined
  | Some t => read_reply n size t
  end.

(** * phr_multicopy *)

(** [n] blanks in front. *)
Fixpoint indent (n : nat) (s : string) : string :=
  match n with O => s | S n => String " " (indent n s) end.

(** FORMAT I10 of a number that is not negative: its digits, right justified in
    ten places; ten stars when they do not fit. *)
Definition i10 (digits : string) : string :=
  if Nat.leb (String.length digits) 10 then indent (10 - String.length digits) digits
  else "**********".

(** phr_multicopy.f90 22 and 35: the line that is run. *)
Definition copy_text (keyword : string) (a b : Z) : string :=
  "COPY " ++ keyword ++ " " ++ i10 (dec a) ++ i10 (dec b).

(** copy_token: the words of a line. *)
Fixpoint words (s : string) : list string :=
  match s with
  | "" => []
  | String c r =>
    if Ascii.eqb c " " then words r
    else match r with
         | String d _ => if Ascii.eqb d " " then String c "" :: words r
                         else match words r with w :: ws => String c w :: ws | [] => [String c ""] end
         | "" => [String c ""]
         end
  end.

(** read_copy (read.cpp 9883-10060) and copy_entities (mainsubs.cpp 1866-2027)
    for one kind of entity and one target: the entities by number, and the
    number of errors. [number] reads an index. *)
Definition copy_run {A} (number : string -> option Z) (m : Z -> option A) (text : string) : (Z -> option A) * Z :=
  match words text with
  | _ :: _ :: x :: y :: _ =>
    match number x, number y with
    | Some a, Some b =>
      (match m a with
       | Some v => fun j => if j =? b then Some v else m j
       | None => m
       end, 0)
    | _, _ => (m, 1)
    end
  | _ => (m, 1)
  end.

(** phr_multicopy.f90 17-34: one pair after the other, up to the first error;
    pairs with a negative number are passed over. *)
Fixpoint multicopy {A} (number : string -> option Z) (keyword : string) (m : Z -> option A) (l : list (Z * Z))
  : (Z -> option A) * Z :=
  match l with
  | [] => (m, 0)
  | (a, b) :: r =>
    if (0 <=? a) && (0 <=? b) then
      let '(m', n) := copy_run number m (copy_text keyword a b) in
      if n =? 0 then multicopy number keyword m' r else (m', n)
    else multicopy number keyword m r
  end.
