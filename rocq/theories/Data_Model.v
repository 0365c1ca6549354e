(** Data files: DATA_read_init, FILE_with_next_ts, EXTRACT_time and read_line of mmf_c/src/read_line.c, the header
    reader read_datainfo.c and readvar.c.  A file is the list of its lines, each at most 2047 characters long so that
    fgets with MAXDATALNLEN reads one.  strtod and the conversion of a column are arguments, which give the value, the
    rest of the text and whether errno is ERANGE.  Messages are not modelled; errors are numbered. *)
From Coq Require Import String Ascii List ZArith QArith Bool.
From Verif Require Import Calendar_Model CStr_Model CNum_Model Qx Pfile_Model Ctrl_Model.
Import ListNotations.
Local Open Scope string_scope.
Local Open Scope list_scope.
Local Open Scope Z_scope.

(** structs.h DATETIME. *)
Record dtime := mkTime { t_year : Z; t_month : Z; t_day : Z; t_hour : Z; t_min : Z; t_sec : Z; t_jd : Z; t_jt : Q }.
Definition set_year t v := mkTime v (t_month t) (t_day t) (t_hour t) (t_min t) (t_sec t) (t_jd t) (t_jt t).
Definition set_month t v := mkTime (t_year t) v (t_day t) (t_hour t) (t_min t) (t_sec t) (t_jd t) (t_jt t).
Definition set_day t v := mkTime (t_year t) (t_month t) v (t_hour t) (t_min t) (t_sec t) (t_jd t) (t_jt t).
Definition set_hour t v := mkTime (t_year t) (t_month t) (t_day t) v (t_min t) (t_sec t) (t_jd t) (t_jt t).
Definition set_min t v := mkTime (t_year t) (t_month t) (t_day t) (t_hour t) v (t_sec t) (t_jd t) (t_jt t).
Definition set_sec t v := mkTime (t_year t) (t_month t) (t_day t) (t_hour t) (t_min t) v (t_jd t) (t_jt t).
(** julday.c 26-64 on the structure: jd and jt, unchanged for year 0. *)
Definition set_julian (t : dtime) : dtime :=
  let d := mkdate (t_year t) (t_month t) (t_day t) in
  match julday d, julday_jt d (t_hour t) (t_min t) (t_sec t) with
  | Some jd, Some jt => mkTime (t_year t) (t_month t) (t_day t) (t_hour t) (t_min t) (t_sec t) jd jt
  | _, _ => t
  end.

(** structs.h FILE_DATA: what is left of the file, whether fp is open, the current line, the offset of start_of_data
    in it, and the time. *)
Record fdata := mkFile { f_rest : list string; f_open : bool; f_line : string; f_off : nat; f_time : dtime }.
Definition set_time f t := mkFile (f_rest f) (f_open f) (f_line f) (f_off f) t.
(** fclose, fp = NULL, year = 9999. *)
Definition close f := mkFile [] false (f_line f) (f_off f) (set_year (f_time f) 9999).

Definition ENDOFDATA : Z := 1.
Definition ENDOFFILE : Z := 2.
Definition ERROR_TIME : Z := 100.
Definition INT_LO : Z := -2147483648.
Definition INT_HI : Z := 2147483647.

Section Data.
Context {V : Type}.
Variable strtod : string -> Q * string * bool.
Variable conv : Z -> string -> V * string * bool.

(** read_line.c 666-775: 0, or 1-6 for the field out of range, 11-16 for ERANGE.  The fields before the error are
    overwritten.  A double outside the range of int makes the conversion undefined. *)
Definition extract (f : fdata) : outcome (fdata * Z) :=
  let t := f_time f in
  if t_year t =? 9999 then Ret (f, 0) else
  let l := f_line f in
  let (y, e1) := strtol l in let t := set_year t y in
  if (y <? 1800) || (2100 <? y) then Ret (set_time f t, 1) else
  if strtol_erange l then Ret (set_time f t, 11) else
  let (mo, e2) := strtol e1 in let t := set_month t mo in
  if (mo <? 1) || (12 <? mo) then Ret (set_time f t, 2) else
  if strtol_erange e1 then Ret (set_time f t, 12) else
  let (d, e3) := strtol e2 in let t := set_day t d in
  if (d <? 1) || (31 <? d) then Ret (set_time f t, 3) else
  if strtol_erange e2 then Ret (set_time f t, 13) else
  let (h, e4) := strtol e3 in let t := set_hour t h in
  if (h <? 0) || (24 <? h) then Ret (set_time f t, 4) else
  if strtol_erange e3 then Ret (set_time f t, 14) else
  let (mi, e5) := strtol e4 in let t := set_min t mi in
  if (mi <? 0) || (59 <? mi) then Ret (set_time f t, 5) else
  if strtol_erange e4 then Ret (set_time f t, 15) else
  match strtod e5 with (q, e6, range) =>
  let s := trunc q in
  if (s <? INT_LO) || (INT_HI <? s) then UB else
  let t := set_sec t s in
  if (s <? 0) || (59 <? mi) then Ret (set_time f t, 6) else
  if range then Ret (set_time f t, 16) else
  Ret (mkFile (f_rest f) (f_open f) l (String.length l - String.length e6) (set_julian t), 0)
  end.

(** 609-620, 622-633, 346-360: the next record of a file; end of file or an empty line closes it.  fgets on a closed
    file is undefined. *)
Definition advance (f : fdata) : outcome (fdata * Z) :=
  if f_open f then
    match f_rest f with
    | [] => Ret (close f, 0)
    | l :: r => let f := mkFile r true l (f_off f) (f_time f) in
                if prefix nl l then Ret (close f, 0) else extract f
    end
  else UB.
(** 370-381: the same without the check for an empty line. *)
Definition advance_early (f : fdata) : outcome (fdata * Z) :=
  if f_open f then
    match f_rest f with
    | [] => extract (close f)
    | l :: r => extract (mkFile r true l (f_off f) (f_time f))
    end
  else UB.

Definition put_file (fs : list fdata) (i : nat) (f : fdata) : list fdata := firstn i fs ++ f :: skipn (S i) fs.

(** 589-657: the files, the index of the chosen one and Mprevjt.  [cur] is the index of cur_fd, [i] that of the next
    file; an error of EXTRACT_time is only reported. *)
Fixpoint choose (k : nat) (fs : list fdata) (cur i : nat) (prevjt : Q) : outcome (list fdata * nat * Q) :=
  match k with
  | O => Ret (fs, cur, prevjt)
  | S k =>
      match nth_error fs cur, nth_error fs i with
      | Some c, Some p =>
          if t_year (f_time p) =? 9999 then choose k fs cur (S i) prevjt
          else if t_jd (f_time p) =? t_jd (f_time c) then
            if qeq (t_jt (f_time p)) (t_jt (f_time c)) then choose k fs cur (S i) prevjt
            else if qlt (t_jt (f_time p)) (t_jt (f_time c)) then
              do r <- advance p; choose k (put_file fs i (fst r)) cur (S i) (t_jt (f_time p))
            else do r <- advance c; choose k (put_file fs cur (fst r)) i (S i) (t_jt (f_time c))
          else if t_jd (f_time p) <? t_jd (f_time c) then choose k fs i (S i) prevjt
          else choose k fs cur (S i) prevjt
      | _, _ => UB
      end
  end.
Definition with_next (fs : list fdata) (prevjt : Q) : outcome (list fdata * nat * Q) :=
  match fs with [] => UB | _ :: r => choose (List.length r) fs 0 1 prevjt end.

(** mms.h READCHECK: a variable of the header with its type and the values of the last record. *)
Record column := mkCol { k_name : string; k_type : Z; k_vals : list V }.
(** 303-333 for one variable: [count] conversions; the first ERANGE ends it, after its value is stored. *)
Fixpoint cells (ty : Z) (vs : list V) (p : string) : list V * string * bool :=
  match vs with
  | [] => ([], p, false)
  | _ :: vs => match conv ty p with (v, p, range) =>
      if range then (v :: vs, p, true) else match cells ty vs p with (r, p, e) => (v :: r, p, e) end end
  end.
(** Only integer, float and double variables are converted. *)
Definition converted (ty : Z) : bool := (ty =? 1) || (ty =? 2) || (ty =? 3).
(** 301-334 *)
Fixpoint row (cols : list column) (p : string) : list column * bool :=
  match cols with
  | [] => ([], false)
  | c :: cols =>
      if converted (k_type c) then
        match cells (k_type c) (k_vals c) p with (vs, p, e) =>
          let c := mkCol (k_name c) (k_type c) vs in
          if e then (c :: cols, true) else let (r, e) := row cols p in (c :: r, e) end
      else let (r, e) := row cols p in (c :: r, e)
  end.

(** The global state read_line works on. *)
Record world := mkWorld { w_files : list fdata; w_now : dtime; w_prevjt : Q; w_dt : Q; w_nsteps : Z; w_first : bool;
                          w_next : dtime; w_dtnext : Q; w_cols : list column }.
Definition set_files w fs pj := mkWorld fs (w_now w) pj (w_dt w) (w_nsteps w) (w_first w) (w_next w) (w_dtnext w) (w_cols w).
Definition set_now w t := mkWorld (w_files w) t (w_prevjt w) (w_dt w) (w_nsteps w) (w_first w) (w_next w) (w_dtnext w) (w_cols w).

(** Mstrttime->jt, Mendtime->jt and the control variable initial_deltat (hours). *)
Variables start_jt end_jt initial_deltat : Q.

(** 247-365: a record inside the window; start_of_data beyond the end of the line would read what the buffer held
    before. *)
Definition accept (w : world) (cur : nat) (f : fdata) : outcome (world * Z) :=
  let jt := t_jt (w_now w) in
  let pj := if w_first w then (jt - initial_deltat / 24)%Q else w_prevjt w in
  let n := w_nsteps w + 1 in
  let w := mkWorld (w_files w) (w_now w) pj (w_dt w) n false (w_next w) (w_dtnext w) (w_cols w) in
  if Nat.ltb (String.length (f_line f)) (f_off f) then UB else
  let text := substring (f_off f) (String.length (f_line f) - f_off f) (f_line f) in
  if qlt jt pj then Ret (w, ERROR_TIME) else
  let dt := if qlt (jt - pj) (115 # 10000000) then 1%Q else if qlt pj 0 then w_dt w else (jt - pj)%Q in
  let (cols, e) := row (w_cols w) text in
  let w := mkWorld (w_files w) (w_now w) pj dt n false (w_next w) (w_dtnext w) cols in
  if e then Ret (w, ENDOFDATA) else
  do r <- advance f;
  let (f, err) := r in
  let fs := put_file (w_files w) cur f in
  let w := mkWorld fs (w_now w) jt dt n false (w_next w) (w_dtnext w) cols in
  if negb (err =? 0) then Ret (w, ERROR_TIME) else
  if f_open f then Ret (mkWorld fs (w_now w) jt dt n false (f_time f) (t_jt (f_time f) - jt)%Q cols, 0)
  else Ret (w, 0).

(** 196-387: the loop; [prevtime] is the time at the call.  -1 when the number of rounds does not suffice. *)
Fixpoint read_loop (k : nat) (prevtime : dtime) (w : world) : outcome (world * Z) :=
  match k with
  | O => Ret (w, -1)
  | S k =>
      do r <- with_next (w_files w) (w_prevjt w);
      match r with (fs, cur, pj) =>
      match nth_error fs cur with
      | None => UB
      | Some f =>
          let w := set_files w fs pj in
          if t_year (f_time f) =? 9999 then Ret (w, ENDOFFILE) else
          let pj := if qlt pj 0 && qle (t_jt (f_time f) - pj) (1 # 1000000) then inject_Z (t_jd (w_now w)) else pj in
          let w := set_now (set_files w fs pj) (f_time f) in
          let jt := t_jt (f_time f) in
          if qlt end_jt jt then Ret (set_now w prevtime, ENDOFDATA) else
          if qle start_jt jt then accept w cur f else
          do r <- advance_early f;
          let (f, err) := r in
          let w := set_files w (put_file fs cur f) jt in
          if err =? 0 then read_loop k prevtime w else Ret (w, ERROR_TIME)
      end
      end
  end.
(** Each round that does not return ends a file or takes one of its lines. *)
Definition rounds (fs : list fdata) : nat := S (fold_right (fun f n => (1 + List.length (f_rest f) + n)%nat) 0%nat fs).
(** 166-194 *)
Definition read_line (w : world) : outcome (world * Z) :=
  let w := if w_nsteps w =? 0
           then mkWorld (w_files w) (w_now w) 1 (w_dt w) 0 true (w_next w) (w_dtnext w) (w_cols w) else w in
  read_loop (rounds (w_files w)) (w_now w) w.

(** batch_run.c 110-131 (single_run): read_line is called until it returns something else than 0.  The steps with the
    time, step length and values the modules see, the final state and the code. *)
Record step := mkStep { s_time : dtime; s_dt : Q; s_vals : list (list V) }.
Inductive run : world -> list step -> world -> Z -> Prop :=
| run_end w w' c : read_line w = Ret (w', c) -> c <> 0 -> run w [] w' c
| run_step w w1 l w' c : read_line w = Ret (w1, 0) -> run w1 l w' c ->
    run w (mkStep (w_now w1) (w_dt w1) (map k_vals (w_cols w1)) :: l) w' c.

(** 396-460 for one file: an error number, 20 for a missing "####" line.  The time is uninitialised apart from the
    year; a file without a line after the header leaves the line uninitialised. *)
Definition open_file (junk : dtime) (ls : list string) : outcome (option fdata * Z) :=
  match ls with
  | [] => UB
  | _ => match skip_to ls false with
         | None => Ret (None, 20)
         | Some s => match lines s with
                     | [] => UB
                     | l :: r => do x <- extract (mkFile r true l 0 (set_year junk 0));
                                 let (f, err) := x in Ret (Some f, err)
                     end
         end
  end.
Fixpoint open_files (junk : dtime) (fs : list (list string)) : outcome (list fdata * Z) :=
  match fs with
  | [] => Ret ([], 0)
  | ls :: fs =>
      do r <- open_file junk ls;
      match r with
      | (Some f, 0) => do r <- open_files junk fs; Ret (f :: fst r, snd r)
      | (_, e) => Ret ([], e)
      end
  end.
(** 523-538 *)
Definition check_start (start_jd : Z) (fs : list fdata) : bool := existsb (fun f => t_jd (f_time f) <=? start_jd) fs.

(** read_datainfo.c 86-233: the variables of the header, or an error: 1 no first line, 2 no "####", 3 format, 4 not
    declared, 5 count, 6 no data.  [var_type] is var_addr with the type; [junk] is what malloc returns.  An empty first
    line would be written before its start. *)
Definition is_gap (c : ascii) : bool := Ascii.eqb c " " || Ascii.eqb c "009".
Variable var_type : string -> option Z.
Variable junk : V.
Fixpoint header (ls : list string) (acc : list column) : outcome (list column * Z) :=
  match ls with
  | [] => Ret (acc, 2)
  | l :: ls =>
      if hashes l then Ret (acc, match ls with [] => 6 | _ => 0 end)
      else if prefix "//" l then header ls acc
      else if Nat.leb (String.length l) 1 then header ls acc
      else match strtok is_gap l with
           | [] => Ret (acc, 3)
           | key :: more =>
               match var_type key with
               | None => Ret (acc, 4)
               | Some ty =>
                   match more with
                   | [] => Ret (acc, 3)
                   | c :: _ =>
                       let n := fst (strtol c) in
                       if strtol_erange c || (n <? 0) then Ret (acc, 5)
                       else header ls (acc ++ [mkCol key ty (repeat junk (Z.to_nat n))])
                   end
               end
           end
  end.
Definition read_datainfo (ls : list string) : outcome (list column * Z) :=
  match fgets_n 80 (mkStream ls false) with
  | (None, _) => Ret ([], 1)
  | (Some l, s) => match drop_last l with None => UB | Some _ => header (lines s) [] end
  end.

(** read_line.c 469-512 (READ_data_info): every file is read, the variables are those of the last one. *)
Fixpoint read_info (files : list (list string)) (cols : list column) : outcome (list column * Z) :=
  match files with
  | [] => Ret (cols, 0)
  | ls :: files => do r <- read_datainfo ls; let (c, e) := r in if e =? 0 then read_info files c else Ret (c, e)
  end.

(** readvar.c 101-206: the values delivered to an integer, float or double variable of the given size, or an error. *)
Definition readvar (cols : list column) (name : string) (size : nat) : option (list V) :=
  match var_type name with
  | None => None
  | Some _ =>
      match find (fun c => String.eqb (k_name c) name) cols with
      | None => None
      | Some c => if Nat.eqb (List.length (k_vals c)) size then Some (k_vals c) else None
      end
  end.
End Data.
