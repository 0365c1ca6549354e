(** One chemistry instance: IPhreeqcMMS/IPhreeqc/src/IPhreeqc.cpp.

    The engine behind it (PhreeqcPtr) is not modelled: what it does during one call is given with
    the call as a list of actions and an outcome, over which the theorems quantify.  The output,
    log, error and punch streams (open_output_files 1690-1740, close_output_files 1757-1778) and
    file names are not modelled.  WarningStringOn (33) and PHRQ_io's output_on, log_on and punch_on
    have no setter in IPhreeqc.hpp/IPhreeqc.h and are taken as on. *)
From Coq Require Import String Ascii ZArith Bool List.
From Verif Require Import SelOut_Model.
Import ListNotations.
Local Open Scope string_scope.
Local Open Scope list_scope.
Local Open Scope Z_scope.

Definition nl : string := String (Ascii.ascii_of_nat 10) "".
(** std::map<int, A>. *)
Definition zmap (A : Type) : Type := Z -> option A.
Definition zupd {A} (m : zmap A) (k : Z) (x : A) : zmap A := fun j => if j =? k then Some x else m j.

(** DatabaseLoaded, ClearAccumulated, StringInput. *)
Record script := mkScript { loaded : bool; clear_acc : bool; acc : string }.
(** The text in ErrorReporter and WarningReporter; ErrorLines, WarningLines. *)
Record reports := mkReports { err : string; warn : string; err_lines : list string; warn_lines : list string }.
(** OutputString, LogString, OutputLines, LogLines. *)
Record texts := mkTexts { out : string; log : string; out_lines : list string; log_lines : list string }.
(** OutputFileOn, LogFileOn, ErrorFileOn, OutputStringOn, LogStringOn, ErrorStringOn, error_on. *)
Record switches := mkSw { out_file : bool; log_file : bool; err_file : bool;
                          out_str : bool; log_str : bool; err_str : bool; error_on : bool }.
(** CurrentSelectedOutputUserNumber, SelectedOutputFileOnMap, SelectedOutputStringOn, SelectedOutputMap
    (each table as the history of its writes), SelectedOutputStringMap, SelectedOutputLinesMap and the
    keys of PhreeqcPtr->SelectedOutput_map. *)
Record selected := mkSel { cur : Z; file_on : zmap bool; str_on : zmap bool; tables : zmap (list event);
                           strings : zmap string; lines : zmap (list string); defs : list Z }.
Record inst := mkI { sc : script; rp : reports; tx : texts; sw : switches; se : selected;
                     input_error : Z; io_errors : Z }.
Definition set_sc (s : inst) (x : script) : inst := mkI x (rp s) (tx s) (sw s) (se s) (input_error s) (io_errors s).
Definition set_rp (s : inst) (x : reports) : inst := mkI (sc s) x (tx s) (sw s) (se s) (input_error s) (io_errors s).
Definition set_tx (s : inst) (x : texts) : inst := mkI (sc s) (rp s) x (sw s) (se s) (input_error s) (io_errors s).
Definition set_sw (s : inst) (x : switches) : inst := mkI (sc s) (rp s) (tx s) x (se s) (input_error s) (io_errors s).
Definition set_se (s : inst) (x : selected) : inst := mkI (sc s) (rp s) (tx s) (sw s) x (input_error s) (io_errors s).
Definition set_errors (s : inst) (a b : Z) : inst := mkI (sc s) (rp s) (tx s) (sw s) (se s) a b.

(** std::getline until the end of the stream (e.g. 1526-1532, 1565-1571). *)
Fixpoint getline (line : string) (s : string) : list string :=
  match s with
  | EmptyString => match line with EmptyString => [] | _ => [line] end
  | String c r =>
      if Ascii.eqb c (Ascii.ascii_of_nat 10) then line :: getline "" r
      else getline (line ++ String c "") r
  end.
Definition getlines (s : string) : list string := getline "" s.

(** 1560-1585. *)
Definition update_errors (s : inst) : inst :=
  set_rp s (mkReports (err (rp s)) (warn (rp s)) (getlines (err (rp s))) (getlines (warn (rp s)))).
(** 119-127. *)
Definition add_error (s : inst) (m : string) : inst :=
  set_rp s (mkReports (err (rp s) ++ m) (warn (rp s)) (err_lines (rp s)) (warn_lines (rp s))).
Definition add_warning (s : inst) (m : string) : inst :=
  set_rp s (mkReports (err (rp s)) (warn (rp s) ++ m) (err_lines (rp s)) (warn_lines (rp s))).
(** ErrorReporter.hxx 58-67. *)
Definition clear_errors (s : inst) : inst :=
  set_rp s (mkReports "" (warn (rp s)) (err_lines (rp s)) (warn_lines (rp s))).
Definition clear_warnings (s : inst) : inst :=
  set_rp s (mkReports (err (rp s)) "" (err_lines (rp s)) (warn_lines (rp s))).

(** 1642-1650 and 1587-1595. *)
Definition output_msg (s : inst) (m : string) : inst :=
  if out_str (sw s) then set_tx s (mkTexts (out (tx s) ++ m) (log (tx s)) (out_lines (tx s)) (log_lines (tx s))) else s.
Definition log_msg (s : inst) (m : string) : inst :=
  if log_str (sw s) then set_tx s (mkTexts (out (tx s)) (log (tx s) ++ m) (out_lines (tx s)) (log_lines (tx s))) else s.
(** phreeqcpp/utilities.cpp 1331-1340. *)
Definition input_errors (s : inst) : Z := if input_error s =? 0 then io_errors s else input_error s.
(** phreeqcpp/PHRQ_io_output.cpp 273-301 with IPhreeqc.cpp 1597-1621 (the throw is the caller's). *)
Definition error_msg (s : inst) (m : string) : inst :=
  let s := if input_errors s <=? 0 then set_errors s 1 (io_errors s) else s in
  let m := ("ERROR: " ++ m ++ nl)%string in
  let s := log_msg (output_msg s m) m in
  let s := set_errors s (input_error s) (io_errors s + 1) in
  if err_str (sw s) && error_on (sw s) then add_error s m else s.
(** 1623-1641. *)
Definition warning_msg (s : inst) (m : string) : inst := add_warning s (m ++ nl).

(** 1826-1846. *)
Definition get_sel_out_file_on (s : inst) (n : Z) : bool :=
  match file_on (se s) n with Some b => b | None => false end.
Definition get_sel_out_string_on (s : inst) (n : Z) : bool :=
  match str_on (se s) (cur (se s)) with Some b => b | None => false end.

(** What the engine does during a call. *)
Inductive act :=
| AOut (m : string) | ALog (m : string) | AWarn (m : string)
| AErr (m : string)                     (* error_msg(m, CONTINUE) *)
| AInputError                           (* input_error++ *)
| ASim (news : list Z)                  (* read_input() != EOF, after SELECTED_OUTPUT for [news] *)
| APunch (n : Z) (m : string)           (* text of selected output n *)
| ACell (n : Z) (k : string) (v : val)  (* a cell of selected output n *)
| ARow (n : Z).                         (* end of its row *)
Inductive outcome :=
| Done
| Stop (m : string)   (* error_msg(m, STOP), i.e. IPhreeqcStop *)
| Crash.              (* any other exception *)

Definition add_def (l : list Z) (n : Z) : list Z := if existsb (Z.eqb n) l then l else l ++ [n].
(** 1232-1248 for one simulation. *)
Definition add_selected (se0 : selected) (n : Z) : selected :=
  match tables se0 n with
  | Some _ => se0
  | None => mkSel (cur se0) (file_on se0) (str_on se0) (zupd (tables se0) n [])
              (match strings se0 n with Some _ => strings se0 | None => zupd (strings se0) n "" end) (lines se0) (defs se0)
  end.
Definition new_sim (s : inst) (news : list Z) : inst :=
  let ds := fold_left add_def news (defs (se s)) in
  let x := mkSel (cur (se s)) (file_on (se s)) (str_on (se s)) (tables (se s)) (strings (se s)) (lines (se s)) ds in
  set_se s (fold_left add_selected ds x).
(** 1659-1671 and the text part of 1780-1819: [map[n] += m]. *)
Definition punch (s : inst) (n : Z) (m : string) : inst :=
  if get_sel_out_string_on s n then
    let old := match strings (se s) n with Some t => t | None => "" end in
    set_se s (mkSel (cur (se s)) (file_on (se s)) (str_on (se s)) (tables (se s)) (zupd (strings (se s)) n (old ++ m)%string)
                    (lines (se s)) (defs (se s)))
  else s.
Definition table_event (s : inst) (n : Z) (e : event) : inst :=
  match tables (se s) n with
  | None => s
  | Some h => set_se s (mkSel (cur (se s)) (file_on (se s)) (str_on (se s)) (zupd (tables (se s)) n (h ++ [e]))
                              (strings (se s)) (lines (se s)) (defs (se s)))
  end.
Definition do_act (s : inst) (a : act) : inst :=
  match a with
  | AOut m => output_msg s m
  | ALog m => log_msg s m
  | AWarn m => warning_msg s m
  | AErr m => error_msg s m
  | AInputError => set_errors s (input_error s + 1) (io_errors s)
  | ASim news => new_sim s news
  | APunch n m => punch s n m
  | ACell n k v => table_event s n (Push k v)
  | ARow n => table_event s n End
  end.
Definition acts (s : inst) (l : list act) : inst := fold_left do_act l s.

(** 1536-1556: lines of the selected output texts. *)
Definition fill_lines (s : inst) (n : Z) : inst :=
  if get_sel_out_string_on s n then
    match strings (se s) n with
    | None => s
    | Some t =>
        match getlines t with
        | [] => s
        | new =>
            let old := match lines (se s) n with Some l => l | None => [] end in
            set_se s (mkSel (cur (se s)) (file_on (se s)) (str_on (se s)) (tables (se s)) (strings (se s))
                            (zupd (lines (se s)) n (old ++ new)) (defs (se s)))
        end
    end
  else s.
(** 1182-1558; the end of the function is reached only when the engine did not throw. *)
Definition do_run (s : inst) (l : list act) (o : outcome) : inst :=
  let s := acts s l in
  match o with
  | Done =>
      let s := update_errors s in
      let s := if log_str (sw s) then
                 set_tx s (mkTexts (out (tx s)) (log (tx s)) (out_lines (tx s)) (log_lines (tx s) ++ getlines (log (tx s)))) else s in
      let s := if out_str (sw s) then
                 set_tx s (mkTexts (out (tx s)) (log (tx s)) (out_lines (tx s) ++ getlines (out (tx s))) (log_lines (tx s))) else s in
      fold_left fill_lines (defs (se s)) s
  | Stop m => error_msg s m
  | Crash => s
  end.
(** 1153-1172: the clearing part of check_database. *)
Definition clear_results (s : inst) : inst :=
  let s := clear_warnings (clear_errors s) in
  let s := set_se s (mkSel (cur (se s)) (file_on (se s)) (str_on (se s)) (fun _ => None) (fun _ => None) (fun _ => None) (defs (se s))) in
  set_tx s (mkTexts "" "" [] []).

Inductive result := RInt (n : Z) | RThrow | RValue (code : Z) (v : val) | RUndef.
(** The body shared by 735-794, 796-864 and 866-927: the new instance, whether an exception other
    than IPhreeqcStop leaves the function, and the text given to the engine. *)
Definition run_body (s : inst) (routine : string) (text : option string) (l : list act) (o : outcome) : inst * bool * option string :=
  let s := clear_results s in
  if negb (loaded (sc s)) then
    (error_msg (set_errors s 1 (io_errors s)) (routine ++ ": No database is loaded"), false, None)
  else
    let s := set_errors s 0 0 in
    match text with
    | None => (error_msg s (routine ++ ": Unable to open"), false, None)   (* the message also names the file *)
    | Some t =>
        let s := do_run s l o in
        match o with
        | Crash => (error_msg s (routine ++ ": An unhandled exception occurred."), true, Some t)
        | _ => (s, false, Some t)
        end
    end.
(** 860-863. *)
Definition finish (r : inst * bool * option string) : inst * result * option string :=
  match r with
  | (s, true, t) => (s, RThrow, t)
  | (s, false, t) => let s := update_errors s in (s, RInt (input_errors s), t)
  end.
(** 129-132. *)
Definition clear_accumulated (s : inst) : inst := set_sc s (mkScript (loaded (sc s)) (clear_acc (sc s)) "").
(** 95-117. *)
Definition accumulate_line (s : inst) (line : string) : inst :=
  let s := if clear_acc (sc s) then set_sc s (mkScript (loaded (sc s)) false "") else s in
  let s := clear_warnings (clear_errors s) in
  set_sc s (mkScript (loaded (sc s)) (clear_acc (sc s)) (acc (sc s) ++ line ++ nl)).
(** 735-794. *)
Definition run_accumulated (s : inst) (l : list act) (o : outcome) : inst * result * option string :=
  match run_body s "RunAccumulated" (Some (acc (sc s))) l o with
  | (s1, true, t) => (s1, RThrow, t)
  | (s1, false, t) => finish (set_sc s1 (mkScript (loaded (sc s1)) true (acc (sc s1))), false, t)
  end.
(** 796-927; [text] is the file's text, None if it cannot be opened, or the string. *)
Definition run_text (s : inst) (routine : string) (text : option string) (l : list act) (o : outcome) : inst * result * option string :=
  finish (run_body (set_sc s (mkScript (loaded (sc s)) false "")) routine text l o).
(** 1072-1127; the dump text is not modelled. *)
Definition unload (s : inst) : inst :=
  let s := set_sc s (mkScript false false "") in
  let s := clear_warnings (clear_errors s) in
  let only1 := fun n => if n =? 1 then Some false else None in
  let s := set_se s (mkSel 1 only1 only1 (fun _ => None) (fun _ => None) (fun _ => None) []) in
  set_errors s 0 0.
(** 578-624 and 650-688: the new instance and whether an exception leaves the function. *)
Definition load_db (s : inst) (source : option (list act * outcome)) : inst * bool :=
  let s := unload s in
  let (s, thrown) :=
    match source with
    | None => (error_msg s "LoadDatabase: Unable to open", false)   (* the message also names the file *)
    | Some (l, o) =>
        let s := acts s l in
        match o with
        | Done => (s, false)
        | Stop m => (error_msg s m, false)
        | Crash => (error_msg s "LoadDatabase: An unhandled exception occurred.", true)
        end
    end in
  if thrown then (s, true)
  else (set_sc s (mkScript (input_errors s =? 0) (clear_acc (sc s)) (acc (sc s))), false).
Definition with_files (s : inst) (a b c : bool) : inst :=
  set_sw s (mkSw a b c (out_str (sw s)) (log_str (sw s)) (err_str (sw s)) (error_on (sw s))).
(** 626-648 and 690-712; [test] is the text and behaviour of test_db's run (1055-1070). *)
Definition load_database (s : inst) (source : option (list act * outcome)) (test : string * list act * outcome) : inst * result :=
  let a := out_file (sw s) in let b := log_file (sw s) in let c := err_file (sw s) in
  let s := with_files s false false false in
  let (s, thrown) := load_db s source in
  if thrown then (s, RThrow)
  else if negb (input_errors s =? 0) then (with_files s a b c, RInt (input_errors s))
  else
    match test with
    | (t, l, o) =>
        match run_text s "RunString" (Some t) l o with
        | (s, RInt n, _) => (with_files s a b c, RInt n)
        | (s, r, _) => (s, r)
        end
    end.

(** 442-493: the code, the value and the message. *)
Definition get_value (s : inst) (row col : Z) : inst * result :=
  let s := clear_errors s in
  match tables (se s) (cur (se s)) with
  | Some h =>
      match run empty h with
      | None => (s, RUndef)
      | Some t =>
          match get t row col with
          | None => (s, RUndef)
          | Some (code, v) =>
              if code =? VR_OK then (s, RValue code v)
              else (update_errors (add_error s (if code =? VR_INVALIDROW
                      then ("GetSelectedOutputValue: VR_INVALIDROW Row index out of range." ++ nl)%string
                      else ("GetSelectedOutputValue: VR_INVALIDCOL Column index out of range." ++ nl)%string)), RValue code v)
          end
      end
  | None => (update_errors (add_error s "GetSelectedOutputValue: VR_INVALIDARG"), RValue (-3) VEmpty)   (* shortened message *)
  end.

(** 24-68 *)
Definition created : inst :=
  let only1 := fun n => if n =? 1 then Some false else None in
  unload (mkI (mkScript false false "") (mkReports "" "" [] []) (mkTexts "" "" [] [])
    (mkSw false false false false false true true)
    (mkSel 1 only1 only1 (fun _ => None) (fun _ => None) (fun _ => None) []) 0 0).

Inductive op :=
| Accumulate (line : string) | ClearAccumulated
| RunAccumulated (l : list act) (o : outcome)
| RunString (text : string) (l : list act) (o : outcome)
| RunFile (text : option string) (l : list act) (o : outcome)
| Load (source : option (list act * outcome)) (test : string * list act * outcome)
| SetOutputFileOn (b : bool) | SetLogFileOn (b : bool) | SetErrorFileOn (b : bool)
| SetOutputStringOn (b : bool) | SetLogStringOn (b : bool) | SetErrorStringOn (b : bool) | SetErrorOn (b : bool)
| SetCurrent (n : Z) | SetSelectedFileOn (b : bool) | SetSelectedStringOn (b : bool)
| AddError (m : string) | AddWarning (m : string)
| GetValue (row col : Z).
(** 944-1053. *)
Definition step (s : inst) (p : op) : inst * result * option string :=
  let w := sw s in let e := se s in
  match p with
  | Accumulate l => (accumulate_line s l, RInt 0, None)
  | ClearAccumulated => (clear_accumulated s, RInt 0, None)
  | RunAccumulated l o => run_accumulated s l o
  | RunString t l o => run_text s "RunString" (Some t) l o
  | RunFile t l o => run_text s "RunFile" t l o
  | Load src test => let (s1, r) := load_database s src test in (s1, r, None)
  | SetOutputFileOn b => (set_sw s (mkSw b (log_file w) (err_file w) (out_str w) (log_str w) (err_str w) (error_on w)), RInt 0, None)
  | SetLogFileOn b => (set_sw s (mkSw (out_file w) b (err_file w) (out_str w) (log_str w) (err_str w) (error_on w)), RInt 0, None)
  | SetErrorFileOn b => (set_sw s (mkSw (out_file w) (log_file w) b (out_str w) (log_str w) (err_str w) (error_on w)), RInt 0, None)
  | SetOutputStringOn b => (set_sw s (mkSw (out_file w) (log_file w) (err_file w) b (log_str w) (err_str w) (error_on w)), RInt 0, None)
  | SetLogStringOn b => (set_sw s (mkSw (out_file w) (log_file w) (err_file w) (out_str w) b (err_str w) (error_on w)), RInt 0, None)
  | SetErrorStringOn b => (set_sw s (mkSw (out_file w) (log_file w) (err_file w) (out_str w) (log_str w) b (error_on w)), RInt 0, None)
  | SetErrorOn b => (set_sw s (mkSw (out_file w) (log_file w) (err_file w) (out_str w) (log_str w) (err_str w) b), RInt 0, None)
  | SetCurrent n =>
      if 0 <=? n then (set_se s (mkSel n (file_on e) (str_on e) (tables e) (strings e) (lines e) (defs e)), RInt 0, None)
      else (s, RInt (-3), None)
  | SetSelectedFileOn b =>
      (if 0 <=? cur e then set_se s (mkSel (cur e) (zupd (file_on e) (cur e) b) (str_on e) (tables e) (strings e) (lines e) (defs e)) else s, RInt 0, None)
  | SetSelectedStringOn b =>
      (set_se s (mkSel (cur e) (file_on e) (zupd (str_on e) (cur e) b) (tables e) (strings e) (lines e) (defs e)), RInt 0, None)
  | AddError m => (add_error s m, RInt 0, None)       (* the C++ call returns the count of errors *)
  | AddWarning m => (add_warning s m, RInt 0, None)
  | GetValue r c => let (s1, v) := get_value s r c in (s1, v, None)
  end.
Definition stepi (s : inst) (p : op) : inst := fst (fst (step s p)).
Definition runs (s : inst) (h : list op) : inst := fold_left stepi h s.

(** Readers: 221-251, 262-297, 317-352, 399-437, 540-558. *)
Definition get_error_string (s : inst) : string :=
  if negb (error_on (sw s)) then ("GetErrorString: ErrorOn not set." ++ nl)%string
  else if negb (err_str (sw s)) then ("GetErrorString: ErrorStringOn not set." ++ nl)%string
  else err (rp s).
Definition get_warning_string (s : inst) : string := warn (rp s).
Definition get_output_string (s : inst) : string :=
  if out_str (sw s) then out (tx s) else ("GetOutputString: OutputStringOn not set." ++ nl)%string.
Definition get_log_string (s : inst) : string :=
  if log_str (sw s) then log (tx s) else ("GetLogString: LogStringOn not set." ++ nl)%string.
Definition get_selected_string (s : inst) : string :=
  match str_on (se s) (cur (se s)) with
  | None => ("GetSelectedOutputString: SelectedOutputStringOn not set." ++ nl)%string
  | Some _ => match strings (se s) (cur (se s)) with Some t => t | None => "" end
  end.
Definition line_count (l : list string) : Z := Z.of_nat (List.length l).
(** None: access outside the vector. *)
Definition get_line (l : list string) (n : Z) : option string :=
  if (n <? 0) || (n >=? line_count l) then Some "" else nth_error l (Z.to_nat n).
Definition selected_lines (s : inst) : list string :=
  match lines (se s) (cur (se s)) with Some l => l | None => [] end.
