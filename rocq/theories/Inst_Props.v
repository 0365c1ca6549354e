(** C24 accumulated input, C25 databases, C26 lines of captured text, C28 selected-output switches. *)
From Coq Require Import String Ascii ZArith Bool List.
From Verif Require Import SelOut_Model Inst_Model Inst_Spec Inst_Proofs.
Import ListNotations.
Local Open Scope string_scope.
Local Open Scope list_scope.
Local Open Scope Z_scope.

(** ** C24 *)
(** After any history, failed runs included, the text run is the text of the last script; "orderly"
    only leaves out calls ended by an exception that is not the engine's own stop. *)
Theorem C24_script : forall h l o, forallb orderly h = true ->
  acc (sc (runs created h)) = text_of (script_lines h) /\
  snd (step (runs created h) (RunAccumulated l o)) = if usable h false then Some (text_of (script_lines h)) else None.
Proof. intros h l o O. split; [apply script_ok; exact O|]. rewrite executed_acc, script_ok by exact O. reflexivity. Qed.
Print Assumptions C24_script.
(** After a run, completed or stopped, the next line starts a new script. *)
Theorem C24_fresh : forall h l o x, forallb orderly h = true -> ends_well o = true ->
  acc (sc (runs created (h ++ [RunAccumulated l o; Accumulate x]))) = (x ++ nl)%string.
Proof. exact fresh_ok. Qed.
Print Assumptions C24_fresh.
(** Running a string or a file, loading and clearing discard the lines, even if the call fails. *)
Theorem C24_discarded : forall h p, discards p = true -> acc (sc (stepi (runs created h) p)) = "".
Proof.
  intros h p D. unfold stepi. destruct p; try discriminate D; cbn [step].
  - reflexivity.
  - rewrite (f_sc _ _ (same_run_text (runs created h) "RunString" (Some text) l o)). reflexivity.
  - rewrite (f_sc _ _ (same_run_text (runs created h) "RunFile" text l o)). reflexivity.
  - pose proof (load_effect (runs created h) source test) as E. destruct (load_database (runs created h) source test) as [s1 r]. apply E.
Qed.
Print Assumptions C24_discarded.
Definition db : op := Load (Some ([AOut "ok"], Done)) ("SOLUTION 1", [], Done).
(** "Since the previous run" fails when no line was accumulated in between: the old script runs again. *)
Theorem C24_repeat_refuted : exists h, forallb orderly h = true /\
  snd (step (runs created (h ++ [RunAccumulated [] Done])) (RunAccumulated [] Done)) = Some ("END" ++ nl)%string.
Proof. exists [db; Accumulate "END"]. vm_compute. split; reflexivity. Qed.
(** A run ended by a foreign exception does not end the script. *)
Theorem C24_crash_refuted : exists h l x, forallb orderly h = true /\
  acc (sc (runs created (h ++ [RunAccumulated l Crash; Accumulate x]))) <> (x ++ nl)%string.
Proof. exists [db; Accumulate "END"], [], "NEW". vm_compute. split; [reflexivity | discriminate]. Qed.
Print Assumptions C24_crash_refuted.
Example C24_ex : let h := [db; Accumulate "old"; RunString "x" [] Done; Accumulate "a"; RunAccumulated [AErr "bad"] (Stop "stop"); Accumulate "b"; SetCurrent 3; Accumulate "c"] in
  forallb orderly h = true /\ script_lines h = ["b"; "c"] /\ usable h false = true.
Proof. vm_compute. repeat split. Qed.

(** ** C25 *)
(** A run reaches the engine exactly when the last load read its database without an error. *)
Theorem C25_executed : forall h l o t f,
  (snd (step (runs created h) (RunAccumulated l o)) <> None <-> usable h false = true) /\
  snd (step (runs created h) (RunString t l o)) = (if usable h false then Some t else None) /\
  snd (step (runs created h) (RunFile f l o)) = (if usable h false then f else None).
Proof.
  intros h l o t f. rewrite executed_acc, executed_string, executed_file. split; [|split; reflexivity].
  destruct (usable h false); split; congruence.
Qed.
Print Assumptions C25_executed.
(** A refused run returns 1, leaves no selected output and no lines, and the only text is its error. *)
Theorem C25_refused : forall h p r, run_op p = Some r -> usable h false = false ->
  let s := runs created h in
  let s' := stepi s p in
  let msg := ("ERROR: " ++ (r ++ ": No database is loaded") ++ nl)%string in
  snd (fst (step s p)) = RInt 1 /\
  (forall n, tables (se s') n = None /\ strings (se s') n = None /\ lines (se s') n = None) /\
  out_lines (tx s') = [] /\ log_lines (tx s') = [] /\
  out (tx s') = (if out_str (sw s) then msg else "") /\
  log (tx s') = (if log_str (sw s) then msg else "") /\
  err (rp s') = (if err_str (sw s) && error_on (sw s) then msg else "").
Proof. exact refused. Qed.
Print Assumptions C25_refused.
(** Loading returns 0 exactly when reading and the test run report no error, and leaves the file
    switches as they were in every orderly case. *)
Theorem C25_load : forall h src test, orderly (Load src test) = true ->
  exists n, snd (load_database (runs created h) src test) = RInt n /\ ((n =? 0) = read_well src && test_well test) /\
  let s := runs created h in let s' := fst (load_database s src test) in
  out_file (sw s') = out_file (sw s) /\ log_file (sw s') = log_file (sw s) /\ err_file (sw s') = err_file (sw s).
Proof. intros h. exact (load_returns (runs created h)). Qed.
Print Assumptions C25_load.
(** After a load whose test run failed - the load returns an error - runs are still executed. *)
Theorem C25_failed_load_refuted : exists h src test n l o t,
  snd (load_database (runs created h) src test) = RInt n /\ n <> 0 /\
  snd (step (runs created (h ++ [Load src test])) (RunString t l o)) = Some t.
Proof.
  exists [], (Some ([], Done)), ("SOLUTION 1", [AErr "no such species"], Done), 1, [], Done, "END".
  vm_compute. repeat split. discriminate.
Qed.
(** A foreign exception during loading leaves the file switches off. *)
Theorem C25_switches_refuted : exists h src test,
  out_file (sw (runs created h)) = true /\ out_file (sw (stepi (runs created h) (Load src test))) = false.
Proof. exists [SetOutputFileOn true], (Some ([], Crash)), ("", [], Done). vm_compute. split; reflexivity. Qed.
Print Assumptions C25_switches_refuted.
Example C25_ex : usable [db; Load None ("", [], Done)] false = false /\ usable [Load None ("", [], Done); db; SetCurrent 2] false = true /\
  orderly (Load (Some ([AErr "x"], Stop "y")) ("", [], Done)) = true.
Proof. vm_compute. repeat split. Qed.

(** ** C26 *)
(** Splitting gives the lines of the text and no other list of lines does. *)
Theorem C26_split : forall t, lines_of t (getlines t) /\ (forall ls, lines_of t ls -> ls = getlines t).
Proof. intros t. split; [apply getlines_ok|]. intros ls L. apply (lines_unique t); [exact L | apply getlines_ok]. Qed.
Print Assumptions C26_split.
Theorem C26_line : forall l n, get_line l n = Some (if (0 <=? n) && (n <? line_count l) then nth (Z.to_nat n) l "" else "").
Proof. exact get_line_ok. Qed.
Print Assumptions C26_line.
(** After any run, completed, stopped or refused, the error and warning lines are those of the text. *)
Theorem C26_errors : forall h p r, run_op p = Some r -> orderly p = true -> let s := stepi (runs created h) p in
  lines_of (err (rp s)) (err_lines (rp s)) /\ lines_of (get_warning_string s) (warn_lines (rp s)) /\
  (err_str (sw s) = true -> error_on (sw s) = true -> get_error_string s = err (rp s)).
Proof.
  intros h p r R O. cbv zeta. destruct (error_lines_ok (runs created h) p r R O) as [A B]. cbv zeta in A, B. rewrite A, B. split; [apply getlines_ok|]. split; [apply getlines_ok|].
  unfold get_error_string. intros -> ->. reflexivity.
Qed.
Print Assumptions C26_errors.
(** After a completed run the output, log and selected-output lines are those of the texts. *)
Theorem C26_output : forall h p, completed p = true -> usable h false = true -> let s := stepi (runs created h) p in
  (out_str (sw s) = true -> lines_of (get_output_string s) (out_lines (tx s))) /\
  (log_str (sw s) = true -> lines_of (get_log_string s) (log_lines (tx s))) /\
  (str_on (se s) (cur (se s)) = Some true -> In (cur (se s)) (defs (se s)) -> lines_of (get_selected_string s) (selected_lines s)).
Proof.
  intros h p C U. cbv zeta. destruct (output_lines_ok h p C U) as (A1 & A2 & A3). cbv zeta in A1, A2, A3. split; [|split].
  - intros X. rewrite (A1 X). apply getlines_ok.
  - intros X. rewrite (A2 X). apply getlines_ok.
  - intros X I. rewrite (A3 X I). apply getlines_ok.
Qed.
Print Assumptions C26_output.
(** A stopped run has output text but no output lines. *)
Theorem C26_stopped_refuted : exists h p, orderly p = true /\ run_op p <> None /\ let s := stepi (runs created h) p in
  get_output_string s <> "" /\ line_count (out_lines (tx s)) = 0.
Proof. exists [db; SetOutputStringOn true], (RunString "x" [AOut "text"] (Stop "bad")). vm_compute. repeat split; discriminate. Qed.
(** A failed load has an error text but no error lines. *)
Theorem C26_load_refuted : exists h, let s := runs created h in get_error_string s <> "" /\ line_count (err_lines (rp s)) = 0.
Proof. exists [Load None ("", [], Done)]. vm_compute. split; [discriminate | reflexivity]. Qed.
(** Accumulating a line, or reading a cell, empties the error text but keeps the lines. *)
Theorem C26_stale_refuted : exists h p, let s := stepi (runs created h) p in get_error_string s = "" /\ line_count (err_lines (rp s)) = 1.
Proof. exists [RunString "x" [] Done], (Accumulate "y"). vm_compute. split; reflexivity. Qed.
Print Assumptions C26_stale_refuted.
Example C26_ex : let h := [db; SetOutputStringOn true; SetSelectedStringOn true; RunString "x" [ASim [1]; AOut ("a" ++ nl ++ nl ++ "b"); APunch 1 ("p" ++ nl)] Done] in
  out_lines (tx (runs created h)) = ["a"; ""; "b"] /\ selected_lines (runs created h) = ["p"].
Proof. vm_compute. split; reflexivity. Qed.

(** ** C28 *)
(** The file switch of a user number is the one last set while that number was current. *)
Theorem C28_file : forall h n, get_sel_out_file_on (runs created h) n = file_switch h 1 false n.
Proof. exact file_switch_ok. Qed.
Print Assumptions C28_file.
(** The string switch is right for the current number only; what is missing is every other number. *)
Theorem C28_string_partial : forall h n, n = current h 1 -> get_sel_out_string_on (runs created h) n = string_switch h 1 false n.
Proof. intros h n ->. apply string_switch_ok. Qed.
Print Assumptions C28_string_partial.
(** For any number the answer is the switch of the current number. *)
Theorem C28_string_current : forall h n, get_sel_out_string_on (runs created h) n = string_switch h 1 false (current h 1).
Proof. exact string_switch_ok. Qed.
Print Assumptions C28_string_current.
(** So output switched on for number 2 is lost when number 1 is current. *)
Theorem C28_string_refuted : exists h n m, string_switch h 1 false n = true /\ get_sel_out_string_on (runs created h) n = false /\
  strings (se (stepi (runs created h) (RunString "x" [ASim [n]; APunch n m] Done))) n = Some "" /\ m <> "".
Proof. exists [db; SetCurrent 2; SetSelectedStringOn true; SetCurrent 1], 2, "7.0". vm_compute. repeat split. discriminate. Qed.
Print Assumptions C28_string_refuted.
Example C28_ex : let h := [db; SetCurrent 2; SetSelectedFileOn true; SetCurrent (-4); SetCurrent 1; SetSelectedFileOn false] in
  file_switch h 1 false 2 = true /\ file_switch h 1 false 1 = false /\ current h 1 = 1.
Proof. vm_compute. repeat split. Qed.
Print Assumptions C24_repeat_refuted.
Print Assumptions C25_failed_load_refuted.
Print Assumptions C26_stopped_refuted.
Print Assumptions C26_load_refuted.
