(** C36 (module sequencing) and C20 (life of a run). *)
From Coq Require Import ZArith Bool List String Ascii Lia.
From Coq Require Import ZifyBool.
From Verif Require Import Run_Model Run_Spec Run_Proofs.
Import ListNotations.
Local Open Scope string_scope.
Local Open Scope list_scope.
Local Open Scope Z_scope.

(** C36: in the initialize, run and cleanup phases the modules are called in the published order
    until the first failure, which is the result; for any modules and any earlier history. *)
Theorem C36_phase : forall behave mode model arg h,
  arg <> "declare" -> model <> 99 ->
  let '(m, h', ret) := call_modules behave mode model arg h in m = model /\ followed behave h (phase arg) h' ret.
Proof. exact call_follows. Qed.
Print Assumptions C36_phase.

(** The declare phase of a known mode does the same and remembers the mode. *)
Theorem C36_declare : forall behave mode model h,
  known_mode mode ->
  let '(m, h', ret) := call_modules behave mode model "declare" h in
  In m [1; 2; 3; 4] /\ followed behave h (phase "declare") h' ret.
Proof. exact declare_follows. Qed.
Print Assumptions C36_declare.
Theorem C36_each_once : forall arg, NoDup (phase arg).
Proof. exact phase_nodup. Qed.
Print Assumptions C36_each_once.
(** Names: mode prefixes decide; a mode is unknown exactly if it has none of the five prefixes and
    is not at least nine blanks; nothing is declared then. *)
Theorem C36_modes : forall s,
  (prefix "DAILY" s = true -> model_of s = 1) /\ (prefix "STORM" s = true -> model_of s = 2) /\
  (prefix "TRENT" s = true -> model_of s = 3) /\ (prefix "CFGI" s = true -> model_of s = 4) /\
  (prefix "_name" s = true -> model_of s = 99) /\
  (model_of s = -1 <-> ~ known_mode s /\ prefix "_name" s = false /\
     ~ ((9 <= String.length s)%nat /\ forall i, (i < 9)%nat -> get i s = Some " "%char)).
Proof. exact modes. Qed.
Print Assumptions C36_modes.
Theorem C36_unknown_declares_nothing : forall behave mode model h,
  model_of mode = -1 ->
  call_modules behave mode model "declare" h = (-1, h, 0).
Proof. exact unknown_declares_nothing. Qed.
Print Assumptions C36_unknown_declares_nothing.
(** The mode that only writes name files calls every module's declare whatever they return and
    refuses every other phase. *)
Theorem C36_name_mode : forall behave mode h,
  prefix "_name" mode = true ->
  (forall model, call_modules behave mode model "declare" h = (99, h ++ phase "declare", 0)) /\
  (forall arg, arg <> "declare" -> call_modules behave mode 99 arg h = (99, h, 1)).
Proof. exact name_mode. Qed.
Print Assumptions C36_name_mode.
(** Refuted: an unknown mode is not refused.  The declare phase reports success, and the run then
    initializes and runs all modules, none of which was declared. *)
Theorem C36_unknown_mode_refuted :
  exists mode, model_of mode = -1 /\
  forall behave, (forall h, behave h = 0) -> forall recs, prepared recs = true ->
    main_run behave mode true recs = (life (accepted recs) ++ phase "cleanup", true, 1).
Proof. exact unknown_runs. Qed.
Print Assumptions C36_unknown_mode_refuted.
(** Refuted: an empty mode is meant to be DAILY; it is NUL padded and so unknown. *)
Theorem C36_empty_mode_refuted : model_of "" = -1 /\ model_of "         " = 1.
Proof. split; reflexivity. Qed.
Print Assumptions C36_empty_mode_refuted.
(** Refuted: whatever precipitation module is configured, precip_web is the one called, and the
    climate distribution stays 1; an invalid name is kept although a reset is announced. *)
Theorem C36_precip_refuted :
  (forall cfg, climate_dist_of cfg = 1) /\
  (forall cfg, prefix "xyz_dist_web" cfg = true -> starts (precip_of cfg) "precip_web" = true) /\
  (forall arg, In (arg, "precip_web") (phase arg) /\ ~ In (arg, "xyz_dist_web") (phase arg)) /\
  starts (precip_of "ide_dist") "ide_dist" = true.
Proof. exact precip_choice. Qed.
Print Assumptions C36_precip_refuted.

(** C20: initialize, one run per accepted record, and cleanup, in this order, until the first
    failure of a module or of the preparation of a record; success exactly if there was none. *)
Theorem C20_life : forall behave mode model recs h, model <> 99 ->
  let '(h', ok) := batch_run behave mode model true recs h in
  exists ret, followed behave h (life (accepted recs) ++ (if prepared recs then phase "cleanup" else [])) h' ret /\
    (ok = true <-> ret = 0 /\ prepared recs = true).
Proof. exact batch_follows. Qed.
Print Assumptions C20_life.
(** When the run succeeds the calls are exactly these, so initialize and cleanup of every module
    occur once and run once per record. *)
Theorem C20_success : forall behave mode model recs h h', model <> 99 ->
  batch_run behave mode model true recs h = (h', true) ->
  h' = h ++ phase "initialize" ++ List.concat (repeat (phase "run") (accepted recs)) ++ phase "cleanup".
Proof. exact batch_success. Qed.
Print Assumptions C20_success.
Theorem C20_counts : forall n m, In m published ->
  count_occ call_dec (life n ++ phase "cleanup") ("initialize", m) = 1%nat /\
  count_occ call_dec (life n ++ phase "cleanup") ("run", m) = n /\
  count_occ call_dec (life n ++ phase "cleanup") ("cleanup", m) = 1%nat.
Proof. exact life_counts. Qed.
Print Assumptions C20_counts.
Theorem C20_no_preparation : forall behave mode model recs h,
  batch_run behave mode model false recs h = (h, false).
Proof. reflexivity. Qed.
Print Assumptions C20_no_preparation.
(** The records that count: the longest prefix of records read without an error and prepared. *)
Theorem C20_accepted : forall recs,
  (accepted recs <= List.length recs)%nat /\
  (forall i, (i < accepted recs)%nat -> nth_error recs i = Some (0, true)) /\
  nth_error recs (accepted recs) <> Some (0, true).
Proof. exact accepted_spec. Qed.
Print Assumptions C20_accepted.
(** Refuted: a failing declare phase does not prevent the later phases. *)
Theorem C20_declare_failure_refuted :
  exists behave, snd (call_modules behave "DAILY" 0 "declare" []) = 7 /\
    main_run behave "DAILY" true [(0, true)] = ([("declare", "io")] ++ life 1 ++ phase "cleanup", true, 1).
Proof. exact declare_failure. Qed.
Print Assumptions C20_declare_failure_refuted.
(** Refuted: a data error (a record that goes back in time: code 100) ends the run as success. *)
Theorem C20_data_error_refuted : forall behave, (forall h, behave h = 0) ->
  batch_run behave "DAILY" 1 true [(0, true); (100, true); (0, true)] [] = (life 1 ++ phase "cleanup", true).
Proof. exact data_error. Qed.
Print Assumptions C20_data_error_refuted.
(** Refuted: the exit status does not tell success from failure. *)
Theorem C20_exit_status_refuted : forall behave mode pre recs, snd (main_run behave mode pre recs) = 1.
Proof. exact exit_status. Qed.
Print Assumptions C20_exit_status_refuted.

(** Non-vacuity: irrig_web fails in the second run phase. *)
Definition b1 (h : history) : Z :=
  match rev h with
  | ("run", "irrig_web") :: _ => if (24 <? List.length h)%nat && (40 <? List.length h)%nat then 5 else 0
  | _ => 0 end.
Example C20_ex : batch_run b1 "DAILY" 1 true [(0, true); (0, true); (0, true); (2, true)] []
  = (phase "initialize" ++ phase "run" ++ firstn 8 (phase "run"), false) /\ accepted [(0, true); (0, true); (0, true); (2, true)] = 3%nat.
Proof. vm_compute. split; reflexivity. Qed.
Example C36_ex : known_mode "DAILY" /\ call_modules b1 "DAILY" 0 "declare" [] = (1, phase "declare", 0)
  /\ model_of "GSFLOW" = -1.
Proof. split; [exists "DAILY"; split; [left; reflexivity | reflexivity] | vm_compute; split; reflexivity]. Qed.
