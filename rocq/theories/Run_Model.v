(** The life of a run: webmod.d/src/call_modules_webmod.F call_modules 19-262,
    mmf_c/src/control_var.c control_string_ 111-121, mmf_c/src/batch_run.c BATCH_run 84-150 with
    the error returns of mmf_c/src/batch_run_functions.c, and the end of main in mmf_c/src/mmf.c
    149-203.  A module is any function of everything that was called before; the trace lists the
    calls.  Not modelled: printing, files, declaration of the control variables module_names etc.
    (mmf_c/src/call_modules.c 26-55), print mode. *)
From Coq Require Import ZArith Bool List String Ascii.
Import ListNotations.
Local Open Scope string_scope.
Local Open Scope list_scope.
Local Open Scope Z_scope.

(** control_string_ 111-121: strncpy fills the Fortran string with NUL characters. *)
Fixpoint fstring (len : nat) (s : string) : list ascii :=
  match len, s with
  | O, _ => []
  | S k, EmptyString => "000"%char :: fstring k EmptyString
  | S k, String c r => c :: fstring k r
  end.
(** Fortran a(:n).EQ.'literal' with a literal of length n, and a.EQ.' ' (blank padding). *)
Definition starts (s : list ascii) (lit : string) : bool :=
  String.eqb (string_of_list_ascii (firstn (String.length lit) s)) lit.
Definition blank (s : list ascii) : bool := forallb (fun c => Ascii.eqb c " "%char) s.

(** call_modules 71-86: the mode; CHARACTER(9) Model_mode. *)
Definition model_of (mode : string) : Z :=
  let m := fstring 9 mode in
  if starts m "DAILY" || blank m then 1
  else if starts m "STORM" then 2
  else if starts m "TRENT" then 3
  else if starts m "CFGI" then 4
  else if starts m "_name" then 99
  else -1.

(** 89-99: CHARACTER(32) Precip_module after the control variable has been read; 88 and 100 give
    Climate_dist.  101-107 (Temp_module) do not change it further, as it never starts with
    xyz_dist_web here.  Neither value is read again in this file. *)
Definition precip_of (cfg : string) : list ascii :=
  let m := fstring 32 cfg in
  if negb (starts m "precip_web") && negb (starts m "xyz_dist_web") then m
  else list_ascii_of_string "precip_web" ++ repeat " "%char 22.
Definition climate_dist_of (cfg : string) : Z := if starts (precip_of cfg) "xyz_dist_web" then 2 else 1.

(** 141-247, in calling order. *)
Definition order : list string :=
  ["io"; "soltab_prms"; "basin_topg"; "obs_chem"; "obs_webmod"; "temp_1sta_prms"; "precip_web";
   "irrig_web"; "ccsolrad_web"; "potet_hamon_prms"; "intcp_prms"; "nwsmelt_topg"; "topmod_chem";
   "top2clark"; "route_clark"; "webmod_res"; "phreeq_mms"; "web_sum"].

(** A call: phase and module.  [history] is oldest first. *)
Definition call := (string * string)%type.
Definition history := list call.

Section Modules.
(** What the module called last returns, given all calls so far including it. *)
Variable behave : history -> Z.

(** 141-249. *)
Fixpoint sequence (arg : string) (ms : list string) (h : history) : history * Z :=
  match ms with
  | [] => (h, 0)
  | m :: r => let h' := h ++ [(arg, m)] in
              let ret := behave h' in
              if negb (ret =? 0) then (h', ret) else sequence arg r h'
  end.
(** 115-134: results are ignored. *)
Definition sequence_all (arg : string) (ms : list string) (h : history) : history :=
  h ++ map (fun m => (arg, m)) ms.

(** call_modules: [model] is the saved variable Model, which declare sets from the control
    variable model_mode (precip_module only sets [precip_of] and [climate_dist_of], which
    nothing reads, so it is not an argument).  Returns Model, the calls and the result; 84-85
    keep the result of declmodule, which is 0 (mmf_c/src/decldim.c 252-263). *)
Definition call_modules (mode : string) (model : Z) (arg : string) (h : history) : Z * history * Z :=
  let declare := String.eqb arg "declare" in
  let model' := if declare then model_of mode else model in
  if declare && (model' =? -1) then (model', h, 0)
  else if model' =? 99 then
    if declare then (model', sequence_all arg order h, 0) else (model', h, 1)
  else let '(h', ret) := sequence arg order h in (model', h', ret).

(** BATCH_run 111-132.  [recs]: what read_line returns on each call (0: a record), end of file
    (2) when the list is finished; [pre]: whether single_run_pre_run succeeds on each record. *)
Fixpoint run_loop (mode : string) (model : Z) (recs : list (Z * bool)) (h : history) : history * bool :=
  match recs with
  | [] => (h, true)
  | (code, pre) :: r =>
      if code =? 0 then
        if pre then
          let '(_, h', ret) := call_modules mode model "run" h in
          if negb (ret =? 0) then (h', false) else run_loop mode model r h'
        else (h, false)
      else (h, true)
  end.
(** BATCH_run 84-150; the second component tells whether it got to single_run_post_cleanup. *)
Definition batch_run (mode : string) (model : Z) (pre_init : bool) (recs : list (Z * bool)) (h : history)
  : history * bool :=
  if negb pre_init then (h, false)
  else
    let '(_, h1, ret) := call_modules mode model "initialize" h in
    if negb (ret =? 0) then (h1, false)
    else
      let '(h2, ok) := run_loop mode model recs h1 in
      if negb ok then (h2, false)
      else
        let '(_, h3, ret3) := call_modules mode model "cleanup" h2 in
        if negb (ret3 =? 0) then (h3, false) else (h3, true).
(** main, mmf.c 149-202: the result of declare is only printed; the exit status is always 1. *)
Definition main_run (mode : string) (pre_init : bool) (recs : list (Z * bool)) : history * bool * Z :=
  let '(model, h, _) := call_modules mode 0 "declare" [] in
  let '(h', ok) := batch_run mode model pre_init recs h in (h', ok, 1).
End Modules.
