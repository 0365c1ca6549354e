(** The summaries of a run by day, month, year and run: web_sum.F, sumbinit 900-975 and sumbrun 1382-2400.
    REAL and DOUBLE PRECISION are exact rationals; the logarithm is an argument.  The texts of the lines are not modelled: a line is
    the period it reports and the accumulators it prints. *)
From Coq Require Import QArith ZArith Bool List.
From Verif Require Import Qx Clock_Model.
Import ListNotations.
Local Open Scope Q_scope.

(** web_sum.F 1394-1402: the five sets of accumulators; index 1 (storms) follows index 2 until storms are implemented (1520-1523). *)
Inductive period := Storm | Day | Month | Year | Run.

(** The depths summed in 1608-1674. *)
Inductive field :=
  | Potet | Et | In_ | Out | Ppt | IrrExt | IrrSat | IrrHyd | Intcp | IntcpEvap | Transp | Thruf | NetDep | NetRain | NetSnow
  | Snowmelt | Snowevap | Surfdep | Ofhort | Ofdunn | Sroff | Infil | Qdf | UzEt | Gw1 | Gw2 | Qwet | Vpref | Uz2sat | Recharge
  | Sat2uz | Qwell | Qpref | Gwloss | Gwflow | Stflow | ChanDiv | ChanLoss | QsimCm | QobsCm.

(** Waters whose temperature, pH and isotopes are averaged (1683-1708), and what is averaged. *)
Inductive flow := Outlet | Input | Output | Vapor.
Inductive trait := Temp | Ph | Permil (solute : nat).
(** Moles summed by solute (1700-1707). *)
Inductive mflow := MOutlet | MInput | MOutput | MReact.

(** Everything that a period adds up. *)
Inductive qty :=
  | Rad | QsimS | QobsS | Depth (f : field) | Bal | Obj (j : nat) | Vol (w : flow) | Wtd (w : flow) (t : trait) | Mol (m : mflow) (solute : nat).

(** What the other modules hand over at a step. *)
Record step := {
  endper : Z; orad : Q; tmaxc : Q; tminc : Q; potet_in : Q;
  depth : field -> Q; sto : Q; chan_sto : Q; qsim_m3s : Q; qobs_m3s : Q;
  vol : flow -> Q; val : flow -> trait -> Q; mol : mflow -> nat -> Q }.

Record acc := { steps : Z; tmx : Q; tmn : Q; sums : qty -> Q }.
Definition zeroed : acc := {| steps := 0; tmx := -(999 # 1); tmn := 999 # 1; sums := fun _ => 0 |}.

Record state := { nstep : Z; lastper : period -> bool; accs : period -> acc; last_sto : Q; last_chan : Q }.

(** web_sum.F 906-918.  The accumulators have no values before the first step: they are cleared by it. *)
Definition start (junk : period -> acc) : state :=
  {| nstep := 0; lastper := fun _ => true; accs := junk; last_sto := 0; last_chan := 0 |}.

(** Which periods end with a step: 1506-1534; the run's accumulators are never cleared again. *)
Definition ends (s : step) (p : period) : bool :=
  let f := decode (endper s) in
  match p with Storm | Day => f_day f | Month => f_month f | Year => f_year f | Run => false end.

(** Langleys a day to watts per square metre, web_sum.F (parameter Ld2Wm2) and 1552; inches to centimetres 1559. *)
Definition Ld2Wm2 : Q := 4833333333333 # 10000000000000.
Definition depth_of (s : step) (f : field) : Q :=
  match f with Potet => potet_in s * (254 # 100) | _ => depth s f end.

(** 1566-1572 *)
Definition balance (st : state) (s : step) : Q :=
  if (nstep st + 1 =? 1)%Z then 0
  else depth s Ppt + depth s IrrExt - depth s Et - depth s Stflow + depth s Gw1 + depth s Gw2 - depth s Gwloss - depth s ChanLoss
       + last_sto st - sto s + chan_sto s - last_chan st.

Definition qabs (a : Q) : Q := if qlt a 0 then - a else a.

(** 1581-1590 *)
Definition objective (alog : Q -> Q) (s : step) (j : nat) : Q :=
  let diffop := qobs_m3s s - qsim_m3s s in
  let diflg := alog (qobs_m3s s + 1) - alog (qsim_m3s s + 1) in
  match j with
  | 1%nat => qabs diffop | 2%nat => diffop * diffop | 3%nat => qabs diflg | 4%nat => diflg * diflg | 5%nat => diffop | _ => 0
  end.

(** What a step adds: 1595-1710. *)
Definition adds (alog : Q -> Q) (chem : bool) (st : state) (s : step) (q : qty) : Q :=
  match q with
  | Rad => orad s * Ld2Wm2
  | QsimS => qsim_m3s s
  | QobsS => qobs_m3s s
  | Depth f => depth_of s f
  | Bal => balance st s
  | Obj j => objective alog s j
  | Vol w => if chem then vol s w else 0
  | Wtd w t => if chem then val s w t * vol s w else 0
  | Mol m j => if chem then mol s m j else 0
  end.

(** One period at one step: cleared if the last step ended it (1400-1482), counted (1489-1491), added to (1594-1710). *)
Definition acc_step (alog : Q -> Q) (chem : bool) (st : state) (s : step) (p : period) : acc :=
  let a := if lastper st p then zeroed else accs st p in
  {| steps := steps a + 1;
     tmx := if qlt (tmx a) (tmaxc s) then tmaxc s else tmx a;
     tmn := if qlt (tminc s) (tmn a) then tminc s else tmn a;
     sums := fun q => sums a q + adds alog chem st s q |}.

(** sumbrun up to the printing *)
Definition run_step (alog : Q -> Q) (chem : bool) (st : state) (s : step) : state :=
  {| nstep := nstep st + 1;
     lastper := ends s;
     accs := acc_step alog chem st s;
     last_sto := sto s; last_chan := chan_sto s |}.

Definition run (alog : Q -> Q) (chem : bool) (st : state) (l : list step) : state := fold_left (run_step alog chem) l st.

(** 920-957: the switches of print_freq *)
Record switches := { uprt : bool; dprt : bool; mprt : bool; yprt : bool; tprt : bool }.
Definition decode_freq (print_freq : Z) (timestep : Q) : switches :=
  let u := (16 <=? print_freq)%Z in let p1 := if u then (print_freq - 16)%Z else print_freq in
  let d := (8 <=? p1)%Z in let p2 := if d then (p1 - 8)%Z else p1 in
  let m := (4 <=? p2)%Z in let p3 := if m then (p2 - 4)%Z else p2 in
  let y := (2 <=? p3)%Z in let p4 := if y then (p3 - 2)%Z else p3 in
  {| uprt := u || (d && qle 24 timestep); dprt := d; mprt := m; yprt := y; tprt := (p4 =? 1)%Z |}.

(** A line: the values of the step alone, or those of a period. *)
Inductive line := UnitLine (s : step) | PeriodLine (p : period) (a : acc).

(** 1735-1840 (unit), 1851-1927 (day), 1934-2079 (month), 2085-2230 (year), 2266-2400 (run).  [st'] is the state after the step. *)
Definition lines (w : switches) (timestep : Q) (st' : state) (s : step) : list line :=
  let f := decode (endper s) in
  (if uprt w then [UnitLine s] else []) ++
  (if f_day f && qlt timestep 24 && dprt w then [PeriodLine Day (accs st' Day)] else []) ++
  (if f_month f && mprt w then [PeriodLine Month (accs st' Month)] else []) ++
  (if f_year f && yprt w then [PeriodLine Year (accs st' Year)] else []) ++
  (if f_run f && tprt w then [PeriodLine Run (accs st' Run)] else []).

Fixpoint print_all (alog : Q -> Q) (chem : bool) (w : switches) (timestep : Q) (st : state) (l : list step) : list line :=
  match l with
  | [] => []
  | s :: r => let st' := run_step alog chem st s in lines w timestep st' s ++ print_all alog chem w timestep st' r
  end.

(** Averages as printed: radiation and discharge by steps (1598, 1673); temperature, pH and isotopes by volume (2018-2060), where only
    the averages of the input are replaced by "NA" when the volume is zero; the other divisions are made whatever the volume. *)
Definition mean (a : acc) (q : qty) : Q := sums a q / inject_Z (steps a).
Inductive cell := Number (x : Q) | NotAvailable | DividedByZero.
Definition weighted (a : acc) (w : flow) (t : trait) : cell :=
  if qeq (sums a (Vol w)) 0 then match w with Input => NotAvailable | _ => DividedByZero end
  else Number (sums a (Wtd w t) / sums a (Vol w)).
