(** What a user expects of the summaries, apart from how web_sum.F accumulates them. *)
From Coq Require Import QArith ZArith Bool List.
From Verif Require Import Qx Clock_Model Summ_Model.
Import ListNotations.
Local Open Scope Q_scope.

(** The end-of-period code of a step: 1 for the end of a storm, 2 of a day, 4 of a month, 8 of a year and 16 of the run, where the
    end of a longer period is also the end of the shorter ones. *)
Definition coded (s : step) : Prop := In (endper s) [0; 1; 2; 3; 6; 7; 14; 15; 30; 31]%Z.

(** The step is the last of its day, month or year (storms are treated as days).  The run is never closed for the accumulators. *)
Definition closes (s : step) (p : period) : Prop :=
  match p with Storm | Day => (2 <= endper s)%Z | Month => (6 <= endper s)%Z | Year => (14 <= endper s)%Z | Run => False end.
Definition last_of_run (s : step) : Prop := (30 <= endper s)%Z.

(** [before ++ seg] is a run so far, and [seg] is its current day, month, year or whole run: it starts with the run or after a step
    that closed a period, and only its last step may close one. *)
Definition current (p : period) (before seg : list step) : Prop :=
  seg <> [] /\
  (before = [] \/ exists b l, before = b ++ [l] /\ closes l p) /\
  (forall s x y, seg = x ++ s :: y -> y <> [] -> ~ closes s p).

(** The amounts of one step, without the water balance. *)
Definition amount (s : step) (q : qty) : Q :=
  match q with
  | Rad => orad s * (4833333333333 # 10000000000000)
  | QsimS => qsim_m3s s
  | QobsS => qobs_m3s s
  | Depth Potet => potet_in s * (254 # 100)
  | Depth f => depth s f
  | Vol w => vol s w
  | Wtd w t => val s w t * vol s w
  | Mol m j => mol s m j
  | Bal | Obj _ => 0
  end.

(** Water a step brings into the hillslopes less what leaves them, with losses from channels. *)
Definition net (s : step) : Q :=
  (depth s Ppt + depth s IrrExt + depth s Gw1 + depth s Gw2) - (depth s Et + depth s Stflow + depth s Gwloss + depth s ChanLoss).
(** Water outside of the channels. *)
Definition land (s : step) : Q := sto s - chan_sto s.

(** The books of webmod_res.F between two successive steps (2555, 2572, 3241, 3252, 3265, 3449, 3455-3465): storage of the basin changes by inputs
    less outputs less evapotranspiration, where water of wells is put on the land in the step in which it is pumped, and storage of
    the channels by what hillslopes deliver less what passes the outlet. *)
Definition books (a b : step) : Prop :=
  sto b - sto a == (depth b Ppt + depth b IrrSat + depth b IrrHyd + depth b IrrExt + depth b Gw1 + depth b Gw2)
                   - (depth b Gwloss + depth b Qwell + depth b ChanLoss + depth b ChanDiv + depth b QsimCm) - depth b Et
  /\ chan_sto b - chan_sto a == depth b Stflow - depth b QsimCm
  /\ depth b Qwell == depth b IrrSat.
Fixpoint kept (a : step) (l : list step) : Prop :=
  match l with [] => True | b :: r => books a b /\ kept b r end.

(** Lines of a period in what was printed. *)
Definition lines_of (p : period) (l : list line) : list acc :=
  flat_map (fun x => match x with PeriodLine p' a => match p, p' with
    | Storm, Storm | Day, Day | Month, Month | Year, Year | Run, Run => [a] | _, _ => [] end | UnitLine _ => [] end) l.
Definition units_of (l : list line) : list step :=
  flat_map (fun x => match x with UnitLine s => [s] | _ => [] end) l.

(** The user asked for the lines of a period, and they exist for the time step. *)
Definition wanted (w : switches) (timestep : Q) (p : period) : Prop :=
  match p with
  | Storm => False
  | Day => dprt w = true /\ timestep < 24
  | Month => mprt w = true
  | Year => yprt w = true
  | Run => tprt w = true
  end.
