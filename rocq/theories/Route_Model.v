(** Channel routing: webmod.d/src/top2clark.F top2cinit 142-220 and top2crun 227-265,
    webmod.d/src/route_clark.F routecinit 433-752 (histogram 586-628, initial water 642-662,
    AR_FILL 725-732) and routecrun 759-1065 (diversions 862-899, segments 909-982, outflow and
    shift 984-1016).
    REAL and DOUBLE PRECISION are exact rationals, arrays are functions of a 1-based index and
    loops over all elements of an array are written as the function of the element they compute.
    Division by zero is 0 (the theorems that divide assume positive areas).  Not modelled: getparam
    and getvar calls, printing, the objective functions 1027-1032, unit conversions of outputs. *)
From Coq Require Import QArith Qabs Qround ZArith List Bool Arith.
From Verif Require Import Qx.
Import ListNotations.
Local Open Scope Q_scope.

Definition a_million : Q := 1000000.                                 (* route_clark.F 52 *)
Definition inch2m : Q := 254 # 10000.                                (* route_clark.F 50 *)
Definition gpm2m3ph : Q := 227125 # 1000000.                         (* route_clark.F 51 *)

(** f(1) + ... + f(n): a DO loop that accumulates. *)
Fixpoint sum_to (n : nat) (f : nat -> Q) : Q :=
  match n with O => 0 | S k => sum_to k f + f (S k) end.

(** A(i) = v. *)
Definition set (f : nat -> Q) (i : nat) (v : Q) : nat -> Q := fun j => if Nat.eqb j i then v else f j.

(** top2clark.F 248-260 and 188-199: DO i = 1, nmru; A(mru2chan(i)) = A(mru2chan(i)) + x(i). *)
Fixpoint gather (n : nat) (chan : nat -> nat) (x : nat -> Q) : nat -> Q :=
  match n with
  | O => fun _ => 0
  | S k => let f := gather k chan x in set f (chan (S k)) (f (chan (S k)) + x (S k))
  end.
(** top2crun: QCHANIN, 248-260. *)
Definition qchanin (nmru : nat) (chan : nat -> nat) (qout area : nat -> Q) : nat -> Q :=
  gather nmru chan (fun i => qout i * area i * a_million).
(** top2cinit: CHAN_AREA, CHAN_AREA_FRAC and the check, 188-205; [None] is a refused run. *)
Definition chan_areas (nmru : nat) (chan : nat -> nat) (area frac : nat -> Q)
  : option ((nat -> Q) * (nat -> Q)) :=
  if qlt (1 # 10000) (Qabs (sum_to nmru frac - 1)) then None
  else Some (gather nmru chan area, gather nmru chan frac).

(** Time-area curve of a channel, 588-591: (TCH, ACH) from (D, ACH). *)
Definition travel (chvdt : Q) (d : list (Q * Q)) : list (Q * Q) :=
  match d with
  | [] => []
  | (d1, a1) :: r => (d1 / chvdt, a1) ::
                     map (fun p => (d1 / chvdt + (fst p - d1) / chvdt, snd p)) r
  end.
(** DO 21, 603-609: [None] when no J satisfies the test and AR stays undefined. *)
Fixpoint interpolate (prev : Q * Q) (rest : list (Q * Q)) (time : Q) : option Q :=
  match rest with
  | [] => None
  | (t, a) :: r =>
      if qle time t then Some (snd prev + (a - snd prev) * (time - fst prev) / (t - fst prev))
      else interpolate (t, a) r time
  end.
Definition last_time (tch : list (Q * Q)) : Q := fst (last tch (0, 0)).
(** 600-610: cumulated area drained at TIME. *)
Definition drained (tch : list (Q * Q)) (time : Z) : option Q :=
  if qlt (last_time tch) (inject_Z time) then Some 1
  else match tch with [] => None | p :: r => interpolate p r (inject_Z time) end.
(** 594-597. *)
Definition n_delay (tch : list (Q * Q)) : Z := match tch with [] => 0%Z | p :: _ => trunc (fst p) end.
Definition n_total (tch : list (Q * Q)) : Z :=
  let nr := trunc (last_time tch) in if qlt (inject_Z nr) (last_time tch) then (nr + 1)%Z else nr.
(** DO 20, 598-611: AR(1..NR) before differencing. *)
Fixpoint cumulated (tch : list (Q * Q)) (time : Z) (n : nat) : option (list Q) :=
  match n with
  | O => Some []
  | S k => match drained tch (time + 1), cumulated tch (time + 1) k with
           | Some a, Some l => Some (a :: l)
           | _, _ => None
           end
  end.
(** 616-627: successive differences times the area fraction. *)
Fixpoint differences (frac a1 : Q) (l : list Q) : list Q :=
  match l with [] => [] | a2 :: r => (a2 - a1) * frac :: differences frac a2 r end.
Definition ordinates (chvdt frac : Q) (d : list (Q * Q)) : option (list Q) :=
  let tch := travel chvdt d in
  match cumulated tch (n_delay tch) (Z.to_nat (n_total tch - n_delay tch)) with
  | Some (a :: r) => Some (a * frac :: differences frac a r)
  | _ => None                          (* NR = 0: AR(1) is used undefined, 616-618 *)
  end.
(** 725-732: AR_FILL. *)
Definition ar_fill (nd : nat) (ar : list Q) (i : nat) : Q :=
  if Nat.ltb nd i && Nat.leb i (length ar + nd) then nth (i - nd - 1) ar 0 else 0.

(** One MRU's internal irrigation from the stream. *)
Record demand := { src : nat; scheduled : Q; by_source : Q; mru_km2 : Q; pump : Q }.
(** 874-892: inches to be applied by this MRU on the next step.  [scheduled] is
    irrig_int_next(irrsched); [by_source] is irrig_int_next(irrsrc), which 882 uses. *)
Definition next_depth (dt : Q) (m : demand) : Q :=
  let dep_max := pump m * gpm2m3ph / mru_km2 m / 1000000 / inch2m * dt in
  if Nat.ltb 0 (src m) then if qle (scheduled m) dep_max then by_source m else dep_max else 0.
(** 893-896: cubic meters asked from the segment. *)
Definition request (ms : list demand) (ir : nat) : Q :=
  qsum (map (fun m => if Nat.ltb 0 (src m) && Nat.eqb (src m) ir
                      then scheduled m * inch2m * a_million * mru_km2 m else 0) ms).

(** Initial water of one channel, 642-660, and of the first diversion, 689-696 ([extra]: the
    depth added to segment [fst extra] of this channel). *)
Definition init_q (q0dt frac : Q) (nd : nat) (ar : list Q) (extra : list (nat * Q)) (i : nat) : Q :=
  (if Nat.leb 1 i && Nat.leb i nd then q0dt * frac
   else if Nat.leb 1 i && Nat.leb i (nd + length ar)
        then q0dt * (frac - qsum (firstn (i - nd - 1) ar)) else 0)
  + qsum (map (fun e => if Nat.eqb (fst e) i then snd e else 0) extra).

Record channels := {
  nchan : nat; segs : nat;
  delays : nat -> nat;                 (* NR + ND of each channel *)
  hist : nat -> nat -> Q;              (* AR_FILL(ir, is) *)
  chan_area : nat -> Q; chan_frac : nat -> Q; basin_area : Q;
  maxloss : nat -> Q }.

(** Loop 40, 918-927, before the running sum. *)
Definition fill_seg (c : channels) (qin : nat -> Q) (q : nat -> nat -> Q) (ir is : nat) : Q :=
  q ir is + qin is / chan_area c is / a_million * hist c ir is.
(** 931-941. *)
Definition leak (c : channels) (avail : Q) (ir : nat) : Q :=
  if qlt 0 (maxloss c ir) then if qlt (maxloss c ir) avail then maxloss c ir else avail else 0.

Record seg_out := { s_loss : Q; s_divert : Q; s_reduce : Q; s_keep : Q }.
(** 911-977: loss (depth), diversion (cubic meters), reduction of the MRUs' demand, and the
    factor 1 - FRAC_DIVERT. *)
Definition segment (c : channels) (qin : nat -> Q) (q : nat -> nat -> Q) (want : nat -> Q) (ir : nat)
  : seg_out :=
  let total := sum_to (nchan c) (fill_seg c qin q ir) in
  let loss := leak c total ir in
  let avail := (total - loss) * basin_area c * a_million in
  let short := qlt avail (want ir) in
  let got := if short then avail else want ir in
  {| s_loss := loss; s_divert := got;
     s_reduce := if short then avail / want ir else 1;
     s_keep := 1 - (if qlt 0 avail then got / avail else 0) |}.

(** 984-1002: outflow of each channel and the shift. *)
Definition shift (n : nat) (q : nat -> Q) (j : nat) : Q :=
  let k := if Nat.ltb 1 n then n else 1%nat in            (* the last K, 995-1001 *)
  if Nat.eqb j k then 0 else if Nat.ltb j k then q (S j) else q j.

Record step_out := {
  o_q : nat -> nat -> Q;               (* Q after the step *)
  o_out : Q;                           (* depth leaving the basin: QBASINM, 1013-1023 *)
  o_loss : Q;                          (* CHAN_LOSS_BASIN *)
  o_divert : nat -> Q;                 (* IRRIG_HYD_SEG_NEXT *)
  o_next : list Q }.                   (* IRRIG_HYD_NEXT *)

Definition route_step (c : channels) (dt : Q) (ms : list demand) (qin : nat -> Q) (q : nat -> nat -> Q)
  : step_out :=
  let so := segment c qin q (request ms) in
  let q1 ir is := if Nat.leb 1 ir && Nat.leb ir (segs c)
                  then fill_seg c qin q ir is * s_keep (so ir) else q ir is in
  {| o_q := fun ir is => shift (delays c is) (fun j => q1 j is) ir;
     o_out := sum_to (nchan c) (fun is => q1 1%nat is / chan_frac c is * chan_area c is) / basin_area c;
     o_loss := sum_to (segs c) (fun ir => s_loss (so ir));
     o_divert := fun ir => s_divert (so ir);
     o_next := map (fun m => if Nat.ltb 0 (src m) && Nat.leb (src m) (segs c)
                             then s_reduce (so (src m)) * next_depth dt m else next_depth dt m) ms |}.

(** Successive steps; the list gives demands and inflows of each step. *)
Fixpoint route_run (c : channels) (dt : Q) (ins : list (list demand * (nat -> Q))) (q : nat -> nat -> Q)
  : (nat -> nat -> Q) * list step_out :=
  match ins with
  | [] => (q, [])
  | (ms, qin) :: r => let o := route_step c dt ms qin q in
                      let '(q', os) := route_run c dt r (o_q o) in (q', o :: os)
  end.
