(** What channel routing should do. *)
From Coq Require Import QArith ZArith List Bool Arith Sorted.
From Verif Require Import Qx Route_Model.
Import ListNotations.
Local Open Scope Q_scope.

(** A channel described by distances and the fraction of its area drained within each. *)
Definition good_curve (d : list (Q * Q)) : Prop :=
  (2 <= length d)%nat /\
  Sorted (fun p q => fst p < fst q /\ snd p <= snd q) d /\
  0 <= fst (hd (0, 0) d) /\ 0 <= snd (hd (0, 0) d) /\ snd (last d (0, 0)) == 1.

(** [a] is the fraction of the area within travel time [x]: on the line between the two
    neighbouring points, and everything beyond the last one. *)
Definition area_within (pts : list (Q * Q)) (x a : Q) : Prop :=
  (fst (last pts (0, 0)) < x /\ a == 1) \/
  (exists pre p q post, pts = pre ++ p :: q :: post /\ fst p <= x <= fst q /\
     (a - snd p) * (fst q - fst p) == (snd q - snd p) * (x - fst p)).

(** A routing network: positive areas, fractions that match them, histograms that are non
    negative, add up to the channel's fraction and vanish beyond the channel's length. *)
Definition network_ok (c : channels) : Prop :=
  0 < basin_area c /\
  forall is, (1 <= is <= nchan c)%nat ->
    0 < chan_frac c is /\ chan_area c is == chan_frac c is * basin_area c /\
    (1 <= delays c is <= segs c)%nat /\
    (forall ir, 0 <= hist c ir is) /\
    (forall ir, (delays c is < ir)%nat -> hist c ir is == 0) /\
    sum_to (segs c) (fun ir => hist c ir is) == chan_frac c is.

Definition no_loss (c : channels) : Prop := forall ir, maxloss c ir <= 0.

(** Volumes, in cubic meters. *)
Definition volume (c : channels) (depth : Q) : Q := depth * basin_area c * 1000000.
Definition stored (c : channels) (q : nat -> nat -> Q) : Q :=
  volume c (sum_to (segs c) (fun ir => sum_to (nchan c) (fun is => q ir is))).
Definition entering (c : channels) (qin : nat -> Q) : Q := sum_to (nchan c) qin.
Definition diverted (c : channels) (o : step_out) : Q := sum_to (segs c) (o_divert o).

Definition wet (c : channels) (q : nat -> nat -> Q) : Prop :=
  forall ir is, (1 <= is <= nchan c)%nat -> 0 <= q ir is.
Definition rainy (c : channels) (qin : nat -> Q) : Prop :=
  forall is, (1 <= is <= nchan c)%nat -> 0 <= qin is.
Definition sane (d : demand) : Prop := 0 <= scheduled d /\ 0 <= mru_km2 d.

(** Depth still in channel [is], [ahead] segments upstream of the outlet, of the inflows [ins]
    (oldest first): what entered k steps ago has moved k segments. *)
Fixpoint response (c : channels) (is ahead : nat) (ins : list (nat -> Q)) : Q :=
  match ins with
  | [] => 0
  | x :: r => x is / chan_area c is / 1000000 * hist c (length ins + ahead) is + response c is ahead r
  end.
(** No water beyond a channel's own length. *)
Definition in_length (c : channels) (q : nat -> nat -> Q) : Prop :=
  forall is j, (1 <= is <= nchan c)%nat -> (delays c is < j)%nat -> q j is == 0.

(** The pump can deliver the scheduled depth in the step, and source and schedule numbers
    select the same depth. *)
Definition can_apply (dt : Q) (m : demand) : Prop :=
  (0 < src m)%nat -> by_source m = scheduled m /\
  scheduled m <= pump m * gpm2m3ph / mru_km2 m / 1000000 / (254 # 10000) * dt.
(** Cubic meters that the hillslopes fed by segment [ir] will receive. *)
Definition applied (ms : list demand) (next : list Q) (ir : nat) : Q :=
  qsum (map (fun p => if Nat.eqb (src (fst p)) ir then snd p * (254 # 10000) * 1000000 * mru_km2 (fst p) else 0)
    (combine ms next)).
