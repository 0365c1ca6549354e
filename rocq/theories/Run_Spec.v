(** What the life of a run should be. *)
From Coq Require Import ZArith Bool List String Ascii.
From Verif Require Import Run_Model.
Import ListNotations.
Local Open Scope string_scope.
Local Open Scope list_scope.
Local Open Scope Z_scope.

(** The published order of the process modules. *)
Definition published : list string :=
  ["io"; "soltab_prms"; "basin_topg"; "obs_chem"; "obs_webmod"; "temp_1sta_prms"; "precip_web";
   "irrig_web"; "ccsolrad_web"; "potet_hamon_prms"; "intcp_prms"; "nwsmelt_topg"; "topmod_chem";
   "top2clark"; "route_clark"; "webmod_res"; "phreeq_mms"; "web_sum"].
Definition phase (arg : string) : history := map (fun m => (arg, m)) published.

(** [plan] after [h] is followed until the first failure: [got] is the whole history and [ret] the
    failure (0: none). *)
Definition followed (behave : history -> Z) (h plan got : history) (ret : Z) : Prop :=
  exists k, got = h ++ firstn k plan /\ (k <= List.length plan)%nat /\
    (forall i, (1 <= i < k)%nat -> behave (h ++ firstn i plan) = 0) /\
    ((ret = 0 /\ k = List.length plan /\ ((0 < k)%nat -> behave got = 0)) \/
     (ret <> 0 /\ (0 < k)%nat /\ behave got = ret)).

(** Number of leading accepted records. *)
Fixpoint accepted (recs : list (Z * bool)) : nat :=
  match recs with (c, p) :: r => if (c =? 0) && p then S (accepted r) else O | [] => O end.
(** Every accepted record is prepared. *)
Fixpoint prepared (recs : list (Z * bool)) : bool :=
  match recs with (c, p) :: r => if c =? 0 then p && prepared r else true | [] => true end.
Definition life (n : nat) : history :=
  phase "initialize" ++ List.concat (repeat (phase "run") n).
Definition known_mode (s : string) : Prop :=
  exists p, In p ["DAILY"; "STORM"; "TRENT"; "CFGI"] /\ prefix p s = true.
Definition call_dec (a b : call) : {a = b} + {a <> b}.
Proof. destruct a as [a1 a2], b as [b1 b2]. destruct (string_dec a1 b1), (string_dec a2 b2); [left; congruence | right; congruence ..]. Defined.
