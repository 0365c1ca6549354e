(** What the numbering is about. *)
From Coq Require Import QArith ZArith List Bool.
From Verif Require Import Soln_Model.
Import ListNotations.
Local Open Scope Z_scope.

(** Things that carry water of known composition.  [time] is 0 at the start of the step, 1 at its
    end.  Reservoir types: 1 canopy, 2 snow, 3 impermeable, 4 O horizon, 7 .. 14 below the
    unsaturated zone. *)
Inductive water :=
| Pure
| Source (chem : Z)
| Reservoir (time type mru : Z)
| Unsat (time mru bin : Z)
| Segment (time seg : Z).

Record basin := { b_chem : Z; b_mru : Z; b_bin : Z; b_seg : Z }.
Definition basin_ok (b : basin) : Prop :=
  0 <= b_chem b < 999000 /\ 1 <= b_mru b <= 999 /\ 1 <= b_bin b <= 99 /\ 0 <= b_seg b < 100000000.

Definition in_basin (b : basin) (w : water) : Prop :=
  match w with
  | Pure => True
  | Source c => 1 <= c <= b_chem b
  | Reservoir t r m => 0 <= t <= 1 /\ (1 <= r <= 4 \/ 7 <= r <= 14) /\ 1 <= m <= b_mru b
  | Unsat t m n => 0 <= t <= 1 /\ 1 <= m <= b_mru b /\ 1 <= n <= b_bin b
  | Segment t s => 0 <= t <= 1 /\ 0 <= s <= b_seg b
  end.

(** The same water body, whatever the time level. *)
Definition same_body (v w : water) : Prop :=
  match v, w with
  | Pure, Pure => True
  | Source c, Source c' => c = c'
  | Reservoir _ r m, Reservoir _ r' m' => r = r' /\ m = m'
  | Unsat _ m n, Unsat _ m' n' => m = m' /\ n = n'
  | Segment _ s, Segment _ s' => s = s'
  | _, _ => False
  end.

(** Is a negative fraction of solution [s] allowed to stand by itself?  Evaporation takes away
    solution 1; an ionic pulse is expressed with solution 2 or a snowpack (102mmm000). *)
Definition may_be_negative (s : Z) : bool :=
  (s =? 1) || (s =? 2) || ((102000000 <=? s) && (s <? 103000000)).

(** The number the program gives to each body: the calls of SOLNNUM in 4111-4231. *)
Definition number (w : water) : Z :=
  match w with
  | Pure => solnnum 0 0 0 0 0 0
  | Source c => solnnum 0 0 c 0 0 0
  | Reservoir t r m => solnnum t r 0 m 0 0
  | Unsat t m n => solnnum t 5 0 m n 0
  | Segment t s => solnnum t 99 0 0 0 s
  end.

(** What ISOLN must report about each body; -99 marks what does not apply. *)
Definition reports (d : decoded) (w : water) : Prop :=
  match w with
  | Pure => (d_res d, d_chem d, d_mru d, d_nac d, d_hydro d) = (-99, -99, -99, -99, -99)
  | Source c => (d_res d, d_chem d, d_mru d, d_nac d, d_hydro d) = (0, c, -99, -99, -99)
  | Reservoir _ r m => (d_res d, d_chem d, d_mru d, d_nac d, d_hydro d) = (r, -99, m, -99, -99)
  | Unsat _ m n => (d_res d, d_chem d, d_mru d, d_nac d, d_hydro d) = (5, -99, m, n, -99)
  | Segment _ s => (d_res d, d_chem d, d_mru d, d_nac d, d_hydro d) = (99, -99, -99, -99, s)
  end.

Definition row_of (b : basin) (w : water) : Z := d_row (isoln (b_chem b) (b_mru b) (b_bin b) (number w)).
