(** Volumes of TSPROC, tsproc-trunk/tsproc-master/src/tsp_command_processors.F90: volume_interp_s 1429-1538.  Flows and volumes are exact
    rationals; days and seconds are unbounded integers. *)
From Coq Require Import List ZArith QArith Bool.
From Verif Require Import Qx.
Import ListNotations.
Local Open Scope Z_scope.

(** One entry of days, secs and flows. *)
Record sample : Type := Sample { days : Z; secs : Z; flow : Q }.
(** 1477-1478, 1497-1498: the sample is not before the given day and second *)
Definition reached (s : sample) (d sec : Z) : bool := (d <? days s) || ((days s =? d) && (sec <=? secs s)).
(** 1481-1484 and others: seconds from one sample to another *)
Definition elapsed (d1 s1 d2 s2 : Z) : Q := inject_Z (d2 - d1) * 86400 + inject_Z (s2 - s1).

(** 1476-1480: first sample, from the second on, not before the beginning, with the one before it and those after it *)
Fixpoint first_at (prev : sample) (l : list sample) (d sec : Z) : option (sample * sample * list sample) :=
  match l with
  | [] => None
  | c :: r => if reached c d sec then Some (prev, c, r) else first_at c r d sec
  end.
(** 1492-1504; [here] tells whether [i = j] *)
Fixpoint walk (here : bool) (p c : sample) (r : list sample) (d sec : Z) (volm : Q) : option (bool * sample * sample * Q) :=
  if reached c d sec then Some (here, p, c, volm)
  else
    let volm := if here then volm else (volm + (1 # 2) * (flow c + flow p) * elapsed (days p) (secs p) (days c) (secs c))%Q in
    match r with
    | [] => None
    | n :: r => walk false c n r d sec volm
    end.

(** What a call gives: a volume, which may be one of the large negative numbers that stand for none, or ifail = 1 without a volume. *)
Inductive outcome : Type := Volume (q : Q) | Failed.
Definition no_begin : Q := inject_Z (-41 * 10 ^ 36).
Definition no_end : Q := inject_Z (-31 * 10 ^ 36).

(** 1472-1534 *)
Definition volume (l : list sample) (bdays bsecs fdays fsecs : Z) (fac : Q) : outcome :=
  match l with
  | [] => Volume no_begin
  | s1 :: rest =>
      match first_at s1 rest bdays bsecs with
      | None => Volume no_begin
      | Some (p, c, r) =>
          let tdd := elapsed (days p) (secs p) (days c) (secs c) in
          let tdt := elapsed bdays bsecs (days c) (secs c) in
          if qle tdd 0 then Failed
          else
            let m := ((flow c - flow p) / tdd)%Q in
            let volb := (tdt * (flow c - m * (1 # 2) * tdt))%Q in
            match walk true p c r fdays fsecs 0%Q with
            | None => Volume no_end
            | Some (here, p, c, volm) =>
                let tdd := elapsed (days p) (secs p) (days c) (secs c) in
                let tdt := elapsed (days p) (secs p) fdays fsecs in
                if qeq tdd 0 then Failed
                else
                  let m := ((flow c - flow p) / tdd)%Q in
                  let volf := (tdt * (flow p + m * (1 # 2) * tdt))%Q in
                  let volm := if here then (- (1 # 2) * (flow c + flow p) * tdd)%Q else volm in
                  Volume ((volb + volm + volf) * fac / 86400)%Q
            end
      end
  end.
