(** Base flow of TSPROC, tsproc-trunk/tsproc-master/src/wsc_additions.F90: interval from the drainage area 1407-1421, FIXED 1491-1594 as called
    from usgs_hysep (1425: last year, START the constant 0), SLIDE 1596-1677, and LOCMIN 1679-1853 for a record without missing values.
    A value below zero is missing.  Flows are exact rationals; [None] stands for a run that reads outside the arrays, writes to a
    constant or uses a variable that has no value. *)
From Coq Require Import List ZArith QArith Bool Arith.
From Verif Require Import Qx.
Import ListNotations.
Local Open Scope Q_scope.

(** Day [i] of the record, from 1; [None] outside of it. *)
Definition day (dis : list Q) (i : nat) : option Q := match i with O => None | S k => nth_error dis k end.
Definition missing (q : Q) : bool := qlt q 0.

(** Days from [a] to [b]. *)
Definition days (a b : nat) : list nat := seq a (S b - a).

(** The loops for PMIN: 1548-1552, 1632-1637 and others. *)
Fixpoint lowest (dis : list Q) (l : list nat) (pmin : Q) : option Q :=
  match l with
  | [] => Some pmin
  | j :: r => match day dis j with
              | None => None
              | Some q => lowest dis r (if qlt q pmin then q else pmin)
              end
  end.
Definition cap : Q := 100000.

(** 1617-1630: the last day of the missing values at the beginning. *)
Fixpoint leading (dis : list Q) : nat :=
  match dis with [] => O | q :: r => if missing q then S (leading r) else O end.

(** 1596-1677, one day *)
Definition slide_day (dis : list Q) (intrvl i : nat) (q : Q) : option Q :=
  let start := leading dis in
  let half := Nat.div (intrvl - 1) 2 in
  if missing q then Some q
  else if (i - start <=? half)%nat then lowest dis (days (start + 1) (i + half)) cap
  else if (length dis - i <=? half)%nat then lowest dis (days (i - half) (length dis)) cap
  else lowest dis (days (i - half) (i + half)) cap.
Fixpoint gather {A} (l : list (option A)) : option (list A) :=
  match l with
  | [] => Some []
  | None :: _ => None
  | Some x :: r => match gather r with None => None | Some s => Some (x :: s) end
  end.
Definition slide (dis : list Q) (intrvl : nat) : option (list Q) :=
  gather (map (fun p => slide_day dis intrvl (fst p) (snd p)) (combine (seq 1 (length dis)) dis)).

(** 1537-1545: days left after those missing among the last eleven; [None] if the loop runs below day 1. *)
Definition fxdays (dis : list Q) : option nat :=
  if (length dis <? 11)%nat then None
  else Some (length dis - length (filter missing (skipn (length dis - 11) dis)))%nat.

(** 1491-1594 with LSTFLG = 1 and START = 0: a missing first value would be written to the constant 0 (1530); with less than one interval
    L2 has no value (1580). *)
Definition fixed_day (dis : list Q) (intrvl fx i : nat) (q : Q) : option Q :=
  let k := Nat.div fx intrvl in
  let b := Nat.div (i - 1) intrvl in
  if (i <=? k * intrvl)%nat then lowest dis (days (b * intrvl + 1) ((b + 1) * intrvl)) cap
  else if (i <=? fx)%nat then lowest dis (days (k * intrvl + 1) fx) cap
  else Some (if missing q then q else 0).
Definition fixed (dis : list Q) (intrvl : nat) : option (list Q) :=
  match dis with
  | [] => None
  | q :: _ =>
      if missing q then None
      else match fxdays dis with
           | None => None
           | Some fx =>
               if (Nat.div fx intrvl <? 1)%nat then None
               else gather (map (fun p => fixed_day dis intrvl fx (fst p) (snd p)) (combine (seq 1 (length dis)) dis))
           end
  end.

(** 1407-1421: [root] is the fifth root of the area in square miles. *)
Definition interval (root : Q) : nat :=
  let r := 2 * root in
  if qle r 4 then 3 else if qle r 6 then 5 else if qle r 8 then 7 else if qle r 10 then 9 else 11.

(** LOCMIN 1753-1808: half width of the window for a local minimum; none for an interval of 1. *)
Definition reach (intrvl : nat) : option nat :=
  match intrvl with
  | 3 => Some 1 | 5 => Some 2 | 7 => Some 3 | 9 => Some 4
  | n => if (11 <=? n)%nat then Some 5 else None
  end%nat.
Definition at_ (dis : list Q) (i : nat) : Q := nth (i - 1) dis 0.
Definition is_low (dis : list Q) (h i : nat) : bool :=
  forallb (fun s => qle (at_ dis i) (at_ dis (i + s)) && qle (at_ dis i) (at_ dis (i - s))) (seq 1 h).
Definition points (dis : list Q) (intrvl : nat) : list nat :=
  match reach intrvl with
  | None => []
  | Some h => filter (is_low dis h) (days (1 + h) (length dis - h))
  end.

Definition put (g : nat -> Q) (i : nat) (x : Q) : nat -> Q := fun j => if (j =? i)%nat then x else g j.
Definition fill (g : nat -> Q) (l : list nat) (x : Q) : nat -> Q := fun j => if existsb (Nat.eqb j) l then x else g j.

(** 1827-1834: one day between two minima *)
Definition between (pow10 log10 : Q -> Q) (ip1 ip2 : nat) (g : nat -> Q) (j : nat) : nat -> Q :=
  let g := if qle (g ip1) 0 then put g ip1 (1 # 100) else g in
  let g := if qle (g ip2) 0 then put g ip2 (1 # 100) else g in
  let x := inject_Z (Z.of_nat j - Z.of_nat ip1) in
  let y := inject_Z (Z.of_nat ip2 - Z.of_nat ip1) in
  put g j (pow10 (x / y * (log10 (g ip2) - log10 (g ip1)) + log10 (g ip1))).
(** 1819-1835 *)
Fixpoint middle (pow10 log10 : Q -> Q) (dis : list Q) (ps : list nat) (g : nat -> Q) : nat -> Q :=
  match ps with
  | ip1 :: (ip2 :: _) as r =>
      middle pow10 log10 dis r (fold_left (between pow10 log10 ip1 ip2) (days ip1 ip2) (put (put g ip1 (at_ dis ip1)) ip2 (at_ dis ip2)))
  | _ => g
  end.
(** 1745-1853 for a record without missing values: one period from day 1 to the last. *)
Definition locmin (pow10 log10 : Q -> Q) (dis : list Q) (intrvl : nat) : list Q :=
  let n := length dis in
  let zero := fun _ : nat => 0 in
  let g :=
    if (n <? intrvl)%nat then zero
    else match points dis intrvl with
         | [] => fill zero (days 1 n) (-999 # 1)
         | p :: r =>
             let l := last r p in
             middle pow10 log10 dis (p :: r) (fill (fill zero (days 1 p) (at_ dis p)) (days l n) (at_ dis l))
         end in
  map (fun i => if qlt (at_ dis i) (g i) then at_ dis i else g i) (seq 1 n).
