(** TRANSPORT of a column without stagnant zones and without multicomponent
    diffusion: IPhreeqcMMS/IPhreeqc/src/phreeqcpp/transport.cpp transport
    74-990 (boundary solutions, order of mixes and shifts), init_mix 1137-1420
    (else branch: one diffusion coefficient), init_heat_mix 1542-1680, heat_mix
    1684-1722.

    Reals are rationals. A solution is one extensive quantity of it that
    reactions leave alone (say, the moles of a conservative tracer); the
    equilibration after each mix is left out. [int] is unbounded but for the
    check of the number of mixes. *)
From Coq Require Import ZArith QArith Qabs Qround Bool List Arith.
Import ListNotations.
Local Open Scope list_scope.

Record cell := mkCell { len : Q; disp : Q }.
Inductive flow := Forward | Back | No_flow.
Inductive bound := Constant | Closed | Flux.

(** What TRANSPORT gives: the cells by number from 1 to [cells], flow direction
    (ishift), boundary conditions, -correct_disp, diffusion coefficient, time
    step. *)
Record column := mkCol { cells : nat; data : nat -> cell; dir : flow; first : bound; last : bound; correct : bool;
  diffc : Q; timest : Q }.

Definition moving (p : column) : bool := match dir p with No_flow => false | _ => true end.
Definition is_constant (b : bound) : bool := match b with Constant => true | _ => false end.
Definition is_flux (b : bound) : bool := match b with Flux => true | _ => false end.
Definition zero (x : Q) : bool := Qeq_bool x 0.
Definition of_nat (n : nat) : Q := inject_Z (Z.of_nat n).
Definition larger (a b : Q) : Q := if Qle_bool b a then a else b.

(** * init_mix *)

(** 1155-1162. *)
Definition corr_disp (p : column) : Q :=
  if correct p && moving p then
    (1 + (if is_flux (first p) then 1 / of_nat (cells p) else 0) + (if is_flux (last p) then 1 / of_nat (cells p) else 0))%Q
  else 1%Q.

(** 1292 (and 1308, 1325): [dav] keeps its value when the cell has no
    dispersivity. *)
Definition harmonic (dav : Q) (a b : cell) : Q :=
  let dav := if zero (disp a) then dav else (len a / disp a)%Q in
  if zero (disp b) then dav else (dav + len b / disp b)%Q.

(** 1290-1303, 1308-1321: the factor of cell [a] with its neighbour [b], and
    [dav]. *)
Definition factor (p : column) (dav : Q) (a b : cell) : Q * Q :=
  let dav := if moving p then harmonic dav a b else dav in
  let d := if moving p && negb (zero dav) then (2 / dav)%Q else 0%Q in
  (((d + 2 * diffc p * timest p / (len a * len a + len a * len b)) * corr_disp p)%Q, dav).

(** 1284-1331: factors with the lower and with the higher cell, for [k] cells
    from [i] on. *)
Fixpoint inner (p : column) (k i : nat) (dav : Q) : list (Q * Q) :=
  match k with
  | O => []
  | S k =>
    let '(high, dav) := if (i <? cells p)%nat then factor p dav (data p i) (data p (i + 1)) else (0%Q, dav) in
    let '(low, dav) := if (1 <? i)%nat then factor p dav (data p i) (data p (i - 1)) else (0%Q, dav) in
    (low, high) :: inner p k (i + 1) dav
  end.
Definition largest (l : list (Q * Q)) : Q := fold_left (fun a f => larger a (fst f + snd f)) l 0%Q.

(** 1335-1341, 1344-1350: at a constant boundary. *)
Definition edge (p : column) (a : cell) : Q :=
  (2 * diffc p * timest p / (len a * len a) + (if moving p then disp a / len a else 0))%Q.
Definition with_first (p : column) (l : list (Q * Q)) : list (Q * Q) :=
  match l with
  | f :: r => if is_constant (first p) then (edge p (data p 1), snd f) :: r else l
  | [] => []
  end.
Fixpoint with_last (p : column) (l : list (Q * Q)) : list (Q * Q) :=
  match l with
  | [] => []
  | [f] => if is_constant (last p) then [(fst f, edge p (data p (cells p)))] else l
  | f :: r => f :: with_last p r
  end.

(** How init_mix ends: too many mixes, or the number of mixes with the factors. *)
Inductive mixes := Beyond | Mixes (n : Z) (fs : list (Q * Q)).

(** 1355-1373. *)
Definition number (p : column) (maxmix : Q) : Z :=
  let n := (1 + Qfloor ((3 # 2) * maxmix))%Z in
  if moving p && (is_constant (first p) || is_constant (last p)) then Z.max n 2 else n.
Definition int_max : Q := 2147483647 # 1.
Definition init_mix (p : column) : mixes :=
  let fs := inner p (cells p) 1 0%Q in
  let m0 := largest fs in
  let fs1 := with_first p fs in
  let fs2 := with_last p fs1 in
  let maxmix := larger (larger m0 (largest fs1)) (largest fs2) in
  if zero maxmix then Mixes 0 []
  else if negb (Qle_bool ((3 # 2) * maxmix) int_max) then Beyond
  else
    let n := number p maxmix in
    Mixes n (map (fun f => (fst f / inject_Z n, snd f / inject_Z n)%Q) fs2).

(** * transport *)

(** The solutions by number, and solution -2. *)
Record state := mkState { sol : nat -> Q; spare : Q }.
Definition put (s : state) (i : nat) (x : Q) : state :=
  mkState (fun j => if (j =? i)%nat then x else sol s j) (spare s).
Definition save (s : state) (x : Q) : state := mkState (sol s) x.

(** Dispersion_mix_map[i] (1381-1389): the mixture of cell [i]. *)
Definition mixture (fs : list (Q * Q)) (c : nat -> Q) (i : nat) : Q :=
  let '(low, high) := nth (i - 1) fs (0, 0)%Q in
  (low * c (i - 1)%nat + high * c (i + 1)%nat + (1 - low - high) * c i)%Q.

(** 600-646, 876-910: one mix; cell by cell, the last mixture waits in solution
    -2 until its neighbour has been mixed. *)
Definition mix_cell (fs : list (Q * Q)) (s : state) (i : nat) : state :=
  let x := mixture fs (sol s) i in
  let s := if (1 <? i)%nat then put s (i - 1) (spare s) else s in
  save s x.
Definition mix_run (n : nat) (fs : list (Q * Q)) (s : state) : state :=
  let s := fold_left (mix_cell fs) (seq 1 n) s in
  put s n (spare s).
Fixpoint mix_runs (k n : nat) (fs : list (Q * Q)) (s : state) : state :=
  match k with O => s | S k => mix_runs k n fs (mix_run n fs s) end.

(** 704-705: Rxn_copy from cell to cell. *)
Definition shift (p : column) (s : state) : state :=
  match dir p with
  | Forward => fold_left (fun s i => put s i (sol s (i - 1)%nat)) (rev (seq 1 (cells p))) s
  | Back => fold_left (fun s i => put s i (sol s (i + 1)%nat)) (seq 1 (cells p)) s
  | No_flow => s
  end.

(** 411-414, 541-554, 868-871: with b_c half of the mixes come before the shift. *)
Definition b_c (p : column) : bool := negb (moving p) || is_constant (first p) || is_constant (last p).
Definition step (p : column) (n : nat) (fs : list (Q * Q)) (s : state) : state :=
  let half := if b_c p then Nat.div2 n else O in
  mix_runs (n - half) (cells p) fs (shift p (mix_runs half (cells p) fs s)).
Fixpoint steps (k : nat) (p : column) (n : nat) (fs : list (Q * Q)) (s : state) : state :=
  match k with O => s | S k => steps k p n fs (step p n fs s) end.

(** 100-215: boundary solutions that are missing; [None]: an error. *)
Definition begin (p : column) (given : nat -> option Q) : option (nat -> Q) :=
  if forallb (fun i => match given i with Some _ => true | None => false end) (seq 1 (cells p)) then
    let get i := match given i with Some x => x | None => 0%Q end in
    match given O, dir p with
    | None, Forward => None
    | g0, _ =>
      let c0 := match g0 with Some x => x | None => get 1%nat end in
      match given (S (cells p)), dir p with
      | None, Back => None
      | g1, _ =>
        let c1 := match g1 with Some x => x | None => get (cells p) end in
        Some (fun i => if (i =? 0)%nat then c0 else if (i =? S (cells p))%nat then c1 else get i)
      end
    end
  else None.

(** The whole of TRANSPORT with [shifts] steps; [None]: stopped. *)
Definition transport (p : column) (shifts : nat) (given : nat -> option Q) : option (nat -> Q) :=
  match begin p given with
  | None => None
  | Some c =>
    match init_mix p with
    | Beyond => None
    | Mixes n fs => Some (sol (steps shifts p (Z.to_nat n) fs (mkState c 0%Q)))
    end
  end.

(** * Heat *)

(** init_heat_mix without multicomponent diffusion; [temp] of the solutions 0 to
    cells+1, [nmix] from init_mix. The answer: number of mixes and the factors
    between cell i-1 and i, for i from 1 to cells+1. *)
Definition heat_corr (p : column) (nmix : Z) : Q :=
  let mixf := inject_Z (if (1 <? nmix)%Z then nmix else 1) in
  if correct p && moving p then
    (1 + (if is_flux (first p) then 1 / of_nat (cells p) / mixf else 0) + (if is_flux (last p) then 1 / of_nat (cells p) / mixf else 0))%Q
  else 1%Q.
Definition uneven (p : column) (temp : nat -> Q) : bool :=
  existsb (fun i => negb (Qle_bool (Qabs (temp i - temp O)) 1)) (seq 1 (cells p + 1)).
Definition heat_factor (p : column) (heat tempr : Q) (nmix : Z) (l : Q) : Q :=
  ((heat - diffc p) * timest p * heat_corr p nmix / tempr / (l * l))%Q.
Definition heat_factors (p : column) (heat tempr : Q) (nmix : Z) : list Q :=
  let f := heat_factor p heat tempr nmix in
  (if is_constant (first p) then (2 * f (len (data p 1)))%Q else 0%Q) ::
  map (fun i => f ((len (data p (i + 1)) + len (data p i)) / 2)%Q) (seq 1 (cells p - 1)) ++
  [if is_constant (last p) then (2 * f (len (data p (cells p))))%Q else 0%Q].
Definition init_heat (p : column) (heat tempr : Q) (nmix : Z) (temp : nat -> Q) : Z * list Q :=
  if Qle_bool heat (diffc p) || (cells p <? 2)%nat || negb (uneven p temp) then (0%Z, [])
  else
    let fs := heat_factors p heat tempr nmix in
    let maxmix := fold_left larger fs 0%Q in
    if zero maxmix then (0%Z, fs)
    else
      let n := (1 + Qfloor (3 * maxmix))%Z in
      (n, map (fun f => (f / inject_Z n)%Q) fs).

(** heat_mix: all temperatures at once, [k] times. *)
Definition heat_once (n : nat) (fs : list Q) (t : nat -> Q) (j : nat) : Q :=
  if ((1 <=? j) && (j <=? n))%nat then
    let low := nth (j - 1) fs 0%Q in
    let high := nth j fs 0%Q in
    (low * t (j - 1)%nat + high * t (j + 1)%nat + (1 - low - high) * t j)%Q
  else t j.
Fixpoint heat_mix (k n : nat) (fs : list Q) (t : nat -> Q) : nat -> Q :=
  match k with O => t | S k => heat_mix k n fs (heat_once n fs t) end.
