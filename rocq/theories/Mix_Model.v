(** Mixing requests: IPhreeqcMMS/src/fortran.cpp RunMixF 66-101, IPhreeqcMMS/src/IPhreeqcMMS.cpp
    PreMixCallback 315-636, and the numbers of Melt_pack 653-733.  Doubles are exact rationals; a
    quotient by zero is [None] (inf or nan).  A line of the script is a constructor with its
    numbers instead of the text printed by sprintf (the loss of digits of %g is treated in
    Mix_Spec).  Not modelled: messages, the output file switch (files_on), failure of
    AccumulateLine (out of memory only). *)
From Coq Require Import ZArith QArith Qabs Bool List.
From Verif Require Import Qx.
Import ListNotations.
Local Open Scope Q_scope.

(** The reactants a request may name (n_user of the MixVars structure). *)
Inductive kind := Reaction | Exchange | Surface | Gas_phase | Pure_phase | Ss_phase | Kinetics | Temperature.

Inductive line :=
| MIX                                (* "MIX" *)
| Entry (n : Z) (f : option Q)       (* "\t%d %g" *)
| SaveSolution (n : Z)               (* "SAVE solution %d" *)
| CopySolution (n m : Z)             (* "COPY SOLUTION %d %d" *)
| USE (k : kind) (n : Z)             (* "USE exchange %d" ... *)
| SAVE (k : kind) (n : Z)            (* "SAVE exchange %d" ... *)
| END.                               (* "END" *)

(** set_reaction_moles, set_kinetics_time, set_reaction_temperature. *)
Inductive setting := Moles (n : Z) (x : Q) | Seconds (n : Z) (x : Q) | Degrees (n : Z) (x : Q).

(** struct MixVars; [sols] is solutions with fracs. *)
Record request := mkReq {
  sols : list (Z * Q); n_rxn : Z; n_cons : Z; fill : Q; user : kind -> Z;
  rxnmols : Q; tempc : Q; tsec : Q }.
(** The solution map (mass of water) and entity_exists. *)
Record world := mkW { water : Z -> option Q; entity : kind -> Z -> bool }.

Definition qdivo (a b : Q) : option Q := if qeq b 0 then None else Some (a / b).

(** 338-346. *)
Definition evap (l : list (Z * Q)) : bool := existsb (fun p => (fst p =? 1)%Z && qlt (snd p) 0) l.

(** 349-369: None: a solution does not exist; otherwise pos_mix_h2o, pos_h2o_frac_sum, neg_mix_h2o. *)
Fixpoint h2o_sums (w : world) (l : list (Z * Q)) (pos sum neg : Q) : option (Q * Q * Q) :=
  match l with
  | [] => Some (pos, sum, neg)
  | (n, f) :: r =>
      match water w n with
      | None => None
      | Some h => if qle 0 f then h2o_sums w r (pos + f * h) (sum + f) neg
                  else h2o_sums w r pos sum h
      end
  end.
(** 370-374; the inner None is nan or inf. *)
Definition neg_factor (w : world) (l : list (Z * Q)) : option (option Q) :=
  if evap l then
    match h2o_sums w l 0 0 0 with
    | None => None
    | Some (pos, sum, neg) =>
        if qlt 0 neg then
          Some (match qdivo pos sum with Some avg => Some (Qabs (avg / neg)) | None => None end)
        else Some (Some 1)
    end
  else Some (Some 1).

(** 381-395. *)
Definition entry (ev : bool) (nf : option Q) (p : Z * Q) : line :=
  let factor := if ev then (if qlt (snd p) 0 then nf else Some 1) else Some 1 in
  Entry (fst p) (match factor with Some c => Some (snd p * c) | None => None end).

(** 453-585 for one kind: a reactant that is wanted and exists.  Reaction, kinetics and
    temperature are not saved. *)
Definition saved (k : kind) : bool :=
  match k with Reaction | Kinetics | Temperature => false | _ => true end.
Definition use_lines (w : world) (r : request) (k : kind) : list line :=
  if (0 <=? user r k)%Z then
    if entity w k (user r k) then
      USE k (user r k) :: (if saved k then [SAVE k (user r k)] else [])
    else []
  else [].
Definition use_settings (w : world) (r : request) (k : kind) : list setting :=
  if (0 <=? user r k)%Z && entity w k (user r k) then
    match k with
    | Reaction => [Moles (user r k) (rxnmols r * fill r)]
    | Kinetics => [Seconds (user r k) (tsec r)]
    | Temperature => [Degrees (user r k) (tempc r)]
    | _ => []
    end
  else [].

(** The order of the blocks 453-585. *)
Definition kinds : list kind :=
  [Reaction; Exchange; Surface; Gas_phase; Pure_phase; Ss_phase; Kinetics; Temperature].

(** PreMixCallback: success, accumulated lines, settings. *)
Definition pre_mix (w : world) (r : request) : bool * list line * list setting :=
  match neg_factor w (sols r) with
  | None => (false, [], [])
  | Some nf =>
      let first := MIX :: map (entry (evap (sols r)) nf) (sols r) ++
        [SaveSolution (n_rxn r); CopySolution (n_rxn r) (n_cons r); END] in
      if forallb (fun k => (user r k <? 0)%Z) kinds then (true, first, [])
      else
        (true,
         first ++
         [MIX; Entry (n_rxn r) (Some (fill r)); SaveSolution (n_rxn r)] ++
         flat_map (use_lines w r) kinds ++ [END] ++
         [MIX; Entry (n_rxn r) (qdivo 1 (fill r)); SaveSolution (n_rxn r); END],
         flat_map (use_settings w r) kinds)
  end.

(** RunMixF 94-98: what is run is what had been accumulated before and the lines of the callback;
    the result of the callback is not looked at. *)
Definition run_mix (w : world) (r : request) (accumulated : list line) : list line :=
  let '(_, l, _) := pre_mix w r in accumulated ++ l.

(** Melt_pack 653-733: the program run by the engine (lines 10 to 210), with the composition of the
    pack: W = TOT("water"), O = TOTMOLE("O"), o18 = TOTMOLE("[18O]"), gfw = GFW("H2O"); [eps] is
    the argument, the program uses its negative.  None: division by zero. *)
Record melt := mkMelt { fracp : Q; fracm : Q; xfer_p : Q; xfer_m : Q; o18_m : Q; o18_p : Q; diff : Q }.
Definition melt_program (W O o18 gfw eps ipf fm rstd : Q) : option melt :=
  let eps := - eps in
  match qdivo (ipf * fm) (1 - fm) with
  | None => None
  | Some x =>
      match qdivo 1 (1 + x) with
      | None => None
      | Some fracp =>
          let fracm := 1 - fracp in
          let xfer_p := W * ((1 - fm) - fracp) / ((1 # 1000) * gfw) in
          let xfer_m := W * (fm - fracm) / ((1 # 1000) * gfw) in
          let o_p := fracp * O + xfer_p in
          let o_m := fracm * O + xfer_m in
          match qdivo o18 o_p, qdivo o18 o_m, qdivo 1 o_m, qdivo 1 o_p with
          | Some tp, Some tm, Some im, Some ip =>
              match qdivo (tp - eps / 1000 * rstd) (im + ip), qdivo (tm + eps / 1000 * rstd) (ip + im) with
              | Some o18_m, Some o18_p =>
                  Some (mkMelt fracp fracm xfer_p xfer_m o18_m o18_p (o18_m - fracm * o18))
              | _, _ => None
              end
          | _, _, _, _ => None
          end
      end
  end.

(** An aqueous solution as Melt_pack sees it: mass of water, moles of oxygen, of oxygen 18, and of
    every other solute. *)
Record aq := mkAq { mass : Q; oxy : Q; o18 : Q; solute : Z -> Q }.
(** The second run (lines 100 to 210 of the program): MIX pack fracm, then 1 mole of the reaction
    H2O xfer_m, H2[18O] diff, saved as the melt. *)
Definition make_melt (m : melt) (gfw : Q) (p : aq) : aq :=
  mkAq (fracm m * mass p + xfer_m m * ((1 # 1000) * gfw)) (fracm m * oxy p + xfer_m m)
       (fracm m * o18 p + diff m) (fun e => fracm m * solute p e).
(** The third run: MIX pack 1, melt -1, saved as the pack. *)
Definition make_pack (p q : aq) : aq :=
  mkAq (1 * mass p + - (1) * mass q) (1 * oxy p + - (1) * oxy q) (1 * o18 p + - (1) * o18 q)
       (fun e => 1 * solute p e + - (1) * solute q e).
(** The last run: SOLUTION_MIX by 1/mass of water. *)
Definition per_kg (a : aq) : option aq :=
  match qdivo 1 (mass a) with
  | None => None
  | Some x => Some (mkAq (x * mass a) (x * oxy a) (x * o18 a) (fun e => x * solute a e))
  end.
(** Melt_pack: the two solutions before and after the last run. *)
Definition melt_pack (gfw eps ipf fm rstd : Q) (p : aq) : option (aq * aq) :=
  match melt_program (mass p) (oxy p) (o18 p) gfw eps ipf fm rstd with
  | None => None
  | Some m => let q := make_melt m gfw p in Some (q, make_pack p q)
  end.
