(** What a mixing script means to the geochemical engine, and the vocabulary of C30 to C32. *)
From Coq Require Import ZArith QArith Qabs Bool List.
From Verif Require Import Qx Mix_Model.
Import ListNotations.
Local Open Scope Q_scope.

(** A composition: moles of every element (numbered). *)
Definition vec := Z -> Q.
Definition blend (l : list (Q * vec)) : vec := fun e => qsum (map (fun p => fst p * snd p e) l).

(** The number read back from the text printed for x has six significant digits. *)
Definition close (g : Q -> Q) : Prop := forall x, Qabs (g x - x) <= (1 # 200000) * Qabs x.
Definition six_digits (g : Q -> Q) : Prop :=
  (forall x, exists m k, (Z.abs m < 1000000)%Z /\ g x == inject_Z m * Qpower 10 k) /\
  (forall m, (Z.abs m < 1000000)%Z -> g (inject_Z m) == inject_Z m).

Definition upd {A} (f : Z -> A) (n : Z) (v : A) : Z -> A := fun k => if (k =? n)%Z then v else f k.

Section Engine.
(** [g]: the number read from the printed one.  [react]: the effect of the reactants in use on the
    solution; with none the totals are unchanged. *)
Variable g : Q -> Q.
Variable react : list (kind * Z) -> vec -> vec.
Definition reacted (us : list (kind * Z)) (v : vec) : vec := match us with [] => v | _ => react us v end.

(** One simulation: what was read since the last END. *)
Record sim := mkSim {
  mixes : list (Z * option Q); uses : list (kind * Z); saves : list Z;
  keeps : list (kind * Z); copies : list (Z * Z) }.
Definition fresh := mkSim [] [] [] [] [].
Definition sols_state := Z -> option vec.

Fixpoint gather (st : sols_state) (l : list (Z * option Q)) : option (list (Q * vec)) :=
  match l with
  | [] => Some []
  | (n, Some f) :: r =>
      match st n, gather st r with Some v, Some o => Some ((g f, v) :: o) | _, _ => None end
  | (_, None) :: _ => None
  end.
(** END: mix, react, save, copy. *)
Definition finish (st : sols_state) (s : sim) : option sols_state :=
  match gather st (mixes s) with
  | None => None
  | Some l =>
      let v := reacted (uses s) (blend l) in
      let st1 := fold_left (fun a n => upd a n (Some v)) (saves s) st in
      Some (fold_left (fun a c => upd a (snd c) (a (fst c))) (copies s) st1)
  end.
(** The solutions after a script, and the reactants saved, in order. *)
Fixpoint engine (st : sols_state) (s : sim) (kept : list (kind * Z)) (l : list line)
  : option (sols_state * list (kind * Z)) :=
  match l with
  | [] => Some (st, kept)
  | MIX :: r => engine st s kept r
  | Entry n f :: r => engine st (mkSim (mixes s ++ [(n, f)]) (uses s) (saves s) (keeps s) (copies s)) kept r
  | SaveSolution n :: r => engine st (mkSim (mixes s) (uses s) (saves s ++ [n]) (keeps s) (copies s)) kept r
  | CopySolution n m :: r => engine st (mkSim (mixes s) (uses s) (saves s) (keeps s) (copies s ++ [(n, m)])) kept r
  | USE k n :: r => engine st (mkSim (mixes s) (uses s ++ [(k, n)]) (saves s) (keeps s) (copies s)) kept r
  | SAVE k n :: r => engine st (mkSim (mixes s) (uses s) (saves s) (keeps s ++ [(k, n)]) (copies s)) kept r
  | END :: r => match finish st s with
                | Some st' => engine st' fresh (kept ++ keeps s) r
                | None => None
                end
  end.
End Engine.

Definition all_kinds : list kind :=
  [Reaction; Exchange; Surface; Gas_phase; Pure_phase; Ss_phase; Kinetics; Temperature].
(** The reactants wanted (a number that is not negative) that exist. *)
Definition wanted (w : world) (r : request) : list (kind * Z) :=
  map (fun k => (k, user r k)) (filter (fun k => (0 <=? user r k)%Z && entity w k (user r k)) all_kinds).
Definition keeps_state (k : kind) : bool :=
  match k with Exchange | Surface | Gas_phase | Pure_phase | Ss_phase => true | _ => false end.
(** Some reactant is wanted, whether it exists or not. *)
Definition reactive (r : request) : Prop := exists k, (0 <= user r k)%Z.

(** Pure water is taken away. *)
Definition evaporating (r : request) : Prop := exists f, In (1%Z, f) (sols r) /\ f < 0.
(** The sums over the entries that add water. *)
Definition added (r : request) : list (Z * Q) := filter (fun p => qle 0 (snd p)) (sols r).
Definition sum_added (r : request) : Q := qsum (map snd (added r)).
Definition h2o (w : world) (n : Z) : Q := match water w n with Some h => h | None => 0 end.
Definition water_added (w : world) (r : request) : Q := qsum (map (fun p => snd p * h2o w (fst p)) (added r)).
(** Average mass of water of the mixed solutions. *)
Definition average (w : world) (r : request) : Q := water_added w r / sum_added r.

(** A request the engine can follow. *)
Definition sound (w : world) (r : request) : Prop :=
  (forall p, In p (sols r) -> water w (fst p) <> None) /\ (evaporating r -> ~ sum_added r == 0).
