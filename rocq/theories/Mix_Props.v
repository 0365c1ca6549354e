(** C30 (mixing script), C31 (evaporation), C32 (melt). *)
From Coq Require Import ZArith QArith Qabs Bool List Lia Lqa.
From Verif Require Import Qx Mix_Model Mix_Spec Mix_Proofs.
Import ListNotations.
Local Open Scope Q_scope.

(** C30, no reactant wanted: the mixture of all given solutions is stored under the reaction and
    the conservative number, no other solution changes, no setting is made.  The coefficient of an
    entry is its fraction, except for negative fractions of an evaporating mix. *)
Theorem C30_conservative : forall g react w r st vv,
  sound w r -> ~ reactive r -> (forall p, In p (sols r) -> st (fst p) = Some (vv (fst p))) ->
  exists c script M,
    pre_mix w r = (true, script, []) /\
    (forall p, In p (sols r) -> (~ evaporating r \/ 0 <= snd p) -> c p == snd p) /\
    M = blend (map (fun p => (g (c p), vv (fst p))) (sols r)) /\
    exists st', engine g react st fresh [] script = Some (st', []) /\
      st' (n_rxn r) = Some M /\ st' (n_cons r) = Some M /\
      (forall n, n <> n_rxn r -> n <> n_cons r -> st' n = st n).
Proof. exact conservative. Qed.
Print Assumptions C30_conservative.

(** C30, some reactant wanted: the mixture is stored under the conservative number; it is scaled by
    the fill factor, brought into contact with exactly the wanted reactants that exist, scaled by
    the reciprocal, and stored under the reaction number; those reactants that have a state are
    saved. *)
Theorem C30_reactive : forall g react w r st vv,
  sound w r -> reactive r -> ~ fill r == 0 -> n_cons r <> n_rxn r ->
  (forall p, In p (sols r) -> st (fst p) = Some (vv (fst p))) ->
  exists c script settings M up down,
    pre_mix w r = (true, script, settings) /\
    (forall p, In p (sols r) -> (~ evaporating r \/ 0 <= snd p) -> c p == snd p) /\
    up = fill r /\ down == 1 / fill r /\
    M = blend (map (fun p => (g (c p), vv (fst p))) (sols r)) /\
    exists st', engine g react st fresh [] script
                = Some (st', filter (fun u => keeps_state (fst u)) (wanted w r)) /\
      st' (n_cons r) = Some M /\
      st' (n_rxn r) = Some (blend [(g down, reacted react (wanted w r) (blend [(g up, M)]))]) /\
      (forall n, n <> n_rxn r -> n <> n_cons r -> st' n = st n).
Proof. exact reactive_script. Qed.
Print Assumptions C30_reactive.

(** The settings: reaction moles (scaled by the fill factor), kinetic time and temperature of the
    wanted reactants that exist, and nothing else. *)
Theorem C30_settings : forall w r s,
  In s (snd (pre_mix w r)) -> exists k, In (k, user r k) (wanted w r) /\
    ((k = Reaction /\ s = Moles (user r k) (rxnmols r * fill r)) \/
     (k = Kinetics /\ s = Seconds (user r k) (tsec r)) \/
     (k = Temperature /\ s = Degrees (user r k) (tempc r))).
Proof. exact settings_sound. Qed.
Print Assumptions C30_settings.
Theorem C30_settings_complete : forall w r k,
  fst (fst (pre_mix w r)) = true -> In (k, user r k) (wanted w r) ->
  (k = Reaction -> In (Moles (user r k) (rxnmols r * fill r)) (snd (pre_mix w r))) /\
  (k = Kinetics -> In (Seconds (user r k) (tsec r)) (snd (pre_mix w r))) /\
  (k = Temperature -> In (Degrees (user r k) (tempc r)) (snd (pre_mix w r))).
Proof. exact settings_complete. Qed.
Print Assumptions C30_settings_complete.

(** Net dilution: if the wanted reactants leave the totals alone, the result is the mixture up to
    the digits printed. *)
Theorem C30_net_dilution : forall g f (M : vec) e, close g -> ~ f == 0 ->
  Qabs (blend [(g (1 / f), blend [(g f, M)])] e - M e) <= (11 # 1000000) * Qabs (M e).
Proof. exact net_dilution. Qed.
Print Assumptions C30_net_dilution.
(** Refuted: it is not exactly the mixture, because six digits are printed. *)
Theorem C30_exact_dilution_refuted : forall g (M : vec) e, six_digits g -> ~ M e == 0 ->
  ~ blend [(g (1 / 3), blend [(g 3, M)])] e == M e.
Proof. exact not_exact. Qed.
Print Assumptions C30_exact_dilution_refuted.
(** Refuted: a failed preparation does not stop the run: what was accumulated before is run. *)
Theorem C30_failure_ignored_refuted : exists w r, fst (fst (pre_mix w r)) = false /\
  forall acc, run_mix w r acc = acc.
Proof. exact failure_ignored. Qed.
Print Assumptions C30_failure_ignored_refuted.
(** Refuted: a fill factor of zero or less is only reported; with zero the engine is sent an
    infinite factor after the first mix has been done. *)
Theorem C30_fill_factor_refuted : exists w r script settings, fill r == 0 /\ pre_mix w r = (true, script, settings) /\
  In (Entry (n_rxn r) None) script /\
  (forall g react st, engine g react st fresh [] script = None).
Proof. exact bad_fill. Qed.
Print Assumptions C30_fill_factor_refuted.

(** C31: if only pure water has a negative fraction, the water taken away by each such entry is the
    requested fraction of the average mass of water of the other solutions. *)
Theorem C31_removed : forall w r f, sound w r ->
  (forall p, In p (sols r) -> snd p < 0 -> fst p = 1%Z) ->
  (forall p, In p (sols r) -> 0 <= h2o w (fst p)) -> 0 < h2o w 1 -> 
  In (1%Z, f) (sols r) -> f < 0 ->
  exists c script settings, pre_mix w r = (true, script, settings) /\ In (Entry 1 (Some c)) script /\
    c * h2o w 1 == f * average w r.
Proof. exact removed. Qed.
Print Assumptions C31_removed.
(** The water of the whole mixture: the average times the sum of all the fractions.  The entries of
    the script are in the order of the request. *)
Theorem C31_remaining : forall w r, sound w r -> evaporating r ->
  (forall p, In p (sols r) -> snd p < 0 -> fst p = 1%Z) ->
  (forall p, In p (sols r) -> 0 <= h2o w (fst p)) -> 0 < h2o w 1 -> 
  exists c rest settings,
    pre_mix w r = (true, MIX :: map (fun p => Entry (fst p) (Some (c p))) (sols r) ++ rest, settings) /\
    qsum (map (fun p => c p * h2o w (fst p)) (sols r)) == average w r * qsum (map snd (sols r)).
Proof. exact remaining. Qed.
Print Assumptions C31_remaining.
(** Refuted: with another negative entry the factor is that of the last negative solution and is
    used for all of them. *)
Theorem C31_second_negative_refuted : exists w r c script settings, sound w r /\
  pre_mix w r = (true, script, settings) /\ In (1%Z, -(1)) (sols r) /\ In (Entry 1 (Some c)) script /\ c < 0 /\
  (forall c', In (Entry 1 (Some c')) script -> c' = c) /\
  ~ c * h2o w 1 == -(1) * average w r.
Proof. exact second_negative. Qed.
Print Assumptions C31_second_negative_refuted.

(** C32: for a melt fraction strictly between 0 and 1 and a nonnegative pulse factor the program
    succeeds when both parts hold oxygen, the fractions are nonnegative and add up to one, the
    amounts in melt and pack add up, and the isotope ratio of the melt exceeds that of the pack by
    eps/1000*rstd. *)
Theorem C32_fractions : forall W O o gfw eps ipf fm rstd m,
  0 < fm -> fm < 1 -> 0 <= ipf -> melt_program W O o gfw eps ipf fm rstd = Some m ->
  0 < fracp m /\ fracp m <= 1 /\ 0 <= fracm m /\ fracm m < 1 /\ fracp m + fracm m == 1 /\
  fracp m * (1 - fm + ipf * fm) == 1 - fm /\ fracm m * (1 - fm + ipf * fm) == ipf * fm.
Proof. exact fractions. Qed.
Print Assumptions C32_fractions.
Theorem C32_conserved : forall gfw eps ipf fm rstd p q p',
  melt_pack gfw eps ipf fm rstd p = Some (q, p') ->
  mass q + mass p' == mass p /\ oxy q + oxy p' == oxy p /\ o18 q + o18 p' == o18 p /\
  forall e, solute q e + solute p' e == solute p e.
Proof. exact conserved. Qed.
Print Assumptions C32_conserved.
Theorem C32_split : forall gfw eps ipf fm rstd p q p',
  0 < gfw -> 0 < fm -> fm < 1 -> 0 <= ipf -> melt_pack gfw eps ipf fm rstd p = Some (q, p') ->
  mass q == fm * mass p /\ mass p' == (1 - fm) * mass p /\
  (forall e, solute q e * (1 - fm + ipf * fm) == ipf * fm * solute p e) /\
  (forall e, solute p' e * (1 - fm + ipf * fm) == (1 - fm) * solute p e) /\
  (forall e, 0 <= solute p e -> 0 <= solute q e /\ 0 <= solute p' e).
Proof. exact split_amounts. Qed.
Print Assumptions C32_split.
Theorem C32_isotopes : forall gfw eps ipf fm rstd p q p',
  0 < gfw -> 0 < fm -> fm < 1 -> melt_pack gfw eps ipf fm rstd p = Some (q, p') ->
  o18 q / oxy q - o18 p' / oxy p' == eps / 1000 * rstd.
Proof. exact isotopes. Qed.
Print Assumptions C32_isotopes.
(** The stored solutions are per kilogram of water; weighted with the masses they give the amounts
    back. *)
Theorem C32_per_kg : forall a b, per_kg a = Some b -> 
  mass b == 1 /\ mass a * oxy b == oxy a /\ mass a * o18 b == o18 a /\ forall e, mass a * solute b e == solute a e.
Proof. exact per_kg_ok. Qed.
Print Assumptions C32_per_kg.
Theorem C32_defined : forall gfw eps ipf fm rstd p,
  0 < gfw -> 0 < fm -> fm < 1 -> 0 <= ipf -> 0 < mass p -> oxy p * ((1 # 1000) * gfw) == mass p ->
  exists q p', melt_pack gfw eps ipf fm rstd p = Some (q, p') /\ per_kg q <> None /\ per_kg p' <> None.
Proof. exact defined. Qed.
Print Assumptions C32_defined.

(** Non-vacuity. *)
Definition w0 := mkW (fun n => if (n <? 10)%Z then Some 1 else None) (fun k n => (n =? 5)%Z).
Definition user0 (k : kind) : Z := match k with Exchange => 5 | Kinetics => 6 | Reaction => 5 | _ => -1 end.
Definition r0 := mkReq [(5%Z, 1 # 2); (6%Z, 1 # 2)] 20 21 4 (fun _ => -1)%Z 0 0 0.
Definition r1 := mkReq [(5%Z, 1 # 2); (6%Z, 1 # 2)] 20 21 4 user0 3 0 0.
Definition r2 := mkReq [(5%Z, 1); (1%Z, -(1 # 4))] 20 21 4 user0 3 0 0.
Example C30_ex0 : sound w0 r0 /\ ~ reactive r0 /\ sound w0 r1 /\ reactive r1 /\ wanted w0 r1 = [(Reaction, 5%Z); (Exchange, 5%Z)] /\
  snd (pre_mix w0 r1) = [Moles 5 (3 * 4)].
Proof.
  split; [split; [intros p [<-|[<-|[]]]; discriminate | intros (f & I & _); cbn in I; intuition congruence]|].
  split; [intros (k & K); cbn in K; lia|].
  split; [split; [intros p [<-|[<-|[]]]; discriminate | intros (f & I & _); cbn in I; intuition congruence]|].
  split; [exists Exchange; cbn; lia|]. split; reflexivity.
Qed.
Example C30_close_ex : close (fun x => x).
Proof. intros x. setoid_replace (x - x) with 0 by ring. change (Qabs 0) with 0. apply Qmult_le_0_compat; [lra | apply Qabs_nonneg]. Qed.
Example C30_six_ex : exists g, six_digits g.
Proof.
  exists (fun x => let n := Qround.Qfloor x in if (Z.abs n <? 1000000)%Z then inject_Z n else 0). split.
  - intros x. cbv zeta. destruct (Z.abs (Qround.Qfloor x) <? 1000000)%Z eqn:E.
    + exists (Qround.Qfloor x), 0%Z. split; [lia|]. cbn [Qpower]. ring.
    + exists 0%Z, 0%Z. split; [lia | reflexivity].
  - intros m M. cbv zeta. rewrite Qround.Qfloor_Z. replace (Z.abs m <? 1000000)%Z with true by lia. reflexivity.
Qed.
Example C31_ex : sound w0 r2 /\ evaporating r2 /\ (forall p, In p (sols r2) -> snd p < 0 -> fst p = 1%Z) /\ 0 < h2o w0 1 /\ average w0 r2 == 1.
Proof.
  split; [split; [intros p [<-|[<-|[]]]; discriminate | intros _; vm_compute; discriminate]|].
  split; [exists (-(1 # 4)); split; [right; left; reflexivity | reflexivity]|].
  split; [intros p [<-|[<-|[]]] L; [discriminate L | reflexivity]|]. split; reflexivity.
Qed.
Definition snowpack := mkAq 18 1000 2 (fun _ => 5).
Example C32_ex : exists q p', melt_pack 18 (-(3)) 2 (1 # 4) (1 # 500) snowpack = Some (q, p') /\
  mass q == 45 # 10 /\ solute q 7%Z == 2 /\ solute p' 7%Z == 3 /\ oxy snowpack * ((1 # 1000) * 18) == mass snowpack.
Proof. eexists. eexists. split; [reflexivity|]. vm_compute. repeat split; reflexivity. Qed.
