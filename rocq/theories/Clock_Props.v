(** C40: end-of-period flags. *)
From Coq Require Import QArith ZArith Bool List Lia Lqa.
From Verif Require Import Qx Calendar_Model Calendar_Spec Clock_Model Clock_Spec Clock_Proofs.
Import ListNotations.
Local Open Scope Z_scope.

(** Whatever the clock sets, its readers decode exactly that; a run end implies a year end, which
    implies a month end, which implies a day end. *)
Theorem C40_round_trip : forall c mo day wyday jday endjday timestep,
  let f := set_flags c mo day wyday jday endjday timestep in
  decode (encode f) = f /\
  (f_run f = true -> f_year f = true) /\ (f_year f = true -> f_month f = true) /\
  (f_month f = true -> f_day f = true).
Proof.
  intros c mo day wyday j e t f. destruct (set_nested c mo day wyday j e t) as (A & B & C).
  split; [apply decode_encode; assumption|]. split; [exact A|]. split; [exact B | exact C].
Qed.
Print Assumptions C40_round_trip.

(** Codes carry the flags: any nested flags, with or without storm, are told apart. *)
Theorem C40_codes : forall f,
  (f_run f = true -> f_year f = true) -> (f_year f = true -> f_month f = true) ->
  (f_month f = true -> f_day f = true) -> decode (encode f) = f /\ 0 <= encode f < 32.
Proof.
  intros f A B C. split; [apply decode_encode; assumption|].
  destruct f as [[] [] [] [] []]; cbn; lia.
Qed.
Print Assumptions C40_codes.

(** Through a whole run, however long, every step's decoded flags say whether the step closes its
    day, month and water year and whether the run is over. *)
Theorem C40_flags : forall endjday ms,
  Forall (fun m => proper m /\ (0 <= step_hours m)%Q) ms -> enters_by_january ms ->
  exists l, iorun_all endjday clock0 ms = Some l /\
            Forall2 (fun m k => flags_right endjday m (decode k)) ms l.
Proof. intros. apply run_right; auto. Qed.
Print Assumptions C40_flags.

(** With n equal steps a day, exactly the last one closes the day. *)
Theorem C40_last_step : forall m n k, 1 <= n -> 0 <= k < n ->
  (step_hours m == 24 / inject_Z n)%Q ->
  (time_of_day (hour m) (minute m) (second m) == inject_Z k / inject_Z n)%Q ->
  (closes_day m <-> k = n - 1).
Proof.
  intros m n k N K D T. unfold closes_day. rewrite D, T.
  assert (P : (0 < inject_Z n)%Q) by (change 0%Q with (inject_Z 0); rewrite <- Zlt_Qlt; lia).
  assert (E : (inject_Z k / inject_Z n + (11 # 10) * (24 / inject_Z n) / 24 == (inject_Z k + (11 # 10)) / inject_Z n)%Q)
    by (field; lra).
  rewrite E. split.
  - intros [G | G].
    + assert (H : (24 * inject_Z n <= 24)%Q).
      { apply Qle_trans with (24 / inject_Z n * inject_Z n)%Q; [apply Qmult_le_compat_r; lra|].
        rewrite Qmult_comm, Qmult_div_r by lra. lra. }
      assert (H2 : (inject_Z n <= inject_Z 1)%Q) by (change (inject_Z 1) with 1%Q; lra).
      rewrite <- Zle_Qle in H2. lia.
    + assert (H : (1 * inject_Z n <= (inject_Z k + (11 # 10)))%Q).
      { apply Qle_trans with ((inject_Z k + (11 # 10)) / inject_Z n * inject_Z n)%Q; [apply Qmult_le_compat_r; lra|].
        rewrite Qmult_comm, Qmult_div_r by lra. lra. }
      assert (H2 : (inject_Z n < inject_Z (k + 2))%Q) by (rewrite inject_Z_plus; change (inject_Z 2) with 2%Q; lra).
      rewrite <- Zlt_Qlt in H2. lia.
  - intros ->. right. apply Qle_shift_div_l; [exact P|]. replace (n - 1) with (n + (-1)) by lia. rewrite inject_Z_plus. change (inject_Z (-1)) with (-1)%Q. lra.
Qed.
Print Assumptions C40_last_step.

Definition at_noon (y m d : Z) : moment :=
  {| on := mkdate y m d; hour := 12; minute := 0; second := 0; step_hours := 24 |}.

(** A run whose data skip 1 January keeps last year's February: the month is closed on 28
    February of a leap year. *)
Theorem C40_skipped_january_refuted : exists endjday ms m l k,
  Forall (fun m => proper m /\ (0 <= step_hours m)%Q) ms /\ In (m, k) (combine ms l) /\
  iorun_all endjday clock0 ms = Some l /\ ~ flags_right endjday m (decode k).
Proof.
  exists 9000000%Q, [at_noon 2003 12 31; at_noon 2004 1 2; at_noon 2004 2 28], (at_noon 2004 2 28), [6; 2; 6], 6.
  split; [|split; [|split]].
  - repeat (constructor; [split; [unfold proper, Valid; cbn; lia | cbn; lra]|]). constructor.
  - cbn. auto.
  - vm_compute. reflexivity.
  - intros (x & (n & J & X) & _ & _ & _ & M & _). cbn in M. destruct (proj1 M eq_refl) as [[L _] | L].
    + vm_compute in L. discriminate.
    + assert (K : n = 2453064) by (vm_compute in J; congruence). subst n.
      rewrite X in L. vm_compute in L. apply L. reflexivity.
Qed.
Print Assumptions C40_skipped_january_refuted.

Example C40_example :
  let ms := [at_noon 2003 12 31; at_noon 2004 1 1; at_noon 2004 2 28; at_noon 2004 2 29; at_noon 2004 9 30] in
  Forall (fun m => proper m /\ (0 <= step_hours m)%Q) ms /\ enters_by_january ms /\
  iorun_all 2453279 clock0 ms = Some [6; 2; 2; 6; 31].
Proof.
  cbv zeta. split; [|split].
  - repeat (constructor; [split; [unfold proper, Valid; cbn; lia | cbn; lra]|]). constructor.
  - cbn. lia.
  - vm_compute. reflexivity.
Qed.
