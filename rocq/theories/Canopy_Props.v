(** C41: canopy interception conserves water. *)
From Coq Require Import QArith ZArith List Bool Lqa.
Import ListNotations.
From Verif Require Import Qx Canopy_Model Canopy_Spec Canopy_Proofs.
Local Open Scope Q_scope.

(** One interception: net precipitation plus the cover-weighted increase of the storage is the
    precipitation; the storage stays between zero and capacity and net precipitation is
    nonnegative; a storage within capacity does not shrink and throughfall is at most the
    precipitation. *)
Theorem C41_intercept : forall precip stor_max cov st,
  0 <= precip -> 0 <= stor_max -> 0 <= cov <= 1 -> 0 <= st ->
  let '(st', net) := intercept precip stor_max cov st in
  net + cov * (st' - st) == precip /\ 0 <= st' /\ st' <= stor_max /\ 0 <= net /\
  (st <= stor_max -> st <= st' /\ net <= precip).
Proof.
  intros precip stor_max cov st A B C D.
  destruct (intercept precip stor_max cov st) eqn:E. exact (intercept_ok _ _ _ _ _ _ A B C D E).
Qed.
Print Assumptions C41_intercept.

(** One time step of a hillslope, for every weather: nothing becomes negative, and net
    deposition plus evaporation plus canopy water after equals rain plus snow plus canopy
    water before, unless the season change or the cover type makes the code discard stored
    water (see the refutations). *)
Theorem C41_step_partial : forall c w s,
  canopy_ok c -> weather_ok w -> 0 <= stor s ->
  let '(s', o) := canopy_step c w s in
  0 <= stor s' /\ 0 <= net_rain o /\ 0 <= net_snow o /\
  net_dep o == net_rain o + net_snow o /\
  (season_kept c w s -> type_kept c w s ->
   net_dep o + evap o + canopy_water c s' == rain w + snow w + canopy_water c s).
Proof.
  intros c w s A B C. destruct (canopy_step c w s) as [s' o] eqn:E.
  destruct (canopy_step_ok c w s s' o A B C E) as (? & ? & ? & ? & ? & ? & ? & ?). auto.
Qed.
Print Assumptions C41_step_partial.

(** Any number of time steps of an evergreen canopy: total balance. *)
Theorem C41_run : forall c, canopy_ok c -> (1 < cov_type c)%Z ->
  covden_sum c == covden_win c -> ~ covden_sum c == 0 ->
  forall ws s, Forall weather_ok ws -> 0 <= stor s ->
  let '(s', os) := canopy_run c ws s in
  0 <= stor s' /\
  qsum (map net_dep os) + qsum (map evap os) + canopy_water c s'
  == qsum (map rain ws) + qsum (map snow ws) + canopy_water c s.
Proof. exact canopy_run_ok. Qed.
Print Assumptions C41_run.

Definition ex_can (t : Z) (cs cw : Q) : canopy :=
  {| cov_type := t; covden_sum := cs; covden_win := cw; srain := 1 # 10; wrain := 5 # 100;
     snowcap := 1 # 20 |}.
Definition ex_w (r n : Q) (t : bool) : weather :=
  {| rain := r; snow := n; pkwater := 0; transp := t; potet := 2 # 100; dtlong := true;
     basin_dep := r + n; temp_c := 5; swrad := 100 |}.
Example ex_can_ok t : canopy_ok (ex_can t (1 # 2) (1 # 2)).
Proof. unfold canopy_ok; simpl. repeat split; discriminate. Qed.
Example ex_w_ok : weather_ok (ex_w (3 # 10) 0 true).
Proof. unfold weather_ok; simpl. repeat split; discriminate || (intros H; discriminate). Qed.

Example C41_example :
  let '(s', os) := canopy_run (ex_can 3 (1#2) (1#2)) [ex_w (3#10) 0 true; ex_w 0 0 true]
                    {| stor := 0; on := false; tr := true; evap0 := 0 |} in
  stor s' == 6 # 100 /\ qsum (map net_dep os) == 25 # 100 /\ qsum (map evap os) == 2 # 100.
Proof. vm_compute. auto. Qed.

(** The full balance fails at leaf fall: on the first step after the transpiration period the
    stored water is weighted with the smaller winter cover and the difference appears
    neither as evaporation nor as net precipitation. *)
Theorem C41_leaf_fall_refuted : exists c w s,
  canopy_ok c /\ weather_ok w /\ 0 <= stor s /\ (1 < cov_type c)%Z /\
  let '(s', o) := canopy_step c w s in
  net_dep o + evap o + canopy_water c s' < rain w + snow w + canopy_water c s.
Proof.
  exists (ex_can 3 (1#2) (1#4)), (ex_w 0 0 false),
    {| stor := 1 # 10; on := true; tr := true; evap0 := 0 |}.
  split; [unfold canopy_ok; simpl; repeat split; discriminate|].
  split; [unfold weather_ok; simpl; repeat split; try discriminate; intros H; discriminate|].
  split; [discriminate|]. split; [reflexivity|]. vm_compute. reflexivity.
Qed.
Print Assumptions C41_leaf_fall_refuted.

(** It also fails for grass (cover type 1): when rain falls on a snow pack the water stored on
    the canopy is set to zero and is lost. *)
Theorem C41_grass_refuted : exists c w s,
  canopy_ok c /\ weather_ok w /\ 0 <= stor s /\ season_kept c w s /\
  let '(s', o) := canopy_step c w s in
  net_dep o + evap o + canopy_water c s' < rain w + snow w + canopy_water c s.
Proof.
  exists (ex_can 1 (1#2) (1#2)),
    {| rain := 1 # 10; snow := 0; pkwater := 1; transp := true; potet := 0; dtlong := true;
       basin_dep := 1 # 10; temp_c := 5; swrad := 100 |},
    {| stor := 1 # 10; on := true; tr := true; evap0 := 0 |}.
  split; [apply ex_can_ok|].
  split; [unfold weather_ok; simpl; repeat split; try discriminate; intros H; discriminate|].
  split; [discriminate|]. split; [left; reflexivity|]. vm_compute. reflexivity.
Qed.
Print Assumptions C41_grass_refuted.
