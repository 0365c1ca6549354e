(** C44: solution numbers; C45: mixing fractions. *)
From Coq Require Import QArith Qabs ZArith List Bool Lia Lqa.
From Verif Require Import Qx Soln_Model Soln_Spec Soln_Proofs.
Import ListNotations.
Local Open Scope Z_scope.

(** Two different waters never get the same number. *)
Theorem C44_own_number : forall b v w, basin_ok b -> in_basin b v -> in_basin b w ->
  number v = number w -> v = w.
Proof. exact number_inj. Qed.
Print Assumptions C44_own_number.

(** Decoding the number of a water reports that water's type, hillslope, bin, segment or source. *)
Theorem C44_decode : forall b w, basin_ok b -> in_basin b w ->
  reports (isoln (b_chem b) (b_mru b) (b_bin b) (number w)) w.
Proof. intros b w Hb Hw. exact (proj1 (decode_all b w Hb Hw)). Qed.
Print Assumptions C44_decode.

(** Two waters share a row of the chemistry table exactly when they are the same body at the
    start and end of the step; rows are positive and bounded by the number of bodies. *)
Theorem C44_rows : forall b v w, basin_ok b -> in_basin b v -> in_basin b w ->
  (row_of b v = row_of b w <-> same_body v w) /\
  1 <= row_of b v <= 1 + b_chem b + b_mru b * (b_bin b + 12) + (b_seg b + 1).
Proof.
  intros b v w Hb Hv Hw. split; [exact (row_same b v w Hb Hv Hw)|].
  pose proof (row_range b v Hb Hv). lia.
Qed.
Print Assumptions C44_rows.

(** The time level of [w] set to the start of the step. *)
Definition at_start (w : water) : water :=
  match w with Reservoir _ r m => Reservoir 0 r m | Unsat _ m n => Unsat 0 m n
             | Segment _ s => Segment 0 s | _ => w end.

(** The initialisation loop puts the start-of-step number of every body on the very row the
    decoder computes for it, when every hillslope has the full number of bins. *)
Theorem C44_assignment_partial : forall b bins w, basin_ok b -> in_basin b w ->
  (forall k, 1 <= k <= b_mru b -> bins k = b_bin b) ->
  nth (Z.to_nat (row_of b w - 1)) (assign_rows (b_chem b) (b_mru b) (b_seg b) bins) 0 =
  number (at_start w).
Proof. intros b bins w Hb Hw Hf. exact (assign_nth b Hb bins w 0 Hf Hw). Qed.
Print Assumptions C44_assignment_partial.

(** Without that restriction the loop and the decoder disagree: two hillslopes, the first with one
    bin fewer.  The saturated zone of hillslope 1 is initialised on another row than the one every
    later step uses, and the decoder's row holds a different reservoir. *)
Theorem C44_assignment_refuted : exists b bins w,
  basin_ok b /\ in_basin b w /\ (forall k, 1 <= k <= b_mru b -> 1 <= bins k <= b_bin b) /\
  nth (Z.to_nat (row_of b w - 1)) (assign_rows (b_chem b) (b_mru b) (b_seg b) bins) 0 <>
  number (at_start w).
Proof.
  exists {| b_chem := 1; b_mru := 2; b_bin := 2; b_seg := 1 |}, (fun k => if k =? 1 then 1 else 2),
    (Reservoir 0 8 1).
  split; [unfold basin_ok; cbn; lia|]. split; [cbn; lia|]. split.
  - intros k Hk. destruct (k =? 1); cbn; lia.
  - vm_compute. discriminate.
Qed.
Print Assumptions C44_assignment_refuted.

(** No two rows of the table carry the same number, whatever the bins of each hillslope. *)
Theorem C44_distinct_rows : forall b bins, basin_ok b ->
  (forall k, 1 <= k <= b_mru b -> 1 <= bins k <= b_bin b) ->
  NoDup (assign_rows (b_chem b) (b_mru b) (b_seg b) bins).
Proof. exact nodup_assign. Qed.
Print Assumptions C44_distinct_rows.

(** Rows assigned with distinct numbers: each tracked solution ends with the row of its number,
    untracked ones keep theirs, and a row is flagged exactly when some tracked solution has its
    number. *)
Theorem C44_tracking : forall rows r lut, NoDup rows ->
  let '(lut', flags) := flag_rows r rows lut in
  map snd lut' = map snd lut /\ length flags = length rows /\
  (forall i, (i < length rows)%nat -> nth i flags 0 = 1 <-> In (nth i rows 0) (map snd lut)) /\
  (forall i d, (i < length lut)%nat ->
     (forall k, (k < length rows)%nat -> snd (nth i lut d) = nth k rows 0 ->
        nth i lut' d = (r + Z.of_nat k, snd (nth i lut d))) /\
     (~ In (snd (nth i lut d)) rows -> nth i lut' d = nth i lut d)).
Proof. intros rows r lut H. exact (flag_rows_spec rows H r lut). Qed.
Print Assumptions C44_tracking.

Example C44_example :
  let b := {| b_chem := 3; b_mru := 10; b_bin := 11; b_seg := 4 |} in
  basin_ok b /\ in_basin b (Unsat 1 7 11) /\ number (Unsat 1 7 11) = 205007110 /\
  number (Reservoir 0 2 10) = 102010000 /\ number (Segment 1 4) = 400000004 /\
  row_of b (Unsat 1 7 11) = 121 /\ row_of b (Unsat 0 7 11) = 121 /\
  nth 120 (assign_rows 3 10 4 (fun _ => 11)) 0 = number (Unsat 0 7 11).
Proof. vm_compute. repeat split; discriminate. Qed.

Local Open Scope Q_scope.

(** A mix is accepted exactly when the fractions it is left with add up to one within 0.001.
    Every fraction that is not negative stays; a negative one is set to zero unless it belongs to
    evaporation or a snow ionic pulse, or follows such a negative fraction in the same mix. *)
Theorem C45_mix : forall l fs ans, checkfracs l = (fs, ans) ->
  length fs = length l /\
  (ans = 0%Z <-> Qabs (1 - qsum fs) <= 1 # 1000) /\ (ans = 0%Z \/ ans = 1%Z) /\
  (forall pre s f post, l = pre ++ (s, f) :: post ->
     (0 <= f -> nth (length pre) fs 0 = f) /\
     (f < 0 -> may_be_negative s = true -> nth (length pre) fs 0 = f) /\
     (f < 0 -> may_be_negative s = false ->
        (forall s' f', In (s', f') pre -> f' < 0 -> may_be_negative s' = false) ->
        nth (length pre) fs 0 = 0)).
Proof.
  intros l fs ans E. destruct (checkfracs_spec l fs ans E) as (A & B & C & D).
  split; [exact A|]. split; [exact B|]. split; [exact C|].
  intros pre s f post Q. rewrite (D pre s f post Q). split; [|split].
  - intros. replace (qlt f 0) with false by (symmetry; apply qlt_false; lra). reflexivity.
  - intros _ M. rewrite M, orb_true_r. cbn [negb]. rewrite andb_false_r. reflexivity.
  - intros N M P. replace (qlt f 0) with true by (symmetry; apply qlt_true; lra). rewrite M, orb_false_r.
    replace (licence pre) with false; [reflexivity|].
    symmetry. unfold licence. destruct (existsb _ pre) eqn:X; [|reflexivity].
    apply existsb_exists in X. destruct X as ([s' f'] & HI & HB). cbn [fst snd] in HB.
    apply andb_prop in HB. destruct HB as [H1 H2]. apply qlt_t in H1.
    rewrite (P s' f' HI H1) in H2. discriminate.
Qed.
Print Assumptions C45_mix.

(** The exception is real: after a negative evaporation fraction, a negative fraction of any other
    reservoir is left in the mix and accepted. *)
Theorem C45_zeroing_refuted : exists l fs pre s f post,
  checkfracs l = (fs, 0%Z) /\ l = pre ++ (s, f) :: post /\
  f < 0 /\ may_be_negative s = false /\ nth (length pre) fs 0 == f.
Proof.
  exists [(1%Z, - (1 # 10)); (104001000%Z, - (1 # 2)); (105001010%Z, 16 # 10)].
  exists [- (1 # 10); - (1 # 2); 16 # 10], [(1%Z, - (1 # 10))], 104001000%Z, (- (1 # 2)), [(105001010%Z, 16 # 10)].
  repeat split; try reflexivity.
Qed.
Print Assumptions C45_zeroing_refuted.

(** After a negative fraction of evaporation or of a snow ionic pulse, every
    negative fraction of the same mix is left as it is. *)
Theorem C45_kept_refuted : forall l fs ans pre s f post s' f', checkfracs l = (fs, ans) ->
  l = pre ++ (s, f) :: post -> f < 0 -> In (s', f') pre -> f' < 0 -> may_be_negative s' = true ->
  nth (length pre) fs 0 = f.
Proof.
  intros l fs ans pre s f post s' f' E L N I1 N' M. destruct (checkfracs_spec l fs ans E) as (_ & _ & _ & D).
  rewrite (D pre s f post L). replace (licence pre) with true.
  - cbn [orb negb]. rewrite andb_false_r. reflexivity.
  - symmetry. unfold licence. apply existsb_exists. exists (s', f'). split; [exact I1|]. cbn [fst snd].
    rewrite M, andb_true_r. apply qlt_true. exact N'.
Qed.
Print Assumptions C45_kept_refuted.

Example C45_example :
  checkfracs [(104001000%Z, - (1 # 1000000)); (105001010%Z, 1 # 4); (105001020%Z, 3 # 4)]
    = ([0; 1 # 4; 3 # 4], 0%Z) /\
  snd (checkfracs [(104001000%Z, 1 # 2); (105001010%Z, 1 # 4)]) = 1%Z.
Proof. vm_compute. auto. Qed.
