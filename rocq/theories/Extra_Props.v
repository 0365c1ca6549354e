(** Further theorems on properties C58, C80, C83 and C90. *)
From Coq Require Import Ascii String QArith ZArith List Bool Lqa Lia.
Import ListNotations.
From Verif Require Import Qx Calendar_Model Temp_Model Temp_Proofs Temp_Props Blend_Model Soln_Model Acct_Model Extra_Spec.
Local Open Scope string_scope.
Local Open Scope list_scope.
Local Open Scope Q_scope.

(** C80: of two hillslopes of one station and the same adjustments, the one that is higher by
    a thousand units is colder by the month's lapse rates. *)
Theorem C80_height : forall mxl mnl h1 h2 station_height ax an nstep d s,
  (nstep = 1 \/ dd d = 1)%Z ->
  let at_height h :=
    air_of s (update (mkSlope mxl mnl (elevation_factor h station_height) ax an) nstep d
                     (mkCorr 0 0 0)) in
  a_max (at_height h1) - a_max (at_height h2) == mxl (dm d) * ((h2 - h1) / 1000) /\
  a_min (at_height h1) - a_min (at_height h2) == mnl (dm d) * ((h2 - h1) / 1000) /\
  (a_max (at_height station_height) == s_max s + ax /\ a_min (at_height station_height) == s_min s + an).
Proof.
  intros mxl mnl h1 h2 sh ax an nstep d s H. unfold update.
  assert (E : ((nstep =? 1) || (dd d =? 1))%Z = true) by lia. cbv zeta. rewrite E.
  unfold correction, air_of, elevation_factor. cbn [a_max a_min cx cn elfac max_lapse min_lapse max_adj min_adj].
  repeat split; field.
Qed.
Print Assumptions C80_height.

(** C83: without a pan, potential evaporation is Hamon's: in proportion to the square of the
    hours of sun and to the density of saturated vapour. *)
Theorem C83_hamon : forall expf coef epan sun avg,
  ~ epan == 0 -> - (2373 # 10) < avg ->
  daily_potet expf None coef epan sun avg * epan == coef * (sun * sun) * vapour expf avg.
Proof.
  intros expf coef epan sun avg E T. unfold daily_potet, hamon, vapour. cbv zeta.
  set (x := expf _). field. split; lra.
Qed.
Print Assumptions C83_hamon.

Lemma fold_sum (g : Z -> Q) : forall l a, fold_left (fun a i => a + g i) l a == a + qsum (map g l).
Proof.
  induction l as [|i l IH]; intros a; cbn [fold_left map qsum]; [ring|]. rewrite IH. ring.
Qed.

Lemma counted : forall n a, count_from a n = map (fun i => (a + Z.of_nat i)%Z) (seq 0 n).
Proof.
  induction n as [|n IH]; intros a; [reflexivity|]. cbn [count_from seq map].
  rewrite Z.add_0_r. f_equal. rewrite IH, <- seq_shift, map_map. apply map_ext. intros i. lia.
Qed.

(** C90: the water that hillslopes bring to a segment is the sum over all hillslopes, each of
    them once. *)
Theorem C90_hillslopes : forall w ih,
  hills w ih == qsum (map (hillexp w ih) (map Z.of_nat (seq 1 (Z.to_nat (nmru w))))).
Proof.
  intros w ih. unfold hills. rewrite fold_sum. unfold Soln_Model.upto.
  rewrite Qplus_0_l, counted. replace (nmru w - 1 + 1)%Z with (nmru w) by lia.
  rewrite <- (seq_shift _ 0), !map_map. match goal with |- ?a == ?b => replace a with b; [reflexivity|] end. f_equal. apply map_ext. intros i.
  f_equal. lia.
Qed.
Print Assumptions C90_hillslopes.

Definition codes : list nat := seq 0 256.
Lemma code_in c : In (nat_of_ascii c) codes.
Proof. apply in_seq. pose proof (nat_ascii_bounded c). lia. Qed.
Definition alike (m n : nat) : bool :=
  Nat.eqb m n || existsb (fun k => (Nat.eqb m (65 + k) && Nat.eqb n (97 + k))
                               || (Nat.eqb n (65 + k) && Nat.eqb m (97 + k))) (seq 0 26).
Lemma all_codes : forallb (fun m => forallb (fun n =>
  Bool.eqb (Ascii.eqb (tolower (ascii_of_nat m)) (tolower (ascii_of_nat n))) (alike m n)) codes) codes = true.
Proof. vm_compute. reflexivity. Qed.
Lemma letter c d : tolower c = tolower d <-> same_letter c d.
Proof.
  pose proof all_codes as A. rewrite forallb_forall in A. specialize (A _ (code_in c)).
  cbv beta in A. rewrite forallb_forall in A. specialize (A _ (code_in d)). cbv beta in A.
  rewrite !ascii_nat_embedding in A. apply eqb_prop in A.
  rewrite <- Ascii.eqb_eq, A. unfold alike, same_letter.
  rewrite orb_true_iff, Nat.eqb_eq, existsb_exists. split.
  - intros [E|(k & K & E)].
    + left. rewrite <- (ascii_nat_embedding c), <- (ascii_nat_embedding d), E. reflexivity.
    + right. exists k. apply in_seq in K. split; [lia|].
      rewrite orb_true_iff, !andb_true_iff, !Nat.eqb_eq in E.
      destruct E as [[E F]|[E F]]; [left|right]; rewrite <- E, <- F; rewrite !ascii_nat_embedding; auto.
  - intros [-> | (k & K & E)]; [left; reflexivity|]. right. exists k.
    split; [apply in_seq; lia|]. rewrite orb_true_iff, !andb_true_iff, !Nat.eqb_eq.
    destruct E as [[-> ->]|[-> ->]]; rewrite !nat_ascii_embedding by lia; auto.
Qed.

(** C58: names of components of solid solutions are the same exactly if they are regardless of
    case. *)
Theorem C58_case : forall s t, lower s = lower t <-> same_word s t.
Proof.
  induction s as [|c s IH]; intros [|d t]; cbn [lower]; split; intros H; try discriminate;
    try (inversion H; fail).
  - constructor.
  - reflexivity.
  - assert (tolower c = tolower d) by congruence. assert (lower s = lower t) by congruence.
    constructor; [now apply letter|now apply IH].
  - inversion H; subst. f_equal; [now apply letter|now apply IH].
Qed.
Print Assumptions C58_case.

Example C58_case_example : same_word "Calcite" "cALCITE" /\ ~ same_word "a[" "a{".
Proof.
  split; [apply C58_case; reflexivity|]. intros H. apply C58_case in H. discriminate.
Qed.
Example C83_hamon_example : 0 < daily_potet (fun _ => 2) None 1 1 (1 # 2) 20.
Proof. reflexivity. Qed.
