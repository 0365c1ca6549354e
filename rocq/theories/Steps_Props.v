(** Properties C92-C95: batch reactions in steps. *)

From Coq Require Import String Ascii List ZArith QArith Bool Lia Lqa ZifyBool.
From Verif Require Import Steps_Model Steps_Spec Steps_Proofs.
Import ListNotations.
Local Open Scope string_scope.
Local Open Scope list_scope.
Local Open Scope Z_scope.

(** * C92: amounts of reaction *)

(** A line "v unit in n steps" (the unit may be left out): after step k, the
    amount of reaction is the part k/n of v, and all of v after step n, be it
    reached in one go from the start or added step by step. *)
Theorem C92_equal : forall units v i w mid t post n c,
  units w = Moles c \/ units w = NotUnit /\ c = "M"%char ->
  Forall no_int mid -> int_of t = Some n -> 0 < n ->
  exists x, read_rxn units [Num v i :: Word w :: mid ++ t :: post] = (x, O) /\
    steps_of (x_sched x) = n /\
    forall k coef, (1 <= k)%nat ->
      (rxn_add false x (Z.of_nat k) 1 coef == coef * share (v * unit_factor c) n (Z.of_nat k))%Q /\
      (sum_to (fun j => rxn_add true x j 1 coef) k == coef * share (v * unit_factor c) n (Z.of_nat k))%Q.
Proof.
  intros units v i w mid t post n c U F T P.
  exists (mkRxn (mkSched [v] true n) c). split; [|split].
  - unfold read_rxn. cbn [fold_left fst snd].
    unfold read_rxn_line. cbn [x_sched new_rxn s_list s_equal s_count x_unit].
    cbn [read_incs app].
    assert (N : (n =? 0) = false) by lia.
    destruct U as [U | [U ->]]; rewrite U.
    + assert (R : forall (A : Type) (p q : A),
        match mid ++ t :: post with [] => p | _ :: _ => q end = q) by (intros; destruct mid; reflexivity).
      rewrite R. unfold read_equal. cbn [x_sched steps_of s_equal].
      change (negb (len (mkSched [v] false 0) =? 1)) with false. cbv iota.
      rewrite (find_count_at mid t post n) by assumption.
      cbn [x_sched s_list s_equal s_count x_unit andb]. rewrite N. reflexivity.
    + unfold read_equal. cbn [x_sched steps_of s_equal].
      change (negb (len (mkSched [v] false 0) =? 1)) with false. cbv iota.
      change (Word w :: mid ++ t :: post) with ((Word w :: mid) ++ t :: post).
      rewrite (find_count_at (Word w :: mid) t post n); [| constructor; [reflexivity | assumption] | assumption | assumption].
      cbn [x_sched s_list s_equal s_count x_unit andb]. rewrite N. reflexivity.
  - reflexivity.
  - intros k coef K.
    assert (SH : forall q f m, (share (q * f) n m == share q n m * f)%Q)
      by (intros; unfold share; field; apply inject_nz; lia).
    split.
    + unfold rxn_add. cbn [x_sched x_unit].
      rewrite (rxn_equal_total v n (Z.of_nat k)) by lia. rewrite SH. ring.
    + rewrite SH, <- (rxn_equal_sum v n k P). clear K.
      induction k as [|k IH]; cbn [sum_to]; [ring |]. rewrite IH.
      unfold rxn_add. cbn [x_sched x_unit]. ring.
Qed.
Print Assumptions C92_equal.

(** Lists of amounts, on one or more lines, with [n*v] for n times v: step k
    takes the k-th of them, or the last when there are more steps than
    amounts; in both modes. *)
Theorem C92_list : forall units lines, Forall (Forall is_amount) lines ->
  concat (map numbers lines) <> [] ->
  exists x, read_rxn units lines = (x, O) /\
    steps_of (x_sched x) = Z.of_nat (length (concat (map numbers lines))) /\
    forall inc k q coef f, (1 <= k)%nat -> kth (concat (map numbers lines)) k q ->
      (rxn_add inc x (Z.of_nat k) f coef == coef * q * f)%Q.
Proof.
  intros units lines F NE. exists (mkRxn (mkSched (concat (map numbers lines)) false 0) "M"%char).
  split; [|split].
  - unfold read_rxn.
    assert (G : forall ls l, Forall (Forall is_amount) ls ->
      fold_left (fun a ts => read_rxn_line units ts (fst a) (snd a)) ls
        (mkRxn (mkSched l false 0) "M"%char, O) =
      (mkRxn (mkSched (l ++ concat (map numbers ls)) false 0) "M"%char, O)).
    { induction ls as [|a ls IH]; intros l F'; cbn [fold_left map concat].
      - rewrite app_nil_r. reflexivity.
      - inversion F' as [|? ? A F'']; subst. cbn [fst snd].
        unfold read_rxn_line at 2. cbn [x_sched s_list s_equal s_count x_unit].
        rewrite <- (app_nil_r a) at 1. rewrite read_incs_amounts by (try assumption; intros; discriminate).
        rewrite IH by assumption. rewrite <- app_assoc. reflexivity. }
    unfold new_rxn. rewrite G by assumption. cbn [app x_sched s_list s_equal s_count x_unit andb].
    destruct (concat (map numbers lines)); [congruence | reflexivity].
  - reflexivity.
  - intros inc k q coef f K H. unfold rxn_add. cbn [x_sched x_unit].
    rewrite (rxn_list_amount inc _ 0 k q K H). change (unit_factor "M") with 1%Q. ring.
Qed.
Print Assumptions C92_list.

(** A unit after the amounts scales each of them. *)
Theorem C92_units : forall units ts w c, Forall is_amount ts -> numbers ts <> [] ->
  units w = Moles c ->
  exists x, read_rxn units [ts ++ [Word w]] = (x, O) /\
    forall inc k q coef f, (1 <= k)%nat -> kth (numbers ts) k q ->
      (rxn_add inc x (Z.of_nat k) f coef == coef * (q * unit_factor c) * f)%Q.
Proof.
  intros units ts w c F NE U. exists (mkRxn (mkSched (numbers ts) false 0) c). split.
  - unfold read_rxn. cbn [fold_left fst snd]. unfold read_rxn_line.
    cbn [x_sched new_rxn s_list s_equal s_count x_unit].
    rewrite read_incs_amounts by (try assumption; intros t r E; injection E as <- <-; eauto).
    cbn [app]. rewrite U. cbn [x_sched s_list s_equal s_count x_unit andb].
    destruct (numbers ts); [congruence | reflexivity].
  - intros inc k q coef f K H. unfold rxn_add. cbn [x_sched x_unit].
    rewrite (rxn_list_amount inc _ 0 k q K H). reflexivity.
Qed.
Print Assumptions C92_units.

(** The letters stand for the powers of ten of the prefixes: "moles" is kept
    as it is, the others are 10^-3, 10^-6 and 10^-9 moles. *)
Theorem C92_prefixes : forall units v i w c per_mole,
  In (c, per_mole) [("M"%char, 1); ("m"%char, 1000); ("u"%char, 1000 * 1000);
                    ("n"%char, 1000 * 1000 * 1000)]%Q ->
  units w = Moles c ->
  exists x, read_rxn units [[Num v i; Word w]] = (x, O) /\
    forall inc k coef f, (1 <= k)%nat ->
      (rxn_add inc x (Z.of_nat k) f coef == coef * (v / per_mole) * f)%Q.
Proof.
  intros units v i w c p H U.
  assert (A : Forall is_amount [Num v i]) by (repeat constructor).
  assert (NE : numbers [Num v i] <> []) by discriminate.
  destruct (C92_units units [Num v i] w c A NE U) as (x & E & D).
  exists x. split; [exact E|]. intros inc k coef f K.
  rewrite (D inc k v coef f K).
  - cbn [In] in H. destruct H as [H | [H | [H | [H | []]]]]; injection H as <- <-.
    + change (unit_factor "M") with 1%Q. field.
    + change (unit_factor "m") with (1 # 1000)%Q. field.
    + change (unit_factor "u") with (1 # 1000000)%Q. field.
    + change (unit_factor "n") with (1 # 1000000000)%Q. field.
  - unfold kth. cbn [numbers length]. replace (Nat.min k 1 - 1)%nat with 0%nat by lia. reflexivity.
Qed.
Print Assumptions C92_prefixes.


(** No amount given: one mole. *)
Theorem C92_default : forall units inc k coef, (1 <= k)%nat ->
  (rxn_add inc (fst (read_rxn units [])) (Z.of_nat k) 1 coef == coef)%Q.
Proof.
  intros units inc k coef K. cbn. unfold rxn_add. cbn [x_sched x_unit].
  rewrite (rxn_list_amount inc [1%Q] 0 k 1%Q K).
  - change (unit_factor "M") with 1%Q. ring.
  - unfold kth. cbn [length]. replace (Nat.min k 1 - 1)%nat with 0%nat by lia. reflexivity.
Qed.
Print Assumptions C92_default.

(** REACTION keeps one unit for all its amounts: with amounts on two lines in
    two units, the unit of the second line is applied to the amounts of the
    first, without a message ("1 mol" and then "1 mmol" adds 1 mmol in the
    first step). *)
Theorem C92_two_units_refuted : forall units a ia b ib w1 w2 c1 c2 inc coef,
  units w1 = Moles c1 -> units w2 = Moles c2 ->
  let '(x, errs) := read_rxn units [[Num a ia; Word w1]; [Num b ib; Word w2]] in
  errs = O /\
  (rxn_add inc x 1 1 coef == coef * (a * unit_factor c2))%Q /\
  (rxn_add inc x 2 1 coef == coef * (b * unit_factor c2))%Q.
Proof.
  intros units a ia b ib w1 w2 c1 c2 inc coef U1 U2.
  assert (E1 : read_rxn_line units [Num a ia; Word w1] new_rxn O = (mkRxn (mkSched [a] false 0) c1, O))
    by (unfold read_rxn_line; cbn [x_sched new_rxn s_list s_equal s_count x_unit read_incs app]; rewrite U1; reflexivity).
  assert (E2 : read_rxn_line units [Num b ib; Word w2] (mkRxn (mkSched [a] false 0) c1) O
               = (mkRxn (mkSched [a; b] false 0) c2, O))
    by (unfold read_rxn_line; cbn [x_sched s_list s_equal s_count x_unit read_incs app]; rewrite U2; reflexivity).
  unfold read_rxn. cbn [fold_left fst snd]. rewrite E1. cbn [fst snd]. rewrite E2.
  cbn [x_sched s_list s_equal s_count x_unit andb].
  split; [reflexivity |]. unfold rxn_add. cbn [x_sched x_unit].
  split.
  - change 1 with (Z.of_nat 1) at 1. rewrite (rxn_list_amount inc [a; b] 0 1 a) by (try lia; reflexivity). ring.
  - change 2 with (Z.of_nat 2) at 1. rewrite (rxn_list_amount inc [a; b] 0 2 b) by (try lia; reflexivity). ring.
Qed.
Print Assumptions C92_two_units_refuted.

(** Amounts on a line after "v in n steps" are read without a message and
    then never used. *)
Theorem C92_after_equal_refuted : forall units v i w n j more inc k coef,
  units w = NotUnit -> 0 < n -> Forall is_amount more ->
  let '(x, errs) := read_rxn units [[Num v i; Word w; Num (inject_Z n) (Some n)]; more] in
  errs = O /\ steps_of (x_sched x) = n /\
  (rxn_add inc x k j coef ==
   rxn_add inc (fst (read_rxn units [[Num v i; Word w; Num (inject_Z n) (Some n)]])) k j coef)%Q.
Proof.
  intros units v i w n j more inc k coef U P F.
  assert (E : read_rxn_line units [Num v i; Word w; Num (inject_Z n) (Some n)] new_rxn O =
              (mkRxn (mkSched [v] true n) "M"%char, O)).
  { unfold read_rxn_line. cbn [x_sched new_rxn s_list s_equal s_count x_unit read_incs app].
    rewrite U. unfold read_equal. cbn [x_sched steps_of s_equal].
    change (negb (len (mkSched [v] false 0) =? 1)) with false. cbv iota.
    cbn [find_count int_of]. replace (0 <? n) with true by lia. reflexivity. }
  unfold read_rxn. cbn [fold_left fst snd]. rewrite E. cbn [fst snd].
  unfold read_rxn_line. cbn [x_sched s_list s_equal s_count x_unit].
  rewrite <- (app_nil_r more). rewrite read_incs_amounts by (try assumption; intros; discriminate).
  cbn [app x_sched s_list s_equal s_count x_unit andb fst].
  replace (n =? 0) with false by lia.
  split; [reflexivity |]. split; [reflexivity |].
  unfold rxn_add, rxn_amount, steps_of. cbn [x_sched x_unit s_list s_equal s_count negb].
  change (at_ (mkSched (v :: numbers more) true n) 1) with v.
  change (at_ (mkSched [v] true n) 1) with v. reflexivity.
Qed.
Print Assumptions C92_after_equal_refuted.

(** A table of units for the examples: what check_units makes of them. *)
Definition some_units (w : string) : ucheck :=
  if String.eqb w "millimoles" then Moles "m"
  else if String.eqb w "moles" then Moles "M"
  else if String.eqb w "grams" then NotMoles
  else NotUnit.

(** "6 millimoles in 3 steps". *)
Example C92_equal_case :
  let '(x, errs) := read_rxn some_units
     [[Num 6 (Some 6); Word "millimoles"; Word "in"; Num 3 (Some 3); Word "steps"]] in
  (errs, steps_of (x_sched x)) = (O, 3) /\
  map (fun k => Qred (rxn_add false x k 1 2)) [1; 2; 3; 4] = [1 # 250; 1 # 125; 3 # 250; 3 # 250]%Q /\
  map (fun k => Qred (rxn_add true x k 1 2)) [1; 2; 3; 4] = [1 # 250; 1 # 250; 1 # 250; 0]%Q.
Proof. vm_compute. repeat split. Qed.

(** "1 2*3" and then "5 millimoles", and a line in grams. *)
Example C92_list_case :
  let '(x, errs) := read_rxn some_units
     [[Num 1 (Some 1); Times 2 3]; [Num 5 (Some 5); Word "millimoles"]] in
  (errs, steps_of (x_sched x)) = (O, 4) /\
  map (fun k => Qred (rxn_add false x k 1 1)) [1; 2; 3; 4; 5] =
    [1 # 1000; 3 # 1000; 3 # 1000; 1 # 200; 1 # 200]%Q /\
  snd (read_rxn some_units [[Num 1 (Some 1); Word "grams"]]) = 1%nat /\
  snd (read_rxn some_units [[Num 1 (Some 1); Num 2 (Some 2); Word "in"; Num 3 (Some 3)]]) = 1%nat.
Proof. vm_compute. repeat split. Qed.

(** * C93: times of kinetic reactions *)

(** "-steps T in n": after step k the time is the part k/n of T, in both
    modes. *)
Theorem C93_equal : forall v i w mid t n,
  first_low w = Some "i"%char -> Forall no_int mid -> int_of t = Some n -> 0 < n ->
  exists s, read_kin (Num v i :: Word w :: mid ++ [t]) = (s, O) /\ steps_of s = n /\
    forall k, (1 <= k)%nat ->
      (kin_time false s (Z.of_nat k) == share v n (Z.of_nat k))%Q /\
      (sum_to (kin_time true s) k == share v n (Z.of_nat k))%Q.
Proof.
  intros v i w mid t n W F T P. exists (mkSched [v] true n). split; [|split].
  - unfold read_kin. rewrite kin_in by assumption. rewrite (kin_seek mid _ None t [] n) by assumption.
    cbn [fold_left]. cbv zeta. cbn [k_sched k_units k_errs s_list s_equal s_count].
    rewrite Z.abs_eq by lia. reflexivity.
  - reflexivity.
  - intros k K. split; [apply kin_equal_total; lia | apply kin_equal_sum; assumption].
Qed.
Print Assumptions C93_equal.

(** A list of times with or without a unit: step k takes the k-th time, the
    last when there are more steps than times. *)
Theorem C93_list : forall ts unit_, Forall is_amount ts -> numbers ts <> [] ->
  (forall w, unit_ = Some w -> first_low w <> Some "i"%char) ->
  exists s, read_kin (ts ++ match unit_ with Some w => [Word w] | None => [] end) = (s, O) /\
    steps_of s = Z.of_nat (length (numbers ts)) /\
    forall inc k q, (1 <= k)%nat -> kth (numbers ts) k q ->
      (kin_time inc s (Z.of_nat k) ==
       q * match unit_ with Some w => unit_seconds w | None => 1 end)%Q.
Proof.
  intros ts unit_ F NE U.
  destruct unit_ as [w|].
  - exists (mkSched (map (fun q => q * unit_seconds w)%Q (numbers ts)) false 0).
    specialize (U w eq_refl). split; [|split].
    + unfold read_kin. rewrite fold_left_app, kin_run_amounts by assumption.
      cbn [fold_left app s_list s_equal s_count].
      unfold kin_token. cbn [k_stop k_seek k_sched k_units k_errs].
      destruct (first_low w) as [c|] eqn:W.
      * destruct (Ascii.eqb c "i") eqn:B; [apply Ascii.eqb_eq in B; subst c; congruence |].
        cbn [k_sched k_units k_errs s_list s_equal s_count].
        destruct (numbers ts); [congruence | reflexivity].
      * cbn [k_sched k_units k_errs s_list s_equal s_count].
        destruct (numbers ts); [congruence | reflexivity].
    + unfold steps_of, len. cbn [s_equal s_list]. rewrite map_length. reflexivity.
    + intros inc k q K H.
      rewrite (kin_list_time inc _ 0 k (q * unit_seconds w)%Q K); [reflexivity |].
      unfold kth in *. rewrite map_length. apply (map_nth_error (fun q => q * unit_seconds w)%Q). exact H.
  - exists (mkSched (numbers ts) false 0). split; [|split].
    + unfold read_kin. rewrite app_nil_r, kin_run_amounts by assumption.
      cbn [k_sched k_units k_errs s_list s_equal s_count app].
      destruct (numbers ts); [congruence | reflexivity].
    + reflexivity.
    + intros inc k q K H. rewrite (kin_list_time inc _ 0 k q K H). ring.
Qed.
Print Assumptions C93_list.

(** Letters are taken without regard to capitals, and nothing but its first
    letter counts in a unit of time: minutes, hours, days and years of 365.25
    days are known by it, and any other word means seconds. A word that begins
    with i asks for equal increments. *)
Theorem C93_units : forall c rest,
  let first l := In c l in
  (first ["m"; "M"]%char -> (unit_seconds (String c rest) == 60)%Q) /\
  (first ["h"; "H"]%char -> (unit_seconds (String c rest) == 60 * 60)%Q) /\
  (first ["d"; "D"]%char -> (unit_seconds (String c rest) == 24 * 60 * 60)%Q) /\
  (first ["y"; "Y"]%char -> (unit_seconds (String c rest) == (36525 # 100) * 24 * 60 * 60)%Q) /\
  (~ first ["m"; "M"; "h"; "H"; "d"; "D"; "y"; "Y"]%char -> (unit_seconds (String c rest) == 1)%Q) /\
  (first ["i"; "I"]%char <-> first_low (String c rest) = Some "i"%char).
Proof.
  intros c rest first. unfold first. split; [|split; [|split; [|split; [|split]]]].
  1-4: intros [<- | [<- | []]]; vm_compute; reflexivity.
  - unfold unit_seconds, first_low. destruct c as [[] [] [] [] [] [] [] []]; intros N; try (vm_compute; reflexivity); exfalso; apply N; cbn; tauto.
  - split; [intros [<- | [<- | []]]; reflexivity|]. intros H. unfold first_low in H.
    destruct c as [[] [] [] [] [] [] [] []]; first [cbn; left; reflexivity | cbn; right; left; reflexivity | discriminate H].
Qed.
Print Assumptions C93_units.

Lemma kin_amounts : forall ts s u e, Forall is_amount ts ->
  fold_left kin_token ts (mkKread s u e false false) =
  mkKread (mkSched (s_list s ++ numbers ts) (s_equal s) (s_count s)) u e false false.
Proof.
  induction ts as [|t r IH]; intros s u e F.
  - cbn. rewrite app_nil_r. destruct s; reflexivity.
  - inversion F as [|? ? A F']; subst. cbn [fold_left].
    destruct t; cbn in A; try contradiction; cbn [kin_token k_stop k_seek k_sched k_units k_errs];
      rewrite IH by assumption; cbn [s_list s_equal s_count numbers]; rewrite <- app_assoc; reflexivity.
Qed.

Lemma kin_stopped : forall ts s u e b,
  fold_left kin_token ts (mkKread s u e b true) = mkKread s u e b true.
Proof. induction ts as [|t r IH]; intros; cbn [fold_left]; [reflexivity|]. apply IH. Qed.

(** Only one time can be divided: "in" after any other number of times is
    reported as an error, whatever follows. *)
Theorem C93_several : forall ts w rest,
  Forall is_amount ts -> length (numbers ts) <> 1%nat -> first_low w = Some "i"%char ->
  exists s, read_kin (ts ++ Word w :: rest) = (s, 1%nat).
Proof.
  intros ts w rest F L W. unfold read_kin. rewrite fold_left_app, kin_amounts by assumption.
  cbn [fold_left kin_token k_stop k_seek k_sched k_units k_errs s_list s_equal s_count app].
  rewrite W. replace (Ascii.eqb "i" "i") with true by reflexivity.
  unfold len; cbn [s_list].
  replace (Z.of_nat (length (numbers ts)) =? 1) with false by lia. cbn [negb].
  rewrite kin_stopped. cbn [k_sched k_units k_errs]. eexists. reflexivity.
Qed.
Print Assumptions C93_several.

(** KINETICS "-steps v day in n steps": the word "steps" after the number of
    increments is taken as the unit of time, in place of the one given, and
    stands for seconds, so the total is v seconds.  The same for every unit,
    every number and every word that does not start with i, m, h, d or y. *)
Theorem C93_unit_lost_refuted : forall v i u w n j last c k,
  (forall a, first_low u = Some a -> a <> "i"%char) -> u <> "" ->
  first_low w = Some "i"%char -> 0 < n -> (1 <= k)%nat ->
  first_low last = Some c -> ~ In c ["i"; "m"; "h"; "d"; "y"]%char ->
  exists s, read_kin [Num v i; Word u; Word w; Num j (Some n); Word last] = (s, O) /\
    (kin_time false s (Z.of_nat k) == share v n (Z.of_nat k))%Q /\
    (sum_to (kin_time true s) k == share v n (Z.of_nat k))%Q.
Proof.
  intros v i u w n j last c k U NU W P K L NC.
  destruct (first_low u) as [a|] eqn:FU; [|destruct u; [congruence | discriminate]].
  specialize (U a eq_refl). apply Ascii.eqb_neq in U.
  assert (NCs : forall x, In x ["i"; "m"; "h"; "d"; "y"]%char -> Ascii.eqb c x = false)
    by (intros x X; apply Ascii.eqb_neq; intros ->; contradiction).
  exists (mkSched [(v * 1)%Q] true n). split; [|split].
  - unfold read_kin. rewrite (kin_unit_in v i u w _ a) by assumption.
    change [Num j (Some n); Word last] with ([] ++ Num j (Some n) :: [Word last]).
    rewrite (kin_seek [] _ (Some u) (Num j (Some n)) [Word last] n) by (try reflexivity; constructor).
    cbn [fold_left s_list s_equal].
    assert (E : kin_token (mkKread (mkSched [v] true (Z.abs n)) (Some u) O false false) (Word last) =
                mkKread (mkSched [v] true (Z.abs n)) (Some last) O false false).
    { unfold kin_token. cbn [k_stop k_seek]. rewrite L, (NCs "i"%char) by (cbn; tauto). reflexivity. }
    rewrite E. cbv zeta. cbn [k_sched k_units k_errs s_list s_equal s_count map].
    unfold unit_seconds. rewrite L.
    rewrite (NCs "m"%char), (NCs "h"%char), (NCs "d"%char), (NCs "y"%char) by (cbn; tauto).
    rewrite Z.abs_eq by lia. reflexivity.
  - rewrite kin_equal_total by lia. unfold share. field. apply inject_nz; lia.
  - rewrite kin_equal_sum by lia. unfold share. field. apply inject_nz; lia.
Qed.
Print Assumptions C93_unit_lost_refuted.

(** KINETICS "-steps v in" with no number, or with 0: no message, and with
    INCREMENTAL_REACTIONS every step then lasts no time at all, while without
    it every step lasts v. *)
Theorem C93_no_count_refuted : forall v i w tail k,
  first_low w = Some "i"%char -> Forall no_int tail \/ (exists q, tail = [Num q (Some 0)]) -> 1 <= k ->
  exists s, read_kin (Num v i :: Word w :: tail) = (s, O) /\
    kin_time true s k = 0%Q /\ kin_time false s k = v.
Proof.
  intros v i w tail k W F K. exists (mkSched [v] true 0). split; [|split].
  - unfold read_kin. rewrite kin_in by assumption.
    destruct F as [F | [q ->]].
    + assert (G : fold_left kin_token tail (mkKread (mkSched [v] true 0) None 0 true false) =
                  mkKread (mkSched [v] true 0) None 0 true false).
      { induction tail as [|t tail IH]; cbn [fold_left]; [reflexivity |].
        inversion F as [|? ? A F']; subst. unfold no_int in A.
        unfold kin_token at 2. cbn [k_stop k_seek]. rewrite A. apply IH. assumption. }
      rewrite G. reflexivity.
    + reflexivity.
  - unfold kin_time. cbn [s_list s_equal s_count negb]. replace (0 <? k) with true by lia. reflexivity.
  - unfold kin_time. cbn [s_list s_equal s_count negb]. replace (0 <? k) with true by lia. reflexivity.
Qed.
Print Assumptions C93_no_count_refuted.

(** "100 2*50 hours"; "1 day in 2 steps"; "1 2 in 3" is an error. *)
Example C93_case :
  map (fun k => Qred (kin_time true (fst (read_kin [Num 100 (Some 100); Times 2 50; Word "hours"])) k))
      [1; 2; 3; 4] = [360000; 180000; 180000; 180000]%Q /\
  map (fun k => Qred (kin_time true (fst (read_kin
        [Num 1 (Some 1); Word "day"; Word "in"; Num 2 (Some 2); Word "steps"])) k)) [1; 2; 3]
      = [1 # 2; 1 # 2; 0]%Q /\
  map (fun k => Qred (kin_time true (fst (read_kin
        [Num 1 (Some 1); Word "day"; Word "in"; Num 2 (Some 2)])) k)) [1; 2; 3]
      = [43200; 43200; 0]%Q /\
  snd (read_kin [Num 1 (Some 1); Num 2 (Some 2); Word "in"; Num 3 (Some 3)]) = 1%nat.
Proof. vm_compute. repeat split. Qed.

(** * C94: temperatures and pressures of the steps *)

(** Two levels in n increments: the first step has the first level, step n
    and all later ones the second, and each step in between rises by the same
    amount; no step leaves the range between the two. *)
Theorem C94_equal : forall a b n, 2 <= n ->
  let s := mkSched [a; b] true n in
  (level s 1 == a)%Q /\
  (forall k, n <= k -> (level s k == b)%Q) /\
  (forall k, 1 <= k < n -> (level s (k + 1) - level s k == (b - a) / inject_Z (n - 1))%Q) /\
  (forall k, 1 <= k -> (a <= b -> a <= level s k <= b)%Q /\ (b <= a -> b <= level s k <= a)%Q).
Proof.
  intros a b n N s.
  assert (D : 0 < n - 1) by lia. pose proof (inject_nz _ D) as NZ.
  assert (L : forall k, k <= n -> level s k = (a + (b - a) * inject_Z (k - 1) / inject_Z (n - 1))%Q).
  { intros k K. unfold level, s. cbn [s_list s_equal s_count].
    replace (n <? k) with false by lia. replace (n <=? 1) with false by lia. reflexivity. }
  assert (P : forall k, n < k -> level s k = b).
  { intros k K. unfold level, s. cbn [s_list s_equal s_count].
    replace (n <? k) with true by lia. reflexivity. }
  assert (E : forall k, n <= k -> (level s k == b)%Q).
  { intros k K. destruct (Z.eq_dec k n) as [-> | NE]; [|rewrite P by lia; reflexivity].
    rewrite L by lia. field. exact NZ. }
  split; [|split; [exact E | split]].
  - rewrite L by lia. change (inject_Z (1 - 1)) with 0%Q. field. exact NZ.
  - intros k K. rewrite !L by lia.
    replace (k + 1 - 1) with ((k - 1) + 1) by lia. rewrite (inject_Z_plus (k - 1) 1).
    change (inject_Z 1) with 1%Q. field. exact NZ.
  - intros k K. destruct (Z_le_gt_dec n k) as [G | G].
    + pose proof (E k G) as EB. split; intros; split; lra.
    + assert (F : exists f, (0 <= f <= 1)%Q /\ (level s k == a + (b - a) * f)%Q).
      { exists (inject_Z (k - 1) / inject_Z (n - 1))%Q. split; [split|].
        - apply Qle_shift_div_l; [rewrite <- Zlt_Qlt with (x := 0); lia |].
          setoid_replace (0 * inject_Z (n - 1))%Q with (inject_Z 0) by (unfold Qeq; cbn; lia).
          rewrite <- Zle_Qle. lia.
        - apply Qle_shift_div_r; [rewrite <- Zlt_Qlt with (x := 0); lia |].
          setoid_replace (1 * inject_Z (n - 1))%Q with (inject_Z (n - 1)) by ring.
          rewrite <- Zle_Qle. lia.
        - rewrite L by lia. field. exact NZ. }
      destruct F as [f [F1 F2]]. split; intros H; split; rewrite F2; nra.
Qed.
Print Assumptions C94_equal.

(** A list of levels: step k has the k-th, or the last. *)
Theorem C94_list : forall l c k q, (1 <= k)%nat -> kth l k q ->
  level (mkSched l false c) (Z.of_nat k) = q.
Proof. exact level_list. Qed.
Print Assumptions C94_list.

(** Two levels in one increment: the only step has the first level, the second
    is never reached. *)
Theorem C94_single : forall a b, (level (mkSched [a; b] true 1) 1 == a)%Q.
Proof. intros a b. unfold level, at_. cbn [s_list s_equal s_count]. cbn. field. Qed.
Print Assumptions C94_single.

Example C94_case :
  map (fun k => Qred (level (mkSched [25; 75]%Q true 5) k)) [1; 2; 3; 4; 5; 6]
  = [25; 75 # 2; 50; 125 # 2; 75; 75]%Q /\
  map (fun k => Qred (level (mkSched [25; 40; 10]%Q false 0) k)) [1; 2; 3; 4] = [25; 40; 10; 10]%Q.
Proof. vm_compute. repeat split. Qed.

(** * C95: the loop over the steps *)

(** A batch reaction runs as many steps as the longest of REACTION, KINETICS,
    REACTION_TEMPERATURE and REACTION_PRESSURE in use asks for, and one when
    none does; and each step prints and punches once. *)
Theorem C95_count : forall V (amounts : kind -> V -> sched) parts run inc u sv st st' rows,
  reactions amounts parts run inc u sv st = Done st' rows ->
  let n := Z.of_nat (length rows) in
  1 <= n /\
  (forall k m v, In k [KRxn; KKin; KTemp; KPres] -> u k = Some m -> st k m = Some v ->
     steps_of (amounts k v) <= n) /\
  (n = 1 \/ exists k m v, In k [KRxn; KKin; KTemp; KPres] /\ u k = Some m /\ st k m = Some v /\
     steps_of (amounts k v) = n).
Proof.
  intros V amounts parts run inc u sv st st' rows H n.
  unfold reactions in H. destruct (negb (has_reaction u)); [discriminate |].
  destruct (missing u st) as [[k m]|]; [discriminate |].
  injection H as _ <-.
  assert (E : n = count_steps amounts u st).
  { unfold n. rewrite steps_rows_length, from_length. cbn [l_rows length].
    pose proof (count_positive V amounts u st). lia. }
  rewrite E. split; [apply count_positive |]. split; [intros; eapply count_lower; eassumption |].
  unfold count_steps.
  assert (G : forall ks x, (x = 1 \/ exists k m v, In k [KRxn; KKin; KTemp; KPres] /\ u k = Some m /\
              st k m = Some v /\ steps_of (amounts k v) = x) ->
    (forall k, In k ks -> In k [KRxn; KKin; KTemp; KPres]) ->
    let y := fold_left (fun n k =>
    match u k with
    | Some m => match st k m with
                | Some v => Z.max n (steps_of (amounts k v))
                | None => n
                end
    | None => n
    end) ks x in
    y = 1 \/ exists k m v, In k [KRxn; KKin; KTemp; KPres] /\ u k = Some m /\
              st k m = Some v /\ steps_of (amounts k v) = y).
  { induction ks as [|k ks IH]; intros x X I'; cbn [fold_left]; [exact X |]. apply IH.
    - destruct (u k) as [m|] eqn:U; [|exact X]. destruct (st k m) as [v|] eqn:S'; [|exact X].
      destruct (Z.max_spec x (steps_of (amounts k v))) as [[_ ->] | [_ ->]]; [|exact X].
      right. exists k, m, v. split; [apply I'; left; reflexivity | auto].
    - intros k' K. apply I'. right. exact K. }
  apply G; [left; reflexivity | auto].
Qed.
Print Assumptions C95_count.

(** Without INCREMENTAL_REACTIONS every step starts from the system as the
    user defined it, whatever the steps before it did. *)
Theorem C95_apart : forall V (amounts : kind -> V -> sched) parts run u sv st st' rows,
  user_numbers u ->
  reactions amounts parts run false u sv st = Done st' rows ->
  rows = apart (amounts KKin) run (beginning parts u st) 1 (length rows).
Proof.
  intros V amounts parts run u sv st st' rows P H.
  unfold reactions in H. destruct (has_reaction u) eqn:HR; cbn [negb] in H; [|discriminate].
  destruct (missing u st) as [[k m]|] eqn:M; [discriminate |].
  injection H as _ <-.
  rewrite steps_rows_length, from_length. cbn [l_rows length Nat.add].
  rewrite (steps_apart V (amounts KKin) parts run u _ st); try reflexivity; try assumption; try lia.
  - unfold has_reaction in HR. apply andb_prop in HR. apply HR.
  - apply missing_none. assumption.
  - intros k n N. cbn [l_st]. apply copy_use_other. assumption.
Qed.
Print Assumptions C95_apart.

(** With INCREMENTAL_REACTIONS each step starts from what the step before
    left, solutions are mixed in the first step only, and the clock adds up
    the times. *)
Theorem C95_chained : forall V (amounts : kind -> V -> sched) parts run u sv st st' rows,
  user_numbers u -> complete u run ->
  reactions amounts parts run true u sv st = Done st' rows ->
  rows = chained (amounts KKin) run u (beginning parts u st) 1 0%Q (length rows).
Proof.
  intros V amounts parts run u sv st st' rows P C H.
  unfold reactions in H. destruct (has_reaction u) eqn:HR; cbn [negb] in H; [|discriminate].
  destruct (missing u st) as [[k m]|] eqn:M; [discriminate |].
  injection H as _ <-.
  rewrite steps_rows_length, from_length. cbn [l_rows length Nat.add].
  pose proof (count_positive V amounts u st) as CP.
  rewrite (steps_chained V (amounts KKin) parts run u _ _ 1 _ (beginning parts u st)); try reflexivity; try assumption; try lia.
  apply look_begin; [assumption | | apply missing_none; assumption | reflexivity].
  unfold has_reaction in HR. apply andb_prop in HR. apply HR.
Qed.
Print Assumptions C95_chained.

(** What the user defined stays as it was, but for the numbers SAVE names and
    the KINETICS block in use. *)
Theorem C95_untouched : forall V (amounts : kind -> V -> sched) parts run inc u sv st st' rows k j,
  reactions amounts parts run inc u sv st = Done st' rows -> 0 <= j ->
  (forall n e, sv k = Some (n, e) -> j <> n /\ ~ (n <= j <= e)) ->
  ~ (k = KKin /\ u KKin = Some j) ->
  st' k j = st k j.
Proof.
  intros V amounts parts run inc u sv st st' rows k j H J S' N.
  unfold reactions in H. destruct (negb (has_reaction u)); [discriminate |].
  destruct (missing u st) as [[k' m]|]; [discriminate |].
  injection H as <- _. rewrite saver_other by assumption.
  assert (A : forall l, l_st (fold_left (one_step (amounts KKin) parts run inc u (count_steps amounts u st)) l
                (mkL (copy_use u (-2) st) 0%Q [])) k j = st k j).
  { intros l. rewrite steps_other by lia. cbn [l_st]. apply copy_use_other. lia. }
  destruct (u KKin) as [n|] eqn:U; [|apply A].
  rewrite copy_other; [apply A |].
  destruct (kind_eqb k KKin) eqn:B.
  - apply kind_eqb_eq in B. right. intros ->. apply N. auto.
  - left. apply kind_eqb_neq. assumption.
Qed.
Print Assumptions C95_untouched.

(** What SAVE asks for is the result of the last step, at every number of the
    range. *)
Theorem C95_saved : forall V (amounts : kind -> V -> sched) parts run inc u sv st st' rows k n e j v,
  reactions amounts parts run inc u sv st = Done st' rows ->
  In k [KSol; KPp; KEx; KSurf; KGas; KSs] -> sv k = Some (n, e) -> n <= j <= e ->
  w_res (last rows (mkRow 0 0%Q 0%Q (fun _ => None))) k = Some v ->
  st' k j = Some v.
Proof.
  intros V amounts parts run inc u sv st st' rows k n e j v H I' E J R.
  unfold reactions in H. destruct (negb (has_reaction u)); [discriminate |].
  destruct (missing u st) as [[k' m]|]; [discriminate |].
  injection H as <- <-.
  eapply saver_in; try eassumption.
  unfold last_res. set (rows := l_rows _) in *. clearbody rows.
  destruct rows as [|r rows _] using rev_ind; [cbn in R; discriminate |].
  rewrite last_last in R. rewrite rev_app_distr. cbn [rev app]. exact R.
Qed.
Print Assumptions C95_saved.

(** The KINETICS block in use is always replaced by what the last step left of
    it, whether or not SAVE names it; and SAVE of kinetics gives the same. *)
Theorem C95_kinetics : forall V (amounts : kind -> V -> sched) parts run inc u sv st st' rows m,
  reactions amounts parts run inc u sv st = Done st' rows ->
  u KKin = Some m -> 0 <= m -> complete u run ->
  exists t vw v,
    fst (run (Z.of_nat (length rows)) t vw) KKin = Some v /\
    t = w_time (last rows (mkRow 0 0%Q 0%Q (fun _ => None))) /\
    snd (run (Z.of_nat (length rows)) t vw) = w_res (last rows (mkRow 0 0%Q 0%Q (fun _ => None))) /\
    st' KKin m = Some v /\
    forall n e j, sv KKin = Some (n, e) -> n <= j <= e -> st' KKin j = Some v.
Proof.
  intros V amounts parts run inc u sv st st' rows m H U M C.
  unfold reactions in H. destruct (negb (has_reaction u)); [discriminate |].
  destruct (missing u st) as [[k' m']|]; [discriminate |].
  injection H as <- <-.
  pose proof (count_positive V amounts u st) as CP.
  set (count := count_steps amounts u st) in *. clearbody count.
  assert (EN : exists p, Z.to_nat count = S p /\ count = 1 + Z.of_nat p).
  { exists (Nat.pred (Z.to_nat count)). lia. }
  destruct EN as [p [EN EC]]. rewrite EN, from_snoc, fold_left_app. cbn [fold_left].
  rewrite <- EC.
  set (l := fold_left (one_step (amounts KKin) parts run inc u count) (from_ 1 p) _).
  assert (LEN : length (l_rows l) = p).
  { unfold l. rewrite steps_rows_length, from_length. reflexivity. }
  clearbody l.
  destruct (last_step_kin V (amounts KKin) parts run inc u count l count m U C)
    as (v & w & res & t & vw & R & W & ROWS & ST).
  set (l' := one_step (amounts KKin) parts run inc u count l count) in *.
  assert (NL : Z.of_nat (length (l_rows l')) = count).
  { rewrite ROWS, app_length, LEN. cbn [length]. lia. }
  exists t, vw, v. rewrite NL, R. cbn [fst snd].
  split; [exact W |]. rewrite ROWS at 1 2. rewrite !last_last. cbn [w_time w_res].
  split; [reflexivity |]. split; [reflexivity |].
  rewrite U.
  assert (K2 : rxn_copy (l_st l') KKin (-2) m KKin (-2) = Some v)
    by (rewrite copy_other by (right; lia); exact ST).
  assert (KS : forall n e j, sv KKin = Some (n, e) -> n <= j <= e ->
     saver u sv (last_res (l_rows l')) (rxn_copy (l_st l') KKin (-2) m) KKin j = Some v).
  { intros n e j E J. eapply saver_kin; eassumption. }
  split; [|exact KS].
  destruct (sv KKin) as [[n e]|] eqn:E.
  - destruct (Z_le_gt_dec n m) as [A | A]; [destruct (Z_le_gt_dec m e) as [B | B] |].
    + apply (KS n e m); [reflexivity | lia].
    + destruct (Z.eq_dec m n) as [-> | NE].
      * (* an empty range that starts at the block in use *)
        rewrite saver_unfold. cbv zeta. rewrite E, U.
        rewrite fold_copy_other by (right; rewrite from_In; lia).
        rewrite fold_save_other by (left; cbn; intuition discriminate). apply copy_same. exact ST.
      * rewrite saver_other by (intros n' e' E'; rewrite E in E'; injection E' as <- <-; lia). apply copy_same. exact ST.
    + rewrite saver_other by (intros n' e' E'; rewrite E in E'; injection E' as <- <-; lia). apply copy_same. exact ST.
  - rewrite saver_other by (intros n' e' E'; rewrite E in E'; discriminate). apply copy_same. exact ST.
Qed.
Print Assumptions C95_kinetics.

(** Nothing in use but a solution, or no solution and no mixture: nothing is
    calculated; an entity in use that is not defined stops the calculation. *)
Theorem C95_guard : forall V (amounts : kind -> V -> sched) parts run inc u sv st,
  match reactions amounts parts run inc u sv st with
  | Skipped => (u KSol = None /\ u KMix = None) \/ forall k, k <> KSol -> u k = None
  | Missing k n => u k = Some n /\ st k n = None
  | Done _ _ => (u KSol <> None \/ u KMix <> None) /\ (exists k, k <> KSol /\ u k <> None) /\
                forall k n, u k = Some n -> st k n <> None
  end.
Proof.
  intros V amounts parts run inc u sv st. unfold reactions.
  destruct (has_reaction u) eqn:HR; cbn [negb].
  - destruct (missing u st) as [[k n]|] eqn:M.
    + apply missing_some. exact M.
    + unfold has_reaction in HR. apply andb_prop in HR. destruct HR as [H1 H2].
      split; [|split].
      * unfold in_use in H2. destruct (u KSol); [left; discriminate |]. destruct (u KMix); [right; discriminate | discriminate].
      * apply existsb_exists in H1. destruct H1 as [k [K1 K2]]. exists k.
        unfold in_use in K2. split; [intros ->; cbn in K1; intuition discriminate |].
        destruct (u k); [discriminate | discriminate].
      * intros k n U. destruct (missing_none V u st M k n U) as [v ->]. discriminate.
  - unfold has_reaction in HR. apply andb_false_iff in HR. destruct HR as [H | H].
    + right. intros k NK.
      assert (F : in_use u k = false).
      { destruct (in_use u k) eqn:E; [|reflexivity]. exfalso.
        assert (X : existsb (in_use u) [KPp; KRxn; KMix; KEx; KKin; KSurf; KTemp; KPres; KGas; KSs] = true)
          by (apply existsb_exists; exists k; split; [destruct k; cbn; tauto | assumption]).
        congruence. }
      unfold in_use in F. destruct (u k); [discriminate | reflexivity].
    + left. unfold in_use in H. destruct (u KSol); [discriminate |]. destruct (u KMix); [discriminate | auto].
Qed.
Print Assumptions C95_guard.

(** A system of amounts: an entity is a number, a step adds 10 to the solution
    for each step number and takes 1 from the kinetics. Three steps, by the
    times of the kinetics. *)
Definition ex_run : runner Z := fun i t v =>
  let sol := match entity v KSol with Some s => s | None => 0 end in
  let mixed := fold_left (fun a o => match o with Some s => a + s | None => a end) (v_sols v) 0 in
  let kin := match entity v KKin with Some s => s | None => 0 end in
  (fun k => match k with KKin => Some (kin - 1) | _ => Some 0 end,
   fun k => match k with KSol => Some (sol + mixed + 10 * i) | _ => Some 0 end).
Definition ex_store : store Z := fun k n =>
  match k with
  | KSol => if n =? 1 then Some 5 else if n =? 2 then Some 7 else None
  | KKin => if n =? 4 then Some 100 else None
  | KMix => if n =? 3 then Some 0 else None
  | _ => None
  end.
Definition ex_use : use := fun k => match k with KKin => Some 4 | KMix => Some 3 | _ => None end.
Definition ex_save : save := fun k => match k with KSol => Some (8, 9) | _ => None end.

Example C95_case :
  let show o := match o with
                | Done st rows => Some (map (fun r => (w_step r, Qred (w_clock r), w_res r KSol)) rows,
                                        (st KSol 1, st KSol 8, st KSol 9, st KKin 4))
                | _ => None
                end in
  let times := fun _ _ => mkSched [10; 20; 30]%Q false 0 in
  show (reactions times (fun _ => [1; 2]) ex_run false ex_use ex_save ex_store) =
    Some ([(1, 10%Q, Some 22); (2, 20%Q, Some 32); (3, 30%Q, Some 42)], (Some 5, Some 42, Some 42, Some 99)) /\
  show (reactions times (fun _ => [1; 2]) ex_run true ex_use ex_save ex_store) =
    Some ([(1, 10%Q, Some 22); (2, 30%Q, Some 42); (3, 60%Q, Some 72)], (Some 5, Some 72, Some 72, Some 97)) /\
  user_numbers ex_use /\ complete ex_use ex_run.
Proof.
  split; [vm_compute; reflexivity |]. split; [vm_compute; reflexivity |].
  split; [intros k n U; destruct k; cbn in U; try discriminate; injection U as <-; lia |].
  intros i t v. split; [cbn; eauto |]. intros k U. destruct k; cbn in U; try discriminate; cbn; eauto.
Qed.
