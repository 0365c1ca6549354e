(** Proofs about charges and equations. *)
From Coq Require Import String Ascii List ZArith QArith Qabs Bool NArith Lia Lqa Sorting.Permutation Sorting.Sorted ZifyBool.
From Verif Require Import CStr_Model CNum_Model Qx Sort_Proofs Chem_Model Chem_Spec Chem_Proofs Chem2_Proofs.
Import ListNotations.
Local Open Scope string_scope.
Local Open Scope list_scope.
Local Open Scope Z_scope.

(** ** Digits *)
Lemma weight_range c : isdigit c = true -> 0 <= weight c <= 9.
Proof. unfold isdigit, between, weight. change (N_of_ascii "0") with 48%N. change (N_of_ascii "9") with 57%N. lia. Qed.
Lemma whole_range s : chars isdigit s = true -> 0 <= whole s < 10 ^ Z.of_nat (String.length s).
Proof.
  induction s as [|c s IH]; cbn [chars whole String.length]; [intros _; cbn; lia|]. intros H. apply andb_prop in H. destruct H as [A B]. specialize (IH B). pose proof (weight_range c A). rewrite Nat2Z.inj_succ, Z.pow_succ_r by lia. nia.
Qed.
Lemma whole_app a b : whole (a ++ b)%string = whole a * 10 ^ Z.of_nat (String.length b) + whole b.
Proof. induction a as [|c a IH]; [reflexivity|]. cbn [append whole]. rewrite IH, slen_app, Nat2Z.inj_add, Z.pow_add_r by lia. ring. Qed.
Lemma whole_pos d t : isdigit d = true -> d <> "0"%char -> chars isdigit t = true -> 0 < whole (String d t).
Proof.
  intros A B C. cbn [whole]. pose proof (whole_range t C). assert (1 <= weight d). { pose proof (weight_range d A). assert (weight d <> 0); [|lia]. unfold weight. intros E. apply B. rewrite <- (ascii_N_embedding d). replace (N_of_ascii d) with 48%N by lia. reflexivity. } nia.
Qed.
Lemma last_digit s : s <> "" -> exists a d, s = (a ++ String d "")%string.
Proof.
  induction s as [|c s IH]; [congruence|]. intros _. destruct s as [|e s]; [exists "", c; reflexivity|]. destruct IH as (a & d & E); [discriminate|]. exists (String c a), d. rewrite E. reflexivity.
Qed.
Lemma digit_back d : isdigit d = true -> ascii_of_N (Z.to_N (48 + weight d)) = d.
Proof. intros H. pose proof (weight_range d H). unfold weight. replace (Z.to_N (48 + (Z.of_N (N_of_ascii d) - 48))) with (N_of_ascii d) by lia. apply ascii_N_embedding. Qed.
(** Printing what was read. *)
Lemma dec_digits_whole F : forall d t acc, (String.length (String d t) <= F)%nat -> isdigit d = true -> d <> "0"%char -> chars isdigit t = true -> dec_digits F (whole (String d t)) acc = (String d t ++ acc)%string.
Proof.
  induction F as [|F IH]; intros d t acc L A B C; [cbn in L; lia|]. destruct (last_digit (String d t)) as (a & e & E); [discriminate|]. assert (CE : chars isdigit (a ++ String e "") = true) by (rewrite <- E; cbn; now rewrite A, C). rewrite chars_app in CE. apply andb_prop in CE. destruct CE as [CA CE]. cbn in CE. rewrite andb_true_r in CE. pose proof (weight_range e CE) as WE.
  assert (WT : whole (String d t) = whole a * 10 + weight e). { rewrite E, whole_app. cbn. lia. }
  cbn [dec_digits]. rewrite WT. replace ((whole a * 10 + weight e) mod 10) with (weight e). 2:{ rewrite Z.add_comm, Z.mod_add by lia. symmetry. apply Z.mod_small. lia. }
  replace ((whole a * 10 + weight e) / 10) with (whole a). 2:{ rewrite Z.add_comm, Z.div_add by lia. rewrite Z.div_small by lia. lia. }
  rewrite (digit_back e CE). destruct a as [|d' a].
  - cbn. cbn in E. injection E as -> ->. reflexivity.
  - cbn [append] in E. injection E as <- ->. rewrite chars_app in C. apply andb_prop in C. pose proof (whole_pos d a A B (proj1 C)). replace (whole (String d a) =? 0) with false by lia. rewrite IH; try tauto; [|cbn in L |- *; rewrite slen_app in L; cbn in L; lia]. rewrite E0 || idtac. cbn [append]. rewrite sapp_assoc. reflexivity.
Qed.
(** Reading what was printed. *)
Lemma dec_digits_read F : forall z acc, 0 < z < 10 ^ Z.of_nat F -> exists d t, dec_digits F z acc = (String d t ++ acc)%string /\ isdigit d = true /\ d <> "0"%char /\ chars isdigit t = true /\ whole (String d t) = z.
Proof.
  assert (DG : forall k, 0 <= k <= 9 -> isdigit (ascii_of_N (Z.to_N (48 + k))) = true /\ weight (ascii_of_N (Z.to_N (48 + k))) = k). { intros k K. unfold isdigit, between, weight. rewrite N_ascii_embedding by lia. change (N_of_ascii "0") with 48%N. change (N_of_ascii "9") with 57%N. lia. }
  induction F as [|F IH]; intros z acc H; [cbn in H; lia|]. cbn [dec_digits]. pose proof (Z.mod_pos_bound z 10 ltac:(lia)) as MB. pose proof (Z.div_mod z 10 ltac:(lia)) as DM. destruct (DG (z mod 10) ltac:(lia)) as [D1 D2]. set (e := ascii_of_N (Z.to_N (48 + z mod 10))) in *. destruct (z / 10 =? 0) eqn:E.
  - exists e, "". split; [reflexivity|]. split; [exact D1|]. split; [|split; [reflexivity|cbn; lia]]. intros X. rewrite X in D2. cbn in D2. lia.
  - rewrite Nat2Z.inj_succ, Z.pow_succ_r in H by lia. assert (0 <= z / 10) by (apply Z.div_pos; lia). assert (0 < z / 10 < 10 ^ Z.of_nat F) by (split; [lia|apply Z.div_lt_upper_bound; lia]). destruct (IH (z / 10) (String e acc)) as (d & t & A & B & C & D & W); [assumption|]. exists d, (t ++ String e "")%string. split; [rewrite A; cbn [append]; rewrite sapp_assoc; reflexivity|]. split; [exact B|]. split; [exact C|]. split; [rewrite chars_app, D; cbn; now rewrite D1|]. change (String d (t ++ String e "")) with (String d t ++ String e "")%string. rewrite whole_app, W. cbn. lia.
Qed.
Definition is_sign (c : ascii) : Prop := c = "+"%char \/ c = "-"%char.
Definition signed (c : ascii) (z : Z) : Z := if Ascii.eqb c "-" then - z else z.
Lemma show_int_ok z : 2 <= Z.abs z <= 2147483647 -> charge_text (show_int z) z.
Proof.
  intros H. unfold show_int. destruct (dec_digits_read 20 (Z.abs z) "") as (d & t & A & B & C & D & W); [change (10 ^ Z.of_nat 20) with 100000000000000000000; lia|]. rewrite A, sapp_nil. replace z with (if Ascii.eqb (if z <? 0 then "-"%char else "+"%char) "-" then - whole (String d t) else whole (String d t)) at 2.
  - eapply ct_more; [reflexivity|exact B|exact C|exact D|lia|]. destruct (z <? 0); auto.
  - rewrite W. destruct (z <? 0) eqn:E; cbn; lia.
Qed.
Lemma charge_int_ok c i : is_sign c -> (0 < i -> c = "+"%char) -> (i < 0 -> c = "-"%char) -> Z.abs i <= 2147483647 -> charge_text (fst (charge_int c i)) i.
Proof.
  intros SG A B C. unfold charge_int. cbn [fst]. destruct (i =? 0) eqn:E; [replace i with 0 by lia; constructor|]. destruct (Z.abs i =? 1) eqn:E1; [|apply show_int_ok; lia]. destruct (Z.lt_ge_cases 0 i).
  - rewrite A by lia. replace i with 1 by lia. constructor.
  - rewrite B by lia. replace i with (-1) by lia. constructor.
Qed.
(** ** Runs of signs *)
Lemma repeats_times n c r : stops (Ascii.eqb c) r -> repeats c (times n c ++ r)%string = (times n c, r).
Proof. intros H. induction n as [|n IH]; cbn [times append repeats]. - destruct r as [|d r]; [reflexivity|]. cbn in H |- *. now rewrite H. - rewrite Ascii.eqb_refl, IH. reflexivity. Qed.
Lemma times_len n c : String.length (times n c) = n.
Proof. induction n; cbn; congruence. Qed.
Lemma repeats_spec c s : let '(a, b) := repeats c s in s = (a ++ b)%string /\ a = times (String.length a) c.
Proof. induction s as [|d s IH]; [cbn; auto|]. cbn [repeats]. destruct (Ascii.eqb c d) eqn:E; [|cbn; auto]. destruct (repeats c s) as [a b]. destruct IH as [-> ->]. apply Ascii.eqb_eq in E. subst d. cbn. rewrite times_len. auto. Qed.
Lemma sign_test c : is_sign c -> negb (Ascii.eqb c "+" || Ascii.eqb c "-") = false.
Proof. intros [-> | ->]; reflexivity. Qed.
Lemma charge_signs n c : is_sign c -> (1 <= n)%nat -> Z.of_nat n <= 2147483647 -> exists t, get_charge (times n c) = Some (t, inject_Z (signed c (Z.of_nat n))) /\ charge_text t (signed c (Z.of_nat n)).
Proof.
  intros SG L1 L2. destruct n as [|n]; [lia|]. unfold get_charge. cbn [times]. rewrite (sign_test c SG). change (String c (times n c)) with (times (S n) c). pose proof (repeats_times (S n) c "" Logic.I) as R. rewrite sapp_nil in R. rewrite R, times_len. cbv zeta. unfold signed. set (i := if Ascii.eqb c "-" then - Z.of_nat (S n) else Z.of_nat (S n)). exists (fst (charge_int c i)). split; [reflexivity|]. apply charge_int_ok; [exact SG| | |]; unfold i; destruct SG as [-> | ->]; cbn [Ascii.eqb]; cbn; lia || auto.
Qed.
(** ** A sign and a number *)
Lemma saturate_small z : Z.abs z <= 2147483647 -> saturate z = z.
Proof. intros H. unfold saturate, LONG_MIN, LONG_MAX. lia. Qed.
Lemma int_of_small z : Z.abs z <= 2147483647 -> int_of z = z.
Proof. intros H. unfold int_of. rewrite Z.mod_small by lia. lia. Qed.
Definition after_digits (s : string) : Prop := stops isdigit s.
Lemma strtol0_ok c d t r : is_sign c -> isdigit d = true -> d <> "0"%char -> chars isdigit t = true -> stops isdigit r -> whole (String d t) <= 2147483647 ->
  strtol0 (String c (String d t ++ r)) = Some (signed c (whole (String d t)), r).
Proof.
  intros SG A B C R W. assert (CT : chars isdigit (String d t) = true) by (cbn; now rewrite A, C). pose proof (whole_range _ CT).
  unfold strtol0. assert (U : forall (X : string -> option (Z * string)), (match (String d t ++ r)%string with String "0" _ => X (String d t ++ r)%string | _ => (let '(a, b) := span isdigit (String d t ++ r) in if String.eqb a "" then None else Some (dvalue a, b)) end) = Some (whole (String d t), r)).
  { intros X. rewrite (span_app isdigit (String d t) r CT R). rewrite (dvalue_whole _ CT). cbn [append]. destruct d as [[] [] [] [] [] [] [] []]; try reflexivity. exfalso. apply B. reflexivity. }
  specialize (U (fun t => let '(a, b) := span isoctal t in Some (octal 0 a, b))). destruct SG as [-> | ->]; rewrite U; unfold signed; cbn [Ascii.eqb]; rewrite saturate_small by lia; reflexivity.
Qed.
Lemma sign_digit c d : is_sign c -> isdigit d = true -> Ascii.eqb c d = false.
Proof. intros [-> | ->] H; apply Ascii.eqb_neq; intros <-; discriminate. Qed.
Lemma get_charge_sign c d u : is_sign c -> isdigit d = true -> get_charge (String c (String d u)) =
  match strtol0 (String c (String d u)) with
  | None => None
  | Some (v, e) => let i := int_of v in
      match e with
      | EmptyString => Some (charge_int c i)
      | String "." t => if all_zero t then Some (charge_int c i) else let m := decimal (String d u) in Some (String c (String d u), if Ascii.eqb c "-" then (- m)%Q else m)
      | _ => None
      end
  end.
Proof. intros SG D. unfold get_charge. rewrite (sign_test c SG). cbn [repeats]. rewrite Ascii.eqb_refl, (sign_digit c d SG D). reflexivity. Qed.
Lemma charge_number c d t : is_sign c -> isdigit d = true -> d <> "0"%char -> chars isdigit t = true -> whole (String d t) <= 2147483647 ->
  exists x, get_charge (String c (String d t)) = Some (x, inject_Z (signed c (whole (String d t)))) /\ charge_text x (signed c (whole (String d t))).
Proof.
  intros SG A B C W. rewrite get_charge_sign by assumption. pose proof (strtol0_ok c d t "" SG A B C Logic.I W) as ST. rewrite sapp_nil in ST. rewrite ST. cbv zeta. pose proof (whole_pos d t A B C). rewrite int_of_small by (unfold signed; destruct (Ascii.eqb c "-"); lia). exists (fst (charge_int c (signed c (whole (String d t))))). split; [reflexivity|]. apply charge_int_ok; [exact SG| | |]; destruct SG as [-> | ->]; unfold signed; cbn [Ascii.eqb]; cbn -[whole]; lia || auto.
Qed.
Lemma charge_fraction c d t u : is_sign c -> isdigit d = true -> d <> "0"%char -> chars isdigit t = true -> chars isdigit u = true -> whole (String d t) <= 2147483647 -> whole u <> 0 ->
  get_charge (String c (String d t ++ "." ++ u)) = Some (String c (String d t ++ "." ++ u), let m := (inject_Z (whole (String d t)) + inject_Z (whole u) / inject_Z (10 ^ Z.of_nat (String.length u)))%Q in if Ascii.eqb c "-" then (- m)%Q else m).
Proof.
  intros SG A B C D W N. cbn [append]. rewrite get_charge_sign by assumption. change (String c (String d (t ++ String "." u))) with (String c (String d t ++ String "." u)). rewrite (strtol0_ok c d t (String "." u)) by (assumption || reflexivity). cbv zeta. replace (all_zero u) with false.
  - cbn [append]. change (String d (t ++ String "." u)) with (String d t ++ String "." u)%string. rewrite decimal_dec; [reflexivity|cbn; now rewrite A, C|exact D].
  - symmetry. unfold all_zero. pose proof (span_spec (Ascii.eqb "0") u) as H. destruct (span (Ascii.eqb "0") u) as [a b]. destruct H as (-> & H & _). cbn [snd]. destruct b as [|x b]; [|reflexivity]. exfalso. apply N. rewrite sapp_nil. clear -H. induction a as [|x a IH]; [reflexivity|]. cbn [chars] in H. apply andb_prop in H. destruct H as [H1 H2]. apply Ascii.eqb_eq in H1. subst x. cbn [whole]. rewrite (IH H2). reflexivity.
Qed.
Lemma charge_text_fixed s i : charge_text s i -> get_charge s = Some (s, inject_Z i).
Proof.
  intros H. destruct H as [| | |s c d t E A B C W SG]; try reflexivity. subst s. rewrite get_charge_sign by assumption. pose proof (strtol0_ok c d t "" SG A B C Logic.I ltac:(lia)) as ST. rewrite sapp_nil in ST. rewrite ST. cbv zeta. unfold signed. set (w := whole (String d t)) in *. rewrite int_of_small by (destruct (Ascii.eqb c "-"); lia). unfold charge_int. replace ((if Ascii.eqb c "-" then - w else w) =? 0) with false by (destruct (Ascii.eqb c "-"); lia). replace (Z.abs (if Ascii.eqb c "-" then - w else w) =? 1) with false by (destruct (Ascii.eqb c "-"); lia).
  do 2 f_equal. unfold show_int. replace (Z.abs (if Ascii.eqb c "-" then - w else w)) with w by (destruct (Ascii.eqb c "-"); lia).
  assert (LN : (String.length (String d t) <= 20)%nat). { assert (Z.of_nat (String.length t) < 12); [|cbn; lia]. destruct (Z.lt_ge_cases (Z.of_nat (String.length t)) 12) as [|G]; [assumption|exfalso]. assert (HH : 10 ^ 12 <= w). { unfold w. cbn [whole]. pose proof (whole_range t C). assert (1 <= weight d). { pose proof (weight_range d A). assert (weight d <> 0); [|lia]. unfold weight. intros E. apply B. rewrite <- (ascii_N_embedding d). replace (N_of_ascii d) with 48%N by lia. reflexivity. } pose proof (Z.pow_le_mono_r 10 12 (Z.of_nat (String.length t)) ltac:(lia) G). nia. } change (10 ^ 12) with 1000000000000 in HH. lia. }
  replace (dec_digits 20 w "") with (String d t) by (unfold w; rewrite dec_digits_whole, sapp_nil by assumption; reflexivity). f_equal. destruct SG as [-> | ->].
  - change (Ascii.eqb "+" "-") with false. cbv iota. replace (w <? 0) with false by lia. reflexivity.
  - change (Ascii.eqb "-" "-") with true. cbv iota. replace (- w <? 0) with true by lia. reflexivity.
Qed.
(** Any short text: what comes out is a fixed point. *)
Lemma octal_range s : forall acc, chars isoctal s = true -> 0 <= acc -> 0 <= octal acc s < (acc + 1) * 8 ^ Z.of_nat (String.length s).
Proof.
  induction s as [|c s IH]; intros acc; cbn [chars octal String.length]; [cbn; lia|]. intros H P. apply andb_prop in H. destruct H as [A B]. unfold isoctal, between in A. change (N_of_ascii "0") with 48%N in A. change (N_of_ascii "7") with 55%N in A. specialize (IH (8 * acc + (Z.of_N (N_of_ascii c) - 48)) B ltac:(lia)). rewrite Nat2Z.inj_succ, Z.pow_succ_r by lia. assert (0 < 8 ^ Z.of_nat (String.length s)) by (apply Z.pow_pos_nonneg; lia). nia.
Qed.
Lemma unsigned_bound u v e : (String.length u <= 9)%nat -> (match u with String "0" _ => let '(a, b) := span isoctal u in Some (octal 0 a, b) | _ => let '(a, b) := span isdigit u in if String.eqb a "" then None else Some (dvalue a, b) end) = Some (v, e) -> 0 <= v < 1000000000.
Proof.
  intros L H. assert (O : forall a b, span isoctal u = (a, b) -> 0 <= octal 0 a < 1000000000).
  { intros a b E. pose proof (span_spec isoctal u) as X. rewrite E in X. destruct X as (-> & X & _). rewrite slen_app in L. pose proof (octal_range a 0 X ltac:(lia)) as R. pose proof (Z.pow_le_mono_r 8 (Z.of_nat (String.length a)) 9 ltac:(lia) ltac:(lia)). change (8 ^ 9) with 134217728 in *. lia. }
  assert (D : forall a b, span isdigit u = (a, b) -> 0 <= dvalue a < 1000000000).
  { intros a b E. pose proof (span_spec isdigit u) as X. rewrite E in X. destruct X as (-> & X & _). rewrite slen_app in L. rewrite (dvalue_whole _ X). pose proof (whole_range a X) as R. pose proof (Z.pow_le_mono_r 10 (Z.of_nat (String.length a)) 9 ltac:(lia) ltac:(lia)). change (10 ^ 9) with 1000000000 in *. lia. }
  destruct (span isoctal u) as [a b]. destruct (span isdigit u) as [a' b']. specialize (O a b eq_refl). specialize (D a' b' eq_refl).
  assert (X : Some (octal 0 a, b) = Some (v, e) \/ (if String.eqb a' "" then None else Some (dvalue a', b')) = Some (v, e)). { destruct u as [|c u]; [right; exact H|]. destruct c as [[] [] [] [] [] [] [] []]; try (right; exact H). left. exact H. }
  destruct X as [X|X]; [injection X as <- <-; exact O|]. destruct (String.eqb a' ""); [discriminate|]. injection X as <- <-. exact D.
Qed.
Lemma strtol0_bound c u v e : is_sign c -> (String.length u <= 9)%nat -> strtol0 (String c u) = Some (v, e) -> Z.abs v < 1000000000 /\ (0 < v -> c = "+"%char) /\ (v < 0 -> c = "-"%char).
Proof.
  intros SG L. unfold strtol0. destruct SG as [-> | ->]; (destruct (match u with String "0" _ => _ | _ => _ end) as [[w f]|] eqn:E; [|discriminate]); apply unsigned_bound in E; try assumption; intros X; injection X as <- <-; rewrite saturate_small by lia; (split; [lia|split; auto; lia]).
Qed.
Lemma charge_normal s t z : (String.length s <= 10)%nat -> get_charge s = Some (t, z) -> exists z', get_charge t = Some (t, z') /\ (z' == z)%Q.
Proof.
  intros L. destruct s as [|c u]; [intros X; injection X as <- <-; exists 0%Q; split; reflexivity|]. unfold get_charge at 1. destruct (negb (Ascii.eqb c "+" || Ascii.eqb c "-")) eqn:SG; [discriminate|]. assert (S1 : is_sign c). { apply negb_false_iff, orb_prop in SG. destruct SG as [E|E]; apply Ascii.eqb_eq in E; [left|right]; exact E. }
  assert (FX : forall i x, Some (charge_int c i) = Some x -> (0 < i -> c = "+"%char) -> (i < 0 -> c = "-"%char) -> Z.abs i <= 2147483647 -> exists z', get_charge (fst x) = Some (fst x, z') /\ (z' == snd x)%Q).
  { intros i x X A B C. injection X as <-. exists (inject_Z i). split; [apply charge_text_fixed, charge_int_ok; assumption|reflexivity]. }
  pose proof (repeats_spec c (String c u)) as RS. destruct (repeats c (String c u)) as [run after] eqn:ER. destruct RS as [R1 R2]. destruct after as [|a0 a1].
  - rewrite sapp_nil in R1. cbv zeta. intros X. rewrite R1 in L. apply (FX _ (t, z) X); destruct S1 as [-> | ->]; cbn [Ascii.eqb]; cbn; auto; lia.
  - destruct (strtol0 (String c u)) as [[v e]|] eqn:ES; [|discriminate]. cbn [String.length] in L. destruct (strtol0_bound c u v e S1 ltac:(lia) ES) as (B1 & B2 & B3). rewrite int_of_small by lia. cbv zeta.
    assert (FI : Some (charge_int c v) = Some (t, z) -> exists z', get_charge t = Some (t, z') /\ (z' == z)%Q) by (intros X; apply (FX v (t, z) X); auto; lia).
    assert (FF : all_zero match e with String _ r => r | _ => "" end = false -> (exists r, e = String "." r) -> Some (String c u, if Ascii.eqb c "-" then (- decimal u)%Q else decimal u) = Some (t, z) -> exists z', get_charge t = Some (t, z') /\ (z' == z)%Q).
    { intros Z1 [r ->] X. injection X as <- <-. eexists. split; [|reflexivity]. unfold get_charge. rewrite (sign_test c S1), ER, ES. rewrite Z1. reflexivity. }
    destruct e as [|e0 e1]; [exact FI|]. destruct (Ascii.eqb e0 ".") eqn:E0.
    + apply Ascii.eqb_eq in E0. subst e0. destruct (all_zero e1) eqn:AZ; [exact FI|]. apply FF; [reflexivity|]. exists e1. reflexivity.
    + apply Ascii.eqb_neq in E0. intros X. exfalso. destruct e0 as [[] [] [] [] [] [] [] []]; try discriminate X. apply E0. reflexivity.
Qed.

(** ** Species in an equation *)
Definition opaque (s : string) : Prop := forall r, species_name false (s ++ r)%string = match species_name false r with Some (n, u) => Some ((s ++ n)%string, u) | None => None end.
Lemma opaque_app a b : opaque a -> opaque b -> opaque (a ++ b)%string.
Proof. intros A B r. rewrite sapp_assoc, A, B. destruct (species_name false r) as [[n u]|]; [|reflexivity]. now rewrite sapp_assoc. Qed.
Lemma opaque_nil : opaque "".
Proof. intros r. cbn [append]. destruct (species_name false r) as [[n u]|]; reflexivity. Qed.
Definition ordinary (c : ascii) : bool := negb (among ["+"; "-"; "="; "["]%char c).
Lemma opaque_chars s : chars ordinary s = true -> opaque s.
Proof.
  induction s as [|c s IH]; [intros _; apply opaque_nil|]. cbn [chars]. intros H r. apply andb_prop in H. destruct H as [A B]. unfold ordinary, among in A. apply negb_true_iff in A. cbn [existsb] in A. rewrite !orb_false_iff in A. destruct A as (A1 & A2 & A3 & A4 & _). cbn [append species_name]. unfold among. cbn [existsb]. rewrite A1, A2, A3, A4. cbn [orb]. rewrite (IH B r). destruct (species_name false r) as [[n u]|]; reflexivity.
Qed.
Lemma inside_ok b r : chars (fun c => negb (Ascii.eqb c "]")) b = true -> species_name true (b ++ String "]" r)%string = match species_name false r with Some (n, u) => Some ((b ++ String "]" n)%string, u) | None => None end.
Proof.
  induction b as [|c b IH]; cbn [chars append species_name].
  - intros _. change (negb (Ascii.eqb "]" "]")) with false. destruct (species_name false r) as [[n u]|]; reflexivity.
  - intros H. apply andb_prop in H. destruct H as [A B]. rewrite A, (IH B). destruct (species_name false r) as [[n u]|]; reflexivity.
Qed.
Lemma opaque_bracket b : chars (fun c => negb (Ascii.eqb c "]")) b = true -> opaque ("[" ++ b ++ "]")%string.
Proof. intros H r. cbn [append]. cbn [species_name]. change (among ["+"; "-"; "="]%char "[") with false. cbv iota. change (Ascii.eqb "[" "[") with true. rewrite sapp_assoc. cbn [append]. rewrite (inside_ok b r H). destruct (species_name false r) as [[n u]|]; [|reflexivity]. cbn [append]. now rewrite sapp_assoc. Qed.
Lemma chars_imp (p q : ascii -> bool) s : (forall c, p c = true -> q c = true) -> chars p s = true -> chars q s = true.
Proof. intros H. induction s as [|c s IH]; [reflexivity|]. cbn. intros X. apply andb_prop in X. destruct X as [A B]. rewrite (H c A), (IH B). reflexivity. Qed.
Lemma ascii_cases (p : ascii -> Prop) : (forall a b c d e f g h, p (Ascii a b c d e f g h)) -> forall x, p x.
Proof. intros H [a b c d e f g h]. apply H. Qed.
Lemma digit_ordinary c : isdigit c = true -> ordinary c = true.
Proof. destruct c as [[] [] [] [] [] [] [] []]; (reflexivity || discriminate). Qed.
Lemma upper_ordinary c : isupper c = true -> ordinary c = true.
Proof. destruct c as [[] [] [] [] [] [] [] []]; (reflexivity || discriminate). Qed.
Lemma tail_ordinary c : tail_char c = true -> ordinary c = true.
Proof. destruct c as [[] [] [] [] [] [] [] []]; (reflexivity || discriminate). Qed.
Lemma opaque_num t v : numeral t v -> opaque t.
Proof.
  intros [|a A B C|a b A B C D]; [apply opaque_nil| |].
  - apply opaque_chars. eapply chars_imp; [apply digit_ordinary|exact B].
  - apply opaque_chars. rewrite chars_app. cbn. rewrite !(chars_imp isdigit ordinary) by (assumption || apply digit_ordinary). reflexivity.
Qed.
Lemma opaque_name n : element_name n -> opaque n.
Proof.
  intros [c t A B|b t A B C].
  - apply opaque_chars. cbn. rewrite (upper_ordinary c A). eapply chars_imp; [apply tail_ordinary|exact B].
  - replace ("[" ++ b ++ "]" ++ t)%string with (("[" ++ b ++ "]") ++ t)%string by (cbn; rewrite sapp_assoc; reflexivity). apply opaque_app; [apply opaque_bracket; exact B|]. apply opaque_chars. eapply chars_imp; [apply tail_ordinary|exact C].
Qed.
Lemma opaque_part p : well p -> opaque (show p).
Proof.
  induction p as [n t|l t IH] using part_induction; intros W; inversion W as [n0 t0 v HN HT|l0 t0 v HL HT]; subst.
  - cbn [show]. apply opaque_app; [apply opaque_name; exact HN|eapply opaque_num; exact HT].
  - rewrite show_group. apply opaque_app; [apply opaque_chars; reflexivity|]. apply opaque_app; [|apply opaque_app; [apply opaque_chars; reflexivity|eapply opaque_num; exact HT]].
    clear W. induction HL as [|x l A B IH2]; [apply opaque_nil|]. inversion IH; subst. cbn [shows]. apply opaque_app; auto.
Qed.
Lemma opaque_parts l : Forall well l -> opaque (shows l).
Proof. induction 1 as [|p l A B IH]; [apply opaque_nil|]. cbn [shows]. apply opaque_app; [apply opaque_part; exact A|exact IH]. Qed.
Lemma opaque_body b : good_body b -> opaque (body_text b).
Proof.
  destruct b as [l|l t m|]; cbn [good_body body_text].
  - intros [_ H]. apply opaque_parts. exact H.
  - intros (_ & A & _ & B & v & C). apply opaque_app; [apply opaque_parts; exact A|]. apply opaque_app; [apply opaque_chars; reflexivity|]. apply opaque_app; [eapply opaque_num; exact C|apply opaque_parts; exact B].
  - intros _. apply opaque_chars. reflexivity.
Qed.
(** How a species begins. *)
Definition begins (s : string) : Prop := exists c t, s = String c t /\ starts_name c = true /\ charge_char c = false /\ coef_char c = false /\ c <> "="%char.
Lemma upper_begins c t : isupper c = true \/ c = "["%char \/ c = "("%char \/ c = "e"%char -> begins (String c t).
Proof.
  intros H. exists c, t. split; [reflexivity|]. destruct H as [H | [-> | [-> | ->]]]; [|split; [|split; [|split]]; (reflexivity || discriminate)..]. destruct c as [[] [] [] [] [] [] [] []]; try discriminate H; (split; [|split; [|split]]; (reflexivity || discriminate)).
Qed.
Lemma part_begins p r : well p -> begins (show p ++ r)%string.
Proof.
  intros H. destruct H as [n t v A B|l t v A B].
  - destruct (name_head _ A) as (x & w & -> & HX). cbn [show append]. apply upper_begins. tauto.
  - rewrite show_group. cbn [append]. apply upper_begins. tauto.
Qed.
Lemma parts_begin l r : l <> [] -> Forall well l -> begins (shows l ++ r)%string.
Proof. intros N H. destruct H as [|p l A B]; [congruence|]. cbn [shows]. rewrite sapp_assoc. apply part_begins. exact A. Qed.
Lemma body_begins b r : good_body b -> begins (body_text b ++ r)%string.
Proof.
  destruct b as [l|l t m|]; cbn [good_body body_text].
  - intros [N H]. apply parts_begin; assumption.
  - intros (N & A & _). rewrite sapp_assoc. apply parts_begin; assumption.
  - intros _. cbn [append]. apply upper_begins. auto.
Qed.
