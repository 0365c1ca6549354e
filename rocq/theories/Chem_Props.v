(** Formulas (C64), combining (C65), charges (C66) and equations (C67). *)
From Coq Require Import String Ascii List ZArith QArith Qabs Bool NArith Lia Lqa Sorting.Permutation Sorting.Sorted.
From Verif Require Import CStr_Model CNum_Model Qx Chem_Model Chem_Spec Chem_Proofs Chem2_Proofs Chem3_Proofs Chem4_Proofs.
Import ListNotations.
Local Open Scope string_scope.
Local Open Scope list_scope.
Local Open Scope Z_scope.

(** ** C64 *)
(** Every well-formed species text is accepted, all of it up to the charge is read, and every element is counted as the formula
    says, times the coefficient. *)
Theorem C64_formula : forall b ch z c, good_body b -> charge_text ch z -> (b = Electron -> ch = "-") ->
  exists p, elements_of (body_text b ++ ch) c = Ret (Some p) /\ rest p = ch /\ parens p = 0 /\ clean p = true /\
    forall e a, body_amount e b a -> (amount e (found p) == c * a)%Q.
Proof.
  intros b ch z c GB CT EL. eexists. split; [apply (parse_body b ch z c GB CT EL)|]. split; [reflexivity|]. split; [reflexivity|]. split; [reflexivity|]. intros e a A. apply bodyl_mean; assumption.
Qed.
(** Whatever the text: an answer, and undefined only if it ends with an opening bracket; what is accepted is read up to a sign
    or the end, and without brackets its parentheses are balanced. *)
Theorem C64_any_text : forall s c,
  elements_of s c <> Exit /\
  (elements_of s c = UB -> exists a, s = (a ++ "[")%string) /\
  (forall p, elements_of s c = Ret (Some p) -> parens p = 0 /\ exists a, s = (a ++ rest p)%string /\ ends (rest p) /\ (tally "[" s = 0 -> tally "(" a = tally ")" a)).
Proof.
  intros s c. split; [apply get_elts_exit; lia|]. split; [apply get_elts_ub|]. intros p H. destruct (get_elts_parens _ _ _ _ _ (Z.le_refl 0) H) as [P E]. split; [cbn in P; lia|]. destruct (get_elts_suffix _ _ _ _ _ H) as [a A]. exists a. split; [exact A|]. split; [apply E; reflexivity|]. intros T. destruct (get_elts_net _ _ _ _ _ T H) as [_ N]. rewrite A, net_app in N. unfold net in N. cbn in P. lia.
Qed.
Example C64_example : exists l t m p v, good_body (Hydrate l t m) /\ numeral t v /\ body_text (Hydrate l t m) = "Ca2(SO4)3:1.5H2O" /\
  elements_of "Ca2(SO4)3:1.5H2O+2" 2 = Ret (Some p) /\ rest p = "+2" /\ (amount "O" (found p) == 27)%Q /\ (amount "H" (found p) == 6)%Q.
Proof.
  exists [Elt "Ca" "2"; Group [Elt "S" ""; Elt "O" "4"] "3"], "1.5", [Elt "H" "2"; Elt "O" ""]. do 2 eexists. split; [|split; [apply (num_dec "1" "5"); (discriminate || reflexivity || (cbn; lia))|split; [reflexivity|split; [vm_compute; reflexivity|split; [reflexivity|split; vm_compute; reflexivity]]]]].
  cbn [good_body]. split; [discriminate|]. split.
  - constructor; [|constructor; [|constructor]].
    + eapply well_elt; [apply name_plain; reflexivity|apply (num_int "2"); (discriminate || reflexivity || (cbn; lia))].
    + eapply well_group; [|apply (num_int "3"); (discriminate || reflexivity || (cbn; lia))]. constructor; [|constructor; [|constructor]].
      * eapply well_elt; [apply name_plain; reflexivity|constructor].
      * eapply well_elt; [apply name_plain; reflexivity|apply (num_int "4"); (discriminate || reflexivity || (cbn; lia))].
  - split; [discriminate|]. split; [|eexists; apply (num_dec "1" "5"); (discriminate || reflexivity || (cbn; lia))]. constructor; [|constructor; [|constructor]].
    + eapply well_elt; [apply name_plain; reflexivity|apply (num_int "2"); (discriminate || reflexivity || (cbn; lia))].
    + eapply well_elt; [apply name_plain; reflexivity|constructor].
Qed.
(** With two hydrate parts the second is multiplied by both numbers: the parser reads everything behind the first colon as one
    formula (parse.cpp:643-668), so A:2B:3C counts six C. *)
Theorem C64_two_colons_refuted : exists p, elements_of "A:2B:3C" 1 = Ret (Some p) /\ (amount "C" (found p) == 6)%Q.
Proof. eexists. split; [vm_compute; reflexivity|vm_compute; reflexivity]. Qed.
(** A hydrate inside parentheses with a subscript is rejected: the part behind the colon also consumes the closing parenthesis and
    then meets the number (parse.cpp:643-668). *)
Theorem C64_hydrate_in_group_refuted : elements_of "(CaCl2:6H2O)2" 1 = Ret None /\ elements_of "(CaCl2)2" 1 <> Ret None.
Proof. split; [vm_compute; reflexivity|vm_compute; discriminate]. Qed.
(** A lone decimal point counts as the number zero: the element disappears without a message (parse.cpp:953-981). *)
Theorem C64_point_refuted : forall n, element_name n -> exists p, elements_of (n ++ ".") 1 = Ret (Some p) /\ clean p = true /\ (amount n (found p) == 0)%Q.
Proof.
  intros n H. unfold elements_of. pose proof (get_elt_ok n "." H eq_refl) as GE. destruct (name_head n H) as (x & w & -> & HX). remember (String.length (String x w ++ ".")) as F eqn:EF. destruct F as [|F]; [cbn in EF; lia|]. cbn [append] in GE |- *. cbn [get_elts]. replace (Ascii.eqb x "+" || Ascii.eqb x "-") with false. 2:{ symmetry. destruct HX as [HX | ->]; [|reflexivity]. rewrite !(upper_not x) by (assumption || reflexivity). reflexivity. }
  replace (Ascii.eqb x ")") with false. 2:{ symmetry. destruct HX as [HX | ->]; [|reflexivity]. apply upper_not; [assumption|reflexivity]. }
  replace (isupper x || _ || _) with true. 2:{ symmetry. destruct HX as [-> | ->]; [reflexivity|]. rewrite !orb_true_r. reflexivity. }
  rewrite GE. cbn [bind]. eexists. split; [vm_compute; reflexivity|]. split; [reflexivity|]. unfold amount. cbn [found map fst snd qsum more app]. destruct (String.eqb (String x w) (String x w)); vm_compute; reflexivity.
Qed.
(** A text that ends with an opening bracket makes get_elt read behind its end (parse.cpp:506-517). *)
Theorem C64_open_bracket_refuted : forall l c, Forall well l -> elements_of (shows l ++ "[") c = UB.
Proof.
  intros l c W. unfold elements_of. fold (parse (shows l ++ "[") 0 c). rewrite (parse_parts l W "[" 0 c ltac:(lia)); [reflexivity|]. split; [split|]; [reflexivity|discriminate|reflexivity].
Qed.
Print Assumptions C64_formula.
Print Assumptions C64_any_text.
Print Assumptions C64_two_colons_refuted.
Print Assumptions C64_hydrate_in_group_refuted.
Print Assumptions C64_point_refuted.
Print Assumptions C64_open_bracket_refuted.

(** ** C65 *)
(** Combining a list of elements, whatever order the sort gives equal names: every name once, with exactly the sum of its amounts. *)
Theorem C65_elements : forall sorted l, sorts sorted -> short_names l ->
  let m := elt_combine (sorted l) in
  NoDup (map fst m) /\ (forall e, In e (map fst m) <-> In e (map fst l)) /\ forall e q, In (e, q) m -> (q == amount e l)%Q.
Proof.
  intros sorted l HS SN m. destruct (HS l) as [P SS]. assert (SN' : short_names (sorted l)) by (unfold short_names in *; rewrite Forall_forall in *; intros x X; apply SN; eapply Permutation_in; [apply Permutation_sym; exact P|exact X]). pose proof (elt_combine_nodup _ SS SN') as ND. split; [exact ND|]. split.
  - intros e. unfold m. rewrite elt_combine_names. split; apply Permutation_in; [apply Permutation_sym|]; apply Permutation_map; exact P.
  - intros e q H. rewrite <- (amount_in e q _ ND H). unfold m. rewrite elt_combine_amount. apply amount_perm. apply Permutation_sym. exact P.
Qed.
(** Adding a reaction: its tokens, multiplied, behind those that are there; constants are added with the same factor. *)
Theorem C65_add : forall r toks k coef, (cnt r <= length (vec r))%nat ->
  tokens (trxn_add r toks k coef) = tokens r ++ map (fun t => mkRtok (r_name t) (coef * r_coef t)) toks /\
  (cnt (trxn_add r toks k coef) <= length (vec (trxn_add r toks k coef)))%nat /\
  (cnt r <> 0%nat -> length k = length (logk r) -> forall i, (nth i (logk (trxn_add r toks k coef)) 0 == nth i (logk r) 0 + coef * nth i k 0)%Q).
Proof.
  intros r toks k coef L. unfold trxn_add. pose proof (add_tokens_ok coef toks (vec r) (cnt r) L) as H. destruct (add_tokens (vec r) (cnt r) coef toks) as [v n]. destruct H as (A & B & C). unfold tokens. cbn [cnt vec logk]. split; [exact C|]. split; [exact B|]. intros N LK. destruct (cnt r) as [|c]; [congruence|]. clear -LK. revert k LK. generalize (logk r) as a. induction a as [|x a IH]; intros [|y k] LK i; cbn in LK; try lia.
  - destruct i; cbn; ring.
  - destruct i as [|i]; cbn [addk nth]; [reflexivity|]. apply IH. lia.
Qed.
(** Combining a reaction of two or more tokens: the first stays; behind it every species once, and its coefficient is the sum up to
    1e-5 for each token of that name. *)
Theorem C65_combine : forall sorted r, rsorts sorted -> (2 <= cnt r <= length (vec r))%nat ->
  exists r' h tl tl', trxn_combine sorted r = Ret r' /\ tokens r = h :: tl /\ tokens r' = h :: tl' /\ logk r' = logk r /\ NoDup (map r_name tl') /\
    forall n, (Qabs (coef_of n tl' - coef_of n tl) <= (1 # 100000) * inject_Z (Z.of_nat (length (named n tl))))%Q.
Proof.
  intros sorted r HS L. destruct (combine_ok sorted r HS L) as (r' & h & tl & A & B & C & _ & tl' & D & E & F). exists r', h, tl, tl'. unfold few in F. auto 10.
Qed.
Theorem C65_multiply : forall r c, tokens (trxn_multiply r c) = map (fun t => mkRtok (r_name t) (r_coef t * c)) (tokens r) /\ logk (trxn_multiply r c) = map (fun x => (x * c)%Q) (logk r).
Proof.
  intros r c. split; [|reflexivity]. unfold trxn_multiply, tokens. cbn [cnt vec]. rewrite firstn_app, map_length, firstn_length. destruct (Nat.le_gt_cases (cnt r) (length (vec r))).
  - replace (cnt r - Nat.min (cnt r) (length (vec r)))%nat with 0%nat by lia. rewrite firstn_O, app_nil_r. apply firstn_all2. rewrite map_length, firstn_length. lia.
  - rewrite (skipn_all2 (vec r)) by lia. rewrite firstn_nil, app_nil_r. apply firstn_all2. rewrite map_length, firstn_length. lia.
Qed.
(** Solving a reaction for a species: it comes first with coefficient -1; everything, the constants included, is divided by the
    negative of its coefficient; nothing is lost. *)
Theorem C65_swap : forall r n r', (cnt r < length (vec r))%nat -> trxn_swap r n = Ret (Some r') ->
  exists c, In (mkRtok n c) (tokens r) /\
    Permutation (map (fun t => mkRtok (r_name t) (r_coef t * (- (1) / c))) (tokens r)) (tokens r') /\
    logk r' = map (fun x => (x * (- (1) / c))%Q) (logk r) /\
    (~ (c == 0)%Q -> exists q tl, tokens r' = mkRtok n q :: tl /\ (q == - (1))%Q).
Proof.
  intros r n r' L H. destruct (swap_perm r n r' L H) as (j & J & N & A & B & C). cbv zeta in *. set (c := r_coef (nth j (tokens r) dead)) in *. assert (LR : length (tokens r) = cnt r) by (unfold tokens; rewrite firstn_length; lia). exists c. split; [|split; [exact C|split; [exact B|]]].
  - replace (mkRtok n c) with (nth j (tokens r) dead); [apply nth_In; lia|]. unfold c. destruct (nth j (tokens r) dead) as [a b] eqn:E. cbn in *. now subst.
  - intros NZ. destruct (tokens r') as [|t tl] eqn:E; [apply Permutation_length in C; rewrite map_length, LR in C; cbn in C; lia|]. cbn in A. exists (c * (- (1) / c))%Q, tl. split; [now rewrite A|]. field. exact NZ.
Qed.
Theorem C65_swap_missing : forall r n, trxn_swap r n = Ret None <-> ~ In n (map r_name (tokens r)).
Proof.
  intros r n. unfold trxn_swap. fold (tokens r). destruct (find_tok n (tokens r) 0) as [j|] eqn:F.
  - split.
    + destruct (Nat.leb (length (vec r)) (cnt r)); discriminate.
    + intros H. exfalso. apply H. apply find_tok_ok in F. rewrite Nat.sub_0_r in F. destruct F as [J N]. apply String.eqb_eq in N. rewrite <- N. apply in_map, nth_In. lia.
  - split; [|reflexivity]. intros _ X. apply find_tok_none in F. apply in_map_iff in X. destruct X as (t & A & B). rewrite Forall_forall in F. exact (F t B A).
Qed.
Example C65_example : exists sorted r r', rsorts sorted /\ (2 <= cnt r <= length (vec r))%nat /\
  tokens r = [mkRtok "X" (-1); mkRtok "B" 2; mkRtok "A" 1; mkRtok "B" 3] /\ trxn_swap r "B" = Ret (Some r') /\ logk r' = [(6 * (- (1) / 2))%Q].
Proof.
  set (ins := fix ins (t : rtok) (l : list rtok) := match l with [] => [t] | x :: r => match String.compare (r_name t) (r_name x) with Gt => x :: ins t r | _ => t :: l end end).
  set (srt := fix srt l := match l with [] => [] | x :: r => ins x (srt r) end).
  assert (PI : forall t l, Permutation (t :: l) (ins t l)). { intros t l. induction l as [|x l IH]; cbn; [reflexivity|]. destruct (String.compare (r_name t) (r_name x)); [reflexivity|reflexivity|]. rewrite perm_swap. constructor. exact IH. }
  assert (SI : forall t l, StronglySorted r_order l -> StronglySorted r_order (ins t l)).
  { intros t l H. induction H as [|x l A IH B]; cbn; [repeat constructor|]. destruct (String.compare (r_name t) (r_name x)) eqn:E.
    1,2: constructor; [constructor; assumption|]; constructor; [unfold r_order; congruence|]; apply Forall_forall; intros y Y; rewrite Forall_forall in B; specialize (B y Y); unfold r_order in *; apply Sort_Proofs.sle_trans with (r_name x); [unfold Sort_Proofs.sle; congruence|exact B].
    constructor; [exact IH|]. apply Forall_forall. intros y Y. apply (Permutation_in _ (Permutation_sym (PI t l))) in Y. destruct Y as [<-|Y]; [|rewrite Forall_forall in B; apply B; exact Y]. unfold r_order. apply Sort_Proofs.sgt_slt in E. unfold Sort_Proofs.slt in E. congruence. }
  exists srt, (mkRxn [mkRtok "X" (-1); mkRtok "B" 2; mkRtok "A" 1; mkRtok "B" 3; dead] 4 [6%Q]). eexists. split; [|split; [cbn; lia|split; [reflexivity|split; vm_compute; reflexivity]]].
  intros l. split.
  - induction l as [|x l IH]; cbn; [reflexivity|]. transitivity (x :: srt l); [constructor; exact IH|apply PI].
  - induction l as [|x l IH]; cbn; [constructor|]. apply SI. exact IH.
Qed.
(** The first reaction that is added is not multiplied: its tokens are, its constants are not (structures.cpp:2019-2023). *)
Theorem C65_first_constant_refuted : forall toks k coef v old, logk (trxn_add (mkRxn v 0 old) toks k coef) = k.
Proof. intros. unfold trxn_add. cbn [cnt vec]. destruct (add_tokens v 0 coef toks). reflexivity. Qed.
(** Combining a reaction of fewer than two tokens declares two: whatever the vector holds in the second place becomes part of the
    reaction, or, in a vector of one, memory behind it (structures.cpp:2124, 2171). *)
Theorem C65_short_combine_refuted : forall sorted r, (cnt r < 2)%nat ->
  match trxn_combine sorted r with Ret r' => cnt r' = 2%nat /\ vec r' = vec r | UB => (length (vec r) < 2)%nat | Exit => False end.
Proof.
  intros sorted r L. unfold trxn_combine. assert (LF : (length (firstn (cnt r) (vec r)) < 2)%nat) by (rewrite firstn_length; lia). destruct (firstn (cnt r) (vec r)) as [|h [|t0 t1]]; [| |cbn in LF; lia]; (destruct (Nat.ltb (length (vec r)) 2) eqn:E; [apply Nat.ltb_lt in E; exact E|split; reflexivity]).
Qed.
(** Solving for a species when the vector holds no more than the tokens writes one element behind its end
    (structures.cpp:2399-2401). *)
Theorem C65_swap_overrun_refuted : forall r n, cnt r = length (vec r) -> In n (map r_name (tokens r)) -> trxn_swap r n = UB.
Proof.
  intros r n L H. pose proof (proj1 (C65_swap_missing r n)) as M. unfold trxn_swap in *. destruct (find_tok n (firstn (cnt r) (vec r)) 0) as [j|]; [|exfalso; apply M; [reflexivity|exact H]]. rewrite L, Nat.leb_refl. reflexivity.
Qed.
(** A sum of at most 1e-5 is dropped: a reaction that needs that species no longer mentions it (structures.cpp:2131-2132). *)
Theorem C65_small_dropped_refuted : forall h n c a k, (Qabs (a + c) <= 1 # 100000)%Q -> trxn_combine (fun l => l) (mkRxn [h; mkRtok n a; mkRtok n c] 3 k) = Ret (mkRxn [h; mkRtok n a; mkRtok n c] 1 k).
Proof.
  intros h n c a k H. unfold trxn_combine. cbn [cnt vec firstn logk skipn app]. cbn [comb r_name r_coef]. rewrite String.eqb_refl. cbv zeta. replace (near (a + c) 0 (1 # 100000)) with true; [reflexivity|]. symmetry. apply near_ok. assert (X : (a + c - 0 == a + c)%Q) by ring. rewrite X. exact H.
Qed.
Print Assumptions C65_elements.
Print Assumptions C65_add.
Print Assumptions C65_combine.
Print Assumptions C65_multiply.
Print Assumptions C65_swap.
Print Assumptions C65_swap_missing.
Print Assumptions C65_first_constant_refuted.
Print Assumptions C65_short_combine_refuted.
Print Assumptions C65_swap_overrun_refuted.
Print Assumptions C65_small_dropped_refuted.

(** ** C66 *)
(** A run of signs, and a sign with a whole number, are that charge; the text that comes out is the one way to write it. *)
Theorem C66_signs : forall n c, (c = "+"%char \/ c = "-"%char) -> (1 <= n)%nat -> Z.of_nat n <= 2147483647 ->
  let i := if Ascii.eqb c "-" then - Z.of_nat n else Z.of_nat n in exists t, get_charge (times n c) = Some (t, inject_Z i) /\ charge_text t i.
Proof. intros n c S A B. apply charge_signs; assumption. Qed.
Theorem C66_number : forall c d t, (c = "+"%char \/ c = "-"%char) -> isdigit d = true -> d <> "0"%char -> chars isdigit t = true -> whole (String d t) <= 2147483647 ->
  let i := if Ascii.eqb c "-" then - whole (String d t) else whole (String d t) in exists x, get_charge (String c (String d t)) = Some (x, inject_Z i) /\ charge_text x i.
Proof. intros. apply charge_number; assumption. Qed.
Theorem C66_fraction : forall c d t u, (c = "+"%char \/ c = "-"%char) -> isdigit d = true -> d <> "0"%char -> chars isdigit t = true -> chars isdigit u = true -> whole (String d t) <= 2147483647 -> whole u <> 0 ->
  exists q, get_charge (String c (String d t ++ "." ++ u)) = Some (String c (String d t ++ "." ++ u), q) /\
    (Qabs q == inject_Z (whole (String d t)) + inject_Z (whole u) / inject_Z (10 ^ Z.of_nat (String.length u)))%Q /\ (if Ascii.eqb c "-" then (q <= 0)%Q else (0 <= q)%Q).
Proof.
  intros c d t u S A B C D W N. eexists. split; [apply charge_fraction; assumption|]. cbv zeta. set (m := (_ + _)%Q). assert (P : (0 <= m)%Q). { unfold m. pose proof (whole_pos d t A B C) as WP. assert (0 < inject_Z (whole (String d t)))%Q by (change 0%Q with (inject_Z 0); rewrite <- Zlt_Qlt; exact WP). pose proof (whole_range u D) as WU. assert (0 <= inject_Z (whole u) / inject_Z (10 ^ Z.of_nat (String.length u)))%Q; [|lra]. apply Qle_shift_div_l; [change 0%Q with (inject_Z 0); rewrite <- Zlt_Qlt; lia|]. rewrite Qmult_0_l. change 0%Q with (inject_Z 0). rewrite <- Zle_Qle. lia. }
  destruct (Ascii.eqb c "-"); (split; [rewrite ?Qabs_opp; apply Qabs_pos; exact P|lra]).
Qed.
(** The output is a fixed point: canonical texts are left alone, and so is whatever comes out for any text of at most ten characters. *)
Theorem C66_canonical : forall s i, charge_text s i -> get_charge s = Some (s, inject_Z i).
Proof. apply charge_text_fixed. Qed.
Theorem C66_idempotent : forall s t z, (String.length s <= 10)%nat -> get_charge s = Some (t, z) -> exists z', get_charge t = Some (t, z') /\ (z' == z)%Q.
Proof. apply charge_normal. Qed.
(** Something else in front of a sign is refused. *)
Theorem C66_no_sign : forall c s, c <> "+"%char -> c <> "-"%char -> get_charge (String c s) = None.
Proof. intros c s A B. unfold get_charge. apply Ascii.eqb_neq in A, B. rewrite A, B. reflexivity. Qed.
Example C66_example : get_charge "+++" = Some ("+3", inject_Z 3) /\ get_charge "-2" = Some ("-2", inject_Z (-2)) /\ get_charge "+1.000" = Some ("+", inject_Z 1) /\ charge_text "-12" (-12).
Proof. split; [vm_compute; reflexivity|]. split; [vm_compute; reflexivity|]. split; [vm_compute; reflexivity|]. apply (ct_more "12" "-" "1" "2"); try reflexivity; try discriminate; [vm_compute; split; discriminate|auto]. Qed.
(** A leading zero makes the number octal (strtol with base 0, parse.cpp:328): +010 is a charge of 8, and +08 is refused. *)
Theorem C66_octal_refuted : get_charge "+010" = Some ("+8", inject_Z 8) /\ get_charge "+08" = None.
Proof. split; vm_compute; reflexivity. Qed.
(** Characters behind a fraction are ignored: +2.5+ is a charge of 2.5 and its text keeps the extra sign (parse.cpp:337-362). *)
Theorem C66_junk_refuted : exists q, get_charge "+2.5+" = Some ("+2.5+", q) /\ (q == 5 # 2)%Q.
Proof. eexists. split; [vm_compute; reflexivity|reflexivity]. Qed.
(** A charge beyond an int changes its value and even its sign: +4294967295 is read as -1 and written as "+" (parse.cpp:328). *)
Theorem C66_overflow_refuted : get_charge "+4294967295" = Some ("+", inject_Z (-1)) /\ get_charge "+" = Some ("+", inject_Z 1).
Proof. split; vm_compute; reflexivity. Qed.
Print Assumptions C66_signs.
Print Assumptions C66_number.
Print Assumptions C66_fraction.
Print Assumptions C66_canonical.
Print Assumptions C66_idempotent.
Print Assumptions C66_no_sign.
Print Assumptions C66_octal_refuted.
Print Assumptions C66_junk_refuted.
Print Assumptions C66_overflow_refuted.

(** ** C67 *)
(** Any equation written as a sum of species on either side, with any spacing, is read, and the check says yes exactly when the
    coefficient of the species that is defined is 1 and charge and all elements balance, to 1e-9. *)
Theorem C67_dissociation : forall sorted eqn x l y m ql qm v, sorts sorted ->
  spaced eqn (side_text (x :: l) ++ "=" ++ side_text (y :: m)) -> each legal (side_text (x :: l) ++ "=" ++ side_text (y :: m)) ->
  side_charge (x :: l) ql -> side_charge (y :: m) qm -> Forall (fun t => short_body (k_body t)) (x :: l) -> Forall (fun t => short_body (k_body t)) (y :: m) -> numeral (k_num x) v ->
  exists toks b, parse_sides false eqn = Some toks /\ check_eqn sorted toks = Ret b /\ (b = true <-> balanced (1 # 1000000000) (x :: l) (y :: m) ql qm v).
Proof.
  intros sorted eqn x l y m ql qm v HS E LG SL SM S1 S2 NV. apply spaced_squeeze in E. apply each_legit in LG. rewrite <- E in LG. destruct (side_list _ _ SL) as ([|[[x' v'] z'] ls] & L1 & L2 & L3); [discriminate|]. destruct (side_list _ _ SM) as ([|y0 ms] & M1 & M2 & M3); [discriminate|]. rewrite <- L1, <- M1 in E |- *; rewrite <- L1 in S1; rewrite <- M1 in S2. assert (XE : x' = x) by (injection L1; auto). subst x'. inversion L2 as [|? ? G1 G2]; subst. destruct G1 as (N1 & _). rewrite (numeral_fun _ _ _ NV N1). apply (dissociation_check sorted eqn (x, v', z') ls y0 ms ql qm); assumption.
Qed.
Theorem C67_association : forall sorted eqn x l y m ql qm v, sorts sorted ->
  spaced eqn (side_text (x :: l) ++ "=" ++ side_text (y :: m)) -> each legal (side_text (x :: l) ++ "=" ++ side_text (y :: m)) ->
  side_charge (x :: l) ql -> side_charge (y :: m) qm -> Forall (fun t => short_body (k_body t)) (x :: l) -> Forall (fun t => short_body (k_body t)) (y :: m) -> numeral (k_num y) v ->
  exists toks b, parse_sides true eqn = Some toks /\ check_eqn sorted toks = Ret b /\ (b = true <-> balanced (1 # 1000000000) (x :: l) (y :: m) ql qm v).
Proof.
  intros sorted eqn x l y m ql qm v HS E LG SL SM S1 S2 NV. apply spaced_squeeze in E. apply each_legit in LG. rewrite <- E in LG. destruct (side_list _ _ SL) as ([|x0 ls] & L1 & L2 & L3); [discriminate|]. destruct (side_list _ _ SM) as ([|[[y' v'] z'] ms] & M1 & M2 & M3); [discriminate|]. rewrite <- L1, <- M1 in E |- *; rewrite <- L1 in S1; rewrite <- M1 in S2. assert (XE : y' = y) by (injection M1; auto). subst y'. inversion M2 as [|? ? G1 G2]; subst. destruct G1 as (N1 & _). rewrite (numeral_fun _ _ _ NV N1). apply (association_check sorted eqn x0 ls (y, v', z') ms ql qm); assumption.
Qed.
(** One species of an equation: its number, name and charge are what is written, and reading stops where the next begins. *)
Theorem C67_species : forall x v z r, good_term x v z -> (r = "" \/ (exists u, r = String "=" u) \/ exists y w u s, good_term y w u /\ r = String "+" (term_text y ++ s)) ->
  exists t, get_species (term_text x ++ r) = Some (t, r) /\ get_species (String "+" (term_text x ++ r)) = Some (t, r) /\ t_name t = species_text x /\ t_coef t = v /\ t_z t = inject_Z z /\
    get_species (String "-" (term_text x ++ r)) = Some (mkTok (species_text x) (- v) (inject_Z z), r).
Proof.
  intros x v z r G H. assert (N : next r). { destruct H as [-> | [[u ->] | (y & w & u & s & G2 & ->)]]; [constructor|constructor|eapply term_next; exact G2]. } destruct (get_species_ok x v z r G N) as [A B]. pose proof (get_species_minus x v z r G N) as M. exists (tok x v z). repeat split; assumption || reflexivity.
Qed.
(** A character outside the alphabet makes the equation an error. *)
Theorem C67_characters : forall eqn text, spaced eqn text -> ~ each legal text -> forall assoc, parse_sides assoc eqn = None.
Proof.
  intros eqn text E N assoc. apply spaced_squeeze in E. unfold parse_sides. rewrite E, legit_chars. destruct (chars islegit text) eqn:C; [elim N; apply each_legit; exact C|reflexivity].
Qed.
(** The elements of the species that is defined, when its name carries no state such as (s): every element once, with the amount of
    the formula. *)
Theorem C67_elements : forall sorted x z, sorts sorted -> good_term x 1 z -> short_body (k_body x) -> strip_state (species_text x) = species_text x ->
  forall t, t_name t = species_text x -> t_coef t = (- (1))%Q ->
  exists m, target_elements sorted t = Ret (Some m) /\ NoDup (map fst m) /\ forall e q, In (e, q) m -> forall a, body_amount e (k_body x) a -> (q == a)%Q.
Proof.
  intros sorted x z HS (G1 & G2 & G3 & G4 & G5) SB ST t TN TC. unfold target_elements. rewrite TN, ST. unfold species_text. rewrite (parse_body _ _ _ _ G3 G4 G5), TC. cbn [bind found]. eexists. split; [reflexivity|]. pose proof (bodyl_short (- (1)) _ SB) as SH. destruct (C65_elements sorted _ HS SH) as (ND & _ & AM). cbv zeta in *. split.
  - unfold scale. rewrite map_map. cbn [fst]. exact ND.
  - intros e q H a A. unfold scale in H. apply in_map_iff in H. destruct H as ([e' q'] & X & Y). cbn in X. injection X as <- <-. rewrite (AM _ _ Y), (bodyl_mean _ _ _ _ G3 A). ring.
Qed.
Definition ex_caso4 : list term := [mkTerm "" (Formula [Elt "Ca" ""; Elt "S" ""; Elt "O" "4"]) ""].
Definition ex_ions : list term := [mkTerm "" (Formula [Elt "Ca" ""]) "+2"; mkTerm "" (Formula [Elt "S" ""; Elt "O" "4"]) "-2"].
Example C67_example : spaced "CaSO4 = Ca+2 + SO4-2" (side_text ex_caso4 ++ "=" ++ side_text ex_ions)%string /\ each legal (side_text ex_caso4 ++ "=" ++ side_text ex_ions) /\
  (exists ql qm, side_charge ex_caso4 ql /\ side_charge ex_ions qm /\ (ql == 0)%Q /\ (qm == 0)%Q) /\ numeral "" 1 /\
  (exists toks, parse_sides false "CaSO4 = Ca+2 + SO4-2" = Some toks /\ map t_name toks = ["CaSO4"; "Ca+2"; "SO4-2"]).
Proof.
  assert (W : forall n t v, element_name n -> numeral t v -> well (Elt n t)) by (intros; eapply well_elt; eassumption).
  assert (E1 : forall c t, isupper c = true -> chars tail_char t = true -> element_name (String c t)) by (intros; apply name_plain; assumption).
  assert (N4 : numeral "4" (inject_Z (whole "4"))) by (apply num_int; [discriminate|reflexivity|cbn; lia]).
  split; [cbn; repeat first [apply sp_char; [unfold white, code; cbn; lia|] | apply sp_white; [unfold white, code; cbn; lia|]]; constructor|]. split; [apply each_legit; reflexivity|]. split; [|split; [constructor|eexists; split; [vm_compute; reflexivity|reflexivity]]].
  assert (CA : good_term (mkTerm "" (Formula [Elt "Ca" ""; Elt "S" ""; Elt "O" "4"]) "") 1 0).
  { split; [constructor|]. split; [cbn; lia|]. split; [|split; [constructor|discriminate]]. split; [discriminate|]. repeat (constructor; [eapply W; [apply E1; reflexivity|exact num_none || exact N4]|]); constructor. }
  assert (C2 : good_term (mkTerm "" (Formula [Elt "Ca" ""]) "+2") 1 2).
  { split; [constructor|]. split; [cbn; lia|]. split; [split; [discriminate|repeat constructor; eapply W; [apply E1; reflexivity|exact num_none]]|]. split; [|discriminate]. apply (ct_more "2" "+" "2" ""); try reflexivity; try discriminate; [vm_compute; split; discriminate|auto]. }
  assert (S2 : good_term (mkTerm "" (Formula [Elt "S" ""; Elt "O" "4"]) "-2") 1 (-2)).
  { split; [constructor|]. split; [cbn; lia|]. split; [split; [discriminate|]; repeat (constructor; [eapply W; [apply E1; reflexivity|exact num_none || exact N4]|]); constructor|]. split; [|discriminate]. apply (ct_more "2" "-" "2" ""); try reflexivity; try discriminate; [vm_compute; split; discriminate|auto]. }
  do 2 eexists. split; [econstructor; [exact CA|constructor]|]. split; [econstructor; [exact C2|econstructor; [exact S2|constructor]]|]. split; vm_compute; reflexivity.
Qed.
(** A sulfur atom in parentheses is taken for the state of a solid: Fe(S)2, defined by an equation, is recorded as Fe2, two iron
    atoms and no sulfur (parse.cpp:128-135, utilities.cpp:682-722). *)
Theorem C67_state_refuted : forall sorted, sorts sorted -> exists m, target_elements sorted (mkTok "Fe(S)2" (- (1)) 0) = Ret (Some m) /\ (amount "S" m == 0)%Q /\ (amount "Fe" m == 2)%Q.
Proof.
  intros sorted HS. unfold target_elements. assert (E : elements_of (strip_state (t_name (mkTok "Fe(S)2" (- (1)) 0))) (t_coef (mkTok "Fe(S)2" (- (1)) 0)) = Ret (Some (mkParsed [("Fe", (inject_Z 2 * - (1))%Q)] "" 0 true))) by (vm_compute; reflexivity). rewrite E. cbn [bind found]. eexists. split; [reflexivity|]. destruct (HS [("Fe", (inject_Z 2 * - (1))%Q)]) as [P _]. apply Permutation_length_1_inv in P. rewrite P. split; vm_compute; reflexivity.
Qed.
(** Only the first "(s)" goes: with a second one, the remaining text is not a formula any more and the equation is refused
    (utilities.cpp:682-722). *)
Theorem C67_second_state_refuted : forall sorted, target_elements sorted (mkTok "FeS(s)(s)" (- (1)) 0) = Ret None.
Proof. intros. vm_compute. reflexivity. Qed.
(** An equation without a species on the left is read, and checked from the first species on the right. *)
Theorem C67_empty_left_refuted : exists toks, parse_sides false "=Ca+2" = Some toks /\ map t_name toks = ["Ca+2"].
Proof. eexists. split; [vm_compute; reflexivity|reflexivity]. Qed.
Print Assumptions C67_dissociation.
Print Assumptions C67_association.
Print Assumptions C67_species.
Print Assumptions C67_characters.
Print Assumptions C67_elements.
Print Assumptions C67_state_refuted.
Print Assumptions C67_second_state_refuted.
Print Assumptions C67_empty_left_refuted.
