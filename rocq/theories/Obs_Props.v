(** Properties C100-C102: chemical observations. *)
From Coq Require Import String Ascii ZArith QArith Bool List Lia ZifyBool.
From Verif Require Import Qx Obs_Model Obs_Spec Obs_Proofs.
Import ListNotations.
Local Open Scope string_scope.
Local Open Scope list_scope.
Local Open Scope Z_scope.

(** * C100: the line of species and units *)

Lemma all_some_map {A B C} (f : A -> B * option C) (g : A -> B * C) l : (forall a, In a l -> f a = (fst (g a), Some (snd (g a)))) ->
  all_some (map f l) = Some (map g l).
Proof.
  induction l as [|a l IH]; intros H; [reflexivity|]. cbn [map all_some]. rewrite (H a) by (left; reflexivity).
  rewrite IH by (intros x X; apply H; right; exact X). destruct (g a). reflexivity.
Qed.
Lemma col_in cols w : In w (column_words cols) <-> exists p, In p cols /\ (w = fst p \/ w = snd p).
Proof. unfold column_words. rewrite in_flat_map. cbn. split; intros (p & P & X); exists p; (split; [exact P|]); intuition congruence. Qed.
Lemma known_names l names : (forall e, In e l -> word 20 (fst (fst e))) -> (forall s, In s names -> word 12 s) ->
  (forall s, In s names -> exists k, row_of l s k) ->
  existsb (fun k => k =? -99) (map (phreeq_id (table l)) (map (fit 12) names)) = false.
Proof.
  intros T W R. apply not_true_is_false. rewrite existsb_exists. intros (k & K & E). rewrite map_map, in_map_iff in K. destruct K as (s & <- & S').
  destruct (R s S') as [k R']. rewrite (phreeq_found l s k (W s S') T R') in E. apply row_pos in R'. lia.
Qed.

(** A header of known species and units is read column by column, and each solute
    has the last column of its species. [ids] are rows of the table for the
    columns, [us] the units' codes, [rows] the rows of the solutes. *)
Theorem C100_columns : forall l beyond names rows cols (code : string * string -> Z * Z),
  (forall e, In e l -> word 20 (fst (fst e))) -> (forall s, In s names -> word 12 s) ->
  Forall2 (row_of l) names rows ->
  (forall p, In p cols -> word 12 (fst p) /\ row_of l (fst p) (fst (code p)) /\
     exists a b, units = a ++ snd p :: b /\ snd (code p) = Z.of_nat (length a) + 1) ->
  (forall p e, In p cols -> nth_error (table l) (Z.to_nat (fst (code p) - 1)) = Some e -> (1 <= meq e)%Q \/ snd p <> "meq/L") ->
  (length cols <= 100)%nat -> (String.length (header cols) <= 1000)%nat ->
  exists valid, obsc_init (table l) beyond (map (fit 12) names) 1 (Some (header cols)) = Ready (map code cols) valid /\
    Forall2 (last_column (map code cols)) rows valid.
Proof.
  intros l beyond names rows cols code T WN RN C ME L100 L1000.
  assert (WC : forall w, In w (column_words cols) -> word 12 w).
  { intros w X. apply col_in in X. destruct X as (p & P & [-> | ->]); [apply (C p P)|].
    destruct (C p P) as (_ & _ & a & b & U & _). apply units_words. rewrite U. apply in_or_app. right. left. reflexivity. }
  assert (KN : forall s, In s names -> exists k, row_of l s k).
  { clear - RN. induction RN as [|s k ss ks R RN IH]; intros x []; [subst; exists k; exact R|apply IH; assumption]. }
  exists (map (validobs (map code cols)) rows). split.
  - unfold obsc_init. rewrite (known_names l names T WN KN). cbn [Z.eqb].
    pose proof (header_words "tempc" "pH" (column_words cols) (word_g _ _ tempc_word) (word_g _ _ ph_word) (fun w X => word_g _ _ (WC w X)) L1000) as H.
  change (same (fit 12 "tempc") "tempc" && same (fit 12 "pH") "pH") with true in H. fold (header cols) in H. rewrite H.
    rewrite pair_up_cols. cbn [rev app]. rewrite map_length. replace (100 <? length cols)%nat with false by lia.
    rewrite map_map. rewrite (all_some_map _ code).
    2:{ intros p P. unfold codes. cbn [fst snd option_map]. destruct (C p P) as (W & R & a & b & U & Sc).
        rewrite (phreeq_found l (fst p) _ W T R), (unit_found beyond a (snd p) b U), Sc. reflexivity. }
    cbn [negb]. assert (NB : existsb (bad_column (table l)) (map code cols) = false).
    { apply not_true_is_false. rewrite existsb_exists. intros (c & X & B). apply in_map_iff in X. destruct X as (p & <- & P).
      destruct (C p P) as (W & R & a & b & U & Sc). unfold bad_column in B. apply row_pos in R.
      replace (fst (code p) =? -99) with false in B by lia. replace (snd (code p) =? -99) with false in B by lia. cbn [orb] in B.
      destruct (nth_error (table l) (Z.to_nat (fst (code p) - 1))) as [e|] eqn:NE; [|discriminate].
      apply andb_true_iff in B. destruct B as [B1 B2]. destruct (ME p e P NE) as [M | M].
      - apply qlt_t in B1; apply (Qlt_not_le _ _ B1 M).
      - apply M. rewrite Z.eqb_eq in B2. rewrite Sc in B2. assert (LA : length a = 1%nat) by lia.
        destruct a as [|x [|y a]]; cbn in LA; try lia. cbn in U. injection U as _ <- _. reflexivity. }
    rewrite NB. f_equal. rewrite map_map.
    clear - RN T WN. induction RN as [|s k ss ks R RN IH]; [reflexivity|]. cbn [map].
    rewrite (phreeq_found l s k) by (first [apply WN; left; reflexivity|exact T|exact R]). f_equal. apply IH. intros x X. apply WN. right. exact X.
  - clear. induction rows as [|k rows IH]; cbn [map]; constructor; [|exact IH].
    unfold last_column, validobs. destruct (valid_last (map code cols) 1 k 0) as [[E N] | (a & c & b & E & F & N & R)].
    + left. split; assumption.
    + right. exists a, c, b. split; [exact E|]. split; [exact F|]. split; [exact N|]. lia.
Qed.
Print Assumptions C100_columns.

Lemma stops l beyond names x y cols : (forall e, In e l -> word 20 (fst (fst e))) -> (forall s, In s names -> word 12 s) ->
  (forall s, In s names -> exists k, row_of l s k) -> gword 12 x -> gword 12 y ->
  (forall p, In p cols -> gword 12 (fst p) /\ gword 12 (snd p)) -> (length cols <= 100)%nat ->
  (String.length (sentence (x :: y :: column_words cols)) <= 1000)%nat ->
  same (fit 12 x) "tempc" && same (fit 12 y) "pH" = false \/
  (exists p, In p cols /\ (phreeq_id (table l) (fit 12 (fst p)) = -99 \/ unit_id beyond (fit 12 (snd p)) = -99)) ->
  obsc_init (table l) beyond (map (fit 12) names) 1 (Some (sentence (x :: y :: column_words cols))) = Stopped.
Proof.
  intros T WN KN X Y C L100 L1000 B.
  assert (WC : forall w, In w (column_words cols) -> gword 12 w).
  { intros w Z'. apply col_in in Z'. destruct Z' as (q & Q' & [-> | ->]); apply (C q Q'). }
  unfold obsc_init. rewrite (known_names l names T WN KN). cbn [Z.eqb].
  rewrite (header_words x y (column_words cols) X Y WC L1000).
  rewrite pair_up_cols. cbn [rev app]. rewrite map_length. replace (100 <? length cols)%nat with false by lia.
  rewrite map_map. rewrite (all_some_map _ (fun p => (phreeq_id (table l) (fit 12 (fst p)), unit_id beyond (fit 12 (snd p))))) by reflexivity.
  destruct B as [-> | (p & P & B)]; [reflexivity|].
  destruct (negb (same (fit 12 x) "tempc" && same (fit 12 y) "pH")); [reflexivity|].
  assert (EX : existsb (bad_column (table l)) (map (fun p => (phreeq_id (table l) (fit 12 (fst p)), unit_id beyond (fit 12 (snd p)))) cols) = true).
  { apply existsb_exists. exists (phreeq_id (table l) (fit 12 (fst p)), unit_id beyond (fit 12 (snd p))). split; [apply in_map_iff; exists p; split; [reflexivity|exact P]|].
    unfold bad_column. cbn [fst snd]. destruct B as [-> | ->]; [reflexivity|]. rewrite Z.eqb_refl, orb_true_r. reflexivity. }
  rewrite EX. reflexivity.
Qed.

(** A header whose first two words are not tempc and pH, an unknown species or an
    unknown unit stops the run, whatever memory holds after the table of units. *)
Theorem C100_unknown : forall l beyond names x y cols, (forall e, In e l -> word 20 (fst (fst e))) -> (forall s, In s names -> word 12 s) ->
  (forall s, In s names -> exists k, row_of l s k) -> word 12 x -> word 12 y ->
  (forall p, In p cols -> word 12 (fst p) /\ word 12 (snd p)) -> (length cols <= 100)%nat ->
  (String.length (sentence (x :: y :: column_words cols)) <= 1000)%nat ->
  (x, y) <> ("tempc", "pH") \/ (exists p, In p cols /\ (~ In (fst p) (map (fun e => fst (fst e)) l) \/ ~ In (snd p) units)) ->
  obsc_init (table l) beyond (map (fit 12) names) 1 (Some (sentence (x :: y :: column_words cols))) = Stopped.
Proof.
  intros l beyond names x y cols T WN KN X Y C L1 L2 B. apply stops; try assumption; try (apply word_g; assumption).
  { intros p P. split; apply word_g; apply (C p P). }
  destruct B as [B | (p & P & B)].
  - left. change "tempc" with (fit 5 "tempc"). change "pH" with (fit 2 "pH").
    assert (S1 : forall n a b, word 12 a -> word n b -> same (fit 12 a) (fit n b) = String.eqb a b).
    { intros n a b Wa Wb. unfold same. rewrite (flen_fit 12 12 a (word_g _ _ Wa) (proj2 (proj2 Wa))), (flen_fit n n b (word_g _ _ Wb) (proj2 (proj2 Wb))).
      rewrite (fit_short 12 a (proj2 (proj2 Wa))), (fit_short n b (proj2 (proj2 Wb))), !sub_prefix. reflexivity. }
    rewrite !S1; try assumption.
    + apply andb_false_iff. destruct (String.eqb_spec x "tempc") as [-> | ]; [right|left; reflexivity].
      destruct (String.eqb_spec y "pH") as [-> | ]; [congruence|reflexivity].
    + split; [discriminate|]. split; [repeat split; discriminate|cbn; lia].
    + split; [discriminate|]. split; [repeat split; discriminate|cbn; lia].
  - right. exists p. split; [exact P|]. destruct (C p P) as [W1 W2]. destruct B as [B | B]; [left; apply phreeq_missing; assumption|right; apply unit_missing; assumption].
Qed.
Print Assumptions C100_unknown.

Lemma gap_gword w : word 11 w -> gword 12 (String " " w).
Proof. intros (H1 & H2 & H3). exists " "%char, w. split; [reflexivity|]. split; [exact H2|]. split; [congruence|]. cbn. lia. Qed.
Lemma gap_same n m w b : word 11 w -> word n b -> (n <= m)%nat -> same (fit 12 (String " " w)) (fit m b) = false.
Proof.
  intros W B NM. unfold same. pose proof (gap_gword w W) as G.
  assert (LB : (String.length b <= m)%nat) by (destruct B as (_ & _ & ?); lia).
  rewrite (flen_fit 12 12 _ G (gword_len _ _ G)), (flen_fit n m b (word_g _ _ B) LB).
  rewrite (fit_short 12 _ (gword_len _ _ G)), (fit_short m b LB), !sub_prefix.
  destruct B as (_ & NB & _). destruct b as [|c b]; [reflexivity|]. apply String.eqb_neq. intros E. injection E as E _. destruct NB as [NB _]. congruence.
Qed.

(** A second blank before a species or a unit becomes part of it: the run stops
    with the message that the species or the unit is not known. *)
Theorem C100_blanks_refuted : forall l beyond names cols w other p, (forall e, In e l -> word 20 (fst (fst e))) -> (forall s, In s names -> word 12 s) ->
  (forall s, In s names -> exists k, row_of l s k) ->
  (forall q, In q cols -> q = p \/ word 12 (fst q) /\ word 12 (snd q)) -> In p cols -> word 11 w -> word 12 other ->
  p = (String " " w, other) \/ p = (other, String " " w) -> (length cols <= 100)%nat -> (String.length (header cols) <= 1000)%nat ->
  obsc_init (table l) beyond (map (fit 12) names) 1 (Some (header cols)) = Stopped.
Proof.
  intros l beyond names cols w other p T WN KN C P W O E L1 L2. unfold header. apply stops; try assumption; try (apply word_g; first [exact tempc_word | exact ph_word]).
  - intros q Q'. destruct (C q Q') as [-> | [W1 W2]]; [|split; apply word_g; assumption].
    destruct E as [-> | ->]; cbn [fst snd]; split; first [apply gap_gword; exact W | apply word_g; exact O].
  - right. exists p. split; [exact P|]. destruct E as [-> | ->]; cbn [fst snd]; [left|right].
    + unfold phreeq_id. clear - T W. generalize 1. induction l as [|e l IH]; intros i; cbn [table map species_from]; [reflexivity|].
      cbn [spec]. rewrite (gap_same 20 20) by (first [exact W | apply T; left; reflexivity | lia]). apply IH. intros x X. apply T. right. exact X.
    + unfold unit_id, unit_lut. fold units. assert (G : forall tbl i, (forall u, In u tbl -> word 12 u) -> 1 <= i -> i + Z.of_nat (length tbl) = 9 ->
        unit_from i (map (fit 12) tbl ++ [beyond]) (fit 12 (String " " w)) = -99).
      { induction tbl as [|u tbl IH]; intros i U I1 I9; cbn [map app unit_from].
        - cbn in I9. replace (8 <? i) with true by lia. reflexivity.
        - cbn [length] in I9. replace (8 <? i) with false by lia. rewrite (gap_same 12 12) by (first [exact W | apply U; left; reflexivity | lia]).
          cbn [Z.eqb]. apply IH; [intros x X; apply U; right; exact X|lia|lia]. }
      apply G; [exact units_words|lia|reflexivity].
Qed.
Print Assumptions C100_blanks_refuted.

(** A last species without a unit is only reported: the unit is taken from a
    variable that was never set, and the run goes on. *)
Theorem C100_no_unit_refuted : forall l beyond names cols e, (forall e, In e l -> word 20 (fst (fst e))) -> (forall s, In s names -> word 12 s) ->
  (forall s, In s names -> exists k, row_of l s k) ->
  (forall p, In p cols -> word 12 (fst p) /\ word 12 (snd p)) -> word 12 e ->
  (String.length (sentence ("tempc" :: "pH" :: column_words cols ++ [e])) <= 1000)%nat ->
  obsc_init (table l) beyond (map (fit 12) names) 1 (Some (sentence ("tempc" :: "pH" :: column_words cols ++ [e]))) = Unreadable.
Proof.
  intros l beyond names cols e T WN KN C We L.
  assert (WC : forall w, In w (column_words cols ++ [e]) -> word 12 w).
  { intros w X. apply in_app_or in X. destruct X as [X | [<- | []]]; [|exact We]. apply col_in in X. destruct X as (q & Q' & [-> | ->]); apply (C q Q'). }
  unfold obsc_init. rewrite (known_names l names T WN KN). cbn [Z.eqb].
  pose proof (header_words "tempc" "pH" (column_words cols ++ [e]) (word_g _ _ tempc_word) (word_g _ _ ph_word) (fun w X => word_g _ _ (WC w X)) L) as H.
  change (same (fit 12 "tempc") "tempc" && same (fit 12 "pH") "pH") with true in H. rewrite H. rewrite pair_up_odd. cbn [rev app].
  destruct (100 <? length (map (fun p => (fit 12 (fst p), Some (fit 12 (snd p)))) cols ++ [(fit 12 e, None)]))%nat; [reflexivity|].
  rewrite map_app. replace (all_some (map (codes (table l) beyond) (map (fun p => (fit 12 (fst p), Some (fit 12 (snd p)))) cols) ++ map (codes (table l) beyond) [(fit 12 e, None)])) with (@None (list (Z * Z))); [reflexivity|].
  symmetry. clear. induction cols as [|p cols IH]; [reflexivity|]. cbn [map app all_some codes fst snd option_map] in *. rewrite IH. reflexivity.
Qed.
Print Assumptions C100_no_unit_refuted.

(** More than a hundred columns are written beyond the arrays for them. *)
Theorem C100_many_refuted : forall l beyond names cols, (forall e, In e l -> word 20 (fst (fst e))) -> (forall s, In s names -> word 12 s) ->
  (forall s, In s names -> exists k, row_of l s k) ->
  (forall p, In p cols -> word 12 (fst p) /\ word 12 (snd p)) -> (100 < length cols)%nat -> (String.length (header cols) <= 1000)%nat ->
  obsc_init (table l) beyond (map (fit 12) names) 1 (Some (header cols)) = Unreadable.
Proof.
  intros l beyond names cols T WN KN C L100 L1000.
  assert (WC : forall w, In w (column_words cols) -> word 12 w).
  { intros w X. apply col_in in X. destruct X as (q & Q' & [-> | ->]); apply (C q Q'). }
  unfold obsc_init. rewrite (known_names l names T WN KN). cbn [Z.eqb].
  pose proof (header_words "tempc" "pH" (column_words cols) (word_g _ _ tempc_word) (word_g _ _ ph_word) (fun w X => word_g _ _ (WC w X)) L1000) as H.
  change (same (fit 12 "tempc") "tempc" && same (fit 12 "pH") "pH") with true in H. fold (header cols) in H. rewrite H.
  rewrite pair_up_cols. cbn [rev app]. rewrite map_length. replace (100 <? length cols)%nat with true by lia. reflexivity.
Qed.
Print Assumptions C100_many_refuted.

(** A solute that the table of species does not have is used as row -99 of it
    before the message for it can be given. *)
Theorem C100_solute_refuted : forall l beyond names ppt file s, (forall e, In e l -> word 20 (fst (fst e))) ->
  In s names -> word 12 s -> ~ In s (map (fun e => fst (fst e)) l) ->
  obsc_init (table l) beyond (map (fit 12) names) ppt file = Unreadable.
Proof.
  intros l beyond names ppt file s T I' W N. unfold obsc_init.
  replace (existsb (fun k => k =? -99) (map (phreeq_id (table l)) (map (fit 12) names))) with true; [reflexivity|].
  symmetry. apply existsb_exists. exists (-99). split; [|reflexivity]. rewrite map_map. apply in_map_iff. exists s. split; [|exact I'].
  apply phreeq_missing; assumption.
Qed.
Print Assumptions C100_solute_refuted.

(** With a constant chemistry of precipitation the file is not read at all, even
    if external sources or samples are to be taken from it. *)
Theorem C100_constant_refuted : forall l beyond names file, (forall e, In e l -> word 20 (fst (fst e))) -> (forall s, In s names -> word 12 s) ->
  (forall s, In s names -> exists k, row_of l s k) -> obsc_init (table l) beyond (map (fit 12) names) 0 file = Constant.
Proof. intros l beyond names file T WN KN. unfold obsc_init. rewrite (known_names l names T WN KN). destruct file; reflexivity. Qed.
Print Assumptions C100_constant_refuted.

(** * C101: the values of a step *)

(** With whole records, the steps are good exactly if from the first record with
    the date of the first step on the records have the dates of the steps; and
    each step has the values of its own record. *)
Theorem C101_in_step : forall u garbage recs now nows l, (forall x, In x recs -> well_formed (length (columns u)) (nchemdat_obs u) x) ->
  (days u (mkRd true garbage (map line_of recs)) (now :: nows) = Some l <->
   exists pre used tail, recs = pre ++ used ++ tail /\ (forall x, In x pre -> ~ same_date now (fst x)) /\
     Forall2 (fun d r => same_date d (fst r)) (now :: nows) used /\ l = map (fun r => day_inputs u (values r)) used).
Proof.
  intros u garbage recs now nows l W. cbn [days]. unfold read_day. cbn [first rest chemdat]. destruct recs as [|r recs].
  { cbn [map read_items]. split; [discriminate|]. intros (pre & used & tail & E & _ & F & _). inversion F; subst. destruct pre; discriminate. }
  assert (Wr : well_formed (length (columns u)) (nchemdat_obs u) r) by (apply W; left; reflexivity).
  cbn [map]. unfold line_of at 1. rewrite <- (app_nil_r (map Some (fst r ++ values r))).
  rewrite read_line by (unfold items; apply (rec_len (length (columns u)) (nchemdat_obs u)); exact Wr).
  pose proof (search_ok (length (columns u)) (nchemdat_obs u) now recs r (length (map line_of recs)) W) as SO.
  rewrite map_length in SO. specialize (SO (Nat.le_refl _)). rewrite map_length. unfold items.
  destruct (search (length recs) (6 + nchemdat_obs u * (length (columns u) + 2)) now (fst r ++ values r) (map line_of recs)) as [[it rest] |].
  - destruct SO as (pre & q & tail & E & P & S' & -> & ->).
    assert (Wq : well_formed (length (columns u)) (nchemdat_obs u) q) by (apply W; rewrite E; apply in_or_app; right; left; reflexivity).
    rewrite skip6 by apply Wq. cbn [chemdat].
    assert (Wt : forall x, In x tail -> well_formed (length (columns u)) (nchemdat_obs u) x) by (intros x X; apply W; rewrite E; apply in_or_app; right; right; exact X).
    split.
    + destruct (days u (mkRd false (values q) (map line_of tail)) nows) as [l'|] eqn:D; [|discriminate]. intros X. injection X as <-.
      apply (days_on u) in D; [|exact Wt]. destruct D as (used & tl & -> & F & ->). exists pre, (q :: used), tl.
      split; [rewrite E; reflexivity|]. split; [exact P|]. split; [constructor; assumption|reflexivity].
    + intros (pre2 & used & tl & E2 & P2 & F & ->). inversion F as [|? q2 ? used2 F1 F2]; subst. rewrite E in E2.
      assert (EQ : pre = pre2 /\ q = q2 /\ tail = used2 ++ tl).
      { clear - E2 P P2 S' F1. revert pre2 P2 E2. induction pre as [|a pre IH]; intros [|b pre2] P2 E2; cbn in E2.
        - injection E2 as -> ->. repeat split.
        - injection E2 as -> _. exfalso. apply (P2 b); [left; reflexivity|exact S'].
        - injection E2 as -> _. exfalso. apply (P q2); [left; reflexivity|exact F1].
        - injection E2 as -> E2. destruct (IH (fun x X => P x (or_intror X)) pre2 (fun x X => P2 x (or_intror X)) E2) as (-> & -> & ->). repeat split. }
      destruct EQ as (<- & <- & ->).
      assert (D : days u (mkRd false (values q) (map line_of (used2 ++ tl))) nows = Some (map (fun r => day_inputs u (values r)) used2)).
      { apply (days_on u); [exact Wt|]. exists used2, tl. split; [reflexivity|]. split; [exact F2|reflexivity]. }
      rewrite D. reflexivity.
  - split; [discriminate|]. intros (pre & used & tail & E & _ & F & _). inversion F as [|? q2 ? used2 F1 F2]; subst.
    exfalso. apply (SO q2); [rewrite E; apply in_or_app; right; left; reflexivity|exact F1].
Qed.
Print Assumptions C101_in_step.

(** The first sample is that of precipitation, the next those of the external
    sources, the others the samples: each with its temperature, pH and its values
    in moles; what is negative is left as it is. *)
Theorem C101_values : forall u p es os, good_setup u -> ppt_chem u = 1 -> chem_ext u = 1 \/ (chem_ext u = 0 /\ nchem_ext u = O) ->
  (forall s, In s (p :: es ++ os) -> length (s_vals s) = length (columns u)) -> length es = nchem_ext u -> length os = nchemobs u ->
  exists i, day_inputs u (flat_map numbers (p :: es ++ os)) = Some i /\
    reads u p (precip i) /\ Forall2 (reads u) es (ext i) /\ Forall2 (reads u) os (obs i).
Proof.
  intros u p es os G PP CE H LE LO.
  assert (ND : nchemdep_obs u = S (length es)) by (unfold nchemdep_obs; rewrite PP; destruct CE as [-> | [-> Z']]; [|rewrite Z' in *]; cbn; lia).
  assert (NT : nchemdat_obs u = (S (length es) + length os)%nat) by (unfold nchemdat_obs; lia).
  set (ss := p :: es ++ os) in *. unfold day_inputs. rewrite PP. cbn [Z.eqb Pos.eqb].
  change (Z.to_nat 1) with 1%nat.
  destruct (source_ok u ss O p G H eq_refl) as (w & W & R); [lia|]. rewrite W.
  destruct (all_reads u (fun i => source u (flat_map numbers ss) (row_tp u (flat_map numbers ss) (i + 1)) (if (i + 1 <? nchemdep_obs u)%nat then Some (i + 1)%nat else None)) es O) as (we & WE & RE).
  { intros k s K. assert (KL : (k < length es)%nat) by (apply nth_error_Some; rewrite K; discriminate).
    cbn [Nat.add]. replace (k + 1 <? nchemdep_obs u)%nat with true by lia. apply (source_ok u ss); [exact G|exact H| |lia].
    replace (k + 1)%nat with (S k) by lia. unfold ss. cbn [nth_error]. rewrite nth_error_app1 by exact KL. exact K. }
  rewrite LE in WE. rewrite WE.
  destruct (all_reads u (fun j => source u (flat_map numbers ss) (row_tp u (flat_map numbers ss) (nchemdep_obs u + j)) (Some (nchemdep_obs u + j)%nat)) os O) as (wo & WO & RO).
  { intros k s K. assert (KL : (k < length os)%nat) by (apply nth_error_Some; rewrite K; discriminate).
    cbn [Nat.add]. apply (source_ok u ss); [exact G|exact H| |lia]. rewrite ND. unfold ss. cbn [Nat.add nth_error].
    rewrite nth_error_app2 by lia. replace (length es + k - length es)%nat with k by lia. exact K. }
  rewrite LO in WO. rewrite WO. eexists. split; [reflexivity|]. cbn [precip ext obs]. split; [exact R|]. split; assumption.
Qed.
Print Assumptions C101_values.

(** With chem_ext = 0 the external sources take temperature and pH from the rows
    of the samples, and from outside the array if there are fewer samples. *)
Theorem C101_constant_refuted : forall u p os, good_setup u -> ppt_chem u = 1 -> chem_ext u = 0 ->
  (forall s, In s (p :: os) -> length (s_vals s) = length (columns u)) -> length os = nchemobs u ->
  ((nchem_ext u <= nchemobs u)%nat -> exists i, day_inputs u (flat_map numbers (p :: os)) = Some i /\
     map (fun w => (temp w, ph w)) (ext i) = map (fun s => (s_temp s, s_ph s)) (firstn (nchem_ext u) os)) /\
  ((nchemobs u < nchem_ext u)%nat -> day_inputs u (flat_map numbers (p :: os)) = None).
Proof.
  intros u p os G PP CE H LO. set (ss := p :: os) in *.
  assert (ND : nchemdep_obs u = 1%nat) by (unfold nchemdep_obs; rewrite PP, CE; cbn; lia).
  assert (NT : nchemdat_obs u = S (length os)) by (unfold nchemdat_obs; lia).
  set (f := fun i => source u (flat_map numbers ss) (row_tp u (flat_map numbers ss) (i + 1)) (if (i + 1 <? nchemdep_obs u)%nat then Some (i + 1)%nat else None)).
  assert (F : forall k, f k = match nth_error os k with Some s => Some (mkWat (s_temp s) (s_ph s) (map (fun _ => Some 0%Q) (valid u))) | None => None end).
  { intros k. unfold f. rewrite ND. replace (k + 1 <? 1)%nat with false by lia. unfold source, row_tp. rewrite NT. destruct (nth_error os k) as [s|] eqn:K.
    - assert (KL : (k < length os)%nat) by (apply nth_error_Some; rewrite K; discriminate). replace (k + 1 <? S (length os))%nat with true by lia.
      rewrite !(cell_at u ss) by (first [exact H | lia]). replace (k + 1)%nat with (S k) by lia. unfold ss. cbn [nth_error]. rewrite K. reflexivity.
    - apply nth_error_None in K. replace (k + 1 <? S (length os))%nat with false by lia. reflexivity. }
  split; intros C.
  - destruct (source_ok u ss O p G H eq_refl) as (w & W & R); [lia|].
    destruct (all_reads u (fun j => source u (flat_map numbers ss) (row_tp u (flat_map numbers ss) (nchemdep_obs u + j)) (Some (nchemdep_obs u + j)%nat)) os O) as (wo & WO & RO).
    { intros k s K. assert (KL : (k < length os)%nat) by (apply nth_error_Some; rewrite K; discriminate).
      cbn [Nat.add]. apply (source_ok u ss); [exact G|exact H| |lia]. rewrite ND. unfold ss. cbn [Nat.add nth_error]. exact K. }
    assert (E : forall l a, (forall k s, nth_error l k = Some s -> nth_error os (a + k) = Some s) -> 
       all (map f (seq a (length l))) = Some (map (fun s => mkWat (s_temp s) (s_ph s) (map (fun _ => Some 0%Q) (valid u))) l)).
    { induction l as [|s l IH]; intros a A; [reflexivity|]. cbn [length seq map all]. rewrite F, <- (Nat.add_0_r a), (A O s eq_refl), Nat.add_0_r.
      rewrite (IH (S a)); [reflexivity|]. intros k x X. replace (S a + k)%nat with (a + S k)%nat by lia. apply A. exact X. }
    specialize (E (firstn (nchem_ext u) os) O). rewrite firstn_length_le in E by lia.
    unfold day_inputs. rewrite PP. cbn [Z.eqb Pos.eqb]. change (Z.to_nat 1) with 1%nat. fold f. rewrite LO in WO. rewrite W, WO, E.
    + eexists. split; [reflexivity|]. cbn [ext]. rewrite map_map. reflexivity.
    + intros k s K. cbn [Nat.add]. rewrite <- (firstn_skipn (nchem_ext u) os). rewrite nth_error_app1; [exact K|]. apply nth_error_Some. rewrite K. discriminate.
  - unfold day_inputs. rewrite PP. cbn [Z.eqb Pos.eqb]. change (Z.to_nat 1) with 1%nat. fold f.
    assert (E : forall n a, (a <= length os < a + n)%nat -> all (map f (seq a n)) = None).
    { induction n as [|n IH]; intros a A; [lia|]. cbn [seq map all]. rewrite F. destruct (nth_error os a) as [s|] eqn:K; [|reflexivity].
      rewrite IH; [reflexivity|]. assert (a < length os)%nat by (apply nth_error_Some; rewrite K; discriminate). lia. }
    rewrite (E (nchem_ext u) O) by lia. destruct (source _ _ _ _); reflexivity.
Qed.
Print Assumptions C101_constant_refuted.

(** A precipitation that is not taken from the file has 25 degrees, pH 7 and no
    solutes. *)
Theorem C101_pure : forall u m i, ppt_chem u <> 1 -> day_inputs u m = Some i ->
  temp (precip i) = 25%Q /\ ph (precip i) = 7%Q /\ forall c, In c (conc (precip i)) -> c = Some 0%Q.
Proof.
  intros u m i P. unfold day_inputs. replace (ppt_chem u =? 1) with false by lia. unfold source at 1.
  destruct (all _); [|discriminate]. destruct (all _); [|discriminate]. intros E.
  assert (PI : precip i = mkWat 25 7 (map (fun _ => Some 0%Q) (valid u))).
  { assert (i = mkIn (mkWat 25 7 (map (fun _ => Some 0%Q) (valid u))) l l0) as -> by congruence. reflexivity. }
  rewrite PI. cbn [temp ph conc]. split; [reflexivity|]. split; [reflexivity|]. intros c C. apply in_map_iff in C.
  destruct C as (x & <- & _). reflexivity.
Qed.
Print Assumptions C101_pure.

(** A field that is no number is not reported: from there on the values of the
    step before are used again. *)
Theorem C101_field_refuted : forall n now d got old r rest, length d = 6%nat -> same_date now d -> (6 + length got < n)%nat ->
  read_day n now (mkRd false old ((map Some (d ++ got) ++ None :: r) :: rest)) = Read (mkRd false (got ++ skipn (length got) old) rest).
Proof.
  intros n now d got old r rest L S' N. unfold read_day. cbn [Obs_Model.rest first chemdat read_items length]. rewrite Nat.sub_0_r.
  assert (SC : forall l n, (length l < n)%nat -> scan n (map Some l ++ None :: r) = (l, true)).
  { induction l as [|q l IH]; intros [|m] M; cbn in *; try lia; [reflexivity|]. rewrite IH by lia. reflexivity. }
  rewrite SC by (rewrite app_length; lia). cbn [app]. rewrite app_length, L.
  replace (6 + length got <? 6)%nat with false by lia. replace (6 + length got - 6)%nat with (length got) by lia.
  rewrite <- app_assoc. assert (D : date_eqb now (d ++ got ++ skipn (length got) old) = true) by (apply date_same; assumption).
  rewrite D. rewrite skip6 by exact L. reflexivity.
Qed.
Print Assumptions C101_field_refuted.

(** A record with too few numbers is not reported either: the numbers missing are
    taken from the next line, and that line is passed over. *)
Theorem C101_short_refuted : forall n now d got l rest old, length d = 6%nat -> same_date now d ->
  (6 + length got < n)%nat -> (n <= 6 + length got + length l)%nat ->
  read_day n now (mkRd false old (map Some (d ++ got) :: map Some l :: rest)) = Read (mkRd false (got ++ firstn (n - 6 - length got) l) rest).
Proof.
  intros n now d got l rest old L S' N1 N2. unfold read_day. cbn [Obs_Model.rest first chemdat read_items length]. rewrite Nat.sub_0_r.
  assert (SC : forall l n, (length l < n)%nat -> scan n (map Some l) = (l, false)).
  { induction l0 as [|q l0 IH]; intros [|m] M; cbn in *; try lia; [reflexivity|]. rewrite IH by lia. reflexivity. }
  assert (SF : forall l n, (n <= length l)%nat -> scan n (map Some l) = (firstn n l, false)).
  { induction l0 as [|q l0 IH]; intros [|m] M; cbn in *; try lia; try reflexivity. rewrite IH by lia. reflexivity. }
  rewrite SC by (rewrite app_length; lia). cbn [app]. replace (n <=? length (d ++ got))%nat with false by (rewrite app_length; lia).
  rewrite SF by (rewrite app_length; lia). 
  rewrite !app_length, firstn_length_le by lia. replace (n <=? length d + length got + (n - (length d + length got)))%nat with true by lia.
  rewrite <- app_assoc. assert (D : date_eqb now (d ++ got ++ firstn (n - (length d + length got)) l) = true) by (apply date_same; assumption).
  rewrite D. rewrite skip6 by exact L. rewrite L. replace (n - (6 + length got))%nat with (n - 6 - length got)%nat by lia. reflexivity.
Qed.
Print Assumptions C101_short_refuted.

(** * C102: the sources of a step *)

(** Precipitation and each external source become solutions, each sample is
    recorded, each in its place among the inputs. *)
Theorem C102_sources : forall ppt chem_ext nchem_ext nchemobs, ppt = 0 \/ ppt = 1 -> 0 <= nchem_ext -> 0 <= nchemobs ->
  chem_ext = 1 \/ (chem_ext = 0 /\ nchem_ext = 0) -> forall d,
  In d (deeds ppt chem_ext nchem_ext nchemobs) <->
    (ppt = 1 /\ d = Create 1 FromPrecip) \/ (exists k, 1 <= k <= nchem_ext /\ d = Create (1 + k) (FromExt k)) \/
    (exists k, 1 <= k <= nchemobs /\ d = Record (1 + nchem_ext + k) (FromObs k)).
Proof.
  intros ppt ce ne no P NE NO C d. unfold deeds. rewrite in_map_iff. 
  assert (M : ce * ne = ne) by (destruct C as [-> | [-> ->]]; lia). split.
  - intros (k & <- & K). apply in_seq in K. rewrite M in K. unfold deed_of. set (ib := 2 - ppt + Z.of_nat k). replace (ne * ce) with ne by lia.
    assert (IX : (if (1 <? ib) && (ce =? 0) then ib + ne else ib) = ib).
    { destruct C as [-> | [-> ->]]; [rewrite andb_false_r; reflexivity|]. destruct ((1 <? ib) && (0 =? 0)); lia. }
    rewrite IX. destruct (Z.eqb_spec ib 1) as [E | E].
    + left. split; [lia|]. replace (ib <=? 1 + ne) with true by lia. f_equal. exact E.
    + destruct (Z.leb_spec (ib - 1) ne).
      * right. left. exists (ib - 1). split; [lia|]. replace (ib <=? 1 + ne) with true by lia. f_equal. lia.
      * right. right. exists (ib - (1 + ne)). split; [lia|]. replace (ib <=? 1 + ne) with false by lia. f_equal. lia.
  - assert (IX : forall ib, (if (1 <? ib) && (ce =? 0) then ib + ne else ib) = ib).
    { intros ib. destruct C as [-> | [-> ->]]; [rewrite andb_false_r; reflexivity|]. destruct ((1 <? ib) && (0 =? 0)); lia. }
    intros [[-> ->] | [(k & K & ->) | (k & K & ->)]].
    + exists O. split; [|apply in_seq; lia]. change (2 - 1 + Z.of_nat 0) with 1. unfold deed_of. rewrite IX.
      replace (1 <=? 1 + ne) with true by lia. reflexivity.
    + exists (Z.to_nat (1 + k - 2 + ppt)). split; [|apply in_seq; lia]. replace (2 - ppt + Z.of_nat (Z.to_nat (1 + k - 2 + ppt))) with (1 + k) by lia.
      unfold deed_of. rewrite IX. replace (ne * ce) with ne by lia. replace (1 + k =? 1) with false by lia. replace (1 + k - 1 <=? ne) with true by lia.
      replace (1 + k <=? 1 + ne) with true by lia. f_equal. f_equal. lia.
    + exists (Z.to_nat (1 + ne + k - 2 + ppt)). split; [|apply in_seq; lia]. replace (2 - ppt + Z.of_nat (Z.to_nat (1 + ne + k - 2 + ppt))) with (1 + ne + k) by lia.
      unfold deed_of. rewrite IX. replace (ne * ce) with ne by lia. replace (1 + ne + k =? 1) with false by lia. replace (1 + ne + k - 1 <=? ne) with false by lia.
      replace (1 + ne + k <=? 1 + ne) with false by lia. f_equal. f_equal. lia.
Qed.
Print Assumptions C102_sources.

(** With constant external sources, as many of the samples as there are such
    sources are made solutions instead of being recorded. *)
Theorem C102_constant_refuted : forall ppt nchem_ext nchemobs k, ppt = 0 \/ ppt = 1 -> 0 < nchem_ext -> 0 <= nchemobs -> 1 <= k <= nchemobs ->
  k <= nchem_ext -> In (Create (1 + nchem_ext + k) (FromObs k)) (deeds ppt 0 nchem_ext nchemobs) /\
    ~ In (Record (1 + nchem_ext + k) (FromObs k)) (deeds ppt 0 nchem_ext nchemobs).
Proof.
  intros ppt ne no k P NE NO K KN. unfold deeds. split.
  - apply in_map_iff. exists (Z.to_nat (k - 1 + ppt)). split; [|apply in_seq; lia]. replace (2 - ppt + Z.of_nat (Z.to_nat (k - 1 + ppt))) with (1 + k) by lia.
    unfold deed_of. replace (1 <? 1 + k) with true by lia. cbn [andb Z.eqb]. replace (1 + k =? 1) with false by lia. replace (1 + k - 1 <=? ne * 0) with false by lia.
    replace (1 + k <=? 1 + ne) with true by lia. f_equal; [lia|]. f_equal. lia.
  - intros X. apply in_map_iff in X. destruct X as (j & E & J). apply in_seq in J. unfold deed_of in E. set (ib := 2 - ppt + Z.of_nat j) in *.
    destruct (ib <=? 1 + ne) eqn:L; [discriminate|]. assert (E1 : (if (1 <? ib) && (0 =? 0) then ib + ne else ib) = 1 + ne + k) by congruence. change (0 =? 0) with true in E1. rewrite andb_true_r in E1. clearbody ib. replace (1 <? ib) with true in E1 by lia. lia.
Qed.
Print Assumptions C102_constant_refuted.

(** * A case *)
Definition some_table : list (string * Q * Q) := [("Ca", 40080%Q, 2000%Q); ("S", 96064%Q, 2000%Q); ("Amm", 18000%Q, 0%Q)].
Definition some_cols : list (string * string) := [("Ca", "meq/L"); ("Amm", "uconc2"); ("Ca", "mg/L")].
Example C100_case : obsc_init (table some_table) "whatever" (map (fit 12) ["Amm"; "S"; "Ca"]) 1 (Some (header some_cols))
  = Ready [(1, 2); (3, 4); (1, 1)] [2; 0; 3].
Proof. vm_compute. reflexivity. Qed.
Definition some_setup : setup := mkSet (table some_table) [1%Q; 10%Q; 1%Q] [(1, 2); (3, 4); (1, 1)] [2; 0; 3] 1 1 1 1.
Definition some_day (d : Z) (x : Q) : list token := map Some (map inject_Z [2000; 1; d; 0; 0; 0] ++ [25; 7; 1; x; 40080; 20; 6; 1; 20; -1; 12; 5; 1; 30; 20040]%Q).
Example C101_case :
  days some_setup (mkRd true [] [some_day 1 5; some_day 2 10; some_day 3 20]) [map inject_Z [2000; 1; 2; 0; 0; 0]; map inject_Z [2000; 1; 3; 0; 0; 0]]
  = Some (map (fun x => day_inputs some_setup [25; 7; 1; x; 40080; 20; 6; 1; 20; -1; 12; 5; 1; 30; 20040]%Q) [10%Q; 20%Q]) /\
  option_map (fun i => (option_map (map (option_map Qred)) (Some (conc (precip i))), map (fun w => map (option_map Qred) (conc w)) (ext i))) (day_inputs some_setup [25; 7; 1; 10; 40080; 20; 6; 1; 20; -1; 12; 5; 1; 30; 20040]%Q)
  = Some (Some [Some 1%Q; Some 0%Q; Some 1%Q], [[Some 2%Q; Some 0%Q; Some (-1)%Q]]).
Proof. split; vm_compute; reflexivity. Qed.
Example C101_setup : good_setup some_setup.
Proof.
  split; [|split; [|split; [reflexivity|]]].
  - cbn. intuition lia.
  - cbn. intros c [<- | [<- | [<- | []]]]; (split; [cbn; lia|]); eexists; (split; [reflexivity|]); split; cbn; try discriminate; intros _; discriminate.
  - cbn. intros f F. intuition (subst; discriminate).
Qed.
