(** Properties C98-C99: the mixing call of webmod, and copies. *)
From Coq Require Import String Ascii ZArith QArith Bool List Lia ZifyBool.
From Verif Require Import Qx Ckpt_Model Prog_Model Lex_Proofs Mix_Model SelOut_Model Phrmix_Model Phrmix_Spec Phrmix_Proofs.
Import ListNotations.
Local Open Scope string_scope.
Local Open Scope list_scope.
Local Open Scope Z_scope.

(** * C98: the answer of a mixing call *)

Lemma pre_over w r : fst (fst (pre_mix w (overwritten r))) = fst (fst (pre_mix w r)).
Proof.
  unfold pre_mix. change (sols (overwritten r)) with (sols r). destruct (neg_factor w (sols r)); [|reflexivity].
  change (fun k => user (overwritten r) k <? 0) with (fun k => user r k <? 0). destruct (forallb (fun k => user r k <? 0) kinds); reflexivity.
Qed.

(** A request without reactants is one simulation, one with a reactant is
    three: mixing, scaling and reaction, scaling back. *)
Theorem C98_script : forall w r, fst (fst (pre_mix w r)) = true ->
  ((forall k, user r k < 0) -> one_sim (run_mix w (overwritten r) [])) /\
  (forall k, 0 <= user r k -> exists s1 s2 s3,
     run_mix w (overwritten r) [] = s1 ++ s2 ++ s3 /\ one_sim s1 /\ one_sim s2 /\ one_sim s3).
Proof.
  intros w r P. split.
  - intros N. apply script_one; [rewrite pre_over; exact P|exact N].
  - intros k N. apply (script_three w (overwritten r) k); [rewrite pre_over; exact P|exact N].
Qed.
Print Assumptions C98_script.

(** Without reactants: no error, pH, temperature and concentrations are those
    of the row of the mixture; there is no final pH. *)
Theorem C98_mixture : forall w eng size r s1 k1 k2 ks row1,
  run_mix w (overwritten r) [] = s1 -> one_sim s1 ->
  NoDup (k1 :: k2 :: ks) -> length (others row1) = length ks -> (length ks <= size)%nat ->
  eng [] s1 = Punched (cells k1 k2 ks row1) ->
  phr_mix w eng size [] r = Reply (mkReply 0 (number_or (at_ph row1)) marker (number_or (at_temp row1))
    (map number_or (others row1) ++ repeat marker (size - length ks))).
Proof.
  intros w eng size r s1 k1 k2 ks row1 RM O1 N L S' E1. unfold phr_mix. rewrite RM, (run_one eng s1 O1), E1.
  destruct (read_ok k1 k2 ks row1 [] 0 size N) as (t & T & R & _); [intros x [<- | []]; exact L|left; reflexivity|].
  cbn [map] in T. rewrite T. apply R. exact S'.
Qed.
Print Assumptions C98_mixture.

(** With reactants: the concentrations and the first pH are those of the
    mixture before the reaction, the final pH that after it. *)
Theorem C98_reacted : forall w eng size r s1 s2 s3 k1 k2 ks row1 row2 row3,
  run_mix w (overwritten r) [] = s1 ++ s2 ++ s3 -> one_sim s1 -> one_sim s2 -> one_sim s3 ->
  NoDup (k1 :: k2 :: ks) -> (forall x, In x [row1; row2; row3] -> length (others x) = length ks) -> (length ks <= size)%nat ->
  eng [] s1 = Punched (cells k1 k2 ks row1) -> eng s1 s2 = Punched (cells k1 k2 ks row2) ->
  eng (s1 ++ s2) s3 = Punched (cells k1 k2 ks row3) ->
  phr_mix w eng size [] r = Reply (mkReply 0 (number_or (at_ph row1)) (number_or (at_ph row2)) (number_or (at_temp row1))
    (map number_or (others row1) ++ repeat marker (size - length ks))).
Proof.
  intros w eng size r s1 s2 s3 k1 k2 ks row1 row2 row3 RM O1 O2 O3 N L S' E1 E2 E3. unfold phr_mix. rewrite RM, (run_three eng s1 s2 s3 O1 O2 O3), E1, E2, E3.
  destruct (read_ok k1 k2 ks row1 [row2; row3] 0 size N L) as (t & T & R & _); [right; reflexivity|].
  cbn [map] in T. rewrite T. apply R. exact S'.
Qed.
Print Assumptions C98_reacted.

(** A mixture that fails, or a scaling back that fails, is reported with its
    count of errors, and no number is given back. *)
Theorem C98_failure : forall w eng size r s1 s2 s3 n,
  (run_mix w (overwritten r) [] = s1 \/ run_mix w (overwritten r) [] = s1 ++ s2 ++ s3) ->
  one_sim s1 -> one_sim s2 -> one_sim s3 ->
  (eng [] s1 = Stopped n ->
   phr_mix w eng size [] r = Reply (mkReply n marker marker marker (repeat marker size))) /\
  (forall k1 k2 ks row1 row2, run_mix w (overwritten r) [] = s1 ++ s2 ++ s3 ->
   NoDup (k1 :: k2 :: ks) -> (forall x, In x [row1; row2] -> length (others x) = length ks) ->
   eng [] s1 = Punched (cells k1 k2 ks row1) -> eng s1 s2 = Punched (cells k1 k2 ks row2) ->
   eng (s1 ++ s2) s3 = Stopped n ->
   phr_mix w eng size [] r = Reply (mkReply n marker marker marker (repeat marker size))).
Proof.
  intros w eng size r s1 s2 s3 n RM O1 O2 O3. split.
  - intros E1. unfold phr_mix. destruct RM as [-> | ->].
    + rewrite (run_one eng s1 O1), E1. reflexivity.
    + rewrite (run_three eng s1 s2 s3 O1 O2 O3), E1. reflexivity.
  - intros k1 k2 ks row1 row2 RM3 N L E1 E2 E3. unfold phr_mix. rewrite RM3, (run_three eng s1 s2 s3 O1 O2 O3), E1, E2, E3.
    destruct (table_rows k1 k2 ks row1 [row2] N L) as (t & T & RF & _). cbn [map] in T. rewrite T.
    unfold read_reply. rewrite RF. reflexivity.
Qed.
Print Assumptions C98_failure.

(** A reaction that fails is not reported: phr_mix puts the codes of reading the
    table over the result of RunMixF, and the one row of the mixture is taken for
    the answer to a request without reactants. For every request with reactants
    and every number of errors, phr_mix answers 0 and gives the mixture before
    the reaction; webmod goes on with it. *)
Theorem C98_failed_reaction_refuted : forall w eng size r s1 s2 s3 k1 k2 ks row1 n,
  run_mix w (overwritten r) [] = s1 ++ s2 ++ s3 -> one_sim s1 -> one_sim s2 -> one_sim s3 ->
  NoDup (k1 :: k2 :: ks) -> length (others row1) = length ks -> (length ks <= size)%nat ->
  eng [] s1 = Punched (cells k1 k2 ks row1) -> eng s1 s2 = Stopped n ->
  phr_mix w eng size [] r = Reply (mkReply 0 (number_or (at_ph row1)) marker (number_or (at_temp row1))
    (map number_or (others row1) ++ repeat marker (size - length ks))).
Proof.
  intros w eng size r s1 s2 s3 k1 k2 ks row1 n RM O1 O2 O3 N L S' E1 E2. unfold phr_mix. rewrite RM, (run_three eng s1 s2 s3 O1 O2 O3), E1, E2.
  destruct (read_ok k1 k2 ks row1 [] n size N) as (t & T & R & _); [intros x [<- | []]; exact L|left; reflexivity|].
  cbn [map] in T. rewrite T. apply R. exact S'.
Qed.
Print Assumptions C98_failed_reaction_refuted.

(** The amount of reaction and the time of kinetic reactions are those of the
    request. *)
Theorem C98_settings : forall w r,
  fst (fst (pre_mix w r)) = true ->
  (0 <= user r Reaction -> entity w Reaction (user r Reaction) = true ->
   forall q, In (Moles (user r Reaction) q) (snd (pre_mix w (overwritten r))) <-> q = (rxnmols r * fill r)%Q) /\
  (0 <= user r Kinetics -> entity w Kinetics (user r Kinetics) = true ->
   forall q, In (Seconds (user r Kinetics) q) (snd (pre_mix w (overwritten r))) <-> q = tsec r).
Proof.
  intros w r P.
  assert (G : forall k0, 0 <= user r k0 -> entity w k0 (user r k0) = true -> In k0 kinds ->
    snd (pre_mix w (overwritten r)) = flat_map (use_settings w (overwritten r)) kinds).
  { intros k0 U X K. unfold pre_mix, overwritten in *. cbn [sols n_rxn n_cons fill user rxnmols tempc tsec] in *.
    destruct (neg_factor w (sols r)) as [nf|]; [|discriminate].
    assert (F : forallb (fun k => user r k <? 0) kinds = false).
    { destruct (forallb (fun k => user r k <? 0) kinds) eqn:E; [|reflexivity]. rewrite forallb_forall in E.
      specialize (E k0 K). lia. }
    rewrite F. reflexivity. }
  split; intros U X q; (erewrite G; [|exact U | exact X | cbn; tauto]); rewrite in_flat_map; split.
  - intros (k & K & J). unfold use_settings, overwritten in J. cbn [user rxnmols fill tsec tempc] in J.
    destruct ((0 <=? user r k) && entity w k (user r k)); [|contradiction].
    destruct k; try contradiction; destruct J as [E | []]; try discriminate. injection E as <-. reflexivity.
  - intros ->. exists Reaction. split; [cbn; tauto|]. unfold use_settings, overwritten. cbn [user rxnmols fill]. rewrite X.
    replace (0 <=? user r Reaction) with true by lia. cbn [andb]. left. reflexivity.
  - intros (k & K & J). unfold use_settings, overwritten in J. cbn [user rxnmols fill tsec tempc] in J.
    destruct ((0 <=? user r k) && entity w k (user r k)); [|contradiction].
    destruct k; try contradiction; destruct J as [E | []]; try discriminate. injection E as <-. reflexivity.
  - intros ->. exists Kinetics. split; [cbn; tauto|]. unfold use_settings, overwritten. cbn [user tsec]. rewrite X.
    replace (0 <=? user r Kinetics) with true by lia. cbn [andb]. left. reflexivity.
Qed.
Print Assumptions C98_settings.

(** phr_mix clears its argument for the temperature before it hands it on: a
    REACTION_TEMPERATURE that a request names is set to -987654336 degrees,
    whatever temperature the caller gives. *)
Theorem C98_temperature_refuted : forall w r t,
  fst (fst (pre_mix w r)) = true -> 0 <= user r Temperature -> entity w Temperature (user r Temperature) = true ->
  forall s, In (Degrees (user r Temperature) s) (snd (pre_mix w (overwritten (mkReq (sols r) (n_rxn r) (n_cons r) (fill r) (user r) (rxnmols r) t (tsec r)))))
            <-> s = marker.
Proof.
  intros w r t P U X s. unfold pre_mix, overwritten in *. cbn [sols n_rxn n_cons fill user rxnmols tempc tsec] in *.
  destruct (neg_factor w (sols r)) as [nf|]; [|discriminate].
  assert (F : forallb (fun k => user r k <? 0) kinds = false).
  { destruct (forallb (fun k => user r k <? 0) kinds) eqn:E; [|reflexivity]. rewrite forallb_forall in E.
    specialize (E Temperature ltac:(cbn; tauto)). lia. }
  rewrite F in *. cbn [snd]. rewrite in_flat_map. split.
  - intros (k & K & I'). unfold use_settings in I'. cbn [user tempc] in I'.
    destruct ((0 <=? user r k) && entity w k (user r k)); [|contradiction].
    destruct k; try contradiction; destruct I' as [E | []]; try discriminate. injection E as <-. reflexivity.
  - intros ->. exists Temperature. split; [cbn; tauto|]. unfold use_settings. cbn [user tempc]. rewrite X.
    replace (0 <=? user r Temperature) with true by lia. cbn [andb]. left. reflexivity.
Qed.
Print Assumptions C98_temperature_refuted.

(** One more numeric column of selected output than the array has elements (two
    for pH and temperature, one for each solute, three for each isotope) is
    written beyond its end. *)
Theorem C98_columns_refuted : forall w eng size r s1 k1 k2 ks row1,
  run_mix w (overwritten r) [] = s1 -> one_sim s1 ->
  NoDup (k1 :: k2 :: ks) -> length (others row1) = length ks -> (size < length ks)%nat ->
  (forall v, In v (others row1) -> exists x, v = VDouble x) ->
  eng [] s1 = Punched (cells k1 k2 ks row1) ->
  phr_mix w eng size [] r = Undefined.
Proof.
  intros w eng size r s1 k1 k2 ks row1 RM O1 N L S' D E1. unfold phr_mix. rewrite RM, (run_one eng s1 O1), E1.
  destruct (read_ok k1 k2 ks row1 [] 0 size N) as (t & T & _ & R); [intros x [<- | []]; exact L|left; reflexivity|].
  cbn [map] in T. rewrite T. apply R; [exact S'|]. intros v V. apply nth_error_In in V. destruct (D v V) as [x ->]. exists x. reflexivity.
Qed.
Print Assumptions C98_columns_refuted.

(** A request with an exchanger, and engines that do and do not fail. *)
Definition some_world : world := mkW (fun _ => Some 1%Q) (fun _ _ => true).
Definition some_request : request :=
  mkReq [(2, 1%Q)] 100 101 2%Q (fun k => match k with Exchange => 7 | _ => -1 end) 0%Q 12%Q 0%Q.
Definition some_engine (fails : bool) : engine := fun done this =>
  if fails && negb (Nat.eqb (length done) 0) then Stopped 3
  else Punched (cells "pH" "temp(C)" ["Ca"; "note"] (mkRow (VDouble (inject_Z (7 + Z.of_nat (length done)))) (VDouble 12) [VDouble (1 # 2); VString "x"])).

Example C98_case :
  phr_mix some_world (some_engine false) 3 [] some_request = Reply (mkReply 0 7 12 12 [(1 # 2)%Q; marker; marker]) /\
  phr_mix some_world (some_engine true) 3 [] some_request = Reply (mkReply 0 7 marker 12 [(1 # 2)%Q; marker; marker]).
Proof. split; vm_compute; reflexivity. Qed.
Example C98_script_case : fst (fst (pre_mix some_world some_request)) = true /\ 0 <= user some_request Exchange /\
  NoDup ["pH"; "temp(C)"; "Ca"; "note"].
Proof. split; [reflexivity|]. split; [cbn; lia|]. repeat (constructor; [cbn; intuition discriminate|]). constructor. Qed.

(** * C99: copies *)

(** What COPY does with one pair of numbers. *)
Lemma copy_one_ok {A} number kw (m : Z -> option A) a b : (forall n, 0 <= n -> number (dec n) = Some n) ->
  no_blank kw -> kw <> "" -> 0 <= a < 10000000000 -> 0 <= b < 1000000000 ->
  copy_run number m (copy_text kw a b) = (copied m (a, b), 0).
Proof. intros NU N E Ha Hb. unfold copy_run. rewrite copy_words by assumption. rewrite !NU by lia. reflexivity. Qed.

(** Numbers of up to nine digits: the pairs are copied one after the other, those
    with a negative number are passed over, and there is no error. *)
Theorem C99_in_turn : forall A number kw (m : Z -> option A) l, (forall n, 0 <= n -> number (dec n) = Some n) ->
  no_blank kw -> kw <> "" -> (forall p, In p l -> fst p < 10000000000 /\ snd p < 1000000000) ->
  multicopy number kw m l =
    (fold_left copied (filter (fun p => (0 <=? fst p) && (0 <=? snd p)) l) m, 0).
Proof.
  intros A number kw m l NU N E. revert m. induction l as [|[a b] l IH]; intros m B; [reflexivity|].
  assert (Bl : forall p, In p l -> fst p < 10000000000 /\ snd p < 1000000000) by (intros p P; apply B; right; exact P).
  cbn [multicopy filter fst snd]. destruct ((0 <=? a) && (0 <=? b)) eqn:C; [|apply IH; exact Bl].
  pose proof (B (a, b) (or_introl eq_refl)) as [Ba Bb]. cbn [fst snd] in Ba, Bb.
  rewrite copy_one_ok by (try assumption; lia). cbn [Z.eqb fold_left]. apply IH. exact Bl.
Qed.
Print Assumptions C99_in_turn.

(** Where the targets differ from each other and from all sources, each target
    has its source, and all other numbers are as before. *)
Theorem C99_all : forall A number kw (m : Z -> option A) l, (forall n, 0 <= n -> number (dec n) = Some n) ->
  no_blank kw -> kw <> "" ->
  (forall p, In p l -> 0 <= fst p < 10000000000 /\ 0 <= snd p < 1000000000 /\ m (fst p) <> None) ->
  NoDup (map snd l) -> (forall p q, In p l -> In q l -> fst p <> snd q) ->
  snd (multicopy number kw m l) = 0 /\
  (forall p, In p l -> fst (multicopy number kw m l) (snd p) = m (fst p)) /\
  (forall j, ~ In j (map snd l) -> fst (multicopy number kw m l) j = m j).
Proof.
  intros A number kw m l NU N E B ND DS.
  assert (FL : filter (fun p => (0 <=? fst p) && (0 <=? snd p)) l = l).
  { clear - B. induction l as [|p l IH]; [reflexivity|]. cbn [filter]. destruct (B p (or_introl eq_refl)) as (B1 & B2 & _).
    replace ((0 <=? fst p) && (0 <=? snd p)) with true by lia. f_equal. apply IH. intros q Q'. apply B. right. exact Q'. }
  rewrite C99_in_turn by (try assumption; intros p P; destruct (B p P) as (? & ? & _); lia). rewrite FL. cbn [fst snd]. split; [reflexivity|].
  clear FL NU N E. revert m B. induction l as [|[a b] l IH]; intros m B; cbn [fold_left map snd] in *.
  { split; [intros p []|reflexivity]. }
  inversion ND as [|? ? N1 N2]; subst.
  assert (C : forall j, copied m (a, b) j = if j =? b then m a else m j).
  { intros j. unfold copied. cbn [fst snd]. destruct (B (a, b) (or_introl eq_refl)) as (_ & _ & B3). cbn [fst] in B3.
    destruct (m a) as [v|]; [destruct (j =? b); reflexivity|congruence]. }
  assert (SRC : forall p, In p l -> copied m (a, b) (fst p) = m (fst p)).
  { intros p P. rewrite C. pose proof (DS p (a, b) (or_intror P) (or_introl eq_refl)) as D. cbn [snd] in D.
    replace (fst p =? b) with false by lia. reflexivity. }
  destruct (IH N2) with (m := copied m (a, b)) as [I1 I2].
  { intros p q P Q'. apply DS; right; assumption. }
  { intros p P. rewrite SRC by exact P. apply B. right. exact P. }
  split.
  - intros p [<- | P]; cbn [fst snd].
    + rewrite I2 by exact N1. rewrite C, Z.eqb_refl. reflexivity.
    + rewrite I1 by exact P. apply SRC. exact P.
  - intros j J. cbn [In] in J. rewrite I2 by tauto. rewrite C. replace (j =? b) with false by (symmetry; apply Z.eqb_neq; intros ->; apply J; left; reflexivity). reflexivity.
Qed.
Print Assumptions C99_all.

(** A source that does not exist is no error: the target keeps what it had. *)
Theorem C99_missing_refuted : forall A number kw (m : Z -> option A) a b, (forall n, 0 <= n -> number (dec n) = Some n) ->
  no_blank kw -> kw <> "" -> 0 <= a < 10000000000 -> 0 <= b < 1000000000 -> m a = None ->
  multicopy number kw m [(a, b)] = (m, 0).
Proof.
  intros A number kw m a b NU N E Ha Hb M. rewrite C99_in_turn by (try assumption; intros p [<- | []]; cbn [fst snd]; lia).
  cbn [filter fst snd]. replace ((0 <=? a) && (0 <=? b)) with true by lia. cbn [fold_left]. unfold copied. cbn [fst snd]. rewrite M. reflexivity.
Qed.
Print Assumptions C99_missing_refuted.

(** Ten digits are allowed for a number, and both numbers are printed without a
    blank between them: a target of ten digits runs into the source, the line has
    one number, and neither this pair nor a later one is copied. *)
Theorem C99_ten_digits_refuted : forall A number kw (m : Z -> option A) a b l,
  no_blank kw -> kw <> "" -> 0 <= a < 10000000000 -> 1000000000 <= b < 10000000000 ->
  multicopy number kw m ((a, b) :: l) = (m, 1).
Proof.
  intros A number kw m a b l N E Ha Hb. cbn [multicopy]. replace ((0 <=? a) && (0 <=? b)) with true by lia.
  unfold copy_run. rewrite copy_fused by assumption. reflexivity.
Qed.
Print Assumptions C99_ten_digits_refuted.

(** A pair that is not copied because of an error ends the copying. *)
Theorem C99_stops : forall A number kw (m : Z -> option A) a b l, 0 <= a -> 0 <= b ->
  snd (copy_run number m (copy_text kw a b)) <> 0 ->
  multicopy number kw m ((a, b) :: l) = copy_run number m (copy_text kw a b).
Proof.
  intros A number kw m a b l Ha Hb H. cbn [multicopy]. replace ((0 <=? a) && (0 <=? b)) with true by lia.
  destruct (copy_run number m (copy_text kw a b)) as [m' n]. cbn [snd] in H. replace (n =? 0) with false by lia. reflexivity.
Qed.
Print Assumptions C99_stops.

Definition read_index (s : string) : option Z := Some (fst (line_number 0 (s ++ " "))).
Example C99_case : (forall n, 0 <= n -> read_index (dec n) = Some n) /\
  let m := fun j => if j =? 100000001 then Some "a" else if j =? 3 then Some "b" else None in
  map (fst (multicopy read_index "solution" m [(100000001, 200000001); (-1, 3); (3, 4)])) [100000001; 200000001; 3; 4; 5]
    = [Some "a"; Some "a"; Some "b"; Some "b"; None].
Proof.
  split; [|vm_compute; reflexivity]. intros n H. unfold read_index. change (dec n ++ " ")%string with (dec n ++ String " " "")%string.
  rewrite number_blank by exact H. reflexivity.
Qed.
