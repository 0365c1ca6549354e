From Coq Require Import String Ascii ZArith QArith Bool List Lia ZifyBool.
From Verif Require Import CStr_Model CNum_Model Qx Ckpt_Model Ckpt_Spec Ckpt_Proofs Mix_Model SelOut_Model SelOut_Spec SelOut_Proofs SelOut_Props Phrmix_Model Phrmix_Spec.
Import ListNotations.
Local Open Scope string_scope.
Local Open Scope list_scope.
Local Open Scope Z_scope.

(** ** The table of up to three rows *)

Definition writes (cs : list (string * val)) : list event := map (fun p => Push (fst p) (snd p)) cs ++ [End].

Lemma since_writes : forall cs acc r, since (map (fun p => Push (fst p) (snd p)) cs ++ r) acc =
  since r (acc ++ map (fun p => Push (fst p) (snd p)) cs).
Proof.
  induction cs as [|[k v] cs IH]; intros acc r; cbn [map app since fst snd]; [rewrite app_nil_r; reflexivity|].
  rewrite IH, <- app_assoc. reflexivity.
Qed.
Lemma since_many : forall css acc, since (flat_map writes css) acc = acc ++ flat_map writes css.
Proof.
  induction css as [|cs css IH]; intros acc; cbn [flat_map since]; [rewrite app_nil_r; reflexivity|].
  change (writes cs) with (map (fun p => Push (fst p) (snd p)) cs ++ [End]). rewrite <- !app_assoc, since_writes. cbn [app since]. rewrite IH, <- !app_assoc. reflexivity.
Qed.
Lemma recent_many css : recent (Clear :: flat_map writes css) = flat_map writes css.
Proof. unfold recent. cbn [since]. apply since_many. Qed.

Lemma existsb_in k seen : existsb (String.eqb k) seen = true <-> In k seen.
Proof. rewrite existsb_exists. split; [intros (x & I & E); apply String.eqb_eq in E; subst; exact I|intros I; exists k; split; [exact I|apply String.eqb_refl]]. Qed.
Lemma first_new : forall cs seen r, NoDup (map fst cs) -> (forall k, In k (map fst cs) -> ~ In k seen) ->
  exists seen', (forall k, In k seen' <-> In k seen \/ In k (map fst cs)) /\
  first_uses seen (map (fun p => Push (fst p) (snd p)) cs ++ r) = map fst cs ++ first_uses seen' r.
Proof.
  induction cs as [|[k v] cs IH]; intros seen r N D.
  - exists seen. split; [cbn; tauto|reflexivity].
  - cbn [map app first_uses fst snd] in *. inversion N as [|? ? N1 N2]; subst.
    destruct (existsb (String.eqb k) seen) eqn:E; [apply existsb_in in E; exfalso; apply (D k); [left; reflexivity|exact E]|].
    destruct (IH (k :: seen) r N2) as (s' & S1 & S2).
    { intros x X [<- | Y]; [exact (N1 X)|]. apply (D x); [right; exact X|exact Y]. }
    exists s'. split; [intros x; rewrite S1; cbn [In]; tauto|]. rewrite S2. reflexivity.
Qed.
Lemma first_old : forall cs seen r, (forall k, In k (map fst cs) -> In k seen) ->
  first_uses seen (map (fun p => Push (fst p) (snd p)) cs ++ r) = first_uses seen r.
Proof.
  induction cs as [|[k v] cs IH]; intros seen r D; [reflexivity|]. cbn [map app first_uses fst snd] in *.
  rewrite (proj2 (existsb_in k seen)) by (apply D; left; reflexivity). apply IH. intros x X. apply D. right. exact X.
Qed.
Lemma heads_many ks cs css : NoDup ks -> map fst cs = ks -> (forall c, In c css -> map fst c = ks) ->
  heads (Clear :: flat_map writes (cs :: css)) = ks.
Proof.
  intros N E F. unfold heads. rewrite recent_many. cbn [flat_map]. unfold writes at 1. rewrite <- app_assoc.
  subst ks. destruct (first_new cs [] ([End] ++ flat_map writes css) N) as (s' & S1 & S2); [intros k _ []|].
  rewrite S2. cbn [app first_uses]. assert (G : forall l, (forall c, In c l -> map fst c = map fst cs) -> first_uses s' (flat_map writes l) = []).
  { induction l as [|c l IH]; intros H; [reflexivity|]. cbn [flat_map]. unfold writes at 1. rewrite <- app_assoc, first_old.
    - cbn [app first_uses]. apply IH. intros d D. apply H. right. exact D.
    - intros k K. rewrite (H c (or_introl eq_refl)) in K. apply S1. right. exact K. }
  rewrite G by exact F. apply app_nil_r.
Qed.

Lemma segments_writes : forall cs r, segments (map (fun p => Push (fst p) (snd p)) cs ++ End :: r) = cs :: segments r.
Proof. induction cs as [|[k v] cs IH]; intros r; [reflexivity|]. cbn [map app segments fst snd]. rewrite IH. reflexivity. Qed.
Lemma segments_many : forall css, segments (flat_map writes css) = css ++ [[]].
Proof. induction css as [|cs css IH]; [reflexivity|]. cbn [flat_map app]. unfold writes at 1. rewrite <- app_assoc. cbn [app]. rewrite segments_writes, IH. reflexivity. Qed.
Lemma rows_many css : (forall c, In c css -> c <> []) -> rows (Clear :: flat_map writes css) = css.
Proof.
  intros H. unfold rows. rewrite recent_many, segments_many, removelast_last.
  destruct css as [|c css]; [reflexivity|]. cbn [drop_empty]. destruct c as [|x c]; [exfalso; apply (H []); [left; reflexivity|reflexivity]|reflexivity].
Qed.

Lemma last_at : forall cs k v, NoDup (map fst cs) -> In (k, v) cs -> last_write cs k = v.
Proof.
  induction cs as [|[n x] cs IH]; intros k v N I'; [contradiction|]. cbn [map fst] in N. inversion N as [|? ? N1 N2]; subst.
  cbn [last_write]. destruct I' as [E | I'].
  - injection E as -> ->. rewrite String.eqb_refl. cbn [andb].
    destruct (existsb (fun p => String.eqb (fst p) k) cs) eqn:X; [|reflexivity].
    apply existsb_exists in X. destruct X as ([k2 v2] & X1 & X2). cbn [fst] in X2. apply String.eqb_eq in X2. subst.
    exfalso. apply N1. apply (in_map fst) in X1. exact X1.
  - assert (NE : n <> k) by (intros ->; apply N1; apply (in_map fst) in I'; exact I').
    apply String.eqb_neq in NE. rewrite NE. cbn [andb]. apply IH; assumption.
Qed.

Lemma cells_fst k1 k2 ks r : length (others r) = length ks -> map fst (cells k1 k2 ks r) = k1 :: k2 :: ks.
Proof.
  intros L. unfold cells. cbn [map fst]. do 2 f_equal. revert L. generalize (others r). induction ks as [|k ks IH]; intros l L; [reflexivity|].
  destruct l as [|v l]; [discriminate|]. cbn [combine map fst]. f_equal. apply IH. cbn in L. lia.
Qed.
Lemma combine_nth : forall (ks : list string) (vs : list val) i k, length vs = length ks -> nth_error ks i = Some k ->
  exists v, nth_error vs i = Some v /\ In (k, v) (combine ks vs).
Proof.
  induction ks as [|x ks IH]; intros vs i k L N; [destruct i; discriminate|].
  destruct vs as [|v vs]; [discriminate|]. destruct i as [|i].
  - injection N as <-. exists v. split; [reflexivity|left; reflexivity].
  - destruct (IH vs i k) as (u & U1 & U2); [cbn in L; lia|exact N|]. exists u. split; [exact U1|right; exact U2].
Qed.

(** What the table of rows r1, ... gives. *)
Lemma table_rows k1 k2 ks r1 rs : NoDup (k1 :: k2 :: ks) -> (forall r, In r (r1 :: rs) -> length (others r) = length ks) ->
  exists t, run empty (Clear :: flat_map writes (map (cells k1 k2 ks) (r1 :: rs))) = Some t /\
    rows_f t = Z.of_nat (length (r1 :: rs)) /\ col_count t = Z.of_nat (length ks) + 2 /\
    (exists s, get t 0 0 = Some (0, VString s)) /\ (exists s, get t 0 1 = Some (0, VString s)) /\
    (forall i r, nth_error (r1 :: rs) i = Some r ->
       get t (Z.of_nat i + 1) 0 = Some (0, at_ph r) /\ get t (Z.of_nat i + 1) 1 = Some (0, at_temp r) /\
       forall j v, nth_error (others r) j = Some v -> get t (Z.of_nat i + 1) (Z.of_nat j + 2) = Some (0, v)) /\
    (forall i c, Z.of_nat (length (r1 :: rs)) < i -> get t i c = Some (VR_INVALIDROW, VError VR_INVALIDROW)).
Proof.
  intros N L. destruct (C23_table (Clear :: flat_map writes (map (cells k1 k2 ks) (r1 :: rs)))) as (t & R & _ & _ & CC & RC & GH & GV & GR & _).
  assert (H : heads (Clear :: flat_map writes (map (cells k1 k2 ks) (r1 :: rs))) = k1 :: k2 :: ks).
  { cbn [map]. apply heads_many; [exact N|apply cells_fst; apply L; left; reflexivity|].
    intros c C. apply in_map_iff in C. destruct C as (r & <- & C). apply cells_fst. apply L. right. exact C. }
  assert (W : rows (Clear :: flat_map writes (map (cells k1 k2 ks) (r1 :: rs))) = map (cells k1 k2 ks) (r1 :: rs)).
  { apply rows_many. intros c C. apply in_map_iff in C. destruct C as (r & <- & _). discriminate. }
  rewrite H, W in *. cbn [List.length Nat.eqb] in CC, RC. rewrite map_length in RC.
  exists t. split; [exact R|]. split; [unfold rows_f; rewrite RC; cbn [length]; destruct (0 <? 1 + Z.of_nat (S (length rs))) eqn:B; lia|].
  split; [lia|]. split; [exists k1; exact (GH 0%nat k1 eq_refl)|]. split; [exists k2; exact (GH 1%nat k2 eq_refl)|].
  split; [|intros i c I'; apply GR; right; cbn [List.length] in *; lia].
  intros i r I'. assert (E : nth_error (map (cells k1 k2 ks) (r1 :: rs)) i = Some (cells k1 k2 ks r)) by (apply map_nth_error; exact I').
  assert (Lr : length (others r) = length ks) by (apply L; eapply nth_error_In; exact I').
  assert (Nr : NoDup (map fst (cells k1 k2 ks r))) by (rewrite cells_fst; assumption).
  split; [|split].
  - pose proof (GV i 0%nat _ k1 E eq_refl) as G. rewrite (last_at _ k1 (at_ph r) Nr) in G by (left; reflexivity). exact G.
  - pose proof (GV i 1%nat _ k2 E eq_refl) as G. rewrite (last_at _ k2 (at_temp r) Nr) in G by (right; left; reflexivity). exact G.
  - intros j v V. assert (J : (j < length ks)%nat) by (rewrite <- Lr; apply nth_error_Some; congruence).
    destruct (nth_error ks j) as [k|] eqn:K; [|apply nth_error_None in K; lia].
    destruct (combine_nth ks (others r) j k Lr K) as (v' & V1 & V2). rewrite V in V1. injection V1 as <-.
    pose proof (GV i (S (S j)) _ k E K) as G. rewrite (last_at _ k v Nr) in G by (right; right; exact V2).
    replace (Z.of_nat j + 2) with (Z.of_nat (S (S j))) by lia. exact G.
Qed.

Lemma replace_middle : forall (a : list Q) x y b, replace_nth (a ++ x :: b) (length a) y = a ++ y :: b.
Proof. induction a as [|z a IH]; intros x y b; [reflexivity|]. cbn [app length replace_nth]. rewrite IH. reflexivity. Qed.

(** The columns. *)
Lemma columns_ok : forall t vs acc m c ph f tc,
  (forall j v, nth_error vs j = Some v -> get t 1 (Z.of_nat (length acc) + Z.of_nat j + 2) = Some (0, v)) ->
  (length vs <= m)%nat -> (vs = [] -> c = 0) ->
  fetch_columns t (Z.of_nat (length acc) + 3) (length vs) (mkReply c ph f tc (acc ++ repeat marker m)) =
  Reply (mkReply 0 ph f tc (acc ++ map number_or vs ++ repeat marker (m - length vs))).
Proof.
  intros t vs. induction vs as [|v vs IH]; intros acc m c ph f tc G L C.
  - cbn [length fetch_columns map app]. rewrite Nat.sub_0_r, (C eq_refl). reflexivity.
  - cbn [length fetch_columns]. pose proof (G 0%nat v eq_refl) as G0.
    replace (Z.of_nat (length acc) + 3 - 1) with (Z.of_nat (length acc) + Z.of_nat 0 + 2) by lia. rewrite G0. cbn [Z.eqb r_ph r_final r_temp r_conc].
    destruct m as [|m]; [cbn in L; lia|].
    assert (REST : forall l, l = (acc ++ [number_or v]) ++ repeat marker m ->
      fetch_columns t (Z.of_nat (length acc) + 3 + 1) (length vs) (mkReply 0 ph f tc l) =
      Reply (mkReply 0 ph f tc (acc ++ map number_or (v :: vs) ++ repeat marker (S m - S (length vs))))).
    { intros l ->. replace (Z.of_nat (length acc) + 3 + 1) with (Z.of_nat (length (acc ++ [number_or v])) + 3) by (rewrite app_length; cbn [length]; lia).
      rewrite IH; [|intros j u U; rewrite app_length; cbn [length]; replace (Z.of_nat (length acc + 1) + Z.of_nat j + 2) with (Z.of_nat (length acc) + Z.of_nat (S j) + 2) by lia; apply G; exact U|cbn in L; lia|reflexivity].
      cbn [map Nat.sub app]. rewrite <- app_assoc. reflexivity. }
    destruct (as_double v) as [x|] eqn:A.
    + assert (X : number_or v = x) by (destruct v; try discriminate; cbn in A; injection A as <-; reflexivity).
      unfold store_at. replace (Z.of_nat (length acc) + 3 - 2) with (Z.of_nat (length acc) + 1) by lia.
      rewrite app_length, repeat_length.
      replace ((1 <=? Z.of_nat (length acc) + 1) && (Z.of_nat (length acc) + 1 <=? Z.of_nat (length acc + S m))) with true by lia.
      replace (Z.to_nat (Z.of_nat (length acc) + 1 - 1)) with (length acc) by lia.
      cbn [repeat]. rewrite replace_middle. apply REST. rewrite X, <- app_assoc. reflexivity.
    + assert (X : number_or v = marker) by (destruct v; try discriminate; reflexivity).
      apply REST. rewrite X. cbn [repeat]. rewrite <- app_assoc. reflexivity.
Qed.

Lemma columns_beyond : forall t vs acc m c ph f tc,
  (forall j v, nth_error vs j = Some v -> get t 1 (Z.of_nat (length acc) + Z.of_nat j + 2) = Some (0, v)) ->
  (m < length vs)%nat -> (forall v, nth_error vs m = Some v -> exists x, as_double v = Some x) ->
  fetch_columns t (Z.of_nat (length acc) + 3) (length vs) (mkReply c ph f tc (acc ++ repeat marker m)) = Undefined.
Proof.
  intros t vs. induction vs as [|v vs IH]; intros acc m c ph f tc G L A; [cbn in L; lia|].
  cbn [length fetch_columns]. pose proof (G 0%nat v eq_refl) as G0.
  replace (Z.of_nat (length acc) + 3 - 1) with (Z.of_nat (length acc) + Z.of_nat 0 + 2) by lia. rewrite G0. cbn [Z.eqb r_ph r_final r_temp r_conc].
  destruct m as [|m].
  - destruct (A v eq_refl) as [x X]. rewrite X. unfold store_at. cbn [repeat]. rewrite app_nil_r.
    replace ((1 <=? Z.of_nat (length acc) + 3 - 2) && (Z.of_nat (length acc) + 3 - 2 <=? Z.of_nat (length acc))) with false by lia. reflexivity.
  - assert (REST : forall y l, l = (acc ++ [y]) ++ repeat marker m ->
      fetch_columns t (Z.of_nat (length acc) + 3 + 1) (length vs) (mkReply 0 ph f tc l) = Undefined).
    { intros y l ->. replace (Z.of_nat (length acc) + 3 + 1) with (Z.of_nat (length (acc ++ [y])) + 3) by (rewrite app_length; cbn [length]; lia).
      apply IH; [intros j u U; rewrite app_length; cbn [length]; replace (Z.of_nat (length acc + 1) + Z.of_nat j + 2) with (Z.of_nat (length acc) + Z.of_nat (S j) + 2) by lia; apply G; exact U|cbn in L; lia|exact A]. }
    destruct (as_double v) as [x|].
    + unfold store_at. replace (Z.of_nat (length acc) + 3 - 2) with (Z.of_nat (length acc) + 1) by lia.
      rewrite app_length, repeat_length.
      replace ((1 <=? Z.of_nat (length acc) + 1) && (Z.of_nat (length acc) + 1 <=? Z.of_nat (length acc + S m))) with true by lia.
      replace (Z.to_nat (Z.of_nat (length acc) + 1 - 1)) with (length acc) by lia.
      cbn [repeat]. rewrite replace_middle. apply (REST x). rewrite <- app_assoc. reflexivity.
    + apply (REST marker). cbn [repeat]. rewrite <- app_assoc. reflexivity.
Qed.

Lemma read_ok : forall k1 k2 ks r1 rs n size, NoDup (k1 :: k2 :: ks) ->
  (forall r, In r (r1 :: rs) -> length (others r) = length ks) -> length rs = 0%nat \/ length rs = 2%nat ->
  exists t, run empty (Clear :: flat_map writes (map (cells k1 k2 ks) (r1 :: rs))) = Some t /\
    ((length ks <= size)%nat ->
     read_reply n size t = Reply (mkReply 0 (number_or (at_ph r1))
        (match rs with r2 :: _ => number_or (at_ph r2) | [] => marker end)
        (number_or (at_temp r1)) (map number_or (others r1) ++ repeat marker (size - length ks)))) /\
    ((size < length ks)%nat -> (forall v, nth_error (others r1) size = Some v -> exists x, as_double v = Some x) ->
     read_reply n size t = Undefined).
Proof.
  intros k1 k2 ks r1 rs n size N L C.
  destruct (table_rows k1 k2 ks r1 rs N L) as (t & R & RF & CC & [s0 H0] & [s1 H1] & GV & GR).
  exists t. split; [exact R|].
  assert (RR : read_reply n size t =
    fetch_columns t 3 (length ks) (mkReply 0 (number_or (at_ph r1))
        (match rs with r2 :: _ => number_or (at_ph r2) | [] => marker end) (number_or (at_temp r1)) (repeat marker size))).
  { unfold read_reply. rewrite RF. replace (negb (Z.of_nat (length (r1 :: rs)) =? 1) && negb (Z.of_nat (length (r1 :: rs)) =? 3)) with false by (cbn [length]; lia).
    unfold fetch. cbn [Z.sub]. change (1 - 1) with 0. change (2 - 1) with 1. rewrite H0. cbn [Z.eqb negb].
    destruct (GV 0%nat r1 eq_refl) as (P1 & T1 & _). change (Z.of_nat 0 + 1) with 1 in *. rewrite P1. cbn [Z.eqb negb].
    assert (X : forall v, match as_double v with Some x => x | None => marker end = number_or v) by (intros v; destruct v; reflexivity).
    rewrite X. destruct rs as [|r2 rs].
    - rewrite (GR 2 0) by (cbn; lia). change (VR_INVALIDROW =? 0) with false. cbv iota. rewrite H1. cbn [Z.eqb negb]. rewrite T1. cbn [Z.eqb negb]. rewrite X.
      replace (Z.to_nat (col_count t - 2)) with (length ks) by lia. reflexivity.
    - destruct (GV 1%nat r2 eq_refl) as (P2 & _ & _). change (Z.of_nat 1 + 1) with 2 in *. rewrite P2. cbn [Z.eqb]. rewrite H1. cbn [Z.eqb negb]. rewrite T1. cbn [Z.eqb negb]. rewrite !X.
      replace (Z.to_nat (col_count t - 2)) with (length ks) by lia. reflexivity. }
  assert (L1 : length (others r1) = length ks) by (apply L; left; reflexivity).
  destruct (GV 0%nat r1 eq_refl) as (_ & _ & GO). change (Z.of_nat 0 + 1) with 1 in *.
  split.
  - intros S'. rewrite RR, <- L1. apply (columns_ok t (others r1) [] size 0).
    + intros j v V. cbn [length]. replace (Z.of_nat 0 + Z.of_nat j + 2) with (Z.of_nat j + 2) by lia. apply GO. exact V.
    + lia.
    + reflexivity.
  - intros S' A. rewrite RR, <- L1. apply (columns_beyond t (others r1) [] size 0).
    + intros j v V. cbn [length]. replace (Z.of_nat 0 + Z.of_nat j + 2) with (Z.of_nat j + 2) by lia. apply GO. exact V.
    + lia.
    + exact A.
Qed.

(** ** The simulations of a script *)

Lemma cut_at : forall b r, ~ In END b -> cut_end (b ++ END :: r) = Some (b ++ [END], r).
Proof.
  induction b as [|x b IH]; intros r N; [reflexivity|]. cbn [app cut_end].
  destruct x; try (rewrite IH by (intros I'; apply N; right; exact I'); reflexivity).
  exfalso. apply N. left. reflexivity.
Qed.
Lemma simulate_step : forall fuel eng done a rest, one_sim a -> (length (a ++ rest) <= S fuel)%nat ->
  simulate (S fuel) eng done (a ++ rest) =
  match eng done a with
  | Stopped n => ([], n)
  | Punched cs => let '(ev, n) := simulate fuel eng (done ++ a) rest in (writes cs ++ ev, n)
  end.
Proof.
  intros fuel eng done a rest (b & -> & N) L. cbn [simulate].
  destruct ((b ++ [END]) ++ rest) as [|x u] eqn:E; [destruct b; discriminate|]. rewrite <- E, <- app_assoc. cbn [app].
  rewrite cut_at by exact N. destruct (eng done (b ++ [END])); [|reflexivity].
  destruct (simulate fuel eng (done ++ b ++ [END]) rest). unfold writes. rewrite <- app_assoc. reflexivity.
Qed.
Lemma simulate_nil fuel eng done : simulate fuel eng done [] = ([], 0).
Proof. destruct fuel; reflexivity. Qed.

Lemma not_end_entries ev nf l : ~ In END (map (entry ev nf) l).
Proof. intros I'. apply in_map_iff in I'. destruct I' as (p & E & _). discriminate. Qed.
Lemma not_end_uses w r l : ~ In END (flat_map (use_lines w r) l).
Proof.
  intros I'. apply in_flat_map in I'. destruct I' as (k & _ & I'). unfold use_lines in I'.
  destruct (0 <=? user r k); [|contradiction]. destruct (entity w k (user r k)); [|contradiction].
  destruct I' as [E | I']; [discriminate|]. destruct (saved k); [|contradiction]. destruct I' as [E | []]. discriminate.
Qed.
Lemma script_one : forall w r, fst (fst (pre_mix w r)) = true -> (forall k, user r k < 0) -> one_sim (run_mix w r []).
Proof.
  intros w r P N. unfold run_mix. unfold pre_mix in *. destruct (neg_factor w (sols r)) as [nf|]; [|discriminate].
  replace (forallb (fun k => user r k <? 0) kinds) with true in * by (symmetry; apply forallb_forall; intros k _; specialize (N k); lia).
  exists (MIX :: map (entry (evap (sols r)) nf) (sols r) ++ [SaveSolution (n_rxn r); CopySolution (n_rxn r) (n_cons r)]).
  split; [cbn [app]; rewrite <- app_assoc; reflexivity|].
  intros [E | I']; [discriminate|]. apply in_app_or in I'. destruct I' as [I' | [E | [E | []]]]; try discriminate. exact (not_end_entries _ _ _ I').
Qed.
Lemma script_three : forall w r k, fst (fst (pre_mix w r)) = true -> 0 <= user r k ->
  exists s1 s2 s3, run_mix w r [] = s1 ++ s2 ++ s3 /\ one_sim s1 /\ one_sim s2 /\ one_sim s3.
Proof.
  intros w r k P N. unfold run_mix. unfold pre_mix in *. destruct (neg_factor w (sols r)) as [nf|]; [|discriminate].
  assert (F : forallb (fun k => user r k <? 0) kinds = false).
  { destruct (forallb (fun k => user r k <? 0) kinds) eqn:E; [|reflexivity]. rewrite forallb_forall in E.
    specialize (E k). assert (In k kinds) by (destruct k; cbn; tauto). specialize (E H). lia. }
  rewrite F in *. cbn [app].
  exists ((MIX :: map (entry (evap (sols r)) nf) (sols r) ++ [SaveSolution (n_rxn r); CopySolution (n_rxn r) (n_cons r)]) ++ [END]),
    ((MIX :: Entry (n_rxn r) (Some (fill r)) :: SaveSolution (n_rxn r) :: flat_map (use_lines w r) kinds) ++ [END]),
    ([MIX; Entry (n_rxn r) (qdivo 1 (fill r)); SaveSolution (n_rxn r)] ++ [END]).
  split; [|split; [|split]].
  - cbn [app]. rewrite <- !app_assoc. cbn [app]. reflexivity.
  - eexists. split; [reflexivity|]. intros [E | I']; [discriminate|]. apply in_app_or in I'. destruct I' as [I' | [E | [E | []]]]; try discriminate. exact (not_end_entries _ _ _ I').
  - eexists. split; [reflexivity|]. intros [E | [E | [E | I']]]; try discriminate. exact (not_end_uses _ _ _ I').
  - eexists. split; [reflexivity|]. cbn. intros [E | [E | [E | []]]]; discriminate.
Qed.

Lemma sim_len a : one_sim a -> (1 <= length a)%nat.
Proof. intros (b & -> & _). rewrite app_length. cbn. lia. Qed.
Lemma run_one eng s1 : one_sim s1 -> run_accumulated eng s1 =
  match eng [] s1 with Stopped n => ([Clear], n) | Punched c => (Clear :: flat_map writes [c], 0) end.
Proof.
  intros O1. unfold run_accumulated. pose proof (sim_len _ O1) as L.
  destruct (length s1) as [|f] eqn:E; [lia|].
  replace s1 with (s1 ++ []) at 1 by apply app_nil_r. rewrite simulate_step by (rewrite ?app_nil_r; first [exact O1|lia]).
  destruct (eng [] s1); [|reflexivity]. rewrite simulate_nil. reflexivity.
Qed.
Lemma run_three eng s1 s2 s3 : one_sim s1 -> one_sim s2 -> one_sim s3 -> run_accumulated eng (s1 ++ s2 ++ s3) =
  match eng [] s1 with
  | Stopped n => ([Clear], n)
  | Punched c1 =>
    match eng s1 s2 with
    | Stopped n => (Clear :: flat_map writes [c1], n)
    | Punched c2 =>
      match eng (s1 ++ s2) s3 with
      | Stopped n => (Clear :: flat_map writes [c1; c2], n)
      | Punched c3 => (Clear :: flat_map writes [c1; c2; c3], 0)
      end
    end
  end.
Proof.
  intros O1 O2 O3. unfold run_accumulated. pose proof (sim_len _ O1) as L1. pose proof (sim_len _ O2) as L2. pose proof (sim_len _ O3) as L3.
  assert (LL : length (s1 ++ s2 ++ s3) = (length s1 + (length s2 + length s3))%nat) by (rewrite !app_length; reflexivity).
  destruct (length (s1 ++ s2 ++ s3)) as [|[|[|f]]] eqn:E; try lia.
  rewrite simulate_step by (try exact O1; lia).
  destruct (eng [] s1) as [c1|]; [|reflexivity]. cbn [app].
  rewrite simulate_step by (try exact O2; rewrite app_length; lia).
  destruct (eng s1 s2) as [c2|]; [|cbn [flat_map]; rewrite app_nil_r; reflexivity].
  replace s3 with (s3 ++ []) at 1 by apply app_nil_r.
  rewrite simulate_step by (try exact O3; rewrite app_length; cbn; lia).
  destruct (eng (s1 ++ s2) s3) as [c3|]; [|cbn [flat_map]; rewrite !app_nil_r; reflexivity].
  rewrite simulate_nil. cbn [flat_map]. rewrite !app_nil_r. reflexivity.
Qed.

(** ** Copies *)
Lemma chr_not_blank d : 0 <= d <= 9 -> chr d <> " "%char.
Proof. intros D. assert (C : d = 0 \/ d = 1 \/ d = 2 \/ d = 3 \/ d = 4 \/ d = 5 \/ d = 6 \/ d = 7 \/ d = 8 \/ d = 9) by lia. destruct C as [-> |[-> |[-> |[-> |[-> |[-> |[-> |[-> |[-> | ->]]]]]]]]]; discriminate. Qed.
Lemma no_blank_app a b : no_blank a -> no_blank b -> no_blank (a ++ b).
Proof. induction a as [|c a IH]; intros A B; [exact B|]. destruct A as [C A]. split; [exact C|apply IH; assumption]. Qed.
Lemma dec_no_blank n : 0 <= n -> no_blank (dec n).
Proof.
  intros H. unfold dec. replace (n <? 0) with false by lia. unfold dec_abs. generalize (S (Z.to_nat (Z.log2 n))). intros f. revert n H.
  induction f as [|f IH]; intros n H; [exact I|]. cbn [dec_from]. destruct (n <? 10) eqn:B.
  - split; [apply chr_not_blank; lia|exact I].
  - apply no_blank_app; [apply IH; apply Z.div_pos; lia|]. split; [apply chr_not_blank; pose proof (Z.mod_pos_bound n 10); lia|exact I].
Qed.
Lemma dec_not_empty n : 0 <= n -> dec n <> "".
Proof.
  intros H. unfold dec. replace (n <? 0) with false by lia. unfold dec_abs. cbn [dec_from]. destruct (n <? 10); [discriminate|].
  destruct (dec_from (Z.to_nat (Z.log2 n)) (n / 10)); discriminate.
Qed.
Lemma dec_short n : 0 <= n < 1000000000 -> (String.length (dec n) <= 9)%nat.
Proof. intros H. unfold dec. replace (n <? 0) with false by lia. apply (dec_abs_length 8). change (10 ^ Z.of_nat 9) with 1000000000. exact H. Qed.
Lemma dec_ten n : 0 <= n < 10000000000 -> (String.length (dec n) <= 10)%nat.
Proof. intros H. unfold dec. replace (n <? 0) with false by lia. apply (dec_abs_length 9). change (10 ^ Z.of_nat 10) with 10000000000. exact H. Qed.
Lemma length_app a b : String.length (a ++ b) = (String.length a + String.length b)%nat.
Proof. induction a as [|c a IH]; [reflexivity|]. cbn. rewrite IH. reflexivity. Qed.
Lemma dec_from_long : forall k f n, 10 ^ Z.of_nat k <= n -> n < 2 ^ Z.of_nat f -> (S k <= String.length (dec_from f n))%nat.
Proof.
  induction k as [|k IH]; intros f n H F.
  - destruct f as [|f]; [change (2 ^ Z.of_nat 0) with 1 in F; change (10 ^ Z.of_nat 0) with 1 in H; lia|]. cbn [dec_from]. destruct (n <? 10); [cbn; lia|]. rewrite length_app. cbn. lia.
  - assert (P : 10 ^ Z.of_nat (S k) = 10 * 10 ^ Z.of_nat k) by (rewrite Nat2Z.inj_succ, Z.pow_succ_r by lia; reflexivity).
    assert (P0 : 0 < 10 ^ Z.of_nat k) by (apply Z.pow_pos_nonneg; lia).
    destruct f as [|f]; [change (2 ^ Z.of_nat 0) with 1 in F; lia|].
    assert (P2 : 2 ^ Z.of_nat (S f) = 2 * 2 ^ Z.of_nat f) by (rewrite Nat2Z.inj_succ, Z.pow_succ_r by lia; reflexivity).
    cbn [dec_from]. replace (n <? 10) with false by lia. rewrite length_app. cbn [String.length].
    assert (S k <= String.length (dec_from f (n / 10)))%nat; [|lia]. apply IH; [apply Z.div_le_lower_bound; lia|]. apply Z.div_lt_upper_bound; lia.
Qed.
Lemma dec_long n : 1000000000 <= n -> (10 <= String.length (dec n))%nat.
Proof.
  intros H. unfold dec. replace (n <? 0) with false by lia. unfold dec_abs. apply (dec_from_long 9); [change (10 ^ Z.of_nat 9) with 1000000000; exact H|].
  rewrite Nat2Z.inj_succ, Z2Nat.id by apply Z.log2_nonneg. apply Z.log2_spec. lia.
Qed.

Lemma words_one : forall a r, no_blank a -> a <> "" -> words (a ++ String " " r) = a :: words r.
Proof.
  induction a as [|c a IH]; intros r N E; [congruence|]. destruct N as [C N]. apply Ascii.eqb_neq in C. cbn [append words]. rewrite C.
  destruct a as [|d a].
  - cbn [append]. rewrite Ascii.eqb_refl. reflexivity.
  - specialize (IH r N ltac:(discriminate)). cbn [append] in *. destruct N as [D N]. apply Ascii.eqb_neq in D. rewrite D.
    rewrite IH. reflexivity.
Qed.
Lemma words_last : forall a, no_blank a -> a <> "" -> words a = [a].
Proof.
  induction a as [|c a IH]; intros N E; [congruence|]. destruct N as [C N]. apply Ascii.eqb_neq in C. cbn [words]. rewrite C.
  destruct a as [|d a]; [reflexivity|]. rewrite IH by (exact N || discriminate). destruct N as [D N]. apply Ascii.eqb_neq in D. rewrite D. reflexivity.
Qed.
Lemma words_indent n s : words (indent n s) = words s.
Proof. induction n as [|n IH]; [reflexivity|exact IH]. Qed.
Lemma indent_app n a b : (indent n a ++ b = indent n (a ++ b))%string.
Proof. induction n as [|n IH]; [reflexivity|]. cbn. rewrite IH. reflexivity. Qed.

Lemma copy_words kw a b : no_blank kw -> kw <> "" -> 0 <= a < 10000000000 -> 0 <= b < 1000000000 ->
  words (copy_text kw a b) = ["COPY"; kw; dec a; dec b].
Proof.
  intros N E A B. unfold copy_text. change ("COPY " ++ kw ++ " " ++ i10 (dec a) ++ i10 (dec b))%string with ("COPY" ++ String " " (kw ++ String " " (i10 (dec a) ++ i10 (dec b))))%string.
  rewrite words_one by (try discriminate; cbn; repeat split; discriminate). rewrite words_one by assumption.
  pose proof (dec_ten a A) as LA. pose proof (dec_short b B) as LB. unfold i10.
  replace (Nat.leb (String.length (dec a)) 10) with true by (symmetry; apply Nat.leb_le; lia).
  replace (Nat.leb (String.length (dec b)) 10) with true by (symmetry; apply Nat.leb_le; lia).
  rewrite indent_app, words_indent. destruct (10 - String.length (dec b))%nat as [|k] eqn:K; [lia|]. cbn [indent].
  rewrite words_one by (try (apply dec_no_blank); try (apply dec_not_empty); lia). rewrite words_indent, words_last by (try (apply dec_no_blank); try (apply dec_not_empty); lia). reflexivity.
Qed.
Lemma copy_fused kw a b : no_blank kw -> kw <> "" -> 0 <= a < 10000000000 -> 1000000000 <= b < 10000000000 ->
  words (copy_text kw a b) = ["COPY"; kw; (dec a ++ dec b)%string].
Proof.
  intros N E A B. unfold copy_text. change ("COPY " ++ kw ++ " " ++ i10 (dec a) ++ i10 (dec b))%string with ("COPY" ++ String " " (kw ++ String " " (i10 (dec a) ++ i10 (dec b))))%string.
  rewrite words_one by (try discriminate; cbn; repeat split; discriminate). rewrite words_one by assumption.
  pose proof (dec_ten a A) as LA. pose proof (dec_ten b ltac:(lia)) as LB. pose proof (dec_long b ltac:(lia)) as LB2. unfold i10.
  replace (Nat.leb (String.length (dec a)) 10) with true by (symmetry; apply Nat.leb_le; lia).
  replace (Nat.leb (String.length (dec b)) 10) with true by (symmetry; apply Nat.leb_le; lia).
  replace (10 - String.length (dec b))%nat with 0%nat by lia. cbn [indent].
  rewrite indent_app, words_indent. rewrite words_last; [reflexivity| |].
  - apply no_blank_app; apply dec_no_blank; lia.
  - destruct (dec a) eqn:D; [exfalso; apply (dec_not_empty a); [lia|exact D]|discriminate].
Qed.
