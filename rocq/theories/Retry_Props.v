(** Properties of convergence settings: C106 what KNOBS sets, C107 attempts,
    C108 the settings after a calculation. *)
From Coq Require Import String Ascii ZArith QArith Bool List Lia ZifyBool.
From Verif Require Import Inp_Model Inp_Spec Inp_Proofs Inp_Props Retry_Model Retry_Spec Retry_Proofs.
Import ListNotations.
Local Open Scope string_scope.
Local Open Scope list_scope.
Local Open Scope Z_scope.

(** * C106 *)

Definition index_of (x : knob) : Z :=
  match x with
  | Iterations => 0 | Tolerance => 1 | Step_ => 2 | Pe_step => 3 | Scale_pure => 4 | Diagonal => 5 | Conv_tol => 14
  | Tries => 16 | Try_ => 17 | Fixed_volume => 18 | Equi_delay => 20
  end.

Lemma index_is : forall x j, nth_error knob_names j = Some (name_of x) -> Z.of_nat j = index_of x.
Proof.
  intros x j E. do 25 (destruct j as [|j]; [destruct x; cbn in E |- *; first [reflexivity | discriminate E]|]).
  cbn in E. destruct j; discriminate E.
Qed.

Lemma read_knob_look : forall num s x t y, given num x t <> None ->
  look (read_knob num s (index_of x) t) y = if same_knob y x then given num x t else look s y.
Proof.
  intros num s x t y G. destruct x; cbn [index_of]; unfold read_knob; cbn in G |- *;
    try (destruct (as_int (num t)) as [z|]; [|exfalso; apply G; reflexivity]);
    try (destruct (as_real (num t)) as [q|]; [|exfalso; apply G; reflexivity]);
    destruct y; reflexivity.
Qed.

Lemma read_line_good : forall num keys size s e r, (forall w, In w keys -> ~ begins "-" w) -> formed size r ->
  read_line num keys size (Some (s, e)) (line_of r) = Some (read_knob num s (index_of (asked r)) (text r), e).
Proof.
  intros num keys size s e r K (B & W & (c & v & WE & AL) & T & (j & NJ & BG & EA) & L).
  unfold read_line.
  assert (KO : kind_of keys (line_of r) = Option_).
  { apply (C104_option keys (line_of r) (String "-" (word r)) (text r)).
    - exists (blanks r). split; [unfold line_of; reflexivity|]. split; [exact B|]. split; [discriminate|]. split; [|exact T].
      cbn [each]. apply andb_true_iff. split; [reflexivity|]. revert W. clear. induction (word r) as [|a w IH]; [reflexivity|].
      cbn [each]. rewrite !andb_true_iff. intros (A & H). split; [|apply IH, H]. apply negb_true_iff in A. apply orb_false_iff in A.
      apply negb_true_iff, A.
    - split; [|exists c, v; split; [rewrite WE; reflexivity | exact AL]]. intros I'. apply (K _ I'). exists (lower (word r)). reflexivity. }
  rewrite KO.
  assert (F : find_option (word r) knob_names false = Some (index_of (asked r))).
  { apply C105_abbreviation. exists j, (name_of (asked r)). split; [symmetry; apply index_is, NJ|]. split; [exact NJ|]. split; [exact BG|]. exact EA. }
  assert (NN : nth_name knob_names (index_of (asked r)) = name_of (asked r)).
  { destruct (asked r); reflexivity. }
  pose proof (C105_value size knob_names (blanks r) (word r) (text r) "" (index_of (asked r)) (name_of (asked r)) B W T F NN) as V.
  cbv zeta in V. fold (line_of r) in V.
  assert (E0 : (line_of r ++ "")%string = line_of r).
  { generalize (line_of r). induction s0 as [|a q IH]; [reflexivity|]. cbn. rewrite IH. reflexivity. }
  rewrite E0 in V. rewrite V; [reflexivity | destruct (asked r); discriminate | destruct (asked r); reflexivity |].
  assert (Z.of_nat (String.length (name_of (asked r))) <= 30) by (destruct (asked r); cbn; lia). lia.
Qed.

(** A block of KNOBS whose lines give values to settings, by their names or by
    an abbreviation that no earlier name begins with, sets each to the last value
    given for it, leaves the other settings alone, and has no errors. *)
Theorem C106_last : forall num keys size s rs,
  (forall w, In w keys -> ~ begins "-" w) -> Forall (good num size) rs ->
  exists s', read_knobs num keys size s (map line_of rs) = Some (s', 0) /\
    forall x, look s' x = last_given num x rs (look s x).
Proof.
  intros num keys size s rs K F. unfold read_knobs. revert s F.
  induction rs as [|r rs IH]; intros s F; [exists s; split; reflexivity|].
  cbn [map fold_left]. rewrite read_line_good by (first [exact K | inversion F as [|? ? G1 G2]; apply G1]).
  assert (FR : Forall (good num size) rs) by (inversion F; assumption).
  assert (GR : good num size r) by (inversion F; assumption).
  destruct (IH (read_knob num s (index_of (asked r)) (text r)) FR) as (s' & E & L).
  exists s'. split; [exact E|]. intros x. rewrite L. cbn [last_given]. rewrite read_knob_look; [reflexivity|].
  apply GR.
Qed.
Print Assumptions C106_last.

(** Yes and no: only a text that starts with F or f says no. *)
Theorem C106_no : forall b t, each isspace b = true ->
  match t with String c _ => isspace c = false /\ c <> semicolon | "" => True end ->
  (true_false (b ++ t) = false <-> exists r, t = String "F" r \/ t = String "f" r).
Proof.
  intros b t B T. unfold true_false, copy_token2.
  assert (SK : skip (b ++ t) = t).
  { revert B. induction b as [|c b IH]; intros B.
    - cbn [String.append]. destruct t as [|c r]; [reflexivity|]. cbn. destruct T as [T _]. rewrite T. reflexivity.
    - cbn [each] in B. apply andb_true_iff in B. destruct B as [B1 B2]. cbn [String.append skip]. rewrite B1. apply IH, B2. }
  rewrite SK. destruct t as [|c r].
  - cbn. split; [discriminate|]. intros (r & [E | E]); discriminate E.
  - destruct T as [T1 T2]. cbn [word2_of]. rewrite T1.
    destruct (Ascii.eqb_spec c semicolon) as [-> | NE]; [congruence|]. cbn [orb].
    destruct (word2_of r) as [w q]. cbn [fst].
    destruct (Ascii.eqb_spec c "F") as [-> | N1].
    + cbn. split; [|reflexivity]. intros _. exists r. left. reflexivity.
    + destruct (Ascii.eqb_spec c "f") as [-> | N2].
      * cbn. split; [|reflexivity]. intros _. exists r. right. reflexivity.
      * cbn. split; [discriminate|]. intros (r' & [E | E]); congruence.
Qed.
Print Assumptions C106_no.

(** What is not an option of KNOBS is an error and changes nothing. *)
Theorem C106_unknown : forall num keys size s e line w rest,
  first_word line w rest -> each (fun c => negb (isspace c || Ascii.eqb c semicolon)) w = true ->
  ~ In (lower w) keys -> ~ In (lower w) knob_names -> (forall v, w <> String "-" v) ->
  read_line num keys size (Some (s, e)) line = Some (s, e + 1).
Proof.
  intros num keys size s e line w rest F W NK NN NM. unfold read_line.
  pose proof (C104_option keys line w rest F) as O. pose proof (C104_keyword keys line w rest F) as KW.
  destruct F as (b & -> & B & NE & _ & R).
  assert (FO : find_option w knob_names true = None).
  { destruct (find_option w knob_names true) as [i|] eqn:E; [|reflexivity]. exfalso.
    apply C105_whole in E.
    - destruct E as (j & _ & E). apply NN. eapply nth_error_In, E.
    - repeat (constructor; [cbn; intuition discriminate|]). constructor. }
  unfold get_option. rewrite token2 by assumption.
  destruct (kind_of keys (b ++ w ++ rest)) eqn:KO.
  - exfalso. destruct (proj1 KW eq_refl) as (kk & I' & <-). contradiction.
  - exfalso. destruct (proj1 O eq_refl) as (_ & c & v & E & _). apply (NM _ E).
  - rewrite FO. reflexivity.
Qed.
Print Assumptions C106_unknown.

(** An unknown word with a minus is an error, counted twice, and changes
    nothing. *)
Theorem C106_bad : forall num keys size s e b c v rest,
  let line := (b ++ String "-" (String c v) ++ rest)%string in
  (forall w, In w keys -> ~ begins "-" w) -> each isspace b = true -> isalpha c = true -> each word_char (String c v) = true ->
  match rest with "" => True | String c _ => isspace c = true end ->
  (forall n, In n knob_names -> ~ begins (lower (String c v)) n) ->
  read_line num keys size (Some (s, e)) line = Some (s, e + 2).
Proof.
  intros num keys size s e b c v rest line K B C V R N. unfold read_line.
  assert (KO : kind_of keys line = Option_).
  { assert (F : first_word line (String "-" (String c v)) rest).
    { exists b. split; [reflexivity|]. split; [exact B|]. split; [discriminate|]. split; [|exact R].
      cbn [each] in *. apply andb_true_iff in V. destruct V as [V1 V2]. apply andb_true_iff. split; [reflexivity|].
      apply andb_true_iff. split.
      - unfold word_char in V1. destruct (isspace c); [discriminate V1 | reflexivity].
      - clear - V2. induction v as [|d v IH]; [reflexivity|]. cbn [each] in *. apply andb_true_iff in V2. destruct V2 as [V1 V2].
        apply andb_true_iff. split; [|apply IH, V2]. unfold word_char in V1. destruct (isspace d); [discriminate V1 | reflexivity]. }
    apply (C104_option keys line _ rest F). split.
    - intros I1. apply (K _ I1). exists (lower (String c v)). reflexivity.
    - exists c, v. split; [reflexivity | exact C]. }
  rewrite KO. assert (G : get_option size knob_names Option_ line line = BadOption).
  { apply (C105_unknown size knob_names b (String c v) rest line B V R). exact N. }
  rewrite G. reflexivity.
Qed.
Print Assumptions C106_bad.

(** An option without a number, or with a word in its place, is not reported:
    the block is accepted and the old value stays. *)
Theorem C106_silent_refuted : forall num keys size s r, (forall w, In w keys -> ~ begins "-" w) -> formed size r ->
  In (asked r) [Iterations; Tolerance; Step_; Pe_step; Scale_pure; Tries; Try_; Equi_delay] ->
  num (text r) = mkNum None None ->
  read_knobs num keys size s [line_of r] = Some (s, 0).
Proof.
  intros num keys size s r K F I' N. unfold read_knobs. cbn [fold_left]. rewrite read_line_good by assumption.
  destruct s as [[] ? ? ? ?].
  destruct (asked r); cbn [index_of]; unfold read_knob; rewrite N; cbn; try reflexivity; cbn in I'; intuition discriminate.
Qed.
Print Assumptions C106_silent_refuted.

(** -convergence_tolerance without a number is not reported either, and then
    the tolerance is whatever was in memory: neither the old value nor a given
    one. *)
Theorem C106_unset_refuted : forall num keys size s r, (forall w, In w keys -> ~ begins "-" w) -> formed size r ->
  asked r = Conv_tol -> num (text r) = mkNum None None ->
  exists s', read_knobs num keys size s [line_of r] = Some (s', 0) /\ look s' Conv_tol = None /\
    forall x, x <> Conv_tol -> look s' x = look s x.
Proof.
  intros num keys size s r K F A N. unfold read_knobs. cbn [fold_left]. rewrite read_line_good by assumption.
  rewrite A. cbn [index_of]. unfold read_knob. rewrite N. cbn. eexists. split; [reflexivity|]. split; [reflexivity|].
  intros x X. destruct x; try reflexivity. congruence.
Qed.
Print Assumptions C106_unset_refuted.

Definition some_num (t : string) : number :=
  if String.eqb t " 200" then mkNum (Some 200) (Some 200%Q)
  else if String.eqb t " 5" then mkNum (Some 5) (Some 5%Q) else mkNum None None.
Definition some_knobs : knobs := mkKnobs 100 (1 # 1000000000000000) 100 10 (1 # 1000) 1 0 false 0 false false.
Definition some_settings : settings := mkSet some_knobs 1000 1 (Some (1 # 100000000)%Q) false.
Definition some_requests : list request :=
  [mkReq "  " Iterations "Iter" " 200"; mkReq "" Tries "tr" " 200"; mkReq "" Step_ "step" " 5";
   mkReq " " Diagonal "diagonal_scale" " false"; mkReq "" Iterations "i" " 5"].

Lemma formed_by : forall size r j, each isspace (blanks r) = true ->
  each (fun c => negb (isspace c || Ascii.eqb c semicolon)) (word r) = true ->
  (exists c v, word r = String c v /\ isalpha c = true) ->
  match text r with "" => True | String c _ => isspace c = true end ->
  nth_error knob_names j = Some (name_of (asked r)) -> prefix (lower (word r)) (name_of (asked r)) = true ->
  forallb (fun n => negb (prefix (lower (word r)) n)) (firstn j knob_names) = true ->
  Z.of_nat (String.length (line_of r)) + 30 < size -> formed size r.
Proof.
  intros size r j B W A T N P F L. repeat (split; [assumption|]). split; [|exact L].
  exists j. split; [exact N|]. split; [apply prefix_begins in P; exact P|].
  intros j' n J E C. rewrite forallb_forall in F.
  assert (I' : In n (firstn j knob_names)).
  { clear - J E. revert j j' J E. induction knob_names as [|a l IH]; intros j j' J E; [destruct j'; discriminate E|].
    destruct j as [|j]; [lia|]. cbn [firstn]. destruct j' as [|j']; [cbn in E; left; congruence|]. right. apply (IH j j'); [lia | exact E]. }
  specialize (F n I'). apply negb_true_iff in F.
  assert (P' : prefix (lower (word r)) n = true) by (apply prefix_begins; exact C). congruence.
Qed.

Example C106_case : Forall (good some_num 4096) some_requests /\
  read_knobs some_num ["knobs"; "end"] 4096 some_settings (map line_of some_requests) =
    Some (mkSet (mkKnobs 5 (1 # 1000000000000000) 5 10 (1 # 1000) 1 0 false 0 false false) 200 1 (Some (1 # 100000000)%Q) false, 0) /\
  formed 4096 (mkReq "" Conv_tol "conv" "") /\ some_num "" = mkNum None None.
Proof.
  split; [|split; [vm_compute; reflexivity|]].
  - unfold some_requests, good.
    repeat match goal with |- Forall _ (_ :: _) => constructor end; try constructor; try discriminate.
    + apply (formed_by _ _ 0); cbn; auto; try (do 2 eexists; split; reflexivity); lia.
    + apply (formed_by _ _ 16); cbn; auto; try (do 2 eexists; split; reflexivity); lia.
    + apply (formed_by _ _ 2); cbn; auto; try (do 2 eexists; split; reflexivity); lia.
    + apply (formed_by _ _ 5); cbn; auto; try (do 2 eexists; split; reflexivity); lia.
    + apply (formed_by _ _ 0); cbn; auto; try (do 2 eexists; split; reflexivity); lia.
  - split; [|reflexivity]. apply (formed_by _ _ 14); cbn; auto; try (do 2 eexists; split; reflexivity); lia.
Qed.

(** * C107 *)

(** The attempts of a call are the plan, in its order and from its start, until
    one does not fail. Each of them works on the phases, solid solutions and
    kinetics there were when the call began, whatever those before it did. *)
Theorem C107_attempts : forall A m (eng : Z -> knobs -> ents A -> verdict * ents A) fv u e, clean u -> steady eng ->
  let r := wrapper m eng fv u e in
  (exists later, plan m (some (pp e)) u = map (fun a => (number_ a, with_ a)) (attempts r) ++ later) /\
  Forall (fun a => from a = e) (attempts r) /\
  forall l a l', attempts r = l ++ a :: l' -> l' <> [] -> came_of eng a = Failed.
Proof.
  intros A m eng fv u e C ST r. destruct (wrapper_all A m eng fv u e C ST) as (later & P & F & W). fold r in P, F, W.
  split; [exists later; exact P|]. split; [exact F|].
  intros l a l' E NE.
  assert (IN : forall l1 b, attempts r = l1 ++ [b] -> In a l1).
  { intros l1 b E1. rewrite E in E1. destruct (exists_last NE) as (l2 & c & ->).
    assert (E2 : (l ++ a :: l2) ++ [c] = l1 ++ [b]) by (rewrite <- E1, <- app_assoc; reflexivity).
    apply app_inj_tail in E2. destruct E2 as [<- _]. apply in_or_app. right. left. reflexivity. }
  assert (IA : In a (attempts r)) by (rewrite E; apply in_or_app; right; left; reflexivity).
  destruct (ended r).
  - destruct W as (l1 & b & E1 & FL & _). rewrite Forall_forall in FL. apply FL, (IN _ _ E1).
  - destruct W as [(l1 & b & E1 & FL & _) | (_ & _ & FL & _)]; rewrite Forall_forall in FL; apply FL; [apply (IN _ _ E1) | exact IA].
  - destruct W as (_ & _ & FL & _). rewrite Forall_forall in FL. apply FL, IA.
  - destruct W as (l1 & b & E1 & FL & _). rewrite Forall_forall in FL. apply FL, (IN _ _ E1).
Qed.
Print Assumptions C107_attempts.

(** The call succeeds exactly when its last attempt did. *)
Theorem C107_success : forall A m (eng : Z -> knobs -> ents A -> verdict * ents A) fv u e, clean u -> steady eng ->
  let r := wrapper m eng fv u e in
  ended r = Ok_ <-> exists l a, attempts r = l ++ [a] /\ came_of eng a = Converged.
Proof.
  intros A m eng fv u e C ST r. destruct (wrapper_all A m eng fv u e C ST) as (later & P & F & W). fold r in P, F, W.
  split.
  - intros E. rewrite E in W. destruct W as (l & a & L & _ & CA & _). eauto.
  - intros (l & a & L & CA).
    assert (LI : forall l1 b, attempts r = l1 ++ [b] -> b = a).
    { intros l1 b E1. rewrite L in E1. apply app_inj_tail in E1. destruct E1 as [_ ->]. reflexivity. }
    assert (IA : In a (attempts r)) by (rewrite L; apply in_or_app; right; left; reflexivity).
    destruct (ended r); [reflexivity | exfalso..].
    + destruct W as [(l1 & b & E1 & _ & CB & _) | (_ & _ & FL & _)].
      * rewrite (LI _ _ E1) in CB. congruence.
      * rewrite Forall_forall in FL. specialize (FL a IA). congruence.
    + destruct W as (_ & _ & FL & _). rewrite Forall_forall in FL. specialize (FL a IA). congruence.
    + destruct W as (l1 & b & E1 & _ & CB & _). rewrite (LI _ _ E1) in CB. congruence.
Qed.
Print Assumptions C107_success.

(** The run is stopped for want of convergence only after every attempt of the
    plan was made and failed; with cvode the integration is told instead. *)
Theorem C107_give_up : forall A m (eng : Z -> knobs -> ents A -> verdict * ents A) fv u e, clean u -> steady eng ->
  let r := wrapper m eng fv u e in
  (ended r = Stop_ -> cvode m = false) /\
  (ended r = Stop_ \/ (ended r = Mass /\ forall a, In a (attempts r) -> came_of eng a <> MassBalance) ->
   plan m (some (pp e)) u = map (fun a => (number_ a, with_ a)) (attempts r) /\
   Forall (fun a => came_of eng a = Failed) (attempts r)).
Proof.
  intros A m eng fv u e C ST r. destruct (wrapper_all A m eng fv u e C ST) as (later & P & F & W). fold r in P, F, W.
  split.
  - intros E. rewrite E in W. apply W.
  - intros [E | [E N]]; rewrite E in W.
    + destruct W as (_ & -> & FL & _). rewrite app_nil_r in P. split; assumption.
    + destruct W as [(l1 & b & E1 & _ & CB & _) | (_ & -> & FL & _)].
      * exfalso. apply (N b); [rewrite E1; apply in_or_app; right; left; reflexivity | exact CB].
      * rewrite app_nil_r in P. split; assumption.
Qed.
Print Assumptions C107_give_up.

(** With the activity models of Pitzer and SIT diagonal scaling is switched on
    for the first attempt only: all the later ones but 4 and 5 have what the
    user set, and those two the opposite. *)
Theorem C107_pitzer_refuted : forall A m (eng : Z -> knobs -> ents A -> verdict * ents A) fv u e, clean u -> steady eng ->
  pitzer m = true -> diag u = false ->
  forall a, In a (attempts (wrapper m eng fv u e)) -> diag (with_ a) = one_of (number_ a) [0; 4; 5].
Proof.
  intros A m eng fv u e C ST PZ D a I'. destruct (C107_attempts A m eng fv u e C ST) as ((later & P) & _ & _).
  assert (IP : In (number_ a, with_ a) (plan m (some (pp e)) u)).
  { rewrite P. apply in_or_app. left. apply in_map_iff. exists a. split; [reflexivity | exact I']. }
  unfold plan in IP. apply in_map_iff in IP. destruct IP as (j & E & IF). apply filter_In in IF. destruct IF as [IF AP].
  assert (EJ : number_ a = j) by congruence.
  assert (EW : with_ a = if j =? 0 then first_planned m u else planned u j) by congruence. rewrite EW, EJ. clear E EJ EW IF.
  destruct (Z.eqb_spec j 0) as [-> | NJ].
  - unfold first_planned. rewrite PZ. reflexivity.
  - unfold planned. cbn [diag]. unfold applies in AP. rewrite PZ in AP. unfold one_of in *. cbn [existsb] in *.
    rewrite D. cbn [andb] in AP. rewrite !andb_true_iff in AP. destruct AP as [[_ AP] _].
    destruct (Z.eqb_spec j 4) as [J4 | J4]; [rewrite J4; reflexivity|]. destruct (Z.eqb_spec j 5) as [J5 | J5]; [rewrite J5; reflexivity|].
    destruct (Z.eqb_spec j 7) as [J7 | J7]; [rewrite J7 in AP; discriminate AP|].
    destruct (Z.eqb_spec j 0); [congruence | reflexivity].
Qed.
Print Assumptions C107_pitzer_refuted.

(** A limit on tries that is zero or negative makes no attempt at all: the run
    is stopped as if all had failed. *)
Theorem C107_none_refuted : forall A m (eng : Z -> knobs -> ents A -> verdict * ents A) fv u e, max_tries m <= 0 -> cvode m = false ->
  attempts (wrapper m eng fv u e) = [] /\ ended (wrapper m eng fv u e) = Stop_.
Proof.
  intros A m eng fv u e M CV. unfold wrapper.
  replace (max_tries m <? 14) with true by lia. replace (Z.to_nat (max_tries m)) with O by lia.
  cbn [turns]. rewrite CV. split; reflexivity.
Qed.
Print Assumptions C107_none_refuted.

(** Attempts that are left out count as tries: with small steps and two tries
    there is one attempt. *)
Theorem C107_count_refuted : forall A m (eng : Z -> knobs -> ents A -> verdict * ents A) fv u e, clean u -> steady eng ->
  max_tries m = 2 -> (pe u <= 5)%Q -> (step u <= 10)%Q -> (length (attempts (wrapper m eng fv u e)) <= 1)%nat.
Proof.
  intros A m eng fv u e C ST M PE SE. destruct (C107_attempts A m eng fv u e C ST) as ((later & P) & _ & _).
  assert (L : (length (plan m (some (pp e)) u) <= 1)%nat).
  { unfold plan. rewrite map_length, M. change (Z.to_nat (Z.min 2 14)) with 2%nat. cbn [seq map filter].
    replace (applies m (some (pp e)) u (Z.of_nat 1)) with false.
    - destruct (applies m (some (pp e)) u (Z.of_nat 0)); cbn; lia.
    - unfold applies. apply Qle_bool_iff in PE, SE. rewrite PE, SE. reflexivity. }
  rewrite P, app_length, map_length in L. lia.
Qed.
Print Assumptions C107_count_refuted.

(** An engine that converges with a tolerance of more than 1e-14 only. *)
Definition some_engine (j : Z) (s : knobs) (e : ents Z) : verdict * ents Z :=
  (if Qle_bool (tol s) (2 # 1000000000000000) then Failed else Converged,
   mkEnts (option_map Z.succ (pp e)) (ss e) (option_map Z.pred (kin e))).

Example C107_case :
  clean some_knobs /\ steady some_engine /\
  (let r := wrapper (mkModel false 1000 false) some_engine true some_knobs (mkEnts (Some 7) None (Some 3)) in
   map number_ (attempts r) = [0; 1; 2; 3] /\ map from (attempts r) = repeat (mkEnts (Some 7) None (Some 3)) 4 /\
   ended r = Ok_ /\ after r = some_knobs /\ left_ r = mkEnts (Some 8) None (Some 2)) /\
  (let r := wrapper (mkModel true 1000 false) (fun j s e => (Failed, e)) true some_knobs (mkEnts (Some 7) None (Some 3)) in
   map number_ (attempts r) = [0; 1; 2; 3; 4; 5; 8; 12; 13] /\ ended r = Stop_).
Proof.
  split; [repeat split|]. split; [|vm_compute; repeat split].
  intros j s [[p|] [q|] [x|]]; cbn; repeat split.
Qed.

(** * C108 *)

(** After a call that made an attempt and was not broken off, the settings are
    those of the user. *)
Theorem C108_settings : forall A m (eng : Z -> knobs -> ents A -> verdict * ents A) fv u e, clean u -> steady eng ->
  let r := wrapper m eng fv u e in
  ended r <> Thrown_ -> 0 < max_tries m -> after r = u.
Proof.
  intros A m eng fv u e C ST r NT M. destruct (wrapper_all A m eng fv u e C ST) as (later & P & F & W). fold r in P, F, W.
  assert (NA : attempts r <> [] \/ later <> []).
  { assert (NP : plan m (some (pp e)) u <> []).
    { unfold plan. destruct (Z.to_nat (Z.min (max_tries m) 14)) as [|n] eqn:N; [lia|].
      cbn [seq map filter]. replace (applies m (some (pp e)) u (Z.of_nat 0)) with true; [discriminate|].
      unfold applies. cbn. rewrite andb_false_r. reflexivity. }
    rewrite P in NP. destruct (attempts r); [right; exact NP | left; discriminate]. }
  destruct (ended r).
  - destruct W as (l & a & _ & _ & _ & H). exact H.
  - destruct W as [(l & a & _ & _ & _ & H) | (_ & L & _ & H)]; [exact H|]. apply H. destruct NA as [N | N]; [exact N | congruence].
  - destruct W as (_ & L & _ & H). apply H. destruct NA as [N | N]; [exact N | congruence].
  - congruence.
Qed.
Print Assumptions C108_settings.

(** A calculation that is broken off inside an attempt leaves the settings of
    that attempt, and the runs that follow use them: after the fourth the
    tolerance is ten times what the user set. *)
Theorem C108_thrown_refuted : forall A m (eng : Z -> knobs -> ents A -> verdict * ents A) fv u e, clean u -> steady eng ->
  let r := wrapper m eng fv u e in
  ended r = Thrown_ -> exists l a, attempts r = l ++ [a] /\ after r = with_ a /\
    (number_ a = 3 -> tol (after r) = (tol u * 10)%Q /\ itmax (after r) = itmax u * 2).
Proof.
  intros A m eng fv u e C ST r E. destruct (wrapper_all A m eng fv u e C ST) as (later & P & F & W). fold r in P, F, W.
  rewrite E in W. destruct W as (l & a & L & _ & _ & H). exists l, a. split; [exact L|]. split; [exact H|].
  intros N. rewrite H.
  assert (IP : In (number_ a, with_ a) (plan m (some (pp e)) u)).
  { rewrite P, L, map_app. apply in_or_app. left. apply in_or_app. right. left. reflexivity. }
  unfold plan in IP. apply in_map_iff in IP. destruct IP as (j & EJ & _).
  assert (j = 3) by congruence. subst j. assert (EW : planned u 3 = with_ a) by (cbn in EJ; congruence).
  rewrite <- EW. split; reflexivity.
Qed.
Print Assumptions C108_thrown_refuted.

(** -numerical_fixed_volume of KNOBS holds for one calculation: the first that
    ends without stopping the run switches it off. *)
Theorem C108_fixed_volume_refuted : forall A m (eng : Z -> knobs -> ents A -> verdict * ents A) fv u e,
  let r := wrapper m eng fv u e in
  volume r = if match ended r with Ok_ | Mass => true | _ => false end then false else fv.
Proof.
  intros A m eng fv u e r. subst r. unfold wrapper.
  destruct (turns _ _ _ _ _ _ _ _) as [[[l v] s] g]. destruct v; try reflexivity. destruct (cvode m); reflexivity.
Qed.
Print Assumptions C108_fixed_volume_refuted.

Lemma turns_reset : forall A m (eng : Z -> knobs -> ents A -> verdict * ents A) old saved n j s e l v s' e',
  turns m eng old saved n j s e = (l, v, s', e') -> v <> Thrown -> s = reset old \/ l <> [] -> s' = reset old.
Proof.
  intros A m eng old saved. induction n as [|n IH]; intros j s e l v s' e' H NT C; cbn [turns] in H.
  - destruct C as [C | C]; congruence.
  - destruct (adjust m _ j s) as [t|]; [|exact (IH _ _ _ _ _ _ _ H NT C)]. cbv zeta in H.
    destruct (eng j t (if 0 <? j then restore saved e else e)) as [[] f].
    + congruence.
    + destruct (turns m eng old saved n (j + 1) (reset old) f) as [[[l1 v1] s1] f1] eqn:T.
      assert (v1 = v /\ s1 = s') as [-> ->] by (split; congruence). apply (IH _ _ _ _ _ _ _ T NT). left. reflexivity.
    + congruence.
    + congruence.
Qed.
(** Whatever was left by a run that was stopped, a call that is not stopped in
    the middle of an attempt leaves no exceptional setting behind: all tables of
    settings are those from before the call, but aqueous-only turns, negative
    concentrations and full exponents are off. *)
Theorem C108_recovers : forall A m (eng : Z -> knobs -> ents A -> verdict * ents A) fv u e,
  let r := wrapper m eng fv u e in
  ended r <> Thrown_ -> 0 < max_tries m -> clean (after r) /\ after r = set_full (set_negative (set_aqueous u 0) false) false.
Proof.
  intros A m eng fv u e r NT M. subst r. unfold wrapper in *.
  set (st := if pitzer m then set_full (set_diag u true) false else u) in *.
  destruct (turns m eng u e (Z.to_nat (if max_tries m <? 14 then max_tries m else 14)) 0 st e) as [[[l v] s'] e'] eqn:T.
  assert (NV : v <> Thrown) by (intros ->; apply NT; reflexivity).
  assert (R : s' = reset u).
  { apply (turns_reset _ _ _ _ _ _ _ _ _ _ _ _ _ T NV). right.
    destruct (Z.to_nat (if max_tries m <? 14 then max_tries m else 14)) as [|n] eqn:N; [destruct (Z.ltb_spec (max_tries m) 14); lia|].
    cbn [turns] in T. change (adjust m (match pp e with Some _ => true | None => false end) 0 st) with (Some st) in T. cbv iota zeta in T.
    destruct (eng 0 st (if 0 <? 0 then restore e e else e)) as [[] f];
      try (intros L; congruence).
    destruct (turns m eng u e n (0 + 1) (reset u) f) as [[[l1 v1] s1] f1]. intros L. congruence. }
  assert (AF : after (match v with
    | Converged => mkRes l Ok_ s' false e' | MassBalance => mkRes l Mass s' false e' | Thrown => mkRes l Thrown_ s' fv e'
    | Failed => if cvode m then mkRes l Mass s' false e' else mkRes l Stop_ s' fv e' end) = reset u).
  { destruct v; try exact R. destruct (cvode m); exact R. }
  rewrite AF. split; [repeat split | reflexivity].
Qed.
Print Assumptions C108_recovers.

(** With no try allowed, the models of Pitzer and SIT leave diagonal scaling on. *)
Theorem C108_none_refuted : forall A m (eng : Z -> knobs -> ents A -> verdict * ents A) fv u e,
  max_tries m <= 0 -> pitzer m = true -> diag (after (wrapper m eng fv u e)) = true.
Proof.
  intros A m eng fv u e M PZ. unfold wrapper.
  replace (max_tries m <? 14) with true by lia. replace (Z.to_nat (max_tries m)) with O by lia.
  cbn [turns]. rewrite PZ. destruct (cvode m); reflexivity.
Qed.
Print Assumptions C108_none_refuted.

Lemma initial_step : forall fuel calc other n d c s, initial (S fuel) calc other n d c s =
  let s := set_diag (set_full s false) true in
  let s := if calc n s then set_full (set_diag s true) true else s in
  if other n then if Nat.ltb c 20 then initial fuel calc other (S n) (diag s) (S c) s else Some (s, true)
  else Some (set_diag s d, false).
Proof. reflexivity. Qed.

(** An initial solution whose density is given, or right at once, leaves the
    settings alone, apart from full Pitzer sums when it was hard. *)
Theorem C108_initial : forall calc other u, other 0%nat = false ->
  exists hard, initial_solution calc other u = Some (set_full u hard, false).
Proof.
  intros calc other u O. unfold initial_solution. rewrite initial_step, O. cbv zeta.
  destruct (calc 0%nat (set_diag (set_full u false) true)).
  - exists true. destruct u; reflexivity.
  - exists false. destruct u; reflexivity.
Qed.
Print Assumptions C108_initial.

Lemma initial_diag : forall fuel calc other n c s r, initial fuel calc other n true c s = Some r -> diag (fst r) = true.
Proof.
  induction fuel as [|fuel IH]; intros calc other n c s r E; [discriminate E|]. cbn [initial] in E. cbv zeta in E.
  destruct (calc n _); destruct (other n); try (destruct (Nat.ltb c 20); [eapply IH; cbn in E; exact E|]);
    assert (X : r = r) by reflexivity; injection E as <-; reflexivity.
Qed.

Lemma initial_ends : forall fuel calc other n d c s, (21 <= fuel + c)%nat -> (c <= 20)%nat -> initial fuel calc other n d c s <> None.
Proof.
  induction fuel as [|fuel IH]; intros calc other n d c s L C; [lia|]. cbn [initial]. cbv zeta.
  destruct (other n); [|discriminate]. destruct (Nat.ltb_spec c 20); [|discriminate]. apply IH; lia.
Qed.

(** When the density has to be found, the setting of diagonal scaling is lost:
    the second turn takes for it what the first had switched on. It is then on
    for the rest of the run. *)
Theorem C108_density_refuted : forall calc other u, other 0%nat = true ->
  exists u' stopped, initial_solution calc other u = Some (u', stopped) /\ diag u' = true.
Proof.
  intros calc other u O. unfold initial_solution. rewrite initial_step, O. cbv zeta.
  change (Nat.ltb 0 20) with true. cbv iota.
  set (s1 := if calc 0%nat (set_diag (set_full u false) true) then set_full (set_diag (set_diag (set_full u false) true) true) true
             else set_diag (set_full u false) true).
  assert (D : diag s1 = true) by (subst s1; destruct (calc 0%nat (set_diag (set_full u false) true)); reflexivity).
  rewrite D. clearbody s1. destruct (initial 21 calc other 1 true 1 s1) as [[u' b]|] eqn:E.
  - exists u', b. split; [reflexivity|]. apply (initial_diag _ _ _ _ _ _ _ E).
  - exfalso. revert E. apply initial_ends; lia.
Qed.
Print Assumptions C108_density_refuted.

Example C108_case :
  (let r := wrapper (mkModel false 1000 false) (fun j s e => if j =? 3 then (Thrown, e) else (Failed, e)) true some_knobs
              (mkEnts (Some 7) None None) in
   ended r = Thrown_ /\ after r <> some_knobs /\ map number_ (attempts r) = [0; 1; 2; 3]) /\
  initial_solution (fun _ _ => false) (fun n => Nat.ltb n 3) some_knobs = Some (set_diag some_knobs true, false) /\
  initial_solution (fun _ _ => false) (fun n => true) some_knobs = Some (set_diag some_knobs true, true).
Proof. split; [vm_compute; repeat split; intros H; discriminate H | split; reflexivity]. Qed.
