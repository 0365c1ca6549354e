(** C74 and C75: expressions and arrays of BASIC programs. *)
From Coq Require Import String Ascii List ZArith QArith Qround Qabs Bool Lia Lqa.
From Verif Require Import CStr_Model CNum_Model Qx Basic_Model Basic_Spec Basic_Proofs Basic2_Proofs.
Import ListNotations.
Local Open Scope string_scope.
Local Open Scope list_scope.
Local Open Scope Z_scope.

(** ** C74 *)
(** An expression, written with parentheses where the order of operations needs them (and anywhere else), has the meaning of its tree, and
    the reading stops right behind it. *)
Theorem C74_meaning : forall w s e rest, toks s = written e ++ rest -> well_used (vars s) e -> ends rest ->
  match den w (vars s) (saved s) (texts s) e with
  | Ok v => exists s', evaluates w s (Ok (v, s')) /\ toks s' = rest /\ same_but_cur s s'
  | Err => evaluates w s Err
  | Crash => evaluates w s Crash
  | Nan => evaluates w s Nan
  | Deep => False
  end.
Proof. exact meaning. Qed.
Print Assumptions C74_meaning.
(** There is one result. *)
Theorem C74_unique : forall w s r r', evaluates w s r -> evaluates w s r' -> r = r'.
Proof. intros w s r r' [_ (f & H)] [_ (f' & H')]. rewrite <- (H (max f f')) by lia. apply H'. lia. Qed.
Print Assumptions C74_unique.
(** Whatever the tokens are, if VAL is not among them the evaluation comes to an end, and a value leaves fewer tokens than there were. *)
Theorem C74_ends : forall w s, ~ In TVal (toks s) -> exists r, evaluates w s r /\ forall v s', r = Ok (v, s') -> (length (toks s') < length (toks s))%nat.
Proof.
  intros w s V. destruct (ev_ends w _ 0%nat s ltac:(lia) (le_n _) V) as (r & N & E & H). exists r. split; [split; [exact N|exact E]|].
  intros v s' X. destruct (H v s' X) as [L _]. destruct (toks s) as [|t u] eqn:T; [|cbn [length] in *; lia].
  exfalso. subst r. destruct E as [f0 E]. specialize (E (f0 + 7)%nat ltac:(lia)). replace (f0 + 7)%nat with (S (S (S (S (S (S (S f0))))))) in E by lia. cbn [ev lv] in E. unfold factor, bindM in E. rewrite T in E. discriminate.
Qed.
Print Assumptions C74_ends.

Lemma trunc_Z k : trunc (inject_Z k) = k.
Proof. unfold trunc. destruct (qle 0 (inject_Z k)); [apply Qfloor_Z|]. unfold Qceiling. rewrite <- inject_Z_opp. rewrite Qfloor_Z. lia. Qed.
Definition plain (t : list tok) : st := mkSt t fresh (fun _ => 0) (fun _ => None) (fun _ => None).
Definition yields (w : world) (t : list tok) (v : value) : Prop := exists s', evaluates w (plain t) (Ok (v, s')) /\ toks s' = [] /\ same_but_cur (plain t) s'.
Lemma yields_den w e v : well_used fresh e -> den w fresh (fun _ => None) (fun _ => None) e = Ok v -> yields w (written e) v.
Proof.
  intros U D. pose proof (meaning w (plain (written e)) e [] ltac:(symmetry; apply app_nil_r) U I) as H. cbn [plain vars saved texts] in H. rewrite D in H. exact H.
Qed.
(** Powers: of a positive number by exp and log; of a negative one for whole exponents only. *)
Theorem C74_power : forall w a b, (0 < a)%Q ->
  yields w [TNum a; TUp; TNum b] (VNum (expf w (b * logf w a))) /\
  (forall k, LONG_MIN <= k <= LONG_MAX -> yields w [TLp; TMinus; TNum a; TRp; TUp; TNum (inject_Z k)] (VNum (let x := expf w (inject_Z k * logf w (- - a)) in if Z.odd k then - x else x))) /\
  ((forall k, ~ (b == inject_Z k)%Q) -> LONG_MIN <= trunc b <= LONG_MAX -> evaluates w (plain [TLp; TMinus; TNum a; TRp; TUp; TNum b]) Err).
Proof.
  intros w a b A. split; [|split].
  - apply (yields_den w (Bin Pow (Num a) (Num b))); [split; exact I|]. cbn [den rbind bin_value numbers2]. unfold power. rewrite qle_true by lra. rewrite qlt_true by exact A. reflexivity.
  - intros k K. apply (yields_den w (Bin Pow (Par (Un Neg (Num a))) (Num (inject_Z k)))); [split; exact I|]. cbn [den rbind bin_value numbers2 un_value number_of]. unfold power. rewrite qle_false by lra.
    pose proof (trunc_Z k) as T. unfold to_long. rewrite T.
    replace ((LONG_MIN <=? k) && (k <=? LONG_MAX)) with true by (symmetry; apply andb_true_intro; split; apply Z.leb_le; lia). cbn [rbind].
    unfold qeq. rewrite (proj2 (Qeq_bool_iff _ _)) by reflexivity. reflexivity.
  - intros N L. pose proof (meaning w (plain [TLp; TMinus; TNum a; TRp; TUp; TNum b]) (Bin Pow (Par (Un Neg (Num a))) (Num b)) [] eq_refl (conj I I) I) as H.
    cbn [den rbind bin_value numbers2 un_value number_of] in H. unfold power in H. rewrite qle_false in H by lra. unfold to_long in H.
    replace ((LONG_MIN <=? trunc b) && (trunc b <=? LONG_MAX)) with true in H by (symmetry; apply andb_true_intro; split; apply Z.leb_le; lia). cbn [rbind] in H.
    destruct (qeq b (inject_Z (trunc b))) eqn:E; [|exact H]. exfalso. apply (N (trunc b)). apply Qeq_bool_iff. exact E.
Qed.
Print Assumptions C74_power.
(** A minus binds tighter than a power: -a^k with an even k is the positive power, not the negative of it. *)
Theorem C74_sign_refuted : forall w a k, (0 < a)%Q -> LONG_MIN <= k <= LONG_MAX -> Z.odd k = false ->
  yields w [TMinus; TNum a; TUp; TNum (inject_Z k)] (VNum (expf w (inject_Z k * logf w (- - a)))) /\
  yields w [TMinus; TLp; TNum a; TUp; TNum (inject_Z k); TRp] (VNum (- expf w (inject_Z k * logf w a))).
Proof.
  intros w a k A K O. split.
  - apply (yields_den w (Bin Pow (Un Neg (Num a)) (Num (inject_Z k)))); [split; exact I|]. cbn [den rbind bin_value numbers2 un_value number_of]. unfold power. rewrite qle_false by lra.
    pose proof (trunc_Z k) as T. unfold to_long. rewrite T.
    replace ((LONG_MIN <=? k) && (k <=? LONG_MAX)) with true by (symmetry; apply andb_true_intro; split; apply Z.leb_le; lia). cbn [rbind].
    unfold qeq. rewrite (proj2 (Qeq_bool_iff _ _)) by reflexivity. rewrite O. reflexivity.
  - apply (yields_den w (Un Neg (Bin Pow (Num a) (Num (inject_Z k))))); [split; exact I|]. cbn [den rbind bin_value numbers2]. unfold power. rewrite qle_true by lra. rewrite qlt_true by exact A. reflexivity.
Qed.
Print Assumptions C74_sign_refuted.
(** Zero to any power is zero, also to the power zero (where C and PHREEQC's own arithmetic give one) and to negative powers. *)
Theorem C74_zero_refuted : forall w b, yields w [TNum 0; TUp; TNum b] (VNum 0).
Proof. intros w b. apply (yields_den w (Bin Pow (Num 0) (Num b))); [split; exact I|]. reflexivity. Qed.
Print Assumptions C74_zero_refuted.
(** MOD adds 1e-14 to the dividend: a multiple of the divisor leaves 1e-14, not zero, and so never compares equal to zero. *)
Theorem C74_mod_refuted : forall w (n k : positive),
  (exists v, yields w [TNum (inject_Z (Zpos n * Zpos k)); TMod; TNum (inject_Z (Zpos k))] (VNum v) /\ v == 1 # 100000000000000)%Q /\
  yields w [TNum (inject_Z (Zpos n * Zpos k)); TMod; TNum (inject_Z (Zpos k)); TEq; TNum 0] (VNum 0).
Proof.
  intros w n k. set (a := inject_Z (Zpos n * Zpos k)). set (b := inject_Z (Zpos k)).
  assert (A : (0 < a)%Q) by (unfold a, Qlt, inject_Z; cbn; lia). assert (B : (1 <= b)%Q) by (unfold b, Qle, inject_Z; cbn; lia).
  assert (T : trunc ((Qabs a + (1 # 100000000000000)) / b) = Zpos n).
  { assert (E : ((Qabs a + (1 # 100000000000000)) / b == inject_Z (Zpos n) + (1 # 100000000000000) / b)%Q).
    { rewrite Qabs_pos by lra. unfold a. rewrite inject_Z_mult. fold b. field. lra. }
    assert (S1 : (0 < (1 # 100000000000000) / b)%Q) by (apply Qlt_shift_div_l; lra).
    assert (S2 : ((1 # 100000000000000) / b < 1)%Q) by (apply Qlt_shift_div_r; lra).
    assert (P : (0 <= (Qabs a + (1 # 100000000000000)) / b)%Q). { rewrite E. assert (0 < inject_Z (Z.pos n))%Q by (unfold Qlt, inject_Z; cbn; lia). lra. }
    set (y := ((Qabs a + (1 # 100000000000000)) / b)%Q) in *. assert (F : Qfloor y = Zpos n).
    { apply Z.le_antisymm.
      - apply Zlt_succ_le. rewrite Zlt_Qlt. apply (Qle_lt_trans _ y); [apply Qfloor_le|]. unfold Z.succ. rewrite inject_Z_plus. rewrite E. change (inject_Z 1) with 1%Q. lra.
      - rewrite <- (Qfloor_Z (Zpos n)). apply Qfloor_resp_le. rewrite E. lra. }
    rewrite <- F. unfold trunc. rewrite qle_true by exact P. reflexivity. }
  set (v := (Qabs a / a * fmod (Qabs a + (1 # 100000000000000)) b)%Q).
  assert (V : (v == 1 # 100000000000000)%Q).
  { unfold v, fmod. rewrite T. rewrite Qabs_pos by lra. unfold a. rewrite inject_Z_mult. fold b. field. split; [lra|]. intros X. unfold Qeq, inject_Z in X. cbn in X. lia. }
  assert (D : den w fresh (fun _ => None) (fun _ => None) (Bin Mod (Num a) (Num b)) = Ok (VNum v)).
  { cbn [den rbind bin_value numbers2]. unfold modulo. unfold qeq. destruct (Qeq_bool a 0) eqn:X; [apply Qeq_bool_iff in X; lra|]. destruct (Qeq_bool b 0) eqn:Y; [apply Qeq_bool_iff in Y; lra|]. reflexivity. }
  split.
  - exists v. split; [|exact V]. apply (yields_den w (Bin Mod (Num a) (Num b))); [split; exact I|exact D].
  - apply (yields_den w (Bin Equal (Bin Mod (Num a) (Num b)) (Num 0))); [repeat split|].
    change (rbind (den w fresh (fun _ => None) (fun _ => None) (Bin Mod (Num a) (Num b))) (fun x => rbind (Ok (VNum 0)) (bin_value w Equal x)) = Ok (VNum 0)). rewrite D. cbn [rbind bin_value order].
    destruct (v ?= 0)%Q eqn:C; try reflexivity. apply Qeq_alt in C. rewrite V in C. discriminate.
Qed.
Print Assumptions C74_mod_refuted.
(** MID$ with a start behind the end of the text throws an exception that nothing catches. *)
Theorem C74_mid_refuted : forall w x i j, Z.of_nat (String.length x) + 1 < i -> LONG_MIN <= i <= LONG_MAX -> LONG_MIN <= j <= LONG_MAX ->
  evaluates w (plain [TMid; TLp; TStr x; TComma; TNum (inject_Z i); TComma; TNum (inject_Z j); TRp]) Crash.
Proof.
  intros w x i j L Bi Bj. pose proof (meaning w (plain [TMid; TLp; TStr x; TComma; TNum (inject_Z i); TComma; TNum (inject_Z j); TRp]) (Mid (Text x) (Num (inject_Z i)) (Num (inject_Z j))) [] eq_refl ltac:(repeat split) I) as H.
  cbn [den rbind text_of rounded] in H.
  assert (R : forall k, LONG_MIN <= k <= LONG_MAX -> to_int (inject_Z k) = Ok k).
  { intros k K. unfold to_int. assert (F : Qfloor (inject_Z k + (1 # 2)) = k).
    { unfold Qfloor, inject_Z, Qplus. cbn [Qnum Qden]. rewrite Z.add_comm. change (Z.pos (1 * 2)) with 2. change (1 * Z.pos 1) with 1. change (Z.pos 2) with 2. rewrite Z.div_add by lia. reflexivity. }
    rewrite F. replace ((LONG_MIN <=? k) && (k <=? LONG_MAX)) with true by (symmetry; apply andb_true_intro; split; apply Z.leb_le; lia). reflexivity. }
  rewrite (R i Bi), (R j Bj) in H. cbn [rbind] in H. unfold substr in H. rewrite length_ok in H. destruct (i <? 1) eqn:I1; [apply Z.ltb_lt in I1; lia|].
  replace (Z.of_nat (String.length x) <? i - 1) with true in H by (symmetry; apply Z.ltb_lt; lia). exact H.
Qed.
Print Assumptions C74_mid_refuted.
(** INSTR, TRIM, LTRIM and RTRIM take a factor where the manual shows a string: a sum of texts is a syntax error there. *)
Theorem C74_trim_refuted : forall w k x y rest, evaluates w (plain (trim_token k :: TLp :: TStr x :: TPlus :: TStr y :: TRp :: rest)) Err /\ evaluates w (plain (TInstr :: TLp :: TStr x :: TPlus :: TStr y :: TComma :: rest)) Err.
Proof.
  intros w k x y rest. split; (split; [discriminate|]); exists 8%nat; intros f L; do 8 (destruct f as [|f]; [lia|]); try (destruct k); reflexivity.
Qed.
Print Assumptions C74_trim_refuted.
(** VAL evaluates its text as an expression.  A text that asks for its own value recurses without end (until the stack overflows). *)
Definition self : string := "val(a$)".
Definition looping (t : list tok) (c : string -> Z) : st := mkSt t (fun _ => mkVar [] (fun _ => VStr self)) c (fun _ => None) (fun _ => None).
Lemma self_arg w g c : ev w g LFactor (looping [TLp; TVar "a$"; TRp] c) = Deep \/ exists c', ev w g LFactor (looping [TLp; TVar "a$"; TRp] c) = Ok (VStr self, looping [] c').
Proof.
  do 9 (destruct g as [|g]; [first [left; reflexivity|right; eexists; reflexivity]|]). right. eexists. reflexivity.
Qed.
(** Such an evaluation has no result, for any number of nested calls. *)
Theorem C74_val_refuted : forall w f c, ev w f LExpr (looping [TVal; TLp; TVar "a$"; TRp] c) = Deep.
Proof.
  intros w. induction f as [f IH] using lt_wf_ind. intros c. do 7 (destruct f as [|f]; [reflexivity|]).
  assert (F : ev w (S f) LFactor (looping [TVal; TLp; TVar "a$"; TRp] c) = Deep).
  { cbn [ev]. unfold factor. cbn [toks looping]. unfold bindM, strfactor. change (with_toks _ [TLp; TVar "a$"; TRp]) with (looping [TLp; TVar "a$"; TRp] c). unfold bindM. destruct (self_arg w f c) as [E|(c' & E)]; rewrite E; [reflexivity|].
    cbn [rbind fst snd lift str_of]. change (lex (number w) self) with (@Ok (list tok) [TVal; TLp; TVar "a$"; TRp]). cbn [rbind]. change (with_toks (looping [] c') [TVal; TLp; TVar "a$"; TRp]) with (looping [TVal; TLp; TVar "a$"; TRp] c'). rewrite IH by lia. reflexivity. }
  do 6 (match goal with |- ev w (S ?g) ?l ?s = _ => change (ev w (S g) l s) with (rbind (ev w g (match l with LExpr => LAnd | LAnd => LRel | LRel => LSum | LSum => LTerm | LTerm => LUp | _ => LFactor end) s)
    (fun r => chain g (match l with LExpr => op_or | LAnd => op_and | LRel => op_rel | LSum => op_sum | LTerm => op_term | _ => op_up w end) (ev w g (match l with LExpr => LAnd | LAnd => LRel | LRel => LSum | LSum => LTerm | LTerm => LUp | _ => LUp end)) (fst r) (snd r))); cbn match end;
    match goal with |- rbind ?x _ = Deep => assert (X : x = Deep); [|rewrite X; reflexivity] end).
  exact F.
Qed.
Print Assumptions C74_val_refuted.

(** 1 + 2 * 3 ^ 2 - 4 OR x$ = "a", with x$ = "b". *)
Definition sample : ex := Bin Or (Bin Sub (Bin Add (Num 1) (Bin Mul (Num 2) (Bin Pow (Num 3) (Num 2)))) (Num 4)) (Bin Equal (Var "x$") (Text "a")).
Definition sample_vars (x : string) : var := if String.eqb x "x$" then mkVar [] (fun _ => VStr "b") else fresh x.
Example C74_case : forall w, (forall a, expf w (2 * logf w a) = a * a)%Q -> exists v s',
  evaluates w (mkSt (written sample ++ [TColon]) sample_vars (fun _ => 0) (fun _ => None) (fun _ => None)) (Ok (VNum v, s')) /\ (v == 15)%Q /\ toks s' = [TColon] /\
  written sample = [TNum 1; TPlus; TNum 2; TTimes; TNum 3; TUp; TNum 2; TMinus; TNum 4; TOr; TVar "x$"; TEq; TStr "a"].
Proof.
  intros w H. pose proof (C74_meaning w (mkSt (written sample ++ [TColon]) sample_vars (fun _ => 0) (fun _ => None) (fun _ => None)) sample [TColon] eq_refl ltac:(repeat split) eq_refl) as M.
  cbn [vars saved texts] in M. unfold sample in M at 1. cbn [den rbind bin_value numbers2] in M. unfold power in M. change (qle 0 3) with true in M. change (qlt 0 3) with true in M. rewrite H in M. cbn [rbind] in M.
  vm_compute (rbind _ _) in M. destruct M as (s' & M1 & M2 & _). exists 15%Q, s'. split; [exact M1|]. split; [reflexivity|]. split; [exact M2|reflexivity].
Qed.

(** ** C75 *)
(** The place of an element determines its subscripts, and lies inside the array. *)
Lemma size_pos ds js : in_range ds js -> 0 < size ds.
Proof. induction 1 as [|d j ds js H _ IH]; [reflexivity|]. change (size (d :: ds)) with (d * size ds). apply Z.mul_pos_pos; lia. Qed.
Lemma position_form ds js : in_range ds js -> exists o, 0 <= o < size ds /\ forall k, position ds js k = Some (k * size ds + o).
Proof.
  induction 1 as [|d j ds js H R IH].
  - exists 0. cbn. split; [lia|]. intros k. f_equal. lia.
  - destruct IH as (o & B & IH). pose proof (size_pos ds js R) as P. exists (j * size ds + o). cbn [size fold_right position]. fold (size ds). split; [pose proof (Z.mul_le_mono_nonneg_r (j + 1) d (size ds) ltac:(lia) ltac:(lia)); pose proof (Z.mul_nonneg_nonneg j (size ds) ltac:(lia) ltac:(lia)); lia|]. intros k.
    replace ((0 <=? j) && (j <? d)) with true by (symmetry; apply andb_true_intro; split; [apply Z.leb_le|apply Z.ltb_lt]; lia). rewrite IH. f_equal. ring.
Qed.
Lemma position_none ds js k : length js = length ds -> ~ in_range ds js -> position ds js k = None.
Proof.
  revert js k. induction ds as [|d ds IH]; intros [|j js] k L N; try discriminate; [exfalso; apply N; constructor|]. cbn [position]. destruct ((0 <=? j) && (j <? d)) eqn:B; [|reflexivity].
  apply IH; [injection L as L; exact L|]. intros R. apply N. constructor; [|exact R]. apply andb_prop in B. destruct B as [B1 B2]. apply Z.leb_le in B1. apply Z.ltb_lt in B2. lia.
Qed.
Theorem C75_places : forall ds js, length js = length ds ->
  (in_range ds js <-> exists k, position ds js 0 = Some k) /\
  (forall k, position ds js 0 = Some k -> 0 <= k < size ds) /\
  (forall js' k, length js' = length ds -> position ds js 0 = Some k -> position ds js' 0 = Some k -> js' = js).
Proof.
  intros ds js L.
  assert (R : forall l k, length l = length ds -> position ds l 0 = Some k -> in_range ds l).
  { intros l k Ll E. assert (X : in_range ds l \/ ~ in_range ds l).
    { clear E L Ll. revert l. induction ds as [|d ds IH]; intros [|j l]; [left; constructor|right; intros X; inversion X|right; intros X; inversion X|].
      destruct (IH l) as [Y|Y]; [|right; intros X; inversion X; subst; auto]. destruct (Z_le_dec 0 j) as [A|A]; [destruct (Z_lt_dec j d) as [B|B]|].
      - left. constructor; [lia|exact Y]. - right. intros X. inversion X; subst. lia. - right. intros X. inversion X; subst. lia. }
    destruct X as [X|X]; [exact X|]. rewrite (position_none ds l 0 Ll X) in E. discriminate. }
  split; [|split].
  - split; [|intros [k E]; exact (R js k L E)]. intros H. destruct (position_form ds js H) as (o & _ & E). eexists. apply E.
  - intros k E. destruct (position_form ds js (R js k L E)) as (o & B & F). rewrite F in E. injection E as <-. lia.
  - intros js' k L' E E'. pose proof (R js k L E) as A. pose proof (R js' k L' E') as B. clear R L L'. generalize dependent k. generalize dependent js'.
    assert (G : forall js', in_range ds js' -> forall k k', position ds js k = position ds js' k' -> k = k' /\ js' = js); [|intros js' B k E E'; apply (G js' B 0 0); congruence].
    induction A as [|d j ds js Hj A IH]; intros js' B k k' E; inversion B as [|? j' ? js2 Hj' B2]; subst.
    + cbn in E. injection E as ->. auto.
    + cbn [position] in E. replace ((0 <=? j) && (j <? d)) with true in E by (symmetry; apply andb_true_intro; split; [apply Z.leb_le|apply Z.ltb_lt]; lia).
      replace ((0 <=? j') && (j' <? d)) with true in E by (symmetry; apply andb_true_intro; split; [apply Z.leb_le|apply Z.ltb_lt]; lia).
      destruct (IH js2 B2 _ _ E) as [K ->]. assert (k = k') by nia. subst k'. split; [reflexivity|]. f_equal. lia.
Qed.
Print Assumptions C75_places.
(** An element: subscripts are rounded to whole numbers; inside the bounds the value is that of the cell, outside the program ends with an error. *)
Theorem C75_element : forall w s x l js rest, toks s = written (Elem x l) ++ rest -> ends rest -> well_used (vars s) (Elem x l) ->
  Forall2 (fun e j => exists v, den w (vars s) (saved s) (texts s) e = Ok (VNum v) /\ to_int v = Ok j) l js ->
  match position (dims (vars s x)) js 0 with
  | Some k => exists s', evaluates w s (Ok (cells (vars s x) k, s')) /\ toks s' = rest /\ same_but_cur s s'
  | None => evaluates w s Err
  end.
Proof.
  intros w s x l js rest T R U J. pose proof (C74_meaning w s (Elem x l) rest T U R) as H.
  change (den w (vars s) (saved s) (texts s) (Elem x l)) with (rbind (go w (vars s) (saved s) (texts s) l (dims (vars s x)) 0) (fun k => Ok (cells (vars s x) k))) in H.
  assert (G : forall l js ds k, Forall2 (fun e j => exists v, den w (vars s) (saved s) (texts s) e = Ok (VNum v) /\ to_int v = Ok j) l js -> length l = length ds ->
    go w (vars s) (saved s) (texts s) l ds k = match position ds js k with Some p => Ok p | None => Err end).
  { clear. intros l js ds k F. revert ds k. induction F as [|e j l js (v & D & I0) _ IH]; intros [|d ds] k L; try discriminate; [reflexivity|]. cbn [go position]. rewrite D. cbn [rbind rounded]. rewrite I0. cbn [rbind].
    destruct ((0 <=? j) && (j <? d)); [|reflexivity]. apply IH. injection L as L. exact L. }
  destruct U as (N & L & _). rewrite (G l js (dims (vars s x)) 0 J L) in H. destruct (position (dims (vars s x)) js 0); exact H.
Qed.
Print Assumptions C75_element.
(** The first use of an array, with up to four subscripts without commas inside, makes its subscripts run from 0 to 10 and all elements zero or empty. *)
Theorem C75_first : forall w s x l rest r, toks s = written (Elem x l) ++ rest -> dims (vars s x) = [] -> Forall comma_free l -> (1 <= length l <= 4)%nat ->
  (evaluates w s r <-> evaluates w (mkSt (toks s) (fun y => if String.eqb y x then mkVar (map (fun _ => 11) l) (fun k => if k =? scalar then cells (vars s x) scalar else if is_text x then VStr "" else VNum 0) else vars s y) (cur s) (saved s) (texts s)) r).
Proof.
  intros w s x l rest r T D0 F L. assert (E : forall f, ev w f LExpr s = ev w f LExpr (first_use s x (length l))) by (intros f; apply (first_ev w s x l rest T D0 F L 0%nat f); lia).
  assert (M : map (fun _ : ex => 11) l = repeat 11 (length l)) by (clear; induction l as [|a l IH]; [reflexivity|cbn; rewrite IH; reflexivity]).
  assert (S : first_use s x (length l) = mkSt (toks s) (fun y => if String.eqb y x then mkVar (map (fun _ => 11) l) (fun k => if k =? scalar then cells (vars s x) scalar else if is_text x then VStr "" else VNum 0) else vars s y) (cur s) (saved s) (texts s)) by (rewrite M; reflexivity).
  rewrite <- S. unfold evaluates. split; intros [N (f0 & H)]; (split; [exact N|]); exists f0; intros f Lf; [rewrite <- E|rewrite E]; apply H; exact Lf.
Qed.
Print Assumptions C75_first.
(** The count of the subscripts at a first use stops at a comma of an inner array: a(b(1,2),3) makes [a] an array of one dimension and then fails, although both arrays could be made. *)
Theorem C75_nested_refuted : forall w k rest, evaluates w (plain (TVar "a" :: TLp :: TVar "b" :: TLp :: TNum 1 :: TComma :: TNum 2 :: TRp :: TComma :: TNum k :: TRp :: rest)) Err.
Proof.
  intros w k rest. split; [discriminate|]. exists 40%nat. intros f L. do 40 (destruct f as [|f]; [lia|]). vm_compute. reflexivity.
Qed.
Print Assumptions C75_nested_refuted.

(** An array t(2,3) of 3 by 4 cells that hold their places: t(1,2) is cell 6, t(1,4) an error; a new array u(3) has zeros. *)
Definition grid (x : string) : var := if String.eqb x "t" then mkVar [3; 4] (fun k => VNum (inject_Z k)) else fresh x.
Definition on_grid (t : list tok) : st := mkSt t grid (fun _ => 0) (fun _ => None) (fun _ => None).
Example C75_case : forall w,
  (exists s', evaluates w (on_grid (written (Elem "t" [Num 1; Num 2]))) (Ok (VNum 6, s'))) /\ evaluates w (on_grid (written (Elem "t" [Num 1; Num 4]))) Err /\
  (exists s', evaluates w (on_grid (written (Elem "u" [Num 3]))) (Ok (VNum 0, s')) /\ dims (vars s' "u") = [11]).
Proof.
  intros w. split; [|split].
  - destruct (C75_element w (on_grid (written (Elem "t" [Num 1; Num 2]))) "t" [Num 1; Num 2] [1; 2] [] eq_refl I ltac:(repeat split; discriminate)) as (s' & H & _).
    { constructor; [exists 1%Q; split; reflexivity|]. constructor; [exists 2%Q; split; reflexivity|]. constructor. }
    exists s'. exact H.
  - apply (C75_element w (on_grid (written (Elem "t" [Num 1; Num 4]))) "t" [Num 1; Num 4] [1; 4] [] eq_refl I ltac:(repeat split; discriminate)).
    constructor; [exists 1%Q; split; reflexivity|]. constructor; [exists 4%Q; split; reflexivity|]. constructor.
  - set (s0 := mkSt (toks (on_grid (written (Elem "u" [Num 3])))) (fun y => if String.eqb y "u" then mkVar (map (fun _ => 11) [Num 3]) (fun k => if k =? scalar then cells (grid "u") scalar else if is_text "u" then VStr "" else VNum 0) else grid y) (fun _ => 0) (fun _ => None) (fun _ => None)).
    destruct (C75_element w s0 "u" [Num 3] [3] [] eq_refl I ltac:(repeat split; discriminate)) as (s' & H & _ & (V & _)).
    { constructor; [exists 3%Q; split; reflexivity|]. constructor. }
    exists s'. split; [|rewrite V; reflexivity].
    apply (proj2 (C75_first w (on_grid (written (Elem "u" [Num 3]))) "u" [Num 3] [] (Ok (VNum 0, s')) eq_refl eq_refl ltac:(constructor; [intros [X|[]]; discriminate|constructor]) ltac:(cbn; lia))).
    exact H.
Qed.
