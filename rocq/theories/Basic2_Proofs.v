(** Lemmas for C74-C75: every evaluation without VAL comes to an end; first use of an array. *)
From Coq Require Import String Ascii List ZArith QArith Qround Qabs Bool Lia.
From Verif Require Import CStr_Model Qx Basic_Model Basic_Spec Basic_Proofs.
Import ListNotations.
Local Open Scope string_scope.
Local Open Scope list_scope.
Local Open Scope Z_scope.

(** ** Skipping parentheses *)
Lemma skip_ends fuel t : (length t < fuel)%nat -> skipparen fuel t <> Deep /\ (forall u, skipparen fuel t = Ok u -> (length u <= length t)%nat /\ u <> []).
Proof.
  revert t. induction fuel as [|fuel IH]; intros t L; [lia|]. cbn [skipparen]. destruct t as [|x r]; [split; discriminate|]. cbn [length] in L.
  destruct (is_rp x || is_comma x). { split; [discriminate|]. intros u E. injection E as <-. split; [lia|discriminate]. }
  destruct (IH r ltac:(lia)) as [A B].
  destruct (is_lp x).
  - destruct (skipparen fuel r) as [u| | | |] eqn:E; cbn [rbind]; try (split; discriminate); [|congruence].
    destruct (B u eq_refl) as [B1 B2]. destruct u as [|y u]; [congruence|]. cbn [tl length] in *. destruct (IH u ltac:(lia)) as [A' B']. split; [exact A'|]. intros v Ev. destruct (B' v Ev). split; [lia|assumption].
  - split; [exact A|]. intros u E. destruct (B u E). cbn [length]. split; [lia|assumption].
Qed.
Lemma count_ends fuel i t : (length t < fuel)%nat -> count_dims fuel i t <> Deep.
Proof.
  revert i t. induction fuel as [|fuel IH]; intros i t L; [lia|]. cbn [count_dims]. destruct (maxdims <=? i); [discriminate|].
  destruct (skip_ends (S (length t)) (tl t)) as [A B]; [destruct t; cbn; lia|].
  destruct (skipparen (S (length t)) (tl t)) as [u| | | |] eqn:E; cbn [rbind]; try discriminate; [|congruence].
  destruct (B u eq_refl) as [B1 B2]. assert (Lu : (length u < fuel)%nat).
  { destruct t as [|x t]; [cbn in *; destruct u; [congruence|cbn in *; lia]|cbn in *; lia]. }
  destruct u as [|x u]; [congruence|]. destruct x; try (apply IH; exact Lu). discriminate.
Qed.

Section W.
Variable w : world.
Definition noval (s : st) : Prop := ~ In TVal (toks s).
(** With enough recursion there is a result, and it leaves at most [n] tokens. *)
Definition D {A} (n : nat) (m : nat -> M A) (s : st) : Prop :=
  exists r, r <> Deep /\ EV m s r /\ forall v s', r = Ok (v, s') -> (length (toks s') <= n)%nat /\ noval s'.
Lemma D_bind {A B} k n (m : nat -> M A) (q : nat -> A -> M B) s : D k m s -> (forall v s', (length (toks s') <= k)%nat -> noval s' -> D n (fun f => q f v) s') -> D n (fun f => bindM (m f) (q f)) s.
Proof.
  intros (r & N & E & H) K. destruct r as [[v s']| | | |]; [|..].
  - destruct (H v s' eq_refl) as [H1 H2]. destruct (K v s' H1 H2) as (r' & N' & E' & H'). exists r'. split; [exact N'|]. split; [exact (EV_bind m q _ _ _ _ E E')|exact H'].
  - exists Err. split; [discriminate|]. split; [exact (EV_bind_bad m q _ (@Err B) I E)|]. discriminate.
  - exists Crash. split; [discriminate|]. split; [exact (EV_bind_bad m q _ (@Crash B) I E)|]. discriminate.
  - exists Nan. split; [discriminate|]. split; [exact (EV_bind_bad m q _ (@Nan B) I E)|]. discriminate.
  - congruence.
Qed.
Lemma D_le {A} n k (m : nat -> M A) s : (n <= k)%nat -> D n m s -> D k m s.
Proof. intros L (r & N & E & H). exists r. split; [exact N|]. split; [exact E|]. intros v s' Er. destruct (H v s' Er). split; [lia|assumption]. Qed.
Lemma D_const {A} (m : M A) n s : m s <> Deep -> (forall v s', m s = Ok (v, s') -> (length (toks s') <= n)%nat /\ noval s') -> D n (fun _ => m) s.
Proof. intros N H. exists (m s). split; [exact N|]. split; [apply EV_const; reflexivity|exact H]. Qed.
Lemma D_lift {A} (r : res A) n s : r <> Deep -> (length (toks s) <= n)%nat -> noval s -> D n (fun _ => lift r) s.
Proof. intros N L V. apply D_const. { unfold lift. destruct r; cbn; congruence. } intros v s' E. unfold lift in E. destruct r; try discriminate. injection E as _ <-. auto. Qed.
Lemma D_ret {A} (x : A) n s : (length (toks s) <= n)%nat -> noval s -> D n (fun _ => ret x) s.
Proof. intros L V. apply (D_lift (Ok x)); [discriminate|exact L|exact V]. Qed.
Lemma D_require p n s : (length (toks s) <= S n)%nat -> noval s -> D n (fun _ => require p) s.
Proof.
  intros L V. apply D_const; unfold require; destruct (toks s) as [|t r] eqn:E; try discriminate; destruct (p t); try discriminate.
  intros v s' X. injection X as _ <-. cbn [toks with_toks]. split; [cbn in L; lia|]. intros I'. apply V. rewrite E. right. exact I'.
Qed.
Lemma D_same {A} n (m m' : nat -> M A) s s' : (forall f, m f s = m' f s') -> D n m' s' -> D n m s.
Proof. intros X (r & N & E & H). exists r. split; [exact N|]. split; [exact (EV_same _ _ _ _ _ X E)|exact H]. Qed.
Lemma D_fail {A} n s : D n (fun _ => @fail A) s.
Proof. apply D_const; discriminate. Qed.

Lemma num_nd v : num_of v <> Deep. Proof. destruct v; discriminate. Qed.
Lemma str_nd v : str_of v <> Deep. Proof. destruct v; discriminate. Qed.
Lemma long_nd q : to_long q <> Deep. Proof. unfold to_long. destruct (_ && _); discriminate. Qed.
Lemma int_nd q : to_int q <> Deep. Proof. unfold to_int. destruct (_ && _); discriminate. Qed.
Lemma substr_nd x i j : substr x i j <> Deep. Proof. unfold substr. destruct (_ <? _); discriminate. Qed.
Lemma power_nd a b : power w a b <> Deep.
Proof. unfold power. destruct (qle 0 a); [discriminate|]. pose proof (long_nd b). destruct (to_long b); cbn; try congruence. destruct (qeq b _); discriminate. Qed.
Lemma bits_nd f a b : bits f a b <> Deep.
Proof. unfold bits. pose proof (long_nd a). pose proof (long_nd b). destruct (to_long a); cbn; try congruence. destruct (to_long b); cbn; congruence. Qed.
Lemma apply2_nd n t o a b : (n <= 5)%nat -> opn w n t = Some o -> apply2 o a b <> Deep.
Proof.
  intros L H. do 6 (destruct n as [|n]; [cbn in H; destruct t; try discriminate; cbn in H; injection H as <-; destruct a as [a|a], b as [b|b]; cbn; try discriminate; try apply bits_nd; try apply power_nd; unfold modulo; destruct (qeq a 0); try discriminate; destruct (qeq b 0); discriminate|]). lia.
Qed.
(** The loop over the operators of a level. *)
Lemma D_chain n k : (n <= 5)%nat -> (forall s, (length (toks s) < k)%nat -> noval s -> D (length (toks s)) (fun f => ev w f (lv (nx n))) s) ->
  forall v s, (length (toks s) <= k)%nat -> noval s ->
  exists r, r <> Deep /\ (exists f0, forall f g, (f0 <= f)%nat -> (f0 <= g)%nat -> chain g (opn w n) (ev w f (lv (nx n))) v s = r) /\ forall v' s', r = Ok (v', s') -> (length (toks s') <= length (toks s))%nat /\ noval s'.
Proof.
  intros Ln Sub. induction k as [|k IH]; intros v s L V.
  - destruct (toks s) as [|t r] eqn:E; [|cbn in L; lia]. exists (Ok (v, s)). split; [discriminate|]. split.
    + exists 1%nat. intros f g _ Lg. destruct g as [|g]; [lia|]. cbn [chain]. rewrite E. reflexivity.
    + intros v' s' X. injection X as _ <-. rewrite E. split; [cbn; lia|exact V].
  - destruct (toks s) as [|t r] eqn:E.
    { exists (Ok (v, s)). split; [discriminate|]. split.
      + exists 1%nat. intros f g _ Lg. destruct g as [|g]; [lia|]. cbn [chain]. rewrite E. reflexivity.
      + intros v' s' X. injection X as _ <-. rewrite E. split; [cbn; lia|exact V]. }
    destruct (opn w n t) as [o|] eqn:O.
    2:{ exists (Ok (v, s)). split; [discriminate|]. split.
      + exists 1%nat. intros f g _ Lg. destruct g as [|g]; [lia|]. cbn [chain]. rewrite E, O. reflexivity.
      + intros v' s' X. injection X as _ <-. rewrite E. split; [cbn; lia|exact V]. }
    destruct (before o v) eqn:Bo.
    2:{ exists Err. split; [discriminate|]. split; [|discriminate]. exists 1%nat. intros f g _ Lg. destruct g as [|g]; [lia|]. cbn [chain]. rewrite E, O, Bo. reflexivity. }
    cbn [length] in L. assert (Vr : noval (with_toks s r)) by (intros X; apply V; rewrite E; right; exact X).
    destruct (Sub (with_toks s r) ltac:(cbn; lia) Vr) as (r1 & N1 & (f1 & E1) & H1). cbn [toks with_toks] in H1.
    destruct r1 as [[v2 s2]| | | |].
    + destruct (H1 v2 s2 eq_refl) as [L2 V2]. pose proof (apply2_nd n t o v v2 Ln O) as A. destruct (apply2 o v v2) as [v3| | | |] eqn:Ap; [..|congruence].
      * destruct (IH (fun s0 L0 => Sub s0 ltac:(lia)) v3 s2 ltac:(lia) V2) as (r3 & N3 & (f3 & E3) & H3). exists r3. split; [exact N3|]. split.
        -- exists (S (max f1 f3)). intros f g Lf Lg. destruct g as [|g]; [lia|]. cbn [chain]. rewrite E, O, Bo. unfold bindM, lift. rewrite E1 by lia. cbn [rbind fst snd]. rewrite Ap. cbn [rbind fst snd]. apply E3; lia.
        -- intros v' s' X. destruct (H3 v' s' X). split; [cbn; lia|assumption].
      * exists Err. split; [discriminate|]. split; [|discriminate]. exists (S f1). intros f g Lf Lg. destruct g as [|g]; [lia|]. cbn [chain]. rewrite E, O, Bo. unfold bindM, lift. rewrite E1 by lia. cbn [rbind fst snd]. rewrite Ap. reflexivity.
      * exists Crash. split; [discriminate|]. split; [|discriminate]. exists (S f1). intros f g Lf Lg. destruct g as [|g]; [lia|]. cbn [chain]. rewrite E, O, Bo. unfold bindM, lift. rewrite E1 by lia. cbn [rbind fst snd]. rewrite Ap. reflexivity.
      * exists Nan. split; [discriminate|]. split; [|discriminate]. exists (S f1). intros f g Lf Lg. destruct g as [|g]; [lia|]. cbn [chain]. rewrite E, O, Bo. unfold bindM, lift. rewrite E1 by lia. cbn [rbind fst snd]. rewrite Ap. reflexivity.
    + exists Err. split; [discriminate|]. split; [|discriminate]. exists (S f1). intros f g Lf Lg. destruct g as [|g]; [lia|]. cbn [chain]. rewrite E, O, Bo. unfold bindM, lift. rewrite E1 by lia. reflexivity.
    + exists Crash. split; [discriminate|]. split; [|discriminate]. exists (S f1). intros f g Lf Lg. destruct g as [|g]; [lia|]. cbn [chain]. rewrite E, O, Bo. unfold bindM, lift. rewrite E1 by lia. reflexivity.
    + exists Nan. split; [discriminate|]. split; [|discriminate]. exists (S f1). intros f g Lf Lg. destruct g as [|g]; [lia|]. cbn [chain]. rewrite E, O, Bo. unfold bindM, lift. rewrite E1 by lia. reflexivity.
    + congruence.
Qed.
(** One level from the next. *)
Lemma D_level n s : (n < 6)%nat -> noval s -> D (pred (length (toks s))) (fun f => ev w f (lv (S n))) s ->
  (forall s', (length (toks s') < length (toks s))%nat -> noval s' -> D (length (toks s')) (fun f => ev w f (lv (nx n))) s') ->
  D (pred (length (toks s))) (fun f => ev w f (lv n)) s.
Proof.
  intros Ln V (r & N & (f0 & E) & H) Sub. destruct r as [[v s1]| | | |].
  - destruct (H v s1 eq_refl) as [L1 V1]. destruct (length (toks s)) as [|k] eqn:Lk.
    + (* nothing to read *)
      destruct (D_chain n 0 ltac:(lia) (fun s' (X : (length (toks s') < 0)%nat) _ => ltac:(lia)) v s1 L1 V1) as (r & N' & (f1 & E1) & H1).
      exists r. split; [exact N'|]. split.
      * exists (S (max f0 f1)). intros f L. destruct f as [|f]; [lia|]. rewrite ev_level by exact Ln. rewrite E by lia. cbn [rbind fst snd]. apply E1; lia.
      * intros v' s' X. destruct (H1 v' s' X). split; [cbn in *; lia|assumption].
    + destruct (D_chain n k ltac:(lia) (fun s' X => Sub s' ltac:(lia)) v s1 L1 V1) as (r & N' & (f1 & E1) & H1).
      exists r. split; [exact N'|]. split.
      * exists (S (max f0 f1)). intros f L. destruct f as [|f]; [lia|]. rewrite ev_level by exact Ln. rewrite E by lia. cbn [rbind fst snd]. apply E1; lia.
      * intros v' s' X. destruct (H1 v' s' X). split; [cbn in *; lia|assumption].
  - exists Err. split; [discriminate|]. split; [|discriminate]. exists (S f0). intros f L. destruct f as [|f]; [lia|]. rewrite ev_level by exact Ln. rewrite E by lia. reflexivity.
  - exists Crash. split; [discriminate|]. split; [|discriminate]. exists (S f0). intros f L. destruct f as [|f]; [lia|]. rewrite ev_level by exact Ln. rewrite E by lia. reflexivity.
  - exists Nan. split; [discriminate|]. split; [|discriminate]. exists (S f0). intros f L. destruct f as [|f]; [lia|]. rewrite ev_level by exact Ln. rewrite E by lia. reflexivity.
  - congruence.
Qed.
(** Factors. *)
Section Step.
Variable k : nat.
Hypothesis HE : forall s, (length (toks s) <= k)%nat -> noval s -> D (length (toks s)) (fun f => ev w f LExpr) s.
Hypothesis HF : forall s, (length (toks s) <= k)%nat -> noval s -> D (length (toks s)) (fun f => ev w f LFactor) s.
Lemma HEk s : (length (toks s) <= k)%nat -> noval s -> D k (fun f => ev w f LExpr) s.
Proof. intros L V. exact (D_le _ _ _ _ L (HE s L V)). Qed.
Lemma HFk s : (length (toks s) <= k)%nat -> noval s -> D k (fun f => ev w f LFactor) s.
Proof. intros L V. exact (D_le _ _ _ _ L (HF s L V)). Qed.
Lemma D_real s : (length (toks s) <= k)%nat -> noval s -> D k (fun f => realfactor (ev w f LFactor)) s.
Proof. intros L V. apply (D_bind k k _ (fun _ n => lift (num_of n)) s (HFk s L V)). intros v s' L' V'. apply D_lift; [apply num_nd|exact L'|exact V']. Qed.
Lemma D_str s : (length (toks s) <= k)%nat -> noval s -> D k (fun f => strfactor (ev w f LFactor)) s.
Proof. intros L V. apply (D_bind k k _ (fun _ n => lift (str_of n)) s (HFk s L V)). intros v s' L' V'. apply D_lift; [apply str_nd|exact L'|exact V']. Qed.
Lemma D_int s : (length (toks s) <= k)%nat -> noval s -> D k (fun f => intfactor (ev w f LFactor)) s.
Proof. intros L V. apply (D_bind k k _ (fun _ n => lift (to_int n)) s (D_real s L V)). intros v s' L' V'. apply D_lift; [apply int_nd|exact L'|exact V']. Qed.
Lemma D_strx s : (length (toks s) <= k)%nat -> noval s -> D k (fun f => strexpr (ev w f LExpr)) s.
Proof. intros L V. apply (D_bind k k _ (fun _ n => lift (str_of n)) s (HEk s L V)). intros v s' L' V'. apply D_lift; [apply str_nd|exact L'|exact V']. Qed.
Lemma D_intx s : (length (toks s) <= k)%nat -> noval s -> D (length (toks s)) (fun f => intexpr (ev w f LExpr)) s.
Proof.
  intros L V. apply (D_bind (length (toks s)) _ _ (fun _ n => lift (to_int n)) s).
  - apply (D_bind (length (toks s)) _ _ (fun _ n => lift (num_of n)) s (HE s L V)). intros v s' L' V'. apply D_lift; [apply num_nd|lia|exact V'].
  - intros v s' L' V'. apply D_lift; [apply int_nd|lia|exact V'].
Qed.
Lemma D_intxk s : (length (toks s) <= k)%nat -> noval s -> D k (fun f => intexpr (ev w f LExpr)) s.
Proof. intros L V. exact (D_le _ _ _ _ L (D_intx s L V)). Qed.
Lemma le_S_k s n : (length (toks s) <= n)%nat -> (length (toks s) <= S n)%nat. Proof. lia. Qed.
Lemma D_req p s : (length (toks s) <= k)%nat -> noval s -> D k (fun _ => require p) s.
Proof. intros L V. apply D_require; [lia|exact V]. Qed.
Lemma D_subs ds : forall j s, (length (toks s) <= k)%nat -> noval s -> D k (fun f => subscripts (intexpr (ev w f LExpr)) ds j) s.
Proof.
  induction ds as [|d ds IH]; intros j s L V; cbn [subscripts]; [apply D_ret; assumption|].
  apply (D_bind k k _ (fun f j0 => if (j0 <? 0) || (d <=? j0) then fail else bindM (match ds with [] => ret tt | _ => require is_comma end) (fun _ => subscripts (intexpr (ev w f LExpr)) ds (j * d + j0))) s (D_intxk s L V)).
  intros v s' L' V'. destruct (_ || _); [apply D_fail|]. apply (D_bind k k (fun _ => match ds with [] => ret tt | _ => require is_comma end) (fun f _ => subscripts (intexpr (ev w f LExpr)) ds (j * d + v)) s').
  - destruct ds; [apply D_ret; assumption|apply D_req; assumption].
  - intros u s2 L2 V2. apply IH; assumption.
Qed.
Lemma D_keys n : forall x s, (length (toks s) <= n)%nat -> (n <= k)%nat -> noval s ->
  exists r, r <> Deep /\ (exists f0, forall f g, (f0 <= f)%nat -> (f0 <= g)%nat -> more_keys (ev w f LExpr) g x s = r) /\ forall v s', r = Ok (v, s') -> (length (toks s') <= k)%nat /\ noval s'.
Proof.
  induction n as [|n IH]; intros x s L Ln V.
  - destruct (toks s) as [|t r] eqn:E; [|cbn in L; lia]. exists Err. split; [discriminate|]. split; [|discriminate]. exists 1%nat. intros f g _ Lg. destruct g as [|g]; [lia|]. cbn [more_keys]. rewrite E. unfold bindM, require. rewrite E. reflexivity.
  - assert (Stop : forall t r, toks s = t :: r -> t <> TComma -> exists r0, r0 <> Deep /\ (exists f0, forall f g, (f0 <= f)%nat -> (f0 <= g)%nat -> more_keys (ev w f LExpr) g x s = r0) /\ forall v s', r0 = Ok (v, s') -> (length (toks s') <= k)%nat /\ noval s').
    { intros t r E N. destruct (D_require is_rp k s ltac:(lia) V) as (q & Nq & (f0 & Eq) & Hq). specialize (Eq f0 (le_n _)).
      exists (rbind q (fun y => Ok (x, snd y))). split; [destruct q; cbn; congruence|]. split.
      - exists 1%nat. intros f g _ Lg. destruct g as [|g]; [lia|]. cbn [more_keys]. rewrite E. rewrite <- Eq. destruct t; try congruence; reflexivity.
      - intros v s' X. destruct q as [[u s1]| | | |]; try discriminate. injection X as _ <-. apply (Hq u s1 eq_refl). }
    destruct (toks s) as [|t r] eqn:E.
    { exists Err. split; [discriminate|]. split; [|discriminate]. exists 1%nat. intros f g _ Lg. destruct g as [|g]; [lia|]. cbn [more_keys]. rewrite E. unfold bindM, require. rewrite E. reflexivity. }
    destruct t; try (apply (Stop _ r eq_refl); discriminate). clear Stop. cbn [length] in L.
    assert (Vr : noval (with_toks s r)) by (intros X; apply V; rewrite E; right; exact X).
    destruct (D_intx (with_toks s r) ltac:(cbn; lia) Vr) as (q & Nq & (f0 & Eq) & Hq). destruct q as [[j s1]| | | |].
    + destruct (Hq j s1 eq_refl) as [L1 V1]. cbn [toks with_toks] in L1. destruct (IH (x ++ key_part j)%string s1 ltac:(lia) ltac:(lia) V1) as (r1 & N1 & (f1 & E1) & H1). exists r1. split; [exact N1|]. split; [|exact H1].
      exists (S (max f0 f1)). intros f g Lf Lg. destruct g as [|g]; [lia|]. cbn [more_keys]. rewrite E. unfold bindM. rewrite Eq by lia. cbn [rbind fst snd]. apply E1; lia.
    + exists Err. split; [discriminate|]. split; [|discriminate]. exists (S f0). intros f g Lf Lg. destruct g as [|g]; [lia|]. cbn [more_keys]. rewrite E. unfold bindM. rewrite Eq by lia. reflexivity.
    + exists Crash. split; [discriminate|]. split; [|discriminate]. exists (S f0). intros f g Lf Lg. destruct g as [|g]; [lia|]. cbn [more_keys]. rewrite E. unfold bindM. rewrite Eq by lia. reflexivity.
    + exists Nan. split; [discriminate|]. split; [|discriminate]. exists (S f0). intros f g Lf Lg. destruct g as [|g]; [lia|]. cbn [more_keys]. rewrite E. unfold bindM. rewrite Eq by lia. reflexivity.
    + congruence.
Qed.
Lemma D_more x s : (length (toks s) <= k)%nat -> noval s -> D k (fun f => more_keys (ev w f LExpr) f x) s.
Proof. intros L V. destruct (D_keys k x s L (le_n _) V) as (r & N & (f0 & E) & H). exists r. split; [exact N|]. split; [exists f0; intros f Lf; apply E; exact Lf|exact H]. Qed.
Lemma D_key s : (length (toks s) <= k)%nat -> noval s -> D k (fun f => get_key (ev w f LExpr) f) s.
Proof.
  intros L V. unfold get_key. apply (D_bind k k (fun _ => require is_lp) (fun f _ s => match toks s with TRp :: _ | [] => more_keys (ev w f LExpr) f "" s | _ => (let* i := intexpr (ev w f LExpr) in more_keys (ev w f LExpr) f (key_part i)) s end) s); [apply D_req; assumption|].
  intros u s1 L1 V1.
  assert (A : D k (fun f => more_keys (ev w f LExpr) f "") s1) by (apply D_more; assumption).
  assert (B : D k (fun f => let* i := intexpr (ev w f LExpr) in more_keys (ev w f LExpr) f (key_part i)) s1).
  { apply (D_bind k k _ (fun f i => more_keys (ev w f LExpr) f (key_part i)) s1 (D_intxk s1 L1 V1)). intros v s2 L2 V2. apply D_more; assumption. }
  destruct (toks s1) as [|t r] eqn:E; [refine (D_same _ _ _ s1 s1 _ A); intros f; cbv beta; rewrite E; reflexivity|].
  destruct t; first [refine (D_same _ _ _ s1 s1 _ A); intros f0; cbv beta; rewrite E; reflexivity|refine (D_same _ _ _ s1 s1 _ B); intros f0; cbv beta; rewrite E; reflexivity].
Qed.
Lemma D_find x r s : toks s = TVar x :: r -> (length r <= k)%nat -> noval s -> D k (fun f => findvar (intexpr (ev w f LExpr))) s.
Proof.
  intros E L V. assert (Vr : ~ In TVal r) by (intros X; apply V; rewrite E; right; exact X).
  assert (Sc : dims (vars s x) = [] -> D k (fun _ => fun _ : st => Ok (x, with_toks (with_cur s x scalar) r)) s).
  { intros Dx. apply D_const; [discriminate|]. intros v s' X. injection X as _ <-. split; [exact L|exact Vr]. }
  assert (Ar : dims (vars s x) <> [] -> D k (fun _ => fun _ : st => @Err (string * st)) s) by (intros _; apply D_const; discriminate).
  assert (NL : (match r with TLp :: _ => False | _ => True end) -> D k (fun f => findvar (intexpr (ev w f LExpr))) s).
  { intros N. destruct (dims (vars s x)) as [|d ds] eqn:Dx.
    - refine (D_same _ _ _ s s _ (Sc eq_refl)). intros f. unfold findvar. rewrite E. destruct r as [|[]]; try (rewrite Dx; reflexivity). destruct N.
    - refine (D_same _ _ _ s s _ (Ar ltac:(discriminate))). intros f. unfold findvar. rewrite E. destruct r as [|[]]; try (rewrite Dx; reflexivity). destruct N. }
  destruct r as [|t r']; [apply NL; exact I|]. destruct t; try (apply NL; exact I). clear NL Sc Ar. cbn [length] in L.
  set (s0 := match dims (vars s x) with [] => rbind (count_dims (S (length (TLp :: r'))) 0 (TLp :: r')) (fun n => Ok (dimension s x (repeat 11 (Z.to_nat n)))) | _ => Ok s end).
  assert (N0 : s0 <> Deep).
  { unfold s0. destruct (dims (vars s x)); [|discriminate]. pose proof (count_ends (S (length (TLp :: r'))) 0 (TLp :: r') ltac:(cbn; lia)) as C. destruct (count_dims _ _ _); cbn; congruence. }
  destruct s0 as [s1| | | |] eqn:E0.
  - assert (In1 : D k (fun f => let* j := subscripts (intexpr (ev w f LExpr)) (dims (vars s1 x)) 0 in let* _ := require is_rp in fun s => Ok (x, with_cur s x j)) (with_toks s1 r')).
    { apply (D_bind k k _ (fun f j => let* _ := require is_rp in fun s => Ok (x, with_cur s x j)) (with_toks s1 r')).
      - apply D_subs; [cbn; lia|]. intros X. apply Vr. right. exact X.
      - intros j s2 L2 V2. apply (D_bind k k (fun _ => require is_rp) (fun _ _ s => Ok (x, with_cur s x j)) s2 (D_req _ s2 L2 V2)). intros u s3 L3 V3. apply D_const; [discriminate|]. intros v s' X. injection X as _ <-. split; [exact L3|exact V3]. }
    refine (D_same _ _ _ s (with_toks s1 r') _ In1). intros f. unfold findvar. rewrite E. fold s0. rewrite E0. reflexivity.
  - apply (D_same _ _ (fun _ => fail) s s); [|apply D_fail]. intros f. unfold findvar. rewrite E. fold s0. rewrite E0. reflexivity.
  - apply (D_same _ _ (fun _ _ => Crash) s s); [|apply D_const; discriminate]. intros f. unfold findvar. rewrite E. fold s0. rewrite E0. reflexivity.
  - apply (D_same _ _ (fun _ _ => Nan) s s); [|apply D_const; discriminate]. intros f. unfold findvar. rewrite E. fold s0. rewrite E0. reflexivity.
  - congruence.
Qed.
Lemma D_text g s : (length (toks s) <= k)%nat -> noval s -> D k (fun f => text_call (ev w f LFactor) g) s.
Proof.
  intros L V. unfold text_call. apply (D_bind k k (fun _ => require is_lp) (fun f _ => let* s := strfactor (ev w f LFactor) in let* _ := require is_rp in ret (g s)) s (D_req _ s L V)). intros u s1 L1 V1.
  apply (D_bind k k _ (fun f x => let* _ := require is_rp in ret (g x)) s1 (D_str s1 L1 V1)). intros x s2 L2 V2. apply (D_bind k k (fun _ => require is_rp) (fun _ _ => ret (g x)) s2 (D_req _ s2 L2 V2)). intros u' s3 L3 V3. apply D_ret; assumption.
Qed.
Lemma D_factor s : (length (toks s) <= S k)%nat -> noval s -> D k (fun f => ev w f LFactor) s.
Proof.
  intros L V. cut (D k (fun f => factor w (ev w f LExpr) (ev w f LFactor) f) s).
  { intros (r & N & E & H). exists r. split; [exact N|]. split; [exact (runs_factor w s r E)|exact H]. }
  destruct (toks s) as [|t r] eqn:E.
  { apply (D_same _ _ (fun _ => fail) s s); [|apply D_fail]. intros f. unfold factor. rewrite E. reflexivity. }
  cbn [length] in L. assert (Lr : (length (toks (with_toks s r)) <= k)%nat) by (cbn; lia).
  assert (Vr : noval (with_toks s r)) by (intros X; apply V; rewrite E; right; exact X).
  assert (RE : forall g : Q -> res value, (forall q, g q <> Deep) -> D k (fun f => bindM (realfactor (ev w f LFactor)) (fun q => lift (g q))) (with_toks s r)).
  { intros g Ng. apply (D_bind k k _ (fun _ q => lift (g q)) _ (D_real _ Lr Vr)). intros v s' L' V'. apply D_lift; [apply Ng|exact L'|exact V']. }
  assert (SE : forall g : string -> res value, (forall q, g q <> Deep) -> D k (fun f => bindM (strfactor (ev w f LFactor)) (fun q => lift (g q))) (with_toks s r)).
  { intros g Ng. apply (D_bind k k _ (fun _ q => lift (g q)) _ (D_str _ Lr Vr)). intros v s' L' V'. apply D_lift; [apply Ng|exact L'|exact V']. }
  assert (IE : forall g : Z -> res value, (forall q, g q <> Deep) -> D k (fun f => bindM (intfactor (ev w f LFactor)) (fun q => lift (g q))) (with_toks s r)).
  { intros g Ng. apply (D_bind k k _ (fun _ q => lift (g q)) _ (D_int _ Lr Vr)). intros v s' L' V'. apply D_lift; [apply Ng|exact L'|exact V']. }
  assert (Stop : (forall f, factor w (ev w f LExpr) (ev w f LFactor) f s = Err) -> D k (fun f => factor w (ev w f LExpr) (ev w f LFactor) f) s).
  { intros X. exact (D_same _ _ (fun _ => fail) s s X (D_fail _ _)). }
  assert (At : forall v, (forall f, factor w (ev w f LExpr) (ev w f LFactor) f s = Ok (v, with_toks s r)) -> D k (fun f => factor w (ev w f LExpr) (ev w f LFactor) f) s).
  { intros v X. exact (D_same _ _ (fun _ => ret v) s (with_toks s r) X (D_ret v k (with_toks s r) Lr Vr)). }
  destruct t; try (apply Stop; intros f0; unfold factor; rewrite E; reflexivity).
  all: try (eapply At; intros f0; unfold factor; rewrite E; reflexivity).
  (* one argument *)
  all: try (refine (D_same _ _ _ s (with_toks s r) _ (RE (fun q => Ok _) _)); [intros f0; unfold factor; rewrite E; reflexivity|discriminate]).
  all: try (refine (D_same _ _ _ s (with_toks s r) _ (SE (fun q => Ok _) _)); [intros f0; unfold factor; rewrite E; reflexivity|discriminate]).
  all: try (refine (D_same _ _ _ s (with_toks s r) _ (IE (fun q => Ok _) _)); [intros f0; unfold factor; rewrite E; reflexivity|discriminate]).
  all: try (refine (D_same _ _ _ s (with_toks s r) _ (D_text _ (with_toks s r) Lr Vr)); intros f0; unfold factor; rewrite E; reflexivity).
  all: try (exfalso; apply V; rewrite E; left; reflexivity).
  - (* a variable *)
    refine (D_same _ _ (fun f => bindM (findvar (intexpr (ev w f LExpr))) (fun x s => Ok (fetch s x, s))) s s _ _); [intros f0; unfold factor; rewrite E; reflexivity|].
    refine (D_bind k k _ (fun _ x s => Ok (fetch s x, s)) s (D_find x r s E ltac:(lia) V) _). intros y s' L' V'. apply D_const; [discriminate|]. intros v s2 X. injection X as _ <-. auto.
  - refine (D_same _ _ (fun f => bindM (ev w f LExpr) (fun n => bindM (require is_rp) (fun _ => ret n))) s (with_toks s r) _ _); [intros f0; unfold factor; rewrite E; reflexivity|].
    refine (D_bind k k _ (fun _ n => bindM (require is_rp) (fun _ => ret n)) _ (HEk _ Lr Vr) _). intros v s' L' V'. refine (D_bind k k (fun _ => require is_rp) (fun _ _ => ret v) s' (D_req _ _ L' V') _). intros u s2 L2 V2. apply D_ret; assumption.
  - refine (D_same _ _ _ s (with_toks s r) _ (RE (fun q => match real w f q with Some x => Ok (VNum x) | None => Nan end) _)); [intros f0; unfold factor; rewrite E; reflexivity|]. intros q. destruct (real w f q); discriminate.
  - pose (third := fun (x : string) (f : nat) => (fun s => match toks s with TComma :: r => intexpr (ev w f LExpr) (with_toks s r) | _ => Ok (slength x, s) end) : M Z).
    pose (k3 := fun (x : string) (i : Z) (f : nat) (j : Z) => bindM (lift (substr x i j)) (fun y => bindM (require is_rp) (fun _ => ret (VStr y)))).
    pose (k2 := fun (x : string) (f : nat) (i : Z) => bindM (third x f) (k3 x i f)).
    pose (k1 := fun (f : nat) (x : string) => bindM (require is_comma) (fun _ => bindM (intexpr (ev w f LExpr)) (k2 x f))).
    refine (D_same _ _ (fun f => bindM (require is_lp) (fun _ => bindM (strexpr (ev w f LExpr)) (k1 f))) s (with_toks s r) _ _); [intros f0; unfold factor; rewrite E; reflexivity|].
    refine (D_bind k k (fun _ => require is_lp) (fun f _ => bindM (strexpr (ev w f LExpr)) (k1 f)) _ (D_req _ _ Lr Vr) _). intros _ s1 L1 V1.
    refine (D_bind k k _ k1 _ (D_strx _ L1 V1) _). intros x s2 L2 V2. unfold k1. refine (D_bind k k (fun _ => require is_comma) (fun f _ => bindM (intexpr (ev w f LExpr)) (k2 x f)) _ (D_req _ _ L2 V2) _). intros _ s3 L3 V3.
    refine (D_bind k k _ (k2 x) _ (D_intxk _ L3 V3) _). intros i s4 L4 V4. unfold k2. refine (D_bind k k _ (k3 x i) _ _ _).
    + unfold third. destruct (toks s4) as [|t r4] eqn:E4.
      * refine (D_same _ _ (fun _ => ret (slength x)) s4 s4 _ (D_ret _ _ _ _ V4)); [intros f0; rewrite E4; reflexivity|rewrite E4; cbn; lia].
      * assert (L4' : (length (toks s4) <= k)%nat) by (rewrite E4; exact L4). destruct t; try (refine (D_same _ _ (fun _ => ret (slength x)) s4 s4 _ (D_ret _ _ _ L4' V4)); intros f0; rewrite E4; reflexivity).
        refine (D_same _ _ (fun f => intexpr (ev w f LExpr)) s4 (with_toks s4 r4) _ (D_intxk _ _ _)); [intros f0; rewrite E4; reflexivity|cbn in *; lia|]. intros X. apply V4. rewrite E4. right. exact X.
    + intros j s5 L5 V5. unfold k3. refine (D_bind k k _ (fun _ y => bindM (require is_rp) (fun _ => ret (VStr y))) _ (D_lift _ k s5 (substr_nd x i j) L5 V5) _). intros y s6 L6 V6.
      refine (D_bind k k (fun _ => require is_rp) (fun _ _ => ret (VStr y)) _ (D_req _ _ L6 V6) _). intros _ s7 L7 V7. apply D_ret; assumption.
  - refine (D_same _ _ (fun f => bindM (require is_lp) (fun _ => bindM (strfactor (ev w f LFactor)) (fun a => bindM (require is_comma) (fun _ => bindM (strfactor (ev w f LFactor)) (fun b => bindM (require is_rp) (fun _ => ret (VNum (inject_Z (find_text 0 b a))))))))) s (with_toks s r) _ _); [intros f0; unfold factor; rewrite E; reflexivity|].
    refine (D_bind k k (fun _ => require is_lp) (fun f _ => bindM (strfactor (ev w f LFactor)) (fun a => bindM (require is_comma) (fun _ => bindM (strfactor (ev w f LFactor)) (fun b => bindM (require is_rp) (fun _ => ret (VNum (inject_Z (find_text 0 b a)))))))) _ (D_req _ _ Lr Vr) _). intros _ s1 L1 V1.
    refine (D_bind k k _ (fun f a => bindM (require is_comma) (fun _ => bindM (strfactor (ev w f LFactor)) (fun b => bindM (require is_rp) (fun _ => ret (VNum (inject_Z (find_text 0 b a))))))) _ (D_str _ L1 V1) _). intros a s2 L2 V2.
    refine (D_bind k k (fun _ => require is_comma) (fun f _ => bindM (strfactor (ev w f LFactor)) (fun b => bindM (require is_rp) (fun _ => ret (VNum (inject_Z (find_text 0 b a)))))) _ (D_req _ _ L2 V2) _). intros _ s3 L3 V3.
    refine (D_bind k k _ (fun f b => bindM (require is_rp) (fun _ => ret (VNum (inject_Z (find_text 0 b a))))) _ (D_str _ L3 V3) _). intros b s4 L4 V4.
    refine (D_bind k k (fun _ => require is_rp) (fun f _ => ret (VNum (inject_Z (find_text 0 b a)))) _ (D_req _ _ L4 V4) _). intros _ s5 L5 V5. apply D_ret; assumption.
  - refine (D_same _ _ (fun f => bindM (get_key (ev w f LExpr) f) (fun q s => Ok (VNum (match saved s q with Some q => q | None => 0 end), s))) s (with_toks s r) _ _); [intros f0; unfold factor; rewrite E; reflexivity|].
    refine (D_bind k k _ (fun _ q s => Ok (VNum (match saved s q with Some q => q | None => 0 end), s)) _ (D_key _ Lr Vr) _). intros q s1 L1 V1. apply D_const; [discriminate|]. intros v s2 X. injection X as _ <-. auto.
  - refine (D_same _ _ (fun f => bindM (get_key (ev w f LExpr) f) (fun q s => match texts s q with Some x => if 256 <=? slength x then Crash else Ok (VStr x, s) | None => Ok (VStr "unknown", s) end)) s (with_toks s r) _ _); [intros f0; unfold factor; rewrite E; reflexivity|].
    refine (D_bind k k _ (fun _ q s => match texts s q with Some x => if 256 <=? slength x then Crash else Ok (VStr x, s) | None => Ok (VStr "unknown", s) end) _ (D_key _ Lr Vr) _). intros q s1 L1 V1. apply D_const.
    + destruct (texts s1 q); [destruct (_ <=? _)|]; discriminate.
    + intros v s2 X. destruct (texts s1 q); [destruct (_ <=? _); [discriminate|]|]; injection X as _ <-; auto.
Qed.
End Step.
(** All levels, by the number of tokens. *)
Theorem ev_ends k : forall n s, (n <= 6)%nat -> (length (toks s) <= k)%nat -> noval s -> D (pred (length (toks s))) (fun f => ev w f (lv n)) s.
Proof.
  induction k as [k IH] using lt_wf_ind. intros n s Ln L V.
  assert (Less : forall m s', (m <= 6)%nat -> (length (toks s') < length (toks s))%nat -> noval s' -> D (length (toks s')) (fun f => ev w f (lv m)) s').
  { intros m s' Lm L' V'. apply (D_le (pred (length (toks s')))); [lia|]. exact (IH (length (toks s')) ltac:(lia) m s' Lm (le_n _) V'). }
  assert (F6 : D (pred (length (toks s))) (fun f => ev w f LFactor) s).
  { destruct (toks s) as [|t r] eqn:E.
    - exists Err. split; [discriminate|]. split; [|discriminate]. exists 1%nat. intros f Lf. destruct f as [|f]; [lia|]. cbn [ev]. unfold factor. rewrite E. reflexivity.
    - cbn [length pred]. apply D_factor.
      + intros s' L' V'. apply (Less 0%nat); [lia|cbn; lia|exact V'].
      + intros s' L' V'. apply (Less 6%nat); [lia|cbn; lia|exact V'].
      + rewrite E. cbn. lia.
      + exact V. }
  remember (6 - n)%nat as d eqn:Hd. revert n Ln Hd. induction d as [|d IHd]; intros n Ln Hd.
  - replace n with 6%nat by lia. exact F6.
  - apply D_level; [lia|exact V| |].
    + apply IHd; lia.
    + intros s' L' V'. apply Less; [|exact L'|exact V']. destruct n as [|[|[|[|[|[|]]]]]]; cbn; lia.
Qed.
End W.

(** ** The whole statement *)
Lemma written_noval e : ~ In TVal (written e).
Proof.
  revert e.
  assert (P : forall n e, ~ In TVal (written e) -> ~ In TVal (part n e)).
  { intros n e H. unfold part. destruct (Nat.leb n (tightness e)); [exact H|]. intros [X|X]; [discriminate|]. apply in_app_or in X. destruct X as [X|[X|[]]]; [exact (H X)|discriminate]. }
  assert (Sp : forall l, Forall (fun e => ~ In TVal (written e)) l -> ~ In TVal (separated (map written l))).
  { induction 1 as [|a l Ha Hl IH]; [intros []|]. destruct l as [|b l]; [exact Ha|]. change (separated (map written (a :: b :: l))) with (written a ++ TComma :: separated (map written (b :: l))).
    intros X. apply in_app_or in X. destruct X as [X|[X|X]]; [exact (Ha X)|discriminate|exact (IH X)]. }
  induction e using ex_induct.
  - intros [X|[]]; discriminate.
  - intros [X|[]]; discriminate.
  - intros [X|[]]; discriminate.
  - intros [X|[X|X]]; try discriminate. apply in_app_or in X. destruct X as [X|[X|[]]]; [exact (Sp l H X)|discriminate].
  - intros [X|[]]; discriminate.
  - rewrite written_un. intros [X|X]; [destruct u; discriminate|]. exact (P 6%nat e IHe X).
  - rewrite written_bin. intros X. destruct o; apply in_app_or in X; (destruct X as [X|[X|X]]; [exact (P _ _ IHe1 X)|discriminate|exact (P _ _ IHe2 X)]).
  - change (written (Instr e1 e2)) with (TInstr :: TLp :: part 6 e1 ++ TComma :: part 6 e2 ++ [TRp]). intros [X|[X|X]]; try discriminate. apply in_app_or in X. destruct X as [X|[X|X]]; [exact (P _ _ IHe1 X)|discriminate|].
    apply in_app_or in X. destruct X as [X|[X|[]]]; [exact (P _ _ IHe2 X)|discriminate].
  - change (written (Trim k e)) with (trim_token k :: TLp :: part 6 e ++ [TRp]). intros [X|[X|X]]; [destruct k; discriminate|discriminate|]. apply in_app_or in X. destruct X as [X|[X|[]]]; [exact (P _ _ IHe X)|discriminate].
  - cbn [written]. intros [X|X]; [discriminate|]. apply in_app_or in X. destruct X as [X|[X|[]]]; [exact (IHe X)|discriminate].
  - intros [X|[X|X]]; try discriminate. apply in_app_or in X. destruct X as [X|[X|[]]]; [exact (Sp l H X)|discriminate].
  - intros [X|[X|X]]; try discriminate. apply in_app_or in X. destruct X as [X|[X|[]]]; [exact (Sp l H X)|discriminate].
  - cbn [written]. intros [X|[X|X]]; try discriminate. apply in_app_or in X. destruct X as [X|[X|X]]; [exact (IHe1 X)|discriminate|]. apply in_app_or in X. destruct X as [X|[X|X]]; [exact (IHe2 X)|discriminate|].
    apply in_app_or in X. destruct X as [X|[X|[]]]; [exact (IHe3 X)|discriminate].
Qed.
Lemma den_nd w vs sv tx e : well_used vs e -> den w vs sv tx e <> Deep.
Proof.
  intros U E. pose proof (good_at0 w vs sv tx e U (all_good w vs sv tx e) [] I (fun _ => 0)) as H. rewrite E in H. destruct H as [f0 H].
  destruct (ev_ends w _ 0%nat (mk vs sv tx (written e ++ []) (fun _ => 0)) ltac:(lia) (le_n _)) as (r & N & (f1 & E1) & _).
  { intros X. cbn [toks mk] in X. rewrite app_nil_r in X. exact (written_noval e X). }
  apply N. rewrite <- (E1 (max f0 f1)) by lia. apply H. lia.
Qed.
Theorem meaning w s e rest : toks s = written e ++ rest -> well_used (vars s) e -> ends rest ->
  match den w (vars s) (saved s) (texts s) e with
  | Ok v => exists s', evaluates w s (Ok (v, s')) /\ toks s' = rest /\ same_but_cur s s'
  | Err => evaluates w s Err
  | Crash => evaluates w s Crash
  | Nan => evaluates w s Nan
  | Deep => False
  end.
Proof.
  intros T U R. destruct s as [t vs c sv tx]. cbn [toks vars saved texts] in *. subst t.
  pose proof (good_at0 w vs sv tx e U (all_good w vs sv tx e) rest R c) as H. pose proof (den_nd w vs sv tx e U) as N.
  destruct (den w vs sv tx e) as [v| | | |].
  - destruct H as [c' H]. exists (mk vs sv tx rest c'). split; [split; [discriminate|exact H]|]. split; [reflexivity|]. repeat split.
  - split; [discriminate|exact H].
  - split; [discriminate|exact H].
  - split; [discriminate|exact H].
  - congruence.
Qed.

(** ** First use of an array *)
Definition sk (t : list tok) : res (list tok) := skipparen (S (length t)) t.
Lemma skip_fuel f g t : (length t < f)%nat -> (length t < g)%nat -> skipparen f t = skipparen g t.
Proof.
  revert g t. induction f as [|f IH]; intros g t A B; [lia|]. destruct g as [|g]; [lia|]. cbn [skipparen]. destruct t as [|x r]; [reflexivity|]. cbn [length] in *.
  destruct (is_rp x || is_comma x); [reflexivity|]. rewrite (IH g r) by lia. destruct (is_lp x); [|reflexivity].
  destruct (skipparen g r) as [u| | | |] eqn:E; try reflexivity. cbn [rbind]. destruct (skip_ends g r ltac:(lia)) as [_ X]. destruct (X u E) as [X1 X2]. apply IH; destruct u; cbn in *; lia.
Qed.
Lemma sk_cons x r : sk (x :: r) = if is_rp x || is_comma x then Ok (x :: r) else if is_lp x then rbind (sk r) (fun u => sk (tl u)) else sk r.
Proof.
  assert (E1 : sk (x :: r) = if is_rp x || is_comma x then Ok (x :: r) else if is_lp x then rbind (skipparen (S (length r)) r) (fun u => skipparen (S (length r)) (tl u)) else skipparen (S (length r)) r) by reflexivity.
  rewrite E1. destruct (is_rp x || is_comma x); [reflexivity|]. destruct (is_lp x); [|reflexivity].
  change (skipparen (S (length r)) r) with (sk r). destruct (sk r) as [u| | | |] eqn:E; try reflexivity. cbn [rbind]. destruct (skip_ends (S (length r)) r ltac:(lia)) as [_ X]. destruct (X u E) as [X1 X2]. apply skip_fuel; destruct u; cbn in *; lia.
Qed.
Lemma sk_written e : comma_free e -> forall rest, sk (written e ++ rest) = sk rest.
Proof.
  revert e.
  assert (Paren : forall e, (forall rest, sk (written e ++ rest) = sk rest) -> forall rest, sk (TLp :: written e ++ TRp :: rest) = sk rest).
  { intros e H rest. rewrite sk_cons. cbn [is_rp is_comma is_lp orb]. rewrite H. rewrite sk_cons. cbn. reflexivity. }
  assert (P : forall n e, (comma_free e -> forall rest, sk (written e ++ rest) = sk rest) -> ~ In TComma (part n e) -> forall rest, sk (part n e ++ rest) = sk rest).
  { intros n e H N rest. unfold part in *. destruct (Nat.leb n (tightness e)); [apply H; exact N|]. cbn [app]. rewrite <- app_assoc. apply Paren. apply H. intros X. apply N. right. apply in_or_app. left. exact X. }
  assert (Sg : forall t rest, is_rp t = false -> is_comma t = false -> is_lp t = false -> sk (t :: rest) = sk rest).
  { intros t rest A B C. rewrite sk_cons, A, B, C. reflexivity. }
  assert (Ls : forall l rest, Forall (fun e => comma_free e -> forall rest, sk (written e ++ rest) = sk rest) l -> ~ In TComma (separated (map written l)) -> sk (TLp :: separated (map written l) ++ TRp :: rest) = sk rest).
  { intros l rest H N. destruct l as [|a [|b l]].
    - cbn [map separated app]. rewrite sk_cons. cbn [is_rp is_comma is_lp orb]. rewrite sk_cons. reflexivity.
    - cbn [map separated]. apply Paren. inversion H; subst. auto.
    - exfalso. apply N. change (separated (map written (a :: b :: l))) with (written a ++ TComma :: separated (map written (b :: l))). apply in_or_app. right. left. reflexivity. }
  unfold comma_free. induction e using ex_induct; intros N rest.
  - apply Sg; reflexivity.
  - apply Sg; reflexivity.
  - apply Sg; reflexivity.
  - cbn [written app]. rewrite <- app_assoc. rewrite Sg by reflexivity. apply Ls; [exact H|]. intros X. apply N. right. right. apply in_or_app. left. exact X.
  - apply Sg; reflexivity.
  - rewrite written_un in *. cbn [app]. rewrite Sg by (destruct u; reflexivity). apply P; [exact IHe|]. intros X. apply N. right. exact X.
  - rewrite written_bin in *. destruct o; rewrite <- app_assoc; cbn [app]; (rewrite P; [|exact IHe1|intros X; apply N; apply in_or_app; left; exact X]); rewrite Sg by reflexivity; (rewrite P; [reflexivity|exact IHe2|intros X; apply N; apply in_or_app; right; right; exact X]).
  - exfalso. apply N. right. right. apply in_or_app. right. left. reflexivity.
  - change (written (Trim k e)) with (trim_token k :: TLp :: part 6 e ++ [TRp]) in *. cbn [app]. rewrite <- app_assoc. rewrite Sg by (destruct k; reflexivity). rewrite sk_cons. cbn [is_rp is_comma is_lp orb].
    rewrite P; [|exact IHe|intros X; apply N; right; right; apply in_or_app; left; exact X]. cbn [app]. rewrite sk_cons. reflexivity.
  - cbn [written app]. rewrite <- app_assoc. apply Paren. apply IHe. intros X. apply N. right. apply in_or_app. left. exact X.
  - cbn [written app]. rewrite <- app_assoc. rewrite Sg by reflexivity. apply Ls; [exact H|]. intros X. apply N. right. right. apply in_or_app. left. exact X.
  - cbn [written app]. rewrite <- app_assoc. rewrite Sg by reflexivity. apply Ls; [exact H|]. intros X. apply N. right. right. apply in_or_app. left. exact X.
  - exfalso. apply N. right. right. apply in_or_app. right. left. reflexivity.
Qed.
Lemma count_written l : Forall comma_free l -> l <> [] -> forall fuel i t rest, (length (t :: separated (map written l) ++ TRp :: rest) < fuel)%nat -> 0 <= i ->
  count_dims fuel i (t :: separated (map written l) ++ TRp :: rest) = if i + Z.of_nat (length l) <=? maxdims then Ok (i + Z.of_nat (length l)) else Err.
Proof.
  induction 1 as [|a l Ha Hl IH]; intros Nl fuel i t rest L Li; [congruence|]. destruct fuel as [|fuel]; [lia|]. cbn [count_dims tl]. unfold maxdims in *.
  destruct (4 <=? i) eqn:B. { destruct (_ <=? 4) eqn:C; [apply Z.leb_le in C; apply Z.leb_le in B; cbn [length] in C; lia|reflexivity]. }
  apply Z.leb_gt in B.
  assert (F : forall u, (length u < length (t :: u))%nat) by (intros; cbn; lia).
  destruct l as [|b l].
  - cbn [map separated] in *. rewrite (skip_fuel _ (S (length (written a ++ TRp :: rest)))) by (cbn [length]; lia). change (skipparen (S (length (written a ++ TRp :: rest))) (written a ++ TRp :: rest)) with (sk (written a ++ TRp :: rest)).
    rewrite sk_written by exact Ha. rewrite sk_cons. cbn [is_rp is_comma orb rbind length]. replace (i + Z.of_nat 1 <=? 4) with true by (symmetry; apply Z.leb_le; lia). f_equal.
  - change (separated (map written (a :: b :: l))) with (written a ++ TComma :: separated (map written (b :: l))) in *. rewrite <- app_assoc in *. cbn [app] in *.
    rewrite (skip_fuel _ (S (length (written a ++ TComma :: separated (map written (b :: l)) ++ TRp :: rest)))) by (cbn [length]; lia).
    change (skipparen (S (length (written a ++ TComma :: separated (map written (b :: l)) ++ TRp :: rest))) (written a ++ TComma :: separated (map written (b :: l)) ++ TRp :: rest)) with (sk (written a ++ TComma :: separated (map written (b :: l)) ++ TRp :: rest)).
    rewrite sk_written by exact Ha. rewrite sk_cons. cbn [is_rp is_comma orb rbind]. rewrite IH; [|discriminate| |lia].
    + replace (i + 1 + Z.of_nat (length (b :: l))) with (i + Z.of_nat (length (a :: b :: l))) by (cbn [length]; lia). reflexivity.
    + cbn [length] in *. rewrite app_length in L. cbn [length] in *. lia.
Qed.
Definition first_use (s : st) (x : string) (n : nat) : st := dimension s x (repeat 11 n).
Lemma first_find ie s x l rest : toks s = written (Elem x l) ++ rest -> dims (vars s x) = [] -> Forall comma_free l -> (1 <= length l <= 4)%nat -> findvar ie s = findvar ie (first_use s x (length l)).
Proof.
  intros T D0 F L. assert (T' : toks s = TVar x :: TLp :: separated (map written l) ++ TRp :: rest) by (rewrite T; cbn [written app]; rewrite <- app_assoc; reflexivity).
  unfold findvar at 1. rewrite T', D0. rewrite count_written; [|exact F|destruct l; [cbn in L; lia|discriminate]|lia|lia].
  replace (0 + Z.of_nat (length l) <=? maxdims) with true by (symmetry; apply Z.leb_le; unfold maxdims; lia). cbn [rbind]. replace (Z.to_nat (0 + Z.of_nat (length l))) with (length l) by lia.
  assert (Dx : dims (vars (first_use s x (length l)) x) = repeat 11 (length l)) by (unfold first_use, dimension, with_var; cbn [vars]; unfold set; rewrite String.eqb_refl; reflexivity).
  unfold findvar. change (toks (first_use s x (length l))) with (toks s). rewrite T', Dx. unfold first_use in *. rewrite Dx. destruct (length l) as [|n]; [lia|]. cbn [repeat rbind]. cbn [repeat] in Dx. rewrite Dx. reflexivity.
Qed.
Lemma first_ev w s x l rest : toks s = written (Elem x l) ++ rest -> dims (vars s x) = [] -> Forall comma_free l -> (1 <= length l <= 4)%nat ->
  forall n f, (n <= 6)%nat -> ev w f (lv n) s = ev w f (lv n) (first_use s x (length l)).
Proof.
  intros T D0 F L n. remember (6 - n)%nat as d eqn:Hd. revert n Hd. induction d as [|d IH]; intros n Hd f Ln.
  - replace n with 6%nat by lia. destruct f as [|f]; [reflexivity|]. cbn [ev lv]. unfold factor. change (toks (first_use s x (length l))) with (toks s). rewrite T. cbn [written app].
    unfold bindM. rewrite (first_find _ s x l rest T D0 F L). reflexivity.
  - destruct f as [|f]; [reflexivity|]. rewrite !ev_level by lia. rewrite (IH (S n)) by lia. reflexivity.
Qed.
