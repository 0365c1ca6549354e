(** Lemmas for C76: expressions and simple statements. *)
From Coq Require Import String Ascii List ZArith QArith Qround Qabs Bool Lia Lqa.
From Verif Require Import CStr_Model CNum_Model Qx Basic_Model Basic_Spec Basic_Proofs Basic2_Proofs Prog_Model Prog_Spec.
Import ListNotations.
Local Open Scope string_scope.
Local Open Scope list_scope.
Local Open Scope Z_scope.

Definition EVP {A} (p : nat -> P A) (m : mach) (r : res (A * mach)) : Prop := exists f0, forall f, (f0 <= f)%nat -> p f m = r.
Lemma PB {A B} (p : nat -> P A) (k : nat -> A -> P B) m a m1 r : EVP p m (Ok (a, m1)) -> EVP (fun f => k f a) m1 r -> EVP (fun f => pbind (p f) (k f)) m r.
Proof. intros (f1 & H1) (f2 & H2). exists (max f1 f2). intros f L. unfold pbind. rewrite H1 by lia. cbn [rbind fst snd]. apply H2. lia. Qed.
Lemma PC {A} (p : P A) m r : p m = r -> EVP (fun _ => p) m r.
Proof. intros H. exists 0%nat. intros; exact H. Qed.
Lemma PA {A} (p : nat -> P A) m r : (forall f, p f m = r) -> EVP p m r.
Proof. intros H. exists 0%nat. intros; apply H. Qed.
Lemma PS {A} (p p' : nat -> P A) m m' r : (forall f, p f m = p' f m') -> EVP p' m' r -> EVP p m r.
Proof. intros H (f0 & E). exists f0. intros f L. rewrite H. apply E. exact L. Qed.
Lemma P_on {A} (e : nat -> M A) m a s' : EV e (base m) (Ok (a, s')) -> EVP (fun f => on (e f)) m (Ok (a, with_base m s')).
Proof. intros (f0 & H). exists f0. intros f L. unfold on. rewrite H by exact L. reflexivity. Qed.

Section W.
Variables (w : world) (PR : list line).
Definition mm (p : pos) (s : memory) (L : list loop) (c : string -> Z) (d : list tok * list line) : mach :=
  mkMach (mkSt (fst p) (vs s) c (sv s) (tx s)) PR (snd p) L (snd d) (fst d) (outp s).

(** ** One step *)
Lemma step_stmt t r h s L c d fl m' : t <> TColon -> EVP (fun f => stmt w f t) (mm (r, h) s L c d) (Ok (fl, m')) ->
  match fl with Plain => eos (rest m') = true | Open => True | _ => False end -> reaches w (mm (t :: r, h) s L c d) m'.
Proof.
  intros N (f0 & H) F. apply r_step with m'; [|apply r_here]. exists f0. intros f Lf. specialize (H f Lf). unfold step. cbn [rest mm base toks fst].
  assert (E : match stmt w f t (to (mm (t :: r, h) s L c d) r) with
              | Ok (Plain, m) => if eos (rest m) then Go m else Fails | Ok (Open, m) => Go m | Ok (Break, m) => Broken m | Ok (Unknown, _) => Unmodelled
              | Err => Fails | Crash => Faults | Nan => NotNum | Deep => TooDeep end = Go m').
  { change (to (mm (t :: r, h) s L c d) r) with (mm (r, h) s L c d). rewrite H. destruct fl; try (destruct F; fail); [rewrite F|]; reflexivity. }
  destruct t; try exact E. congruence.
Qed.
Lemma reach_trans a b c : reaches w a b -> reaches w b c -> reaches w a c.
Proof. induction 1; [auto|]. intros X. econstructor; eauto. Qed.
Lemma next_reach p q s L c d : next_stmt p q -> reaches w (mm p s L c d) (mm q s L c d).
Proof.
  induction 1 as [t h|l n t r|p q r _ IH1 _ IH2].
  - apply r_step with (mm (t, h) s L c d); [|apply r_here]. exists 0%nat. intros f _. reflexivity.
  - apply r_step with (mm (t, (n, t) :: r) s L c d); [|apply r_here]. exists 0%nat. intros f _. reflexivity.
  - eapply reach_trans; eassumption.
Qed.
Lemma eos_ends r : eos r = true -> ends r.
Proof. destruct r as [|t r]; [reflexivity|]. destruct t; try discriminate; reflexivity. Qed.

(** ** Expressions *)
Lemma good_all s e : Good w (vs s) (sv s) (tx s) e.
Proof. apply all_good. Qed.
Lemma at_expr s e v r c : value_in w s e v -> ends r -> exists c', EV (fun f => ev w f LExpr) (mkSt (written e ++ r) (vs s) c (sv s) (tx s)) (Ok (v, mkSt r (vs s) c' (sv s) (tx s))).
Proof. intros [U D] R. pose proof (good_at0 w (vs s) (sv s) (tx s) e U (good_all s e) r R c) as H. rewrite D in H. exact H. Qed.
Lemma p_val s e v r h L c d : value_in w s e v -> ends r -> exists c', EVP (fun f => on (expr w f)) (mm (written e ++ r, h) s L c d) (Ok (v, mm (r, h) s L c' d)).
Proof. intros V R. destruct (at_expr s e v r c V R) as [c' H]. exists c'. exact (P_on (fun f => expr w f) (mm (written e ++ r, h) s L c d) _ _ H). Qed.
Lemma p_real s e q r h L c d : value_in w s e (VNum q) -> ends r -> exists c', EVP (fun f => realx w f) (mm (written e ++ r, h) s L c d) (Ok (q, mm (r, h) s L c' d)).
Proof.
  intros V R. destruct (at_expr s e _ r c V R) as [c' H]. exists c'. refine (P_on (fun f => realexpr (expr w f)) _ _ _ _).
  refine (EV_bind _ (fun _ n => lift (num_of n)) _ _ _ _ H _). apply EV_const. reflexivity.
Qed.
Lemma p_str s e x r h L c d : value_in w s e (VStr x) -> ends r -> exists c', EVP (fun f => strx w f) (mm (written e ++ r, h) s L c d) (Ok (x, mm (r, h) s L c' d)).
Proof.
  intros V R. destruct (at_expr s e _ r c V R) as [c' H]. exists c'. refine (P_on (fun f => strexpr (expr w f)) _ _ _ _).
  refine (EV_bind _ (fun _ n => lift (str_of n)) _ _ _ _ H _). apply EV_const. reflexivity.
Qed.
Lemma at_int s e z r c : whole_in w s e z -> ends r -> exists c', EV (fun f => intexpr (ev w f LExpr)) (mkSt (written e ++ r) (vs s) c (sv s) (tx s)) (Ok (z, mkSt r (vs s) c' (sv s) (tx s))).
Proof.
  intros (v & V & Z0) R. destruct (at_expr s e _ r c V R) as [c' H]. exists c'. destruct v as [q|x]; [|discriminate].
  refine (EV_bind _ (fun _ q => lift (to_int q)) _ q _ _ _ _).
  - refine (EV_bind _ (fun _ n => lift (num_of n)) _ _ _ _ H _). apply EV_const. reflexivity.
  - apply EV_const. unfold lift. cbn in Z0. rewrite Z0. reflexivity.
Qed.
Lemma p_int s e z r h L c d : whole_in w s e z -> ends r -> exists c', EVP (fun f => intx w f) (mm (written e ++ r, h) s L c d) (Ok (z, mm (r, h) s L c' d)).
Proof. intros V R. destruct (at_int s e z r c V R) as [c' H]. exists c'. exact (P_on (fun f => intexpr (expr w f)) (mm (written e ++ r, h) s L c d) _ _ H). Qed.
Lemma p_need p t r h s L c d : p t = true -> EVP (fun f => need p) (mm (t :: r, h) s L c d) (Ok (tt, mm (r, h) s L c d)).
Proof. intros H. apply PC. unfold need, on, require. cbn [base mm toks fst]. rewrite H. reflexivity. Qed.

(** ** Left sides *)
Lemma at_subs s : forall ds l js k k' r c, Forall2 (whole_in w s) l js -> position ds js k = Some k' -> l <> [] ->
  exists c', EV (fun f => subscripts (intexpr (ev w f LExpr)) ds k) (mkSt (separated (map written l) ++ TRp :: r) (vs s) c (sv s) (tx s)) (Ok (k', mkSt (TRp :: r) (vs s) c' (sv s) (tx s))).
Proof.
  induction ds as [|b ds IH]; intros l js k k' r c H P N.
  - destruct js; [|discriminate]. inversion H; subst. congruence.
  - destruct js as [|j js]; [discriminate|]. inversion H as [|e x l' y He Hl]; subst. cbn [position] in P. destruct ((0 <=? j) && (j <? b)) eqn:B; [|discriminate].
    cbn [subscripts]. assert (B' : (j <? 0) || (b <=? j) = false) by lia.
    destruct l' as [|e2 l'].
    + inversion Hl; subst. destruct ds as [|b2 ds]; [|discriminate]. cbn [position] in P. injection P as <-. cbn [map separated app].
      destruct (at_int s e j (TRp :: r) c He ltac:(reflexivity)) as [c' E]. exists c'. refine (EV_bind _ (fun f j => if (j <? 0) || (b <=? j) then fail else _) _ _ _ _ E _).
      rewrite B'. apply EV_const. reflexivity.
    + destruct js as [|j2 js]; [inversion Hl|]. destruct ds as [|b2 ds]; [discriminate|].
      change (separated (map written (e :: e2 :: l')) ++ TRp :: r) with ((written e ++ TComma :: separated (map written (e2 :: l'))) ++ TRp :: r). rewrite <- app_assoc. cbn [app].
      destruct (at_int s e j (TComma :: separated (map written (e2 :: l')) ++ TRp :: r) c He ltac:(reflexivity)) as [c1 E].
      destruct (IH (e2 :: l') (j2 :: js) (k * b + j) k' r c1 Hl P ltac:(discriminate)) as [c2 E2]. exists c2.
      refine (EV_bind _ (fun f j => if (j <? 0) || (b <=? j) then fail else _) _ _ _ _ E _). rewrite B'.
      refine (EV_bind (fun _ => require is_comma) (fun f _ => subscripts (intexpr (ev w f LExpr)) (b2 :: ds) (k * b + j)) _ tt _ _ _ E2). apply EV_const. reflexivity.
Qed.
Lemma p_find s t x k r h L c d : stands_for w s t x k -> match r with TLp :: _ => False | _ => True end ->
  exists c', EVP (fun f => find w f) (mm (written_lhs t ++ r, h) s L c d) (Ok (x, mm (r, h) s L c' d)) /\ target (base (mm (r, h) s L c' d)) x = k.
Proof.
  intros H R. inversion H as [x0 Dx|x0 l js k0 N Hl Pk]; subst.
  - exists (set c x scalar). split.
    + apply PA. intros f. unfold find, on, findvar. cbn [written_lhs app base mm toks fst vars]. destruct r as [|t r]; [rewrite Dx; reflexivity|]. destruct t; try (rewrite Dx; reflexivity). destruct R.
    + unfold target. cbn [base mm vars]. rewrite Dx. reflexivity.
  - destruct (at_subs s (dims (vs s x)) l js 0 k r c Hl Pk N) as [c1 E]. exists (set c1 x k).
    assert (Dn : dims (vs s x) <> []). { intros E0. rewrite E0 in Pk. destruct js; [|discriminate]. inversion Hl; subst. congruence. }
    split.
    + unfold find. refine (P_on (fun f => findvar (intexpr (expr w f))) _ _ _ _). destruct E as [f0 E]. exists f0. intros f Lf. specialize (E f Lf). unfold findvar. cbn [written_lhs app base mm toks fst vars].
      destruct (dims (vs s x)) as [|b bs] eqn:Ds; [congruence|]. cbn [rbind]. unfold bindM at 1. unfold with_toks at 1. cbn [vars cur saved texts]. rewrite Ds. rewrite <- app_assoc. cbn [app]. unfold expr. rewrite E. reflexivity.
    + unfold target. cbn [base mm vars cur]. destruct (dims (vs s x)); [congruence|]. unfold set. rewrite String.eqb_refl. reflexivity.
Qed.

(** ** Simple statements *)
Ltac bind H := eapply PB; [exact H|]; cbn beta.
Ltac bindc := eapply PB; [apply PC; reflexivity|]; cbn beta iota.
Lemma do_let s t e x k v r h L c d : stands_for w s t x k -> value_in w s e v -> fits x v -> eos r = true ->
  exists c', EVP (fun f => cmd_let w f) (mm (written_lhs t ++ TEq :: written e ++ r, h) s L c d) (Ok (Plain, mm (r, h) (written_to s x k v) L c' d)).
Proof.
  intros St V F R. destruct (p_find s t x k (TEq :: written e ++ r) h L c d St ltac:(exact I)) as (c1 & H1 & T1).
  destruct v as [q|y]; cbn in F.
  - destruct (p_real s e q r h L c1 d V (eos_ends r R)) as (c2 & H2). exists (set c2 x k). unfold cmd_let. bind H1. bindc. cbn zeta. rewrite T1. eapply PB; [apply p_need; reflexivity|]. cbn beta. rewrite F.
    bind H2. bindc. apply PC. reflexivity.
  - destruct (p_str s e y r h L c1 d V (eos_ends r R)) as (c2 & H2). exists (set c2 x k). unfold cmd_let. bind H1. bindc. cbn zeta. rewrite T1. eapply PB; [apply p_need; reflexivity|]. cbn beta. rewrite F.
    bind H2. bindc. apply PC. reflexivity.
Qed.
Lemma shows_more s a b : shows (shows s a) b = shows s (a ++ b).
Proof. unfold shows. cbn. rewrite app_assoc. reflexivity. Qed.
Lemma value_shows s l e v : value_in w (shows s l) e v <-> value_in w s e v.
Proof. reflexivity. Qed.
Lemma shows_nil s : shows s [] = s.
Proof. destruct s. unfold shows. cbn. rewrite app_nil_r. reflexivity. Qed.
Lemma written_first e : exists t u, written e = t :: u /\ separator t = false /\ eos (t :: u) = false /\ (forall q, t = TNum q -> e = Num q \/ exists o a b, e = Bin o a b).
Proof.
  induction e as [| | | | | u e _|o a b IHa _| | | | | |] using ex_induct; try (eexists _, _; split; [reflexivity|]; repeat split; try reflexivity; try discriminate; fail).
  - exists (TNum q), []. repeat split; try reflexivity. intros q0 E. injection E as ->. left. reflexivity.
  - exists (un_token u), (part 6 e). rewrite written_un. split; [reflexivity|]. destruct u; repeat split; try reflexivity; discriminate.
  - assert (G : forall n z, exists t u, part n a ++ z = t :: u /\ separator t = false /\ eos (t :: u) = false).
    { intros n z. unfold part. destruct (Nat.leb n (tightness a)); [|eexists _, _; split; [reflexivity|]; split; reflexivity].
      destruct IHa as (t & u & -> & S1 & E1 & _). exists t, (u ++ z). split; [reflexivity|]. split; [exact S1|]. destruct t; try discriminate; reflexivity. }
    rewrite written_bin. destruct o; match goal with |- exists t u, part ?n a ++ ?z = _ /\ _ => destruct (G n z) as (t & u & E & S1 & E1) end; exists t, u; (split; [exact E|]); (split; [exact S1|]); (split; [exact E1|]); intros q _; right; eauto.
  - destruct k; eexists _, _; (split; [reflexivity|]); repeat split; try reflexivity; discriminate.
Qed.
Lemma sep_ends x t : separator x = true -> ends (x :: t).
Proof. destruct x; try discriminate; reflexivity. Qed.
Lemma listed_eos l t b r : listed l t b -> l <> [] -> eos (t ++ r) = false /\ exists x u, t ++ r = x :: u /\ separator x = false.
Proof.
  intros H N. destruct H as [|e|e x l t b Sx _]; [congruence|..]; destruct (written_first e) as (y & u & E & S1 & E1 & _); rewrite E; cbn [app] in *;
    (split; [destruct y; try discriminate; reflexivity|]; eexists _, _; split; [reflexivity|exact S1]).
Qed.
Lemma listed_len l t b : listed l t b -> (length l <= length t)%nat /\ (b = true -> (length l < length t)%nat).
Proof.
  induction 1 as [|e|e x l t b Sx Hl [IH1 IH2]]; cbn; try (split; [lia|discriminate]).
  - destruct (written_first e) as (y & u & -> & _). cbn. split; [lia|discriminate].
  - destruct (written_first e) as (y & u & -> & _). cbn. rewrite app_length. cbn. split; [lia|]. intros. lia.
Qed.
Lemma do_print l t b : listed l t b -> forall s l' n semi r h L c d, Forall2 (value_in w s) l l' -> eos r = true -> (length t <= n)%nat ->
  exists c', EVP (fun f => print_all w f n semi) (mm (t ++ r, h) s L c d) (Ok (Plain, mm (r, h) (shows s (map OPrint l' ++ if (match l with [] => semi | _ => b end) then [] else [ONewline])) L c' d)).
Proof.
  induction 1 as [|e|e x l t b Sx Hl IH]; intros s l' n semi r h L c d V R Ln.
  - inversion V; subst. exists c. apply PA. intros f. cbn [app map]. destruct n; cbn [print_all]; change (rest (mm (r, h) s L c d)) with r; rewrite R; destruct semi; try rewrite shows_nil; reflexivity.
  - inversion V as [|? v ? ? Ve V0]; subst. inversion V0; subst. destruct (p_val s e v r h L c d Ve (eos_ends r R)) as (c1 & H1). exists c1.
    destruct (written_first e) as (y & u & E & S1 & E1 & _). destruct n as [|n]; [rewrite E in Ln; cbn in Ln; lia|].
    apply PS with (p' := fun f => pbind (on (expr w f)) (fun v => pbind (change (fun m => show m (OPrint v))) (fun _ => print_all w f n false))) (m' := mm (written e ++ r, h) s L c d).
    { intros f. rewrite E. cbn [print_all]. change (rest (mm ((y :: u) ++ r, h) s L c d)) with (y :: u ++ r). replace (eos (y :: u ++ r)) with false by (destruct y; try discriminate; reflexivity). rewrite S1. reflexivity. }
    bind H1. bindc. apply PA. intros f. change (show (mm (r, h) s L c1 d) (OPrint v)) with (mm (r, h) (shows s [OPrint v]) L c1 d). destruct n; cbn [print_all]; change (rest (mm (r, h) (shows s [OPrint v]) L c1 d)) with r; rewrite R; cbn [map app]; change (show (mm (r, h) (shows s [OPrint v]) L c1 d) ONewline) with (mm (r, h) (shows (shows s [OPrint v]) [ONewline]) L c1 d); rewrite shows_more; reflexivity.
  - inversion V as [|? v ? l2 Ve V0]; subst. rewrite <- app_assoc. cbn [app].
    destruct (p_val s e v (x :: t ++ r) h L c d Ve (sep_ends x _ Sx)) as (c1 & H1).
    destruct (written_first e) as (y & u & E & S1 & E1 & _). rewrite app_length in Ln. cbn in Ln. destruct n as [|n]; [rewrite E in Ln; cbn in Ln; lia|].
    destruct n as [|n]; [rewrite E in Ln; cbn in Ln; lia|].
    destruct (IH (shows s [OPrint v]) l2 n true r h L c1 d V0 R ltac:(rewrite E in Ln; cbn in Ln; lia)) as (c2 & H2). exists c2.
    apply PS with (p' := fun f => pbind (on (expr w f)) (fun v => pbind (change (fun m => show m (OPrint v))) (fun _ => print_all w f (S n) false))) (m' := mm (written e ++ x :: t ++ r, h) s L c d).
    { intros f. rewrite E. cbn [print_all]. change (rest (mm ((y :: u) ++ x :: t ++ r, h) s L c d)) with (y :: u ++ x :: t ++ r). replace (eos (y :: u ++ x :: t ++ r)) with false by (destruct y; try discriminate; reflexivity). rewrite S1. reflexivity. }
    bind H1. bindc. change (show (mm (x :: t ++ r, h) s L c1 d) (OPrint v)) with (mm (x :: t ++ r, h) (shows s [OPrint v]) L c1 d).
    apply PS with (p' := fun f => print_all w f n true) (m' := mm (t ++ r, h) (shows s [OPrint v]) L c1 d).
    { intros f. cbn [print_all]. change (rest (mm (x :: t ++ r, h) (shows s [OPrint v]) L c1 d)) with (x :: t ++ r). replace (eos (x :: t ++ r)) with false by (destruct x; try discriminate; reflexivity). rewrite Sx. reflexivity. }
    rewrite shows_more in H2. exact H2.
Qed.
(** PUNCH and SAVE. *)
Lemma do_values k (g : value -> item) l t b : listed l t b -> forall s l' n r h L c d, Forall2 (value_in w s) l l' -> eos r = true -> (length t <= n)%nat ->
  Forall (fun v => forall m, k v m = Ok (tt, show m (g v))) l' ->
  exists c', EVP (fun f => values w f n k) (mm (t ++ r, h) s L c d) (Ok (Plain, mm (r, h) (shows s (map g l')) L c' d)).
Proof.
  induction 1 as [|e|e x l t b Sx Hl IH]; intros s l' n r h L c d V R Ln K.
  - inversion V; subst. exists c. apply PA. intros f. cbn [app map]. rewrite shows_nil. destruct n; cbn [values]; change (rest (mm (r, h) s L c d)) with r; rewrite R; reflexivity.
  - inversion V as [|? v ? ? Ve V0]; subst. inversion V0; subst. inversion K as [|? ? K1 _]; subst. destruct (p_val s e v r h L c d Ve (eos_ends r R)) as (c1 & H1). exists c1.
    destruct (written_first e) as (y & u & E & S1 & E1 & _). destruct n as [|n]; [rewrite E in Ln; cbn in Ln; lia|].
    apply PS with (p' := fun f => pbind (on (expr w f)) (fun v => pbind (k v) (fun _ => values w f n k))) (m' := mm (written e ++ r, h) s L c d).
    { intros f. rewrite E. cbn [values]. change (rest (mm ((y :: u) ++ r, h) s L c d)) with (y :: u ++ r). replace (eos (y :: u ++ r)) with false by (destruct y; try discriminate; reflexivity). rewrite S1. reflexivity. }
    bind H1. eapply PB; [apply PC; apply K1|]. cbn beta. apply PA. intros f. change (show (mm (r, h) s L c1 d) (g v)) with (mm (r, h) (shows s [g v]) L c1 d). destruct n; cbn [values]; change (rest (mm (r, h) (shows s [g v]) L c1 d)) with r; rewrite R; reflexivity.
  - inversion V as [|? v ? l2 Ve V0]; subst. inversion K as [|? ? K1 K2]; subst. rewrite <- app_assoc. cbn [app].
    destruct (p_val s e v (x :: t ++ r) h L c d Ve (sep_ends x _ Sx)) as (c1 & H1).
    destruct (written_first e) as (y & u & E & S1 & E1 & _). rewrite app_length in Ln. cbn in Ln. destruct n as [|n]; [rewrite E in Ln; cbn in Ln; lia|].
    destruct n as [|n]; [rewrite E in Ln; cbn in Ln; lia|].
    destruct (IH (shows s [g v]) l2 n r h L c1 d V0 R ltac:(rewrite E in Ln; cbn in Ln; lia) K2) as (c2 & H2). exists c2.
    apply PS with (p' := fun f => pbind (on (expr w f)) (fun v => pbind (k v) (fun _ => values w f (S n) k))) (m' := mm (written e ++ x :: t ++ r, h) s L c d).
    { intros f. rewrite E. cbn [values]. change (rest (mm ((y :: u) ++ x :: t ++ r, h) s L c d)) with (y :: u ++ x :: t ++ r). replace (eos (y :: u ++ x :: t ++ r)) with false by (destruct y; try discriminate; reflexivity). rewrite S1. reflexivity. }
    bind H1. eapply PB; [apply PC; apply K1|]. cbn beta. change (show (mm (x :: t ++ r, h) s L c1 d) (g v)) with (mm (x :: t ++ r, h) (shows s [g v]) L c1 d).
    apply PS with (p' := fun f => values w f n k) (m' := mm (t ++ r, h) (shows s [g v]) L c1 d).
    { intros f. cbn [values]. change (rest (mm (x :: t ++ r, h) (shows s [g v]) L c1 d)) with (x :: t ++ r). replace (eos (x :: t ++ r)) with false by (destruct x; try discriminate; reflexivity). rewrite Sx. reflexivity. }
    rewrite shows_more in H2. exact H2.
Qed.
(** PUT. *)
Lemma int_of_id j : fits_int j -> int_of j = j.
Proof. unfold fits_int, int_of. intros H. rewrite Z.mod_small by lia. lia. Qed.
Definition args (l : list ex) : list tok := concat (map (fun e => TComma :: written e) l).
Lemma separated_args e l : separated (map written (e :: l)) = written e ++ args l.
Proof.
  revert e. induction l as [|e2 l IH]; intros e; [symmetry; apply app_nil_r|]. change (separated (map written (e :: e2 :: l))) with (written e ++ TComma :: separated (map written (e2 :: l))). rewrite IH. reflexivity.
Qed.
Lemma append_nil (a : string) : (a ++ "")%string = a.
Proof. induction a as [|x a IH]; [reflexivity|]. cbn. rewrite IH. reflexivity. Qed.
Lemma append_assoc (a b c : string) : ((a ++ b) ++ c)%string = (a ++ (b ++ c))%string.
Proof. induction a as [|x a IH]; [reflexivity|]. cbn. rewrite IH. reflexivity. Qed.
Lemma args_ends l r : ends (args l ++ TRp :: r).
Proof. destruct l; reflexivity. Qed.
Lemma args_len l : (length l <= length (args l))%nat.
Proof. induction l as [|e l IH]; [cbn; lia|]. cbn [args map concat length app]. fold (args l). rewrite app_length. lia. Qed.
Lemma do_keys s : forall l js k n r h L c d, Forall2 (whole_in w s) l js -> Forall fits_int js -> (length l < n)%nat ->
  exists c', EVP (fun f => put_keys w f n k) (mm (args l ++ TRp :: r, h) s L c d) (Ok ((k ++ key js)%string, mm (r, h) s L c' d)).
Proof.
  induction l as [|e l IH]; intros js k n r h L c d H F Ln; (destruct n as [|n]; [cbn in Ln; lia|]).
  - inversion H; subst. exists c. cbn [key]. rewrite append_nil. apply PA. intros f. reflexivity.
  - inversion H as [|e0 j l0 js' He Hl]; subst. inversion F as [|? ? F1 F2]; subst.
    change (args (e :: l)) with (TComma :: written e ++ args l). rewrite <- app_comm_cons. rewrite <- app_assoc.
    destruct (p_int s e j (args l ++ TRp :: r) h L c d He (args_ends l r)) as (c1 & H1).
    destruct (IH js' (k ++ key_part j)%string n r h L c1 d Hl F2 ltac:(cbn in Ln; lia)) as (c2 & H2). exists c2.
    apply PS with (p' := fun f => pbind (intx w f) (fun j => put_keys w f n (k ++ key_part (int_of j))%string)) (m' := mm (written e ++ args l ++ TRp :: r, h) s L c d); [reflexivity|].
    bind H1. rewrite int_of_id by exact F1. cbn [key]. rewrite <- append_assoc. exact H2.
Qed.
Lemma do_put s e l q js r h L c d : value_in w s e (VNum q) -> Forall2 (whole_in w s) l js -> Forall fits_int js ->
  exists c', EVP (fun f => cmd_put w f) (mm (TLp :: separated (map written (e :: l)) ++ TRp :: r, h) s L c d)
    (Ok (Plain, mm (r, h) (mkMem (vs s) (fun k => if String.eqb k (key js) then Some q else sv s k) (tx s) (outp s) (feed s)) L c' d)).
Proof.
  intros V H F. rewrite separated_args, <- app_assoc. destruct (p_real s e q (args l ++ TRp :: r) h L c d V (args_ends l r)) as (c1 & H1).
  destruct (do_keys s l js "" (S (length (args l ++ TRp :: r))) r h L c1 d H F) as (c2 & H2).
  { pose proof (args_len l). rewrite app_length. cbn [length]. lia. }
  exists c2. unfold cmd_put. eapply PB; [apply p_need; reflexivity|]. cbn beta. bind H1.
  eapply PB; [exact H2|]. cbn beta. bindc. apply PC. reflexivity.
Qed.
Lemma do_puts s e l x js r h L c d : value_in w s e (VStr x) -> Forall2 (whole_in w s) l js -> Forall fits_int js ->
  exists c', EVP (fun f => cmd_puts w f) (mm (TLp :: separated (map written (e :: l)) ++ TRp :: r, h) s L c d)
    (Ok (Plain, mm (r, h) (mkMem (vs s) (sv s) (fun k => if String.eqb k (key js) then Some x else tx s k) (outp s) (feed s)) L c' d)).
Proof.
  intros V H F. rewrite separated_args, <- app_assoc. destruct (p_str s e x (args l ++ TRp :: r) h L c d V (args_ends l r)) as (c1 & H1).
  destruct (do_keys s l js "" (S (length (args l ++ TRp :: r))) r h L c1 d H F) as (c2 & H2).
  { pose proof (args_len l). rewrite app_length. cbn [length]. lia. }
  exists c2. unfold cmd_puts. eapply PB; [apply p_need; reflexivity|]. cbn beta. bind H1.
  eapply PB; [exact H2|]. cbn beta. bindc. apply PC. reflexivity.
Qed.
End W.
