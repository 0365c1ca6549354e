(** Lemmas for C74-C75. *)
From Coq Require Import String Ascii List ZArith QArith Qround Qabs Bool Lia.
From Verif Require Import CStr_Model Qx Basic_Model Basic_Spec.
Import ListNotations.
Local Open Scope string_scope.
Local Open Scope list_scope.
Local Open Scope Z_scope.

(** ** Induction over trees *)
Section Ind.
Variable P : ex -> Prop.
Hypothesis HNum : forall q, P (Num q).
Hypothesis HText : forall s, P (Text s).
Hypothesis HVar : forall x, P (Var x).
Hypothesis HElem : forall x l, Forall P l -> P (Elem x l).
Hypothesis HQuant : forall f, P (Quant f).
Hypothesis HUn : forall u e, P e -> P (Un u e).
Hypothesis HBin : forall o a b, P a -> P b -> P (Bin o a b).
Hypothesis HInstr : forall a b, P a -> P b -> P (Instr a b).
Hypothesis HTrim : forall k a, P a -> P (Trim k a).
Hypothesis HPar : forall a, P a -> P (Par a).
Hypothesis HGet : forall l, Forall P l -> P (Get l).
Hypothesis HGetT : forall l, Forall P l -> P (GetText l).
Hypothesis HMid : forall a i j, P a -> P i -> P j -> P (Mid a i j).
Fixpoint ex_induct (e : ex) : P e :=
  match e with
  | Num q => HNum q | Text s => HText s | Var x => HVar x | Quant f => HQuant f
  | Elem x l => HElem x l ((fix all (l : list ex) : Forall P l := match l with [] => Forall_nil P | e :: r => Forall_cons e (ex_induct e) (all r) end) l)
  | Un u e => HUn u e (ex_induct e)
  | Bin o a b => HBin o a b (ex_induct a) (ex_induct b)
  | Instr a b => HInstr a b (ex_induct a) (ex_induct b)
  | Trim k a => HTrim k a (ex_induct a)
  | Par a => HPar a (ex_induct a)
  | Get l => HGet l ((fix all (l : list ex) : Forall P l := match l with [] => Forall_nil P | e :: r => Forall_cons e (ex_induct e) (all r) end) l)
  | GetText l => HGetT l ((fix all (l : list ex) : Forall P l := match l with [] => Forall_nil P | e :: r => Forall_cons e (ex_induct e) (all r) end) l)
  | Mid a i j => HMid a i j (ex_induct a) (ex_induct i) (ex_induct j)
  end.
End Ind.

(** ** Levels *)
Definition lv (n : nat) : level := match n with 0 => LExpr | 1 => LAnd | 2 => LRel | 3 => LSum | 4 => LTerm | 5 => LUp | _ => LFactor end%nat.
Definition opn (w : world) (n : nat) : tok -> option binop := match n with 0 => op_or | 1 => op_and | 2 => op_rel | 3 => op_sum | 4 => op_term | _ => op_up w end%nat.
Definition nx (n : nat) : nat := match n with 5 => 5 | _ => S n end%nat.
Definition part (n : nat) (e : ex) : list tok := if Nat.leb n (tightness e) then written e else TLp :: written e ++ [TRp].

Section W.
Variable w : world.
Definition runs (n : nat) (s : st) (r : res (value * st)) : Prop := exists f0, forall f, (f0 <= f)%nat -> ev w f (lv n) s = r.
Definition loops (n : nat) (v : value) (s : st) (r : res (value * st)) : Prop := exists f0, forall f g, (f0 <= f)%nat -> (f0 <= g)%nat -> chain g (opn w n) (ev w f (lv (nx n))) v s = r.
Lemma ev_level n f s : (n < 6)%nat -> ev w (S f) (lv n) s = rbind (ev w f (lv (S n)) s) (fun r => chain f (opn w n) (ev w f (lv (nx n))) (fst r) (snd r)).
Proof. intros H. do 6 (destruct n as [|n]; [reflexivity|]). lia. Qed.
Lemma down n s v s1 r : (n < 6)%nat -> runs (S n) s (Ok (v, s1)) -> loops n v s1 r -> runs n s r.
Proof.
  intros H (f1 & H1) (f2 & H2). exists (S (max f1 f2)). intros f L. destruct f as [|f]; [lia|]. rewrite ev_level by exact H. rewrite H1 by lia. cbn [rbind fst snd]. apply H2; lia.
Qed.
Definition bad {A} (r : res A) : Prop := match r with Ok _ => False | _ => True end.
Definition same_bad {A B} (r : res A) : res B := match r with Ok _ => Err | Err => Err | Crash => Crash | Nan => Nan | Deep => Deep end.
Lemma down_bad {A} n s (b : res A) : (n < 6)%nat -> bad b -> runs (S n) s (same_bad b) -> runs n s (same_bad b).
Proof. intros H B (f1 & H1). exists (S f1). intros f L. destruct f as [|f]; [lia|]. rewrite ev_level by exact H. rewrite H1 by lia. destruct b; [destruct B|..]; reflexivity. Qed.
(** The operators of other levels end a loop. *)
Definition cap (n : nat) : nat := match n with 5 => 4 | _ => n end%nat.
Definition okrest (n : nat) (rest : list tok) : Prop := match rest with [] => True | t :: _ => t <> TLp /\ forall o, t = op_token o -> (op_level o <= cap n)%nat end.
Lemma opn_token n o : (n <= 5)%nat -> op_level o <> n -> opn w n (op_token o) = None.
Proof. intros L H. do 6 (destruct n as [|n]; [destruct o; try reflexivity; exfalso; apply H; reflexivity|]). lia. Qed.
Lemma opn_other n t : (forall o, t <> op_token o) -> opn w n t = None.
Proof.
  intros H. assert (X : forall o, t = op_token o -> False) by (intros o E; exact (H o E)).
  do 5 (destruct n as [|n]; [destruct t; try reflexivity; exfalso; first [exact (X Or eq_refl)|exact (X Xor eq_refl)|exact (X And eq_refl)|exact (X Equal eq_refl)|exact (X Less eq_refl)|exact (X Greater eq_refl)|exact (X AtMost eq_refl)|exact (X AtLeast eq_refl)|exact (X Differs eq_refl)|exact (X Add eq_refl)|exact (X Sub eq_refl)|exact (X Mul eq_refl)|exact (X Div eq_refl)|exact (X Mod eq_refl)]|]).
  destruct t; try reflexivity. exfalso. exact (X Pow eq_refl).
Qed.
Definition is_op (t : tok) : {o | t = op_token o} + {forall o, t <> op_token o}.
Proof.
  destruct t; try (right; intros o; destruct o; discriminate); left;
    first [exists Or; reflexivity|exists Xor; reflexivity|exists And; reflexivity|exists Equal; reflexivity|exists Less; reflexivity|exists Greater; reflexivity|exists AtMost; reflexivity
          |exists AtLeast; reflexivity|exists Differs; reflexivity|exists Add; reflexivity|exists Sub; reflexivity|exists Mul; reflexivity|exists Div; reflexivity|exists Mod; reflexivity|exists Pow; reflexivity].
Qed.
Lemma no_op n k rest : okrest n rest -> (n < k <= 5)%nat \/ (n = 5 /\ k = 5)%nat -> match rest with [] => True | t :: _ => opn w k t = None end.
Proof.
  intros H K. destruct rest as [|t r]; [exact I|]. destruct H as [_ H]. destruct (is_op t) as [[o ->]|N]; [|apply opn_other; exact N].
  apply opn_token; [lia|]. specialize (H o eq_refl). unfold cap in H. destruct K as [K|[-> ->]]; [do 6 (destruct n as [|n]; [lia|]); lia|lia].
Qed.
Lemma loop_end k v s : match toks s with [] => True | t :: _ => opn w k t = None end -> loops k v s (Ok (v, s)).
Proof.
  intros H. exists 1%nat. intros f g _ L. destruct g as [|g]; [lia|]. cbn [chain]. destruct (toks s) as [|t r]; [reflexivity|]. rewrite H. reflexivity.
Qed.
Lemma loop_step k v s t r o v2 s2 v3 res : toks s = t :: r -> opn w k t = Some o -> before o v = true -> runs (nx k) (with_toks s r) (Ok (v2, s2)) -> apply2 o v v2 = Ok v3 -> loops k v3 s2 res -> loops k v s res.
Proof.
  intros T O B (f1 & H1) A (f2 & H2). exists (S (max f1 f2)). intros f g Lf L. destruct g as [|g]; [lia|]. cbn [chain]. rewrite T, O, B. unfold bindM, lift. rewrite H1 by lia. cbn [rbind fst snd]. rewrite A. cbn [rbind fst snd]. apply H2; lia.
Qed.
Lemma loop_step_arg {A} k v s t r o (b : res A) : toks s = t :: r -> opn w k t = Some o -> before o v = true -> bad b -> runs (nx k) (with_toks s r) (same_bad b) -> loops k v s (same_bad b).
Proof.
  intros T O B Bb (f1 & H1). exists (S f1). intros f g Lf L. destruct g as [|g]; [lia|]. cbn [chain]. rewrite T, O, B. unfold bindM, lift. rewrite H1 by lia. destruct b; [destruct Bb|..]; reflexivity.
Qed.
Lemma loop_step_op {A} k v s t r o v2 s2 (b : res A) : toks s = t :: r -> opn w k t = Some o -> before o v = true -> runs (nx k) (with_toks s r) (Ok (v2, s2)) -> bad b -> apply2 o v v2 = same_bad b -> loops k v s (same_bad b).
Proof.
  intros T O B (f1 & H1) Bb Ap. exists (S f1). intros f g Lf L. destruct g as [|g]; [lia|]. cbn [chain]. rewrite T, O, B. unfold bindM, lift. rewrite H1 by lia. cbn [rbind fst snd]. rewrite Ap. destruct b; [destruct Bb|..]; reflexivity.
Qed.
Lemma loop_before k v s t r o : toks s = t :: r -> opn w k t = Some o -> before o v = false -> loops k v s Err.
Proof. intros T O B. exists 1%nat. intros f g Lf L. destruct g as [|g]; [lia|]. cbn [chain]. rewrite T, O, B. reflexivity. Qed.

(** ** Results with enough recursion *)
Definition EV {A} (m : nat -> M A) (s : st) (r : res (A * st)) : Prop := exists f0, forall f, (f0 <= f)%nat -> m f s = r.
Lemma EV_bind {A B} (m : nat -> M A) (k : nat -> A -> M B) s a s1 r : EV m s (Ok (a, s1)) -> EV (fun f => k f a) s1 r -> EV (fun f => bindM (m f) (k f)) s r.
Proof. intros (f1 & H1) (f2 & H2). exists (max f1 f2). intros f L. unfold bindM. rewrite H1 by lia. cbn [rbind fst snd]. apply H2. lia. Qed.
Lemma EV_bind_bad {A B C} (m : nat -> M A) (k : nat -> A -> M B) s (b : res C) : bad b -> EV m s (same_bad b) -> EV (fun f => bindM (m f) (k f)) s (same_bad b).
Proof. intros Bb (f1 & H1). exists f1. intros f L. unfold bindM. rewrite H1 by lia. destruct b; [destruct Bb|..]; reflexivity. Qed.
Lemma EV_const {A} (m : M A) s r : m s = r -> EV (fun _ => m) s r.
Proof. intros H. exists 0%nat. intros; exact H. Qed.
Lemma EV_at {A} (m : nat -> M A) s r : (forall f, m f s = r) -> EV m s r.
Proof. intros H. exists 0%nat. intros; apply H. Qed.
Lemma EV_same {A} (m m' : nat -> M A) s s' r : (forall f, m f s = m' f s') -> EV m' s' r -> EV m s r.
Proof. intros H (f0 & E). exists f0. intros f L. rewrite H. apply E. exact L. Qed.
Lemma runs_factor s r : EV (fun f => factor w (ev w f LExpr) (ev w f LFactor) f) s r -> runs 6 s r.
Proof. intros (f0 & E). exists (S f0). intros f L. destruct f as [|f]; [lia|]. cbn [ev lv]. apply E. lia. Qed.

Variables (vs : string -> var) (sv : string -> option Q) (tx : string -> option string).
Definition mk (t : list tok) (c : string -> Z) : st := mkSt t vs c sv tx.
Definition fin (n : nat) (v : value) (s : st) (r : res (value * st)) : Prop := if (n =? 6)%nat then r = Ok (v, s) else loops n v s r.
Definition concl (n : nat) (t rest : list tok) (d : res value) : Prop :=
  forall c, match d with
            | Ok v => exists c', forall r, fin n v (mk rest c') r -> runs n (mk t c) r
            | b => runs n (mk t c) (same_bad b)
            end.
Lemma concl_down n t rest d : (n < 6)%nat -> (n < 5 -> match rest with [] => True | x :: _ => opn w (S n) x = None end)%nat -> concl (S n) t rest d -> concl n t rest d.
Proof.
  intros L N H c. specialize (H c). destruct d as [v| | | |].
  - destruct H as [c' H]. exists c'. intros r F. unfold fin in F, H. replace (n =? 6)%nat with false in F by (symmetry; apply Nat.eqb_neq; lia).
    apply (down n (mk t c) v (mk rest c') r L); [|exact F]. apply H. destruct (S n =? 6)%nat eqn:E; [reflexivity|]. apply Nat.eqb_neq in E. apply loop_end. apply N. lia.
  - apply (down_bad n _ (@Err value) L I H).
  - apply (down_bad n _ (@Crash value) L I H).
  - apply (down_bad n _ (@Nan value) L I H).
  - apply (down_bad n _ (@Deep value) L I H).
Qed.
Lemma concl_to n m t rest d : (n <= m)%nat -> (m <= 6)%nat -> okrest n rest -> concl m t rest d -> concl n t rest d.
Proof.
  intros L M. revert n L. induction m as [|m IH]; intros n L R H; [replace n with 0%nat by lia; exact H|].
  destruct (Nat.eq_dec n (S m)) as [->|Ne]; [exact H|]. apply IH; [lia|lia|exact R|]. apply concl_down; [lia| |exact H]. intros X. apply (no_op n); [exact R|]. lia.
Qed.
Definition Good (e : ex) : Prop := well_used vs e -> forall rest, okrest (tightness e) rest -> concl (tightness e) (written e ++ rest) rest (den w vs sv tx e).
Lemma tight_le e : (tightness e <= 6)%nat.
Proof. destruct e; cbn; try lia. destruct b; cbn; lia. Qed.
Lemma okrest_more n m rest : (n <= m)%nat -> okrest n rest -> okrest m rest.
Proof.
  intros L. destruct rest as [|t r]; [auto|]. intros [A H]. split; [exact A|]. intros o E. specialize (H o E). unfold cap in *. do 6 (destruct n as [|n]; [do 6 (destruct m as [|m]; [lia|]); lia|]). do 6 (destruct m as [|m]; [lia|]). lia.
Qed.
Lemma ok_rp n r : okrest n (TRp :: r).
Proof. split; [discriminate|]. intros o; destruct o; discriminate. Qed.
Lemma ok_comma n r : okrest n (TComma :: r).
Proof. split; [discriminate|]. intros o; destruct o; discriminate. Qed.
Lemma ok_op n o r : (op_level o <= cap n)%nat -> okrest n (op_token o :: r).
Proof. intros H. split; [destruct o; discriminate|]. intros o' E. destruct o, o'; try discriminate; exact H. Qed.
Lemma require_ok p t r c : p t = true -> require p (mk (t :: r) c) = Ok (tt, mk r c).
Proof. intros H. unfold require, mk. cbn [toks]. rewrite H. reflexivity. Qed.
(** An expression at the loosest level, with a stop behind it. *)
Lemma ends_ok n rest : ends rest -> okrest n rest /\ (forall k, match rest with [] => True | t :: _ => opn w k t = None end).
Proof.
  destruct rest as [|t r]; [cbn; auto|]. cbn. intros H. split; [split; [intros ->; discriminate|intros o ->; destruct o; discriminate]|]. intros k. apply opn_other. intros o ->. destruct o; discriminate.
Qed.
Definition outcome (m : nat -> M value) (t rest : list tok) (d : res value) : Prop :=
  forall c, match d with Ok v => exists c', EV m (mk t c) (Ok (v, mk rest c')) | b => EV m (mk t c) (same_bad b) end.
Definition at0 (e : ex) : Prop := forall rest, ends rest -> outcome (fun f => ev w f LExpr) (written e ++ rest) rest (den w vs sv tx e).
Lemma good_at0 e : well_used vs e -> Good e -> at0 e.
Proof.
  intros U G rest R c. destruct (ends_ok 0 rest R) as [R0 R1].
  pose proof (concl_to 0 (tightness e) _ rest (den w vs sv tx e) ltac:(lia) (tight_le e) R0 (G U rest (okrest_more 0 _ rest ltac:(lia) R0)) c) as H.
  destruct (den w vs sv tx e); try exact H. destruct H as [c' H]. exists c'. apply H. cbn. apply loop_end. cbn [toks mk]. exact (R1 0%nat).
Qed.
(** In parentheses, if need be, at any level. *)
Lemma concl6_of t rest d : outcome (fun f => factor w (ev w f LExpr) (ev w f LFactor) f) t rest d -> concl 6 t rest d.
Proof.
  intros H c. specialize (H c). destruct d as [v| | | |]; [destruct H as [c' H]; exists c'; intros r ->|..]; apply runs_factor; exact H.
Qed.
Lemma part_ok e : well_used vs e -> Good e -> forall n rest, (n <= 6)%nat -> okrest n rest -> concl n (part n e ++ rest) rest (den w vs sv tx e).
Proof.
  intros U G n rest L R. unfold part. destruct (Nat.leb n (tightness e)) eqn:E.
  - apply Nat.leb_le in E. apply (concl_to n (tightness e)); [exact E|apply tight_le|exact R|]. apply G; [exact U|]. apply (okrest_more n); assumption.
  - apply (concl_to n 6); [exact L|lia|exact R|]. apply concl6_of. intros c. cbn [app]. rewrite <- app_assoc. cbn [app].
    pose proof (good_at0 e U G (TRp :: rest) eq_refl c) as H. destruct (den w vs sv tx e) as [v| | | |].
    + destruct H as [c' H]. exists c'. refine (EV_same _ (fun f => bindM (ev w f LExpr) (fun n => bindM (require is_rp) (fun _ => ret n))) _ (mk (written e ++ TRp :: rest) c) _ (fun f => eq_refl) _).
      refine (EV_bind _ (fun _ n => bindM (require is_rp) (fun _ => ret n)) _ _ _ _ H _). apply EV_const. unfold bindM. rewrite require_ok by reflexivity. reflexivity.
    + refine (EV_same _ (fun f => bindM (ev w f LExpr) (fun n => bindM (require is_rp) (fun _ => ret n))) _ (mk (written e ++ TRp :: rest) c) _ (fun f => eq_refl) _). exact (EV_bind_bad _ _ _ (@Err value) I H).
    + refine (EV_same _ (fun f => bindM (ev w f LExpr) (fun n => bindM (require is_rp) (fun _ => ret n))) _ (mk (written e ++ TRp :: rest) c) _ (fun f => eq_refl) _). exact (EV_bind_bad _ _ _ (@Crash value) I H).
    + refine (EV_same _ (fun f => bindM (ev w f LExpr) (fun n => bindM (require is_rp) (fun _ => ret n))) _ (mk (written e ++ TRp :: rest) c) _ (fun f => eq_refl) _). exact (EV_bind_bad _ _ _ (@Nan value) I H).
    + refine (EV_same _ (fun f => bindM (ev w f LExpr) (fun n => bindM (require is_rp) (fun _ => ret n))) _ (mk (written e ++ TRp :: rest) c) _ (fun f => eq_refl) _). exact (EV_bind_bad _ _ _ (@Deep value) I H).
Qed.
(** An argument: a factor. *)
Definition no_lp (rest : list tok) : Prop := match rest with TLp :: _ => False | _ => True end.
Lemma arg6 e : well_used vs e -> Good e -> forall rest, no_lp rest -> outcome (fun f => ev w f LFactor) (part 6 e ++ rest) rest (den w vs sv tx e).
Proof.
  intros U G rest R c. assert (R6 : okrest 6 rest) by (destruct rest as [|t r]; [exact I|]; split; [intros ->; exact R|intros o; destruct o; cbn; lia]).
  pose proof (part_ok e U G 6 rest ltac:(lia) R6 c) as H. destruct (den w vs sv tx e) as [v| | | |]; try exact H. destruct H as [c' H]. exists c'. apply H. reflexivity.
Qed.
(** ** Binary operators *)
Lemma op_found o : exists f, opn w (op_level o) (op_token o) = Some f /\ (o <> Pow -> forall a, before f a = true) /\ (forall a b, apply2 f a b = bin_value w o a b) /\ (o = Pow -> forall a, before f a = is_num a).
Proof.
  destruct o; eexists; (split; [reflexivity|]); (split; [|split]); try reflexivity; try (intros X; congruence); try (intros; discriminate); try (intros [?|?] [?|?]; reflexivity).
Qed.
Lemma fin_lt n v s r : (n < 6)%nat -> fin n v s r = loops n v s r.
Proof. intros H. unfold fin. replace (n =? 6)%nat with false by (symmetry; apply Nat.eqb_neq; lia). reflexivity. Qed.
Lemma written_bin o a b : written (Bin o a b) = match o with Pow => part 6 a ++ TUp :: part 5 b | _ => part (op_level o) a ++ op_token o :: part (S (op_level o)) b end.
Proof. destruct o; reflexivity. Qed.
Lemma den_bin o a b : o <> Pow -> den w vs sv tx (Bin o a b) = rbind (den w vs sv tx a) (fun x => rbind (den w vs sv tx b) (bin_value w o x)).
Proof. destruct o; try reflexivity. congruence. Qed.
Lemma runs_b n rest e : (n <= 5)%nat -> okrest n rest -> match rest with [] => True | t :: _ => opn w n t = None end -> well_used vs e -> Good e ->
  outcome (fun f => ev w f (lv n)) (part n e ++ rest) rest (den w vs sv tx e).
Proof.
  intros L R0 N U G c. pose proof (part_ok e U G n rest ltac:(lia) R0 c) as H. destruct (den w vs sv tx e); try exact H. destruct H as [c' H]. exists c'. apply H. rewrite fin_lt by lia. apply loop_end. exact N.
Qed.
Lemma good_bin o a b : o <> Pow -> Good a -> Good b -> Good (Bin o a b).
Proof.
  intros NP Ga Gb [Ua Ub] rest R c. cbn [tightness] in *. rewrite den_bin by exact NP.
  assert (Lo : (op_level o <= 4)%nat) by (destruct o; cbn; try lia; congruence).
  assert (Cp : (op_level o <= cap (op_level o))%nat) by (destruct o; cbn; try lia; congruence).
  assert (W : written (Bin o a b) ++ rest = part (op_level o) a ++ op_token o :: part (S (op_level o)) b ++ rest).
  { rewrite written_bin. destruct o; try congruence; rewrite <- app_assoc; reflexivity. }
  rewrite W. clear W.
  pose proof (part_ok a Ua Ga (op_level o) (op_token o :: part (S (op_level o)) b ++ rest) ltac:(lia) (ok_op (op_level o) o _ Cp) c) as HA.
  destruct (den w vs sv tx a) as [x| | | |]; try exact HA. destruct HA as [c1 HA]. cbn [rbind].
  assert (RB : okrest (S (op_level o)) rest) by (apply (okrest_more (op_level o)); [lia|exact R]).
  pose proof (runs_b (S (op_level o)) rest b ltac:(lia) RB ltac:(apply (no_op (op_level o)); [exact R|lia]) Ub Gb c1) as HB.
  destruct (op_found o) as (f & F & Bf & Af & _).
  assert (Nx : nx (op_level o) = S (op_level o)) by (destruct o; try reflexivity; congruence).
  assert (Fin : forall r, fin (op_level o) x (mk (op_token o :: part (S (op_level o)) b ++ rest) c1) r = loops (op_level o) x (mk (op_token o :: part (S (op_level o)) b ++ rest) c1) r) by (intros; apply fin_lt; lia).
  destruct (den w vs sv tx b) as [y| | | |]; cbn [rbind].
  2-5: apply HA; rewrite Fin.
  2: refine (loop_step_arg (op_level o) x (mk (op_token o :: part (S (op_level o)) b ++ rest) c1) _ _ f (@Err value) eq_refl F (Bf NP x) I _); rewrite Nx; exact HB.
  2: refine (loop_step_arg (op_level o) x (mk (op_token o :: part (S (op_level o)) b ++ rest) c1) _ _ f (@Crash value) eq_refl F (Bf NP x) I _); rewrite Nx; exact HB.
  2: refine (loop_step_arg (op_level o) x (mk (op_token o :: part (S (op_level o)) b ++ rest) c1) _ _ f (@Nan value) eq_refl F (Bf NP x) I _); rewrite Nx; exact HB.
  2: refine (loop_step_arg (op_level o) x (mk (op_token o :: part (S (op_level o)) b ++ rest) c1) _ _ f (@Deep value) eq_refl F (Bf NP x) I _); rewrite Nx; exact HB.
  destruct HB as [c2 HB]. pose proof (Af x y) as A. destruct (bin_value w o x y) as [z| | | |].
  - exists c2. intros r Fr. apply HA. rewrite Fin. rewrite fin_lt in Fr by lia.
    refine (loop_step (op_level o) x (mk (op_token o :: part (S (op_level o)) b ++ rest) c1) _ _ f y (mk rest c2) z r eq_refl F (Bf NP x) _ A Fr). rewrite Nx. exact HB.
  - apply HA. rewrite Fin. refine (loop_step_op (op_level o) x (mk (op_token o :: part (S (op_level o)) b ++ rest) c1) _ _ f y (mk rest c2) (@Err value) eq_refl F (Bf NP x) _ I A). rewrite Nx. exact HB.
  - apply HA. rewrite Fin. refine (loop_step_op (op_level o) x (mk (op_token o :: part (S (op_level o)) b ++ rest) c1) _ _ f y (mk rest c2) (@Crash value) eq_refl F (Bf NP x) _ I A). rewrite Nx. exact HB.
  - apply HA. rewrite Fin. refine (loop_step_op (op_level o) x (mk (op_token o :: part (S (op_level o)) b ++ rest) c1) _ _ f y (mk rest c2) (@Nan value) eq_refl F (Bf NP x) _ I A). rewrite Nx. exact HB.
  - apply HA. rewrite Fin. refine (loop_step_op (op_level o) x (mk (op_token o :: part (S (op_level o)) b ++ rest) c1) _ _ f y (mk rest c2) (@Deep value) eq_refl F (Bf NP x) _ I A). rewrite Nx. exact HB.
Qed.
Lemma good_pow a b : Good a -> Good b -> Good (Bin Pow a b).
Proof.
  intros Ga Gb [Ua Ub] rest R c. cbn [tightness op_level] in *. replace (den w vs sv tx (Bin Pow a b)) with (rbind (den w vs sv tx a) (fun x => match x with VStr _ => Err | _ => rbind (den w vs sv tx b) (bin_value w Pow x) end)) by reflexivity.
  rewrite written_bin, <- app_assoc. cbn [app].
  pose proof (arg6 a Ua Ga (TUp :: part 5 b ++ rest) I c) as HA.
  destruct (den w vs sv tx a) as [x| | | |].
  2: exact (down_bad 5 _ (@Err value) ltac:(lia) I HA).
  2: exact (down_bad 5 _ (@Crash value) ltac:(lia) I HA).
  2: exact (down_bad 5 _ (@Nan value) ltac:(lia) I HA).
  2: exact (down_bad 5 _ (@Deep value) ltac:(lia) I HA).
  destruct HA as [c1 HA]. cbn [rbind].
  assert (Dn : forall r, loops 5 x (mk (TUp :: part 5 b ++ rest) c1) r -> runs 5 (mk (part 6 a ++ TUp :: part 5 b ++ rest) c) r).
  { intros r Lr. refine (down 5 _ x (mk (TUp :: part 5 b ++ rest) c1) r ltac:(lia) HA Lr). }
  assert (F : opn w 5 TUp = Some (mkOp is_num (numeric (power w)))) by reflexivity.
  destruct x as [x|x]; [|apply Dn; refine (loop_before 5 (VStr x) (mk (TUp :: part 5 b ++ rest) c1) TUp _ _ eq_refl F eq_refl)].
  pose proof (runs_b 5 rest b ltac:(lia) R ltac:(apply (no_op 5); [exact R|lia]) Ub Gb c1) as HB.
  destruct (den w vs sv tx b) as [y| | | |]; cbn [rbind].
  2: apply Dn; exact (loop_step_arg 5 (VNum x) (mk (TUp :: part 5 b ++ rest) c1) _ _ _ (@Err value) eq_refl F eq_refl I HB).
  2: apply Dn; exact (loop_step_arg 5 (VNum x) (mk (TUp :: part 5 b ++ rest) c1) _ _ _ (@Crash value) eq_refl F eq_refl I HB).
  2: apply Dn; exact (loop_step_arg 5 (VNum x) (mk (TUp :: part 5 b ++ rest) c1) _ _ _ (@Nan value) eq_refl F eq_refl I HB).
  2: apply Dn; exact (loop_step_arg 5 (VNum x) (mk (TUp :: part 5 b ++ rest) c1) _ _ _ (@Deep value) eq_refl F eq_refl I HB).
  destruct HB as [c2 HB]. assert (A : apply2 (mkOp is_num (numeric (power w))) (VNum x) y = bin_value w Pow (VNum x) y) by (destruct y; reflexivity).
  destruct (bin_value w Pow (VNum x) y) as [z| | | |].
  - exists c2. intros r Fr. apply Dn. rewrite fin_lt in Fr by lia. exact (loop_step 5 (VNum x) (mk (TUp :: part 5 b ++ rest) c1) _ _ _ y (mk rest c2) z r eq_refl F eq_refl HB A Fr).
  - apply Dn. exact (loop_step_op 5 (VNum x) (mk (TUp :: part 5 b ++ rest) c1) _ _ _ y (mk rest c2) (@Err value) eq_refl F eq_refl HB I A).
  - apply Dn. exact (loop_step_op 5 (VNum x) (mk (TUp :: part 5 b ++ rest) c1) _ _ _ y (mk rest c2) (@Crash value) eq_refl F eq_refl HB I A).
  - apply Dn. exact (loop_step_op 5 (VNum x) (mk (TUp :: part 5 b ++ rest) c1) _ _ _ y (mk rest c2) (@Nan value) eq_refl F eq_refl HB I A).
  - apply Dn. exact (loop_step_op 5 (VNum x) (mk (TUp :: part 5 b ++ rest) c1) _ _ _ y (mk rest c2) (@Deep value) eq_refl F eq_refl HB I A).
Qed.

(** ** Factors *)
Definition ends_in {B} (m : nat -> M B) (s : st) (rest : list tok) (d : res B) : Prop := match d with Ok v => exists c', EV m s (Ok (v, mk rest c')) | b => EV m s (same_bad b) end.
Lemma then_ends {A B} (m : nat -> M A) (k : nat -> A -> M B) s mid rest d g :
  ends_in m s mid d -> (forall v c', d = Ok v -> ends_in (fun f => k f v) (mk mid c') rest (g v)) -> ends_in (fun f => bindM (m f) (k f)) s rest (rbind d g).
Proof.
  intros H K. destruct d as [v| | | |]; cbn [ends_in rbind] in *.
  - destruct H as [c' H]. specialize (K v c' eq_refl). unfold ends_in in *. destruct (g v) as [x| | | |]; [destruct K as [c2 K]; exists c2|..]; exact (EV_bind m k _ _ _ _ H K).
  - exact (EV_bind_bad m k _ (@Err B) I H).
  - exact (EV_bind_bad m k _ (@Crash B) I H).
  - exact (EV_bind_bad m k _ (@Nan B) I H).
  - exact (EV_bind_bad m k _ (@Deep B) I H).
Qed.
Lemma require_ends {B} p (k : nat -> unit -> M B) t r c rest d : p t = true -> ends_in (fun f => k f tt) (mk r c) rest d -> ends_in (fun f => bindM (require p) (k f)) (mk (t :: r) c) rest d.
Proof.
  intros P H. assert (E : EV (fun _ => require p) (mk (t :: r) c) (Ok (tt, mk r c))) by (apply EV_const; apply require_ok; exact P).
  unfold ends_in in *. destruct d as [x| | | |]; [destruct H as [c2 H]; exists c2|..]; exact (EV_bind (fun _ => require p) k _ _ _ _ E H).
Qed.
Lemma lift_ends {B} (d : res B) c rest : ends_in (fun _ => lift d) (mk rest c) rest d.
Proof. destruct d; [exists c|..]; apply EV_const; reflexivity. Qed.
Lemma ret_ends {B} (v : B) c rest : ends_in (fun _ => ret v) (mk rest c) rest (Ok v).
Proof. exists c. apply EV_const. reflexivity. Qed.
Lemma same_ends {B} (m m' : nat -> M B) s s' rest d d' : (forall f, m f s = m' f s') -> d = d' -> ends_in m' s' rest d' -> ends_in m s rest d.
Proof. intros E -> H. unfold ends_in in *. destruct d'; [destruct H as [c' H]; exists c'|..]; exact (EV_same _ _ _ _ _ E H). Qed.
Notation F := (fun f => factor w (ev w f LExpr) (ev w f LFactor) f).
Lemma good6 e : tightness e = 6%nat -> (well_used vs e -> forall rest c, no_lp rest -> ends_in F (mk (written e ++ rest) c) rest (den w vs sv tx e)) -> Good e.
Proof.
  intros T H U rest R. rewrite T in *. apply concl6_of. intros c. apply (H U rest c). destruct rest as [|t r]; [exact I|]. destruct R as [R _]. destruct t; try exact I. congruence.
Qed.
Lemma real_ends e rest c : well_used vs e -> Good e -> no_lp rest -> ends_in (fun f => realfactor (ev w f LFactor)) (mk (part 6 e ++ rest) c) rest (rbind (den w vs sv tx e) num_of).
Proof. intros U G R. apply (then_ends _ (fun _ n => lift (num_of n)) _ rest). { apply arg6; assumption. } intros v c' _. apply lift_ends. Qed.
Lemma str_ends e rest c : well_used vs e -> Good e -> no_lp rest -> ends_in (fun f => strfactor (ev w f LFactor)) (mk (part 6 e ++ rest) c) rest (rbind (den w vs sv tx e) str_of).
Proof. intros U G R. apply (then_ends _ (fun _ n => lift (str_of n)) _ rest). { apply arg6; assumption. } intros v c' _. apply lift_ends. Qed.
Lemma int_ends e rest c : well_used vs e -> Good e -> no_lp rest -> ends_in (fun f => intfactor (ev w f LFactor)) (mk (part 6 e ++ rest) c) rest (rbind (rbind (den w vs sv tx e) num_of) to_int).
Proof. intros U G R. apply (then_ends _ (fun _ n => lift (to_int n)) _ rest). { apply real_ends; assumption. } intros v c' _. apply lift_ends. Qed.
Lemma strx_ends e rest c : well_used vs e -> Good e -> ends rest -> ends_in (fun f => strexpr (ev w f LExpr)) (mk (written e ++ rest) c) rest (rbind (den w vs sv tx e) str_of).
Proof. intros U G R. apply (then_ends _ (fun _ n => lift (str_of n)) _ rest). { apply good_at0; assumption. } intros v c' _. apply lift_ends. Qed.
Lemma intx_ends e rest c : well_used vs e -> Good e -> ends rest -> ends_in (fun f => intexpr (ev w f LExpr)) (mk (written e ++ rest) c) rest (rbind (rbind (den w vs sv tx e) num_of) to_int).
Proof.
  intros U G R. apply (then_ends _ (fun _ n => lift (to_int n)) _ rest); [|intros v c' _; apply lift_ends].
  apply (then_ends _ (fun _ n => lift (num_of n)) _ rest); [apply good_at0; assumption|]. intros v c' _. apply lift_ends.
Qed.
Lemma written_un u e : written (Un u e) = un_token u :: part 6 e.
Proof. reflexivity. Qed.
Lemma length_ok s : slength s = Z.of_nat (String.length s).
Proof. induction s as [|a s IH]; [reflexivity|]. cbn [slength String.length]. rewrite IH. lia. Qed.
Lemma sign_ok q : (if qlt 0 q then 1 else if qlt q 0 then -1 else 0)%Q = match (q ?= 0)%Q with Gt => 1 | Lt => -1 | Eq => 0 end%Q.
Proof.
  destruct (q ?= 0)%Q eqn:E.
  - apply Qeq_alt in E. rewrite !qlt_false by (rewrite E; apply Qle_refl). reflexivity.
  - apply Qlt_alt in E. rewrite (qlt_false 0 q) by (apply Qlt_le_weak; exact E). rewrite qlt_true by exact E. reflexivity.
  - apply Qgt_alt in E. rewrite qlt_true by exact E. reflexivity.
Qed.
Lemma chr_ok z : (let c := ascii_of_N (Z.to_N (z mod 256)) in if Ascii.eqb c (ascii_of_nat 0) then "" else String c "") = (if z mod 256 =? 0 then "" else String (ascii_of_N (Z.to_N (z mod 256))) "").
Proof.
  cbn zeta. destruct (z mod 256 =? 0) eqn:E.
  - apply Z.eqb_eq in E. rewrite E. reflexivity.
  - apply Z.eqb_neq in E. pose proof (Z.mod_pos_bound z 256 ltac:(lia)) as B. destruct (Ascii.eqb _ _) eqn:A; [|reflexivity]. apply Ascii.eqb_eq in A. apply (f_equal N_of_ascii) in A. rewrite N_ascii_embedding in A by lia. cbn in A. lia.
Qed.
Lemma good_un u e : Good e -> Good (Un u e).
Proof.
  intros G. apply good6; [reflexivity|]. intros U rest c R. rewrite written_un. cbn [app].
  assert (RE : forall k, ends_in (fun f => bindM (realfactor (ev w f LFactor)) (fun q => lift (k q))) (mk (part 6 e ++ rest) c) rest (rbind (rbind (den w vs sv tx e) num_of) (fun q => k q : res value))).
  { intros k. apply (then_ends _ (fun _ q => lift (k q)) _ rest); [apply real_ends; assumption|]. intros v c' _. apply lift_ends. }
  assert (SE : forall k, ends_in (fun f => bindM (strfactor (ev w f LFactor)) (fun q => lift (k q))) (mk (part 6 e ++ rest) c) rest (rbind (rbind (den w vs sv tx e) str_of) (fun q => k q : res value))).
  { intros k. apply (then_ends _ (fun _ q => lift (k q)) _ rest); [apply str_ends; assumption|]. intros v c' _. apply lift_ends. }
  assert (IE : forall k, ends_in (fun f => bindM (intfactor (ev w f LFactor)) (fun q => lift (k q))) (mk (part 6 e ++ rest) c) rest (rbind (rbind (rbind (den w vs sv tx e) num_of) to_int) (fun q => k q : res value))).
  { intros k. apply (then_ends _ (fun _ q => lift (k q)) _ rest); [apply int_ends; assumption|]. intros v c' _. apply lift_ends. }
  change (den w vs sv tx (Un u e)) with (rbind (den w vs sv tx e) (un_value w u)).
  destruct u; cbn [un_token].
  - refine (same_ends _ _ _ _ _ _ _ (fun f => eq_refl) _ (RE (fun q => Ok (VNum (- q))))). destruct (den w vs sv tx e) as [[?|?]| | | |]; reflexivity.
  - refine (same_ends _ _ _ _ _ _ _ (fun f => eq_refl) _ (RE (fun q => Ok (VNum q)))). destruct (den w vs sv tx e) as [[?|?]| | | |]; reflexivity.
  - refine (same_ends _ _ _ _ _ _ _ (fun f => eq_refl) _ (IE (fun z => Ok (VNum (inject_Z (Z.lnot z)))))). destruct (den w vs sv tx e) as [[x|?]| | | |]; try reflexivity.
  - refine (same_ends _ _ _ _ _ _ _ (fun f => eq_refl) _ (RE (fun q => Ok (VNum (q * q))))). destruct (den w vs sv tx e) as [[?|?]| | | |]; reflexivity.
  - refine (same_ends _ _ _ _ _ _ _ (fun f => eq_refl) _ (RE (fun q => Ok (VNum (Qabs q))))). destruct (den w vs sv tx e) as [[?|?]| | | |]; reflexivity.
  - refine (same_ends _ _ _ _ _ _ _ (fun f => eq_refl) _ (RE (fun q => Ok (VNum (if qlt 0 q then 1 else if qlt q 0 then -1 else 0))))). destruct (den w vs sv tx e) as [[x|?]| | | |]; try reflexivity. cbn [rbind un_value number_of num_of]. rewrite sign_ok. reflexivity.
  - refine (same_ends _ _ _ _ _ _ _ (fun f => eq_refl) _ (RE (fun q => Ok (VNum (inject_Z (Qceiling q)))))). destruct (den w vs sv tx e) as [[?|?]| | | |]; reflexivity.
  - refine (same_ends _ _ _ _ _ _ _ (fun f => eq_refl) _ (RE (fun q => Ok (VNum (inject_Z (Qfloor q)))))). destruct (den w vs sv tx e) as [[?|?]| | | |]; reflexivity.
  - refine (same_ends _ _ _ _ _ _ _ (fun f0 => eq_refl) _ (RE (fun q => match real w f q with Some x => Ok (VNum x) | None => Nan end))). destruct (den w vs sv tx e) as [[?|?]| | | |]; reflexivity.
  - refine (same_ends _ _ _ _ _ _ _ (fun f0 => eq_refl) _ (SE (fun q => Ok (VNum (chem w f q))))). destruct (den w vs sv tx e) as [[?|?]| | | |]; reflexivity.
  - refine (same_ends _ _ _ _ _ _ _ (fun f0 => eq_refl) _ (SE (fun q => Ok (VNum (inject_Z (slength q)))))). destruct (den w vs sv tx e) as [[?|x]| | | |]; try reflexivity. cbn. rewrite length_ok. reflexivity.
  - refine (same_ends _ _ _ _ _ _ _ (fun f0 => eq_refl) _ (SE (fun x => Ok (VNum (match x with "" => 0 | String c _ => inject_Z (code_of c) end))))). destruct (den w vs sv tx e) as [[?|x]| | | |]; reflexivity.
  - refine (same_ends _ _ _ _ _ _ _ (fun f => eq_refl) _ (IE (fun z => Ok (VStr (let c := ascii_of_N (Z.to_N (z mod 256)) in if Ascii.eqb c (ascii_of_nat 0) then "" else String c ""))))).
    destruct (den w vs sv tx e) as [[x|?]| | | |]; try reflexivity. cbn [rbind num_of un_value rounded]. destruct (to_int x) as [z| | | |]; try reflexivity. cbn [rbind]. rewrite chr_ok. reflexivity.
  - refine (same_ends _ _ _ _ _ _ _ (fun f => eq_refl) _ (RE (fun q => Ok (VStr (to_text w q))))). destruct (den w vs sv tx e) as [[?|?]| | | |]; reflexivity.
Qed.
Lemma good_atom_num q : Good (Num q).
Proof. apply good6; [reflexivity|]. intros U rest c R. exists c. apply EV_at. reflexivity. Qed.
Lemma good_atom_text x : Good (Text x).
Proof. apply good6; [reflexivity|]. intros U rest c R. exists c. apply EV_at. reflexivity. Qed.
Lemma good_atom_quant x : Good (Quant x).
Proof. apply good6; [reflexivity|]. intros U rest c R. exists c. apply EV_at. reflexivity. Qed.
Lemma good_var x : Good (Var x).
Proof.
  apply good6; [reflexivity|]. intros U rest c R. cbn [well_used] in U. exists (set c x scalar). apply EV_at. intros f. cbn [written app].
  unfold factor, mk. cbn [toks]. unfold bindM, findvar. cbn [toks vars]. destruct rest as [|t r].
  - rewrite U. unfold with_cur, with_toks, fetch. cbn [rbind fst snd toks vars cur saved texts]. unfold set at 1. rewrite String.eqb_refl. reflexivity.
  - destruct t; try (rewrite U; unfold with_cur, with_toks, fetch; cbn [rbind fst snd toks vars cur saved texts]; unfold set at 1; rewrite String.eqb_refl; reflexivity). destruct R.
Qed.
Lemma good_trim k a : Good a -> Good (Trim k a).
Proof.
  intros G. apply good6; [reflexivity|]. intros U rest c R. cbn [well_used] in U.
  refine (same_ends _ (fun f => text_call (ev w f LFactor) (fun x => VStr (trimmed k x))) _ (mk (TLp :: part 6 a ++ TRp :: rest) c) _ _ (rbind (rbind (den w vs sv tx a) str_of) (fun x => Ok (VStr (trimmed k x)))) _ _ _).
  - intros f. change (written (Trim k a)) with (trim_token k :: TLp :: part 6 a ++ [TRp]). cbn [app]. rewrite <- app_assoc. destruct k; reflexivity.
  - cbn [den]. destruct (den w vs sv tx a) as [[?|?]| | | |]; reflexivity.
  - unfold text_call. apply require_ends; [reflexivity|]. refine (then_ends _ (fun _ s => bindM (require is_rp) (fun _ => ret (VStr (trimmed k s)))) _ (TRp :: rest) _ _ _ _ _); [apply str_ends; [exact U|exact G|exact I]|].
    intros v c' _. apply require_ends; [reflexivity|]. apply ret_ends.
Qed.
Lemma good_par a : Good a -> Good (Par a).
Proof.
  intros G. apply good6; [reflexivity|]. intros U rest c R. cbn [well_used] in U.
  refine (same_ends _ (fun f => bindM (ev w f LExpr) (fun n => bindM (require is_rp) (fun _ => ret n))) _ (mk (written a ++ TRp :: rest) c) _ _ (rbind (den w vs sv tx a) (fun v => Ok v)) _ _ _).
  - intros f. change (written (Par a)) with (TLp :: written a ++ [TRp]). cbn [app]. rewrite <- app_assoc. reflexivity.
  - cbn [den]. destruct (den w vs sv tx a); reflexivity.
  - refine (then_ends _ (fun _ n => bindM (require is_rp) (fun _ => ret n)) _ (TRp :: rest) _ _ _ _ _); [apply good_at0; [exact U|exact G|reflexivity]|]. intros v c' _. apply require_ends; [reflexivity|]. apply ret_ends.
Qed.
Lemma good_instr a b : Good a -> Good b -> Good (Instr a b).
Proof.
  intros Ga Gb. apply good6; [reflexivity|]. intros [Ua Ub] rest c R.
  refine (same_ends _ (fun f => bindM (require is_lp) (fun _ => bindM (strfactor (ev w f LFactor)) (fun a => bindM (require is_comma) (fun _ => bindM (strfactor (ev w f LFactor)) (fun b => bindM (require is_rp) (fun _ => ret (VNum (inject_Z (find_text 0 b a)))))))))
    _ (mk (TLp :: part 6 a ++ TComma :: part 6 b ++ TRp :: rest) c) _ _ (rbind (rbind (den w vs sv tx a) str_of) (fun x => rbind (rbind (den w vs sv tx b) str_of) (fun y => Ok (VNum (inject_Z (find_text 0 y x)))))) _ _ _).
  - intros f. change (written (Instr a b)) with (TInstr :: TLp :: part 6 a ++ TComma :: part 6 b ++ [TRp]). cbn [app]. rewrite <- app_assoc. cbn [app]. rewrite <- app_assoc. reflexivity.
  - cbn [den]. destruct (den w vs sv tx a) as [[?|?]| | | |]; try reflexivity. cbn. destruct (den w vs sv tx b) as [[?|?]| | | |]; reflexivity.
  - apply require_ends; [reflexivity|].
    refine (then_ends _ (fun f a => bindM (require is_comma) (fun _ => bindM (strfactor (ev w f LFactor)) (fun b => bindM (require is_rp) (fun _ => ret (VNum (inject_Z (find_text 0 b a))))))) _ (TComma :: part 6 b ++ TRp :: rest) _ _ _ _ _); [apply str_ends; [exact Ua|exact Ga|exact I]|].
    intros v c' _. apply require_ends; [reflexivity|]. refine (then_ends _ (fun _ b => bindM (require is_rp) (fun _ => ret (VNum (inject_Z (find_text 0 b v))))) _ (TRp :: rest) _ _ _ _ _); [apply str_ends; [exact Ub|exact Gb|exact I]|].
    intros v' c'' _. apply require_ends; [reflexivity|]. apply ret_ends.
Qed.
Lemma good_mid a i j : Good a -> Good i -> Good j -> Good (Mid a i j).
Proof.
  intros Ga Gi Gj. apply good6; [reflexivity|]. intros (Ua & Ui & Uj) rest c R.
  pose (third := fun (x : string) (f : nat) => (fun s => match toks s with TComma :: r => intexpr (ev w f LExpr) (with_toks s r) | _ => Ok (slength x, s) end) : M Z).
  pose (k3 := fun (x : string) (i : Z) (f : nat) (j : Z) => bindM (lift (substr x i j)) (fun y => bindM (require is_rp) (fun _ => ret (VStr y)))).
  pose (k2 := fun (x : string) (f : nat) (i : Z) => bindM (third x f) (k3 x i f)).
  pose (k1 := fun (f : nat) (x : string) => bindM (require is_comma) (fun _ => bindM (intexpr (ev w f LExpr)) (k2 x f))).
  refine (same_ends _ (fun f => bindM (require is_lp) (fun _ => bindM (strexpr (ev w f LExpr)) (k1 f)))
    _ (mk (TLp :: written a ++ TComma :: written i ++ TComma :: written j ++ TRp :: rest) c) _ _
    (rbind (rbind (den w vs sv tx a) str_of) (fun x => rbind (rbind (rbind (den w vs sv tx i) num_of) to_int) (fun i => rbind (rbind (rbind (den w vs sv tx j) num_of) to_int) (fun j => rbind (substr x i j) (fun y => Ok (VStr y)))))) _ _ _).
  - intros f. change (written (Mid a i j)) with (TMid :: TLp :: written a ++ TComma :: written i ++ TComma :: written j ++ [TRp]). cbn [app]. rewrite <- app_assoc. cbn [app]. rewrite <- app_assoc. cbn [app]. rewrite <- app_assoc. reflexivity.
  - cbn [den]. destruct (den w vs sv tx a) as [[?|?]| | | |]; try reflexivity. cbn. destruct (den w vs sv tx i) as [[x|?]| | | |]; try reflexivity. cbn. destruct (to_int x); try reflexivity. cbn. destruct (den w vs sv tx j) as [[y|?]| | | |]; reflexivity.
  - apply require_ends; [reflexivity|]. refine (then_ends _ k1 _ (TComma :: written i ++ TComma :: written j ++ TRp :: rest) _ _ _ _ _); [apply strx_ends; [exact Ua|exact Ga|reflexivity]|].
    intros x c1 _. unfold k1. apply require_ends; [reflexivity|]. refine (then_ends _ (k2 x) _ (TComma :: written j ++ TRp :: rest) _ _ _ _ _); [apply intx_ends; [exact Ui|exact Gi|reflexivity]|].
    intros i' c2 _. unfold k2. refine (then_ends _ (k3 x i') _ (TRp :: rest) _ _ _ _ _).
    + refine (same_ends _ (fun f => intexpr (ev w f LExpr)) _ (mk (written j ++ TRp :: rest) c2) _ _ _ (fun f => eq_refl) eq_refl _). apply intx_ends; [exact Uj|exact Gj|reflexivity].
    + intros j' c3 _. unfold k3. refine (then_ends _ (fun _ y => bindM (require is_rp) (fun _ => ret (VStr y))) _ (TRp :: rest) _ _ _ _ _); [apply lift_ends|]. intros y c4 _. apply require_ends; [reflexivity|]. apply ret_ends.
Qed.
(** Elements. *)
Definition go : list ex -> list Z -> Z -> res Z :=
  fix go (l : list ex) (ds : list Z) (k : Z) : res Z :=
    match l, ds with
    | e :: l, d :: ds => rbind (den w vs sv tx e) (fun v => rbind (rounded v) (fun j => if (0 <=? j) && (j <? d) then go l ds (k * d + j) else Err))
    | [], _ => Ok k
    | _, _ => Err
    end.
Definition all_used : list ex -> Prop := fix all (l : list ex) : Prop := match l with [] => True | e :: l => well_used vs e /\ all l end.
Lemma subscripts_ends l : Forall Good l -> all_used l -> forall ds k c rest, length l = length ds -> l <> [] ->
  ends_in (fun f => subscripts (intexpr (ev w f LExpr)) ds k) (mk (separated (map written l) ++ TRp :: rest) c) (TRp :: rest) (go l ds k).
Proof.
  induction 1 as [|e l G _ IH]; intros U ds k c rest L N; [congruence|]. destruct U as [Ue Ul]. destruct ds as [|d ds]; [discriminate|]. cbn [go].
  assert (Hr : rbind (den w vs sv tx e) (fun v => rbind (rounded v) (fun j => if (0 <=? j) && (j <? d) then go l ds (k * d + j) else Err)) =
               rbind (rbind (rbind (den w vs sv tx e) num_of) to_int) (fun j => if (j <? 0) || (d <=? j) then Err else go l ds (k * d + j))).
  { destruct (den w vs sv tx e) as [[x|?]| | | |]; try reflexivity. cbn. destruct (to_int x) as [j| | | |]; try reflexivity. cbn. destruct (j <? 0) eqn:A; destruct (d <=? j) eqn:B; destruct (0 <=? j) eqn:A'; destruct (j <? d) eqn:B'; cbn; try reflexivity; lia. }
  rewrite Hr. clear Hr. cbn [subscripts].
  destruct l as [|e2 l].
  - destruct ds; [|discriminate]. cbn [map separated].
    refine (then_ends _ (fun f j => if (j <? 0) || (d <=? j) then fail else bindM (ret tt) (fun _ => subscripts (intexpr (ev w f LExpr)) [] (k * d + j))) _ (TRp :: rest) _ _ _ _ _); [apply intx_ends; [exact Ue|exact G|reflexivity]|].
    intros j c' _. destruct ((j <? 0) || (d <=? j)); [apply EV_const; reflexivity|]. exists c'. apply EV_const. reflexivity.
  - destruct ds as [|d2 ds]; [discriminate|]. change (separated (map written (e :: e2 :: l))) with (written e ++ TComma :: separated (map written (e2 :: l))). rewrite <- app_assoc. cbn [app].
    refine (then_ends _ (fun f j => if (j <? 0) || (d <=? j) then fail else bindM (require is_comma) (fun _ => subscripts (intexpr (ev w f LExpr)) (d2 :: ds) (k * d + j))) _ (TComma :: separated (map written (e2 :: l)) ++ TRp :: rest) _ _ _ _ _); [apply intx_ends; [exact Ue|exact G|reflexivity]|].
    intros j c' _. destruct ((j <? 0) || (d <=? j)); [apply EV_const; reflexivity|]. apply require_ends; [reflexivity|]. apply IH; [exact Ul|cbn in *; lia|discriminate].
Qed.
Lemma good_elem x l : Forall Good l -> Good (Elem x l).
Proof.
  intros G. apply good6; [reflexivity|]. intros (N & L & U) rest c R.
  change (den w vs sv tx (Elem x l)) with (rbind (go l (dims (vs x)) 0) (fun k => Ok (cells (vs x) k))).
  assert (D : dims (vs x) <> []) by (intros D; rewrite D in L; destruct l; [congruence|discriminate]).
  pose proof (subscripts_ends l G U (dims (vs x)) 0 c rest L N) as H.
  assert (W : written (Elem x l) ++ rest = TVar x :: TLp :: separated (map written l) ++ TRp :: rest) by (cbn [written app]; rewrite <- app_assoc; reflexivity).
  rewrite W. clear W.
  refine (same_ends _ (fun f => bindM (subscripts (intexpr (ev w f LExpr)) (dims (vs x)) 0) (fun k => bindM (require is_rp) (fun _ => bindM (fun s => Ok (x, with_cur s x k)) (fun x s => Ok (fetch s x, s))))) _ (mk (separated (map written l) ++ TRp :: rest) c) _ _ _ _ eq_refl _).
  { intros f. unfold factor. cbn [toks mk]. unfold findvar, bindM. cbn [toks mk vars]. destruct (dims (vs x)) as [|d ds] eqn:Dx; [congruence|]. cbn [rbind]. unfold with_toks. cbn [vars toks cur saved texts mk].
    rewrite Dx. unfold mk. destruct (subscripts _ _ _ _) as [[k s1]| | | |]; try reflexivity. cbn [rbind fst snd]. destruct (require is_rp s1) as [[u s2]| | | |]; reflexivity. }
  refine (then_ends _ (fun _ k => bindM (require is_rp) (fun _ => bindM (fun s => Ok (x, with_cur s x k)) (fun x s => Ok (fetch s x, s)))) _ (TRp :: rest) _ _ _ H _).
  intros k c' _. apply require_ends; [reflexivity|]. exists (set c' x k). apply EV_const. unfold bindM, with_cur, fetch, mk. cbn [rbind fst snd toks vars cur saved texts]. unfold set at 1. rewrite String.eqb_refl. reflexivity.
Qed.
(** Keys of GET. *)
Definition keys : list ex -> res string :=
  fix key (l : list ex) : res string := match l with [] => Ok "" | e :: l => rbind (den w vs sv tx e) (fun v => rbind (rounded v) (fun j => rbind (key l) (fun r => Ok (key_part j ++ r)%string))) end.
Definition ends_in2 {B} (m : nat -> nat -> M B) (s : st) (rest : list tok) (d : res B) : Prop :=
  match d with Ok v => exists c', exists f0, forall f g, (f0 <= f)%nat -> (f0 <= g)%nat -> m f g s = Ok (v, mk rest c') | b => exists f0, forall f g, (f0 <= f)%nat -> (f0 <= g)%nat -> m f g s = same_bad b end.
Definition after_first (l : list ex) : list tok := match l with [] => [] | _ => TComma :: separated (map written l) end.
Lemma append_nil s : (s ++ "")%string = s.
Proof. induction s as [|a s IH]; [reflexivity|]. cbn. rewrite IH. reflexivity. Qed.
Lemma append_assoc a b c : ((a ++ b) ++ c)%string = (a ++ (b ++ c))%string.
Proof. induction a as [|x a IH]; [reflexivity|]. cbn. rewrite IH. reflexivity. Qed.
Lemma more_ends l : Forall Good l -> all_used l -> forall x c rest,
  ends_in2 (fun f g => more_keys (ev w f LExpr) g x) (mk (after_first l ++ TRp :: rest) c) rest (rbind (keys l) (fun r => Ok (x ++ r)%string)).
Proof.
  induction 1 as [|e l G _ IH]; intros U x c rest.
  - cbn. exists c, 1%nat. intros f g _ Lg. destruct g as [|g]; [lia|]. cbn. rewrite append_nil. reflexivity.
  - destruct U as [Ue Ul]. assert (T : after_first (e :: l) ++ TRp :: rest = TComma :: written e ++ after_first l ++ TRp :: rest).
    { destruct l as [|e2 l]; [reflexivity|]. cbn [after_first map]. change (separated (written e :: written e2 :: map written l)) with (written e ++ TComma :: separated (map written (e2 :: l))). cbn [app]. rewrite <- app_assoc. reflexivity. }
    rewrite T. clear T. assert (En : ends (after_first l ++ TRp :: rest)) by (destruct l; reflexivity).
    pose proof (intx_ends e (after_first l ++ TRp :: rest) c Ue G En) as H. cbn [keys].
    assert (Hr : forall g : Z -> res string, rbind (den w vs sv tx e) (fun v => rbind (rounded v) g) = rbind (rbind (rbind (den w vs sv tx e) num_of) to_int) g).
    { intros g. destruct (den w vs sv tx e) as [[?|?]| | | |]; reflexivity. }
    rewrite Hr. clear Hr. destruct (rbind (rbind (den w vs sv tx e) num_of) to_int) as [j| | | |]; cbn [rbind ends_in] in *.
    2-5: destruct H as [f0 H]; exists (S f0); intros f g Lf Lg; (destruct g as [|g]; [lia|]); cbn [more_keys toks mk]; change (with_toks _ (written e ++ after_first l ++ TRp :: rest)) with (mk (written e ++ after_first l ++ TRp :: rest) c); unfold bindM; rewrite H by lia; reflexivity.
    destruct H as [c1 [f0 H]]. specialize (IH Ul (x ++ key_part j)%string c1 rest).
    assert (Step : forall f g, (S f0 <= f)%nat -> (1 <= g)%nat -> more_keys (ev w f LExpr) g x (mk (TComma :: written e ++ after_first l ++ TRp :: rest) c) = more_keys (ev w f LExpr) (pred g) (x ++ key_part j)%string (mk (after_first l ++ TRp :: rest) c1)).
    { intros f g Lf Lg. destruct g as [|g]; [lia|]. cbn [more_keys toks mk pred]. change (with_toks _ (written e ++ after_first l ++ TRp :: rest)) with (mk (written e ++ after_first l ++ TRp :: rest) c). unfold bindM. rewrite H by lia. reflexivity. }
    change (keys l) with (keys l) in *. fold keys. destruct (keys l) as [r| | | |]; cbn [rbind ends_in2] in *.
    + destruct IH as [c' [f1 IH]]. exists c', (S (max f0 f1)). intros f g Lf Lg. rewrite Step by lia. rewrite IH by lia. rewrite append_assoc. reflexivity.
    + destruct IH as [f1 IH]. exists (S (max f0 f1)). intros f g Lf Lg. rewrite Step by lia. apply IH; lia.
    + destruct IH as [f1 IH]. exists (S (max f0 f1)). intros f g Lf Lg. rewrite Step by lia. apply IH; lia.
    + destruct IH as [f1 IH]. exists (S (max f0 f1)). intros f g Lf Lg. rewrite Step by lia. apply IH; lia.
    + destruct IH as [f1 IH]. exists (S (max f0 f1)). intros f g Lf Lg. rewrite Step by lia. apply IH; lia.
Qed.
Lemma head_written e rest : exists t r, written e ++ rest = t :: r /\ t <> TRp.
Proof.
  revert rest. induction e using ex_induct; intros rest; try (eexists; eexists; split; [reflexivity|discriminate]).
  - eexists; eexists; split; [reflexivity|]. destruct u; discriminate.
  - assert (Pt : forall n rest, exists t r, part n e1 ++ rest = t :: r /\ t <> TRp).
    { intros n rest0. unfold part. destruct (Nat.leb n (tightness e1)); [apply IHe1|]. eexists; eexists; split; [reflexivity|discriminate]. }
    rewrite written_bin. destruct o; rewrite <- app_assoc; apply Pt.
  - eexists; eexists; split; [reflexivity|]. destruct k; discriminate.
Qed.
Lemma key_ends l c rest : Forall Good l -> all_used l -> l <> [] ->
  ends_in (fun f => get_key (ev w f LExpr) f) (mk (TLp :: separated (map written l) ++ TRp :: rest) c) rest (keys l).
Proof.
  intros G U N. destruct l as [|e l]; [congruence|]. inversion G as [|? ? Ge Gl]; subst. destruct U as [Ue Ul].
  unfold get_key. apply require_ends; [reflexivity|].
  assert (T : separated (map written (e :: l)) ++ TRp :: rest = written e ++ after_first l ++ TRp :: rest).
  { destruct l as [|e2 l]; [reflexivity|]. change (separated (map written (e :: e2 :: l))) with (written e ++ TComma :: separated (map written (e2 :: l))). rewrite <- app_assoc. reflexivity. }
  rewrite T. clear T. assert (En : ends (after_first l ++ TRp :: rest)) by (destruct l; reflexivity).
  refine (same_ends _ (fun f => bindM (intexpr (ev w f LExpr)) (fun i => more_keys (ev w f LExpr) f (key_part i))) _ (mk (written e ++ after_first l ++ TRp :: rest) c) _ _
    (rbind (rbind (rbind (den w vs sv tx e) num_of) to_int) (fun j => rbind (keys l) (fun r => Ok (key_part j ++ r)%string))) _ _ _).
  - intros f. destruct (head_written e (after_first l ++ TRp :: rest)) as (t & r & E & Nt). rewrite E. cbn [toks mk]. destruct t; try reflexivity. congruence.
  - cbn [keys]. destruct (den w vs sv tx e) as [[?|?]| | | |]; reflexivity.
  - refine (then_ends _ (fun f i => more_keys (ev w f LExpr) f (key_part i)) _ (after_first l ++ TRp :: rest) _ _ _ _ _); [apply intx_ends; assumption|].
    intros j c' _. pose proof (more_ends l Gl Ul (key_part j) c' rest) as H. unfold ends_in, ends_in2 in *. destruct (rbind (keys l) (fun r => Ok (key_part j ++ r)%string)).
    + destruct H as [c2 [f0 H]]. exists c2, f0. intros f Lf. apply H; exact Lf.
    + destruct H as [f0 H]. exists f0. intros f Lf. apply H; exact Lf.
    + destruct H as [f0 H]. exists f0. intros f Lf. apply H; exact Lf.
    + destruct H as [f0 H]. exists f0. intros f Lf. apply H; exact Lf.
    + destruct H as [f0 H]. exists f0. intros f Lf. apply H; exact Lf.
Qed.
Lemma good_get l : Forall Good l -> Good (Get l).
Proof.
  intros G. apply good6; [reflexivity|]. intros [N U] rest c R.
  refine (same_ends _ (fun f => bindM (get_key (ev w f LExpr) f) (fun k s => Ok (VNum (match saved s k with Some q => q | None => 0 end), s))) _ (mk (TLp :: separated (map written l) ++ TRp :: rest) c) _ _ _ _ eq_refl _).
  - intros f. cbn [written app]. rewrite <- app_assoc. reflexivity.
  - change (den w vs sv tx (Get l)) with (rbind (keys l) (fun k => Ok (VNum (match sv k with Some q => q | None => 0 end)))).
    refine (then_ends _ (fun _ k s => Ok (VNum (match saved s k with Some q => q | None => 0 end), s)) _ rest _ _ _ (key_ends l c rest G U N) _). intros k c' _. exists c'. apply EV_const. reflexivity.
Qed.
Lemma good_gett l : Forall Good l -> Good (GetText l).
Proof.
  intros G. apply good6; [reflexivity|]. intros [N U] rest c R.
  refine (same_ends _ (fun f => bindM (get_key (ev w f LExpr) f) (fun k s => match texts s k with Some x => if 256 <=? slength x then Crash else Ok (VStr x, s) | None => Ok (VStr "unknown", s) end)) _ (mk (TLp :: separated (map written l) ++ TRp :: rest) c) _ _ _ _ eq_refl _).
  - intros f. cbn [written app]. rewrite <- app_assoc. reflexivity.
  - change (den w vs sv tx (GetText l)) with (rbind (keys l) (fun k => match tx k with Some x => if 256 <=? Z.of_nat (String.length x) then Crash else Ok (VStr x) | None => Ok (VStr "unknown") end)).
    refine (then_ends _ (fun _ k s => match texts s k with Some x => if 256 <=? slength x then Crash else Ok (VStr x, s) | None => Ok (VStr "unknown", s) end) _ rest _ _ _ (key_ends l c rest G U N) _).
    intros k c' _. cbv beta. destruct (tx k) as [x|] eqn:Tk.
    + rewrite <- length_ok. destruct (256 <=? slength x) eqn:B; [apply EV_const|exists c'; apply EV_const]; cbn [texts mk]; rewrite Tk, B; reflexivity.
    + exists c'. apply EV_const. cbn [texts mk]. rewrite Tk. reflexivity.
Qed.
Theorem all_good e : Good e.
Proof.
  induction e using ex_induct.
  - apply good_atom_num.
  - apply good_atom_text.
  - apply good_var.
  - apply good_elem. assumption.
  - apply good_atom_quant.
  - apply good_un. assumption.
  - destruct o; try (apply good_bin; [discriminate|assumption|assumption]). apply good_pow; assumption.
  - apply good_instr; assumption.
  - apply good_trim; assumption.
  - apply good_par; assumption.
  - apply good_get; assumption.
  - apply good_gett; assumption.
  - apply good_mid; assumption.
Qed.
(** No meaning is endless. *)
Lemma to_long_nd q : to_long q <> Deep.
Proof. unfold to_long. destruct (_ && _); discriminate. Qed.
End W.
