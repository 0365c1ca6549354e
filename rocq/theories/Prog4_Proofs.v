(** Lemmas for C76: loops, subroutines and whole programs. *)
From Coq Require Import String Ascii List ZArith QArith Qround Qabs Bool Lia Lqa.
From Verif Require Import CStr_Model CNum_Model Qx Basic_Model Basic_Spec Basic_Proofs Basic2_Proofs Prog_Model Prog_Spec Prog_Proofs Prog2_Proofs Prog3_Proofs.
Import ListNotations.
Local Open Scope string_scope.
Local Open Scope list_scope.
Local Open Scope Z_scope.

Lemma outside_ok v l i : outside v l i = true <-> ~ inside v l i.
Proof.
  unfold outside, inside. destruct (Qcompare_spec i 0) as [E|E|E].
  - rewrite !qle_true by lra. cbn [andb]. destruct (qlt l v) eqn:A; [apply qlt_t in A; cbn; split; [intros _ X; lra|auto]|apply qlt_f in A]. destruct (qlt v l) eqn:B; [apply qlt_t in B; cbn; split; [intros _ X; lra|auto]|apply qlt_f in B].
    cbn. split; [discriminate|]. intros X. exfalso. apply X. lra.
  - rewrite (qle_false 0 i) by lra. rewrite (qle_true i 0) by lra. cbn. destruct (qlt v l) eqn:B; [apply qlt_t in B; split; [intros _ X; lra|auto]|apply qlt_f in B]. split; [discriminate|]. intros X. exfalso. apply X. lra.
  - rewrite (qle_false i 0) by lra. rewrite (qle_true 0 i) by lra. cbn. rewrite orb_false_r. destruct (qlt l v) eqn:B; [apply qlt_t in B; split; [intros _ X; lra|auto]|apply qlt_f in B]. split; [discriminate|]. intros X. exfalso. apply X. lra.
Qed.
Lemma within_ok v l i : within v l i = true <-> inside v l i.
Proof.
  unfold within, inside. destruct (Qcompare_spec i 0) as [E|E|E].
  - rewrite (qlt_false i 0), (qlt_false 0 i) by lra. cbn [orb]. destruct (qle v l) eqn:A; destruct (qle l v) eqn:B; unfold qle in *; try apply Qle_bool_iff in A; try apply Qle_bool_iff in B; cbn; split; try discriminate; auto; intros X; try lra.
    all: try (assert (Y : (l <= v)%Q) by lra; apply Qle_bool_iff in Y; congruence). all: assert (Y : (v <= l)%Q) by lra; apply Qle_bool_iff in Y; congruence.
  - rewrite (qlt_true i 0), (qlt_false 0 i) by lra. cbn. unfold qle. apply Qle_bool_iff.
  - rewrite (qlt_false i 0), (qlt_true 0 i) by lra. cbn. rewrite andb_true_r. unfold qle. apply Qle_bool_iff.
Qed.
Lemma inside_dec v l i : inside v l i \/ ~ inside v l i.
Proof. destruct (within v l i) eqn:E; [left|right]; [apply within_ok; exact E|]. intros X. apply within_ok in X. congruence. Qed.
Lemma qeq0 q : qeq q 0 = true <-> (q == 0)%Q.
Proof. unfold qeq. apply Qeq_bool_iff. Qed.
Lemma truth_both w s e : truth w s e true -> truth w s e false -> False.
Proof. intros (q & [_ V] & N) (q2 & [_ V2] & E). rewrite V in V2. injection V2 as ->. contradiction. Qed.
Lemma check_both w s e b : check w s e true b -> check w s e false b -> False.
Proof. destruct e; [apply truth_both|]. cbn. intros <-. discriminate. Qed.

Section W.
Variables (w : world) (PR : list line) (procs : Z -> option cmd) (all_data : list value).
Notation mm := (mm PR).
Hypothesis no_comma : match PR with (_, TComma :: _) :: _ => False | _ => True end.
Hypothesis Hdata : data_of PR all_data.
Hypothesis Hprocs : subroutines PR procs.
Notation goes s c := (reaches w s c).

(** The condition of IF, WHILE and WEND. *)
Lemma p_truth s e b r h L c d : truth w s e b -> ends r -> exists c' q, EVP (fun f => realx w f) (mm (written e ++ r, h) s L c d) (Ok (q, mm (r, h) s L c' d)) /\ qeq q 0 = negb b.
Proof.
  intros (q & V & B) R. destruct (p_real w PR s e q r h L c d V R) as (c' & H). exists c', q. split; [exact H|]. destruct b; cbn.
  - destruct (qeq q 0) eqn:E; [|reflexivity]. apply qeq0 in E. contradiction.
  - apply qeq0. exact B.
Qed.
Lemma not_eos e r : eos (written e ++ r) = false.
Proof. destruct (written_first e) as (x & u & -> & _ & E & _). destruct x; try discriminate; reflexivity. Qed.

(** ** IF *)
Lemma if_true s e t h L c d : truth w s e true -> match t with TNum _ :: _ => False | _ => True end -> exists c', goes (mm (TIf :: written e ++ TThen :: t, h) s L c d) (mm (t, h) s L c' d).
Proof.
  intros T N. destruct (p_truth s e true (TThen :: t) h L c d T ltac:(reflexivity)) as (c1 & q & H1 & B). exists c1. apply step_stmt with (fl := Open); [discriminate| |exact I].
  cbn [stmt]. unfold cmd_if. bind H1. eapply PB; [apply p_need; reflexivity|]. cbn beta. rewrite B. cbn [negb]. bindc. apply PA. intros f. change (rest (mm (t, h) s L c1 d)) with t. destruct t as [|x t]; [reflexivity|]. destruct x; try reflexivity. destruct N.
Qed.
Lemma if_false s e t u h L c d : truth w s e false -> skip_if 0 t = u -> match u with TNum _ :: _ => False | _ => True end -> exists c', goes (mm (TIf :: written e ++ TThen :: t, h) s L c d) (mm (u, h) s L c' d).
Proof.
  intros T K N. destruct (p_truth s e false (TThen :: t) h L c d T ltac:(reflexivity)) as (c1 & q & H1 & B). exists c1. apply step_stmt with (fl := Open); [discriminate| |exact I].
  cbn [stmt]. unfold cmd_if. bind H1. eapply PB; [apply p_need; reflexivity|]. cbn beta. rewrite B. cbn [negb].
  eapply PB; [apply PC; reflexivity|]. cbn beta. apply PA. intros f.
  change (to (mm (t, h) s L c1 d) (skip_if 0 (rest (mm (t, h) s L c1 d)))) with (mm (skip_if 0 t, h) s L c1 d). rewrite K. change (rest (mm (u, h) s L c1 d)) with u.
  destruct u as [|x u]; [reflexivity|]. destruct x; try reflexivity. destruct N.
Qed.
Lemma else_step s u h L c d : goes (mm (TElse :: u, h) s L c d) (mm ([], h) s L c d).
Proof. apply step_stmt with (fl := Plain); [discriminate| |reflexivity]. apply PA. intros f. reflexivity. Qed.

(** ** FOR and NEXT *)
Lemma number_ok p s L c d x q : dims (vs s x) = [] -> cells (vs s x) scalar = VNum q -> number_at (mm p s L c d) x = Ok q.
Proof. intros D C. unfold number_at, target. cbn [base Prog_Proofs.mm vars]. rewrite D, C. reflexivity. Qed.
Lemma put_scalar x v p s L c d : dims (vs s x) = [] -> put_value x v (mm p s L c d) = Ok (tt, mm p (written_to s x scalar v) L c d).
Proof. intros D. apply put_at. unfold target. cbn [base Prog_Proofs.mm vars]. rewrite D. reflexivity. Qed.
Lemma cell_written s x k v : cells (vs (written_to s x k v) x) k = v.
Proof. unfold written_to. cbn [vs]. rewrite String.eqb_refl. cbn [cells]. rewrite Z.eqb_refl. reflexivity. Qed.
Lemma dims_written s x k v : dims (vs (written_to s x k v) x) = dims (vs s x).
Proof. unfold written_to. cbn [vs]. rewrite String.eqb_refl. reflexivity. Qed.
Lemma for_head s x a b c qa qb qc r h L c0 d : is_text x = false -> dims (vs s x) = [] -> value_in w s a (VNum qa) ->
  let s1 := written_to s x scalar (VNum qa) in
  value_in w s1 b (VNum qb) -> match c with None => qc = 1%Q | Some c => value_in w s1 c (VNum qc) end -> eos r = true ->
  exists c', (inside qa qb qc -> goes (mm (TFor :: TVar x :: TEq :: written a ++ TTo :: written b ++ step_text c ++ r, h) s L c0 d) (mm (r, h) s1 (LFor x qb qc h r :: L) c' d)) /\
    (forall t' r' h', ~ inside qa qb qc -> scan (upd_for x) (0, 0) r h = Some (t' ++ r', h') -> forallb quiet t' = true -> eos r' = true ->
      goes (mm (TFor :: TVar x :: TEq :: written a ++ TTo :: written b ++ step_text c ++ r, h) s L c0 d) (mm (r', h') s1 L c' d)).
Proof.
  intros Tx D Va s1 Vb Vc R.
  destruct (p_find w PR s (Whole x) x scalar (TEq :: written a ++ TTo :: written b ++ step_text c ++ r) h L c0 d (at_whole w s x D) I) as (c1 & H1 & _).
  destruct (p_real w PR s a qa (TTo :: written b ++ step_text c ++ r) h L c1 d Va ltac:(reflexivity)) as (c2 & H2).
  assert (En : ends (step_text c ++ r)) by (destruct c; [reflexivity|apply eos_ends; exact R]).
  destruct (p_real w PR s1 b qb (step_text c ++ r) h L c2 d Vb En) as (c3 & H3).
  assert (H4 : exists c4, EVP (fun f m => match rest m with TStep :: u => realx w f (to m u) | _ => Ok (1%Q, m) end) (mm (step_text c ++ r, h) s1 L c3 d) (Ok (qc, mm (r, h) s1 L c4 d))).
  { destruct c as [c|]; cbn [step_text app] in *.
    - destruct (p_real w PR s1 c qc r h L c3 d Vc (eos_ends r R)) as (c4 & H4). exists c4. exact (PS _ _ _ _ _ (fun f => eq_refl) H4).
    - subst qc. exists c3. apply PA. intros f. change (rest (mm (r, h) s1 L c3 d)) with r. destruct r as [|y r]; [reflexivity|]. destruct y; try discriminate; reflexivity. }
  destruct H4 as (c4 & H4). exists c4.
  assert (Common : forall fin, EVP (fun f m => rbind (number_at m x) (fun v =>
       if outside v qb qc then (do* _ := skip_to (upd_for x) in do* _ := change (fun m => to m (skip_eos (rest m))) in pret Plain) m
       else Ok (Plain, with_stack m (LFor x qb qc (here m) (rest m) :: stack m)))) (mm (r, h) s1 L c4 d) (Ok (Plain, fin)) -> eos (rest fin) = true ->
     goes (mm (TFor :: TVar x :: TEq :: written a ++ TTo :: written b ++ step_text c ++ r, h) s L c0 d) fin).
  { intros fin F Ef. apply step_stmt with (fl := Plain); [discriminate| |exact Ef]. cbn [stmt]. unfold cmd_for. bind H1. rewrite Tx. eapply PB; [apply p_need; reflexivity|]. cbn beta. bind H2.
    eapply PB; [apply PC; apply put_scalar; exact D|]. cbn beta. eapply PB; [apply p_need; reflexivity|]. cbn beta. fold s1. bind H3. bind H4. exact F. }
  assert (Nm : number_at (mm (r, h) s1 L c4 d) x = Ok qa) by (apply number_ok; [unfold s1; rewrite dims_written; exact D|apply cell_written]).
  split.
  - intros In. apply Common; [|exact R]. apply PA. intros f. rewrite Nm. cbn [rbind]. replace (outside qa qb qc) with false; [reflexivity|]. destruct (outside qa qb qc) eqn:O; [|reflexivity]. apply outside_ok in O. contradiction.
  - intros t' r' h' Out Sk Qt Er. apply Common; [|exact Er]. apply PA. intros f. rewrite Nm. cbn [rbind]. replace (outside qa qb qc) with true by (symmetry; apply outside_ok; exact Out).
    unfold pbind, skip_to. change (rest (mm (r, h) s1 L c4 d)) with r. change (here (mm (r, h) s1 L c4 d)) with h. rewrite Sk. cbn [rbind fst snd]. unfold change, pret. cbn [rbind fst snd].
    change (rest (with_here (mm (r, h) s1 L c4 d) h' (t' ++ r'))) with (t' ++ r'). rewrite skip_quiet by assumption. reflexivity.
Qed.
Lemma next_step (named : bool) s x limit inc q home htok r' h' L c d : dims (vs s x) = [] -> cells (vs s x) scalar = VNum q -> eos r' = true -> eos htok = true ->
  let s1 := written_to s x scalar (VNum (q + inc)) in
  exists c', goes (mm (TNext :: (if named then [TVar x] else []) ++ r', h') s (LFor x limit inc home htok :: L) c d)
    (if within (q + inc) limit inc then mm (htok, home) s1 (LFor x limit inc home htok :: L) c' d else mm (r', h') s1 L c' d).
Proof.
  intros D C R Rt s1.
  assert (V : exists c1, EVP (fun f => pbind eosP (fun e => if e then pret None else pbind (find w f) (fun x => pret (Some x)))) (mm ((if named then [TVar x] else []) ++ r', h') s (LFor x limit inc home htok :: L) c d)
     (Ok (if named then Some x else None, mm (r', h') s (LFor x limit inc home htok :: L) c1 d))).
  { destruct named; cbn [app].
    - destruct (p_find w PR s (Whole x) x scalar r' h' (LFor x limit inc home htok :: L) c d (at_whole w s x D)) as (c1 & H1 & _). { destruct r' as [|y r']; [exact I|]; destruct y; try discriminate; exact I. }
      exists c1. bindc. change (rest _) with (TVar x :: r'). cbn [eos]. cbn [written_lhs app] in H1. bind H1. apply PC. reflexivity.
    - exists c. bindc. change (rest _) with r'. rewrite R. apply PC. reflexivity. }
  destruct V as (c1 & V). exists c1.
  apply step_stmt with (fl := Plain); [discriminate| |destruct (within (q + inc) limit inc); [exact Rt|exact R]].
  cbn [stmt]. destruct V as (f0 & V). exists f0. intros f Lf. specialize (V f Lf).
  unfold cmd_next. unfold pbind at 1. unfold pbind in V at 1. unfold eosP in V |- *. cbn [rbind fst snd] in V |- *. unfold pbind at 1. rewrite V. cbn [rbind fst snd]. change (stack _) with (LFor x limit inc home htok :: L).
  replace (unwind_for (if named then Some x else None) (LFor x limit inc home htok :: L)) with (Some (LFor x limit inc home htok :: L)) by (cbn [unwind_for]; destruct named; cbn [is_mine]; rewrite ?String.eqb_refl; reflexivity).
  cbn iota. cbn zeta. change (with_stack (mm (r', h') s (LFor x limit inc home htok :: L) c1 d) (LFor x limit inc home htok :: L)) with (mm (r', h') s (LFor x limit inc home htok :: L) c1 d).
  rewrite number_ok with (q := q) by assumption. cbn [rbind]. cbn zeta. unfold pbind. rewrite put_scalar by exact D. cbn [rbind fst snd]. fold s1. destruct (within (q + inc) limit inc); reflexivity.
Qed.

(** ** WHILE and WEND *)
Lemma while_head s e1 r h L c d : eos r = true ->
  (check w s e1 true true -> exists c', goes (mm (TWhile :: option_text e1 ++ r, h) s L c d) (mm (r, h) s (LWhile h (option_text e1 ++ r) :: L) c' d)) /\
  (check w s e1 false true -> forall t' r' h', scan upd_while (0, 0) r h = Some (t' ++ r', h') -> forallb quiet t' = true -> eos r' = true ->
     exists c', goes (mm (TWhile :: option_text e1 ++ r, h) s L c d) (mm (r', h') s L c' d)).
Proof.
  intros R. split.
  - destruct e1 as [e|]; cbn [option_text app check].
    + intros T. destruct (p_truth s e true r h (LWhile h (written e ++ r) :: L) c d T (eos_ends r R)) as (c1 & q & H1 & B). exists c1. apply step_stmt with (fl := Plain); [discriminate| |exact R].
      cbn [stmt]. apply PS with (p' := fun f => do* q := realx w f in if qeq q 0 then do* _ := skip_to upd_while in do* _ := change (fun m => with_stack m (tl (stack m))) in do* _ := change (fun m => to m (skip_eos (rest m))) in pret Plain else pret Plain)
        (m' := mm (written e ++ r, h) s (LWhile h (written e ++ r) :: L) c d).
      { intros f. unfold cmd_while. change (rest (mm (written e ++ r, h) s L c d)) with (written e ++ r). rewrite not_eos. reflexivity. }
      bind H1. rewrite B. apply PC. reflexivity.
    + intros _. exists c. apply step_stmt with (fl := Plain); [discriminate| |exact R]. apply PA. intros f. cbn [stmt]. unfold cmd_while. change (rest (mm (r, h) s L c d)) with r. rewrite R. reflexivity.
  - destruct e1 as [e|]; cbn [option_text app check]; [|discriminate]. intros T t' r' h' Sk Qt Er.
    destruct (p_truth s e false r h (LWhile h (written e ++ r) :: L) c d T (eos_ends r R)) as (c1 & q & H1 & B). exists c1. apply step_stmt with (fl := Plain); [discriminate| |exact Er].
    cbn [stmt]. apply PS with (p' := fun f => do* q := realx w f in if qeq q 0 then do* _ := skip_to upd_while in do* _ := change (fun m => with_stack m (tl (stack m))) in do* _ := change (fun m => to m (skip_eos (rest m))) in pret Plain else pret Plain)
        (m' := mm (written e ++ r, h) s (LWhile h (written e ++ r) :: L) c d).
    { intros f. unfold cmd_while. change (rest (mm (written e ++ r, h) s L c d)) with (written e ++ r). rewrite not_eos. reflexivity. }
    bind H1. rewrite B. cbn [negb]. apply PA. intros f. unfold pbind, skip_to, change, pret.
    change (rest (mm (r, h) s (LWhile h (written e ++ r) :: L) c1 d)) with r. change (here (mm (r, h) s (LWhile h (written e ++ r) :: L) c1 d)) with h. rewrite Sk. cbn [rbind fst snd].
    change (rest (with_stack (with_here (mm (r, h) s (LWhile h (written e ++ r) :: L) c1 d) h' (t' ++ r')) (tl (stack (with_here (mm (r, h) s (LWhile h (written e ++ r) :: L) c1 d) h' (t' ++ r')))))) with (t' ++ r').
    rewrite skip_quiet by assumption. reflexivity.
Qed.
(** A condition that may be left out. *)
Lemma p_check s e b dflt (g : bool -> bool) r h L c d : check w s e b dflt -> eos r = true ->
  exists c', EVP (fun f => do* e := eosP in if e then pret dflt else do* q := realx w f in pret (negb (qeq q 0))) (mm (option_text e ++ r, h) s L c d) (Ok (b, mm (r, h) s L c' d)).
Proof.
  intros C R. destruct e as [e|]; cbn [option_text app check] in *.
  - destruct (p_truth s e b r h L c d C (eos_ends r R)) as (c1 & q & H1 & B). exists c1. bindc. change (rest _) with (written e ++ r). rewrite not_eos. bind H1. rewrite B, negb_involutive. apply PC. reflexivity.
  - subst b. exists c. bindc. change (rest _) with r. rewrite R. apply PC. reflexivity.
Qed.
Lemma wend_step s e1 e2 b2 b1 r h r' h' L c d : check w s e2 b2 false -> (b2 = false -> check w s e1 b1 true) -> eos r = true -> eos r' = true ->
  exists c', goes (mm (TWend :: option_text e2 ++ r', h') s (LWhile h (option_text e1 ++ r) :: L) c d)
    (if negb b2 && b1 then mm (r, h) s (LWhile h (option_text e1 ++ r) :: L) c' d else mm (r', h') s L c' d).
Proof.
  intros C2 C1 R R'. set (K := LWhile h (option_text e1 ++ r)). destruct (p_check s e2 b2 false (fun b => b) r' h' (K :: L) c d C2 R') as (c1 & f1 & H1). destruct b2; cbn [negb andb].
  - exists c1. apply step_stmt with (fl := Plain); [discriminate| |exact R']. exists f1. intros f Lf. specialize (H1 f Lf). cbn [stmt]. unfold cmd_wend. change (stack _) with (K :: L). unfold K at 1. cbn [unwind_while]. fold K.
    change (with_stack (mm (option_text e2 ++ r', h') s (K :: L) c d) (K :: L)) with (mm (option_text e2 ++ r', h') s (K :: L) c d).
    unfold pbind at 1. unfold pbind in H1 at 1. unfold eosP in H1 |- *. cbn [rbind fst snd] in H1 |- *. unfold pbind at 1. rewrite H1. reflexivity.
  - specialize (C1 eq_refl). destruct (p_check s e1 b1 true (fun b => b) r h (K :: L) c1 d C1 R) as (c2 & f2 & H2). exists c2.
    apply step_stmt with (fl := Plain); [discriminate| |destruct b1; [exact R|exact R']]. exists (max f1 f2). intros f Lf. specialize (H1 f ltac:(lia)). specialize (H2 f ltac:(lia)). cbn [stmt]. unfold cmd_wend. change (stack _) with (K :: L). unfold K at 1. cbn [unwind_while]. fold K.
    change (with_stack (mm (option_text e2 ++ r', h') s (K :: L) c d) (K :: L)) with (mm (option_text e2 ++ r', h') s (K :: L) c d).
    unfold pbind at 1. unfold pbind in H1 at 1. unfold eosP in H1 |- *. cbn [rbind fst snd] in H1 |- *. unfold pbind at 1. rewrite H1. cbn [rbind fst snd].
    change (with_here (mm (r', h') s (K :: L) c1 d) h (option_text e1 ++ r)) with (mm (option_text e1 ++ r, h) s (K :: L) c1 d).
    unfold pbind at 1. unfold pbind in H2 at 1. unfold eosP in H2. cbn [rbind fst snd] in H2 |- *. unfold pbind at 1. rewrite H2. cbn [rbind fst snd]. destruct b1; reflexivity.
Qed.

(** ** GOSUB and RETURN *)
Lemma line_found n q : line_at PR n q -> exists h, find_line n PR = Some ((n, fst q) :: h) /\ snd q = (n, fst q) :: h.
Proof.
  intros (before & t & r & E0 & N & ->). rewrite E0. clear E0. exists r. cbn [fst snd]. split; [|reflexivity]. induction before as [|[k u] before IH]; cbn [app find_line].
  - rewrite Z.eqb_refl. reflexivity.
  - destruct (k =? n) eqn:E; [|apply IH; intros X; apply N; right; exact X]. exfalso. apply N. left. cbn. lia.
Qed.
Lemma whole_num s n : LONG_MIN <= n <= LONG_MAX -> whole_in w s (Num (inject_Z n)) n.
Proof.
  intros B. exists (VNum (inject_Z n)). split; [split; [exact I|reflexivity]|]. cbn [rounded]. unfold to_int.
  assert (F : Qfloor (inject_Z n + (1 # 2)) = n).
  { unfold Qfloor, inject_Z, Qplus. cbn [Qnum Qden]. change (Z.pos (1 * 2)) with 2. replace (n * 2 + 1 * 1) with (1 + n * 2) by lia. rewrite Z.div_add by lia. reflexivity. }
  rewrite F. cbn zeta. replace ((LONG_MIN <=? n) && (n <=? LONG_MAX)) with true by lia. reflexivity.
Qed.
Lemma goto_line s n q r h L c d : LONG_MIN <= n <= LONG_MAX -> line_at PR n q -> ends r ->
  exists c', EVP (fun f => jump w f) (mm (TNum (inject_Z n) :: r, h) s L c d) (Ok (Open, mm q s L c' d)).
Proof.
  intros B H R. destruct (line_found n q H) as (h2 & F & E). destruct (p_int w PR s (Num (inject_Z n)) n r h L c d (whole_num s n B) R) as (c1 & H1). exists c1.
  unfold jump. eapply PB with (a := Plain) (m1 := mm q s L c1 d); [|apply PC; reflexivity]. unfold cmd_goto. cbn [written app] in H1. bind H1. apply PA. intros f. change (prog _) with PR. rewrite F.
  destruct q as [t hq]. cbn [fst snd] in *. subst hq. reflexivity.
Qed.
Lemma gosub_step s n q r h L c d : LONG_MIN <= n <= LONG_MAX -> line_at PR n q -> eos r = true ->
  exists c', goes (mm (TGosub :: TNum (inject_Z n) :: r, h) s L c d) (mm q s (LGosub h (TNum (inject_Z n) :: r) :: L) c' d).
Proof.
  intros B H R. destruct (goto_line s n q r h (LGosub h (TNum (inject_Z n) :: r) :: L) c d B H (eos_ends r R)) as (c1 & H1). exists c1.
  apply step_stmt with (fl := Open); [discriminate| |exact I]. cbn [stmt]. unfold cmd_gosub. bindc. exact H1.
Qed.
Lemma return_step s t r h r2 h2 L c d : forallb quiet t = true -> eos r = true -> eos r2 = true -> goes (mm (TReturn :: r2, h2) s (LGosub h (t ++ r) :: L) c d) (mm (r, h) s L c d).
Proof.
  intros Q R R2. apply step_stmt with (fl := Plain); [discriminate| |exact R]. apply PA. intros f. cbn [stmt]. unfold cmd_return. change (stack _) with (LGosub h (t ++ r) :: L). cbn [unwind_gosub]. rewrite skip_quiet by assumption. reflexivity.
Qed.
Lemma lines_head n ns r : lines_text (n :: ns) ++ r = TNum (inject_Z n) :: match ns with [] => r | _ => TComma :: lines_text ns ++ r end.
Proof. destruct ns; reflexivity. Qed.
Lemma on_step s n q r h L d : eos r = true -> line_at PR n q -> forall ns i k c, Forall (fun n => LONG_MIN <= n <= LONG_MAX) ns -> 1 <= i -> nth_error ns (Z.to_nat (i - 1)) = Some n -> (length ns <= k)%nat ->
  exists c', EVP (fun f => on_list w f k i) (mm (lines_text ns ++ r, h) s L c d) (Ok (Open, mm q s L c' d)).
Proof.
  intros R H. induction ns as [|m ns IH]; intros i k c F Hi Nn Lk. { destruct (Z.to_nat (i - 1)); discriminate. }
  inversion F as [|? ? F1 F2]; subst. destruct (Z.eq_dec i 1) as [->|Ni].
  - cbn in Nn. injection Nn as ->. rewrite lines_head.
    destruct (goto_line s n q (match ns with [] => r | _ => TComma :: lines_text ns ++ r end) h L c d F1 H) as (c1 & H1). { destruct ns; [apply eos_ends; exact R|reflexivity]. }
    exists c1. refine (PS _ _ _ _ _ _ H1). intros f. destruct k; reflexivity.
  - destruct ns as [|m2 ns]. { replace (Z.to_nat (i - 1)) with (S (Z.to_nat (i - 2))) in Nn by lia. cbn in Nn. destruct (Z.to_nat (i - 2)); discriminate. }
    destruct k as [|k]; [cbn in Lk; lia|].
    destruct (IH (i - 1) k c F2 ltac:(lia)) as (c1 & H1). { replace (Z.to_nat (i - 1)) with (S (Z.to_nat (i - 1 - 1))) in Nn by lia. exact Nn. } { cbn in Lk |- *. lia. }
    exists c1. refine (PS _ _ _ _ _ _ H1). intros f. rewrite lines_head. cbn [on_list]. change (rest (mm (TNum (inject_Z m) :: TComma :: lines_text (m2 :: ns) ++ r, h) s L c d)) with (TNum (inject_Z m) :: TComma :: lines_text (m2 :: ns) ++ r).
    replace (1 <? i) with true by lia. reflexivity.
Qed.
Lemma lines_len ns : (length ns <= length (lines_text ns))%nat.
Proof. induction ns as [|n ns IH]; [cbn; lia|]. destruct ns; cbn in *; lia. Qed.
Lemma on_gosub s e ns i n q r h L c d : whole_in w s e i -> 1 <= i -> Forall (fun n => LONG_MIN <= n <= LONG_MAX) ns -> nth_error ns (Z.to_nat (i - 1)) = Some n -> line_at PR n q -> eos r = true ->
  exists c', goes (mm (TOn :: written e ++ TGosub :: lines_text ns ++ r, h) s L c d) (mm q s (LGosub h (TGosub :: lines_text ns ++ r) :: L) c' d).
Proof.
  intros V Hi F N H R. destruct (p_int w PR s e i (TGosub :: lines_text ns ++ r) h L c d V ltac:(reflexivity)) as (c1 & H1).
  destruct (on_step s n q r h (LGosub h (TGosub :: lines_text ns ++ r) :: L) d R H ns i (length (lines_text ns ++ r)) c1 F Hi N) as (c2 & H2). { pose proof (lines_len ns). rewrite app_length. lia. }
  exists c2. apply step_stmt with (fl := Open); [discriminate| |exact I]. cbn [stmt]. unfold cmd_on. bind H1. bindc. replace (i <? 1) with false by lia. exact H2.
Qed.

(** ** Programs *)
Lemma lhs_len l : (length l <= length (separated (map written_lhs l)))%nat.
Proof. induction l as [|t l IH]; [cbn; lia|]. destruct l as [|t2 l]; [destruct t; cbn; lia|]. change (separated (map written_lhs (t :: t2 :: l))) with (written_lhs t ++ TComma :: separated (map written_lhs (t2 :: l))). rewrite app_length. cbn [length] in *. lia. Qed.
Notation offered := (offered PR).
Definition claim (s : memory) (j : job) (s' : memory) : Prop :=
  match j with
  | Do cm => forall p p' L c d, spelled p cm p' -> offered d (feed s) -> exists c' d', offered d' (feed s') /\ goes (mm p s L c d) (mm p' s' L c' d')
  | Rounds x limit inc body => forall q, cells (vs s x) scalar = VNum q ->
      (inside q limit inc -> forall (named : bool) r h p1 p2 r' h' L c d, eos r = true -> next_stmt (r, h) p1 -> spelled p1 body p2 -> next_stmt p2 (TNext :: (if named then [TVar x] else []) ++ r', h') -> eos r' = true ->
         offered d (feed s) -> exists c' d', offered d' (feed s') /\ goes (mm (r, h) s (LFor x limit inc h r :: L) c d) (mm (r', h') s' L c' d')) /\
      (~ inside q limit inc -> s' = s)
  | Again e1 e2 body =>
      (check w s e1 true true -> forall r h p1 p2 r' h' L c d, eos r = true -> next_stmt (r, h) p1 -> spelled p1 body p2 -> next_stmt p2 (TWend :: option_text e2 ++ r', h') -> eos r' = true ->
         offered d (feed s) -> exists c' d', offered d' (feed s') /\ goes (mm (r, h) s (LWhile h (option_text e1 ++ r) :: L) c d) (mm (r', h') s' L c' d')) /\
      (check w s e1 false true -> s' = s) /\ (check w s e1 true true \/ check w s e1 false true)
  end.
Ltac eosr := match goal with H : eos _ = true |- _ => exact H end.
Ltac simple_step O H := let c1 := fresh "c1" in let H1 := fresh "H1" in destruct H as (c1 & H1); exists c1; eexists; split; [exact O|eapply step_stmt with (fl := Plain); [discriminate|exact H1|eosr]].
Theorem simulates s j s' : does w procs all_data s j s' -> claim s j s'.
Proof.
  induction 1 as [s|s t e x k v St V Fi|s l l' stays V|s l l' V|s l l' qs V Nu|s e l q js V Hl Fj|s e l x js V Hl Fj|s x l js D Hl Fj Sz|s x|s t more s' Rd|s|s a b s1 s2 _ IH1 _ IH2|s e a b s' T _ IH|s e a b s' T Hd IH
    |s named x a b c body qa qb qc s' Tx D Va s1 Vb Vc _ IH|s x limit inc body q Cq Out|s x limit inc body q s1 q1 s2 Cq In _ IH1 D1 Cq1 _ IH2|s e1 e2 body s' _ IH|s e1 e2 body Ck|s e1 e2 body s1 Ck _ IH Ck2|s e1 e2 body s1 s2 Ck _ IH1 Ck2 _ IH2|s n cm s' Pn _ IH|s e ns i n cm s' Wi Hi Nn Pn _ IH].
  1-15: intros p p' L c0 d Sp O; inversion Sp; subst.
  - exists c0, d. split; [exact O|]. eapply step_stmt with (fl := Plain); [discriminate| |eosr]. apply PC. reflexivity.
  - exists c0, d. split; [exact O|]. eapply step_stmt with (fl := Plain); [discriminate| |eosr]. apply PA. intros f. cbn [stmt]. rewrite after_change. change (rest (mm (t ++ r, h) s L c0 d)) with (t ++ r). rewrite skip_quiet by (try assumption; apply quiet_data; assumption). reflexivity.
  - simple_step O (do_let w PR s t e x k v r h L c0 d St V Fi ltac:(eosr)).
  - destruct (do_let w PR s t e x k v r h L c0 d St V Fi ltac:(eosr)) as (c1 & H1). exists c1, d. split; [exact O|].
    destruct t as [y|y l]; cbn [written_lhs app] in *; (eapply step_stmt with (fl := Plain); [discriminate|exact H1|eosr]).
  - match goal with Hl : listed _ _ _, Hr : eos _ = true |- _ => destruct (do_print w PR l t stays Hl s l' (length (t ++ r)) false r h L c0 d V Hr ltac:(rewrite app_length; lia)) as (c1 & K); exists c1, d; split; [exact O|];
      eapply step_stmt with (fl := Plain); [discriminate| |exact Hr]; replace (if match l with [] => false | _ => stays end then [] else [ONewline]) with (if stays then [] else [ONewline]) in K; [exact K|destruct Hl; reflexivity] end.
  - match goal with Hl : listed _ _ ?b, Hr : eos _ = true |- _ => destruct (do_values w PR punch_one OPunch l t b Hl s l' (length (t ++ r)) r h L c0 d V Hr ltac:(rewrite app_length; lia)) as (c1 & K); [|exists c1, d; split; [exact O|];
      eapply step_stmt with (fl := Plain); [discriminate|exact K|exact Hr]] end. apply Forall_forall. reflexivity.
  - match goal with Hl : listed _ _ ?b, Hr : eos _ = true |- _ => destruct (do_values w PR save_one (fun v => match v with VNum q => OSave q | VStr _ => ONewline end) l t b Hl s l' (length (t ++ r)) r h L c0 d V Hr ltac:(rewrite app_length; lia)) as (c1 & K);
      [|exists c1, d; split; [exact O|]; eapply step_stmt with (fl := Plain); [discriminate| |exact Hr]] end.
    + rewrite Nu. apply Forall_forall. intros v I0. apply in_map_iff in I0 as (q & <- & _). reflexivity.
    + rewrite Nu, map_map in K. exact K.
  - simple_step O (do_put w PR s e l q js r h L c0 d V Hl Fj).
  - simple_step O (do_puts w PR s e l x js r h L c0 d V Hl Fj).
  - simple_step O (do_dim w PR s x l js (length (TVar x :: TLp :: separated (map written l) ++ TRp :: r)) r h L c0 d D Hl ltac:(assumption) Fj Sz ltac:(eosr)).
  - simple_step O (do_erase PR s x (length (TVar x :: r)) r h L c0 d ltac:(eosr)).
  - destruct (do_read w PR no_comma s (t :: more) s' Rd (S (length (separated (map written_lhs (t :: more)) ++ r))) r h L c0 d ltac:(discriminate) O ltac:(eosr)) as (c1 & d1 & H1 & O1).
    { rewrite app_length. pose proof (lhs_len (t :: more)). lia. }
    exists c1, d1. split; [exact O1|]. eapply step_stmt with (fl := Plain); [discriminate|exact H1|eosr].
  - exists c0, ([], []). split; [exact Hdata|]. eapply step_stmt with (fl := Plain); [discriminate| |eosr]. apply PA. intros f. cbn [stmt]. unfold cmd_restore, pbind, eosP. cbn [rbind fst snd]. change (rest (mm (r, h) s L c0 d)) with r.
    match goal with Hr : eos r = true |- _ => rewrite Hr end. reflexivity.
  - destruct (IH1 p p1 L c0 d ltac:(assumption) O) as (c1 & d1 & O1 & R1). destruct (IH2 p2 p' L c1 d1 ltac:(assumption) O1) as (c2 & d2 & O2 & R2). exists c2, d2. split; [exact O2|].
    eapply reach_trans; [exact R1|]. eapply reach_trans; [apply next_reach; eassumption|exact R2].
  - assert (N : match t with TNum _ :: _ => False | _ => True end) by (match goal with Hs : spelled (t, h) a _ |- _ => destruct (shape_head _ _ _ (shape_of _ _ _ Hs)) as (x & u0 & Ex & Nx); cbn in Ex; subst t; destruct x; try exact I; eapply Nx; reflexivity end).
    destruct (if_true s e t h L c0 d T N) as (c1 & R1). destruct (IH (t, h) (TElse :: u, h) L c1 d ltac:(assumption) O) as (c2 & d2 & O2 & R2). exists c2, d2. split; [exact O2|].
    eapply reach_trans; [exact R1|]. eapply reach_trans; [exact R2|apply else_step].
  - assert (N : match t with TNum _ :: _ => False | _ => True end) by (match goal with Hs : spelled (t, h) a _ |- _ => destruct (shape_head _ _ _ (shape_of _ _ _ Hs)) as (x & u0 & Ex & Nx); cbn in Ex; subst t; destruct x; try exact I; eapply Nx; reflexivity end).
    destruct (if_true s e t h L c0 d T N) as (c1 & R1). destruct (IH (t, h) ([], h) L c1 d ltac:(assumption) O) as (c2 & d2 & O2 & R2). exists c2, d2. split; [exact O2|].
    eapply reach_trans; [exact R1|exact R2].
  - assert (N : match u with TNum _ :: _ => False | _ => True end) by (match goal with Hs : spelled (u, h) b _ |- _ => destruct (shape_head _ _ _ (shape_of _ _ _ Hs)) as (x & u0 & Ex & Nx); cbn in Ex; subst u; destruct x; try exact I; eapply Nx; reflexivity end).
    assert (K : skip_if 0 t = u). { match goal with Hs : spelled (t, h) a _ |- _ => destruct (skip_shape _ _ _ (shape_of _ _ _ Hs) eq_refl 0 ltac:(lia)) as (i1 & _ & K & F1) end. cbn [fst] in K. rewrite F1 in K by assumption. rewrite K. reflexivity. }
    destruct (if_false s e t u h L c0 d T K N) as (c1 & R1). destruct (IH (u, h) ([], h) L c1 d ltac:(assumption) O) as (c2 & d2 & O2 & R2). exists c2, d2. split; [exact O2|].
    eapply reach_trans; [exact R1|exact R2].
  - assert (K : skip_if 0 t = []). { match goal with Hs : spelled (t, h) a _ |- _ => destruct (skip_shape _ _ _ (shape_of _ _ _ Hs) eq_refl 0 ltac:(lia)) as (i1 & _ & K & F1) end. exact K. }
    destruct (if_false s e t [] h L c0 d T K I) as (c1 & R1). inversion Hd; subst. exists c1, d. split; [exact O|exact R1].
  - match goal with X : eos r = true |- _ => rename X into Er end. match goal with X : eos r' = true |- _ => rename X into Er' end. match goal with X : next_stmt (r, h) _ |- _ => rename X into N1 end. match goal with X : spelled p1 body p2 |- _ => rename X into Sb end. match goal with X : next_stmt p2 _ |- _ => rename X into N2 end. match goal with X : tidy _ body |- _ => rename X into Ti end.
    destruct (for_head s x a b c qa qb qc r h L c0 d Tx D Va Vb Vc Er) as (c1 & Hin & Hout). destruct (inside_dec qa qb qc) as [In|Out].
    { destruct (proj1 (IH qa (cell_written s x scalar (VNum qa))) In named r h p1 p2 r' h' L c1 d Er N1 Sb N2 Er' O) as (c2 & d2 & O2 & R2). exists c2, d2. split; [exact O2|]. eapply reach_trans; [exact (Hin In)|exact R2]. }
    rewrite (proj2 (IH qa (cell_written s x scalar (VNum qa))) Out). exists c1, d. split; [exact O|]. apply (Hout (if named then [TVar x] else [])); [exact Out| |destruct named; reflexivity|exact Er'].
    pose proof (mild_for x) as M. change (Sc (upd_for x) (0, 0) (r, h) = Some ((if named then [TVar x] else []) ++ r', h')).
    rewrite (scan_next (upd_for x) (0, 0) _ _ M ltac:(reflexivity) N1), (scan_for x _ _ _ (shape_of _ _ _ Sb) Ti 0 0 ltac:(lia) ltac:(lia)), (scan_next (upd_for x) (0, 0) _ _ M ltac:(reflexivity) N2).
    unfold Sc; cbn [fst snd]; rewrite scan_cons; cbn [upd_for].
    replace (names x ((if named then [TVar x] else []) ++ r')) with named; [destruct named; reflexivity|].
    destruct named; cbn [app names]; [rewrite String.eqb_refl; reflexivity|]. destruct r' as [|y r']; [reflexivity|]. destruct y; try discriminate; reflexivity.
  - intros q0 Cq0. rewrite Cq in Cq0. injection Cq0 as <-. split; [contradiction|reflexivity].
  - intros q0 Cq0. rewrite Cq in Cq0. injection Cq0 as <-. split; [intros _|contradiction]. intros named r h p1 p2 r' h' L c d Er N1 Sb N2 Er' O.
    destruct (IH1 p1 p2 (LFor x limit inc h r :: L) c d Sb O) as (c1 & d1 & O1 & R1).
    destruct (next_step named s1 x limit inc q1 h r r' h' L c1 d1 D1 Cq1 Er' Er) as (c2 & R2).
    destruct (IH2 (q1 + inc)%Q (cell_written s1 x scalar _)) as [IHin IHout].
    assert (R0 : goes (mm (r, h) s (LFor x limit inc h r :: L) c d) (mm (TNext :: (if named then [TVar x] else []) ++ r', h') s1 (LFor x limit inc h r :: L) c1 d1)).
    { eapply reach_trans; [apply next_reach; exact N1|]. eapply reach_trans; [exact R1|]. apply next_reach. exact N2. }
    destruct (within (q1 + inc) limit inc) eqn:W.
    + apply within_ok in W. destruct (IHin W named r h p1 p2 r' h' L c2 d1 Er N1 Sb N2 Er' O1) as (c3 & d3 & O3 & R3). exists c3, d3. split; [exact O3|]. eapply reach_trans; [exact R0|]. eapply reach_trans; [exact R2|exact R3].
    + rewrite IHout by (intros X; apply within_ok in X; congruence). exists c2, d1. split; [exact O1|]. eapply reach_trans; [exact R0|exact R2].
  - intros p p' L c0 d Sp O. inversion Sp; subst. destruct IH as (IHin & IHout & Ck).
    match goal with X : eos r = true |- _ => rename X into Er end. match goal with X : eos r' = true |- _ => rename X into Er' end. match goal with X : next_stmt (r, h) _ |- _ => rename X into N1 end. match goal with X : spelled p1 body p2 |- _ => rename X into Sb end. match goal with X : next_stmt p2 _ |- _ => rename X into N2 end.
    destruct (while_head s e1 r h L c0 d Er) as [Hin Hout]. destruct Ck as [Ck|Ck].
    { destruct (Hin Ck) as (c1 & R1). destruct (IHin Ck r h p1 p2 r' h' L c1 d Er N1 Sb N2 Er' O) as (c2 & d2 & O2 & R2). exists c2, d2. split; [exact O2|]. eapply reach_trans; [exact R1|exact R2]. }
    rewrite (IHout Ck). destruct (Hout Ck (option_text e2) r' h') as (c1 & R1); [|apply quiet_opt|exact Er'|exists c1, d; split; [exact O|exact R1]].
    pose proof mild_while as M. change (Sc upd_while (0, 0) (r, h) = Some (option_text e2 ++ r', h')).
    rewrite (scan_next upd_while (0, 0) _ _ M ltac:(reflexivity) N1), (scan_while _ _ _ (shape_of _ _ _ Sb) 0 ltac:(lia)), (scan_next upd_while (0, 0) _ _ M ltac:(reflexivity) N2).
    unfold Sc; cbn [fst snd]; rewrite scan_cons; reflexivity.
  - split; [intros C1; destruct (check_both _ _ _ _ C1 Ck)|]. split; [reflexivity|right; exact Ck].
  - split; [|split; [intros C1; destruct (check_both _ _ _ _ Ck C1)|left; exact Ck]]. intros _ r h p1 p2 r' h' L c d Er N1 Sb N2 Er' O.
    destruct (IH p1 p2 (LWhile h (option_text e1 ++ r) :: L) c d Sb O) as (c1 & d1 & O1 & R1).
    destruct (wend_step s1 e1 e2 true true r h r' h' L c1 d1 Ck2 ltac:(discriminate) Er Er') as (c2 & R2). cbn [negb andb] in R2.
    exists c2, d1. split; [exact O1|]. eapply reach_trans; [apply next_reach; exact N1|]. eapply reach_trans; [exact R1|]. eapply reach_trans; [apply next_reach; exact N2|exact R2].
  - split; [|split; [intros C1; destruct (check_both _ _ _ _ Ck C1)|left; exact Ck]]. intros _ r h p1 p2 r' h' L c d Er N1 Sb N2 Er' O.
    destruct IH2 as (IHin & IHout & Ck1).
    destruct (IH1 p1 p2 (LWhile h (option_text e1 ++ r) :: L) c d Sb O) as (c1 & d1 & O1 & R1).
    assert (R0 : goes (mm (r, h) s (LWhile h (option_text e1 ++ r) :: L) c d) (mm (TWend :: option_text e2 ++ r', h') s1 (LWhile h (option_text e1 ++ r) :: L) c1 d1)).
    { eapply reach_trans; [apply next_reach; exact N1|]. eapply reach_trans; [exact R1|]. apply next_reach. exact N2. }
    destruct Ck1 as [Ck1|Ck1].
    + destruct (wend_step s1 e1 e2 false true r h r' h' L c1 d1 Ck2 (fun _ => Ck1) Er Er') as (c2 & R2). cbn [negb andb] in R2.
      destruct (IHin Ck1 r h p1 p2 r' h' L c2 d1 Er N1 Sb N2 Er' O1) as (c3 & d3 & O3 & R3). exists c3, d3. split; [exact O3|]. eapply reach_trans; [exact R0|]. eapply reach_trans; [exact R2|exact R3].
    + destruct (wend_step s1 e1 e2 false false r h r' h' L c1 d1 Ck2 (fun _ => Ck1) Er Er') as (c2 & R2). cbn [negb andb] in R2. rewrite (IHout Ck1). exists c2, d1. split; [exact O1|]. eapply reach_trans; [exact R0|exact R2].
  - intros p p' L c0 d Sp O. inversion Sp; subst. destruct (Hprocs n cm Pn) as (q & p1 & r2 & h2 & Lq & Sq & N2 & Er2).
    destruct (gosub_step s n q r h L c0 d ltac:(assumption) Lq ltac:(assumption)) as (c1 & R1).
    destruct (IH q p1 (LGosub h (TNum (inject_Z n) :: r) :: L) c1 d Sq O) as (c2 & d2 & O2 & R2). exists c2, d2. split; [exact O2|].
    eapply reach_trans; [exact R1|]. eapply reach_trans; [exact R2|]. eapply reach_trans; [apply next_reach; exact N2|]. apply (return_step s' [TNum (inject_Z n)] r); [reflexivity|assumption|exact Er2].
  - intros p p' L c0 d Sp O. inversion Sp; subst. destruct (Hprocs n cm Pn) as (q & p1 & r2 & h2 & Lq & Sq & N2 & Er2).
    destruct (on_gosub s e ns i n q r h L c0 d Wi Hi ltac:(assumption) Nn Lq ltac:(assumption)) as (c1 & R1).
    destruct (IH q p1 (LGosub h (TGosub :: lines_text ns ++ r) :: L) c1 d Sq O) as (c2 & d2 & O2 & R2). exists c2, d2. split; [exact O2|].
    eapply reach_trans; [exact R1|]. eapply reach_trans; [exact R2|]. eapply reach_trans; [apply next_reach; exact N2|]. apply (return_step s' (TGosub :: lines_text ns) r); [apply quiet_lines|assumption|exact Er2].
Qed.

(** ** From RUN to the end *)
Definition finishes (m m' : mach) : Prop := ends_in_state w m m'.
Lemma finish_after m m1 m' : reaches w m m1 -> ends_in_state w m1 m' -> ends_in_state w m m'.
Proof.
  induction 1 as [m|m a b (f0 & H) _ IH]; [auto|]. intros F. destruct (IH F) as (f1 & n1 & G). exists (max f0 f1), (S n1). intros f k Lf Lk. destruct k as [|k]; [lia|]. cbn [exec]. rewrite H by lia. apply G; lia.
Qed.
Lemma end_finishes p s L c d : at_end p -> exists m', ends_in_state w (mm p s L c d) m' /\ shown m' = outp s /\ saved (base m') = sv s /\ texts (base m') = tx s /\ vars (base m') = vs s /\ here m' = [].
Proof.
  intros [l|p0 r h N].
  - eexists. split; [exists 0%nat, 1%nat; intros f k _ Lk; destruct k as [|k]; [lia|]; reflexivity|]. repeat split.
  - exists (mm ([], []) s L c d). split; [|repeat split]. eapply finish_after; [apply next_reach; exact N|]. eapply finish_after; [eapply step_stmt with (fl := Plain); [discriminate|apply PA; intros f; reflexivity|reflexivity]|].
    exists 0%nat, 1%nat. intros f k _ Lk. destruct k as [|k]; [lia|]. reflexivity.
Qed.
Definition blank (svd : string -> option Q) (txd : string -> option string) : memory := mkMem fresh svd txd [] all_data.
Theorem runs_to_end svd txd cm n t r p' s' : PR = (n, t) :: r -> spelled (t, PR) cm p' -> at_end p' -> does w procs all_data (blank svd txd) (Do cm) s' ->
  exists m', ends_in_state w (started svd txd PR) m' /\ shown m' = outp s' /\ saved (base m') = sv s' /\ texts (base m') = tx s' /\ vars (base m') = vs s' /\ here m' = [].
Proof.
  intros EP Sp En Dn. destruct (simulates _ _ _ Dn (t, PR) p' [] (fun _ => scalar) ([], []) Sp Hdata) as (c1 & d1 & _ & R1).
  destruct (end_finishes p' s' [] c1 d1 En) as (m' & F & Rest). exists m'. split; [|exact Rest].
  eapply finish_after; [|eapply finish_after; [exact R1|exact F]].
  apply r_step with (mm (t, PR) (blank svd txd) [] (fun _ => scalar) ([], [])); [|apply r_here]. exists 0%nat. intros f _. unfold started, step. cbn [rest base toks]. cbn [stmt]. unfold cmd_run, pbind. cbn [rest to base with_base with_toks toks eos rbind fst snd prog].
  unfold cleared. cbn [rest base toks prog saved texts shown]. rewrite EP. reflexivity.
Qed.
End W.
