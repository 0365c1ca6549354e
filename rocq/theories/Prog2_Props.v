(** C76 and C79, continued: ends of statements, loops that are left early, RESTORE with a line. *)
From Coq Require Import String Ascii List ZArith QArith Qround Qabs Bool Lia Lqa.
From Verif Require Import CStr_Model CNum_Model Qx Basic_Model Basic_Spec Basic_Proofs Basic2_Proofs Prog_Model Prog_Spec Prog_Proofs Prog2_Proofs Prog3_Proofs Prog4_Proofs Prog5_Proofs Prog_Props.
Import ListNotations.
Local Open Scope string_scope.
Local Open Scope list_scope.
Local Open Scope Z_scope.

(** A statement ends at the end of its line, at a colon and at ELSE: there a program goes on, elsewhere it is an error. *)
Definition ends_statement (t : list tok) : Prop := t = [] \/ exists u, t = TColon :: u \/ t = TElse :: u.
Lemma eos_iff t : eos t = true <-> ends_statement t.
Proof.
  split.
  - destruct t as [|x u]; [left; reflexivity|]. destruct x; try discriminate; intros _; right; exists u; first [left; reflexivity|right; reflexivity].
  - intros [-> |(u & [-> | ->])]; reflexivity.
Qed.
Theorem C76_statement_end : forall w m x r, rest m = TErase :: TVar x :: r ->
  (ends_statement r -> exists m', reaches w m m' /\ at_pos m' (r, here m)) /\
  (~ ends_statement r -> (forall u, r <> TComma :: u) -> stops_with_error w m).
Proof.
  intros w m x r E. rewrite (as_mm m), E. set (PR := prog m). split.
  - intros R. apply eos_iff in R. destruct (do_erase PR (memory_of m) x (S (length r)) r (here m) (stack m) (cur (base m)) (dtoks m, dhere m) R) as (c1 & H1).
    eexists. split; [eapply step_stmt with (fl := Plain); [discriminate|exact H1|exact R]|]. split; reflexivity.
  - intros N C. assert (R : eos r = false) by (destruct (eos r) eqn:R; [exfalso; apply N; apply eos_iff; exact R|reflexivity]). exists 0%nat, 1%nat. intros f k _ Lk. destruct k as [|k]; [lia|].
    cbn [exec]. unfold step. cbn [rest mm base toks fst]. cbn [stmt]. change (rest (to (mm PR (TErase :: TVar x :: r, here m) (memory_of m) (stack m) (cur (base m)) (dtoks m, dhere m)) (TVar x :: r))) with (TVar x :: r).
    cbn [length erase_all]. change (rest (to (mm PR (TErase :: TVar x :: r, here m) (memory_of m) (stack m) (cur (base m)) (dtoks m, dhere m)) (TVar x :: r))) with (TVar x :: r). cbn iota.
    rewrite after_change. unfold pbind at 1. unfold eosP at 1. cbn [rbind fst snd]. change (rest (to (with_base (to (mm PR (TErase :: TVar x :: r, here m) (memory_of m) (stack m) (cur (base m)) (dtoks m, dhere m)) (TVar x :: r)) (clear (base (to (mm PR (TErase :: TVar x :: r, here m) (memory_of m) (stack m) (cur (base m)) (dtoks m, dhere m)) (TVar x :: r))) x)) r)) with r. rewrite R. unfold pbind, need, on, require. cbn [rbind fst snd].
    change (toks (base (to (with_base (to (mm PR (TErase :: TVar x :: r, here m) (memory_of m) (stack m) (cur (base m)) (dtoks m, dhere m)) (TVar x :: r)) (clear (base (to (mm PR (TErase :: TVar x :: r, here m) (memory_of m) (stack m) (cur (base m)) (dtoks m, dhere m)) (TVar x :: r))) x)) r))) with r.
    destruct r as [|t r]; [discriminate|]. destruct t; try reflexivity. exfalso. exact (C r eq_refl).
Qed.
Print Assumptions C76_statement_end.

(** Loops that NEXT drops: other FOR loops and WHILE loops, but no calls. *)
Definition inner_of (x : string) (l : loop) : Prop := match l with LFor y _ _ _ _ => y <> x | LWhile _ _ => True | LGosub _ _ => False end.
Definition no_call (l : loop) : Prop := match l with LGosub _ _ => False | _ => True end.
Lemma unwind_inner x inner k : Forall (inner_of x) inner -> unwind_for (Some x) (inner ++ k) = unwind_for (Some x) k.
Proof.
  induction 1 as [|l inner H _ IH]; [reflexivity|]. destruct l; cbn [app unwind_for is_mine inner_of] in *; [|exact IH|destruct H]. destruct (String.eqb_spec x0 x) as [-> |_]; [congruence|exact IH].
Qed.
Lemma unwind_calls inner k : Forall no_call inner -> unwind_gosub (inner ++ k) = unwind_gosub k.
Proof. induction 1 as [|l inner H _ IH]; [reflexivity|]. destruct l; [exact IH|exact IH|destruct H]. Qed.
(** NEXT with a variable belongs to the innermost FOR of that variable within the same subroutine: the loops inside it that were left early are
    dropped, the variable is stepped, and the program goes back to the body or on behind NEXT. *)
Theorem C79_next : forall w m x r inner limit inc home htok below q, rest m = TNext :: TVar x :: r -> ends_statement r -> ends_statement htok ->
  stack m = inner ++ LFor x limit inc home htok :: below -> Forall (inner_of x) inner -> dims (vars (base m) x) = [] -> cells (vars (base m) x) scalar = VNum q ->
  exists m', reaches w m m' /\ memory_of m' = written_to (memory_of m) x scalar (VNum (q + inc)) /\ prog m' = prog m /\ dhere m' = dhere m /\ dtoks m' = dtoks m /\
    (inside (q + inc) limit inc -> at_pos m' (htok, home) /\ stack m' = LFor x limit inc home htok :: below) /\
    (~ inside (q + inc) limit inc -> at_pos m' (r, here m) /\ stack m' = below).
Proof.
  intros w m x r inner limit inc home htok below q E R Rt Es In D C. apply eos_iff in R, Rt. rewrite (as_mm m), E, Es. set (PR := prog m). set (s := memory_of m).
  change (vars (base m)) with (vs s) in D, C. set (L := inner ++ LFor x limit inc home htok :: below). set (d := (dtoks m, dhere m)). set (h' := here m). set (s1 := written_to s x scalar (VNum (q + inc))).
  destruct (p_find w PR s (Whole x) x scalar r h' L (cur (base m)) d (at_whole w s x D)) as (c1 & H1 & _). { destruct r as [|y r']; [exact Logic.I|]; destruct y; try discriminate; exact Logic.I. }
  exists (if within (q + inc) limit inc then mm PR (htok, home) s1 (LFor x limit inc home htok :: below) c1 d else mm PR (r, h') s1 below c1 d).
  split.
  - apply step_stmt with (fl := Plain); [discriminate| |destruct (within (q + inc) limit inc); [exact Rt|exact R]].
    cbn [stmt]. destruct H1 as (f0 & V). exists f0. intros f Lf. specialize (V f Lf). cbn [written_lhs app] in V.
    unfold cmd_next. unfold pbind at 1. unfold eosP. cbn [rbind fst snd]. change (rest (mm PR (TVar x :: r, h') s L (cur (base m)) d)) with (TVar x :: r). cbn [eos]. unfold pbind at 1. unfold pbind at 1. rewrite V. cbn [rbind fst snd pret].
    unfold pret. cbn [rbind fst snd]. change (stack (mm PR (r, h') s L c1 d)) with L. unfold L at 1. rewrite unwind_inner by exact In.
    cbn [unwind_for is_mine]. rewrite String.eqb_refl. cbn zeta. change (with_stack (mm PR (r, h') s L c1 d) (LFor x limit inc home htok :: below)) with (mm PR (r, h') s (LFor x limit inc home htok :: below) c1 d).
    rewrite number_ok with (q := q) by assumption. cbn [rbind]. cbn zeta. unfold pbind. rewrite put_scalar by exact D. cbn [rbind fst snd]. fold s1. destruct (within (q + inc) limit inc); reflexivity.
  - assert (W := within_ok (q + inc) limit inc). destruct (within (q + inc) limit inc).
    + repeat (split; [reflexivity|]). split; [intros _; repeat split|]. intros N. exfalso. apply N. apply W. reflexivity.
    + repeat (split; [reflexivity|]). split; [intros X; apply W in X; discriminate|]. intros _. repeat split.
Qed.
Print Assumptions C79_next.
(** Without such a FOR, or with a call in between, NEXT is an error. *)
Theorem C79_next_alone : forall w m x r inner, rest m = TNext :: TVar x :: r -> ends_statement r -> dims (vars (base m) x) = [] -> Forall (inner_of x) inner ->
  stack m = inner \/ (exists h t below, stack m = inner ++ LGosub h t :: below) -> stops_with_error w m.
Proof.
  intros w m x r inner E R D In H. apply eos_iff in R. rewrite (as_mm m), E. set (PR := prog m). set (s := memory_of m). change (vars (base m)) with (vs s) in D.
  assert (U : unwind_for (Some x) (stack m) = None).
  { destruct H as [-> |(h & t & below & ->)]; [rewrite <- (app_nil_r inner)|]; rewrite unwind_inner by exact In; reflexivity. }
  destruct (p_find w PR s (Whole x) x scalar r (here m) (stack m) (cur (base m)) (dtoks m, dhere m) (at_whole w s x D)) as (c1 & (f0 & V) & _). { destruct r as [|y r']; [exact Logic.I|]; destruct y; try discriminate; exact Logic.I. }
  exists f0, 1%nat. intros f k Lf Lk. destruct k as [|k]; [lia|]. specialize (V f Lf). cbn [exec]. unfold step. cbn [rest mm base toks fst]. cbn [stmt].
  change (to (mm PR (TNext :: TVar x :: r, here m) s (stack m) (cur (base m)) (dtoks m, dhere m)) (TVar x :: r)) with (mm PR (TVar x :: r, here m) s (stack m) (cur (base m)) (dtoks m, dhere m)).
  cbn [written_lhs app] in V. unfold cmd_next. unfold pbind at 1. unfold eosP. cbn [rbind fst snd]. change (rest (mm PR (TVar x :: r, here m) s (stack m) (cur (base m)) (dtoks m, dhere m))) with (TVar x :: r). cbn [eos]. unfold pbind at 1. unfold pbind at 1. rewrite V. cbn [rbind fst snd pret].
  unfold pret. cbn [rbind fst snd]. change (stack (mm PR (r, here m) s (stack m) c1 (dtoks m, dhere m))) with (stack m). rewrite U. reflexivity.
Qed.
Print Assumptions C79_next_alone.
(** RETURN goes back behind the last GOSUB that was not returned from, and drops the loops that the subroutine left unfinished; without a GOSUB it is an error. *)
Theorem C79_return : forall w m r inner, rest m = TReturn :: r -> Forall no_call inner ->
  (forall h t u below, stack m = inner ++ LGosub h (t ++ u) :: below -> Forall (fun x => x <> TColon /\ x <> TElse) t -> ends_statement u ->
    exists m', reaches w m m' /\ only_moved m m' /\ at_pos m' (u, h) /\ stack m' = below) /\
  (stack m = inner -> stops_with_error w m).
Proof.
  intros w m r inner E In. rewrite (as_mm m), E. set (PR := prog m). split.
  - intros h t u below Es T U. apply eos_iff in U. cbn [mm] in *. change (stack (mm PR (TReturn :: r, here m) (memory_of m) (stack m) (cur (base m)) (dtoks m, dhere m))) with (stack m) in Es. rewrite Es.
    assert (K : skip_eos (t ++ u) = u).
    { clear Es. induction T as [|x t [A B] _ IH]; cbn [app]; [destruct u as [|x u]; [reflexivity|]; destruct x; try discriminate; reflexivity|]. cbn [skip_eos]. replace (eos (x :: t ++ u)) with false by (destruct x; try reflexivity; congruence). exact IH. }
    exists (mm PR (u, h) (memory_of m) below (cur (base m)) (dtoks m, dhere m)). split; [|repeat split].
    apply step_stmt with (fl := Plain); [discriminate| |exact U]. apply PA. intros f. cbn [stmt]. unfold cmd_return. change (stack (mm PR (r, here m) (memory_of m) (inner ++ LGosub h (t ++ u) :: below) (cur (base m)) (dtoks m, dhere m))) with (inner ++ LGosub h (t ++ u) :: below).
    rewrite unwind_calls by exact In. cbn [unwind_gosub]. rewrite K. reflexivity.
  - intros Es. change (stack (mm PR (TReturn :: r, here m) (memory_of m) (stack m) (cur (base m)) (dtoks m, dhere m))) with (stack m) in Es. rewrite Es.
    exists 0%nat, 1%nat. intros f k _ Lk. destruct k as [|k]; [lia|]. cbn [exec]. unfold step. cbn [rest mm base toks fst]. cbn [stmt]. unfold cmd_return.
    change (stack (to (mm PR (TReturn :: r, here m) (memory_of m) inner (cur (base m)) (dtoks m, dhere m)) r)) with inner. rewrite <- (app_nil_r inner), unwind_calls by exact In. reflexivity.
Qed.
Print Assumptions C79_return.
(** RESTORE with a line number lets READ go on with the data from that line on. *)
Theorem C79_restore : forall w m e n i t r l s', rest m = TRestore :: written e ++ TColon :: TRead :: written_lhs t ++ r -> whole_in w (memory_of m) e n -> names_line (prog m) n i ->
  ends_statement r -> (forall k u, ~ In (k, TComma :: u) (prog m)) -> data_of (skipn i (prog m)) l ->
  reads w (mkMem (vars (base m)) (saved (base m)) (texts (base m)) (shown m) l) t s' ->
  exists m', reaches w m m' /\ at_pos m' (r, here m) /\ stack m' = stack m /\ prog m' = prog m /\ memory_of m' = mkMem (vs s') (sv s') (tx s') (outp s') [].
Proof.
  intros w m e n i t r l s' E V N R Nc Dl Rd. apply eos_iff in R. rewrite (as_mm m), E. set (PR := prog m) in *. set (s0 := mkMem (vars (base m)) (saved (base m)) (texts (base m)) (shown m) l) in *.
  set (tail := TColon :: TRead :: written_lhs t ++ r).
  destruct (p_int w PR (memory_of m) e n tail (here m) (stack m) (cur (base m)) (dtoks m, dhere m) V ltac:(reflexivity)) as (c1 & H1).
  destruct (line_found5 PR n i N) as (t0 & u & F & K).
  set (d1 := (t0, (n, t0) :: u)).
  assert (I0 : In (n, t0) PR) by (rewrite <- (firstn_skipn i PR), K; apply in_or_app; right; left; reflexivity).
  assert (O : offered PR d1 (feed s0)).
  { unfold offered, d1. cbn [snd fst feed s0]. rewrite K in Dl. cbn [data_of] in Dl. destruct Dl as (a & b & A & B & ->). exists a, b. split; [|auto]. apply td_text; [|exact A]. destruct t0 as [|x t0]; [exact Logic.I|]. destruct x; try exact Logic.I. exact (Nc n t0 I0). }
  assert (Np : match PR with (_, TComma :: _) :: _ => False | _ => True end).
  { clearbody PR. destruct PR as [|[k v] P]; [exact Logic.I|]. destruct v as [|x v]; [exact Logic.I|]. destruct x; try exact Logic.I. apply (Nc k v). left. reflexivity. }
  destruct (do_read w PR Np s0 [t] s' (reads_more _ _ _ _ _ _ Rd (reads_none _ _)) (S (length (written_lhs t ++ r))) r (here m) (stack m) c1 d1 ltac:(discriminate) O R ltac:(cbn [length]; lia)) as (c2 & d2 & H2 & _).
  cbn [map separated] in H2.
  exists (mm PR (r, here m) s' (stack m) c2 d2). split; [|repeat split].
  apply reach_trans with (mm PR (tail, here m) (memory_of m) (stack m) c1 d1).
  - eapply step_stmt with (fl := Plain); [discriminate| |reflexivity]. cbn [stmt]. unfold cmd_restore.
    eapply PB; [apply PC; reflexivity|]. cbn beta iota. change (rest _) with (written e ++ tail). rewrite not_eos. eapply PB; [exact H1|]. cbn beta. apply PC. change (prog _) with PR. rewrite F. reflexivity.
  - apply reach_trans with (mm PR (TRead :: written_lhs t ++ r, here m) (memory_of m) (stack m) c1 d1).
    + apply next_reach. apply by_colon.
    + change (mm PR (TRead :: written_lhs t ++ r, here m) (memory_of m) (stack m) c1 d1) with (mm PR (TRead :: written_lhs t ++ r, here m) s0 (stack m) c1 d1).
      eapply step_stmt with (fl := Plain); [discriminate| |exact R]. exact H2.
Qed.
Print Assumptions C79_restore.
(** 10 for i = 1 to 2; 20 for j = 1 to 9; 30 next i: the inner loop is dropped.  After line 20 its record is on top. *)
Example C79_loops_case : let p := [(10, TFor :: TVar "i" :: TEq :: TNum 1 :: TTo :: TNum 2 :: []); (20, TFor :: TVar "j" :: TEq :: TNum 1 :: TTo :: TNum 9 :: []); (30, TNext :: TVar "i" :: []); (40, TPunch :: TVar "j" :: [])] in
  forall w, Forall (inner_of "i") [LFor "j" 9 1 (skipn 1 p) []] /\
  exists m', ends_in_state w (started (fun _ => None) (fun _ => None) p) m' /\ stack m' = [] /\ shown m' = [OPunch (VNum 1)].
Proof.
  intros p w. split; [constructor; [discriminate|constructor]|]. eexists. split; [|split].
  - exists 20%nat, 20%nat. intros f k Hf Hk. do 20 (destruct f as [|f]; [lia|]). do 20 (destruct k as [|k]; [lia|]). vm_compute. reflexivity.
  - reflexivity.
  - reflexivity.
Qed.
(** 10 data 5; 20 data 7; 30 restore 20: read x *)
Example C79_restore_case : let p := [(10, TData :: TNum 5 :: []); (20, TData :: TNum 7 :: []); (30, TRestore :: written (Num 20) ++ TColon :: TRead :: written_lhs (Whole "x") ++ [TColon; TPunch; TVar "x"])] in
  forall w, exists m', ends_in_state w (started (fun _ => None) (fun _ => None) p) m' /\ shown m' = [OPunch (VNum 7)].
Proof.
  intros p w. eexists. split.
  - exists 20%nat, 20%nat. intros f k Hf Hk. do 20 (destruct f as [|f]; [lia|]). do 20 (destruct k as [|k]; [lia|]). vm_compute. reflexivity.
  - reflexivity.
Qed.
(** RUN begins with new variables, no loops and no calls, and the first datum, whatever was there; values and texts kept by PUT and what was shown stay. *)
Theorem C76_rerun : forall w m n t r, rest m = [TRun] -> prog m = (n, t) :: r ->
  exists m', reaches w m m' /\ at_pos m' (t, prog m) /\ prog m' = prog m /\ stack m' = [] /\ dhere m' = [] /\
    (forall x, vars (base m') x = fresh x) /\ saved (base m') = saved (base m) /\ texts (base m') = texts (base m) /\ shown m' = shown m.
Proof.
  intros w m n t r E P. exists (to (cleared m (prog m)) t). split; [|repeat split].
  apply r_step with (to (cleared m (prog m)) t); [|apply r_here]. exists 0%nat. intros f _. unfold step. rewrite E. cbn [stmt]. unfold cmd_run, pbind. change (rest (to m [])) with (@nil tok). cbn [eos rbind fst snd]. change (prog (to m [])) with (prog m). rewrite P. reflexivity.
Qed.
Print Assumptions C76_rerun.
(** SAVE of a text is an error. *)
Theorem C76_save_text : forall w m e x r, rest m = TSave :: written e ++ r -> value_in w (memory_of m) e (VStr x) -> ends r -> stops_with_error w m.
Proof.
  intros w m e x r E V R. rewrite (as_mm m), E. set (PR := prog m).
  destruct (p_val w PR (memory_of m) e (VStr x) r (here m) (stack m) (cur (base m)) (dtoks m, dhere m) V R) as (c1 & f0 & H1).
  exists f0, 1%nat. intros f k Lf Lk. destruct k as [|k]; [lia|]. specialize (H1 f Lf). cbn [exec]. unfold step. cbn [rest mm base toks fst]. cbn [stmt].
  change (to (mm PR (TSave :: written e ++ r, here m) (memory_of m) (stack m) (cur (base m)) (dtoks m, dhere m)) (written e ++ r)) with (mm PR (written e ++ r, here m) (memory_of m) (stack m) (cur (base m)) (dtoks m, dhere m)).
  change (rest (mm PR (written e ++ r, here m) (memory_of m) (stack m) (cur (base m)) (dtoks m, dhere m))) with (written e ++ r).
  destruct (written_first e) as (t & u & Ew & Sp & Ne & _).
  assert (X : values w f (length (written e ++ r)) save_one (mm PR (written e ++ r, here m) (memory_of m) (stack m) (cur (base m)) (dtoks m, dhere m)) = Err).
  { assert (L : exists n, length (written e ++ r) = S n) by (rewrite Ew; cbn; eauto). destruct L as [n L]. rewrite L. cbn [values].
    change (rest (mm PR (written e ++ r, here m) (memory_of m) (stack m) (cur (base m)) (dtoks m, dhere m))) with (written e ++ r). rewrite not_eos.
    replace (match written e ++ r with [] => Deep | t :: r0 => if separator t then values w f n save_one (to (mm PR (written e ++ r, here m) (memory_of m) (stack m) (cur (base m)) (dtoks m, dhere m)) r0)
       else pbind (on (expr w f)) (fun v => pbind (save_one v) (fun _ => values w f n save_one)) (mm PR (written e ++ r, here m) (memory_of m) (stack m) (cur (base m)) (dtoks m, dhere m)) end)
     with (pbind (on (expr w f)) (fun v => pbind (save_one v) (fun _ => values w f n save_one)) (mm PR (written e ++ r, here m) (memory_of m) (stack m) (cur (base m)) (dtoks m, dhere m))) by (rewrite Ew; cbn [app]; rewrite Sp; reflexivity).
    unfold pbind at 1. rewrite H1. reflexivity. }
  rewrite X. reflexivity.
Qed.
Print Assumptions C76_save_text.
(** What ON ... GOTO passes over on its way to the place must be numbers with commas between them: anything else is an error. *)
Theorem C79_on_list : forall w m e z t u, rest m = TOn :: written e ++ TGoto :: t :: u -> whole_in w (memory_of m) e z -> 1 < z -> eos (t :: u) = false ->
  (forall q, t <> TNum q) \/ (exists q t2 u2, t = TNum q /\ u = t2 :: u2 /\ eos u = false /\ t2 <> TComma) -> stops_with_error w m.
Proof.
  intros w m e z t u E V Hz Q0 B. rewrite (as_mm m), E. set (PR := prog m) in *.
  destruct (p_int w PR (memory_of m) e z (TGoto :: t :: u) (here m) (stack m) (cur (base m)) (dtoks m, dhere m) V ltac:(reflexivity)) as (c1 & f0 & H1).
  exists f0, 1%nat. intros f k Lf Lk. destruct k as [|k]; [lia|]. specialize (H1 f Lf). cbn [exec]. unfold step. cbn [rest mm base toks fst]. cbn [stmt].
  change (to (mm PR (TOn :: written e ++ TGoto :: t :: u, here m) (memory_of m) (stack m) (cur (base m)) (dtoks m, dhere m)) (written e ++ TGoto :: t :: u))
    with (mm PR (written e ++ TGoto :: t :: u, here m) (memory_of m) (stack m) (cur (base m)) (dtoks m, dhere m)).
  assert (X : cmd_on w f (mm PR (written e ++ TGoto :: t :: u, here m) (memory_of m) (stack m) (cur (base m)) (dtoks m, dhere m)) = Err).
  { unfold cmd_on. unfold pbind at 1. rewrite H1. cbn [rbind]. unfold pbind at 1.
    set (m1 := mm PR (t :: u, here m) (memory_of m) (stack m) c1 (dtoks m, dhere m)).
    match goal with |- rbind ?a _ = _ => replace a with (Ok (tt, m1)) by reflexivity end. cbn [rbind fst snd].
    replace (z <? 1) with false by lia. change (rest m1) with (t :: u). cbn [length on_list].
    change (rest m1) with (t :: u). rewrite Q0. replace (1 <? z) with true by lia. cbn [negb andb].
    destruct B as [B | (q & t2 & u2 & -> & -> & Q2 & NC)].
    - unfold pbind at 1. unfold need, on, require. change (toks (base m1)) with (t :: u).
      destruct t; try reflexivity. exfalso. apply (B q). reflexivity.
    - unfold pbind, eosP, need, on, require. cbn [m1 base mm toks fst is_numtok rbind snd with_toks with_base rest]. rewrite Q2.
      cbn [base toks with_base with_toks rbind]. destruct t2; try reflexivity. congruence. }
  rewrite X. reflexivity.
Qed.
Print Assumptions C79_on_list.
(** Signs that are missing: an assignment and FOR without an equals sign, IF without THEN, ON without GOTO or GOSUB are errors. *)
Definition begins_with (t : tok) (l : list tok) : Prop := exists r, l = t :: r.
Lemma need_not p m : (forall t r, rest m = t :: r -> p t = false) -> need p m = Err.
Proof.
  intros H. unfold need, on, require. unfold rest in H. destruct (toks (base m)) as [|t r] eqn:E; [reflexivity|].
  rewrite (H t r) by reflexivity. reflexivity.
Qed.
Lemma find_plain w f m x r : rest m = TVar x :: r -> ~ begins_with TLp r -> dims (vars (base m) x) = [] ->
  find w f m = Ok (x, with_base m (with_toks (with_cur (base m) x scalar) r)).
Proof.
  intros E NL D. unfold find, on, findvar. unfold rest in E. rewrite E. destruct r as [|t r].
  - rewrite D. reflexivity.
  - destruct t; try (rewrite D; reflexivity). exfalso. apply NL. eexists. reflexivity.
Qed.
Theorem C76_equals : forall w m x r, ~ begins_with TLp r -> ~ begins_with TEq r -> dims (vars (base m) x) = [] ->
  rest m = TVar x :: r \/ rest m = TLet :: TVar x :: r \/ rest m = TFor :: TVar x :: r -> stops_with_error w m.
Proof.
  intros w m x r NL NE D H. exists 0%nat, 1%nat. intros f k _ Lk. destruct k as [|k]; [lia|]. cbn [exec]. unfold step.
  assert (NQ : forall m1, rest m1 = r -> need is_eq m1 = Err).
  { intros m1 E1. apply need_not. intros t u E2. destruct t; try reflexivity. exfalso. apply NE. exists u. congruence. }
  assert (L : forall m1, rest m1 = TVar x :: r -> base m1 = with_toks (base m) (TVar x :: r) -> cmd_let w f m1 = Err).
  { intros m1 E1 B1. unfold cmd_let. unfold pbind at 1. rewrite (find_plain w f m1 x r E1 NL) by (rewrite B1; exact D). cbn [rbind fst snd].
    unfold pbind at 1. unfold get. cbn [rbind fst snd]. unfold pbind at 1. rewrite NQ by reflexivity. reflexivity. }
  destruct H as [H | [H | H]]; rewrite H; cbn [stmt].
  - rewrite L; [reflexivity | reflexivity |]. destruct m as [b p h L0 dh dt o]. destruct b. reflexivity.
  - rewrite L; reflexivity.
  - unfold cmd_for. unfold pbind at 1. rewrite (find_plain w f (to m (TVar x :: r)) x r eq_refl NL D). cbn [rbind fst snd].
    destruct (is_text x); [reflexivity|]. unfold pbind at 1. rewrite NQ by reflexivity. reflexivity.
Qed.
Print Assumptions C76_equals.
Theorem C76_then : forall w m e q r, rest m = TIf :: written e ++ r -> value_in w (memory_of m) e (VNum q) -> ends r -> ~ begins_with TThen r -> stops_with_error w m.
Proof.
  intros w m e q r E V R NT. rewrite (as_mm m), E. set (PR := prog m).
  destruct (p_real w PR (memory_of m) e q r (here m) (stack m) (cur (base m)) (dtoks m, dhere m) V R) as (c1 & f0 & H1).
  exists f0, 1%nat. intros f k Lf Lk. destruct k as [|k]; [lia|]. specialize (H1 f Lf). cbn [exec]. unfold step. cbn [rest mm base toks fst]. cbn [stmt].
  change (to (mm PR (TIf :: written e ++ r, here m) (memory_of m) (stack m) (cur (base m)) (dtoks m, dhere m)) (written e ++ r))
    with (mm PR (written e ++ r, here m) (memory_of m) (stack m) (cur (base m)) (dtoks m, dhere m)).
  unfold cmd_if. unfold pbind at 1. rewrite H1. cbn [rbind fst snd]. unfold pbind at 1. rewrite need_not; [reflexivity|].
  intros t u E2. destruct t; try reflexivity. exfalso. apply NT. exists u. exact E2.
Qed.
Print Assumptions C76_then.
Theorem C76_on : forall w m e z r, rest m = TOn :: written e ++ r -> whole_in w (memory_of m) e z -> ends r -> ~ begins_with TGoto r -> ~ begins_with TGosub r -> stops_with_error w m.
Proof.
  intros w m e z r E V R NG NS. rewrite (as_mm m), E. set (PR := prog m).
  destruct (p_int w PR (memory_of m) e z r (here m) (stack m) (cur (base m)) (dtoks m, dhere m) V R) as (c1 & f0 & H1).
  exists f0, 1%nat. intros f k Lf Lk. destruct k as [|k]; [lia|]. specialize (H1 f Lf). cbn [exec]. unfold step. cbn [rest mm base toks fst]. cbn [stmt].
  change (to (mm PR (TOn :: written e ++ r, here m) (memory_of m) (stack m) (cur (base m)) (dtoks m, dhere m)) (written e ++ r))
    with (mm PR (written e ++ r, here m) (memory_of m) (stack m) (cur (base m)) (dtoks m, dhere m)).
  unfold cmd_on. unfold pbind at 1. rewrite H1. cbn [rbind fst snd]. unfold pbind at 1.
  change (rest (mm PR (r, here m) (memory_of m) (stack m) c1 (dtoks m, dhere m))) with r.
  assert (X : need is_gototok (mm PR (r, here m) (memory_of m) (stack m) c1 (dtoks m, dhere m)) = Err).
  { apply need_not. intros t u E2. change (r = t :: u) in E2. destruct t; try reflexivity. exfalso. apply NG. exists u. exact E2. }
  destruct r as [|t r]; [rewrite X; reflexivity|]. destruct t; try (rewrite X; reflexivity). exfalso. apply NS. exists r. reflexivity.
Qed.
Print Assumptions C76_on.
Example C76_signs : ~ begins_with TLp [TNum 1] /\ ~ begins_with TEq [TNum 1] /\ (forall w s, value_in w s (Num 1) (VNum 1)) /\ ends [TGoto; TNum 5] /\ ~ begins_with TThen [TGoto; TNum 5].
Proof. split; [intros [r H]; discriminate H|]. split; [intros [r H]; discriminate H|]. split; [intros w s; val|]. split; [reflexivity|]. intros [r H]; discriminate H. Qed.
