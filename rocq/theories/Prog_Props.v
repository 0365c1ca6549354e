(** C76-C79: BASIC programs. *)
From Coq Require Import String Ascii List ZArith QArith Qround Qabs Bool Lia Lqa.
From Verif Require Import CStr_Model CNum_Model Qx Basic_Model Basic_Spec Basic_Proofs Basic2_Proofs Prog_Model Prog_Spec Prog_Proofs Prog2_Proofs Prog3_Proofs Prog4_Proofs Prog5_Proofs.
Import ListNotations.
Local Open Scope string_scope.
Local Open Scope list_scope.
Local Open Scope Z_scope.

(** * C76: a structured program does what it says *)
Lemma spelled_comma t h c p : spelled (t, h) c p -> match t with TComma :: _ => False | _ => True end.
Proof.
  intros H. change (match fst (t, h) with TComma :: _ => False | _ => True end). revert H. generalize (t, h). intros q H. induction H; try exact I; [destruct t0; exact I|assumption].
Qed.
(** Written with all its loops, branches, subroutines and data, run by RUN, a program ends and leaves what its meaning says. *)
Theorem C76_run : forall w procs all_data svd txd p n t r cm p' s', p = (n, t) :: r -> spelled (t, p) cm p' -> at_end p' -> subroutines p procs -> data_of p all_data ->
  does w procs all_data (mkMem fresh svd txd [] all_data) (Do cm) s' ->
  exists m', ends_in_state w (started svd txd p) m' /\ shown m' = outp s' /\ saved (base m') = sv s' /\ texts (base m') = tx s' /\ vars (base m') = vs s'.
Proof.
  intros w procs all_data svd txd p n t r cm p' s' Ep Sp En Su Da Do0.
  destruct (runs_to_end w p procs all_data) with (svd := svd) (txd := txd) (cm := cm) (n := n) (t := t) (r := r) (p' := p') (s' := s') as (m' & F & A & B & C & D & _); try assumption.
  - subst p. exact (spelled_comma _ _ _ _ Sp).
  - exists m'. repeat (split; [assumption|]). assumption.
Qed.
Print Assumptions C76_run.
(** The end of a run is unique. *)
Theorem C76_unique : forall w m a b, ends_in_state w m a -> ends_in_state w m b -> a = b /\ ~ stops_with_error w m.
Proof.
  intros w m a b (e1 & n1 & H1) (e2 & n2 & H2). split.
  - specialize (H1 (max e1 e2) (max n1 n2) ltac:(lia) ltac:(lia)). rewrite H2 in H1 by lia. congruence.
  - intros (e3 & n3 & H3). specialize (H1 (max e1 e3) (max n1 n3) ltac:(lia) ltac:(lia)). rewrite H3 in H1 by lia. discriminate.
Qed.
Print Assumptions C76_unique.
(** 10 dim a(2); 20 for i=1 to 2: read a(i): s=s+a(i): next i; 30 if s>2 then gosub 100 else print s; 40 while s>0: s=s-2: wend;
    50 punch s; 60 end; 70 data 1, 2; 100 save s: put(s,7); 110 return. *)
Definition half_done : cmd := Seq (Save [Var "s"]) (Put (Var "s") [Num 7]).
Definition adds : cmd := Seq (Read (Cell "a" [Var "i"]) []) (Let (Whole "s") (Bin Add (Var "s") (Elem "a" [Var "i"]))).
Definition sample : cmd :=
  Seq (Dim "a" [Num 2]) (Seq (For true "i" (Num 1) (Num 2) None adds)
    (Seq (If (Bin Greater (Var "s") (Num 2)) (Call 100) (Print [Var "s"] false))
      (Seq (While (Some (Bin Greater (Var "s") (Num 0))) None (Let (Whole "s") (Bin Sub (Var "s") (Num 2)))) (Punch [Var "s"])))).
Definition sample_lines : list line :=
  [(10, [TDim; TVar "a"; TLp; TNum 2; TRp]);
   (20, [TFor; TVar "i"; TEq; TNum 1; TTo; TNum 2; TColon; TRead; TVar "a"; TLp; TVar "i"; TRp; TColon; TVar "s"; TEq; TVar "s"; TPlus; TVar "a"; TLp; TVar "i"; TRp; TColon; TNext; TVar "i"]);
   (30, [TIf; TVar "s"; TGt; TNum 2; TThen; TGosub; TNum 100; TElse; TPrint; TVar "s"]);
   (40, [TWhile; TVar "s"; TGt; TNum 0; TColon; TLet; TVar "s"; TEq; TVar "s"; TMinus; TNum 2; TColon; TWend]);
   (50, [TPunch; TVar "s"]); (60, [TEnd]); (70, [TData; TNum 1; TComma; TNum 2]);
   (100, [TSave; TVar "s"; TColon; TPut; TLp; TVar "s"; TComma; TNum 7; TRp]); (110, [TReturn])].
Definition sample_procs (n : Z) : option cmd := if n =? 100 then Some half_done else None.
Ltac val := split; [cbn; repeat split; try discriminate; try reflexivity|reflexivity].
Example C76_case : forall w, exists p' s', spelled (match sample_lines with (_, t) :: _ => t | [] => [] end, sample_lines) sample p' /\ at_end p' /\ subroutines sample_lines sample_procs /\ data_of sample_lines [VNum 1; VNum 2] /\
  does w sample_procs [VNum 1; VNum 2] (mkMem fresh (fun _ => None) (fun _ => None) [] [VNum 1; VNum 2]) (Do sample) s' /\ outp s' = [OSave 3; OPunch (VNum (-1))] /\ sv s' "7," = Some 3%Q.
Proof.
  intros w. eexists _, _. split; [|split; [|split; [|split; [|split; [|split]]]]].
  - eapply s_seq; [apply (s_dim "a" [Num 2] []); [cbn; lia|reflexivity]|apply by_line|]. eapply s_seq; [|apply by_line|].
    { eapply (s_for true "i" (Num 1) (Num 2) None); [|apply by_colon| | |apply by_colon|]; try reflexivity; [|cbn; auto].
      eapply s_seq; [apply (s_read (Cell "a" [Var "i"]) []); reflexivity|apply by_colon|]. apply (s_assign (Whole "s") (Bin Add (Var "s") (Elem "a" [Var "i"]))). reflexivity. }
    eapply s_seq; [|apply by_line|].
    { eapply (s_if (Bin Greater (Var "s") (Num 2))); [|exact I|].
      - apply s_call; [unfold LONG_MIN, LONG_MAX; lia|reflexivity].
      - apply (s_print [Var "s"] [TVar "s"] false []); [apply (l_last (Var "s"))|reflexivity]. }
    eapply s_seq; [|apply by_line|].
    { eapply (s_while (Some (Bin Greater (Var "s") (Num 0))) None); [|apply by_colon| |apply by_colon|]; try reflexivity. apply (s_let (Whole "s") (Bin Sub (Var "s") (Num 2))). reflexivity. }
    apply (s_punch [Var "s"] [TVar "s"] false []); [apply (l_last (Var "s"))|reflexivity].
  - eapply e_end. apply by_line.
  - intros n c. unfold sample_procs. destruct (n =? 100) eqn:E; [|discriminate]. intros H. injection H as <-. replace n with 100 by lia. eexists _, _, _, _. split; [|split; [|split]].
    + exists (firstn 7 sample_lines). eexists _, _. split; [reflexivity|]. split; [|reflexivity]. cbn. intuition discriminate.
    + eapply s_seq; [apply (s_save [Var "s"] [TVar "s"] false); [apply (l_last (Var "s"))|reflexivity]|apply by_colon|]. apply (s_put (Var "s") [Num 7] []). reflexivity.
    + apply by_line.
    + reflexivity.
  - assert (N : forall t, ~ In TData t -> data_text t []) by apply dt_none.
    exists [], [VNum 1; VNum 2]. split; [apply N; cbn; intuition discriminate|]. split; [|reflexivity]. do 5 (exists [], [VNum 1; VNum 2]; split; [apply N; cbn; intuition discriminate|]; split; [|reflexivity]).
    exists [VNum 1; VNum 2], []. split.
    + apply (dt_data [] [TNum 1; TComma; TNum 2] [VNum 1; VNum 2] [] []); [intros []| |reflexivity|apply N; intros []]. apply (dl_more [TNum 1] (VNum 1) [TNum 2]); [constructor|]. apply dl_one. constructor.
    + split; [|reflexivity]. do 2 (exists [], []; split; [apply N; cbn; intuition discriminate|]; split; [|reflexivity]). reflexivity.
  - eapply d_seq.
    { eapply (d_dim _ _ _ _ "a" [Num 2] [2]); [reflexivity| | |]. { constructor; [exists (VNum 2); split; [val|reflexivity]|constructor]. } { constructor; [unfold LONG_MAX; lia|constructor]. } vm_compute. discriminate. }
    eapply d_seq.
    { eapply d_for with (qa := 1%Q) (qb := 2%Q) (qc := 1%Q); [reflexivity|reflexivity|val|val|reflexivity|].
      eapply d_round; [reflexivity|vm_compute; discriminate| | | |].
      { eapply d_seq.
        - apply d_read. eapply reads_more; [|apply reads_none]. eapply reads_one with (x := "a"); [reflexivity| |reflexivity]. eapply (at_cell _ _ "a" [Var "i"] [1] 1); [discriminate| |reflexivity]. constructor; [exists (VNum 1); split; [val|reflexivity]|constructor].
        - eapply d_let; [apply at_whole; reflexivity| |]; [val|reflexivity]. } { reflexivity. } { reflexivity. }
      eapply d_round; [reflexivity|vm_compute; discriminate| | | |].
      { eapply d_seq.
        - apply d_read. eapply reads_more; [|apply reads_none]. eapply reads_one with (x := "a"); [reflexivity| |reflexivity]. eapply (at_cell _ _ "a" [Var "i"] [2] 2); [discriminate| |reflexivity]. constructor; [exists (VNum 2); split; [val|reflexivity]|constructor].
        - eapply d_let; [apply at_whole; reflexivity| |]; [val|reflexivity]. } { reflexivity. } { reflexivity. }
      eapply d_last; [reflexivity|]. vm_compute. intros X. apply X. reflexivity. }
    eapply d_seq.
    { apply d_then; [exists 1%Q; split; [val|discriminate]|]. eapply d_call; [reflexivity|]. eapply d_seq.
      - eapply (d_save _ _ _ _ [Var "s"] [VNum 3] [3%Q]); [constructor; [val|constructor]|reflexivity].
      - eapply (d_put _ _ _ _ (Var "s") [Num 7] 3%Q [7]); [val| |]. { constructor; [exists (VNum 7); split; [val|reflexivity]|constructor]. } constructor; [unfold fits_int; lia|constructor]. }
    eapply d_seq.
    { apply d_while. eapply d_again; [exists 1%Q; split; [val|discriminate]| |reflexivity|]. { eapply d_let; [apply at_whole; reflexivity| |]; [val|reflexivity]. }
      eapply d_again; [exists 1%Q; split; [val|discriminate]| |reflexivity|]. { eapply d_let; [apply at_whole; reflexivity| |]; [val|reflexivity]. }
      apply d_stop. exists 0%Q. split; [val|reflexivity]. }
    eapply (d_punch _ _ _ _ [Var "s"]). constructor; [val|constructor].
  - reflexivity.
  - reflexivity.
Qed.
(** 10 for a(1)=1 to 2: punch a(1): b=a(5): next. *)
Definition element_loop : list line :=
  [(10, [TFor; TVar "a"; TLp; TNum 1; TRp; TEq; TNum 1; TTo; TNum 2; TColon; TPunch; TVar "a"; TLp; TNum 1; TRp; TColon; TVar "b"; TEq; TVar "a"; TLp; TNum 5; TRp; TColon; TNext])].
(** A loop over an element of an array counts in whichever element of the array was used last: with [for a(1)=1 to 2], where the body uses
    a(5) after a(1), the body runs three times and a(1) is 1 in each of them.  PBasic.cpp:6300-6344 ([*l_loop->vp->UU.U0.val], the pointer
    that findvar moves, 2050-2110). *)
Theorem C76_element_refuted : forall w svd txd, exists m', ends_in_state w (started svd txd element_loop) m' /\ shown m' = [OPunch (VNum 1); OPunch (VNum 1); OPunch (VNum 1)].
Proof.
  intros w svd txd. eexists. split; [exists 24%nat, 24%nat; intros f k Hf Hk; do 24 (destruct f as [|f]; [lia|]); do 24 (destruct k as [|k]; [lia|]); vm_compute; reflexivity|reflexivity].
Qed.
Print Assumptions C76_element_refuted.
(** 10 for i=2 to 1: for i=1 to 1: next: next *)
Definition same_name : list line :=
  [(10, [TFor; TVar "i"; TEq; TNum 2; TTo; TNum 1; TColon; TFor; TVar "i"; TEq; TNum 1; TTo; TNum 1; TColon; TNext; TColon; TNext])].
(** A loop that is to be skipped ends at the NEXT of a loop inside it if that loop has the same variable and its NEXT has no name: the rest is
    executed, and here the second NEXT is an error.  PBasic.cpp:6245-6287. *)
Theorem C76_skip_refuted : forall w svd txd, stops_with_error w (started svd txd same_name).
Proof.
  intros w svd txd. exists 12%nat, 12%nat. intros f k Hf Hk. do 12 (destruct f as [|f]; [lia|]). do 12 (destruct k as [|k]; [lia|]). vm_compute. reflexivity.
Qed.
Print Assumptions C76_skip_refuted.

(** * C77: the lines of a program *)
Theorem C77_enter : forall p n t k, ascending p -> ascending (enter n t p) /\ text_at (enter n t p) k = if k =? n then match t with [] => None | _ => Some t end else text_at p k.
Proof. intros p n t k H. split; [apply enter_ascending; exact H|apply enter_text; exact H]. Qed.
Print Assumptions C77_enter.
(** However the lines are typed, the program is sorted and has the last text of each number. *)
Theorem C77_typed : forall ls k, let p := fold_left (fun p l => enter (fst l) (snd l) p) ls [] in
  ascending p /\ text_at p k = match last_typed ls k with Some (x :: t) => Some (x :: t) | _ => None end.
Proof.
  intros ls k. assert (G : forall ls p, ascending p -> ascending (fold_left (fun p l => enter (fst l) (snd l) p) ls p) /\
    text_at (fold_left (fun p l => enter (fst l) (snd l) p) ls p) k = match last_typed ls k with Some (x :: t) => Some (x :: t) | Some [] => None | None => text_at p k end).
  { clear ls. induction ls as [|[n t] ls IH]; intros p A; [split; [exact A|reflexivity]|]. cbn [fold_left fst snd last_typed]. destruct (IH (enter n t p) (enter_ascending n t p A)) as [H1 H2]. split; [exact H1|]. rewrite H2.
    destruct (last_typed ls k) as [[|x u]|]; try reflexivity. rewrite enter_text by exact A. rewrite Z.eqb_sym. destruct (n =? k); [destruct t; reflexivity|reflexivity]. }
  cbn zeta. destruct (G ls [] I) as [H1 H2]. split; [exact H1|]. rewrite H2. destruct (last_typed ls k) as [[|x u]|]; reflexivity.
Qed.
Print Assumptions C77_typed.
(** GOTO and the like find the text that was typed for the number. *)
Theorem C77_found : forall p n, match find_line n p with Some h => exists t r, h = (n, t) :: r /\ text_at p n = Some t /\ exists before, p = before ++ h | None => text_at p n = None end.
Proof.
  intros p n. induction p as [|[k t] r IH]; [reflexivity|]. cbn [find_line text_at]. destruct (k =? n) eqn:E.
  - exists t, r. split; [f_equal; f_equal; lia|]. split; [reflexivity|]. exists []. reflexivity.
  - destruct (find_line n r) as [h|]; [|exact IH]. destruct IH as (t2 & r2 & E1 & E2 & before & E3). exists t2, r2. split; [exact E1|]. split; [exact E2|]. exists ((k, t) :: before). rewrite E3. reflexivity.
Qed.
Print Assumptions C77_found.
(** RENUM: the lines keep their order and get the new numbers; a number of a line, behind a word that takes one, names the same line as before;
    a number that names no line stays. *)
Theorem C77_renum : forall p first inc n word r, 0 < inc -> has_lines word = true ->
  map fst (renum p first inc) = map (fun i => first + inc * Z.of_nat i) (seq 0 (length p)) /\
  (forall i, names_line p n i ->
     renum_toks p first inc Outside (word :: TNum (inject_Z n) :: r) = word :: TNum (inject_Z (first + inc * Z.of_nat i)) :: renum_toks p first inc AfterNum r /\
     names_line (renum p first inc) (first + inc * Z.of_nat i) i) /\
  (text_at p n = None -> renum_toks p first inc Outside (word :: TNum (inject_Z n) :: r) = word :: TNum (inject_Z n) :: renum_toks p first inc AfterNum r).
Proof.
  intros p first inc n word r Hi Hw. split; [|split].
  - unfold renum. assert (G : forall l k a, k = first + inc * Z.of_nat a -> map fst (renum_lines p first inc k l) = map (fun i => first + inc * Z.of_nat i) (seq a (length l))).
    { induction l as [|[m t] l IH]; intros k a ->; [reflexivity|]. cbn [renum_lines map length seq fst]. f_equal. apply IH. lia. }
    apply (G p first 0%nat). lia.
  - intros i N. destruct (renum_line p first inc p first n i Hi N) as [E L]. split; [|exact L].
    assert (E2 : renum_toks p first inc Inside (TNum (inject_Z n) :: r) = TNum (inject_Z (first + inc * Z.of_nat i)) :: renum_toks p first inc AfterNum r) by (cbn [renum_toks]; rewrite floor_half, E; reflexivity).
    rewrite <- E2. destruct word; try discriminate; cbn [renum_toks]; try reflexivity. rewrite Hw. reflexivity.
  - intros T. assert (E2 : renum_toks p first inc Inside (TNum (inject_Z n) :: r) = TNum (inject_Z n) :: renum_toks p first inc AfterNum r) by (cbn [renum_toks]; rewrite floor_half, new_none by exact T; reflexivity).
    rewrite <- E2. destruct word; try discriminate; cbn [renum_toks]; try reflexivity. rewrite Hw. reflexivity.
Qed.
Print Assumptions C77_renum.
(** The lists of ON. *)
Theorem C77_renum_list : forall p first inc ns is r, 0 < inc -> Forall2 (names_line p) ns is ->
  renum_toks p first inc Outside (TGosub :: lines_text ns ++ TColon :: r) = TGosub :: lines_text (map (fun i => first + inc * Z.of_nat i) is) ++ TColon :: renum_toks p first inc Outside r.
Proof.
  intros p first inc ns is r Hi H. cbn [renum_toks has_lines]. f_equal. induction H as [|n i ns is N H IH]; [reflexivity|].
  destruct (renum_line p first inc p first n i Hi N) as [E _]. destruct H as [|n2 i2 ns is N2 H].
  - cbn [lines_text app map renum_toks]. rewrite floor_half, E. reflexivity.
  - change (lines_text (n :: n2 :: ns) ++ TColon :: r) with (TNum (inject_Z n) :: TComma :: lines_text (n2 :: ns) ++ TColon :: r). cbn [renum_toks]. rewrite floor_half, E. rewrite IH. reflexivity.
Qed.
Print Assumptions C77_renum_list.
Definition dangling : list line := [(10, [TGoto; TNum 20]); (15, [TEnd])].
(** RENUM keeps the number of a jump to a line that does not exist, so that the jump may name one of the renumbered lines afterwards: 10 goto 20; 15 end, which is
    an error, becomes 10 goto 20; 20 end, which ends. *)
Theorem C77_dangling_refuted : forall w svd txd, stops_with_error w (started svd txd dangling) /\ exists m', ends_in_state w (started svd txd (renum dangling 10 10)) m'.
Proof.
  intros w svd txd. split.
  - exists 12%nat, 12%nat. intros f k Hf Hk. do 12 (destruct f as [|f]; [lia|]). do 12 (destruct k as [|k]; [lia|]). vm_compute. reflexivity.
  - eexists. exists 12%nat, 12%nat. intros f k Hf Hk. do 12 (destruct f as [|f]; [lia|]). do 12 (destruct k as [|k]; [lia|]). vm_compute. reflexivity.
Qed.
Print Assumptions C77_dangling_refuted.
(** Texts are cut at semicolons. *)
Fixpoint has_break (s : string) : bool := match s with "" => false | String c r => Ascii.eqb c ";" || Ascii.eqb c newline || has_break r end.
Theorem C77_split : forall a b, has_break a = false -> logical_line (a ++ ";" ++ b) = (a, b) /\ logical_line (a ++ String newline b) = (a, b) /\ logical_line a = (a, "").
Proof.
  induction a as [|c a IH]; intros b H; [repeat split|]. cbn [has_break] in H. apply orb_false_elim in H as [H1 H2]. destruct (IH b H2) as (E1 & E2 & E3). cbn [append logical_line] in *.
  cbn [append] in E1. rewrite H1, E1, E2, E3. repeat split.
Qed.
Print Assumptions C77_split.
(** A semicolon inside a quoted text cuts the line in the same way: the line [10 print "a;b"] becomes the lines [10 print "a] and [b"].  PBasic.cpp:393-425. *)
Theorem C77_quote_refuted : forall a b q, has_break a = false -> q = String (ascii_of_nat 34) "" -> logical_line ("10 print " ++ q ++ a ++ ";" ++ b ++ q) = (("10 print " ++ q ++ a)%string, (b ++ q)%string).
Proof.
  intros a b q H ->. rewrite (proj1 (C77_split (a) (b ++ String (ascii_of_nat 34) "") H) : logical_line (a ++ ";" ++ b ++ String (ascii_of_nat 34) "") = _) || idtac.
  pose proof (proj1 (C77_split ("10 print " ++ String (ascii_of_nat 34) a) (b ++ String (ascii_of_nat 34) "") H)) as E. exact E.
Qed.
Print Assumptions C77_quote_refuted.
Example C77_case : text_at (enter 20 [TEnd] (enter 10 [TStop] (enter 20 [TReturn] []))) 20 = Some [TEnd] /\ enter 10 [] (enter 20 [TEnd] (enter 10 [TStop] [])) = [(20, [TEnd])].
Proof. split; reflexivity. Qed.

(** * C78: what is stored is read back *)
Theorem C78_put : forall w procs data s e l js s' l' js', does w procs data s (Do (Put e l)) s' -> Forall2 (whole_in w s) l js -> l' <> [] -> Forall2 (whole_in w s') l' js' ->
  exists q, value_in w s e (VNum q) /\ (js' = js -> value_in w s' (Get l') (VNum q)) /\ (js' <> js -> value_in w s' (Get l') (VNum (match sv s (key js') with Some x => x | None => 0 end))).
Proof.
  intros w procs data s e l js s' l' js' D Hl N Hl'. inversion D as [| | | | |s0 e0 l0 q js0 V Hl0 Fj| | | | | | | | | | | | | | | | |]; subst. exists q. split; [exact V|].
  assert (E : js0 = js). { clear - Hl Hl0. revert js Hl. induction Hl0 as [|a z l js0 Ha _ IH]; intros js Hl; inversion Hl as [|? z2 ? js2 Ha2 Hl2]; subst; [reflexivity|]. rewrite (IH js2 Hl2). f_equal.
    destruct Ha as (v & [_ V] & R). destruct Ha2 as (v2 & [_ V2] & R2). rewrite V in V2. injection V2 as <-. congruence. }
  subst js0. set (s1 := mkMem (vs s) (fun k => if String.eqb k (key js) then Some q else sv s k) (tx s) (outp s) (feed s)) in *.
  assert (K : well_used (vs s1) (Get l') /\ forall v, v = (if String.eqb (key js') (key js) then q else match sv s (key js') with Some x => x | None => 0%Q end) -> den w (vs s1) (sv s1) (tx s1) (Get l') = Ok (VNum v)).
  { split.
    - cbn. split; [exact N|]. clear N. induction Hl' as [|a z l2 js2 (v & [U _] & _) _ IH]; [exact I|]. split; [exact U|exact IH].
    - intros v ->. cbn [den]. match goal with |- rbind (?g l') _ = _ => assert (G : g l' = Ok (key js')) end.
      { clear N. induction Hl' as [|a z l2 js2 (v & [_ V2] & R) _ IH]; [reflexivity|]. cbn [key]. rewrite V2. cbn [rbind]. rewrite R. cbn [rbind]. rewrite IH. reflexivity. }
      rewrite G. cbn [rbind]. cbn [sv s1]. destruct (String.eqb (key js') (key js)); reflexivity. }
  destruct K as [U K]. split.
  - intros ->. split; [exact U|]. apply K. rewrite String.eqb_refl. reflexivity.
  - intros Nj. split; [exact U|]. apply K. destruct (String.eqb (key js') (key js)) eqn:E; [|reflexivity]. apply String.eqb_eq in E. apply key_inj in E. contradiction.
Qed.
Print Assumptions C78_put.
(** LET: the element has the value, and all other elements and variables are as before. *)
Theorem C78_let : forall w procs data s t e s', does w procs data s (Do (Let t e)) s' -> exists x k v, stands_for w s t x k /\ value_in w s e v /\
  cells (vs s' x) k = v /\ dims (vs s' x) = dims (vs s x) /\ (forall j, j <> k -> cells (vs s' x) j = cells (vs s x) j) /\ (forall y, y <> x -> vs s' y = vs s y) /\ sv s' = sv s /\ tx s' = tx s /\ outp s' = outp s /\ feed s' = feed s.
Proof.
  intros w procs data s t e s' D. inversion D as [|s0 t0 e0 x k v St V Fi| | | | | | | | | | | | | | | | | | | | |]; subst. exists x, k, v. split; [exact St|]. split; [exact V|]. split; [apply cell_written|]. split; [apply dims_written|].
  unfold written_to. cbn [vs sv tx outp feed]. rewrite String.eqb_refl. cbn [cells]. repeat split.
  - intros j Nj. replace (j =? k) with false by lia. reflexivity.
  - intros y Ny. apply String.eqb_neq in Ny. rewrite Ny. reflexivity.
Qed.
Print Assumptions C78_let.
(** 10 put(5, 2^31): punch get(2^31) *)
Definition far_key : list line := [(10, [TPut; TLp; TNum 5; TComma; TNum 2147483648; TRp; TColon; TPunch; TGet; TLp; TNum 2147483648; TRp])].
(** PUT keeps a subscript in an int and GET in a long: a value put at 2147483648 or beyond is not found there.  PBasic.cpp:5589-5620 (int j), 2740-2780. *)
Theorem C78_far_refuted : forall w txd, exists m', ends_in_state w (started (fun _ => None) txd far_key) m' /\ shown m' = [OPunch (VNum 0)] /\ saved (base m') "-2147483648," = Some 5%Q.
Proof.
  intros w txd. eexists. split; [exists 24%nat, 12%nat; intros f k Hf Hk; do 24 (destruct f as [|f]; [lia|]); do 12 (destruct k as [|k]; [lia|]); vm_compute; reflexivity|split; reflexivity].
Qed.
Print Assumptions C78_far_refuted.
Example C78_case : forall w, exists s', does w (fun _ => None) [] (mkMem fresh (fun _ => None) (fun _ => None) [] []) (Do (Put (Num 5) [Num 1; Num 2])) s' /\ value_in w s' (Get [Num 1; Num 2]) (VNum 5) /\ value_in w s' (Get [Num 12]) (VNum 0).
Proof.
  intros w. eexists. split; [|split].
  - eapply (d_put _ _ _ _ (Num 5) [Num 1; Num 2] 5%Q [1; 2]); [val| |].
    + constructor; [exists (VNum 1); split; [val|reflexivity]|]. constructor; [exists (VNum 2); split; [val|reflexivity]|constructor].
    + constructor; [unfold fits_int; lia|]. constructor; [unfold fits_int; lia|constructor].
  - val.
  - val.
Qed.

(** * C79: jumps *)
Lemma as_mm m : m = mm (prog m) (rest m, here m) (memory_of m) (stack m) (cur (base m)) (dtoks m, dhere m).
Proof. destruct m as [[t v c s x] p h L dh dt o]. reflexivity. Qed.
Lemma to_line w PR s n i r h L c d : LONG_MIN <= n <= LONG_MAX -> names_line PR n i -> ends r ->
  exists c' t u, EVP (fun f => jump w f) (mm PR (TNum (inject_Z n) :: r, h) s L c d) (Ok (Open, mm PR (t, skipn i PR) s L c' d)) /\ skipn i PR = (n, t) :: u.
Proof.
  intros B H R. destruct H as (before & t & u & E & N & Li). destruct (goto_line w PR s n (t, (n, t) :: u) r h L c d B) as (c1 & H1); [exists before, t, u; auto|exact R|].
  assert (K : skipn i PR = (n, t) :: u) by (rewrite E, <- Li; clear; induction before; [reflexivity|assumption]). exists c1, t, u. rewrite K. auto.
Qed.
(** GOTO goes to the line of its number, ON ... GOTO to the line at that place of its list or, if there is none, on to the next statement;
    loops, subroutines, variables and data are not touched. *)
Theorem C79_goto : forall w m n i r, rest m = TGoto :: TNum (inject_Z n) :: r -> ends r -> LONG_MIN <= n <= LONG_MAX -> names_line (prog m) n i ->
  exists m' t u, reaches w m m' /\ only_moved m m' /\ stack m' = stack m /\ here m' = skipn i (prog m) /\ here m' = (n, t) :: u /\ rest m' = t.
Proof.
  intros w m n i r E R B H. rewrite (as_mm m), E. set (PR := prog m) in *. destruct (to_line w PR (memory_of m) n i r (here m) (stack m) (cur (base m)) (dtoks m, dhere m) B H R) as (c1 & t & u & H1 & K).
  exists (mm PR (t, skipn i PR) (memory_of m) (stack m) c1 (dtoks m, dhere m)), t, u. split; [|repeat split; exact K].
  eapply step_stmt with (fl := Open); [discriminate|exact H1|exact I].
Qed.
Print Assumptions C79_goto.
Lemma on_in w PR s n j r h L d : eos r = true -> names_line PR n j -> forall ns i k c, Forall (fun n => LONG_MIN <= n <= LONG_MAX) ns -> 1 <= i -> nth_error ns (Z.to_nat (i - 1)) = Some n -> (length ns <= k)%nat ->
  exists c' t u, EVP (fun f => on_list w f k i) (mm PR (lines_text ns ++ r, h) s L c d) (Ok (Open, mm PR (t, skipn j PR) s L c' d)) /\ skipn j PR = (n, t) :: u.
Proof.
  intros R (before & t & u & E & N & Li) ns i k c F Hi Nn Lk. destruct (on_step w PR s n (t, (n, t) :: u) r h L d R ltac:(exists before, t, u; auto) ns i k c F Hi Nn Lk) as (c1 & H1).
  assert (K : skipn j PR = (n, t) :: u) by (rewrite E, <- Li; clear; induction before; [reflexivity|assumption]). exists c1, t, u. rewrite K. auto.
Qed.
Lemma on_out w PR s r h L d : eos r = true -> forall ns i k c, Z.of_nat (length ns) < i -> (length ns <= k)%nat -> EVP (fun f => on_list w f k i) (mm PR (lines_text ns ++ r, h) s L c d) (Ok (Plain, mm PR (r, h) s L c d)).
Proof.
  intros R. induction ns as [|n ns IH]; intros i k c Hi Lk.
  - cbn [lines_text app]. apply PA. intros f. destruct k; cbn [on_list]; change (rest (mm PR (r, h) s L c d)) with r; rewrite R; rewrite andb_false_r; reflexivity.
  - destruct k as [|k]; [cbn in Lk; lia|]. cbn [length] in Hi, Lk. rewrite lines_head. refine (PS _ _ _ _ _ _ (IH (i - 1) k c ltac:(lia) ltac:(lia))). intros f. cbn [on_list].
    change (rest (mm PR (TNum (inject_Z n) :: match ns with [] => r | _ => TComma :: lines_text ns ++ r end, h) s L c d)) with (TNum (inject_Z n) :: match ns with [] => r | _ => TComma :: lines_text ns ++ r end).
    replace (1 <? i) with true by lia. cbn [eos negb andb]. destruct ns as [|n2 ns].
    + unfold pbind, need, on, require, eosP. cbn [base Prog_Proofs.mm toks fst is_numtok rbind snd with_toks with_base rest]. rewrite R. reflexivity.
    + reflexivity.
Qed.
(** The position of ON ... GOTO, or of ON ... GOSUB. *)
Theorem C79_on : forall w m e z ns r, rest m = TOn :: written e ++ TGoto :: lines_text ns ++ r -> whole_in w (memory_of m) e z -> Forall (fun n => LONG_MIN <= n <= LONG_MAX) ns -> eos r = true ->
  (forall n i, 1 <= z -> nth_error ns (Z.to_nat (z - 1)) = Some n -> names_line (prog m) n i ->
     exists m' t u, reaches w m m' /\ only_moved m m' /\ stack m' = stack m /\ here m' = skipn i (prog m) /\ here m' = (n, t) :: u /\ rest m' = t) /\
  (z < 1 \/ Z.of_nat (length ns) < z -> exists m', reaches w m m' /\ only_moved m m' /\ stack m' = stack m /\ at_pos m' (r, here m)).
Proof.
  intros w m e z ns r E V F R. rewrite (as_mm m), E. set (PR := prog m) in *.
  destruct (p_int w PR (memory_of m) e z (TGoto :: lines_text ns ++ r) (here m) (stack m) (cur (base m)) (dtoks m, dhere m) V ltac:(reflexivity)) as (c1 & H1).
  assert (Ll : (length ns <= length (lines_text ns ++ r))%nat) by (pose proof (lines_len ns); rewrite app_length; lia). split.
  - intros n i Hz Nn H. destruct (on_in w PR (memory_of m) n i r (here m) (stack m) (dtoks m, dhere m) R H ns z (length (lines_text ns ++ r)) c1 F Hz Nn Ll) as (c2 & t & u & H2 & K).
    exists (mm PR (t, skipn i PR) (memory_of m) (stack m) c2 (dtoks m, dhere m)), t, u. split; [|repeat split; exact K].
    eapply step_stmt with (fl := Open); [discriminate| |exact I]. cbn [stmt]. unfold cmd_on. bind H1. eapply PB; [exact (p_need PR is_gototok TGoto (lines_text ns ++ r) (here m) (memory_of m) (stack m) c1 (dtoks m, dhere m) eq_refl)|]. cbn beta.
    replace (z <? 1) with false by lia. exact H2.
  - intros Hz. exists (mm PR (r, here m) (memory_of m) (stack m) c1 (dtoks m, dhere m)). split; [|repeat split].
    eapply step_stmt with (fl := Plain); [discriminate| |exact R]. cbn [stmt]. unfold cmd_on. bind H1. eapply PB; [exact (p_need PR is_gototok TGoto (lines_text ns ++ r) (here m) (memory_of m) (stack m) c1 (dtoks m, dhere m) eq_refl)|]. cbn beta.
    destruct (z <? 1) eqn:Lz.
    + apply PC. unfold pbind, change. cbn [rbind fst snd]. change (rest _) with (lines_text ns ++ r). rewrite skip_quiet by (try apply quiet_lines; exact R). reflexivity.
    + exact (on_out w PR (memory_of m) r (here m) (stack m) (dtoks m, dhere m) R ns z (length (lines_text ns ++ r)) c1 ltac:(lia) Ll).
Qed.
Print Assumptions C79_on.
(** ON ... GOSUB with a number that selects nothing goes on to the next statement too, but leaves a record of a call behind: a NEXT or a WEND of a loop
    around it fails, and the next RETURN goes back to this place.  PBasic.cpp:6643-6683 (the record is pushed before the list is looked at). *)
Theorem C79_gosub_refuted : forall w m e z ns r, rest m = TOn :: written e ++ TGosub :: lines_text ns ++ r -> whole_in w (memory_of m) e z -> eos r = true -> z < 1 \/ Z.of_nat (length ns) < z ->
  exists m' t, reaches w m m' /\ only_moved m m' /\ at_pos m' (r, here m) /\ stack m' = LGosub (here m) t :: stack m /\
    (forall f, rest m' = TColon :: TNext :: [] -> exec w f 2 m' = Fails) /\ (forall f, rest m' = TColon :: TWend :: [] -> exec w f 2 m' = Fails).
Proof.
  intros w m e z ns r E V R Hz. rewrite (as_mm m), E. set (PR := prog m) in *.
  destruct (p_int w PR (memory_of m) e z (TGosub :: lines_text ns ++ r) (here m) (stack m) (cur (base m)) (dtoks m, dhere m) V ltac:(reflexivity)) as (c1 & H1).
  assert (Ll : (length ns <= length (lines_text ns ++ r))%nat) by (pose proof (lines_len ns); rewrite app_length; lia).
  set (K := LGosub (here m) (TGosub :: lines_text ns ++ r)).
  exists (mm PR (r, here m) (memory_of m) (K :: stack m) c1 (dtoks m, dhere m)), (TGosub :: lines_text ns ++ r). split; [|split; [repeat split|split; [repeat split|split; [reflexivity|]]]].
  - eapply step_stmt with (fl := Plain); [discriminate| |exact R]. cbn [stmt]. unfold cmd_on. bind H1. bindc.
    destruct (z <? 1) eqn:Lz.
    + apply PC. transitivity (Ok (Plain, mm PR (skip_eos (lines_text ns ++ r), here m) (memory_of m) (K :: stack m) c1 (dtoks m, dhere m))); [reflexivity|]. rewrite skip_quiet by (try apply quiet_lines; exact R). reflexivity.
    + exact (on_out w PR (memory_of m) r (here m) (K :: stack m) (dtoks m, dhere m) R ns z (length (lines_text ns ++ r)) c1 ltac:(lia) Ll).
  - split; intros f Er; change (rest (mm PR (r, here m) (memory_of m) (K :: stack m) c1 (dtoks m, dhere m))) with r in Er; rewrite Er; reflexivity.
Qed.
Print Assumptions C79_gosub_refuted.
(** 10 on 2 goto 10, 30; 20 stop; 30 end *)
Example C79_case : let p := [(10, TOn :: written (Num 2) ++ TGoto :: lines_text [10; 30]); (20, [TStop]); (30, [TEnd])] in
  forall w, names_line p 30 2 /\ whole_in w (memory_of (started (fun _ => None) (fun _ => None) p)) (Num 2) 2 /\ exists m', ends_in_state w (started (fun _ => None) (fun _ => None) p) m'.
Proof.
  intros p w. split; [|split].
  - exists (firstn 2 p), [TEnd], []. repeat split. cbn. intuition discriminate.
  - exists (VNum 2). split; [val|reflexivity].
  - eexists. exists 12%nat, 12%nat. intros f k Hf Hk. do 12 (destruct f as [|f]; [lia|]). do 12 (destruct k as [|k]; [lia|]). vm_compute. reflexivity.
Qed.
