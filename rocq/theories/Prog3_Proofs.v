(** Lemmas for C76: skipping of loops and branches. *)
From Coq Require Import String Ascii List ZArith QArith Qround Qabs Bool Lia Lqa.
From Verif Require Import CStr_Model CNum_Model Qx Basic_Model Basic_Spec Basic_Proofs Basic2_Proofs Prog_Model Prog_Spec Prog_Proofs.
Import ListNotations.
Local Open Scope string_scope.
Local Open Scope list_scope.
Local Open Scope Z_scope.

Definition quiet (x : tok) : bool := match x with TColon | TElse | TFor | TNext | TWhile | TWend | TIf => false | _ => true end.
Lemma quiet_op o : quiet (op_token o) = true.
Proof. destruct o; reflexivity. Qed.
Lemma quiet_sep (f : ex -> list tok) l : Forall (fun e => forallb quiet (f e) = true) l -> forallb quiet (separated (map f l)) = true.
Proof.
  induction 1 as [|e l He Hl IH]; [reflexivity|]. destruct l as [|e2 l]; [exact He|]. change (separated (map f (e :: e2 :: l))) with (f e ++ TComma :: separated (map f (e2 :: l))). rewrite forallb_app, He. exact IH.
Qed.
Lemma quiet_written e : forallb quiet (written e) = true.
Proof.
  assert (PT : forall n e, forallb quiet (written e) = true -> forallb quiet (part n e) = true) by
    (intros n e0 H; unfold part; destruct (Nat.leb n (tightness e0)); [exact H|]; cbn [forallb quiet app andb]; rewrite forallb_app, H; reflexivity).
  induction e as [| | |x l Hl| |u e IH|o a b IHa IHb|a b IHa IHb|k a IH|a IH|l Hl|l Hl|a i j IHa IHi IHj] using ex_induct; try reflexivity.
  - cbn [written]. cbn [forallb quiet app andb]. rewrite forallb_app, quiet_sep by exact Hl. reflexivity.
  - rewrite written_un. cbn [forallb]. rewrite (PT 6%nat e IH). destruct u; reflexivity.
  - rewrite written_bin. destruct o; rewrite forallb_app; cbn [forallb]; rewrite !PT by assumption; reflexivity.
  - change (written (Instr a b)) with (TInstr :: TLp :: part 6 a ++ TComma :: part 6 b ++ [TRp]). cbn [forallb quiet andb]. rewrite !forallb_app. cbn [forallb quiet andb]. rewrite !forallb_app, !PT by assumption. reflexivity.
  - change (written (Trim k a)) with (trim_token k :: TLp :: part 6 a ++ [TRp]). cbn [forallb]. rewrite !forallb_app, PT by assumption. destruct k; reflexivity.
  - cbn [written]. cbn [forallb quiet andb]. rewrite !forallb_app, IH. reflexivity.
  - cbn [written]. cbn [forallb quiet app andb]. rewrite forallb_app, quiet_sep by exact Hl. reflexivity.
  - cbn [written]. cbn [forallb quiet app andb]. rewrite forallb_app, quiet_sep by exact Hl. reflexivity.
  - cbn [written]. cbn [forallb quiet andb]. rewrite !forallb_app. cbn [forallb quiet andb]. rewrite !forallb_app. cbn [forallb quiet andb]. rewrite !forallb_app, IHa, IHi, IHj. reflexivity.
Qed.
Lemma quiet_list l : forallb quiet (separated (map written l)) = true.
Proof. apply quiet_sep. apply Forall_forall. intros e _. apply quiet_written. Qed.
Lemma quiet_lhs t : forallb quiet (written_lhs t) = true.
Proof. destruct t as [x|x l]; [reflexivity|]. cbn [written_lhs forallb quiet andb]. rewrite forallb_app, quiet_list. reflexivity. Qed.
Lemma quiet_lhss l : forallb quiet (separated (map written_lhs l)) = true.
Proof. induction l as [|t l IH]; [reflexivity|]. destruct l as [|t2 l]; [apply quiet_lhs|]. change (separated (map written_lhs (t :: t2 :: l))) with (written_lhs t ++ TComma :: separated (map written_lhs (t2 :: l))). rewrite forallb_app, quiet_lhs. exact IH. Qed.
Lemma quiet_listed l t b : listed l t b -> forallb quiet t = true.
Proof. induction 1 as [|e|e x l t b Sx _ IH]; [reflexivity|apply quiet_written|]. rewrite forallb_app, quiet_written. cbn [forallb andb]. rewrite IH. destruct x; try discriminate; reflexivity. Qed.
Lemma quiet_lines ns : forallb quiet (lines_text ns) = true.
Proof. induction ns as [|n ns IH]; [reflexivity|]. destruct ns; [reflexivity|]. cbn [lines_text forallb quiet andb] in *. exact IH. Qed.
Lemma quiet_opt o : forallb quiet (option_text o) = true.
Proof. destruct o; [apply quiet_written|reflexivity]. Qed.
Lemma quiet_step o : forallb quiet (step_text o) = true.
Proof. destruct o; [apply quiet_written|reflexivity]. Qed.
Lemma quiet_data t : Forall (fun x => x <> TColon /\ x <> TElse /\ x <> TFor /\ x <> TNext /\ x <> TWhile /\ x <> TWend /\ x <> TIf) t -> forallb quiet t = true.
Proof. induction 1 as [|x t (H1 & H2 & H3 & H4 & H5 & H6 & H7) _ IH]; [reflexivity|]. cbn [forallb]. rewrite IH. destruct x; try reflexivity; congruence. Qed.
Lemma skip_quiet t r : forallb quiet t = true -> eos r = true -> skip_eos (t ++ r) = r.
Proof.
  intros Q E. induction t as [|x t IH]; cbn [app].
  - destruct r as [|y r]; [reflexivity|]. unfold skip_eos. rewrite E. reflexivity.
  - cbn [forallb] in Q. apply andb_prop in Q as [Q1 Q2]. cbn [skip_eos]. replace (eos (x :: t ++ r)) with false by (destruct x; try discriminate; reflexivity). apply IH. exact Q2.
Qed.

(** A statement that is a single piece of quiet text. *)
Inductive shape : pos -> cmd -> pos -> Prop :=
| sh_flat x t r h c : quiet x = true -> (forall q, x <> TNum q) -> forallb quiet t = true -> eos r = true -> shape (x :: t ++ r, h) c (r, h)
| sh_seq p a p1 p2 b p' : shape p a p1 -> next_stmt p1 p2 -> shape p2 b p' -> shape p (Seq a b) p'
| sh_if e a b t u h : shape (t, h) a (TElse :: u, h) -> no_if a -> shape (u, h) b ([], h) -> shape (TIf :: written e ++ TThen :: t, h) (If e a b) ([], h)
| sh_if_only e a t h : shape (t, h) a ([], h) -> shape (TIf :: written e ++ TThen :: t, h) (If e a Nop) ([], h)
| sh_for (named : bool) x a b c body r h p1 p2 r' h' : eos r = true -> next_stmt (r, h) p1 -> shape p1 body p2 -> tidy x body ->
    next_stmt p2 (TNext :: (if named then [TVar x] else []) ++ r', h') -> eos r' = true ->
    shape (TFor :: TVar x :: TEq :: written a ++ TTo :: written b ++ step_text c ++ r, h) (For named x a b c body) (r', h')
| sh_while e1 e2 body r h p1 p2 r' h' : eos r = true -> next_stmt (r, h) p1 -> shape p1 body p2 ->
    next_stmt p2 (TWend :: option_text e2 ++ r', h') -> eos r' = true -> shape (TWhile :: option_text e1 ++ r, h) (While e1 e2 body) (r', h').
Lemma shape_of p c p' : spelled p c p' -> shape p c p'.
Proof.
  induction 1; try (econstructor; eassumption).
  - apply (sh_flat (TRem x) [] r); try reflexivity; try assumption; discriminate.
  - apply sh_flat; try reflexivity; try assumption; try discriminate. apply quiet_data. assumption.
  - replace (written_lhs t ++ TEq :: written e ++ r) with ((written_lhs t ++ TEq :: written e) ++ r) by (rewrite <- app_assoc; reflexivity). apply sh_flat; try reflexivity; try assumption; try discriminate.
    rewrite forallb_app, quiet_lhs. apply quiet_written.
  - replace (written_lhs t ++ TEq :: written e ++ r) with ((written_lhs t ++ TEq :: written e) ++ r) by (rewrite <- app_assoc; reflexivity).
    assert (Q : forallb quiet (written_lhs t ++ TEq :: written e) = true) by (rewrite forallb_app, quiet_lhs; apply quiet_written).
    destruct t as [x|x l]; cbn [written_lhs] in Q |- *.
    + apply (sh_flat (TVar x) (TEq :: written e) r); try reflexivity; try assumption; discriminate.
    + apply (sh_flat (TVar x) ((TLp :: separated (map written l) ++ [TRp]) ++ TEq :: written e) r); try reflexivity; try assumption; discriminate.
  - apply sh_flat; try reflexivity; try assumption; try discriminate. eapply quiet_listed; eassumption.
  - apply sh_flat; try reflexivity; try assumption; try discriminate. eapply quiet_listed; eassumption.
  - apply sh_flat; try reflexivity; try assumption; try discriminate. eapply quiet_listed; eassumption.
  - replace (TLp :: separated (map written (e :: l)) ++ TRp :: r) with ((TLp :: separated (map written (e :: l)) ++ [TRp]) ++ r) by (cbn [app]; rewrite <- app_assoc; reflexivity).
    apply sh_flat; try reflexivity; try assumption; try discriminate. cbn [forallb quiet andb]. rewrite forallb_app, quiet_list. reflexivity.
  - replace (TLp :: separated (map written (e :: l)) ++ TRp :: r) with ((TLp :: separated (map written (e :: l)) ++ [TRp]) ++ r) by (cbn [app]; rewrite <- app_assoc; reflexivity).
    apply sh_flat; try reflexivity; try assumption; try discriminate. cbn [forallb quiet andb]. rewrite forallb_app, quiet_list. reflexivity.
  - replace (TVar x :: TLp :: separated (map written l) ++ TRp :: r) with ((TVar x :: TLp :: separated (map written l) ++ [TRp]) ++ r) by (cbn [app]; rewrite <- app_assoc; reflexivity).
    apply sh_flat; try reflexivity; try assumption; try discriminate. cbn [forallb quiet andb]. rewrite forallb_app, quiet_list. reflexivity.
  - apply (sh_flat TErase [TVar x] r); try reflexivity; try assumption; discriminate.
  - apply sh_flat; try reflexivity; try assumption; try discriminate. apply (quiet_lhss (t :: more)).
  - apply (sh_flat TRestore [] r); try reflexivity; try assumption; discriminate.
  - apply (sh_flat TGosub [TNum (inject_Z n)] r); try reflexivity; try assumption; discriminate.
  - replace (written e ++ TGosub :: lines_text ns ++ r) with ((written e ++ TGosub :: lines_text ns) ++ r) by (rewrite <- app_assoc; reflexivity). apply sh_flat; try reflexivity; try assumption; try discriminate.
    rewrite forallb_app, quiet_written. apply quiet_lines.
Qed.

(** ** Scanning *)
Definition Sc upd c (p : pos) := scan upd c (fst p) (snd p).
Lemma scan_cons upd c x t h : scan upd c (x :: t) h = if below (upd x t c) then Some (t, h) else scan upd (upd x t c) t h.
Proof. destruct h; cbn [scan scan_toks]; destruct (below (upd x t c)); reflexivity. Qed.
Definition mild (upd : tok -> list tok -> counters -> counters) : Prop := forall x t c, quiet x = true \/ x = TColon \/ x = TElse \/ x = TIf -> upd x t c = c.
Lemma mild_for x : mild (upd_for x).
Proof. intros y t [i j] H. destruct y; try reflexivity; cbn in H; destruct H as [H|[H|[H|H]]]; discriminate. Qed.
Lemma mild_while : mild upd_while.
Proof. intros y t [i j] H. destruct y; try reflexivity; cbn in H; destruct H as [H|[H|[H|H]]]; discriminate. Qed.
Lemma scan_pass upd c x t h : mild upd -> below c = false -> quiet x = true \/ x = TColon \/ x = TElse \/ x = TIf -> scan upd c (x :: t) h = scan upd c t h.
Proof. intros M B X. rewrite scan_cons. rewrite (M x t c X), B. reflexivity. Qed.
Lemma scan_text upd c t r h : mild upd -> below c = false -> forallb quiet t = true -> scan upd c (t ++ r) h = scan upd c r h.
Proof. intros M B Q. induction t as [|x t IH]; [reflexivity|]. cbn [forallb] in Q. apply andb_prop in Q as [Q1 Q2]. cbn [app]. rewrite scan_pass by (try assumption; left; exact Q1). auto. Qed.
Lemma scan_next upd c p q : mild upd -> below c = false -> next_stmt p q -> Sc upd c p = Sc upd c q.
Proof.
  intros M B H. induction H as [t h|l n t r|p q r _ IH1 _ IH2]; [|reflexivity|congruence]. unfold Sc. cbn [fst snd]. apply scan_pass; auto.
Qed.
Lemma below_ok i j : 0 <= i -> 0 <= j -> below (i, j) = false.
Proof. unfold below. cbn [fst snd]. lia. Qed.
Lemma scan_for x p c p' : shape p c p' -> tidy x c -> forall i j, 0 <= i -> 0 <= j -> Sc (upd_for x) (i, j) p = Sc (upd_for x) (i, j) p'.
Proof.
  pose proof (mild_for x) as M.
  induction 1 as [y t r h c Q _ Qt _|p a p1 p2 b p' _ IH1 Hn _ IH2|e a b t u h _ IH1 _ _ IH2|e a t h _ IH|named y a b c body r h p1 p2 r' h' Er N1 _ IH _ N2 Er'|e1 e2 body r h p1 p2 r' h' Er N1 _ IH N2 Er'];
    intros T i j Hi Hj; pose proof (below_ok i j Hi Hj) as B; unfold Sc; cbn [fst snd].
  - rewrite scan_pass by auto. apply scan_text; assumption.
  - destruct T as [T1 T2]. change (Sc (upd_for x) (i, j) p = Sc (upd_for x) (i, j) p'). rewrite IH1, (scan_next _ _ _ _ M B Hn) by assumption. apply IH2; assumption.
  - destruct T as [T1 T2]. rewrite scan_pass by auto. rewrite scan_text by (try assumption; apply quiet_written). rewrite scan_pass by auto.
    specialize (IH1 T1 i j Hi Hj). unfold Sc in IH1. cbn [fst snd] in IH1. rewrite IH1. rewrite scan_pass by auto. apply (IH2 T2 i j Hi Hj).
  - destruct T as [T1 _]. rewrite scan_pass by auto. rewrite scan_text by (try assumption; apply quiet_written). rewrite scan_pass by auto. apply (IH T1 i j Hi Hj).
  - destruct T as [Ty T]. rewrite scan_cons. cbn [upd_for names].
    assert (G : forall i2 j2, 0 <= i2 -> 0 <= j2 -> scan (upd_for x) (i2, j2) (TVar y :: TEq :: written a ++ TTo :: written b ++ step_text c ++ r) h = scan (upd_for x) (i2, j2) (TNext :: (if named then [TVar y] else []) ++ r') h').
    { intros i2 j2 H2 H3. pose proof (below_ok i2 j2 H2 H3) as B2. rewrite scan_pass by auto. rewrite scan_pass by auto. rewrite scan_text by (try assumption; apply quiet_written). rewrite scan_pass by auto.
      rewrite scan_text by (try assumption; apply quiet_written). rewrite scan_text by (try assumption; apply quiet_step).
      change (Sc (upd_for x) (i2, j2) (r, h) = Sc (upd_for x) (i2, j2) (TNext :: (if named then [TVar y] else []) ++ r', h')).
      rewrite (scan_next _ _ _ _ M B2 N1), (IH T i2 j2 H2 H3), (scan_next _ _ _ _ M B2 N2). reflexivity. }
    destruct named.
    + destruct (String.eqb y x) eqn:Eyx.
      * rewrite below_ok, G by lia. rewrite scan_cons. cbn [upd_for app names]. rewrite Eyx. replace (j + 1 - 1) with j by lia. rewrite B. apply scan_pass; auto.
      * rewrite below_ok, G by lia. rewrite scan_cons. cbn [upd_for app names]. rewrite Eyx. replace (i + 1 - 1) with i by lia. rewrite B. apply scan_pass; auto.
    + specialize (Ty eq_refl). apply String.eqb_neq in Ty. rewrite Ty. rewrite below_ok, G by lia. rewrite scan_cons. cbn [upd_for app].
      replace (names x r') with false by (destruct r' as [|z r']; [reflexivity|]; destruct z; try discriminate; reflexivity). replace (i + 1 - 1) with i by lia. rewrite B. reflexivity.
  - rewrite scan_cons. cbn [upd_for]. rewrite B. rewrite scan_text by (try assumption; apply quiet_opt).
    change (Sc (upd_for x) (i, j) (r, h) = Sc (upd_for x) (i, j) (r', h')). rewrite (scan_next _ _ _ _ M B N1), (IH T i j Hi Hj), (scan_next _ _ _ _ M B N2).
    unfold Sc. cbn [fst snd]. rewrite scan_cons. cbn [upd_for]. rewrite B. apply scan_text; [assumption|assumption|apply quiet_opt].
Qed.
Lemma scan_while p c p' : shape p c p' -> forall i, 0 <= i -> Sc upd_while (i, 0) p = Sc upd_while (i, 0) p'.
Proof.
  pose proof mild_while as M.
  induction 1 as [y t r h c Q _ Qt _|p a p1 p2 b p' _ IH1 Hn _ IH2|e a b t u h _ IH1 _ _ IH2|e a t h _ IH|named y a b c body r h p1 p2 r' h' Er N1 _ IH _ N2 Er'|e1 e2 body r h p1 p2 r' h' Er N1 _ IH N2 Er'];
    intros i Hi; pose proof (below_ok i 0 Hi (Z.le_refl 0)) as B; unfold Sc; cbn [fst snd].
  - rewrite scan_pass by auto. apply scan_text; assumption.
  - change (Sc upd_while (i, 0) p = Sc upd_while (i, 0) p'). rewrite IH1, (scan_next _ _ _ _ M B Hn) by assumption. apply IH2; assumption.
  - rewrite scan_pass by auto. rewrite scan_text by (try assumption; apply quiet_written). rewrite scan_pass by auto.
    specialize (IH1 i Hi). unfold Sc in IH1. cbn [fst snd] in IH1. rewrite IH1. rewrite scan_pass by auto. apply (IH2 i Hi).
  - rewrite scan_pass by auto. rewrite scan_text by (try assumption; apply quiet_written). rewrite scan_pass by auto. apply (IH i Hi).
  - rewrite scan_cons. cbn [upd_while]. rewrite B. rewrite scan_pass by auto. rewrite scan_pass by auto. rewrite scan_text by (try assumption; apply quiet_written). rewrite scan_pass by auto.
    rewrite scan_text by (try assumption; apply quiet_written). rewrite scan_text by (try assumption; apply quiet_step).
    change (Sc upd_while (i, 0) (r, h) = Sc upd_while (i, 0) (r', h')). rewrite (scan_next _ _ _ _ M B N1), (IH i Hi), (scan_next _ _ _ _ M B N2).
    unfold Sc. cbn [fst snd]. rewrite scan_cons. cbn [upd_while]. rewrite B. destruct named; [cbn [app]; apply scan_pass; auto|reflexivity].
  - rewrite scan_cons. cbn [upd_while fst snd]. rewrite below_ok by lia. rewrite scan_text by (try assumption; try apply quiet_opt; apply below_ok; lia).
    change (Sc upd_while (i + 1, 0) (r, h) = Sc upd_while (i, 0) (r', h')). rewrite (scan_next upd_while (i + 1, 0) _ _ M ltac:(apply below_ok; lia) N1), (IH (i + 1) ltac:(lia)), (scan_next upd_while (i + 1, 0) _ _ M ltac:(apply below_ok; lia) N2).
    unfold Sc. cbn [fst snd]. rewrite scan_cons. cbn [upd_while fst snd]. replace (i + 1 - 1) with i by lia. rewrite B. apply scan_text; [assumption|assumption|apply quiet_opt].
Qed.

(** ** IF: within a line *)
Definition nearer (h h' : list line) : Prop := h = h' \/ (length h' < length h)%nat.
Lemma nearer_trans a b c : nearer a b -> nearer b c -> nearer a c.
Proof. unfold nearer. intros [->|H1] [->|H2]; auto; right; lia. Qed.
Lemma nearer_same a b : nearer a b -> nearer b a -> a = b.
Proof. unfold nearer. intros [E1|H1] [E2|H2]; auto; lia. Qed.
Lemma next_nearer p q : next_stmt p q -> nearer (snd p) (snd q).
Proof. induction 1 as [t h|l n t r|p q r _ IH1 _ IH2]; [left; reflexivity|right; cbn; lia|eapply nearer_trans; eassumption]. Qed.
Lemma shape_nearer p c p' : shape p c p' -> nearer (snd p) (snd p').
Proof.
  induction 1; try (left; reflexivity).
  - eapply nearer_trans; [eassumption|]. eapply nearer_trans; [apply next_nearer; eassumption|assumption].
  - eapply nearer_trans; [exact (next_nearer _ _ H0)|]. eapply nearer_trans; [eassumption|]. exact (next_nearer _ _ H3).
  - eapply nearer_trans; [exact (next_nearer _ _ H0)|]. eapply nearer_trans; [eassumption|]. exact (next_nearer _ _ H2).
Qed.
Lemma skip_cons i x t : skip_if i (x :: t) = let i := match x with TIf => i + 1 | TElse => i - 1 | _ => i end in if i <? 0 then t else skip_if i t.
Proof. reflexivity. Qed.
Lemma skip_pass i x t : 0 <= i -> x <> TIf -> x <> TElse -> skip_if i (x :: t) = skip_if i t.
Proof. intros H N1 N2. rewrite skip_cons. destruct x; try congruence; cbn zeta; (replace (i <? 0) with false by lia); reflexivity. Qed.
Lemma skip_text i t r : 0 <= i -> forallb quiet t = true -> skip_if i (t ++ r) = skip_if i r.
Proof. intros H Q. induction t as [|x t IH]; [reflexivity|]. cbn [forallb] in Q. apply andb_prop in Q as [Q1 Q2]. cbn [app]. rewrite skip_pass by (try assumption; intros ->; discriminate). auto. Qed.
Lemma next_same p q : next_stmt p q -> snd p = snd q -> forall i, 0 <= i -> skip_if i (fst p) = skip_if i (fst q).
Proof.
  induction 1 as [t h|l n t r|p q r H1 IH1 H2 IH2]; intros E i Hi.
  - cbn [fst]. apply skip_pass; [assumption|discriminate|discriminate].
  - cbn in E. apply (f_equal (@length _)) in E. cbn in E. lia.
  - assert (E1 : snd p = snd q) by (apply nearer_same; [apply next_nearer; assumption|rewrite E; apply next_nearer; assumption]). rewrite IH1, IH2 by congruence. reflexivity.
Qed.
Lemma skip_shape p c p' : shape p c p' -> snd p = snd p' -> forall i, 0 <= i -> exists i', i <= i' /\ skip_if i (fst p) = skip_if i' (fst p') /\ (no_if c -> i' = i).
Proof.
  induction 1 as [y t r h c Q _ Qt _|p a p1 p2 b p' H1 IH1 Hn H2 IH2|e a b t u h H1 IH1 _ H2 IH2|e a t h H1 IH|named y a b c body r h p1 p2 r' h' Er N1 H1 IH _ N2 Er'|e1 e2 body r h p1 p2 r' h' Er N1 H1 IH N2 Er'];
    intros E i Hi; cbn [fst snd] in *.
  - exists i. split; [lia|]. split; [|auto]. rewrite skip_pass by (try assumption; intros ->; discriminate). apply skip_text; assumption.
  - pose proof (shape_nearer _ _ _ H1) as A1. pose proof (next_nearer _ _ Hn) as A2. pose proof (shape_nearer _ _ _ H2) as A3. rewrite <- E in A3.
    assert (E1 : snd p = snd p1) by (apply nearer_same; [assumption|eapply nearer_trans; eassumption]). assert (E2 : snd p1 = snd p2) by (apply nearer_same; [assumption|rewrite <- E1; assumption]).
    destruct (IH1 E1 i Hi) as (i1 & L1 & K1 & F1). destruct (IH2 ltac:(congruence) i1 ltac:(lia)) as (i2 & L2 & K2 & F2). exists i2. split; [lia|]. split.
    + rewrite K1, (next_same _ _ Hn E2) by lia. exact K2.
    + intros [G1 G2]. rewrite F2 by exact G2. apply F1. exact G1.
  - destruct (IH1 eq_refl (i + 1) ltac:(lia)) as (i1 & L1 & K1 & _). destruct (IH2 eq_refl (i1 - 1) ltac:(lia)) as (i2 & L2 & K2 & _). exists i2. split; [lia|]. split; [|intros []].
    rewrite skip_cons. cbn zeta. replace (i + 1 <? 0) with false by lia. rewrite skip_text by (try apply quiet_written; lia). rewrite skip_pass by (try discriminate; lia). rewrite K1.
    rewrite skip_cons. cbn zeta. replace (i1 - 1 <? 0) with false by lia. exact K2.
  - destruct (IH eq_refl (i + 1) ltac:(lia)) as (i1 & L1 & K1 & _). exists i1. split; [lia|]. split; [|intros []].
    rewrite skip_cons. cbn zeta. replace (i + 1 <? 0) with false by lia. rewrite skip_text by (try apply quiet_written; lia). rewrite skip_pass by (try discriminate; lia). exact K1.
  - subst h'. pose proof (next_nearer _ _ N1) as A1. pose proof (shape_nearer _ _ _ H1) as A2. pose proof (next_nearer _ _ N2) as A3. cbn [snd] in A1, A3.
    assert (E1 : h = snd p1) by (apply nearer_same; [assumption|eapply nearer_trans; eassumption]). assert (E2 : h = snd p2) by (apply nearer_same; [eapply nearer_trans; eassumption|assumption]).
    destruct (IH ltac:(congruence) i Hi) as (i1 & L1 & K1 & F1). exists i1. split; [lia|]. split; [|exact F1].
    rewrite skip_pass by (try assumption; discriminate). rewrite skip_pass by (try assumption; discriminate). rewrite skip_pass by (try assumption; discriminate). rewrite skip_text by (try apply quiet_written; lia).
    rewrite skip_pass by (try assumption; discriminate). rewrite skip_text by (try apply quiet_written; lia). rewrite skip_text by (try apply quiet_step; lia).
    rewrite (next_same _ _ N1 E1 i Hi : skip_if i r = _), K1, (next_same _ _ N2 ltac:(cbn [snd]; congruence) i1 ltac:(lia)). cbn [fst]. rewrite skip_pass by (try discriminate; lia).
    destruct named; [cbn [app]; apply skip_pass; try discriminate; lia|reflexivity].
  - subst h'. pose proof (next_nearer _ _ N1) as A1. pose proof (shape_nearer _ _ _ H1) as A2. pose proof (next_nearer _ _ N2) as A3. cbn [snd] in A1, A3.
    assert (E1 : h = snd p1) by (apply nearer_same; [assumption|eapply nearer_trans; eassumption]). assert (E2 : h = snd p2) by (apply nearer_same; [eapply nearer_trans; eassumption|assumption]).
    destruct (IH ltac:(congruence) i Hi) as (i1 & L1 & K1 & F1). exists i1. split; [lia|]. split; [|exact F1].
    rewrite skip_pass by (try assumption; discriminate). rewrite skip_text by (try apply quiet_opt; lia).
    rewrite (next_same _ _ N1 E1 i Hi : skip_if i r = _), K1, (next_same _ _ N2 ltac:(cbn [snd]; congruence) i1 ltac:(lia)). cbn [fst]. rewrite skip_pass by (try discriminate; lia).
    apply skip_text; [lia|apply quiet_opt].
Qed.
Lemma shape_head p c p' : shape p c p' -> exists x r, fst p = x :: r /\ forall q, x <> TNum q.
Proof. induction 1; try (eexists _, _; split; [reflexivity|]; try assumption; discriminate). assumption. Qed.
