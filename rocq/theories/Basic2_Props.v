(** C74, continued: the functions on texts, and VAL. *)
From Coq Require Import String Ascii List ZArith QArith Qround Qabs Bool Lia Lqa.
From Verif Require Import CStr_Model CNum_Model Qx Basic_Model Basic_Spec Basic_Proofs Basic2_Proofs Basic_Props.
Import ListNotations.
Local Open Scope string_scope.
Local Open Scope list_scope.
Local Open Scope Z_scope.

Lemma to_int_Z k : LONG_MIN <= k <= LONG_MAX -> to_int (inject_Z k) = Ok k.
Proof.
  intros K. unfold to_int. assert (F : Qfloor (inject_Z k + (1 # 2)) = k).
  { unfold Qfloor, inject_Z, Qplus. cbn [Qnum Qden]. rewrite Z.add_comm. change (Z.pos (1 * 2)) with 2. change (1 * Z.pos 1) with 1. change (Z.pos 2) with 2. rewrite Z.div_add by lia. reflexivity. }
  rewrite F. replace ((LONG_MIN <=? k) && (k <=? LONG_MAX)) with true by (symmetry; apply andb_true_intro; split; apply Z.leb_le; lia). reflexivity.
Qed.
Lemma sub_skip a : forall n s, substring (String.length a) n (a ++ s) = substring 0 n s.
Proof. induction a as [|c a IH]; intros n s; [reflexivity|]. cbn. apply IH. Qed.
Lemma sub_take b : forall c, substring 0 (String.length b) (b ++ c) = b.
Proof. induction b as [|x b IH]; intros c; [destruct c; reflexivity|]. cbn. f_equal. apply IH. Qed.
Lemma sub_all b : forall n, (String.length b <= n)%nat -> substring 0 n b = b.
Proof. induction b as [|x b IH]; intros n L; [destruct n; reflexivity|]. destruct n as [|n]; [cbn in L; lia|]. cbn. f_equal. apply IH. cbn in L. lia. Qed.
Lemma len_app (a b : string) : String.length (a ++ b)%string = (String.length a + String.length b)%nat.
Proof. induction a; cbn; [reflexivity|]. f_equal. assumption. Qed.
Definition len (s : string) : Z := Z.of_nat (String.length s).
(** MID$ takes the characters from a position, counted from one, as many as are asked for: all that are left if more are asked for, or a
    negative number; a position before the first is the first. *)
Theorem C74_mid : forall w a b c i j, LONG_MIN <= i <= LONG_MAX -> LONG_MIN <= j <= LONG_MAX ->
  i = len a + 1 \/ a = "" /\ i <= 1 ->
  j = len b \/ c = "" /\ (j < 0 \/ len b <= j) ->
  yields w [TMid; TLp; TStr (a ++ b ++ c)%string; TComma; TNum (inject_Z i); TComma; TNum (inject_Z j); TRp] (VStr b).
Proof.
  intros w a b c i j Bi Bj Hi Hj. apply (yields_den w (Mid (Text (a ++ b ++ c)%string) (Num (inject_Z i)) (Num (inject_Z j)))); [repeat split|].
  cbn [den rbind text_of rounded]. rewrite (to_int_Z i Bi), (to_int_Z j Bj). cbn [rbind]. unfold substr. rewrite length_ok, !len_app.
  assert (E : (if i <? 1 then 1 else i) = len a + 1).
  { destruct Hi as [Hi|[-> Hi]]; unfold len in *; cbn [String.length] in *; destruct (Z.ltb_spec i 1); lia. }
  cbv zeta. rewrite E. unfold len.
  match goal with |- context[if ?x <? ?y then Crash else _] => replace (x <? y) with false by (symmetry; apply Z.ltb_ge; lia) end. cbn [rbind]. f_equal. f_equal.
  replace (Z.to_nat (Z.of_nat (String.length a) + 1 - 1)) with (String.length a) by lia. rewrite sub_skip.
  destruct Hj as [-> |[-> Hj]]; unfold len in *.
  - replace (Z.of_nat (String.length b) <? 0) with false by (symmetry; apply Z.ltb_ge; lia). rewrite Nat2Z.id. apply sub_take.
  - rewrite append_nil. apply sub_all. destruct (Z.ltb_spec j 0); [cbn [String.length]; lia|lia].
Qed.
Print Assumptions C74_mid.
Lemma prefix_iff p : forall s, String.prefix p s = true <-> exists b, s = (p ++ b)%string.
Proof.
  induction p as [|c p IH]; intros s; [split; [exists s; reflexivity|destruct s; reflexivity]|]. destruct s as [|d s]; cbn; [split; [discriminate|intros [b B]; discriminate]|].
  destruct (ascii_dec c d) as [-> |N]; [rewrite IH; split; intros [b B]; exists b; [rewrite B; reflexivity|injection B as B; exact B]|]. split; [discriminate|]. intros [b B]. injection B as B1 B2. congruence.
Qed.
Lemma find_ok p : forall s n,
  find_text n p s = 0 /\ (forall a b, s <> (a ++ p ++ b)%string) \/
  exists a b, s = (a ++ p ++ b)%string /\ find_text n p s = Z.of_nat n + len a + 1 /\ forall a' b', s = (a' ++ p ++ b')%string -> len a <= len a'.
Proof.
  induction s as [|c s IH]; intros n; cbn [find_text]; destruct (String.prefix p _) eqn:P.
  1,3: right; apply prefix_iff in P; destruct P as [b B]; exists "", b; split; [exact B|]; split; [unfold len; cbn; lia|]; intros a' b' _; unfold len; cbn [String.length]; lia.
  - left. split; [reflexivity|]. intros a b E. destruct a; [|discriminate]. assert (X : String.prefix p "" = true) by (apply prefix_iff; exists b; exact E). congruence.
  - destruct (IH (S n)) as [[E N]|(a & b & E & V & M)].
    + left. split; [exact E|]. intros a b X. destruct a as [|d a]; [assert (Y : String.prefix p (String c s) = true) by (apply prefix_iff; exists b; exact X); congruence|].
      injection X as -> X. exact (N a b X).
    + right. exists (String c a), b. split; [cbn; rewrite E at 1; reflexivity|]. split; [rewrite V; unfold len; cbn [String.length]; lia|].
      intros a' b' X. destruct a' as [|d a']; [assert (Y : String.prefix p (String c s) = true) by (apply prefix_iff; exists b'; exact X); congruence|].
      injection X as -> X. pose proof (M a' b' X). unfold len in *. cbn [String.length]. lia.
Qed.
(** INSTR gives the position of the first occurrence, counted from one, or zero if there is none. *)
Theorem C74_instr : forall w x p, exists k, yields w [TInstr; TLp; TStr x; TComma; TStr p; TRp] (VNum (inject_Z k)) /\
  (k = 0 /\ (forall a b, x <> (a ++ p ++ b)%string) \/
   exists a b, x = (a ++ p ++ b)%string /\ k = len a + 1 /\ forall a' b', x = (a' ++ p ++ b')%string -> len a <= len a').
Proof.
  intros w x p. exists (find_text 0 p x). split; [apply (yields_den w (Instr (Text x) (Text p))); [split; exact I|reflexivity]|].
  destruct (find_ok p x 0) as [H|(a & b & E & V & M)]; [left; exact H|]. right. exists a, b. split; [exact E|]. split; [rewrite V; cbn; lia|exact M].
Qed.
Print Assumptions C74_instr.
Fixpoint blank (s : string) : Prop := match s with "" => True | String c r => is_space c = true /\ blank r end.
Definition no_blank_first (s : string) : Prop := forall c r, s = String c r -> is_space c = false.
Definition no_blank_last (s : string) : Prop := forall c r, s = (r ++ String c "")%string -> is_space c = false.
Lemma left_ok u y : blank u -> no_blank_first y -> trim_left (u ++ y) = y.
Proof.
  intros B N. induction u as [|c u IH]; cbn [append trim_left].
  - destruct y as [|c y]; [reflexivity|]. cbn. rewrite (N c y eq_refl). reflexivity.
  - destruct B as [B1 B2]. rewrite B1. apply IH. exact B2.
Qed.
Lemma right_blank v : blank v -> trim_right v = "".
Proof. induction v as [|c v IH]; [reflexivity|]. intros [B1 B2]. cbn. rewrite B1, (IH B2). reflexivity. Qed.
Lemma last_some c y : exists r d, String c y = (r ++ String d "")%string.
Proof. revert c. induction y as [|d y IH]; intros c; [exists "", c; reflexivity|]. destruct (IH d) as (r & e & E). exists (String c r), e. cbn. rewrite <- E. reflexivity. Qed.
Lemma right_ok v y : blank v -> no_blank_last y -> trim_right (y ++ v) = y.
Proof.
  intros B N. induction y as [|c y IH]; [apply right_blank; exact B|]. cbn [append trim_right].
  destruct y as [|d y].
  - cbn [append]. rewrite (right_blank v B). rewrite (N c "" eq_refl). reflexivity.
  - rewrite IH; [cbn; rewrite andb_false_r; reflexivity|]. intros e r E. apply (N e (String c r)). cbn. rewrite <- E. reflexivity.
Qed.
(** TRIM, LTRIM and RTRIM take away the white space at both ends, before, and behind a text, and nothing else. *)
Theorem C74_trim : forall w u y v, blank u -> blank v ->
  (no_blank_first y -> yields w [TLtrim; TLp; TStr (u ++ y)%string; TRp] (VStr y)) /\
  (no_blank_last y -> yields w [TRtrim; TLp; TStr (y ++ v)%string; TRp] (VStr y)) /\
  (no_blank_first y -> no_blank_last y -> y <> "" -> yields w [TTrim; TLp; TStr (u ++ y ++ v)%string; TRp] (VStr y)) /\
  yields w [TTrim; TLp; TStr u; TRp] (VStr "").
Proof.
  intros w u y v U V. split; [|split; [|split]].
  - intros F. apply (yields_den w (Trim AtLeft (Text (u ++ y)%string))); [exact I|]. cbn [den rbind text_of trimmed]. rewrite left_ok by assumption. reflexivity.
  - intros L. apply (yields_den w (Trim AtRight (Text (y ++ v)%string))); [exact I|]. cbn [den rbind text_of trimmed]. rewrite right_ok by assumption. reflexivity.
  - intros F L N. apply (yields_den w (Trim Both (Text (u ++ y ++ v)%string))); [exact I|]. cbn [den rbind text_of trimmed]. rewrite <- append_assoc. rewrite right_ok.
    + rewrite left_ok by assumption. reflexivity.
    + exact V.
    + intros c r E. destruct y as [|d y]; [congruence|]. destruct (last_some d y) as (r' & e & X). rewrite X in E, L. rewrite <- append_assoc in E.
      assert (Z : forall (a b : string) p q, (a ++ String p "")%string = (b ++ String q "")%string -> p = q).
      { clear. induction a as [|x a IH]; intros [|z b] p q E; cbn in E; [congruence|injection E as _ E; destruct b; discriminate|injection E as _ E; destruct a; discriminate|injection E as _ E; exact (IH b p q E)]. }
      apply Z in E. subst c. exact (L e r' eq_refl).
  - apply (yields_den w (Trim Both (Text u))); [exact I|]. cbn [den rbind text_of trimmed]. rewrite right_blank by assumption. reflexivity.
Qed.
Print Assumptions C74_trim.
(** VAL of a text that holds an expression is the value of that expression, and the reading goes on behind the text. *)
Theorem C74_val : forall w s x e rest, toks s = TVal :: TStr x :: rest -> lex (number w) x = Ok (written e) -> well_used (vars s) e -> ends rest ->
  match den w (vars s) (saved s) (texts s) e with
  | Ok v => exists s', evaluates w s (Ok (v, s')) /\ toks s' = rest /\ same_but_cur s s'
  | Err => evaluates w s Err
  | Crash => evaluates w s Crash
  | Nan => evaluates w s Nan
  | Deep => False
  end.
Proof.
  intros w s x e rest T X U R. destruct s as [t vs c sv tx]. cbn [toks vars saved texts] in *. subst t.
  pose proof (good_at0 w vs sv tx e U (all_good w vs sv tx e) [] Logic.I) as G. rewrite app_nil_r in G.
  assert (O : outcome vs sv tx (fun f => factor w (ev w f LExpr) (ev w f LFactor) f) (TVal :: TStr x :: rest) rest (den w vs sv tx e)).
  { intros c0. specialize (G c0).
    assert (K : forall f, (1 <= f)%nat -> factor w (ev w f LExpr) (ev w f LFactor) f (mk vs sv tx (TVal :: TStr x :: rest) c0) =
      rbind (ev w f LExpr (mk vs sv tx (written e) c0)) (fun r => Ok (fst r, with_toks (snd r) rest))).
    { intros f Lf. destruct f as [|f]; [lia|]. unfold factor at 1. cbn [toks mk]. unfold bindM, strfactor. unfold bindM.
      change (ev w (S f) LFactor (with_toks (mk vs sv tx (TVal :: TStr x :: rest) c0) (TStr x :: rest))) with (@Ok (value * st) (VStr x, mk vs sv tx rest c0)). cbn [rbind fst snd lift str_of].
      rewrite X. cbn [rbind]. destruct (head_written e []) as (t0 & r0 & E & _). rewrite app_nil_r in E. rewrite E. reflexivity. }
    destruct (den w vs sv tx e) as [v| | | |].
    - destruct G as (c' & f0 & G). exists c', (S f0). intros f Lf. rewrite K by lia. rewrite G by lia. reflexivity.
    - destruct G as (f0 & G). exists (S f0). intros f Lf. rewrite K by lia. rewrite G by lia. reflexivity.
    - destruct G as (f0 & G). exists (S f0). intros f Lf. rewrite K by lia. rewrite G by lia. reflexivity.
    - destruct G as (f0 & G). exists (S f0). intros f Lf. rewrite K by lia. rewrite G by lia. reflexivity.
    - destruct G as (f0 & G). exists (S f0). intros f Lf. rewrite K by lia. rewrite G by lia. reflexivity. }
  destruct (ends_ok w 0 rest R) as [R0 R1].
  pose proof (concl_to w vs sv tx 0 6 _ rest (den w vs sv tx e) ltac:(lia) ltac:(lia) R0 (concl6_of w vs sv tx _ _ _ O) c) as H.
  pose proof (den_nd w vs sv tx e U) as N. destruct (den w vs sv tx e) as [v| | | |].
  - destruct H as [c' H]. exists (mk vs sv tx rest c'). split; [split; [discriminate|]|split; [reflexivity|repeat split]]. apply H. cbn. apply loop_end. cbn [toks mk]. exact (R1 0%nat).
  - split; [discriminate|exact H].
  - split; [discriminate|exact H].
  - split; [discriminate|exact H].
  - congruence.
Qed.
Print Assumptions C74_val.
(** Concrete texts. *)
Example C74_text_case : forall w, yields w [TMid; TLp; TStr "banana"; TComma; TNum 2; TComma; TNum 3; TRp] (VStr "ana") /\
  yields w [TTrim; TLp; TStr "  a b "; TRp] (VStr "a b") /\ lex (number w) "(x)" = Ok (written (Par (Var "x"))).
Proof.
  intros w. split; [|split].
  - apply (C74_mid w "b" "ana" "na" 2 3); unfold LONG_MIN, LONG_MAX; try lia; left; reflexivity.
  - apply (C74_trim w "  " "a b" " "); [repeat split|repeat split|intros c r E; injection E as <- _; reflexivity| |discriminate].
    intros c r E. assert (Z : forall (a b : string) p q, (a ++ String p "")%string = (b ++ String q "")%string -> p = q).
    { clear. induction a as [|x a IH]; intros [|z b] p q E; cbn in E; [congruence|injection E as _ E; destruct b; discriminate|injection E as _ E; destruct a; discriminate|injection E as _ E; exact (IH b p q E)]. }
    change "a b" with ("a " ++ String "b" "")%string in E. apply Z in E. subst c. reflexivity.
  - reflexivity.
Qed.
