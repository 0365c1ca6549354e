(** Lemmas for C74 and C77: tokens and lines. *)
From Coq Require Import String Ascii List ZArith QArith Bool Lia.
From Verif Require Import CStr_Model CNum_Model Qx Chem_Model Ckpt_Model Elem_Spec Elem_Proofs Ckpt_Spec Ckpt_Proofs Basic_Model Prog_Model Prog_Spec Prog5_Proofs Lex_Model Lex_Spec.
Import ListNotations.
Local Open Scope string_scope.
Local Open Scope list_scope.
Local Open Scope Z_scope.

(** ** Characters *)
Ltac chars := let c := fresh in intros c; destruct c as [[] [] [] [] [] [] [] []]; try reflexivity; try discriminate.
Definition memb (c : ascii) (l : list ascii) : bool := existsb (Ascii.eqb c) l.
Lemma memb_in c l : memb c l = true <-> In c l.
Proof.
  unfold memb. rewrite existsb_exists. split; [intros (x & H & E); apply Ascii.eqb_eq in E; subst; exact H|intros H; exists c; split; [exact H|apply Ascii.eqb_refl]].
Qed.
Lemma lower_ok : forall c, lower c = partner c (combine bigs smalls).
Proof. chars. Qed.
Lemma lowercase_ok s : lowercase s = small s.
Proof. induction s as [|c s IH]; [reflexivity|]. cbn [lowercase small]. rewrite IH, lower_ok. reflexivity. Qed.
Lemma word_ok : forall c, word_char c = memb c smalls || memb c bigs || memb c digits || Ascii.eqb c "$" || Ascii.eqb c "_".
Proof. chars. Qed.
Lemma in_word_ok c : in_word c <-> word_char c = true.
Proof.
  rewrite word_ok, !orb_true_iff, !memb_in, !Ascii.eqb_eq. unfold in_word, is_letter. tauto.
Qed.
Lemma alpha_ok : forall c, isalpha c = memb c smalls || memb c bigs.
Proof. chars. Qed.
Lemma letter_ok c : is_letter c <-> isalpha c = true.
Proof. rewrite alpha_ok, orb_true_iff, !memb_in. reflexivity. Qed.
Lemma lower_word : forall c, word_char (lower c) = true -> word_char c = true.
Proof. chars. Qed.
Lemma lower_alpha : forall c, isalpha (lower c) = true -> isalpha c = true.
Proof. chars. Qed.
Lemma alpha_plain : forall c, isalpha c = true -> single c = None /\ Ascii.eqb c """" = false /\ Ascii.eqb c "'" = false /\ Ascii.eqb c "<" = false /\ Ascii.eqb c ">" = false /\ blank c = false /\ Ascii.eqb c tab = false.
Proof. chars; intros _; repeat split. Qed.
Lemma digit_plain c : In c digits \/ c = "."%char -> single c = None /\ Ascii.eqb c """" = false /\ Ascii.eqb c "'" = false /\ Ascii.eqb c "<" = false /\ Ascii.eqb c ">" = false /\ blank c = false /\ Ascii.eqb c tab = false /\ isalpha c = false /\ isdigit c || Ascii.eqb c "." = true.
Proof. intros [H | ->]; [|repeat split]. repeat (destruct H as [<-|H]; [repeat split|]). destruct H. Qed.

(** ** Words *)
Fixpoint all_in (p : ascii -> bool) (s : string) : bool := match s with "" => true | String c r => p c && all_in p r end.
Definition first_in (p : ascii -> bool) (s : string) : bool := match s with "" => false | String c _ => p c end.
Lemma span_all p a s : all_in p a = true -> first_in p s = false -> span p (a ++ s)%string = (a, s).
Proof.
  intros A F. induction a as [|c a IH].
  - cbn [append]. destruct s as [|c s]; [reflexivity|]. cbn in F. cbn [span]. rewrite F. reflexivity.
  - cbn in A. apply andb_true_iff in A as [A1 A2]. cbn [append span]. rewrite A1, (IH A2). reflexivity.
Qed.
Lemma first_word s : ~ begins in_word s -> first_in word_char s = false.
Proof. destruct s as [|c s]; [reflexivity|]. cbn. rewrite in_word_ok. destruct (word_char c); [intros H; destruct H; reflexivity|reflexivity]. Qed.
Lemma every_word s : every in_word s <-> all_in word_char s = true.
Proof. induction s as [|c s IH]; [cbn; tauto|]. cbn [every all_in]. rewrite andb_true_iff, in_word_ok, IH. reflexivity. Qed.
Lemma small_length s : String.length (small s) = String.length s.
Proof. induction s as [|c s IH]; [reflexivity|]. cbn. rewrite IH. reflexivity. Qed.
Lemma prefix_short n s : (String.length s <= n)%nat -> prefix_of n s = s.
Proof. revert n. induction s as [|c s IH]; intros [|n] H; cbn in *; try reflexivity; [lia|]. rewrite IH by lia. reflexivity. Qed.
Lemma prefix_substring n s : prefix_of n s = substring 0 n s.
Proof. revert n. induction s as [|c s IH]; intros [|n]; cbn; try reflexivity. rewrite IH. reflexivity. Qed.
(** A word of a table: letters, and not too long. *)
Definition proper (w : string) : bool := first_in isalpha w && all_in word_char w && (String.length w <=? 20)%nat && negb (String.eqb w "rem").
Lemma proper_small a w : small a = w -> proper w = true -> first_in isalpha a = true /\ all_in word_char a = true /\ prefix_of 20 a = a.
Proof.
  intros E P. unfold proper in P. rewrite !andb_true_iff, Nat.leb_le in P. destruct P as [[[P1 P2] P3] _]. split; [|split].
  - destruct a as [|c a]; cbn in E; subst w; [exact P1|]. cbn in *. apply lower_alpha. rewrite lower_ok. exact P1.
  - clear P1 P3. revert w E P2. induction a as [|c a IH]; intros w E P2; [reflexivity|]. cbn in E. subst w. cbn in P2. apply andb_true_iff in P2 as [P2 P4]. cbn. rewrite (IH _ eq_refl P4), andb_true_r.
    apply lower_word. rewrite lower_ok. exact P2.
  - apply prefix_short. rewrite <- (small_length a), E. exact P3.
Qed.
Definition agrees (k : string -> option tok) (p : string * tok) : Prop := k (fst p) = Some (snd p) /\ proper (fst p) = true.
Lemma reserved_ok w t : In (w, t) reserved -> keyword w = Some t /\ proper w = true.
Proof. intros H. repeat (destruct H as [E|H]; [injection E as <- <-; split; reflexivity|]). destruct H. Qed.
Lemma real_ok w : In w real_functions -> keyword w = Some (TReal w) /\ proper w = true.
Proof. intros H. repeat (destruct H as [<-|H]; [split; reflexivity|]). destruct H. Qed.
Lemma chem_ok w : In w name_functions -> keyword w = Some (TChem w) /\ proper w = true.
Proof. intros H. repeat (destruct H as [<-|H]; [split; reflexivity|]). destruct H. Qed.
Lemma quant_ok w : In w quantities -> keyword w = Some (TQuant w) /\ proper w = true.
Proof. intros H. repeat (destruct H as [<-|H]; [split; reflexivity|]). destruct H. Qed.
Lemma member_not x l : ~ In x l -> member x l = false.
Proof.
  unfold member. intros H. destruct (existsb (String.eqb x) l) eqn:E; [|reflexivity]. apply existsb_exists in E as (y & I1 & E). apply String.eqb_eq in E. subst y. contradiction.
Qed.
Lemma assoc_not {A} x (l : list (string * A)) : ~ In x (map fst l) -> assoc x l = None.
Proof.
  induction l as [|[k a] l IH]; intros H; [reflexivity|]. cbn in *. destruct (String.eqb k x) eqn:E; [apply String.eqb_eq in E; subst; tauto|]. apply IH. tauto.
Qed.
Lemma fixed_reserved x : In x (map fst fixed_words) -> In x (map fst reserved).
Proof.
  assert (B : forallb (fun x => existsb (String.eqb x) (map fst reserved)) (map fst fixed_words) = true) by reflexivity. rewrite forallb_forall in B. intros H. specialize (B x H).
  apply existsb_exists in B as (y & I1 & E). apply String.eqb_eq in E. subst y. exact I1.
Qed.
Lemma name_ok x : is_name x -> keyword x = None /\ String.eqb x "rem" = false.
Proof.
  intros (H1 & H2 & H3). rewrite !in_app_iff in H2. split; [|apply String.eqb_neq; exact H3]. unfold keyword. rewrite assoc_not by (intros X; apply H1, fixed_reserved, X). rewrite !member_not by tauto. reflexivity.
Qed.

(** ** Tokens *)
Section Tokens.
Variable number : string -> option (Q * string).
Definition begun (t : tok) (a s : string) : Prop := exists c r, a = String c r /\ one number c (r ++ s) = (t, s, false) /\ blank c = false /\ Ascii.eqb c tab = false.
Lemma word_begun t a s : first_in isalpha a = true -> all_in word_char a = true -> first_in word_char s = false -> small (prefix_of 20 a) <> "rem" ->
  keyword (small (prefix_of 20 a)) = Some t \/ (keyword (small (prefix_of 20 a)) = None /\ t = TVar (small (prefix_of 20 a))) -> begun t a s.
Proof.
  intros F A E R K. destruct a as [|c a]; [discriminate|]. cbn in F. destruct (alpha_plain c F) as (H1 & H2 & H3 & H4 & H5 & H6 & H7). exists c, a. split; [reflexivity|]. split; [|split; assumption].
  unfold one, two. rewrite H1, H2, H3, H4, H5, F. cbn [orb]. change (String c (a ++ s)) with (String c a ++ s)%string. rewrite (span_all _ _ _ A E). rewrite lowercase_ok.
  apply String.eqb_neq in R. rewrite R. destruct K as [-> | [-> ->]]; reflexivity.
Qed.
Lemma table_begun w t a s : small a = w -> proper w = true -> keyword w = Some t -> ~ begins in_word s -> begun t a s.
Proof.
  intros E P K N. destruct (proper_small a w E P) as (H1 & H2 & H3). apply word_begun; try assumption; [apply first_word; exact N| |]; rewrite H3, E; [|left; exact K].
  unfold proper in P. rewrite andb_true_iff in P. destruct P as [_ P]. intros ->. discriminate.
Qed.
Lemma quoted_ok q a s : every (fun c => c <> q) a -> quoted q (a ++ String q s) = (a, s, true).
Proof.
  induction a as [|c a IH]; intros H; cbn [append quoted]; [rewrite Ascii.eqb_refl; reflexivity|]. destruct H as [H1 H2]. apply Ascii.eqb_neq in H1. rewrite H1, (IH H2). reflexivity.
Qed.
Lemma append_assoc' a b c : ((a ++ b) ++ c = a ++ b ++ c)%string.
Proof. induction a as [|x a IH]; [reflexivity|]. cbn. rewrite IH. reflexivity. Qed.
Lemma spells_begun t a ok s : spells number t a ok -> ok s -> begun t a s.
Proof.
  intros H O. destruct H as [c t H| | | | | |q a Hq Ha|v a H|w t a H E|w a H E|w a H E|w a H E|x a F W E N].
  - exists c, "". split; [reflexivity|]. cbn [append]. repeat (destruct H as [X|H]; [injection X as <- <-; repeat split|]). destruct H.
  - exists "<"%char, "". split; [reflexivity|]. split; [|split; reflexivity]. cbn [append]. unfold one. cbn. destruct s as [|c s]; [reflexivity|]. cbn in O. destruct (Ascii.eqb_spec c "=") as [->|_]; [destruct O; auto|]. destruct (Ascii.eqb_spec c ">") as [->|_]; [destruct O; auto|]. reflexivity.
  - exists "<"%char, "=". repeat split.
  - exists "<"%char, ">". repeat split.
  - exists ">"%char, "". split; [reflexivity|]. split; [|split; reflexivity]. cbn [append]. unfold one. cbn. destruct s as [|c s]; [reflexivity|]. cbn in O. destruct (Ascii.eqb_spec c "=") as [->|_]; [destruct O; auto|]. reflexivity.
  - exists ">"%char, "=". repeat split.
  - exists q, (a ++ String q "")%string. split; [reflexivity|]. rewrite append_assoc'. cbn [append]. unfold one. rewrite quoted_ok by exact Ha. destruct Hq as [-> | ->]; repeat split.
  - destruct a as [|c a]; [destruct H|]. cbn in H. destruct (digit_plain c H) as (H1 & H2 & H3 & H4 & H5 & H6 & H7 & H8 & H9). exists c, a. split; [reflexivity|]. split; [|split; assumption].
    unfold one, two. rewrite H1, H2, H3, H4, H5, H8, H9. cbn [orb]. cbn [append] in O. rewrite O. reflexivity.
  - destruct (reserved_ok w t H) as [K P]. eapply table_begun; eassumption.
  - destruct (real_ok w H) as [K P]. eapply table_begun; eassumption.
  - destruct (chem_ok w H) as [K P]. eapply table_begun; eassumption.
  - destruct (quant_ok w H) as [K P]. eapply table_begun; eassumption.
  - destruct (name_ok x N) as [K R]. apply word_begun.
    + destruct a as [|c a]; [destruct F|]. apply letter_ok. exact F.
    + apply every_word. exact W.
    + apply first_word. exact O.
    + rewrite prefix_substring, E. apply String.eqb_neq. exact R.
    + right. rewrite prefix_substring, E. auto.
Qed.
Lemma append_length a b : String.length (a ++ b) = (String.length a + String.length b)%nat.
Proof. induction a as [|c a IH]; [reflexivity|]. cbn. rewrite IH. reflexivity. Qed.
Lemma reads_lex tail s l : reads number tail s l -> forall fuel, (String.length s <= fuel)%nat -> exists fuel', (String.length tail <= fuel')%nat /\ lex_from number fuel s = let '(l', m) := lex_from number fuel' tail in (l ++ l', m).
Proof.
  induction 1 as [|s l _ IH|t a ok s l Sp O _ IH]; intros fuel F.
  - exists fuel. split; [exact F|]. destruct (lex_from number fuel tail). reflexivity.
  - destruct fuel as [|fuel]; [cbn in F; lia|]. destruct (IH fuel ltac:(cbn in F; lia)) as (k & Hk & E). exists k. split; [exact Hk|]. exact E.
  - destruct (spells_begun t a ok s Sp O) as (c & r & -> & E1 & E2 & E3). rewrite append_length in F. cbn in F. destruct fuel as [|fuel]; [lia|]. destruct (IH fuel ltac:(lia)) as (k & Hk & E). exists k. split; [exact Hk|].
    cbn [append lex_from]. rewrite E2, E3. cbn [orb andb]. rewrite E1, E. destruct (lex_from number k tail). reflexivity.
Qed.
Lemma depth_count l : depth l = Z.of_nat (lefts l) - Z.of_nat (rights l).
Proof.
  unfold lefts, rights, depth. induction l as [|t l IH]; [reflexivity|]. destruct t; cbn [fold_right filter length paren]; rewrite IH; lia.
Qed.
Lemma lex_text s l : reads number "" s l -> lex number s = if (lefts l =? rights l)%nat then Ok l else Err.
Proof.
  intros H. destruct (reads_lex "" s l H (String.length s) (le_n _)) as (k & _ & E). unfold lex. rewrite E. destruct k; cbn [lex_from]; rewrite app_nil_r, depth_count; destruct (lefts l =? rights l)%nat eqn:B;
    [apply Nat.eqb_eq in B|apply Nat.eqb_neq in B|apply Nat.eqb_eq in B|apply Nat.eqb_neq in B]; destruct (Z.of_nat (lefts l) - Z.of_nat (rights l) =? 0) eqn:Z0; try reflexivity; lia.
Qed.
Lemma quoted_open q a : every (fun c => c <> q) a -> quoted q a = (a, "", false).
Proof. induction a as [|c a IH]; intros H; [reflexivity|]. destruct H as [H1 H2]. cbn. apply Ascii.eqb_neq in H1. rewrite H1, (IH H2). reflexivity. Qed.
Lemma lex_open s l q a : reads number (String q a) s l -> q = """"%char \/ q = "'"%char -> every (fun c => c <> q) a -> lex number s = Err.
Proof.
  intros H Hq Ha. destruct (reads_lex _ s l H (String.length s) (le_n _)) as (k & Lk & E). unfold lex. rewrite E. destruct k as [|k]; [cbn in Lk; lia|].
  assert (X : lex_from number (S k) (String q a) = ([TStr a], true)).
  { cbn [lex_from]. unfold one. rewrite quoted_open by exact Ha. destruct Hq as [-> | ->]; cbn; destruct k; reflexivity. }
  rewrite X. reflexivity.
Qed.
Lemma lex_rem s l a u : reads number (a ++ u) s l -> small a = "rem" -> ~ begins in_word u -> lex number s = if (lefts l =? rights l)%nat then Ok (l ++ [TRem u]) else Err.
Proof.
  intros H Ea Hu. destruct (reads_lex _ s l H (String.length s) (le_n _)) as (k & Lk & E). unfold lex. rewrite E.
  assert (La : String.length a = 3%nat) by (rewrite <- (small_length a), Ea; reflexivity).
  destruct k as [|k]; [rewrite append_length in Lk; lia|].
  assert (X : lex_from number (S k) (a ++ u) = ([TRem u], false)).
  { destruct a as [|c a]; [discriminate|]. assert (F : isalpha c = true) by (apply lower_alpha; rewrite lower_ok; exact (f_equal (first_in isalpha) Ea)).
    assert (A : all_in word_char (String c a) = true).
    { assert (G : forall s, all_in word_char (small s) = true -> all_in word_char s = true). { induction s0 as [|d s0 IH]; intros G; [reflexivity|]. cbn in *. apply andb_true_iff in G as [G1 G2]. rewrite (IH G2), andb_true_r. apply lower_word. rewrite lower_ok. exact G1. }
      apply G. rewrite Ea. reflexivity. }
    destruct (alpha_plain c F) as (H1 & H2 & H3 & H4 & H5 & H6 & H7). cbn [append lex_from]. rewrite H6, H7. cbn [orb andb]. unfold one, two. rewrite H1, H2, H3, H4, H5, F. cbn [orb].
    change (String c (a ++ u)) with (String c a ++ u)%string. rewrite (span_all _ _ _ A (first_word _ Hu)). rewrite lowercase_ok. rewrite prefix_short by lia. rewrite Ea. cbn. destruct k; reflexivity. }
  rewrite X. rewrite depth_count. assert (C : lefts (l ++ [TRem u]) = lefts l /\ rights (l ++ [TRem u]) = rights l) by (unfold lefts, rights; rewrite !filter_app, !app_length; cbn; lia). destruct C as [-> ->].
  destruct (lefts l =? rights l)%nat eqn:B; [apply Nat.eqb_eq in B|apply Nat.eqb_neq in B]; destruct (Z.of_nat (lefts l) - Z.of_nat (rights l) =? 0) eqn:Z0; try reflexivity; lia.
Qed.

(** ** Lines *)
Lemma digit_value d : (d <= 9)%nat -> isdigit (ascii_of_nat (48 + d)) = true /\ Z.of_N (N_of_ascii (ascii_of_nat (48 + d))) - 48 = Z.of_nat d.
Proof. intros H. do 10 (destruct d as [|d]; [split; reflexivity|]). lia. Qed.
Lemma number_text s v : numeral s v -> exists k, 0 < k /\ forall n r, line_number n (s ++ r)%string = line_number (n * k + v) r.
Proof.
  induction 1 as [d D|s v d _ (k & K & IH) D]; destruct (digit_value d D) as [D1 D2].
  - exists 10. split; [lia|]. intros n r. cbn [append line_number]. rewrite D1. f_equal. lia.
  - exists (k * 10). split; [lia|]. intros n r. rewrite append_assoc', IH. cbn [append line_number]. rewrite D1. f_equal. nia.
Qed.
Lemma number_blank n r : 0 <= n -> line_number 0 (dec n ++ String " " r)%string = (n, String " " r).
Proof.
  intros H. unfold dec. replace (n <? 0) with false by lia. destruct (number_text _ _ (dec_abs_numeral n H)) as (k & _ & E). rewrite E. reflexivity.
Qed.
Definition plainb (c : ascii) : bool := negb (Ascii.eqb c ";" || Ascii.eqb c newline || Ascii.eqb c tab || Ascii.eqb c carriage).
Lemma plain_ok c : plain_char c <-> plainb c = true.
Proof.
  unfold plain_char, plainb, carriage. rewrite negb_true_iff, !orb_false_iff, !Ascii.eqb_neq. tauto.
Qed.
Lemma every_plain s : every plain_char s <-> all_in plainb s = true.
Proof. induction s as [|c s IH]; [cbn; tauto|]. cbn [every all_in]. rewrite andb_true_iff, plain_ok, IH. reflexivity. Qed.
Lemma all_app p a b : all_in p (a ++ b) = all_in p a && all_in p b.
Proof. induction a as [|c a IH]; [reflexivity|]. cbn. rewrite IH. apply andb_assoc. Qed.
Lemma numeral_plain s v : numeral s v -> all_in plainb s = true /\ first_in is_space s = false.
Proof.
  assert (G : forall d, (d <= 9)%nat -> plainb (ascii_of_nat (48 + d)) = true /\ is_space (ascii_of_nat (48 + d)) = false) by (intros d D; do 10 (destruct d as [|d]; [split; reflexivity|]); lia).
  induction 1 as [d D|s v d _ [I1 I2] D]; destruct (G d D) as [G1 G2].
  - cbn [all_in first_in]. rewrite G1. auto.
  - rewrite all_app, I1. cbn [all_in]. rewrite G1. split; [reflexivity|]. destruct s; [exact G2|exact I2].
Qed.
Lemma blanked_plain s : all_in plainb s = true -> blanked s = s.
Proof.
  induction s as [|c s IH]; intros H; [reflexivity|]. cbn in H. apply andb_true_iff in H as [H1 H2]. cbn [blanked]. rewrite (IH H2). unfold plainb in H1. apply negb_true_iff in H1. apply orb_false_elim in H1 as [H1 H3]. apply orb_false_elim in H1 as [_ H1].
  rewrite H1, H3. reflexivity.
Qed.
Lemma logical_plain s e r : all_in plainb s = true -> e = ";"%char \/ e = newline -> logical_line (s ++ String e r)%string = (s, r) /\ logical_line s = (s, "").
Proof.
  intros H He. induction s as [|c s IH]; [split; [destruct He as [-> | ->]; reflexivity|reflexivity]|]. cbn in H. apply andb_true_iff in H as [H1 H2]. destruct (IH H2) as [E1 E2]. cbn [append logical_line]. rewrite E1, E2.
  unfold plainb in H1. apply negb_true_iff in H1. apply orb_false_elim in H1 as [H1 _]. apply orb_false_elim in H1 as [H1 _]. rewrite H1. auto.
Qed.
Lemma trim_right_plain s : (match last_char s with Some c => is_space c = false | None => True end) -> trim_right s = s.
Proof.
  induction s as [|c s IH]; intros H; [reflexivity|]. cbn [trim_right]. destruct s as [|d s].
  - cbn in H. cbn. rewrite H. reflexivity.
  - rewrite IH by exact H. cbn. rewrite andb_false_r. reflexivity.
Qed.
Lemma last_app a b : b <> "" -> last_char (a ++ b) = last_char b.
Proof. intros H. induction a as [|c a IH]; [reflexivity|]. cbn [append last_char]. rewrite <- IH. destruct (a ++ b)%string eqn:E; [destruct a; [cbn in E; contradiction|discriminate]|reflexivity]. Qed.
Lemma typed_line n s t : good_line number (n, s, t) -> typed number (dec n ++ " " ++ s) = Ok (n, t) /\ all_in plainb (dec n ++ " " ++ s) = true.
Proof.
  intros (Hn & P & En & R & B). apply every_plain in P. assert (X : numeral (dec n) n) by (unfold dec; replace (n <? 0) with false by lia; apply dec_abs_numeral; lia). destruct (numeral_plain _ _ X) as [X1 X2].
  assert (A : all_in plainb (dec n ++ " " ++ s) = true) by (rewrite all_app, X1; cbn; exact P). split; [|exact A].
  assert (Ns : s <> "") by (intros ->; exact En).
  unfold typed. rewrite (blanked_plain _ A). rewrite trim_right_plain.
  2: { rewrite last_app by discriminate. change (" " ++ s)%string with (String " " s). unfold ends_plain in En. destruct s as [|c s]; [contradiction|]. change (last_char (String " " (String c s))) with (last_char (String c s)). destruct (last_char (String c s)); [exact En|trivial]. }
  assert (Tl : trim_left (dec n ++ " " ++ s) = (dec n ++ " " ++ s)%string) by (destruct (dec n) as [|c u]; [apply numeral_digs in X as (l & E & Nl & _); cbn in E; injection E as <-; contradiction|cbn in X2; cbn [append trim_left]; rewrite X2; reflexivity]).
  rewrite Tl. change (" " ++ s)%string with (String " " s). rewrite number_blank by lia. replace (LONG_MAX <? n) with false by lia. rewrite (lex_text (String " " s) t (rd_blank number "" s t R)). rewrite B, Nat.eqb_refl. reflexivity.
Qed.
Lemma dec_length_pos n : (1 <= String.length (dec n))%nat.
Proof. destruct (dec n) as [|c r] eqn:E; [|cbn; lia]. pose proof (dec_int n) as H. rewrite E in H. inversion H as [s v Hn|s v Hn E2]; subst. apply numeral_digs in Hn as (l & D & Nl & _). cbn in D. injection D as <-. contradiction. Qed.
Lemma compile_text ls s : text_of ls s -> Forall (good_line number) ls -> forall p fuel, (String.length s <= fuel)%nat ->
  compile_from number fuel s p = Program (fold_left (fun p l => enter (fst (fst l)) (snd l) p) ls p).
Proof.
  induction 1 as [|n s t|n s t ls rest e He H IH]; intros F p fuel L.
  - destruct fuel; reflexivity.
  - inversion F as [|? ? G _]; subst. destruct (typed_line n s t G) as [T A]. pose proof (dec_length_pos n) as D. rewrite append_length in L. destruct fuel as [|fuel]; [lia|].
    destruct (logical_plain _ ";"%char "" A (or_introl eq_refl)) as [_ E]. cbn [compile_from]. destruct (dec n ++ " " ++ s)%string as [|c u] eqn:Es; [destruct (dec n); discriminate|]. rewrite E, T. destruct G as (Hn & _). replace (n =? 0) with false by lia. destruct fuel; reflexivity.
  - inversion F as [|? ? G F2]; subst. destruct (typed_line n s t G) as [T A]. pose proof (dec_length_pos n) as D.
    assert (Eq : (dec n ++ " " ++ s ++ String e rest = (dec n ++ " " ++ s) ++ String e rest)%string) by (rewrite append_assoc'; reflexivity). rewrite Eq in *.
    destruct (logical_plain _ e rest A He) as [E _]. rewrite !append_length in L. cbn in L. destruct fuel as [|fuel]; [lia|]. cbn [compile_from].
    destruct ((dec n ++ " " ++ s) ++ String e rest)%string as [|c u] eqn:Es; [destruct (dec n); discriminate|]. rewrite E, T. destruct G as (Hn & _). replace (n =? 0) with false by lia. rewrite (IH F2) by lia. reflexivity.
Qed.
End Tokens.
