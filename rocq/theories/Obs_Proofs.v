(** Lemmas for properties C100-C102. *)
From Coq Require Import String Ascii ZArith QArith Bool List Lia ZifyBool.
From Verif Require Import Qx Obs_Model Obs_Spec.
Import ListNotations.
Local Open Scope string_scope.
Local Open Scope list_scope.
Local Open Scope Z_scope.

(** * Strings *)

Lemma len_app a b : String.length (a ++ b) = (String.length a + String.length b)%nat.
Proof. induction a; cbn; congruence. Qed.
Lemma app_nil s : (s ++ "")%string = s.
Proof. induction s; cbn; congruence. Qed.
Lemma app_assoc_s a b c : ((a ++ b) ++ c = a ++ (b ++ c))%string.
Proof. induction a; cbn; congruence. Qed.
Lemma blanks_len n : String.length (blanks n) = n.
Proof. induction n; cbn; congruence. Qed.
Lemma sub_all s : substring 0 (String.length s) s = s.
Proof. induction s; cbn; congruence. Qed.
Lemma sub_long : forall s n, (String.length s <= n)%nat -> substring 0 n s = s.
Proof. induction s as [|c s IH]; intros [|n] H; cbn in *; try reflexivity; try lia. f_equal. apply IH. lia. Qed.
Lemma sub_prefix a b : substring 0 (String.length a) (a ++ b) = a.
Proof. induction a as [|c a IH]; cbn; [destruct b; reflexivity|f_equal; exact IH]. Qed.
Lemma sub_skip : forall a b m, substring (String.length a) m (a ++ b) = substring 0 m b.
Proof. induction a as [|c a IH]; intros b m; cbn; [reflexivity|apply IH]. Qed.
Lemma sub_beyond : forall s n m, (String.length s <= n)%nat -> substring n m s = "".
Proof. induction s as [|c s IH]; intros [|n] m H; cbn in *; try lia; [destruct m; reflexivity|reflexivity|apply IH; lia]. Qed.
Lemma sub_zero n s : substring n 0 s = "".
Proof. revert n. induction s as [|c s IH]; intros [|n]; cbn; try reflexivity. apply IH. Qed.

Lemma fit_short n s : (String.length s <= n)%nat -> fit n s = (s ++ blanks (n - String.length s))%string.
Proof. intros H. unfold fit. rewrite sub_long by exact H. reflexivity. Qed.

Lemma flen_blanks n : flen (blanks n) = O.
Proof. induction n; cbn; [reflexivity|rewrite IHn; reflexivity]. Qed.
Lemma flen_app : forall s n, flen (s ++ blanks n) = flen s.
Proof. induction s as [|c s IH]; intros n; cbn; [apply flen_blanks|rewrite IH; reflexivity]. Qed.
Lemma flen_last : forall s, (exists a c, s = (a ++ String c "")%string /\ c <> " "%char) -> flen s = String.length s.
Proof.
  intros s (a & c & -> & H). induction a as [|d a IH]; cbn.
  - unfold is_blank. destruct (Ascii.eqb_spec c " "); [congruence|reflexivity].
  - rewrite IH. rewrite len_app. cbn. replace (String.length a + 1)%nat with (S (String.length a)) by lia. reflexivity.
Qed.
Lemma ends_word : forall s, s <> "" -> no_blanks s -> exists a c, s = (a ++ String c "")%string /\ c <> " "%char.
Proof.
  induction s as [|c s IH]; [congruence|]. intros _ [H1 H2]. destruct s as [|d s].
  - exists "", c. split; [reflexivity|exact H1].
  - destruct IH as (a & e & E & F); [discriminate|exact H2|]. exists (String c a), e. split; [cbn; f_equal; exact E|exact F].
Qed.
(** A word that may have one blank before it. *)
Definition gword (n : nat) (s : string) : Prop :=
  exists c r, s = String c r /\ no_blanks r /\ (r = "" -> c <> " "%char) /\ (String.length s <= n)%nat.
Lemma word_g n s : word n s -> gword n s.
Proof. intros (H1 & H2 & H3). destruct s as [|c r]; [congruence|]. exists c, r. destruct H2 as [H2 H4]. repeat split; try assumption. intros _. exact H2. Qed.
Lemma gword_len n s : gword n s -> (String.length s <= n)%nat.
Proof. intros (c & r & _ & _ & _ & L). exact L. Qed.
Lemma gword_ends n s : gword n s -> exists a c, s = (a ++ String c "")%string /\ c <> " "%char.
Proof.
  intros (c & r & -> & N & E & _). destruct r as [|d r].
  - exists "", c. split; [reflexivity|apply E; reflexivity].
  - destruct (ends_word (String d r)) as (a & e & A & B); [discriminate|exact N|]. exists (String c a), e. split; [rewrite A; reflexivity|exact B].
Qed.
Lemma flen_word n s : gword n s -> flen s = String.length s.
Proof. intros H. apply flen_last. apply (gword_ends n). exact H. Qed.
Lemma flen_fit n m s : gword n s -> (String.length s <= m)%nat -> flen (fit m s) = String.length s.
Proof. intros W L. rewrite fit_short by exact L. rewrite flen_app. eapply flen_word; exact W. Qed.

Lemma sentence_cons w r : r <> [] -> sentence (w :: r) = (w ++ String " " (sentence r))%string.
Proof. destruct r; [congruence|reflexivity]. Qed.

Lemma flen_sentence n : forall l, l <> [] -> (forall w, In w l -> gword n w) -> flen (sentence l) = String.length (sentence l).
Proof.
  intros l N W. apply flen_last. induction l as [|w l IH]; [congruence|]. destruct l as [|v l].
  - cbn. apply (gword_ends n). apply W; left; reflexivity.
  - destruct IH as (a & c & E & F); [discriminate|intros x X; apply W; right; exact X|].
    rewrite sentence_cons by discriminate. exists (w ++ String " " a)%string, c. split; [|exact F].
    rewrite E. rewrite app_assoc_s. reflexivity.
Qed.

Lemma upto_word : forall w r, no_blanks w -> upto " " (w ++ String " " r) = w.
Proof. induction w as [|c w IH]; intros r H; cbn in *; [reflexivity|]. destruct H as [H1 H2]. destruct (Ascii.eqb_spec c " "); [congruence|]. f_equal. apply IH, H2. Qed.
Lemma upto_end : forall w n, no_blanks w -> upto " " (w ++ blanks n) = w.
Proof.
  induction w as [|c w IH]; intros n H; cbn in *; [destruct n; reflexivity|]. destruct H as [H1 H2].
  destruct (Ascii.eqb_spec c " "); [congruence|]. f_equal. apply IH, H2.
Qed.
Lemma parse_word n w r : gword n w -> parse (w ++ String " " r) " " = fit 12 w.
Proof. intros (c & v & -> & H2 & _). cbn. rewrite upto_word by exact H2. reflexivity. Qed.
Lemma parse_end n w k : gword n w -> parse (w ++ blanks k) " " = fit 12 w.
Proof. intros (c & v & -> & H2 & _). cbn. rewrite upto_end by exact H2. reflexivity. Qed.

(** The first word of what is left of the buffer. *)
Lemma parse_sentence n w l k : gword n w -> parse ((sentence (w :: l)) ++ blanks k) " " = fit 12 w.
Proof.
  intros W. destruct l as [|v l]; [apply (parse_end n); exact W|].
  rewrite sentence_cons by discriminate. rewrite app_assoc_s. apply (parse_word n). exact W.
Qed.

Lemma sentence_pos w l : w <> "" -> (1 <= String.length (sentence (w :: l)))%nat.
Proof. intros H. destruct w as [|c w]; [congruence|]. destruct l; cbn; lia. Qed.

(** What is left of the buffer. *)
Lemma rem_buf done s k : (String.length s <= 1000)%nat ->
  fit 1000 (substring (String.length done) (String.length (done ++ s) - String.length done) ((done ++ s) ++ blanks k))
  = (s ++ blanks (1000 - String.length s))%string.
Proof.
  intros L. rewrite app_assoc_s, sub_skip, len_app.
  replace (String.length done + String.length s - String.length done)%nat with (String.length s) by lia.
  rewrite sub_prefix. apply fit_short. exact L.
Qed.

(** The words of a list, as columns. *)
Fixpoint pair_up (l : list string) (acc : list (string * option string)) : list (string * option string) :=
  match l with
  | [] => rev acc
  | [e] => rev ((fit 12 e, None) :: acc)
  | e :: u :: r => pair_up r ((fit 12 e, Some (fit 12 u)) :: acc)
  end.

Lemma columns_ok : forall m l, (length l <= m)%nat -> forall done k acc fuel, (forall w, In w l -> gword 12 w) -> (length l <= fuel)%nat ->
  (String.length (done ++ sentence l) <= 1000)%nat ->
  parse_columns fuel ((done ++ sentence l) ++ blanks k) (String.length (done ++ sentence l)) 
    (match l with [] => S (String.length done) | _ => String.length done end) true acc = pair_up l acc.
Proof.
  induction m as [|m IH]; intros l M done k acc fuel W F L.
  { destruct l; [|cbn in M; lia]. cbn [sentence]. rewrite app_nil. destruct fuel; cbn [parse_columns pair_up];
      replace (S (String.length done) <? String.length done)%nat with false by lia; reflexivity. }
  destruct l as [|e l]; [apply (IH []); cbn; try lia; assumption|].
  assert (We : gword 12 e) by (apply W; left; reflexivity).
  assert (NE : e <> "") by (destruct We as (? & ? & -> & _); discriminate). pose proof (sentence_pos e l NE) as P.
  assert (LS : (String.length (sentence (e :: l)) <= 1000)%nat) by (rewrite len_app in L; lia).
  destruct fuel as [|fuel]; [cbn in F; lia|]. cbn [parse_columns].
  replace (String.length done <? String.length (done ++ sentence (e :: l)))%nat with true by (rewrite len_app; lia).
  rewrite rem_buf by exact LS. rewrite (parse_sentence 12) by exact We.
  rewrite (flen_fit 12) by (first [exact We | exact (gword_len 12 _ We)]).
  destruct l as [|u l].
  - cbn [sentence] in *. cbn [pair_up]. destruct fuel; cbn [parse_columns];
      replace (String.length done + String.length e + 1 <? String.length (done ++ e))%nat with false by (rewrite len_app; lia); reflexivity.
  - assert (Wu : gword 12 u) by (apply W; right; left; reflexivity).
    destruct fuel as [|fuel]; [cbn in F; lia|].
    set (done1 := (done ++ e ++ " ")%string).
    assert (E1 : (done ++ sentence (e :: u :: l) = done1 ++ sentence (u :: l))%string)
      by (unfold done1; rewrite sentence_cons by discriminate; rewrite !app_assoc_s; reflexivity).
    assert (T1 : (String.length done + String.length e + 1 = String.length done1)%nat) by (unfold done1; rewrite !len_app; cbn; lia).
    rewrite E1 in *. rewrite T1. cbn [parse_columns].
    assert (NU : u <> "") by (destruct Wu as (? & ? & -> & _); discriminate). pose proof (sentence_pos u l NU) as P1.
    replace (String.length done1 <? String.length (done1 ++ sentence (u :: l)))%nat with true by (rewrite len_app; lia).
    rewrite rem_buf by (rewrite len_app in L; lia). rewrite (parse_sentence 12) by exact Wu.
    rewrite (flen_fit 12) by (first [exact Wu | exact (gword_len 12 _ Wu)]). cbn [pair_up].
    destruct l as [|v l].
    + cbn [sentence] in *. cbn [pair_up]. destruct fuel; cbn [parse_columns];
        replace (String.length done1 + String.length u + 1 <? String.length (done1 ++ u))%nat with false by (rewrite len_app; lia); reflexivity.
    + set (done2 := (done1 ++ u ++ " ")%string).
      assert (E2 : (done1 ++ sentence (u :: v :: l) = done2 ++ sentence (v :: l))%string)
        by (unfold done2; rewrite sentence_cons by discriminate; rewrite !app_assoc_s; reflexivity).
      assert (T2 : (String.length done1 + String.length u + 1 = String.length done2)%nat) by (unfold done2; rewrite !len_app; cbn; lia).
      rewrite E2 in *. rewrite T2. apply (IH (v :: l)).
      * cbn in M |- *. lia.
      * intros w X. apply W. right. right. exact X.
      * cbn in F |- *. lia.
      * exact L.
Qed.

Lemma pair_up_cols : forall cols acc, pair_up (column_words cols) acc =
  rev acc ++ map (fun p => (fit 12 (fst p), Some (fit 12 (snd p)))) cols.
Proof.
  unfold column_words. induction cols as [|[e u] cols IH]; intros acc; cbn [flat_map pair_up map app fst snd]; [rewrite app_nil_r; reflexivity|].
  rewrite IH. cbn [rev]. rewrite <- app_assoc. reflexivity.
Qed.
Lemma pair_up_odd : forall cols e acc, pair_up (column_words cols ++ [e]) acc =
  rev acc ++ map (fun p => (fit 12 (fst p), Some (fit 12 (snd p)))) cols ++ [(fit 12 e, None)].
Proof.
  unfold column_words. induction cols as [|[x u] cols IH]; intros e acc; cbn [flat_map pair_up map app fst snd]; [reflexivity|].
  rewrite IH. cbn [rev]. rewrite <- app_assoc. reflexivity.
Qed.

Lemma sentence_len : forall l, (forall w, In w l -> w <> "") -> (length l <= String.length (sentence l))%nat.
Proof.
  induction l as [|w l IH]; intros W; [cbn; lia|]. assert (w <> "") by (apply W; left; reflexivity). destruct l as [|v l].
  - destruct w; [congruence|]. cbn. lia.
  - rewrite sentence_cons by discriminate. rewrite len_app. cbn [String.length].
    assert (I' : (length (v :: l) <= String.length (sentence (v :: l)))%nat) by (apply IH; intros x X; apply W; right; exact X). cbn [length] in *. lia.
Qed.

Lemma tempc_word : word 12 "tempc".
Proof. split; [discriminate|]. split; [repeat split; discriminate|cbn; lia]. Qed.
Lemma ph_word : word 12 "pH".
Proof. split; [discriminate|]. split; [repeat split; discriminate|cbn; lia]. Qed.

(** The general form: a header of words, some perhaps after two blanks. *)
Lemma header_words x y l : gword 12 x -> gword 12 y -> (forall w, In w l -> gword 12 w) -> (String.length (sentence (x :: y :: l)) <= 1000)%nat ->
  parse_header (fit 1000 (sentence (x :: y :: l))) =
    if (100 <? length (pair_up l []))%nat then TooMany else Header (same (fit 12 x) "tempc" && same (fit 12 y) "pH") (pair_up l []).
Proof.
  intros X Y W L. unfold parse_header.
  assert (AW : forall w, In w (x :: y :: l) -> gword 12 w).
  { intros w [<- | [<- | Z']]; [exact X|exact Y|apply W; exact Z']. }
  set (H := sentence (x :: y :: l)) in *.
  rewrite (fit_short 1000 H) by exact L. set (k := (1000 - String.length H)%nat).
  assert (FL : flen (H ++ blanks k) = String.length H).
  { rewrite flen_app. apply (flen_sentence 12); [discriminate|exact AW]. }
  rewrite FL. cbv zeta.
  assert (R1 : fit 1000 (substring 0 (String.length H) (H ++ blanks k)) = (H ++ blanks k)%string).
  { rewrite sub_prefix. apply fit_short. exact L. }
  assert (P1 : parse (H ++ blanks k) " " = fit 12 x) by (apply (parse_sentence 12); exact X).
  rewrite R1, P1. rewrite (flen_fit 12 12 x X) by exact (gword_len 12 _ X).
  set (d1 := (x ++ " ")%string).
  assert (E1 : H = (d1 ++ sentence (y :: l))%string) by (unfold H, d1; rewrite sentence_cons by discriminate; rewrite app_assoc_s; reflexivity).
  assert (T1 : (String.length x + 1 = String.length d1)%nat) by (unfold d1; rewrite len_app; reflexivity). rewrite T1.
  clearbody H. subst H. rewrite rem_buf by (rewrite len_app in L; lia). rewrite (parse_sentence 12) by exact Y.
  rewrite (flen_fit 12 12 y Y) by exact (gword_len 12 _ Y).
  assert (C : parse_columns (S (String.length (d1 ++ sentence (y :: l)))) ((d1 ++ sentence (y :: l)) ++ blanks k)
      (String.length (d1 ++ sentence (y :: l))) (String.length d1 + String.length y + 1) true [] = pair_up l []).
  { destruct l as [|w l'].
    - cbn [sentence]. replace (String.length d1 + String.length y + 1)%nat with (S (String.length (d1 ++ y))) by (rewrite len_app; lia).
      pose proof (columns_ok 0 [] (Nat.le_refl _) (d1 ++ y) k [] (S (String.length (d1 ++ y))) ltac:(intros v []) ltac:(cbn; lia)) as CO.
      cbn [sentence] in CO. rewrite app_nil in CO. apply CO. exact L.
    - set (d2 := (d1 ++ y ++ " ")%string).
      assert (E2 : (d1 ++ sentence (y :: w :: l') = d2 ++ sentence (w :: l'))%string)
        by (unfold d2; rewrite sentence_cons by discriminate; rewrite !app_assoc_s; reflexivity).
      rewrite E2 in *.
      replace (String.length d1 + String.length y + 1)%nat with (String.length d2) by (unfold d2; rewrite !len_app; cbn; lia).
      apply (columns_ok (length (w :: l')) (w :: l') (Nat.le_refl _)); [exact W| |exact L].
      rewrite len_app. pose proof (sentence_len (w :: l')) as SL.
      assert (SL' : (length (w :: l') <= String.length (sentence (w :: l')))%nat).
      { apply SL. intros v V. destruct (W v V) as (? & ? & -> & _). discriminate. }
      lia. }
  rewrite C. reflexivity.
Qed.

(** * Lookups *)

Lemma same_words n m a b : word n a -> word m b -> (n <= 12)%nat -> (m <= 20)%nat -> same (fit 12 a) (fit 20 b) = String.eqb a b.
Proof.
  intros Wa Wb N M. unfold same. assert (La : (String.length a <= 12)%nat) by (destruct Wa as (_ & _ & ?); lia).
  assert (Lb : (String.length b <= 20)%nat) by (destruct Wb as (_ & _ & ?); lia).
  rewrite (flen_fit n 12 a (word_g _ _ Wa) La), (flen_fit m 20 b (word_g _ _ Wb) Lb), (fit_short 12 a La), (fit_short 20 b Lb), !sub_prefix. reflexivity.
Qed.

Lemma species_row : forall l s i, word 12 s -> (forall e, In e l -> word 20 (fst (fst e))) ->
  (species_from i (table l) (fit 12 s) = -99 /\ ~ In s (map (fun e => fst (fst e)) l)) \/
  (exists k, row_of l s k /\ species_from i (table l) (fit 12 s) = i + k - 1).
Proof.
  intros l s i Ws. revert i. induction l as [|[[n a] b] l IH]; intros i T; cbn [table map species_from].
  { left. split; [reflexivity|intros []]. }
  cbn [fst snd spec]. rewrite (same_words 12 20) by (first [exact Ws|apply (T (n, a, b)); left; reflexivity|lia]).
  destruct (String.eqb_spec s n) as [-> | D].
  - right. exists 1. split; [|lia]. exists [], a, b, l. split; [reflexivity|]. split; [intros []|reflexivity].
  - destruct (IH (i + 1)) as [[E N] | (k & (p & x & y & q & E & N & K) & R)]; [intros e E; apply T; right; exact E| |].
    + left. split; [exact E|]. cbn. intros [F | F]; [congruence|contradiction].
    + right. exists (k + 1). split.
      * exists ((n, a, b) :: p), x, y, q. split; [rewrite E; reflexivity|]. split; [cbn; intros [F | F]; [congruence|contradiction]|].
        cbn [length]. lia.
      * unfold table in R. rewrite R. lia.
Qed.

Lemma row_unique l s k k' : row_of l s k -> row_of l s k' -> k = k'.
Proof.
  intros (a & x & y & b & E & N & K) (a' & x' & y' & b' & E' & N' & K'). rewrite E in E'. clear E.
  assert (length a = length a'); [|lia]. clear K K' k k'. revert a' N' E'. induction a as [|e a IH]; intros [|e' a'] N' E'; cbn in *; try reflexivity.
  - injection E' as <- _. exfalso. apply N'. left. reflexivity.
  - injection E' as -> _. exfalso. apply N. left. reflexivity.
  - injection E' as _ E'. f_equal. apply IH; tauto.
Qed.
Lemma phreeq_found l s k : word 12 s -> (forall e, In e l -> word 20 (fst (fst e))) -> row_of l s k -> phreeq_id (table l) (fit 12 s) = k.
Proof.
  intros Ws T R. destruct (species_row l s 1 Ws T) as [[_ N] | (k' & R' & E)].
  - exfalso. apply N. destruct R as (a & x & y & b & -> & _). rewrite map_app. apply in_or_app. right. left. reflexivity.
  - unfold phreeq_id. rewrite E. rewrite (row_unique l s k k' R R'). lia.
Qed.
Lemma phreeq_missing l s : word 12 s -> (forall e, In e l -> word 20 (fst (fst e))) -> ~ In s (map (fun e => fst (fst e)) l) ->
  phreeq_id (table l) (fit 12 s) = -99.
Proof.
  intros Ws T N. destruct (species_row l s 1 Ws T) as [[E _] | (k' & (a & x & y & b & E & _) & _)]; [exact E|].
  exfalso. apply N. rewrite E, map_app. apply in_or_app. right. left. reflexivity.
Qed.
Lemma row_pos l s k : row_of l s k -> 1 <= k.
Proof. intros (a & x & y & b & _ & _ & ->). lia. Qed.

Lemma units_words u : In u units -> word 12 u.
Proof. cbn. intuition subst; (split; [discriminate|]; split; [repeat split; discriminate|cbn; lia]). Qed.
Lemma same_short a b : word 12 a -> word 12 b -> same (fit 12 a) (fit 12 b) = String.eqb a b.
Proof.
  intros Wa Wb. unfold same. assert (La : (String.length a <= 12)%nat) by apply Wa. assert (Lb : (String.length b <= 12)%nat) by apply Wb.
  rewrite (flen_fit 12 12 a (word_g _ _ Wa) La), (flen_fit 12 12 b (word_g _ _ Wb) Lb), (fit_short 12 a La), (fit_short 12 b Lb), !sub_prefix. reflexivity.
Qed.
Lemma unit_row : forall tbl s i beyond, word 12 s -> (forall u, In u tbl -> word 12 u) -> 1 <= i -> i + Z.of_nat (length tbl) = 9 ->
  (unit_from i (map (fit 12) tbl ++ [beyond]) (fit 12 s) = -99 /\ ~ In s tbl) \/
  (exists a b, tbl = a ++ s :: b /\ ~ In s a /\ unit_from i (map (fit 12) tbl ++ [beyond]) (fit 12 s) = i + Z.of_nat (length a)).
Proof.
  induction tbl as [|u tbl IH]; intros s i beyond Ws T I1 I9; cbn [map app unit_from].
  - left. split; [|intros []]. cbn in I9. replace (8 <? i) with true by lia. reflexivity.
  - cbn [length] in I9. replace (8 <? i) with false by lia. rewrite same_short by (first [exact Ws|apply T; left; reflexivity]).
    destruct (String.eqb_spec s u) as [-> | D].
    + right. exists [], tbl. split; [reflexivity|]. split; [intros []|]. replace (i =? 0) with false by lia. cbn. lia.
    + cbn [Z.eqb]. destruct (IH s (i + 1) beyond Ws) as [[E N] | (a & b & E & N & R)]; [intros x X; apply T; right; exact X|lia|lia| |].
      * left. split; [exact E|]. intros [F | F]; [congruence|contradiction].
      * right. exists (u :: a), b. split; [rewrite E; reflexivity|]. split; [intros [F | F]; [congruence|contradiction]|]. rewrite R. cbn [length]. lia.
Qed.
Lemma unit_found beyond a s b : units = a ++ s :: b -> unit_id beyond (fit 12 s) = Z.of_nat (length a) + 1.
Proof.
  intros E. assert (Ws : word 12 s) by (apply units_words; rewrite E; apply in_or_app; right; left; reflexivity).
  destruct (unit_row units s 1 beyond Ws units_words) as [[_ N] | (a' & b' & E' & N' & R)]; [lia|reflexivity| |].
  - exfalso. apply N. rewrite E. apply in_or_app. right. left. reflexivity.
  - unfold unit_id, unit_lut. fold units. rewrite R. 
    assert (ND : NoDup units) by (repeat (constructor; [cbn; intuition discriminate|]); constructor).
    assert (length a = length a'); [|lia].
    rewrite E in E', ND. clear - E' ND. revert a' E'. induction a as [|x a IH]; intros [|y a'] E'; cbn in *; try reflexivity.
    + injection E' as _ E'. subst b. inversion ND as [|? ? N _]; subst. exfalso. apply N. apply in_or_app. right. left. reflexivity.
    + injection E' as -> E'. inversion ND as [|? ? N _]; subst. exfalso. apply N. apply in_or_app. right. left. reflexivity.
    + injection E' as _ E'. f_equal. apply IH; [inversion ND; assumption|exact E'].
Qed.
Lemma unit_missing beyond s : word 12 s -> ~ In s units -> unit_id beyond (fit 12 s) = -99.
Proof.
  intros Ws N. destruct (unit_row units s 1 beyond Ws units_words) as [[E _] | (a' & b' & E' & _)]; [lia|reflexivity|exact E|].
  exfalso. apply N. rewrite E'. apply in_or_app. right. left. reflexivity.
Qed.

(** * The column of a solute *)

Lemma valid_last : forall cols i phq v0, 
  (valid_from i cols phq v0 = v0 /\ ~ In phq (map fst cols)) \/
  (exists a c b, cols = a ++ c :: b /\ fst c = phq /\ ~ In phq (map fst b) /\ valid_from i cols phq v0 = i + Z.of_nat (length a)).
Proof.
  induction cols as [|[s u] cols IH]; intros i phq v0; cbn [valid_from map fst]; [left; split; [reflexivity|intros []]|].
  destruct (IH (i + 1) phq (if s =? phq then i else v0)) as [[E N] | (a & c & b & E & F & N & R)].
  - destruct (Z.eqb_spec s phq) as [<- | D].
    + right. exists [], (s, u), cols. split; [reflexivity|]. split; [reflexivity|]. split; [exact N|]. rewrite E. cbn. lia.
    + left. split; [exact E|]. intros [X | X]; [congruence|contradiction].
  - right. exists ((s, u) :: a), c, b. split; [rewrite E; reflexivity|]. split; [exact F|]. split; [exact N|]. rewrite R. cbn [length]. lia.
Qed.

(** * Records *)

Lemma scan_full : forall n l r, length l = n -> scan n (map Some l ++ r) = (l, false).
Proof. induction n as [|n IH]; intros [|q l] r H; cbn in *; try lia; [destruct r; reflexivity|]. rewrite IH by lia. reflexivity. Qed.
Lemma read_line n l r rest : length l = n -> read_items n ((map Some l ++ r) :: rest) [] = Full l rest.
Proof. intros H. cbn [read_items length]. rewrite Nat.sub_0_r, scan_full by exact H. cbn [app]. replace (n <=? length l)%nat with true by lia. reflexivity. Qed.

Lemma values_len : forall ncols ss, (forall s, In s ss -> length (s_vals s) = ncols) -> length (flat_map numbers ss) = (length ss * (ncols + 2))%nat.
Proof.
  induction ss as [|s ss IH]; intros H; [reflexivity|]. cbn [flat_map length Nat.mul]. rewrite app_length, IH by (intros x X; apply H; right; exact X).
  cbn [numbers length]. rewrite (H s) by (left; reflexivity). lia.
Qed.
Lemma rec_len ncols nrows r : well_formed ncols nrows r -> length (fst r ++ values r) = (6 + nrows * (ncols + 2))%nat.
Proof. intros (D & R & V). rewrite app_length, D. unfold values. rewrite (values_len ncols) by exact V. rewrite R. reflexivity. Qed.

Lemma same_len a b : same_date a b -> length a = length b.
Proof. intros H. induction H; cbn; congruence. Qed.
Lemma date_same now r v : length r = 6%nat -> (date_eqb now (r ++ v) = true <-> same_date now r).
Proof.
  intros L. unfold date_eqb. rewrite firstn_app, L, Nat.sub_diag, firstn_O, app_nil_r, firstn_all2 by lia. rewrite andb_true_iff, Nat.eqb_eq. split.
  - intros [N F]. unfold same_date. assert (NL : length now = length r) by lia. clear - F NL. revert r F NL. induction now as [|a now IH]; intros [|b r] F NL; cbn in *; try lia; constructor.
    + apply andb_true_iff in F. destruct F as [F _]. unfold qeq in F. apply Qeq_bool_iff. exact F.
    + apply IH; [|lia]. apply andb_true_iff in F. apply F.
  - intros H. split; [pose proof (same_len _ _ H); lia|]. clear L. induction H as [|a b la lb H1 H2 IH]; [reflexivity|]. cbn. rewrite IH, andb_true_r.
    unfold qeq. apply Qeq_bool_iff. exact H1.
Qed.

Lemma skip6 (d v : list Q) : length d = 6%nat -> skipn 6 (d ++ v) = v.
Proof. intros H. rewrite skipn_app, H, skipn_all2 by lia. reflexivity. Qed.

Lemma search_ok ncols nrows now : forall recs r fuel, (forall x, In x (r :: recs) -> well_formed ncols nrows x) -> (length recs <= fuel)%nat ->
  match search fuel (6 + nrows * (ncols + 2)) now (fst r ++ values r) (map line_of recs) with
  | Some (it, rest) => exists pre q tail, r :: recs = pre ++ q :: tail /\ (forall x, In x pre -> ~ same_date now (fst x)) /\
      same_date now (fst q) /\ it = fst q ++ values q /\ rest = map line_of tail
  | None => forall x, In x (r :: recs) -> ~ same_date now (fst x)
  end.
Proof.
  induction recs as [|r2 recs IH]; intros r fuel W F.
  - destruct (date_eqb now (fst r ++ values r)) eqn:D.
    + destruct fuel; cbn [search]; rewrite D; exists [], r, []; (split; [reflexivity|]); (split; [intros x []|]); split; try (split; reflexivity);
        apply (date_same now (fst r) (values r)); try exact D; apply (W r); left; reflexivity.
    + assert (N : ~ same_date now (fst r)).
      { intros S'. apply (date_same now (fst r) (values r)) in S'; [congruence|]. apply (W r). left. reflexivity. }
      destruct fuel; cbn [search map]; rewrite D; cbn [read_items]; intros x [<- | []]; exact N.
  - cbn [length] in F. destruct fuel as [|fuel]; [lia|]. cbn [search]. destruct (date_eqb now (fst r ++ values r)) eqn:D.
    + exists [], r, (r2 :: recs). split; [reflexivity|]. split; [intros x []|]. split; [|split; reflexivity].
      apply (date_same now (fst r) (values r)); [|exact D]. apply (W r). left. reflexivity.
    + assert (N : ~ same_date now (fst r)).
      { intros S'. apply (date_same now (fst r) (values r)) in S'; [congruence|]. apply (W r). left. reflexivity. }
      cbn [map]. unfold line_of at 1. rewrite <- (app_nil_r (map Some (fst r2 ++ values r2))).
      rewrite read_line by (apply (rec_len ncols nrows); apply W; right; left; reflexivity).
      specialize (IH r2 fuel ltac:(intros x X; apply W; right; exact X) ltac:(lia)).
      destruct (search fuel (6 + nrows * (ncols + 2)) now (fst r2 ++ values r2) (map line_of recs)) as [[it rest] |].
      * destruct IH as (pre & q & tail & E & P & S' & I' & R). exists (r :: pre), q, tail. split; [rewrite E; reflexivity|].
        split; [intros x [<- | X]; [exact N|apply P; exact X]|]. split; [exact S'|]. split; assumption.
      * intros x [<- | X]; [exact N|apply IH; exact X].
Qed.

Lemma days_on u : forall nows recs m l, (forall x, In x recs -> well_formed (length (columns u)) (nchemdat_obs u) x) ->
  (days u (mkRd false m (map line_of recs)) nows = Some l <->
   exists used tail, recs = used ++ tail /\ Forall2 (fun now r => same_date now (fst r)) nows used /\ l = map (fun r => day_inputs u (values r)) used).
Proof.
  induction nows as [|now nows IH]; intros recs m l W.
  - cbn [days]. split.
    + intros E. injection E as <-. exists [], recs. split; [reflexivity|]. split; [constructor|reflexivity].
    + intros (used & tail & _ & F & ->). inversion F. reflexivity.
  - cbn [days]. unfold read_day. cbn [rest first chemdat]. destruct recs as [|r recs].
    + cbn [map read_items]. split; [discriminate|]. intros (used & tail & E & F & _). inversion F; subst. discriminate.
    + assert (Wr : well_formed (length (columns u)) (nchemdat_obs u) r) by (apply W; left; reflexivity).
      cbn [map]. unfold line_of at 1. rewrite <- (app_nil_r (map Some (fst r ++ values r))).
      rewrite read_line by (unfold items; apply (rec_len (length (columns u)) (nchemdat_obs u)); exact Wr).
      destruct (date_eqb now (fst r ++ values r)) eqn:D.
      * rewrite skip6 by apply Wr. specialize (IH recs (values r)). 
        assert (S' : same_date now (fst r)) by (apply (date_same now (fst r) (values r)); [apply Wr|exact D]).
        destruct (days u (mkRd false (values r) (map line_of recs)) nows) as [l'|] eqn:E.
        -- cbn [chemdat]. split.
           ++ intros X. injection X as <-. destruct (proj1 (IH l' (fun x X => W x (or_intror X))) eq_refl) as (used & tail & E1 & F & ->).
              exists (r :: used), tail. split; [rewrite E1; reflexivity|]. split; [constructor; assumption|reflexivity].
           ++ intros (used & tail & E1 & F & ->). inversion F as [|? r' ? used' F1 F2]; subst. injection E1 as <- E1.
              specialize (proj2 (IH (map (fun r => day_inputs u (values r)) used') (fun x X => W x (or_intror X)))) as B. rewrite E1 in B. 
              assert (E' : Some l' = Some (map (fun r => day_inputs u (values r)) used')).
              { apply B. exists used', tail. split; [reflexivity|]. split; [exact F2|reflexivity]. }
              injection E' as ->. reflexivity.
        -- split; [discriminate|]. intros (used & tail & E1 & F & ->). inversion F as [|? r' ? used' F1 F2]; subst. injection E1 as <- E1.
           assert (B : (None : option (list (option inputs))) = Some (map (fun r => day_inputs u (values r)) used')).
           { apply (IH _ (fun x X => W x (or_intror X))). exists used', tail. split; [exact E1|]. split; [exact F2|reflexivity]. }
           discriminate.
      * split; [discriminate|]. intros (used & tail & E1 & F & _). inversion F as [|? r' ? used' F1 F2]; subst. injection E1 as <- E1.
        apply (date_same now (fst r) (values r)) in F1; [congruence|apply Wr].
Qed.

Lemma cell_at u : forall ss row j, (forall s, In s ss -> length (s_vals s) = length (columns u)) -> (j < length (columns u) + 2)%nat ->
  cell u (flat_map numbers ss) row j = match nth_error ss row with Some s => nth_error (numbers s) j | None => None end.
Proof.
  intros ss row j H J. unfold cell. revert row. induction ss as [|s ss IH]; intros row; cbn [flat_map].
  - set (q := (row * (length (columns u) + 2) + j)%nat). clearbody q. destruct row; destruct q; reflexivity.
  - assert (LN : length (numbers s) = (length (columns u) + 2)%nat) by (cbn [numbers length]; rewrite (H s) by (left; reflexivity); lia).
    destruct row as [|row]; cbn [nth_error Nat.mul Nat.add].
    + apply nth_error_app1. lia.
    + rewrite nth_error_app2 by lia. rewrite LN. rewrite <- IH by (intros x X; apply H; right; exact X). f_equal. lia.
Qed.

Lemma ratio_some x y : ~ (y == 0)%Q -> exists z, ratio x y = Some z /\ (z * y == x)%Q.
Proof.
  intros H. unfold ratio. destruct (qeq y 0) eqn:E.
  - exfalso. apply H. apply Qeq_bool_iff. exact E.
  - exists (x / y)%Q. split; [reflexivity|]. field. exact H.
Qed.

Lemma convert_ok u c x : good_setup u -> In c (columns u) -> exists e z, nth_error (tbl u) (Z.to_nat (fst c - 1)) = Some e /\
  convert u c x = Some z /\ in_moles (mg e) (meq e) (conv u) (snd c) x z.
Proof.
  intros (_ & GC & GL & GF) I'. destruct (GC c I') as (R & e & NE & M1 & M2). exists e. unfold convert. rewrite NE.
  destruct (qle 0 x) eqn:Q0.
  2:{ exists x. split; [reflexivity|]. split; [reflexivity|]. left. split; [apply qle_f; exact Q0|reflexivity]. }
  apply qle_t in Q0. destruct (Z.eqb_spec (snd c) 1) as [E | N1].
  { destruct (ratio_some x (mg e) M1) as (z & Z1 & Z2). exists z. split; [reflexivity|]. split; [exact Z1|]. right. split; [exact Q0|]. left. split; assumption. }
  destruct (Z.eqb_spec (snd c) 2) as [E | N2].
  { destruct (ratio_some x (meq e) (M2 E)) as (z & Z1 & Z2). exists z. split; [reflexivity|]. split; [exact Z1|]. right. split; [exact Q0|]. right. left. split; assumption. }
  destruct (Z.leb_spec (snd c) 5) as [E | N5].
  { destruct (nth_error (conv u) (Z.to_nat (snd c - 3))) as [f|] eqn:NF; [|apply nth_error_None in NF; lia].
    destruct (ratio_some x f (GF f (nth_error_In _ _ NF))) as (z & Z1 & Z2). exists z. split; [reflexivity|]. split; [exact Z1|]. right. split; [exact Q0|].
    right. right. left. exists (Z.to_nat (snd c - 3)), f. split; [lia|]. split; [exact NF|]. split; [lia|exact Z2]. }
  destruct (Z.eqb_spec (snd c) 6) as [E | N6].
  { destruct (ratio_some x 1000) as (z & Z1 & Z2); [discriminate|]. exists z. split; [reflexivity|]. split; [exact Z1|]. right. split; [exact Q0|]. right. right. right. left. split; assumption. }
  exists x. split; [reflexivity|]. split; [reflexivity|]. right. split; [exact Q0|]. right. right. right. right. split; [lia|reflexivity].
Qed.

Lemma conc_ok u ss row s : good_setup u -> (forall s, In s ss -> length (s_vals s) = length (columns u)) -> nth_error ss row = Some s ->
  exists l, all (map (row_conc u (flat_map numbers ss) row) (valid u)) = Some l /\
   Forall2 (fun v y => (v = 0 /\ y = Some 0%Q) \/
    (1 <= v /\ exists x c e z, nth_error (s_vals s) (Z.to_nat (v - 1)) = Some x /\ nth_error (columns u) (Z.to_nat (v - 1)) = Some c /\
       nth_error (tbl u) (Z.to_nat (fst c - 1)) = Some e /\ y = Some z /\ in_moles (mg e) (meq e) (conv u) (snd c) x z)) (valid u) l.
Proof.
  intros G H R. pose proof (proj1 G) as GV. induction (valid u) as [|v vs IH]; cbn [map all].
  - exists []. split; [reflexivity|constructor].
  - destruct IH as (l & A & F); [intros x X; apply GV; right; exact X|]. specialize (GV v (or_introl eq_refl)).
    unfold row_conc at 1. destruct (Z.eqb_spec v 0) as [-> | NV].
    + rewrite A. exists (Some 0%Q :: l). split; [reflexivity|]. constructor; [left; split; reflexivity|exact F].
    + rewrite (cell_at u ss row (Z.to_nat v + 1) H) by lia. rewrite R.
      assert (LS : length (s_vals s) = length (columns u)) by (apply H; apply (nth_error_In _ _ R)).
      destruct (nth_error (columns u) (Z.to_nat (v - 1))) as [c|] eqn:NC; [|apply nth_error_None in NC; lia].
      destruct (nth_error (s_vals s) (Z.to_nat (v - 1))) as [x|] eqn:NX; [|apply nth_error_None in NX; lia].
      assert (EX : nth_error (numbers s) (Z.to_nat v + 1) = Some x).
      { unfold numbers. replace (Z.to_nat v + 1)%nat with (S (S (Z.to_nat (v - 1)))) by lia. exact NX. }
      rewrite EX, A. destruct (convert_ok u c x G (nth_error_In _ _ NC)) as (e & z & NE & CZ & IM). rewrite CZ.
      exists (Some z :: l). split; [reflexivity|]. constructor; [|exact F]. right. split; [lia|]. exists x, c, e, z. repeat split; assumption.
Qed.

Lemma source_ok u ss row s : good_setup u -> (forall s, In s ss -> length (s_vals s) = length (columns u)) -> nth_error ss row = Some s ->
  (row < nchemdat_obs u)%nat -> exists w, source u (flat_map numbers ss) (row_tp u (flat_map numbers ss) row) (Some row) = Some w /\ reads u s w.
Proof.
  intros G H R L. unfold source, row_tp. replace (row <? nchemdat_obs u)%nat with true by lia.
  rewrite !(cell_at u ss row) by (first [exact H | lia]). rewrite R. cbn [numbers nth_error].
  destruct (conc_ok u ss row s G H R) as (l & A & F). rewrite A. eexists. split; [reflexivity|]. repeat split. exact F.
Qed.

Lemma all_reads u (f : nat -> option water) : forall ss a, (forall k s, nth_error ss k = Some s -> exists w, f (a + k)%nat = Some w /\ reads u s w) ->
  exists ws, all (map f (seq a (length ss))) = Some ws /\ Forall2 (reads u) ss ws.
Proof.
  induction ss as [|s ss IH]; intros a H; cbn [length seq map all].
  - exists []. split; [reflexivity|constructor].
  - destruct (H O s eq_refl) as (w & W & R). rewrite Nat.add_0_r in W. rewrite W.
    destruct (IH (S a)) as (ws & A & F).
    { intros k x X. destruct (H (S k) x X) as (y & Y & R'). exists y. split; [|exact R']. rewrite <- Y. f_equal. lia. }
    rewrite A. exists (w :: ws). split; [reflexivity|constructor; assumption].
Qed.
