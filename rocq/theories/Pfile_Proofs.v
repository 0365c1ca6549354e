From Coq Require Import String Ascii List ZArith Bool Arith Lia ZifyBool Nnat.
From Verif Require Import CStr_Model CNum_Model Elem_Model Elem_Spec Elem_Proofs Pfile_Model Pfile_Spec.
Import ListNotations.
Local Open Scope string_scope.
Local Open Scope list_scope.

Lemma free_nochar c s : free_of c s <-> no_char c s = true.
Proof. unfold free_of. symmetry. apply no_char_in. Qed.
Lemma no_char_cons c x s : no_char c (String x s) = negb (Ascii.eqb x c) && no_char c s.
Proof. reflexivity. Qed.
(** strtok. *)
Lemma strtok_word : forall t cur s, no_char " " t = true -> strtok_from is_blank cur (t ++ s) = strtok_from is_blank (cur ++ t) s.
Proof.
  induction t as [|c t IH]; intros cur s H; cbn [append]; [rewrite app_nil_s; reflexivity|].
  rewrite no_char_cons in H. apply andb_prop in H. destruct H as [H1 H2]. cbn [strtok_from]. unfold is_blank at 1.
  destruct (Ascii.eqb c " "); [discriminate|]. rewrite IH by exact H2. rewrite app_assoc_s. reflexivity.
Qed.
Lemma strtok_blanks : forall k s, strtok_from is_blank "" (blanks k ++ s) = strtok_from is_blank "" s.
Proof. induction k as [|k IH]; intros s; [reflexivity|]. cbn [blanks append strtok_from]. apply IH. Qed.
Lemma strtok_gap cur k s : cur <> "" -> strtok_from is_blank cur (blanks (S k) ++ s) = cur :: strtok_from is_blank "" s.
Proof.
  intros H. cbn [blanks append strtok_from]. change (is_blank " ") with true. cbv iota. destruct (String.eqb_spec cur ""); [contradiction|]. rewrite strtok_blanks. reflexivity.
Qed.
Lemma strtok_end cur : cur <> "" -> strtok_from is_blank cur "" = [cur].
Proof. intros H. cbn [strtok_from]. destruct (String.eqb_spec cur ""); [contradiction|reflexivity]. Qed.
(** The tokens of a row. *)
Lemma app_ne (a b : string) : a <> "" -> (a ++ b)%string <> "".
Proof. intros H E. destruct a; [apply H; reflexivity|discriminate]. Qed.
Lemma numeral_ne s v : numeral s v -> s <> "".
Proof. intros H. destruct H as [d D|s v d H D]; [discriminate|]. destruct s; discriminate. Qed.
Lemma shows_word e t : shows e t -> t <> "" /\ no_char " " t = true.
Proof.
  intros H. destruct H as [v [A [B _]]|c v n C L [A [B _]]].
  - split; [exact A|apply free_nochar; exact B].
  - split; [apply app_ne; exact (numeral_ne _ _ C)|].
    rewrite no_char_app. cbn [append]. rewrite no_char_cons. rewrite (numeral_nochar " " c n eq_refl C). apply free_nochar in B. rewrite B. reflexivity.
Qed.
(** A token stands for an entry; [close] is the newline after the last one. *)
Definition token_of (close : string) (e : entry) (t : string) : Prop := exists s, shows e s /\ (t = s \/ t = (s ++ close)%string).
Lemma row_tokens close s es : row s es -> close = newline \/ close = "" -> exists ts, strtok_from is_blank "" (s ++ close) = ts /\ Forall2 (token_of close) es ts.
Proof.
  intros H C. induction H as [e t SH|e t k s es SH R IH].
  - destruct (shows_word e t SH) as [NE NB]. exists [(t ++ close)%string]. split.
    + rewrite strtok_word by exact NB. change ("" ++ t)%string with t. destruct C as [-> | ->].
      * cbn [newline strtok_from]. change (is_blank "010") with false. cbv iota. apply strtok_end. apply app_ne. exact NE.
      * rewrite app_nil_s. apply strtok_end. exact NE.
    + constructor; [|constructor]. exists t. split; [exact SH|right; reflexivity].
  - destruct (shows_word e t SH) as [NE NB]. destruct IH as [ts [E F]]. exists (t :: ts). split.
    + rewrite !app_assoc_s. rewrite strtok_word by exact NB. change ("" ++ t)%string with t. rewrite strtok_gap by exact NE. rewrite E. reflexivity.
    + constructor; [|exact F]. exists t. split; [exact SH|left; reflexivity].
Qed.
(** One token. *)
Lemma token_split close e t : token_of close e t -> close = newline \/ close = "" ->
  match e with
  | One v => exists u, split_token t = (1%Z, u) /\ (u = v \/ u = (v ++ close)%string)
  | Many c v n => exists u, split_token t = (n, u) /\ (u = v \/ u = (v ++ close)%string)
  end.
Proof.
  intros [s [SH T]] C. destruct SH as [v [A [B [S _]]]|c v n N L [A [B [S _]]]].
  - exists t. split; [|exact T]. unfold split_token. assert (NS : no_char "*" t = true).
    { apply free_nochar in S. destruct T as [-> | ->]; [exact S|]. rewrite no_char_app, S. destruct C as [-> | ->]; reflexivity. }
    apply strchr_none in NS. rewrite NS. reflexivity.
  - assert (G : forall rest, split_token (c ++ "*" ++ rest) = (n, rest)).
    { intros rest. unfold split_token. assert (E : strchr "*" (c ++ "*" ++ rest)%string = Some (c, ("*" ++ rest)%string)).
      { apply strchr_some. split; [apply (numeral_nochar "*" c n eq_refl N)|]. exists rest. split; reflexivity. }
      rewrite E. cbn [append]. rewrite (numeral_atoi c n N L). reflexivity. }
    destruct T as [-> | ->].
    + exists v. split; [apply G|left; reflexivity].
    + exists (v ++ close)%string. split; [rewrite !app_assoc_s; apply G|right; reflexivity].
Qed.

(** Numbers followed by something else. *)
Lemma digits_rest : forall s acc l c r, digs s = Some l -> digit c = None -> digits acc (s ++ String c r) = (val acc l, String c r).
Proof.
  induction s as [|x s IH]; intros acc l c r D C.
  - injection D as <-. cbn [append digits]. rewrite C. reflexivity.
  - cbn [digs] in D. cbn [append digits]. destruct (digit x) as [d|]; [|discriminate]. destruct (digs s) as [l'|]; [|discriminate]. injection D as <-. rewrite (IH _ l' c r eq_refl C). reflexivity.
Qed.
Lemma atol_rest s v c r : numeral s v -> (v <= LONG_MAX)%Z -> digit c = None -> atol (s ++ String c r) = v.
Proof.
  intros H L C. pose proof (numeral_pos s v H) as P. destruct (numeral_digs s v H) as [l [A [B V]]].
  unfold atol, strtol. destruct s as [|x s]; [cbn in A; injection A as <-; elim B; reflexivity|].
  cbn [digs] in A. destruct (digit x) as [d|] eqn:E; [|discriminate]. destruct (digs s) as [l'|] eqn:R; [|discriminate]. injection A as <-.
  pose proof (digit_inv x d E) as [k [K [X D]]]. cbn [append].
  assert (SP : forall q, skip_space (String x q) = String x q) by (intros q; cbn [skip_space]; subst x; do 10 (destruct k as [|k]; [reflexivity|]); lia).
  assert (U : udigits (String x (s ++ String c r)) = Some (v, String c r)).
  { cbn [udigits]. rewrite E. rewrite (digits_rest s d l' c r R C). subst v. cbn [val fold_left]. replace (10 * 0 + d)%Z with d by lia. reflexivity. }
  rewrite (strtol_nosign x _ (s ++ String c r)) by (try apply SP; subst x; do 10 (destruct k as [|k]; [split; discriminate|]); lia). rewrite U.
  cbn [fst]. unfold saturate. unfold LONG_MIN, LONG_MAX in *. lia.
Qed.
Lemma number_atol s v : number_line s v -> (v <= LONG_MAX)%Z -> atol s = v.
Proof. intros [d [c [r [N [-> C]]]]] L. apply atol_rest; [exact N|exact L|]. destruct C as [-> | ->]; reflexivity. Qed.
Lemma number_atoi s v : number_line s v -> (v < 2147483648)%Z -> atoi s = v.
Proof.
  intros H L. unfold atoi. rewrite (number_atol s v H) by (unfold LONG_MAX; lia). destruct H as [d [c [r [N _]]]]. pose proof (numeral_pos d v N). rewrite Z.mod_small by lia. lia.
Qed.
Lemma number_digit s v : number_line s v -> isdigit s = true.
Proof.
  intros [d [c [r [N [-> _]]]]]. destruct (numeral_digs d v N) as [l [A [B _]]]. destruct d as [|x d]; [cbn in A; injection A as <-; elim B; reflexivity|].
  cbn [append isdigit]. cbn [digs] in A. destruct (digit x); [reflexivity|discriminate].
Qed.
Lemma ends_app t : ends_nl (t ++ newline) = true.
Proof. induction t as [|c t IH]; [reflexivity|]. cbn [append ends_nl]. destruct (t ++ newline)%string eqn:E; [destruct t; discriminate|]. exact IH. Qed.
Lemma ended_nl s : ended s -> ends_nl s = true.
Proof. intros [t ->]. apply ends_app. Qed.
Lemma drop_app t : drop_last (t ++ newline) = Some t.
Proof. induction t as [|c t IH]; [reflexivity|]. cbn [append drop_last]. destruct (t ++ newline)%string eqn:E; [destruct t; discriminate|]. rewrite IH. reflexivity. Qed.
Lemma name_token s name : name_line s name -> strtok is_blank s = [(name ++ newline)%string] \/ exists ts, strtok is_blank s = name :: ts.
Proof.
  intros [NE [NB [NN [_ [_ S]]]]]. apply free_nochar in NB. destruct S as [-> | [r ->]].
  - left. unfold strtok. rewrite strtok_word by exact NB. change ("" ++ name)%string with name. unfold newline at 1. cbn [strtok_from]. change (is_blank "010") with false. cbv iota. apply strtok_end. apply app_ne. exact NE.
  - right. eexists. unfold strtok. rewrite strtok_word by exact NB. change ("" ++ name)%string with name. change (" " ++ r ++ newline)%string with (blanks 1 ++ r ++ newline)%string. rewrite strtok_gap by exact NE. reflexivity.
Qed.

Section Conv.
Context {V : Type}.
Variable conv : Z -> string -> V.
Hypothesis conv_nl : forall ty s, conv ty (s ++ newline)%string = conv ty s.
Lemma conv_close ty v u close : close = newline \/ close = "" -> u = v \/ u = (v ++ close)%string -> conv ty u = conv ty v.
Proof. intros [-> | ->] [-> | ->]; [reflexivity|apply conv_nl|reflexivity|rewrite app_nil_s; reflexivity]. Qed.

Lemma set_at {A} (a b : list A) x v : set (a ++ x :: b) (Z.of_nat (length a)) v = Ret (a ++ v :: b).
Proof.
  unfold set. rewrite app_length. cbn [length]. destruct (Z.leb_spec 0 (Z.of_nat (length a))); [|lia]. destruct (Z.ltb_spec (Z.of_nat (length a)) (Z.of_nat (length a + S (length b)))); [|lia].
  cbn [andb]. rewrite Nat2Z.id, firstn_app, firstn_all, Nat.sub_diag. cbn [firstn]. rewrite app_nil_r. rewrite skipn_app, skipn_all2 by lia. replace (S (length a) - length a)%nat with 1%nat by lia. reflexivity.
Qed.
Lemma store_ok : forall n v (done old : list V) size, size = Z.of_nat (length done + length old) ->
  store n size v (done ++ old) (Z.of_nat (length done)) =
  if Nat.leb n (length old) then Ret (done ++ repeat v n ++ skipn n old, Z.of_nat (length done + n), false)
  else Ret (done ++ repeat v (length old), (size + 1)%Z, true).
Proof.
  induction n as [|n IH]; intros v done old size E.
  - cbn [store Nat.leb repeat skipn app]. rewrite Nat.add_0_r. reflexivity.
  - cbn [store]. destruct old as [|x old]; cbn [length Nat.leb] in *.
    + destruct (Z.ltb_spec (Z.of_nat (length done)) size); [lia|]. cbn [repeat]. do 3 f_equal. lia.
    + destruct (Z.ltb_spec (Z.of_nat (length done)) size); [|lia]. rewrite set_at. cbn [bind].
      replace (done ++ v :: old) with ((done ++ [v]) ++ old) by (rewrite <- app_assoc; reflexivity). replace (Z.of_nat (length done) + 1)%Z with (Z.of_nat (length (done ++ [v]))) by (rewrite app_length; cbn [length]; lia).
      rewrite IH by (rewrite app_length; cbn [length]; lia). rewrite !app_length. cbn [length repeat skipn]. destruct (Nat.leb n (length old)).
      * rewrite <- !app_assoc. cbn [app]. do 3 f_equal. lia.
      * rewrite <- app_assoc. reflexivity.
Qed.
Definition conv_texts ty (l : list string) : list V := map (conv ty) l.
Lemma entry_texts close ty size e t done old : token_of close e t -> close = newline \/ close = "" -> size = Z.of_nat (length done + length old) ->
  (let (n, text) := split_token t in store (Z.to_nat n) size (conv ty text) (done ++ old) (Z.of_nat (length done))) =
  let vs := conv_texts ty (texts e) in
  if Nat.leb (length vs) (length old) then Ret (done ++ vs ++ skipn (length vs) old, Z.of_nat (length done + length vs), false)
  else Ret (done ++ firstn (length old) vs, (size + 1)%Z, true).
Proof.
  intros T C E. pose proof (token_split close e t T C) as S. cbn zeta. unfold conv_texts. rewrite map_length.
  assert (FR : forall (x : V) n m, (n <= m)%nat -> firstn n (repeat x m) = repeat x n).
  { intros x n. induction n as [|n IH]; intros m L; [reflexivity|]. destruct m as [|m]; [lia|]. cbn [repeat firstn]. rewrite IH by lia. reflexivity. }
  assert (MR : forall v m, map (conv ty) (repeat v m) = repeat (conv ty v) m) by (induction m as [|m IH]; [reflexivity|cbn [repeat map]; rewrite IH; reflexivity]).
  destruct e as [v|c v n]; destruct S as [u [-> U]]; rewrite (conv_close ty v u close C U); rewrite store_ok by exact E; cbn [texts].
  - change (Z.to_nat 1) with 1%nat. cbn [repeat map length]. destruct (Nat.leb_spec 1 (length old)); [reflexivity|]. destruct old; [reflexivity|cbn in *; lia].
  - rewrite repeat_length. destruct (Nat.leb_spec (Z.to_nat n) (length old)).
    + rewrite MR. reflexivity.
    + rewrite MR, FR by lia. reflexivity.
Qed.
Lemma tokens_ok close ty size : close = newline \/ close = "" -> forall es ts, Forall2 (token_of close) es ts -> forall done old, size = Z.of_nat (length done + length old) ->
  tokens conv ty size ts (done ++ old) (Z.of_nat (length done)) =
  let vs := conv_texts ty (flat_map texts es) in
  if Nat.leb (length vs) (length old) then Ret (done ++ vs ++ skipn (length vs) old, Z.of_nat (length done + length vs), false)
  else Ret (done ++ firstn (length old) vs, (size + 1)%Z, true).
Proof.
  intros C es ts F. induction F as [|e t es ts T F IH]; intros done old E; cbn [tokens flat_map].
  - cbn [conv_texts map length Nat.leb app skipn]. rewrite Nat.add_0_r. reflexivity.
  - pose proof (entry_texts close ty size e t done old T C E) as H. destruct (split_token t) as [n text]. rewrite H. cbn zeta. clear H.
    set (vs := conv_texts ty (texts e)). unfold conv_texts at 1 2 3 4 5. rewrite map_app, app_length. fold (conv_texts ty (texts e)). fold (conv_texts ty (flat_map texts es)).
    fold vs. set (ws := conv_texts ty (flat_map texts es)).
    destruct (Nat.leb_spec (length vs) (length old)) as [L|L]; cbn [bind].
    + rewrite app_assoc. replace (Z.of_nat (length done + length vs)) with (Z.of_nat (length (done ++ vs))) by (rewrite app_length; lia).
      rewrite IH by (rewrite app_length, skipn_length; lia). cbn zeta. fold ws. rewrite skipn_length, app_length.
      destruct (Nat.leb_spec (length ws) (length old - length vs)), (Nat.leb_spec (length vs + length ws) (length old)); try lia.
      * rewrite <- !app_assoc. do 3 f_equal; [|lia]. do 3 f_equal. clear. assert (SS : forall (l : list V) a b, skipn b (skipn a l) = skipn (a + b) l).
        { intros l a. revert l. induction a as [|a IH]; intros l b; [reflexivity|]. destruct l; [rewrite !skipn_nil; reflexivity|]. apply IH. } apply SS.
      * rewrite firstn_app, (firstn_all2 vs) by lia. rewrite <- app_assoc. reflexivity.
    + destruct (Nat.leb_spec (length vs + length ws) (length old)); [lia|]. rewrite firstn_app. replace (length old - length vs)%nat with 0%nat by lia. cbn [firstn]. rewrite app_nil_r. reflexivity.
Qed.

Lemma set_ok {A} (l : list A) k v : (k < length l)%nat -> exists r, set l (Z.of_nat k) v = Ret r /\ length r = length l /\
  forall j, nth_error r j = if Nat.eqb j k then Some v else nth_error l j.
Proof.
  intros H. assert (S : exists a x b, l = a ++ x :: b /\ length a = k).
  { exists (firstn k l). destruct (skipn k l) as [|x b] eqn:E.
    - apply (f_equal (@length A)) in E. rewrite skipn_length in E. cbn in E. lia.
    - exists x, b. split; [rewrite <- E; symmetry; apply firstn_skipn|rewrite firstn_length; lia]. }
  destruct S as [a [x [b [-> <-]]]]. rewrite set_at. eexists. split; [reflexivity|]. split; [rewrite !app_length; reflexivity|].
  intros j. destruct (Nat.eqb_spec j (length a)) as [->|N].
  - rewrite nth_error_app2, Nat.sub_diag by lia. reflexivity.
  - destruct (Nat.lt_ge_cases j (length a)) as [J|J]; [rewrite !nth_error_app1 by lia; reflexivity|]. rewrite !nth_error_app2 by lia.
    destruct (j - length a)%nat as [|m] eqn:M; [lia|reflexivity].
Qed.
Lemma prefix_close close : close = newline \/ close = "" -> forall p a, no_char "010" p = true -> prefix p a = false -> prefix p (a ++ close) = false.
Proof.
  intros C. induction p as [|c p IH]; intros a N H; [destruct a; discriminate|]. rewrite no_char_cons in N. apply andb_prop in N. destruct N as [N1 N2].
  destruct a as [|x a].
  - cbn [append]. destruct C as [-> | ->]; [|exact H]. unfold newline. cbn [prefix]. destruct (Ascii.ascii_dec c "010") as [->|_]; [discriminate|reflexivity].
  - cbn [append prefix] in *. destruct (Ascii.ascii_dec c x); [|reflexivity]. apply IH; assumption.
Qed.
Lemma at_default {A} (f : string -> A) (b : A) line : prefix "@" line = false -> match line with String "@" t => f t | _ => b end = b.
Proof.
  destruct line as [|c r]; [reflexivity|]. intros H. cbn [prefix] in H. destruct (Ascii.ascii_dec "@" c) as [<-|N]; [destruct r; discriminate|].
  destruct c as [[] [] [] [] [] [] [] []]; try reflexivity. contradiction N; reflexivity.
Qed.
Lemma chop_close t close : close = newline \/ close = "" -> no_char "010" t = true -> chop (t ++ close) = t.
Proof.
  intros C. induction t as [|c t IH]; intros N; [destruct C as [-> | ->]; reflexivity|]. rewrite no_char_cons in N. apply andb_prop in N. destruct N as [N1 N2].
  cbn [append chop]. unfold NL. destruct (Ascii.eqb c "010"); [discriminate|]. rewrite IH by exact N2. reflexivity.
Qed.
Definition open_lines (ls : list string) : bool := existsb (fun l => negb (ends_nl l)) ls.
Lemma lines_ok ty size : forall items ls, Forall2 written items ls -> forall e tail done old desc,
  size = Z.of_nat (length done + length old) -> length desc = (length done + length old)%nat -> notes_after (length done) items ->
  let vs := conv_texts ty (listed items) in
  (exists h r, tail = h :: r /\ hashes h = true) \/ tail = [] ->
  if Nat.leb (length vs) (length old) then
    exists desc', value_lines conv ty size (ls ++ tail) e (done ++ old) desc (Z.of_nat (length done)) =
      Ret (done ++ vs ++ skipn (length vs) old, desc', Z.of_nat (length done + length vs), match tail with h :: _ => Some h | [] => None end,
           match tail with h :: r => mkStream r (e || open_lines (ls ++ [h])) | [] => mkStream [] true end) /\
      length desc' = length desc /\
      forall k, (k < length desc)%nat -> nth_error desc' k = Some (note_on k (length done) items (nth k desc None))
  else exists desc' line f, value_lines conv ty size (ls ++ tail) e (done ++ old) desc (Z.of_nat (length done)) =
      Ret (done ++ firstn (length old) vs, desc', (size + 1)%Z, line, f).
Proof.
  intros items ls F. induction F as [|it l items ls W F IH]; intros e tail done old desc ES ED NA vs TL.
  - subst vs. cbn [listed flat_map conv_texts map length Nat.leb app skipn]. rewrite Nat.add_0_r. exists desc. split; [|split; [reflexivity|]].
    + destruct TL as [[h [r [-> H]]] | ->]; [|reflexivity]. cbn [value_lines app open_lines existsb]. rewrite H, orb_false_r. reflexivity.
    + intros k K. cbn [note_on]. apply nth_error_nth'. exact K.
  - subst vs. inversion W as [k s es close R C NP NH|t close NT C]; subst.
    + assert (LP : prefix "@" (blanks k ++ s ++ close) = false) by (rewrite <- app_assoc_s; apply prefix_close; [exact C|reflexivity|exact NP]).
      assert (LH : hashes (blanks k ++ s ++ close) = false) by (unfold hashes; rewrite <- app_assoc_s; apply prefix_close; [exact C|reflexivity|exact NH]).
      destruct (row_tokens close s es R C) as [ts [TS FT]].
      assert (TK : strtok is_blank (blanks k ++ s ++ close) = ts) by (unfold strtok; rewrite strtok_blanks; exact TS).
      pose proof (tokens_ok close ty (Z.of_nat (length done + length old)) C es ts FT done old eq_refl) as T. cbn zeta in T.
      change (listed (Values es :: items)) with (flat_map texts es ++ listed items). unfold conv_texts. rewrite map_app, app_length. change (map (conv ty) (flat_map texts es)) with (conv_texts ty (flat_map texts es)). change (map (conv ty) (listed items)) with (conv_texts ty (listed items)).
      set (vs := conv_texts ty (flat_map texts es)) in *. set (ws := conv_texts ty (listed items)) in *.
      assert (LV : length vs = length (flat_map texts es)) by (apply map_length).
      cbn [app value_lines notes_after] in *. rewrite LH. rewrite (at_default _ _ _ LP). rewrite TK.
      destruct (Nat.leb_spec (length vs) (length old)) as [L|L].
      * rewrite T. cbn [bind]. rewrite (app_assoc done vs). replace (Z.of_nat (length done + length vs)) with (Z.of_nat (length (done ++ vs))) by (rewrite app_length; reflexivity).
        specialize (IH (e || negb (ends_nl (blanks k ++ s ++ close))) tail (done ++ vs) (skipn (length vs) old) desc).
        rewrite app_length, skipn_length in IH. specialize (IH ltac:(lia) ltac:(lia) ltac:(rewrite LV; exact NA)). cbn zeta in IH. fold ws in IH. specialize (IH TL).
        rewrite app_length.
        destruct (Nat.leb_spec (length ws) (length old - length vs)) as [L2|L2], (Nat.leb_spec (length vs + length ws) (length old)) as [L3|L3]; try lia.
        -- destruct IH as [desc' [E [LD ND]]]. exists desc'. split; [|split; [exact LD|]].
           ++ rewrite E. assert (SS : forall (x : list V) a b, skipn b (skipn a x) = skipn (a + b) x).
              { intros x a. revert x. induction a as [|a IHa]; intros x b; [reflexivity|]. destruct x; [rewrite !skipn_nil; reflexivity|]. apply IHa. }
              rewrite SS, <- !app_assoc, Nat.add_assoc. f_equal. destruct tail as [|h r]; [reflexivity|]. cbn [app open_lines existsb]. rewrite orb_assoc. reflexivity.
           ++ intros j J. rewrite (ND j J). cbn [note_on]. rewrite LV. reflexivity.
        -- destruct IH as [desc' [line [f E]]]. exists desc', line, f. rewrite E. rewrite firstn_app, (firstn_all2 vs) by lia. rewrite <- app_assoc. reflexivity.
      * rewrite T. cbn [bind]. destruct (Nat.leb_spec (length vs + length ws) (length old)); [lia|]. eexists. eexists. eexists.
        rewrite firstn_app. replace (length old - length vs)%nat with 0%nat by lia. cbn [firstn]. rewrite app_nil_r. reflexivity.
    + change (listed (Note t :: items)) with (listed items). cbn [app append value_lines notes_after] in *. destruct NA as [NA0 NA].
      change (hashes (String "@" (t ++ close))) with false. cbv iota. rewrite chop_close by (try exact C; apply free_nochar; exact NT).
      replace (Z.of_nat (length done) - 1)%Z with (Z.of_nat (length done - 1)) by lia.
      destruct (set_ok desc (length done - 1) (Some t)) as [d1 [E1 [L1 N1]]]; [lia|]. rewrite E1. cbn [bind].
      specialize (IH (e || negb (ends_nl (String "@" (t ++ close)))) tail done old d1 eq_refl ltac:(lia) NA). cbn zeta in IH. specialize (IH TL).
      destruct (Nat.leb (length (conv_texts ty (listed items))) (length old)); [|exact IH].
      destruct IH as [desc' [E [LD ND]]]. exists desc'. split; [|split; [lia|]].
      * rewrite E. f_equal. destruct tail as [|h r]; [reflexivity|]. cbn [app open_lines existsb]. rewrite orb_assoc. reflexivity.
      * intros k K. rewrite (ND k) by lia. cbn [note_on]. do 2 f_equal. 
        assert (NE : nth_error d1 k = Some (if Nat.eqb (length done) (S k) then Some t else nth k desc None)).
        { rewrite N1. destruct (Nat.eqb_spec k (length done - 1)), (Nat.eqb_spec (length done) (S k)); try lia; [reflexivity|]. apply nth_error_nth'. exact K. }
        exact (nth_error_nth _ _ None NE).
Qed.

Lemma values_ok p items ls tail e : Forall2 written items ls -> q_size p = Z.of_nat (length (q_vals p)) -> length (q_desc p) = length (q_vals p) -> notes_after 0 items ->
  (exists h r, tail = h :: r /\ hashes h = true) \/ tail = [] ->
  let vs := conv_texts (q_type p) (listed items) in
  exists q line f, read_values conv p (mkStream (ls ++ tail) e) = Ret (match Nat.compare (length vs) (length (q_vals p)) with Lt => 10 | Eq => 0 | Gt => 11 end, q, line, f)%Z /\
    q_name q = q_name p /\ q_dims q = q_dims p /\ q_size q = q_size p /\ q_type q = q_type p /\ q_width q = q_width p /\ q_format q = q_format p /\ q_read q = q_read p /\
    q_vals q = firstn (length (q_vals p)) vs ++ skipn (length vs) (q_vals p) /\
    ((length vs <= length (q_vals p))%nat -> length (q_desc q) = length (q_desc p) /\
      (forall k, (k < length (q_desc p))%nat -> nth_error (q_desc q) k = Some (note_on k 0 items (nth k (q_desc p) None))) /\
      line = match tail with h :: _ => Some h | [] => None end /\ f = match tail with h :: r => mkStream r (e || open_lines (ls ++ [h])) | [] => mkStream [] true end).
Proof.
  intros W S D NA TL vs. pose proof (lines_ok (q_type p) (q_size p) items ls W e tail [] (q_vals p) (q_desc p)) as H. cbn [length Nat.add app] in H. specialize (H S D NA). cbn zeta in H. fold vs in H. specialize (H TL).
  unfold read_values. cbn [lines eof]. change (Z.of_nat 0) with 0%Z in H. destruct (Nat.leb_spec (length vs) (length (q_vals p))) as [L|L].
  - destruct H as [desc' [E [LD ND]]]. rewrite E. cbn [bind].
    assert (CODE : (if (Z.of_nat (length vs) <? q_size p)%Z then 10 else if (Z.of_nat (length vs) >? q_size p)%Z then 11 else 0)%Z = (match Nat.compare (length vs) (length (q_vals p)) with Lt => 10 | Eq => 0 | Gt => 11 end)%Z).
    { rewrite S. destruct (Nat.compare_spec (length vs) (length (q_vals p))), (Z.ltb_spec (Z.of_nat (length vs)) (Z.of_nat (length (q_vals p)))), (Z.gtb_spec (Z.of_nat (length vs)) (Z.of_nat (length (q_vals p)))); try reflexivity; lia. }
    rewrite CODE. eexists. eexists. eexists. split; [reflexivity|].
    cbn [q_name q_dims q_size q_type q_width q_format q_read q_vals q_desc]. repeat (split; [reflexivity|]). split; [rewrite (firstn_all2 vs) by exact L; reflexivity|].
    intros _. split; [exact LD|]. split; [exact ND|]. split; reflexivity.
  - destruct H as [desc' [line [f E]]]. rewrite E. cbn [bind].
    assert (CODE : (if (q_size p + 1 <? q_size p)%Z then 10 else if (q_size p + 1 >? q_size p)%Z then 11 else 0)%Z = (match Nat.compare (length vs) (length (q_vals p)) with Lt => 10 | Eq => 0 | Gt => 11 end)%Z).
    { destruct (Nat.compare_spec (length vs) (length (q_vals p))), (Z.ltb_spec (q_size p + 1) (q_size p)), (Z.gtb_spec (q_size p + 1) (q_size p)); try reflexivity; lia. }
    rewrite CODE. eexists. eexists. eexists. split; [reflexivity|].
    cbn [q_name q_dims q_size q_type q_width q_format q_read q_vals q_desc]. repeat (split; [reflexivity|]). split; [rewrite skipn_all2 by lia; rewrite app_nil_r; reflexivity|]. lia.
Qed.
(** The head. *)
Lemma dims_ok rest e : forall dims ds, Forall2 (fun d l => l = (d ++ newline)%string /\ (String.length d < 49)%nat) dims ds ->
  check_dims (mkStream (ds ++ rest) e) dims = Ret (0%Z, mkStream rest e).
Proof.
  intros dims ds F. induction F as [|d l dims ds [-> L] F IH]; [reflexivity|]. cbn [check_dims app fgets50 lines eof]. unfold fgets50. cbn [lines eof].
  rewrite (proj2 (Nat.ltb_lt (String.length (d ++ newline)) 50)) by (rewrite len_app_s; cbn; lia). rewrite drop_app, String.eqb_refl, ends_app, orb_false_r. exact IH.
Qed.
Lemma head_ok getdim (d : @db V) p name dims size type hl rest e : heading name dims size type hl -> lookup d name = Some p ->
  q_dims p = dims -> q_size p = size -> q_type p = type -> dims <> [] -> (length dims <= 3)%nat -> (0 < size < 2147483648)%Z -> (0 < type < 2147483648)%Z ->
  exists h body p', hl = h :: body /\ hashes h = true /\ ends_nl h = true /\
    read_head getdim d (mkStream (body ++ rest) e) = Ret (HRead (update (update d p') p') name (mkStream rest e)) /\
    q_name p' = q_name p /\ q_dims p' = q_dims p /\ q_size p' = q_size p /\ q_type p' = q_type p /\ q_vals p' = q_vals p /\ q_desc p' = q_desc p /\ q_read p' = true.
Proof.
  intros H LK QD QS QT DN D3 SZ TY. destruct H as [h k n ds z t HH HE KL NL0 NE DL ZL ZE TL TE].
  exists h, (k :: n :: ds ++ [z; t]). 
  set (ts := strtok is_blank k).
  assert (TK : exists x xs, ts = x :: xs /\ chop x = name).
  { destruct (name_token k name KL) as [E|[xs E]]; unfold ts; rewrite E.
    - eexists. eexists. split; [reflexivity|]. apply chop_close; [left; reflexivity|]. apply free_nochar. apply KL.
    - eexists. eexists. split; [reflexivity|]. rewrite <- (app_nil_s name) at 1. apply chop_close; [right; reflexivity|]. apply free_nochar. apply KL. }
  destruct TK as [x [xs [TS CX]]].
  assert (KE : ends_nl k = true).
  { destruct KL as [_ [_ [_ [_ [_ [-> | [r ->]]]]]]]; [apply ends_app|]. replace (name ++ " " ++ r ++ newline)%string with ((name ++ " " ++ r) ++ newline)%string by (rewrite !app_assoc_s; reflexivity). apply ends_app. }
  assert (KN : (String.length name < 50)%nat) by apply KL.
  exists (mkParam (q_name p) (q_dims p) (q_size p) (q_type p) (q_vals p) (q_desc p) (match xs with w :: _ => atoi w | [] => 0 end)%Z
            (match xs with _ :: y :: _ => if Nat.ltb (String.length y) 2 then None else drop_last y | _ => None end) true).
  split; [reflexivity|]. split; [exact HH|]. split; [apply ended_nl; exact HE|]. split; [|repeat split].
  cbn [app]. unfold read_head, fgets. cbn [lines eof]. fold ts. rewrite TS, CX, KE, orb_false_r. rewrite (proj2 (Nat.ltb_lt _ _) KN). cbn [negb]. rewrite LK. cbn [lines eof].
  rewrite (ended_nl n NE), orb_false_r, (number_digit n _ NL0). cbn [q_dims q_size q_type].
  rewrite (number_atol n _ NL0) by (unfold LONG_MAX; lia). rewrite QD. rewrite Z.eqb_refl. cbn [negb].
  destruct (Z.eqb_spec (Z.of_nat (length dims)) 0) as [C|_]; [destruct dims; [contradiction|cbn in C; lia]|].
  rewrite <- app_assoc. rewrite (dims_ok _ _ dims ds DL). cbn [bind app lines eof]. rewrite (ended_nl z ZE), orb_false_r. rewrite (number_atoi z _ ZL) by lia.
  destruct (Z.eqb_spec size 0) as [C|_]; [lia|]. rewrite QS, Z.eqb_refl. cbn [negb bind lines eof q_type]. rewrite (ended_nl t TE), orb_false_r. rewrite (number_atoi t _ TL) by lia.
  destruct (Z.eqb_spec type 0) as [C|_]; [lia|]. rewrite QT, Z.eqb_refl. cbn [negb]. reflexivity.
Qed.

(** The data base. *)
Lemma lookup_name (d : @db V) n p : lookup d n = Some p -> q_name p = n.
Proof. intros H. apply find_some in H. destruct H as [_ H]. apply String.eqb_eq in H. exact H. Qed.
Lemma lookup_update (d : @db V) p n : lookup (update d p) n = if String.eqb (q_name p) n then match lookup d n with Some _ => Some p | None => None end else lookup d n.
Proof.
  induction d as [|q d IH]; cbn [update lookup find]; [destruct (String.eqb (q_name p) n); reflexivity|].
  destruct (String.eqb_spec (q_name q) (q_name p)) as [E|E]; cbn [lookup find].
  - rewrite E. destruct (String.eqb (q_name p) n); reflexivity.
  - fold (lookup (update d p) n). fold (lookup d n). destruct (String.eqb_spec (q_name q) n) as [F|F]; destruct (String.eqb_spec (q_name p) n) as [G|G]; [congruence|reflexivity| |].
    + rewrite IH. destruct (String.eqb_spec (q_name p) n); [reflexivity|contradiction].
    + rewrite IH. destruct (String.eqb_spec (q_name p) n); [contradiction|reflexivity].
Qed.
Definition agrees (d : @db V) (sig : string -> option (list string * Z * Z)) : Prop := forall n,
  match lookup d n with
  | Some p => sig n = Some (q_dims p, q_size p, q_type p) /\ q_size p = Z.of_nat (length (q_vals p)) /\ length (q_desc p) = length (q_vals p)
  | None => sig n = None
  end.
Lemma agrees_update d sig p q n : agrees d sig -> lookup d n = Some p -> q_name q = n -> q_dims q = q_dims p -> q_size q = q_size p -> q_type q = q_type p ->
  length (q_vals q) = length (q_vals p) -> length (q_desc q) = length (q_desc p) -> agrees (update d q) sig.
Proof.
  intros A L N D S T LV LD m. rewrite lookup_update, N. destruct (String.eqb_spec n m) as [<-|NE]; [|apply A]. rewrite L. specialize (A n). rewrite L in A. rewrite D, S, T, LV, LD. exact A.
Qed.
Lemma skip_ok : forall junk h r e, Forall (fun l => prefix "####" l = false) junk -> prefix "####" h = true -> skip_to (junk ++ h :: r) e = Some (mkStream r (e || open_lines (junk ++ [h]))).
Proof.
  induction junk as [|x junk IH]; intros h r e F H; cbn [app skip_to].
  - unfold hashes. rewrite H. cbn [open_lines existsb]. rewrite orb_false_r. reflexivity.
  - inversion F as [|? ? X F']; subst. unfold hashes. rewrite X. rewrite IH by assumption. cbn [open_lines existsb]. rewrite orb_assoc. reflexivity.
Qed.
Lemma open_ended ls : Forall ended ls -> open_lines ls = false.
Proof. intros H. induction H as [|l ls E H IH]; [reflexivity|]. cbn [open_lines existsb]. rewrite (ended_nl l E). exact IH. Qed.
Lemma cut_first s name : name <> "" -> free_of " " name -> (exists r, s = (name ++ r)%string) -> forall t, cut_token s t = t.
Proof.
  intros NE NB [r ->] t. apply free_nochar in NB. destruct name as [|c name]; [contradiction|]. rewrite no_char_cons in NB. apply andb_prop in NB. destruct NB as [NB _]. cbn [append cut_token]. unfold is_blank. destruct (Ascii.eqb c " "); [discriminate|reflexivity].
Qed.
Lemma head_unknown getdim (d : @db V) k name f : name_line k name -> lookup d name = None ->
  read_head getdim d (mkStream (k :: f) false) = Ret (HSkip d name (mkStream f false)).
Proof.
  intros KL LK.
  assert (TK : exists x xs, strtok is_blank k = x :: xs /\ chop x = name).
  { destruct (name_token k name KL) as [E|[xs E]]; rewrite E.
    - eexists. eexists. split; [reflexivity|]. apply chop_close; [left; reflexivity|]. apply free_nochar. apply KL.
    - eexists. eexists. split; [reflexivity|]. rewrite <- (app_nil_s name) at 1. apply chop_close; [right; reflexivity|]. apply free_nochar. apply KL. }
  destruct TK as [x [xs [TS CX]]].
  assert (KE : ends_nl k = true).
  { destruct KL as [_ [_ [_ [_ [_ [-> | [r ->]]]]]]]; [apply ends_app|]. replace (name ++ " " ++ r ++ newline)%string with ((name ++ " " ++ r) ++ newline)%string by (rewrite !app_assoc_s; reflexivity). apply ends_app. }
  assert (CT : cut_token k name = name).
  { apply (cut_first k name); [apply KL|apply KL|]. destruct KL as [_ [_ [_ [_ [_ [-> | [r ->]]]]]]]; eexists; reflexivity. }
  unfold read_head, fgets. cbn [lines eof orb]. rewrite TS, CX, KE. rewrite (proj2 (Nat.ltb_lt _ _)) by apply KL. cbn [negb]. rewrite LK, CT. reflexivity.
Qed.
Lemma regular_cons b bs ls lss : regular (b :: bs) (ls :: lss) -> bs <> [] -> Forall ended ls /\ regular bs lss.
Proof. intros H N. destruct bs as [|b2 bs]; [contradiction|]. destruct b; exact H. Qed.
Lemma block_head sig b ls : block_lines sig b ls -> exists h r, ls = h :: r /\ hashes h = true /\ ended h.
Proof.
  intros H. destruct H as [name items dims size type hl vl SG D0 D3 SZ TY HD W LN NA|name h k body SG HH HE KL HB].
  - destruct HD as [h k n ds z t HH HE KL NL0 NE DL ZL ZE TL TE]. exists h. eexists. split; [reflexivity|]. split; assumption.
  - exists h. eexists. split; [reflexivity|]. split; assumption.
Qed.
Lemma rounds_ok getdim sig : forall bs lss, Forall2 (block_lines sig) bs lss -> forall n (d : @db V) line f junk, regular bs lss -> agrees d sig -> (length bs < n)%nat ->
  eof f = false -> line :: lines f = junk ++ concat lss -> Forall (fun l => prefix "####" l = false) junk -> (forall x y, junk = x :: y -> Forall ended y) ->
  exists d', rounds conv getdim n d line f = Ret (0%Z, d') /\ agrees d' sig /\
    forall name, match last_block name bs with
      | None => lookup d' name = lookup d name
      | Some items => exists q, lookup d' name = Some q /\ q_vals q = map (conv (q_type q)) (listed items) /\ q_read q = true
      end.
Proof.
  intros bs lss F. induction F as [|b ls bs lss B F IH]; intros n d line f junk RG AG N E LN JK JE; [destruct RG|].
  destruct n as [|n]; [cbn in N; lia|]. cbn [length] in N. cbn [rounds]. rewrite E.
  destruct (block_head sig b ls B) as [h0 [r0 [LS0 [HH0 HE0]]]].
  assert (SK : (if hashes line then Some f else skip_to (lines f) false) = Some (mkStream (r0 ++ concat lss) false)).
  { destruct junk as [|x junk].
    - cbn [app concat] in LN. rewrite LS0 in LN. cbn [app] in LN. injection LN as L1 L2. rewrite L1, HH0. destruct f as [fl fe]. cbn [lines eof] in *. rewrite L2, E. reflexivity.
    - cbn [app concat] in LN. injection LN as L1 L2. inversion JK as [|? ? X JK']; subst x. unfold hashes. rewrite X. rewrite L2, LS0. cbn [app]. rewrite skip_ok by assumption. cbn [orb].
      rewrite open_ended; [reflexivity|]. apply Forall_app. split; [apply (JE line junk eq_refl)|]. constructor; [exact HE0|constructor]. }
  rewrite SK. clear SK. destruct B as [name items dims size type hl vl SG D0 D3 SZ TY HD W LL NA|name h k body SG HH HE KL HB].
  - pose proof (AG name) as AN. destruct (lookup d name) as [p|] eqn:LK; [|congruence]. destruct AN as [S1 [S2 S3]]. rewrite SG in S1. injection S1 as S4 S5 S6.
    destruct (head_ok getdim d p name dims size type hl (vl ++ concat lss) false HD LK (eq_sym S4) (eq_sym S5) (eq_sym S6) D0 D3 SZ TY) as [h [body [p' [HL [_ [_ [RH [P1 [P2 [P3 [P4 [P5 [P6 P7]]]]]]]]]]]]].
    rewrite HL in LS0. cbn [app] in LS0. injection LS0 as _ LS0. rewrite <- LS0, <- app_assoc. rewrite RH. cbn [bind].
    assert (PN : q_name p' = name) by (rewrite P1; apply (lookup_name d name p LK)).
    set (d1 := update (update d p') p').
    assert (L1 : forall m, lookup d1 m = if String.eqb name m then Some p' else lookup d m).
    { intros m. unfold d1. rewrite !lookup_update, PN. destruct (String.eqb_spec name m) as [<-|_]; [rewrite LK; reflexivity|reflexivity]. }
    rewrite L1, String.eqb_refl.
    assert (A1 : agrees d1 sig).
    { intros m. rewrite L1. destruct (String.eqb_spec name m) as [<-|_]; [|apply AG]. rewrite P2, P3, P4, P5, P6. split; [rewrite SG, S4, S5, S6; reflexivity|]. split; assumption. }
    destruct (values_ok p' items vl (concat lss) false W) as [q [line' [f' [RV [Q1 [Q2 [Q3 [Q4 [_ [_ [Q5 [QV QD]]]]]]]]]]]].
    { rewrite P3, P5. exact S2. } { rewrite P5, P6. exact S3. } { exact NA. }
    { destruct F as [|b2 ls2 bs lss B2 F]; [right; reflexivity|]. destruct (block_head sig b2 ls2 B2) as [h2 [r2 [-> [HH2 _]]]]. left. exists h2. eexists. split; [reflexivity|exact HH2]. }
    rewrite RV. cbn [bind]. cbn zeta in *.
    assert (LV : length (conv_texts (q_type p') (listed items)) = length (q_vals p')) by (unfold conv_texts; rewrite map_length, P5; lia).
    rewrite LV, Nat.compare_refl. change (0 =? 0)%Z with true. cbv iota.
    destruct (QD ltac:(lia)) as [QD1 [_ [QL QF]]]. clear QD.
    assert (QVE : q_vals q = map (conv (q_type q)) (listed items)).
    { rewrite QV, Q4. unfold conv_texts in LV |- *. rewrite firstn_all2 by lia. rewrite skipn_all2 by lia. apply app_nil_r. }
    assert (QN : q_name q = name) by (rewrite Q1; exact PN).
    set (d2 := update d1 q).
    assert (L2 : forall m, lookup d2 m = if String.eqb name m then Some q else lookup d m).
    { intros m. unfold d2. rewrite lookup_update, QN, L1. destruct (String.eqb name m); reflexivity. }
    assert (A2 : agrees d2 sig).
    { unfold d2. apply (agrees_update d1 sig p' q name A1); [rewrite L1, String.eqb_refl; reflexivity|exact QN|exact Q2|exact Q3|exact Q4| |exact QD1]. rewrite QVE. unfold conv_texts in LV. rewrite map_length in *. exact LV. }
    destruct F as [|b2 ls2 bs lss B2 F].
    + cbn [concat] in QL, QF. subst line' f'. destruct n as [|n]; [cbn in N; lia|]. cbn [rounds eof]. exists d2. split; [reflexivity|]. split; [exact A2|].
      intros m. cbn [last_block]. destruct (String.eqb_spec name m) as [<-|NE]; [exists q; split; [rewrite L2, String.eqb_refl; reflexivity|split; [exact QVE|rewrite Q5; exact P7]]|].
      rewrite L2. destruct (String.eqb_spec name m); [contradiction|reflexivity].
    + destruct (block_head sig b2 ls2 B2) as [h2 [r2 [EL2 [HH2 HE2]]]]. destruct (regular_cons _ _ _ _ RG ltac:(discriminate)) as [RE RG'].
      rewrite EL2 in QL, QF. cbn [concat app] in QL, QF. subst line' f'. 
      destruct (IH n d2 h2 (mkStream (r2 ++ concat lss) (false || open_lines (vl ++ [h2]))) [] RG' A2 ltac:(cbn [length] in *; lia)) as [d' [R' [A' K']]].
      { cbn [eof orb]. apply open_ended. apply Forall_app in RE. destruct RE as [_ RE]. apply Forall_app. split; [exact RE|]. constructor; [exact HE2|constructor]. }
      { cbn [lines app concat]. rewrite EL2. reflexivity. } { constructor. } { discriminate. }
      exists d'. split; [exact R'|]. split; [exact A'|]. intros m. specialize (K' m). cbn [last_block] in *. 
      destruct (match last_block m bs with Some i => Some i | None => _ end) as [i|] eqn:LB; [exact K'|].
      destruct (String.eqb_spec name m) as [<-|NE]; [exists q; split; [rewrite K', L2, String.eqb_refl; reflexivity|split; [exact QVE|rewrite Q5; exact P7]]|].
      rewrite K', L2. destruct (String.eqb_spec name m); [contradiction|reflexivity].
  - injection LS0 as <- <-. cbn [app]. pose proof (AG name) as AN. destruct (lookup d name) as [p|] eqn:LK; [destruct AN as [AN _]; congruence|].
    rewrite (head_unknown getdim d k name _ KL LK). cbn [bind].
    destruct F as [|b2 ls2 bs lss B2 F]; [destruct RG as [_ []]|]. destruct (regular_cons _ _ _ _ RG ltac:(discriminate)) as [RE RG'].
    inversion RE as [|? ? _ RE2]; subst. inversion RE2 as [|? ? _ RE3]; subst.
    destruct (IH n d name (mkStream (body ++ concat (ls2 :: lss)) false) (name :: body) RG' AG ltac:(cbn [length] in *; lia)) as [d' [R' [A' K']]].
    { reflexivity. } { reflexivity. } { constructor; [apply KL|exact HB]. } { intros x y XY. injection XY as _ <-. exact RE3. }
    exists d'. split; [exact R'|]. split; [exact A'|]. intros m. specialize (K' m). cbn [last_block] in *.
    destruct (match last_block m bs with Some i => Some i | None => _ end) as [i|] eqn:LB; exact K'.
Qed.
End Conv.

(** atoi does not see a newline at the end. *)
Lemma digits_nl : forall s acc, fst (digits acc (s ++ newline)%string) = fst (digits acc s).
Proof.
  induction s as [|c s IH]; intros acc; [reflexivity|]. cbn [append digits]. destruct (digit c); [apply IH|reflexivity].
Qed.
Lemma skip_space_nl : forall s, skip_space (s ++ newline)%string = (if String.eqb (skip_space s) "" then "" else skip_space s ++ newline)%string.
Proof.
  induction s as [|c s IH]; [reflexivity|]. cbn [append skip_space]. destruct (is_space c); [exact IH|]. reflexivity.
Qed.
Lemma udigits_nl r : option_map fst (udigits (r ++ newline)%string) = option_map fst (udigits r).
Proof.
  destruct r as [|c r]; [reflexivity|]. cbn [append udigits]. destruct (digit c); [|reflexivity]. cbn [option_map]. f_equal. apply digits_nl.
Qed.
Definition val_of (o : option (Z * string)) : Z := match o with Some (v, _) => v | None => 0%Z end.
Lemma raw_val s : fst (strtol_raw s) = match skip_space s with
  | String c r => if Ascii.eqb c "-" then (- val_of (udigits r))%Z else if Ascii.eqb c "+" then val_of (udigits r) else val_of (udigits (String c r))
  | EmptyString => 0%Z end.
Proof.
  unfold strtol_raw. destruct (skip_space s) as [|c r]; [reflexivity|].
  assert (X : forall A (f g h : string -> A), match String c r with String "-" r => f r | String "+" r => g r | r => h r end = if Ascii.eqb c "-" then f r else if Ascii.eqb c "+" then g r else h (String c r)).
  { intros A f g h. destruct c as [[] [] [] [] [] [] [] []]; reflexivity. }
  rewrite (X (Z * string)%type (fun r => match udigits r with Some (v, e) => ((- v)%Z, e) | None => (0%Z, s) end)
    (fun r => match udigits r with Some (v, e) => (v, e) | None => (0%Z, s) end) (fun r => match udigits r with Some (v, e) => (v, e) | None => (0%Z, s) end)). clear X.
  destruct (Ascii.eqb c "-"); [|destruct (Ascii.eqb c "+")]; unfold val_of; destruct (udigits _) as [[v e]|]; reflexivity.
Qed.
Lemma val_nl r : val_of (udigits (r ++ newline)%string) = val_of (udigits r).
Proof.
  pose proof (udigits_nl r) as H. unfold val_of. destruct (udigits (r ++ newline)%string) as [[v e]|], (udigits r) as [[v' e']|]; cbn [option_map fst] in H; congruence.
Qed.
Lemma atoi_nl s : atoi (s ++ newline)%string = atoi s.
Proof.
  assert (H : fst (strtol_raw (s ++ newline)%string) = fst (strtol_raw s)).
  { rewrite !raw_val, skip_space_nl. destruct (skip_space s) as [|c r]; [reflexivity|]. change (String.eqb (String c r) "") with false. cbn [append].
    rewrite val_nl. change (udigits (String c (r ++ newline))) with (udigits (String c r ++ newline)%string). rewrite val_nl. reflexivity. }
  unfold atoi, atol, strtol. destruct (strtol_raw (s ++ newline)%string) as [a b], (strtol_raw s) as [a' b']. cbn [fst] in *. congruence.
Qed.
(** The lines save_params writes for the values. *)
Lemma saved_tokens t : plain t -> strtok is_blank (t ++ " " ++ nl)%string = [t; nl].
Proof.
  intros [NE [NB _]]. apply free_nochar in NB. unfold strtok. rewrite strtok_word by exact NB. change ("" ++ t)%string with t. change (" " ++ nl)%string with (blanks 1 ++ nl)%string. rewrite strtok_gap by exact NE. reflexivity.
Qed.
Lemma plain_split t : plain t -> split_token t = (1%Z, t).
Proof.
  intros [_ [_ [NS _]]]. apply free_nochar in NS. unfold split_token. apply strchr_none in NS. rewrite NS. reflexivity.
Qed.
Section Saved.
Context {V : Type}.
Variable conv : Z -> string -> V.
Variable show : Z -> V -> string.
Definition showable (t : string) : Prop := plain t /\ prefix "@" t = false /\ prefix "#" t = false.
Lemma saved_line ty size v done old : showable (show ty v) -> size = Z.of_nat (length done + length old) ->
  hashes (show ty v ++ " " ++ nl)%string = false /\ prefix "@" (show ty v ++ " " ++ nl)%string = false /\
  tokens conv ty size (strtok is_blank (show ty v ++ " " ++ nl)%string) (done ++ old) (Z.of_nat (length done)) =
  match old with
  | [] => Ret (done, (size + 1)%Z, true)
  | [_] => Ret (done ++ [conv ty (show ty v)], (size + 1)%Z, true)
  | _ :: _ :: old => Ret ((done ++ [conv ty (show ty v); conv ty nl]) ++ old, Z.of_nat (length (done ++ [conv ty (show ty v); conv ty nl])), false)
  end.
Proof.
  intros [PL [NA NH]] SZ. split; [|split].
  - destruct (show ty v) as [|c r]; [destruct PL as [H _]; contradiction|]. cbn [prefix append] in *. unfold hashes. cbn [prefix]. destruct (Ascii.ascii_dec "#" c) as [<-|N]; [destruct r; discriminate|reflexivity].
  - destruct (show ty v) as [|c r]; [destruct PL as [H _]; contradiction|]. cbn [prefix append] in *. destruct (Ascii.ascii_dec "@" c) as [<-|N]; [destruct r; discriminate|reflexivity].
  - rewrite (saved_tokens _ PL). cbn [tokens]. rewrite (plain_split _ PL). change (Z.to_nat 1) with 1%nat.
    pose proof (store_ok 1 (conv ty (show ty v)) done old size SZ) as S1. rewrite S1. destruct old as [|a old].
    + cbn [Nat.leb length bind repeat]. rewrite !app_nil_r. reflexivity.
    + cbn [Nat.leb length bind repeat skipn app]. change (split_token nl) with (1%Z, nl). cbv iota beta. change (Z.to_nat 1) with 1%nat.
      replace (done ++ conv ty (show ty v) :: old) with ((done ++ [conv ty (show ty v)]) ++ old) by (rewrite <- app_assoc; reflexivity).
      replace (Z.of_nat (length done + 1)) with (Z.of_nat (length (done ++ [conv ty (show ty v)]))) by (rewrite app_length; reflexivity).
      rewrite (store_ok 1 (conv ty nl) (done ++ [conv ty (show ty v)]) old size) by (rewrite app_length; cbn [length] in *; lia).
      destruct old as [|b old]; cbn [Nat.leb length bind repeat skipn app].
      * rewrite app_nil_r. reflexivity.
      * rewrite <- !app_assoc. cbn [app]. rewrite !app_length. cbn [length]. rewrite <- Nat.add_assoc. reflexivity.
Qed.
Lemma saved_lines ty : forall vals, Forall (fun v => showable (show ty v)) vals -> forall desc, length desc = length vals -> forall e done old notes size,
  size = Z.of_nat (length done + length old) -> length notes = (length done + length old)%nat -> (length old < 2 * length vals)%nat ->
  exists arr notes' line f, value_lines conv ty size (save_values show ty vals desc) e (done ++ old) notes (Z.of_nat (length done)) = Ret (arr, notes', (size + 1)%Z, line, f).
Proof.
  induction vals as [|v vals IH]; intros SH desc LD e done old notes size SZ LN LT; [cbn in LT; lia|].
  inversion SH as [|? ? SV SH']; subst x l. destruct desc as [|d desc]; [discriminate|]. cbn [length] in *. cbn [save_values value_lines].
  destruct (saved_line ty size v done old SV SZ) as [H1 [H2 H3]]. rewrite H1. rewrite at_default by exact H2. rewrite H3. clear H1 H2 H3.
  destruct old as [|a [|b old]]; cbn [bind]; [eexists; eexists; eexists; eexists; reflexivity..|].
  set (done' := done ++ [conv ty (show ty v); conv ty nl]).
  assert (LD' : length done' = (length done + 2)%nat) by (unfold done'; rewrite app_length; reflexivity).
  cbn [length] in *.
  assert (SZ' : size = Z.of_nat (length done' + length old)) by lia.
  generalize (e || negb (ends_nl (show ty v ++ " " ++ nl)%string)). intros e1.
  assert (NOTE : exists notes1 e2, length notes1 = length notes /\
    value_lines conv ty size (match d with Some t => if String.eqb t "" then [] else [("@" ++ t ++ nl)%string] | None => [] end ++ save_values show ty vals desc) e1 (done' ++ old) notes (Z.of_nat (length done')) =
    value_lines conv ty size (save_values show ty vals desc) e2 (done' ++ old) notes1 (Z.of_nat (length done'))).
  { destruct d as [t|]; [|exists notes, e1; split; reflexivity]. destruct (String.eqb t ""); [exists notes, e1; split; reflexivity|].
    destruct (set_ok notes (length done' - 1) (Some (chop (t ++ nl)))) as [r [SR [LR _]]]; [lia|].
    exists r. eexists. split; [exact LR|]. cbn [app value_lines append]. change (hashes (String "@" (t ++ nl))) with false. cbv iota.
    replace (Z.of_nat (length done') - 1)%Z with (Z.of_nat (length done' - 1)) by lia. rewrite SR. cbn [bind]. reflexivity. }
  destruct NOTE as [notes1 [e2 [LN1 ->]]]. apply IH; [exact SH'|lia|exact SZ'|lia|lia].
Qed.
End Saved.
