From Coq Require Import String Ascii List ZArith NArith Nnat Bool Lia ZifyBool.
From Verif Require Import CStr_Model CNum_Model Elem_Model Elem_Spec.
Import ListNotations.
Local Open Scope string_scope.
Local Open Scope list_scope.
Local Open Scope Z_scope.

Lemma app_nil_s (s : string) : (s ++ "")%string = s.
Proof. induction s as [|c s IH]; [reflexivity|]. cbn. rewrite IH. reflexivity. Qed.
Lemma app_assoc_s (a b c : string) : ((a ++ b) ++ c = a ++ b ++ c)%string.
Proof. induction a as [|x a IH]; [reflexivity|]. cbn. rewrite IH. reflexivity. Qed.
Lemma len_app_s (a b : string) : String.length (a ++ b) = (String.length a + String.length b)%nat.
Proof. induction a as [|x a IH]; [reflexivity|]. cbn. rewrite IH. reflexivity. Qed.

(** Digits. *)
Lemma digit_char d : (d <= 9)%nat -> digit (ascii_of_nat (48 + d)) = Some (Z.of_nat d).
Proof. intros H. do 10 (destruct d as [|d]; [reflexivity|]). lia. Qed.
Lemma digit_inv c v : digit c = Some v -> exists d, (d <= 9)%nat /\ c = ascii_of_nat (48 + d) /\ v = Z.of_nat d.
Proof.
  unfold digit. destruct ((48 <=? N_of_ascii c)%N && (N_of_ascii c <=? 57)%N) eqn:E; [|discriminate]. intros H. injection H as <-.
  apply andb_prop in E. destruct E as [A B]. exists (N.to_nat (N_of_ascii c) - 48)%nat. repeat split; try lia.
  replace (48 + (N.to_nat (N_of_ascii c) - 48))%nat with (N.to_nat (N_of_ascii c)) by lia.
  unfold ascii_of_nat. rewrite N2Nat.id. symmetry. apply ascii_N_embedding.
Qed.
Fixpoint digs (s : string) : option (list Z) :=
  match s with
  | EmptyString => Some []
  | String c r => match digit c, digs r with Some d, Some l => Some (d :: l) | _, _ => None end
  end.
Definition val (acc : Z) (l : list Z) : Z := fold_left (fun a d => 10 * a + d) l acc.
Lemma digs_app a b : digs (a ++ b) = match digs a, digs b with Some x, Some y => Some (x ++ y) | _, _ => None end.
Proof.
  induction a as [|c a IH]; cbn [digs append]; [destruct (digs b); reflexivity|]. rewrite IH.
  destruct (digit c), (digs a), (digs b); reflexivity.
Qed.
Lemma val_app acc a b : val acc (a ++ b) = val (val acc a) b.
Proof. apply fold_left_app. Qed.
Lemma numeral_digs s v : numeral s v -> exists l, digs s = Some l /\ l <> [] /\ v = val 0 l.
Proof.
  intros H. induction H as [d H|s v d H [l [A [B C]]] K].
  - exists [Z.of_nat d]. cbn [digs]. rewrite digit_char by exact H. repeat split; discriminate.
  - exists (l ++ [Z.of_nat d]). rewrite digs_app, A. cbn [digs]. rewrite digit_char by exact K. repeat split; [destruct l; discriminate|]. rewrite val_app, C. reflexivity.
Qed.
Lemma digs_numeral : forall l s, digs s = Some l -> l <> [] -> numeral s (val 0 l).
Proof.
  assert (G : forall r s0 v0 l, numeral s0 v0 -> digs r = Some l -> numeral (s0 ++ r) (val v0 l)).
  { induction r as [|c r IH]; intros s0 v0 l N D; cbn [digs] in D.
    - injection D as <-. rewrite app_nil_s. exact N.
    - destruct (digit c) as [d|] eqn:E; [|discriminate]. destruct (digs r) as [l'|]; [|discriminate]. injection D as <-.
      apply digit_inv in E. destruct E as [k [K [-> ->]]]. cbn [val fold_left].
      replace (s0 ++ String (ascii_of_nat (48 + k)) r)%string with ((s0 ++ String (ascii_of_nat (48 + k)) "") ++ r)%string by (rewrite app_assoc_s; reflexivity).
      apply IH; [apply num_more; assumption|reflexivity]. }
  intros l s D N. destruct s as [|c r]; cbn [digs] in D; [injection D as <-; elim N; reflexivity|].
  destruct (digit c) as [d|] eqn:E; [|discriminate]. destruct (digs r) as [l'|] eqn:R; [|discriminate]. injection D as <-.
  apply digit_inv in E. destruct E as [k [K [-> ->]]]. cbn [val fold_left].
  replace (10 * 0 + Z.of_nat k) with (Z.of_nat k) by lia. apply (G r (String (ascii_of_nat (48 + k)) "") (Z.of_nat k) l'); [apply num_digit; exact K|exact R].
Qed.
Lemma all_digits_digs s : all_digits s = true <-> exists l, digs s = Some l /\ l <> [].
Proof.
  induction s as [|c s IH]; [split; [discriminate|intros [l [A B]]; cbn in A; injection A as <-; elim B; reflexivity]|].
  cbn [all_digits digs]. destruct s as [|c' s].
  - destruct (digit c) as [d|]; [|split; [discriminate|intros [l [A _]]; discriminate]]. split; [intros _; exists [d]; split; [reflexivity|discriminate]|reflexivity].
  - destruct (digit c) as [d|]; [|split; [discriminate|intros [l [A _]]; discriminate]]. rewrite IH. split.
    + intros [l [A B]]. exists (d :: l). rewrite A. split; [reflexivity|discriminate].
    + intros [l [A B]]. destruct (digs (String c' s)) as [l'|] eqn:E; [|discriminate]. exists l'. split; [reflexivity|].
      intros ->. cbn [digs] in E. destruct (digit c'); [|discriminate]. destruct (digs s); discriminate.
Qed.
Lemma all_digits_numeral s : all_digits s = true <-> exists v, numeral s v.
Proof.
  rewrite all_digits_digs. split.
  - intros [l [A B]]. exists (val 0 l). apply digs_numeral; assumption.
  - intros [v H]. destruct (numeral_digs s v H) as [l [A [B _]]]. exists l. split; assumption.
Qed.
Lemma digits_digs : forall s acc l, digs s = Some l -> digits acc s = (val acc l, "").
Proof.
  induction s as [|c s IH]; intros acc l D; cbn [digs digits] in *; [injection D as <-; reflexivity|].
  destruct (digit c) as [d|]; [|discriminate]. destruct (digs s) as [l'|]; [|discriminate]. injection D as <-. rewrite (IH _ l' eq_refl). reflexivity.
Qed.
Lemma val_nonneg : forall l acc, 0 <= acc -> Forall (fun d => 0 <= d) l -> 0 <= val acc l.
Proof. induction l as [|d l IH]; intros acc H F; [exact H|]. inversion F as [|? ? D F2]; subst. apply (IH (10 * acc + d)); [lia|exact F2]. Qed.
Lemma digs_pos s l : digs s = Some l -> Forall (fun d => 0 <= d) l.
Proof.
  revert l. induction s as [|c s IH]; intros l D; cbn [digs] in D; [injection D as <-; constructor|].
  destruct (digit c) as [d|] eqn:E; [|discriminate]. destruct (digs s) as [l'|]; [|discriminate]. injection D as <-.
  apply digit_inv in E. destruct E as [k [_ [_ ->]]]. constructor; [lia|apply IH; reflexivity].
Qed.
Lemma numeral_pos s v : numeral s v -> 0 <= v.
Proof. intros H. destruct (numeral_digs s v H) as [l [A [_ ->]]]. apply val_nonneg; [lia|exact (digs_pos s l A)]. Qed.
Lemma strtol_nosign c (s r : string) : c <> "-"%char /\ c <> "+"%char -> skip_space s = String c r ->
  strtol_raw s = match udigits (String c r) with Some (v, e) => (v, e) | None => (0, s) end.
Proof.
  intros [A B] H. unfold strtol_raw. rewrite H. clear H. destruct c as [b0 b1 b2 b3 b4 b5 b6 b7].
  destruct b0, b1, b2, b3, b4, b5, b6, b7; try reflexivity; [elim B; reflexivity|elim A; reflexivity].
Qed.
Lemma numeral_atol s v : numeral s v -> v <= LONG_MAX -> atol s = v.
Proof.
  intros H L. pose proof (numeral_pos s v H) as P. destruct (numeral_digs s v H) as [l [A [B V]]].
  unfold atol, strtol. destruct s as [|c s]; [cbn in A; injection A as <-; elim B; reflexivity|].
  cbn [digs] in A. destruct (digit c) as [d|] eqn:E; [|discriminate]. destruct (digs s) as [l'|] eqn:R; [|discriminate]. injection A as <-.
  pose proof (digit_inv c d E) as [k [K [C D]]].
  assert (SP : skip_space (String c s) = String c s) by (cbn [skip_space]; subst c; do 10 (destruct k as [|k]; [reflexivity|]); lia).
  assert (U : udigits (String c s) = Some (v, "")).
  { cbn [udigits]. rewrite E. rewrite (digits_digs s d l' R). subst v. cbn [val fold_left]. replace (10 * 0 + d) with d by lia. reflexivity. }
  rewrite (strtol_nosign c _ s) by (try exact SP; subst c; do 10 (destruct k as [|k]; [split; discriminate|]); lia). rewrite U.
  cbn [fst]. unfold saturate. unfold LONG_MIN, LONG_MAX in *. lia.
Qed.
Lemma numeral_unique s v w : numeral s v -> numeral s w -> v = w.
Proof.
  intros A B. destruct (numeral_digs s v A) as [l [D [_ ->]]]. destruct (numeral_digs s w B) as [m [F [_ ->]]]. rewrite D in F. injection F as <-. reflexivity.
Qed.
Lemma numeral_atoi s v : numeral s v -> v < 2147483648 -> atoi s = v.
Proof.
  intros H L. unfold atoi. rewrite (numeral_atol s v H) by (unfold LONG_MAX; lia). pose proof (numeral_pos s v H).
  rewrite Z.mod_small by lia. lia.
Qed.

(** Pieces. *)
Fixpoint no_char (c : ascii) (s : string) : bool := match s with EmptyString => true | String a r => negb (Ascii.eqb a c) && no_char c r end.
Lemma no_char_app c a b : no_char c (a ++ b) = no_char c a && no_char c b.
Proof. induction a as [|x a IH]; [reflexivity|]. cbn. rewrite IH, andb_assoc. reflexivity. Qed.
Fixpoint join (l : list string) : string :=
  match l with [] => "" | [p] => p | p :: r => (p ++ "," ++ join r)%string end.
Lemma join_cons2 p q l : join (p :: q :: l) = (p ++ "," ++ join (q :: l))%string.
Proof. reflexivity. Qed.
Lemma pieces_ne s cur : pieces_from cur s <> [].
Proof. revert cur. induction s as [|c s IH]; intros cur; cbn; [discriminate|]. destruct (Ascii.eqb c ","); [discriminate|apply IH]. Qed.
Lemma pieces_join : forall s cur, join (pieces_from cur s) = (cur ++ s)%string.
Proof.
  induction s as [|c s IH]; intros cur; cbn [pieces_from]; [rewrite app_nil_s; reflexivity|]. destruct (Ascii.eqb_spec c ",") as [->|E].
  - specialize (IH ""). cbn [append] in IH. destruct (pieces_from "" s) as [|q l] eqn:P; [elim (pieces_ne s "" P)|]. rewrite join_cons2, IH. reflexivity.
  - rewrite IH, app_assoc_s. reflexivity.
Qed.
Lemma pieces_nocomma : forall s cur, no_char "," cur = true -> forallb (no_char ",") (pieces_from cur s) = true.
Proof.
  induction s as [|c s IH]; intros cur H; cbn [pieces_from forallb]; [rewrite H; reflexivity|]. destruct (Ascii.eqb c ",") eqn:E; cbn [forallb].
  - rewrite H. apply IH. reflexivity.
  - apply IH. rewrite no_char_app, H. cbn. rewrite E. reflexivity.
Qed.
Lemma pieces_of_nocomma : forall a cur, no_char "," a = true -> pieces_from cur a = [(cur ++ a)%string].
Proof.
  induction a as [|c a IH]; intros cur H; cbn [pieces_from]; [rewrite app_nil_s; reflexivity|]. cbn in H. apply andb_prop in H. destruct H as [A B].
  destruct (Ascii.eqb c ","); [discriminate|]. rewrite IH by exact B. rewrite app_assoc_s. reflexivity.
Qed.
Lemma pieces_of_comma : forall a cur r, no_char "," a = true -> pieces_from cur (a ++ "," ++ r) = (cur ++ a)%string :: pieces_from "" r.
Proof.
  induction a as [|c a IH]; intros cur r H; [cbn; rewrite app_nil_s; reflexivity|]. cbn in H. apply andb_prop in H. destruct H as [A B].
  change ((String c a ++ "," ++ r)%string) with (String c (a ++ "," ++ r)). cbn [pieces_from]. destruct (Ascii.eqb c ","); [discriminate|]. rewrite IH by exact B. rewrite app_assoc_s. reflexivity.
Qed.
Lemma numeral_nochar c s v : digit c = None -> numeral s v -> no_char c s = true.
Proof.
  intros D H. induction H as [d H|s v d H IH K].
  - cbn [no_char]. rewrite andb_true_r. destruct (Ascii.eqb_spec (ascii_of_nat (48 + d)) c) as [E|E]; [|reflexivity]. rewrite <- E, digit_char in D by exact H. discriminate.
  - rewrite no_char_app, IH. cbn [no_char andb]. rewrite andb_true_r. destruct (Ascii.eqb_spec (ascii_of_nat (48 + d)) c) as [E|E]; [|reflexivity]. rewrite <- E, digit_char in D by exact K. discriminate.
Qed.
Lemma index_pieces s l : index_list s l <-> Forall2 numeral (pieces_from "" s) l.
Proof.
  split.
  - intros H. induction H as [s v H|s v r l H K IH].
    + rewrite pieces_of_nocomma by (apply (numeral_nochar _ _ v); [reflexivity|exact H]). constructor; [exact H|constructor].
    + rewrite pieces_of_comma by (apply (numeral_nochar _ _ v); [reflexivity|exact H]). constructor; assumption.
  - intros H. pose proof (pieces_join s "") as J. cbn [append] in J. rewrite <- J. clear J. pose proof (pieces_ne s "") as N.
    induction H as [|p v ps l H F IH]; [elim N; reflexivity|]. clear N. destruct ps as [|q ps].
    + inversion F; subst. cbn [join]. apply il_one. exact H.
    + rewrite join_cons2. apply il_more; [exact H|]. apply IH. discriminate.
Qed.
Lemma index_nochar c s l : digit c = None -> c <> ","%char -> index_list s l -> no_char c s = true.
Proof.
  intros D N H. induction H as [s v H|s v r l H K IH]; [eapply numeral_nochar; eassumption|].
  rewrite !no_char_app, IH, (numeral_nochar c s v D H). cbn [no_char andb]. destruct (Ascii.eqb_spec "," c) as [E|E]; [elim N; symmetry; exact E|reflexivity].
Qed.

(** Parentheses. *)
Lemma strchr_none c s : no_char c s = true <-> strchr c s = None.
Proof.
  induction s as [|a s IH]; [split; reflexivity|]. cbn. destruct (Ascii.eqb a c); cbn; [split; discriminate|]. rewrite IH.
  destruct (strchr c s) as [[x y]|]; split; congruence.
Qed.
Lemma strchr_some c s x y : strchr c s = Some (x, y) <-> no_char c x = true /\ (exists r, y = String c r /\ s = (x ++ y)%string).
Proof.
  revert x y. induction s as [|a s IH]; intros x y; cbn [strchr].
  - split; [discriminate|]. intros [_ [r [-> E]]]. destruct x; discriminate.
  - destruct (Ascii.eqb_spec a c) as [->|N].
    + split.
      * intros H. injection H as <- <-. split; [reflexivity|]. exists s. split; reflexivity.
      * intros [A [r [-> E]]]. destruct x as [|b x]; [injection E as <-; reflexivity|]. cbn in E. injection E as <- E. cbn in A. rewrite Ascii.eqb_refl in A. discriminate.
    + destruct (strchr c s) as [[x' y']|] eqn:S.
      * split.
        -- intros H. injection H as <- <-. apply IH in S || idtac. destruct (proj1 (IH x' y') eq_refl) as [A [r [B C]]]. split.
           ++ cbn. rewrite A. destruct (Ascii.eqb_spec a c); [elim N; assumption|reflexivity].
           ++ exists r. split; [exact B|]. cbn. rewrite <- C. reflexivity.
        -- intros [A [r [-> E]]]. destruct x as [|b x]; [injection E as E _; elim N; exact E|]. cbn in E. injection E as <- E. cbn in A. apply andb_prop in A. destruct A as [_ A].
           assert (T : Some (x', y') = Some (x, String c r)) by (apply IH; split; [exact A|exists r; split; [reflexivity|exact E]]). injection T as <- <-. reflexivity.
      * split; [discriminate|]. intros [A [r [-> E]]]. destruct x as [|b x]; [injection E as E _; elim N; exact E|]. cbn in E. injection E as <- E. cbn in A. apply andb_prop in A. destruct A as [_ A].
        assert (T : None = Some (x, String c r)) by (apply IH; split; [exact A|exists r; split; [reflexivity|exact E]]). discriminate.
Qed.
Lemma paren_head s x y : strchr "(" s = Some (x, y) -> exists r, strip_parens s = String "(" r.
Proof.
  intros H. pose proof (proj1 (strchr_some _ _ _ _) H) as [_ [r [-> _]]]. unfold strip_parens. rewrite H. unfold cut_at. cbn [strchr].
  change (Ascii.eqb "(" ")") with false. cbv iota. destruct (strchr ")" r) as [[a b]|]; eexists; reflexivity.
Qed.
(** The part that is read: no opening parenthesis, up to a closing one. *)
Lemma strip_ok s l : index_list (strip_parens s) l <-> no_char "(" s = true /\ exists body, index_list body l /\ (s = body \/ exists rest, s = (body ++ ")" ++ rest)%string).
Proof.
  destruct (strchr "(" s) as [[x y]|] eqn:P.
  - destruct (paren_head s x y P) as [r ->]. split.
    + intros H. apply (index_nochar "(") in H; [cbn in H; discriminate|reflexivity|discriminate].
    + intros [H _]. apply strchr_none in H. congruence.
  - apply strchr_none in P. unfold strip_parens. rewrite (proj1 (strchr_none _ _) P). unfold cut_at. destruct (strchr ")" s) as [[x y]|] eqn:Q.
    + pose proof (proj1 (strchr_some _ _ _ _) Q) as [A [r [-> E]]]. split.
      * intros H. split; [exact P|]. exists x. split; [exact H|]. right. exists r. exact E.
      * intros [_ [body [H [->|[rest R]]]]].
        -- apply (index_nochar ")") in H; [|reflexivity|discriminate]. apply strchr_none in H. congruence.
        -- assert (T : strchr ")" s = Some (body, String ")" rest)).
           { apply strchr_some. split; [apply (index_nochar _ _ l); [reflexivity|discriminate|exact H]|]. exists rest. split; [reflexivity|exact R]. }
           rewrite Q in T. injection T as <- _. exact H.
    + split.
      * intros H. split; [exact P|]. exists s. split; [exact H|left; reflexivity].
      * intros [_ [body [H [->|[rest ->]]]]]; [exact H|]. apply strchr_none in Q. rewrite !no_char_app in Q. cbn in Q. rewrite andb_false_r in Q. discriminate.
Qed.

(** Checking. *)
Lemma check_each_ok l dims idx : length l = length dims -> Forall2 numeral l idx -> Forall (fun v => v < 2147483648) idx ->
  (check_each l dims = 0 <-> in_range idx dims).
Proof.
  intros L F. revert dims L. induction F as [|t v l idx H F IH]; intros [|d dims] L S; cbn [length] in L; try discriminate; [split; [constructor|reflexivity]|].
  inversion S as [|? ? V S']; subst. cbn [check_each]. rewrite (proj2 (all_digits_numeral t)) by (exists v; exact H). cbn [negb]. rewrite (numeral_atoi t v H V).
  destruct (Z.ltb_spec v 1) as [A|A]; [split; [discriminate|intros K; inversion K; lia]|].
  destruct (Z.gtb_spec v d) as [B|B]; [split; [discriminate|intros K; inversion K; lia]|].
  rewrite IH by (try (injection L as L; exact L); exact S'). split; [intros K; constructor; [lia|exact K]|intros K; inversion K; assumption].
Qed.
Lemma check_each_numerals l dims : length l = length dims -> check_each l dims = 0 -> exists idx, Forall2 numeral l idx.
Proof.
  revert dims. induction l as [|t l IH]; intros [|d dims] L C; cbn [length] in L; try discriminate; [exists []; constructor|]. cbn [check_each] in C.
  destruct (all_digits t) eqn:A; cbn [negb] in C; [|discriminate]. destruct (atoi t <? 1); [discriminate|]. destruct (atoi t >? d); [discriminate|].
  apply all_digits_numeral in A. destruct A as [v A]. destruct (IH dims ltac:(injection L as L; exact L) C) as [idx F]. exists (v :: idx). constructor; assumption.
Qed.
Lemma length_f2 {A B} (P : A -> B -> Prop) l m : Forall2 P l m -> length l = length m.
Proof. intros H. induction H; cbn; congruence. Qed.
Lemma check_ok a s r : check_indices (Some a) s = Ret r -> 
  (r = 0 -> exists idx, index_list (strip_parens s) idx) /\
  (forall idx, index_list (strip_parens s) idx -> Forall (fun v => v < 2147483648) idx -> (r = 0 <-> in_range idx (a_dims a))).
Proof.
  intros C. unfold check_indices in C. destruct (negb (fits 80 s)); [discriminate|]. unfold pieces in C.
  destruct (forallb (fits 20) (pieces_from "" (strip_parens s))); [|discriminate]. cbn [bind] in C.
  destruct (Nat.eqb_spec (List.length (a_dims a)) (List.length (pieces_from "" (strip_parens s)))) as [E|E]; cbn [negb] in C; injection C as C.
  - subst r. split.
    + intros R. destruct (check_each_numerals _ _ (eq_sym E) R) as [idx F]. exists idx. apply index_pieces. exact F.
    + intros idx I S. apply index_pieces in I. apply check_each_ok; [symmetry; exact E|exact I|exact S].
  - subst r. split; [discriminate|]. intros idx I _. apply index_pieces in I. pose proof (length_f2 _ _ _ I) as L. split; [discriminate|].
    intros K. pose proof (length_f2 _ _ _ K) as M. elim E. congruence.
Qed.
(** The outcome is defined when the buffers are large enough. *)
Lemma check_defined a s : (String.length s < 80)%nat -> (forall p, In p (pieces_from "" (strip_parens s)) -> (String.length p < 20)%nat) ->
  exists r, check_indices (Some a) s = Ret r.
Proof.
  intros L P. unfold check_indices, fits. destruct (Nat.ltb_spec (String.length s) 80) as [_|H]; [|lia]. cbn [negb]. unfold pieces.
  assert (F : forallb (fits 20) (pieces_from "" (strip_parens s)) = true) by (apply forallb_forall; intros p I; unfold fits; apply Nat.ltb_lt; apply P; exact I).
  rewrite F. cbn [bind]. destruct (negb _); eexists; reflexivity.
Qed.

(** Positions. *)
Lemma offset_ok l idx : Forall2 numeral l idx -> Forall (fun v => v <= LONG_MAX) idx -> forall dims off prod, (length l <= length dims)%nat ->
  offset_from l dims off prod = Ret (off + prod * position idx dims).
Proof.
  intros F. induction F as [|t v l idx H F IH]; intros S dims off prod L; [cbn [offset_from position]; f_equal; destruct dims; lia|].
  destruct dims as [|d dims]; cbn [length] in L; [lia|]. inversion S; subst. cbn [offset_from position]. rewrite (numeral_atol t v) by assumption.
  rewrite IH by (try assumption; lia). f_equal. ring.
Qed.
Lemma position_range idx dims : in_range idx dims -> 0 <= position idx dims < total dims.
Proof.
  intros H. induction H as [|i d idx dims H F IH]; cbn [position total]; [lia|]. nia.
Qed.
Lemma position_inj idx idx' dims : in_range idx dims -> in_range idx' dims -> position idx dims = position idx' dims -> idx = idx'.
Proof.
  intros H. revert idx'. induction H as [|i d idx dims H F IH]; intros idx' H' E; inversion H' as [|i' d' r' ds' R F']; subst; [reflexivity|].
  cbn [position] in E. assert (A : position idx dims = position r' dims) by nia. rewrite A in E. f_equal; [lia|apply IH; assumption].
Qed.
Lemma position_onto dims k : Forall (fun d => 1 <= d) dims -> 0 <= k < total dims -> exists idx, in_range idx dims /\ position idx dims = k.
Proof.
  intros H. revert k. induction H as [|d dims H F IH]; intros k K; cbn [total] in K.
  - exists []. split; [constructor|cbn; lia].
  - assert (D : 0 <= k / d < total dims) by (split; [apply Z.div_pos; lia|apply Z.div_lt_upper_bound; lia]).
    destruct (IH (k / d) D) as [idx [R P]]. exists (k mod d + 1 :: idx). pose proof (Z.mod_pos_bound k d ltac:(lia)). pose proof (Z.div_mod k d ltac:(lia)).
    split; [constructor; [lia|exact R]|]. cbn [position]. rewrite P. lia.
Qed.
(** Keys. *)
Lemma skip_plain key : no_char " " key = true -> skip_blanks key = ("", key).
Proof. destruct key as [|c r]; [reflexivity|]. cbn. destruct (Ascii.eqb c " "); [discriminate|reflexivity]. Qed.
Lemma cut_none c s : no_char c s = true -> cut_at c s = s.
Proof. intros H. unfold cut_at. rewrite (proj1 (strchr_none c s) H). reflexivity. Qed.
Lemma address_ok is_param find key elem a idx : (String.length key < 80)%nat -> no_char " " key = true -> no_char "." key = true -> find key = Some a ->
  (String.length elem < 80)%nat -> (forall p, In p (pieces_from "" (strip_parens elem)) -> (String.length p < 20)%nat) ->
  index_list (strip_parens elem) idx -> Forall (fun v => v <= LONG_MAX) idx -> (length idx <= length (a_dims a))%nat ->
  (a_type a = 1 \/ a_type a = 2 \/ a_type a = 3) ->
  get_elem_address is_param find key elem = Ret (Some (position idx (a_dims a) * width (a_type a))).
Proof.
  intros K B D F E P I S L T. unfold get_elem_address, fits at 1. destruct (Nat.ltb_spec (String.length key) 80) as [_|X]; [|lia]. cbn [negb].
  rewrite skip_plain, (cut_none " " key), (cut_none "." key) by assumption. cbn [append].
  assert (FF : (if is_param then match find key with Some a => Ret (Some a) | None => UB end else Ret (find key)) = Ret (Some a)) by (rewrite F; destruct is_param; reflexivity).
  rewrite FF. cbn [bind]. unfold fits. destruct (Nat.ltb_spec (String.length elem) 80) as [_|X]; [|lia]. cbn [negb]. unfold pieces.
  assert (G : forallb (fits 20) (pieces_from "" (strip_parens elem)) = true) by (apply forallb_forall; intros p N; unfold fits; apply Nat.ltb_lt; apply P; exact N).
  rewrite G. cbn [bind]. apply index_pieces in I. rewrite (offset_ok _ idx I S) by (rewrite (length_f2 _ _ _ I); exact L). cbn [bind].
  replace (0 + 1 * position idx (a_dims a)) with (position idx (a_dims a)) by lia.
  destruct T as [-> | [-> | ->]]; reflexivity.
Qed.
Lemma no_char_in c s : no_char c s = true <-> ~ In c (list_ascii_of_string s).
Proof.
  induction s as [|a s IH]; [split; [intros _ []|reflexivity]|]. cbn [no_char list_ascii_of_string In]. rewrite andb_true_iff, IH, negb_true_iff.
  destruct (Ascii.eqb_spec a c) as [E|E]; [split; [intros [H _]; discriminate|intros H; elim H; left; exact E]|].
  split; [intros [_ H] [K|K]; [exact (E K)|exact (H K)]|intros H; split; [reflexivity|intros K; apply H; right; exact K]].
Qed.
Lemma pieces_sub : forall s cur p, In p (pieces_from cur s) -> no_char "," cur = true -> exists a c, (cur ++ s)%string = (a ++ p ++ c)%string /\ no_char "," p = true.
Proof.
  induction s as [|x s IH]; intros cur p I N; cbn [pieces_from] in I.
  - destruct I as [<-|[]]. exists "", "". split; [reflexivity|exact N].
  - destruct (Ascii.eqb x ",") eqn:E.
    + destruct I as [<-|I]; [exists "", (String x s); split; [reflexivity|exact N]|]. destruct (IH "" p I eq_refl) as [a [c [A B]]]. cbn [append] in A.
      exists (cur ++ String x a)%string, c. split; [|exact B]. rewrite app_assoc_s. cbn [append]. rewrite <- A. reflexivity.
    + destruct (IH _ p I) as [a [c [A B]]]; [rewrite no_char_app, N; cbn [no_char]; rewrite E; reflexivity|]. exists a, c. split; [|exact B]. rewrite <- A, app_assoc_s. reflexivity.
Qed.
Lemma strip_sub s : exists a c, s = (a ++ strip_parens s ++ c)%string.
Proof.
  assert (C : forall u, exists c, u = (cut_at ")" u ++ c)%string).
  { intros u. unfold cut_at. destruct (strchr ")" u) as [[x y]|] eqn:E; [|exists ""; symmetry; apply app_nil_s]. apply strchr_some in E. destruct E as [_ [r [_ E]]]. exists y. exact E. }
  unfold strip_parens. destruct (strchr "(" s) as [[x y]|] eqn:E; [|destruct (C s) as [c K]; exists "", c; exact K].
  apply strchr_some in E. destruct E as [_ [r [_ E]]]. destruct (C y) as [c K]. exists x, c. rewrite <- K. exact E.
Qed.
Lemma short_pieces s : short_words s -> forall p, In p (pieces_from "" (strip_parens s)) -> (String.length p < 20)%nat.
Proof.
  intros H p I. destruct (pieces_sub _ "" p I eq_refl) as [a [c [A B]]]. cbn [append] in A. destruct (strip_sub s) as [a' [c' S]].
  apply (H (a' ++ a)%string p (c ++ c')%string); [|apply no_char_in; exact B]. rewrite S, A, !app_assoc_s. reflexivity.
Qed.
Lemma strip_plain s l : index_list s l -> strip_parens s = s.
Proof.
  intros H. unfold strip_parens. rewrite (proj1 (strchr_none "(" s)) by (apply (index_nochar _ _ l); [reflexivity|discriminate|exact H]).
  apply cut_none. apply (index_nochar _ _ l); [reflexivity|discriminate|exact H].
Qed.
Lemma check_codes a s r idx : check_indices (Some a) s = Ret r -> index_list s idx -> Forall (fun v => v < 2147483648) idx ->
  r = if Nat.eqb (length (a_dims a)) (length idx) then verdict idx (a_dims a) else 2.
Proof.
  intros C I S. unfold check_indices in C. rewrite (strip_plain s idx I) in C. apply index_pieces in I. destruct (negb (fits 80 s)); [discriminate|]. unfold pieces in C.
  destruct (forallb (fits 20) (pieces_from "" s)); [|discriminate]. cbn [bind] in C. rewrite (length_f2 _ _ _ I) in C.
  destruct (Nat.eqb (length (a_dims a)) (length idx)); cbn [negb] in C; injection C as <-; [|reflexivity].
  generalize (a_dims a). clear a. revert S. induction I as [|t v l idx H F IH]; intros S [|d dims]; try reflexivity.
  inversion S as [|? ? V S']; subst. cbn [check_each verdict]. rewrite (proj2 (all_digits_numeral t)) by (exists v; exact H). cbn [negb]. rewrite (numeral_atoi t v H V).
  rewrite Z.gtb_ltb, IH by exact S'. reflexivity.
Qed.
