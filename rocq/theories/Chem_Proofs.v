(** Proofs about formulas, charges and equations. *)
From Coq Require Import String Ascii List ZArith QArith Qabs Bool NArith Lia Lqa Sorting.Permutation Sorting.Sorted ZifyBool.
From Verif Require Import CStr_Model CNum_Model Qx Sort_Proofs Chem_Model Chem_Spec.
Import ListNotations.
Local Open Scope string_scope.
Local Open Scope list_scope.
Local Open Scope Z_scope.

(** ** Text *)
Lemma sapp_assoc a b c : ((a ++ b) ++ c = a ++ (b ++ c))%string.
Proof. induction a as [|x a IH]; [reflexivity|]. cbn. now rewrite IH. Qed.
Lemma sapp_nil a : (a ++ "" = a)%string.
Proof. induction a as [|x a IH]; [reflexivity|]. cbn. now rewrite IH. Qed.
Lemma slen_app a b : String.length (a ++ b)%string = (String.length a + String.length b)%nat.
Proof. induction a as [|x a IH]; [reflexivity|]. cbn. now rewrite IH. Qed.
Lemma chars_app p a b : chars p (a ++ b)%string = chars p a && chars p b.
Proof. induction a as [|x a IH]; [reflexivity|]. cbn. rewrite IH. now rewrite andb_assoc. Qed.
Definition stops (p : ascii -> bool) (s : string) : Prop := match s with String c _ => p c = false | _ => True end.
Lemma span_app p a r : chars p a = true -> stops p r -> span p (a ++ r)%string = (a, r).
Proof.
  induction a as [|c a IH]; cbn [append chars span].
  - intros _ H. destruct r as [|d r]; [reflexivity|]. cbn in H |- *. now rewrite H.
  - intros H S. apply andb_prop in H. destruct H as [H1 H2]. rewrite H1, (IH H2 S). reflexivity.
Qed.
Lemma span_spec p s : let '(a, b) := span p s in s = (a ++ b)%string /\ chars p a = true /\ stops p b.
Proof.
  induction s as [|c s IH]; [cbn; auto|]. cbn [span]. destruct (p c) eqn:E; [|cbn; auto]. destruct (span p s) as [a b]. destruct IH as (-> & H2 & H3). cbn. rewrite E. auto.
Qed.
Lemma span_all p a : chars p a = true -> span p a = (a, "").
Proof. intros H. rewrite <- (sapp_nil a) at 1. apply span_app; [exact H|exact Logic.I]. Qed.

(** ** Numbers *)
Lemma digit_weight c : isdigit c = true -> digit c = Some (weight c).
Proof. unfold isdigit, between, digit, weight. intros H. change (N_of_ascii "0") with 48%N in H. change (N_of_ascii "9") with 57%N in H. rewrite H. reflexivity. Qed.
Lemma digits_whole a : forall acc, chars isdigit a = true -> digits acc a = (acc * 10 ^ Z.of_nat (String.length a) + whole a, "").
Proof.
  induction a as [|c a IH]; intros acc H; [cbn; f_equal; lia|]. cbn [chars] in H. apply andb_prop in H. destruct H as [H1 H2]. cbn [digits whole String.length]. rewrite (digit_weight _ H1), (IH _ H2). f_equal.
  rewrite Nat2Z.inj_succ, Z.pow_succ_r by lia. ring.
Qed.
Lemma dvalue_whole a : chars isdigit a = true -> dvalue a = whole a.
Proof. intros H. unfold dvalue. rewrite (digits_whole _ _ H). cbn. reflexivity. Qed.
(** What may follow a number. *)
Definition num_stop (s : string) : Prop := match s with String c _ => isdigit c = false /\ c <> "."%char | _ => True end.
Lemma num_stop_digit s : num_stop s -> stops isdigit s.
Proof. destruct s; cbn; tauto. Qed.
Lemma num_stop_dot {A} s (x : string -> A) y : num_stop s -> match s with String "." t => x t | _ => y end = y.
Proof. destruct s as [|c s]; [reflexivity|]. intros [_ H]. destruct c as [[] [] [] [] [] [] [] []]; try reflexivity. exfalso. apply H. reflexivity. Qed.
Lemma dot_digit : isdigit "." = false. Proof. reflexivity. Qed.
Lemma num_text_int a r : chars isdigit a = true -> num_stop r -> num_text (a ++ r)%string = (a, r).
Proof. intros H S. unfold num_text. rewrite (span_app _ _ _ H (num_stop_digit _ S)). apply (num_stop_dot r (fun t => let '(b, u) := span isdigit t in ((a ++ String "." b)%string, u))). exact S. Qed.
Lemma num_text_dec a b r : chars isdigit a = true -> chars isdigit b = true -> num_stop r -> num_text (a ++ String "." (b ++ r))%string = ((a ++ String "." b)%string, r).
Proof. intros H H2 S. unfold num_text. rewrite (span_app isdigit a (String "." (b ++ r)) H); [|exact dot_digit]. rewrite (span_app _ _ _ H2 (num_stop_digit _ S)). reflexivity. Qed.
Lemma decimal_int a : chars isdigit a = true -> decimal a = inject_Z (whole a).
Proof. intros H. unfold decimal. rewrite (span_all _ _ H), (dvalue_whole _ H). reflexivity. Qed.
Lemma decimal_dec a b : chars isdigit a = true -> chars isdigit b = true -> decimal (a ++ String "." b)%string = (inject_Z (whole a) + inject_Z (whole b) / inject_Z (10 ^ Z.of_nat (String.length b)))%Q.
Proof. intros H H2. unfold decimal. rewrite (span_app isdigit a (String "." b) H); [|exact dot_digit]. rewrite (span_all _ _ H2), !dvalue_whole by assumption. reflexivity. Qed.
Lemma seqb_ne a : a <> "" -> String.eqb a "" = false.
Proof. intros H. apply String.eqb_neq. exact H. Qed.
Lemma get_num_ok t v r : numeral t v -> num_stop r -> get_num (t ++ r)%string = Some (v, r).
Proof.
  intros H ST. destruct H as [|a A B C|a b A B C D]; unfold get_num.
  - change ("" ++ r)%string with r. pose proof (num_text_int "" r eq_refl ST) as X. change ("" ++ r)%string with r in X. rewrite X. reflexivity.
  - rewrite (num_text_int a r B ST), (seqb_ne _ A), (decimal_int _ B). unfold MAX_LENGTH. replace (256 <=? Z.of_nat (String.length a)) with false by lia. reflexivity.
  - rewrite !sapp_assoc. cbn [append]. rewrite (num_text_dec a b r B C ST), (decimal_dec _ _ B C). rewrite seqb_ne by (destruct a; discriminate). unfold MAX_LENGTH. rewrite slen_app. cbn [String.length]. replace (256 <=? Z.of_nat (String.length a + S (String.length b))) with false by lia. reflexivity.
Qed.
Lemma get_num_len s d v : get_num s = Some (d, v) -> exists a, s = (a ++ v)%string /\ chars (fun c => isdigit c || Ascii.eqb c ".") a = true.
Proof.
  assert (W : forall a, chars isdigit a = true -> chars (fun c => isdigit c || Ascii.eqb c ".") a = true). { induction a as [|x a IH]; [reflexivity|]. cbn. intros H. apply andb_prop in H. destruct H as [-> H]. rewrite (IH H). reflexivity. }
  unfold get_num. assert (X : let '(a, r) := num_text s in s = (a ++ r)%string /\ chars (fun c => isdigit c || Ascii.eqb c ".") a = true).
  { unfold num_text. pose proof (span_spec isdigit s) as H. destruct (span isdigit s) as [a r]. destruct H as (-> & H2 & _). destruct r as [|c r]; [split; [reflexivity|apply W; exact H2]|].
    destruct (Ascii.eqb c ".") eqn:E.
    - apply Ascii.eqb_eq in E. subst c. pose proof (span_spec isdigit r) as H. destruct (span isdigit r) as [b u]. destruct H as (-> & H3 & _). split; [rewrite sapp_assoc; reflexivity|]. rewrite chars_app, (W _ H2). cbn. apply W. exact H3.
    - apply Ascii.eqb_neq in E. replace (match c with "."%char => let '(b, u) := span isdigit r in ((a ++ String "." b)%string, u) | _ => (a, String c r) end) with (a, String c r); [split; [reflexivity|apply W; exact H2]|].
      destruct c as [[] [] [] [] [] [] [] []]; try reflexivity; exfalso; apply E; reflexivity. }
  destruct (num_text s) as [a r]. destruct X as [-> X]. destruct (String.eqb a "") eqn:E; [intros H; injection H as <- <-; exists a; auto|]. destruct (MAX_LENGTH <=? Z.of_nat (String.length a)); [discriminate|]. intros H; injection H as <- <-. exists a. auto.
Qed.

(** ** Names *)
Lemma bracket_ok b t : b <> "" -> chars (fun c => negb (Ascii.eqb c "]")) b = true -> bracket (b ++ String "]" t)%string = Ret ((b ++ "]")%string, t, true).
Proof.
  induction b as [|c b IH]; [congruence|]. intros _ H. cbn [chars] in H. apply andb_prop in H. destruct H as [H1 H2]. apply negb_true_iff in H1. cbn [append bracket]. rewrite H1.
  destruct b as [|d b]; [reflexivity|]. cbn [append]. pose proof H2 as H3. cbn [chars] in H3. apply andb_prop in H3. destruct H3 as [H3 _]. apply negb_true_iff in H3. rewrite H3. specialize (IH ltac:(discriminate) H2). cbn [append] in IH. rewrite IH. reflexivity.
Qed.
Lemma get_elt_ok n r : element_name n -> stops tail_char r -> get_elt (n ++ r)%string = Ret (Some (n, r, true)).
Proof.
  intros H S. destruct H as [c t A B|b t A B C].
  - cbn [append get_elt]. replace (Ascii.eqb c "[") with false; [|symmetry; apply Ascii.eqb_neq; intros ->; discriminate]. rewrite (span_app _ _ _ B S). reflexivity.
  - cbn [append get_elt]. cbn [Ascii.eqb]. change (Ascii.eqb "[" "[") with true. cbv iota. rewrite !sapp_assoc. cbn [append]. rewrite (bracket_ok b (t ++ r) A B). cbn [bind]. rewrite (span_app _ _ _ C S). rewrite !sapp_assoc. reflexivity.
Qed.
Lemma bracket_len s n u ok : bracket s = Ret (n, u, ok) -> exists a, s = (a ++ u)%string.
Proof.
  revert n u ok. induction s as [|c s IH]; intros n u ok; [discriminate|]. cbn [bracket]. destruct (Ascii.eqb c "]"); [intros X; injection X as <- <- <-; exists ""; reflexivity|]. destruct s as [|d s]; [intros X; injection X as <- <- <-; exists (String c ""); reflexivity|].
  destruct (Ascii.eqb d "]") eqn:D; [intros X; injection X as <- <- <-; exists (String c (String d "")); reflexivity|].
  destruct (bracket (String d s)) as [[[n1 u1] ok1]| |]; cbn [bind]; try discriminate. destruct (IH n1 u1 ok1 eq_refl) as [a ->]. intros X; injection X as <- <- <-. exists (String c a). reflexivity.
Qed.
Lemma get_elt_len s n u ok : get_elt s = Ret (Some (n, u, ok)) -> exists c a, s = String c (a ++ u)%string.
Proof.
  destruct s as [|c s]; [discriminate|]. cbn [get_elt]. destruct (Ascii.eqb c "[").
  - destruct (bracket s) as [[[m v] k]| |] eqn:E; cbn [bind]; try discriminate. destruct (bracket_len _ _ _ _ E) as [a ->]. pose proof (span_spec tail_char v) as H. destruct (span tail_char v) as [x y]. destruct H as (-> & _). intros X; injection X as <- <- <-. exists c, (a ++ x)%string. now rewrite sapp_assoc.
  - pose proof (span_spec tail_char s) as H. destruct (span tail_char s) as [x y]. destruct H as (-> & _). intros X; injection X as <- <- <-. exists c, x. reflexivity.
Qed.

(** ** Fuel *)
Lemma get_elts_suffix F : forall s pc c p, get_elts F s pc c = Ret (Some p) -> exists a, s = (a ++ rest p)%string.
Proof.
  induction F as [|F IH]; intros s pc c p; [discriminate|]. cbn [get_elts]. destruct s as [|x r]; [destruct (pc =? 0); [|discriminate]; intros X; injection X as <-; exists ""; reflexivity|].
  assert (LP : forall l ok s' pc', (exists a, String x r = (a ++ s')%string) -> (do y <- get_elts F s' pc' c; match y with None => Ret None | Some q => Ret (Some (more l ok q)) end) = Ret (Some p) -> exists a, String x r = (a ++ rest p)%string).
  { intros l ok s' pc' [a L]. destruct (get_elts F s' pc' c) as [[q|]| |] eqn:E; cbn [bind]; try discriminate. apply IH in E. destruct E as [b E]. intros X; injection X as <-. cbn [more rest]. exists (a ++ b)%string. rewrite L, E at 1. now rewrite sapp_assoc. }
  destruct (Ascii.eqb x "+" || Ascii.eqb x "-"); [destruct (pc =? 0); [|discriminate]; intros X; injection X as <-; exists ""; reflexivity|].
  destruct (Ascii.eqb x ")"); [destruct (pc - 1 <? 0); [discriminate|]; intros X; injection X as <-; exists (String x ""); reflexivity|].
  match goal with |- (if ?b then _ else _) = _ -> _ => destruct b end.
  { destruct (get_elt (String x r)) as [[[[n u] ok]|]| |] eqn:E; cbn [bind]; try discriminate. destruct (get_num u) as [[d v]|] eqn:G; [|discriminate]. destruct (get_elt_len _ _ _ _ E) as (c0 & a & EQ). destruct (get_num_len _ _ _ G) as (b & -> & _). apply LP. rewrite EQ. exists (String c0 (a ++ b)). cbn. now rewrite sapp_assoc. }
  destruct (Ascii.eqb x "(").
  { destruct (get_elts F r (pc + 1) c) as [[q|]| |] eqn:E; cbn [bind]; try discriminate. apply IH in E. destruct E as [a E]. destruct (get_num (rest q)) as [[d v]|] eqn:G; [|discriminate]. destruct (get_num_len _ _ _ G) as (b & GE & _). rewrite GE in E. apply LP. exists (String x (a ++ b)). rewrite E. cbn. now rewrite sapp_assoc. }
  destruct (Ascii.eqb x ":"); [|discriminate]. destruct (get_num r) as [[d v]|] eqn:G; [|discriminate]. destruct (get_num_len _ _ _ G) as (b & -> & _). destruct (get_elts F v pc c) as [[q|]| |] eqn:E; cbn [bind]; try discriminate. apply IH in E. destruct E as [a E]. apply LP. exists (String x (b ++ a)). rewrite E at 1. cbn. now rewrite sapp_assoc.
Qed.
Lemma get_elts_len F s pc c p : get_elts F s pc c = Ret (Some p) -> (String.length (rest p) <= String.length s)%nat.
Proof. intros H. destruct (get_elts_suffix _ _ _ _ _ H) as [a ->]. rewrite slen_app. lia. Qed.
Lemma get_elts_fuel F : forall F' s pc c, (String.length s < F)%nat -> (String.length s < F')%nat -> get_elts F s pc c = get_elts F' s pc c.
Proof.
  induction F as [|F IH]; intros F' s pc c L L'; [lia|]. destruct F' as [|F']; [lia|]. cbn [get_elts]. destruct s as [|x r]; [reflexivity|]. cbn [String.length] in L, L'.
  destruct (Ascii.eqb x "+" || Ascii.eqb x "-"); [reflexivity|]. destruct (Ascii.eqb x ")"); [reflexivity|].
  match goal with |- (if ?b then _ else _) = _ => destruct b end.
  { destruct (get_elt (String x r)) as [[[[n u] ok]|]| |] eqn:E; cbn [bind]; try reflexivity. destruct (get_num u) as [[d v]|] eqn:G; [|reflexivity]. destruct (get_elt_len _ _ _ _ E) as (c0 & a & EQ). destruct (get_num_len _ _ _ G) as (b & -> & _). injection EQ as -> ->. rewrite !slen_app in L, L'. rewrite (IH F' v) by lia. reflexivity. }
  destruct (Ascii.eqb x "(").
  { rewrite (IH F' r) by lia. destruct (get_elts F' r (pc + 1) c) as [[q|]| |] eqn:E; cbn [bind]; try reflexivity. apply get_elts_len in E. destruct (get_num (rest q)) as [[d v]|] eqn:G; [|reflexivity]. destruct (get_num_len _ _ _ G) as (b & GE & _). rewrite GE, slen_app in E. rewrite (IH F' v) by lia. reflexivity. }
  destruct (Ascii.eqb x ":"); [|reflexivity]. destruct (get_num r) as [[d v]|] eqn:G; [|reflexivity]. destruct (get_num_len _ _ _ G) as (b & -> & _). rewrite slen_app in L, L'. rewrite (IH F' v) by lia. destruct (get_elts F' v pc c) as [[q|]| |] eqn:E; cbn [bind]; try reflexivity. apply get_elts_len in E. rewrite (IH F' (rest q)) by lia. reflexivity.
Qed.

(** Enough fuel: never exhausted; undefined only for a text that ends with an open bracket. *)
Lemma bracket_ub s : bracket s = UB -> s = "".
Proof.
  induction s as [|c s IH]; [reflexivity|]. cbn [bracket]. destruct (Ascii.eqb c "]"); [discriminate|]. destruct s as [|d s]; [discriminate|]. destruct (Ascii.eqb d "]"); [discriminate|]. destruct (bracket (String d s)) as [[[n u] ok]| |]; cbn [bind]; try discriminate. intros _. specialize (IH eq_refl). discriminate.
Qed.
Lemma bracket_exit s : bracket s <> Exit.
Proof.
  induction s as [|c s IH]; [discriminate|]. cbn [bracket]. destruct (Ascii.eqb c "]"); [discriminate|]. destruct s as [|d s]; [discriminate|]. destruct (Ascii.eqb d "]"); [discriminate|]. destruct (bracket (String d s)) as [[[? u] ok]| |]; cbn [bind]; congruence.
Qed.

Lemma get_elt_ub s : get_elt s = UB -> s = "[".
Proof.
  destruct s as [|c s]; [discriminate|]. cbn [get_elt]. destruct (Ascii.eqb c "[") eqn:E; [|destruct (span tail_char s); discriminate]. apply Ascii.eqb_eq in E. subst c. destruct (bracket s) as [[[n u] ok]| |] eqn:B; cbn [bind]; [destruct (span tail_char u); discriminate| |discriminate]. intros _. apply bracket_ub in B. now subst s.
Qed.
Lemma get_elt_exit s : get_elt s <> Exit.
Proof.
  destruct s as [|c s]; [discriminate|]. cbn [get_elt]. destruct (Ascii.eqb c "["); [|destruct (span tail_char s); discriminate]. pose proof (bracket_exit s). destruct (bracket s) as [[[n u] ok]| |] eqn:B; cbn [bind]; [destruct (span tail_char u); discriminate| discriminate|congruence].
Qed.
Lemma get_elts_ub F : forall s pc c, get_elts F s pc c = UB -> exists a, s = (a ++ "[")%string.
Proof.
  induction F as [|F IH]; intros s pc c; [discriminate|]. cbn [get_elts]. destruct s as [|x r]; [destruct (pc =? 0); discriminate|].
  assert (LP : forall l ok s' pc', (exists a, String x r = (a ++ s')%string) -> (do y <- get_elts F s' pc' c; match y with None => Ret None | Some q => Ret (Some (more l ok q)) end) = UB -> exists a, String x r = (a ++ "[")%string).
  { intros l ok s' pc' [a L]. destruct (get_elts F s' pc' c) as [[q|]| |] eqn:E; cbn [bind]; try discriminate. intros _. apply IH in E. destruct E as [b E]. exists (a ++ b)%string. rewrite L, E at 1. now rewrite sapp_assoc. }
  destruct (Ascii.eqb x "+" || Ascii.eqb x "-"); [destruct (pc =? 0); discriminate|].
  destruct (Ascii.eqb x ")"); [destruct (pc - 1 <? 0); discriminate|].
  match goal with |- (if ?b then _ else _) = _ -> _ => destruct b end.
  { destruct (get_elt (String x r)) as [[[[n u] ok]|]| |] eqn:E; cbn [bind]; try discriminate.
    - destruct (get_num u) as [[d v]|] eqn:G; [|discriminate]. destruct (get_elt_len _ _ _ _ E) as (c0 & a & EQ). destruct (get_num_len _ _ _ G) as (b & -> & _). apply LP. rewrite EQ. exists (String c0 (a ++ b)). cbn. now rewrite sapp_assoc.
    - intros _. apply get_elt_ub in E. rewrite E. exists "". reflexivity. }
  destruct (Ascii.eqb x "(").
  { destruct (get_elts F r (pc + 1) c) as [[q|]| |] eqn:E; cbn [bind]; try discriminate.
    - apply get_elts_suffix in E. destruct E as [a E]. destruct (get_num (rest q)) as [[d v]|] eqn:G; [|discriminate]. destruct (get_num_len _ _ _ G) as (b & GE & _). rewrite GE in E. apply LP. exists (String x (a ++ b)). rewrite E. cbn. now rewrite sapp_assoc.
    - intros _. apply IH in E. destruct E as [a ->]. exists (String x a). reflexivity. }
  destruct (Ascii.eqb x ":"); [|discriminate]. destruct (get_num r) as [[d v]|] eqn:G; [|discriminate]. destruct (get_num_len _ _ _ G) as (b & -> & _). destruct (get_elts F v pc c) as [[q|]| |] eqn:E; cbn [bind]; try discriminate.
  - apply get_elts_suffix in E. destruct E as [a E]. apply LP. exists (String x (b ++ a)). rewrite E at 1. cbn. now rewrite sapp_assoc.
  - intros _. apply IH in E. destruct E as [a ->]. exists (String x (b ++ a)). cbn. now rewrite sapp_assoc.
Qed.
Lemma get_elts_exit F : forall s pc c, (String.length s < F)%nat -> get_elts F s pc c <> Exit.
Proof.
  induction F as [|F IH]; intros s pc c L; [lia|]. cbn [get_elts]. destruct s as [|x r]; [destruct (pc =? 0); discriminate|]. cbn [String.length] in L.
  assert (LP : forall l ok s' pc', (String.length s' < F)%nat -> (do y <- get_elts F s' pc' c; match y with None => Ret None | Some q => Ret (Some (more l ok q)) end) <> Exit).
  { intros l ok s' pc' L1. pose proof (IH s' pc' c L1). destruct (get_elts F s' pc' c) as [[q|]| |]; cbn [bind]; congruence. }
  destruct (Ascii.eqb x "+" || Ascii.eqb x "-"); [destruct (pc =? 0); discriminate|].
  destruct (Ascii.eqb x ")"); [destruct (pc - 1 <? 0); discriminate|].
  match goal with |- (if ?b then _ else _) <> _ => destruct b end.
  { pose proof (get_elt_exit (String x r)). destruct (get_elt (String x r)) as [[[[n u] ok]|]| |] eqn:E; cbn [bind]; try congruence.
    destruct (get_num u) as [[d v]|] eqn:G; [|discriminate]. destruct (get_elt_len _ _ _ _ E) as (c0 & a & EQ). destruct (get_num_len _ _ _ G) as (b & -> & _). injection EQ as -> ->. rewrite !slen_app in L. apply LP. lia. }
  destruct (Ascii.eqb x "(").
  { pose proof (IH r (pc + 1) c ltac:(lia)). destruct (get_elts F r (pc + 1) c) as [[q|]| |] eqn:E; cbn [bind]; try congruence.
    apply get_elts_len in E. destruct (get_num (rest q)) as [[d v]|] eqn:G; [|discriminate]. destruct (get_num_len _ _ _ G) as (b & GE & _). rewrite GE, slen_app in E. apply LP. lia. }
  destruct (Ascii.eqb x ":"); [|discriminate]. destruct (get_num r) as [[d v]|] eqn:G; [|discriminate]. destruct (get_num_len _ _ _ G) as (b & -> & _). rewrite slen_app in L. pose proof (IH v pc c ltac:(lia)). destruct (get_elts F v pc c) as [[q|]| |] eqn:E; cbn [bind]; try congruence. apply get_elts_len in E. apply LP. lia.
Qed.

(** ** Printed formulas *)
Definition pre (l : list (string * Q)) (o : outcome (option parsed)) : outcome (option parsed) :=
  do x <- o; match x with None => Ret None | Some p => Ret (Some (more l true p)) end.
Definition parse s pc c := get_elts (S (String.length s)) s pc c.
Lemma pre_pre l m o : pre l (pre m o) = pre (l ++ m) o.
Proof. unfold pre. destruct o as [[[f r q k]|]| |]; cbn; try reflexivity. unfold more; cbn. rewrite app_assoc. reflexivity. Qed.
Definition follow (r : string) : Prop := num_stop r /\ stops tail_char r.
Lemma numeral_tail t v r : numeral t v -> stops tail_char r -> stops tail_char (t ++ r)%string.
Proof.
  assert (D : forall c, isdigit c = true -> tail_char c = false). { intros c. unfold isdigit, tail_char, islower, between. intros H. apply orb_false_iff. split; [|apply Ascii.eqb_neq; intros ->; discriminate]. change (N_of_ascii "0") with 48%N in H. change (N_of_ascii "9") with 57%N in H. change (N_of_ascii "a") with 97%N. change (N_of_ascii "z") with 122%N. lia. }
  intros H ST. destruct H as [|a A B C|a b A B C E]; [exact ST| |].
  - destruct a as [|x a]; [congruence|]. cbn in B |- *. apply andb_prop in B. apply D. tauto.
  - destruct a as [|x a]; [reflexivity|]. cbn in B |- *. apply andb_prop in B. apply D. tauto.
Qed.
Lemma name_head n : element_name n -> exists c t, n = String c t /\ (isupper c = true \/ c = "["%char).
Proof. intros [c t A B|b t A B C]; [exists c, t; auto|]. exists "["%char, (b ++ "]" ++ t)%string. auto. Qed.
Lemma upper_not c d : isupper c = true -> isupper d = false -> Ascii.eqb c d = false.
Proof. intros A B. apply Ascii.eqb_neq. intros ->. congruence. Qed.
Lemma parse_elt n t v r pc c : element_name n -> numeral t v -> follow r -> parse (n ++ t ++ r) pc c = pre [(n, (v * c)%Q)] (parse r pc c).
Proof.
  intros HN HT [F1 F2]. pose proof (get_elt_ok n (t ++ r) HN (numeral_tail _ _ _ HT F2)) as GE. pose proof (get_num_ok _ _ _ HT F1) as GN. destruct (name_head _ HN) as (x & w & -> & HX).
  unfold parse at 1. remember (String.length (String x w ++ t ++ r)) as F eqn:EF. cbn [append String.length] in EF |- *. cbn [get_elts]. replace (Ascii.eqb x "+" || Ascii.eqb x "-") with false. 2:{ symmetry. destruct HX as [HX | ->]; [|reflexivity]. rewrite !(upper_not x) by (assumption || reflexivity). reflexivity. }
  replace (Ascii.eqb x ")") with false. 2:{ symmetry. destruct HX as [HX | ->]; [|reflexivity]. apply upper_not; [assumption|reflexivity]. }
  replace (isupper x || _ || _) with true. 2:{ symmetry. destruct HX as [-> | ->]; [reflexivity|]. rewrite !orb_true_r. reflexivity. }
  cbn [append] in GE. rewrite GE. cbn [bind]. rewrite GN. rewrite (get_elts_fuel F (S (String.length r))); [reflexivity| |lia]. rewrite EF, !slen_app. lia.
Qed.
Lemma parse_close r pc c : 0 < pc -> parse (String ")" r) pc c = Ret (Some (mkParsed [] r (pc - 1) true)).
Proof. intros H. unfold parse. cbn [String.length get_elts]. cbn. replace (pc - 1 <? 0) with false by lia. reflexivity. Qed.
Lemma parse_group s t v r pc c l : 0 <= pc -> numeral t v -> num_stop r -> parse (s ++ String ")" (t ++ r)) (pc + 1) c = pre l (parse (String ")" (t ++ r)) (pc + 1) c) ->
  parse (String "(" (s ++ String ")" (t ++ r))) pc c = pre (scale v l) (parse r pc c).
Proof.
  intros HP HT F1 E. unfold parse at 1. remember (String.length (String "(" (s ++ String ")" (t ++ r)))) as F eqn:EF. cbn [String.length] in EF. cbn [get_elts]. change (Ascii.eqb "(" "+" || Ascii.eqb "(" "-") with false. change (Ascii.eqb "(" ")") with false. change (Ascii.eqb "(" "(") with true.
  match goal with |- (if false then _ else if false then _ else if ?b then _ else _) = _ => change b with false end. cbv iota.
  rewrite (get_elts_fuel F (S (String.length (s ++ String ")" (t ++ r)))) _ _ _) by lia. fold (parse (s ++ String ")" (t ++ r)) (pc + 1) c). rewrite E, parse_close by lia. unfold pre at 1. cbn [bind more found rest parens clean]. rewrite (get_num_ok _ _ _ HT F1). rewrite app_nil_r. replace (pc + 1 - 1) with pc by lia.
  rewrite (get_elts_fuel F (S (String.length r))); [reflexivity| |lia]. rewrite EF, slen_app. cbn. rewrite slen_app. lia.
Qed.
Definition nv (t : string) : Q := match get_num t with Some (v, _) => v | None => 0%Q end.
Lemma nv_ok t v : numeral t v -> nv t = v.
Proof. intros H. unfold nv. pose proof (get_num_ok t v "" H Logic.I) as E. rewrite sapp_nil in E. now rewrite E. Qed.
Fixpoint flat (c : Q) (p : part) : list (string * Q) :=
  match p with Elt n t => [(n, (nv t * c)%Q)] | Group l t => scale (nv t) ((fix go l := match l with [] => [] | x :: r => flat c x ++ go r end) l) end.
Fixpoint flats (c : Q) (l : list part) : list (string * Q) := match l with [] => [] | x :: r => flat c x ++ flats c r end.
Lemma show_group l t : show (Group l t) = ("(" ++ shows l ++ ")" ++ t)%string.
Proof. cbn [show]. reflexivity. Qed.
Lemma flat_group c l t : flat c (Group l t) = scale (nv t) (flats c l).
Proof. cbn [flat]. f_equal. induction l as [|x l IH]; [reflexivity|]. cbn [flats]. now rewrite <- IH. Qed.
Section PartInd.
  Variable P : part -> Prop.
  Hypothesis HE : forall n t, P (Elt n t).
  Hypothesis HG : forall l t, Forall P l -> P (Group l t).
  Fixpoint part_induction (p : part) : P p :=
    match p with
    | Elt n t => HE n t
    | Group l t => HG l t ((fix go l : Forall P l := match l with [] => Forall_nil P | x :: r => Forall_cons x (part_induction x) (go r) end) l)
    end.
End PartInd.
Lemma upper_follow c t : isupper c = true \/ c = "["%char \/ c = "("%char -> follow (String c t).
Proof.
  intros [H | [-> | ->]]; [|split; [split|]; [reflexivity|discriminate|reflexivity]..]. split; [split|]; cbn.
  - unfold isupper, isdigit, between in *. change (N_of_ascii "0") with 48%N. change (N_of_ascii "9") with 57%N. change (N_of_ascii "A") with 65%N in H. change (N_of_ascii "Z") with 90%N in H. lia.
  - intros ->. discriminate.
  - unfold tail_char, islower. apply orb_false_iff. split; [|apply upper_not; [assumption|reflexivity]]. unfold isupper, between in *. change (N_of_ascii "a") with 97%N. change (N_of_ascii "z") with 122%N. change (N_of_ascii "A") with 65%N in H. change (N_of_ascii "Z") with 90%N in H. lia.
Qed.
Lemma follow_part p r : well p -> follow (show p ++ r)%string.
Proof.
  intros H. destruct H as [n t v A B|l t v A B].
  - destruct (name_head _ A) as (x & w & -> & HX). cbn [show append]. apply upper_follow. tauto.
  - rewrite show_group. cbn [append]. apply upper_follow. tauto.
Qed.
Lemma follow_parts l r : Forall well l -> follow r -> follow (shows l ++ r)%string.
Proof. intros H F. destruct H as [|p l A B]; [exact F|]. cbn [shows]. rewrite sapp_assoc. apply follow_part. exact A. Qed.
Lemma parse_part p : well p -> forall r pc c, 0 <= pc -> follow r -> parse (show p ++ r) pc c = pre (flat c p) (parse r pc c).
Proof.
  induction p as [n t|l t IH] using part_induction; intros W r pc c HP FR; inversion W as [n0 t0 v HN HT|l0 t0 v HL HT]; subst.
  - cbn [show flat]. rewrite sapp_assoc, (nv_ok _ _ HT). apply parse_elt; assumption.
  - rewrite show_group, flat_group, (nv_ok _ _ HT). cbn [append]. rewrite sapp_assoc. cbn [append]. apply parse_group; try assumption; [apply FR|].
    assert (X : forall l', Forall well l' -> Forall (fun p => well p -> forall r pc c, 0 <= pc -> follow r -> parse (show p ++ r) pc c = pre (flat c p) (parse r pc c)) l' -> parse (shows l' ++ String ")" (t ++ r)) (pc + 1) c = pre (flats c l') (parse (String ")" (t ++ r)) (pc + 1) c)).
    { intros l' W'. induction W' as [|q l' W1 W2 IH2]; intros I'.
      - cbn [shows flats append]. unfold pre. destruct (parse _ _ _) as [[[f r0 k0 q]|]| |]; reflexivity.
      - inversion I' as [|q0 l0 I1 I2]; subst. cbn [shows flats]. rewrite sapp_assoc, I1; [|assumption|lia|apply follow_parts; [assumption|]; split; [split|]; [reflexivity|discriminate|reflexivity]]. rewrite IH2 by assumption. apply pre_pre. }
    apply X; assumption.
Qed.
Lemma parse_parts l : Forall well l -> forall r pc c, 0 <= pc -> follow r -> parse (shows l ++ r) pc c = pre (flats c l) (parse r pc c).
Proof.
  induction 1 as [|p l A B IH]; intros r pc c HP FR.
  - cbn [shows flats append]. unfold pre. destruct (parse r pc c) as [[[f r0 k0 q]|]| |]; reflexivity.
  - cbn [shows flats]. rewrite sapp_assoc, (parse_part p A) by (assumption || now apply follow_parts). rewrite IH by assumption. apply pre_pre.
Qed.
Lemma parse_ends r c : ends r -> parse r 0 c = Ret (Some (mkParsed [] r 0 true)).
Proof. destruct r as [|x r]; [reflexivity|]. intros [-> | ->]; reflexivity. Qed.
Lemma ends_follow r : ends r -> follow r.
Proof. destruct r as [|x r]; [split; exact Logic.I|]. intros [-> | ->]; (split; [split|]; [reflexivity|discriminate|reflexivity]). Qed.
Lemma parse_hydrate t v m r pc c : numeral t v -> Forall well m -> follow r -> parse (String ":" (t ++ shows m ++ r)) pc c =
  do x <- parse (shows m ++ r) pc c; match x with None => Ret None | Some p => do y <- parse (rest p) (parens p) c; match y with None => Ret None | Some q => Ret (Some (more (scale v (found p)) (clean p) q)) end end.
Proof.
  intros HT HM FR. unfold parse at 1. remember (String.length (String ":" (t ++ shows m ++ r))) as F eqn:EF. cbn [String.length] in EF. cbn [get_elts].
  change (Ascii.eqb ":" "+" || Ascii.eqb ":" "-") with false. change (Ascii.eqb ":" ")") with false. change (Ascii.eqb ":" "(") with false. change (Ascii.eqb ":" ":") with true.
  match goal with |- (if false then _ else if false then _ else if ?b then _ else _) = _ => change b with false end. cbv iota.
  rewrite (get_num_ok _ _ _ HT) by (apply follow_parts; assumption). rewrite (get_elts_fuel F (S (String.length (shows m ++ r)))); [|rewrite EF, !slen_app; lia|lia]. fold (parse (shows m ++ r) pc c). destruct (parse (shows m ++ r) pc c) as [[p|]| |] eqn:E; cbn [bind]; try reflexivity. apply get_elts_len in E. rewrite (get_elts_fuel F (S (String.length (rest p)))); [reflexivity| |lia]. rewrite EF, slen_app. lia.
Qed.

(** ** What the lists say *)
Lemma amount_app e a b : (amount e (a ++ b) == amount e a + amount e b)%Q.
Proof. unfold amount. rewrite map_app. induction (map _ a) as [|x l IH]; cbn; [ring|]. rewrite IH. ring. Qed.
Lemma amount_scale e d l : (amount e (scale d l) == amount e l * d)%Q.
Proof. unfold amount, scale. rewrite map_map. induction l as [|[n q] l IH]; cbn; [ring|]. rewrite IH. destruct (String.eqb n e); ring. Qed.
Lemma flat_mean p : well p -> forall c e q, meaning p e q -> (amount e (flat c p) == q * c)%Q.
Proof.
  induction p as [n t|l t IH] using part_induction; intros W c e q M; inversion W as [n0 t0 v HN HT|l0 t0 v HL HT]; inversion M as [n1 t1 v1 e1 HN1 HT1|l1 t1 v1 e1 q1 HT1 M1]; subst.
  - cbn [flat]. unfold amount. cbn. rewrite (nv_ok _ _ HT1). destruct (String.eqb n e); ring.
  - rewrite flat_group, amount_scale, (nv_ok _ _ HT1).
    assert (X : forall l' q', Forall well l' -> Forall (fun p => well p -> forall c e q, meaning p e q -> (amount e (flat c p) == q * c)%Q) l' -> meanings l' e q' -> (amount e (flats c l') == q' * c)%Q).
    { induction l' as [|x l' IH2]; intros q' W' I' M'; inversion M'; subst; [unfold amount; cbn; ring|]. inversion W'; inversion I'; subst. cbn [flats]. rewrite amount_app. match goal with H : well x -> _, A : well x, B : meaning x _ _ |- _ => rewrite (H A c _ _ B) end. rewrite (IH2 q'0) by assumption. ring. }
    rewrite (X l q1) by assumption. ring.
Qed.
Lemma flats_mean l : Forall well l -> forall c e q, meanings l e q -> (amount e (flats c l) == q * c)%Q.
Proof.
  induction 1 as [|p l A B IH]; intros c e q M; inversion M; subst; [unfold amount; cbn; ring|]. cbn [flats]. rewrite amount_app. rewrite (flat_mean p A c e q0) by assumption. rewrite (IH c e q') by assumption. ring.
Qed.
Lemma meanings_exist l : Forall well l -> forall e, exists q, meanings l e q.
Proof.
  assert (X : forall p, well p -> forall e, exists q, meaning p e q).
  { induction p as [n t|l' t IH] using part_induction; intros W e; inversion W as [n0 t0 v HN HT|l0 t0 v HL HT]; subst.
    - eexists. econstructor; eassumption.
    - assert (Y : exists q, meanings l' e q). { clear W. induction HL as [|x l' A B IH2]; [eexists; constructor|]. inversion IH; subst. destruct (H1 A e) as [q1 M1]. destruct (IH2 H2) as [q2 M2]. eexists. econstructor; eassumption. }
      destruct Y as [q Y]. eexists. econstructor; eassumption. }
  induction 1 as [|p l A B IH]; intros e; [eexists; constructor|]. destruct (X p A e) as [q M]. destruct (IH e) as [q' M']. eexists. econstructor; eassumption.
Qed.

(** ** What an accepted text looks like *)
Lemma get_elts_parens F : forall s pc c p, 0 <= pc -> get_elts F s pc c = Ret (Some p) -> 0 <= parens p <= Z.max (pc - 1) 0 /\ (pc = 0 -> ends (rest p)).
Proof.
  induction F as [|F IH]; intros s pc c p HP; [discriminate|]. cbn [get_elts]. destruct s as [|x r]; [destruct (pc =? 0) eqn:E; [|discriminate]; intros X; injection X as <-; cbn; split; [lia|auto]|].
  assert (LP : forall l ok s' pc', 0 <= pc' <= pc -> (do y <- get_elts F s' pc' c; match y with None => Ret None | Some q => Ret (Some (more l ok q)) end) = Ret (Some p) -> 0 <= parens p <= Z.max (pc - 1) 0 /\ (pc = 0 -> ends (rest p))).
  { intros l ok s' pc' L. destruct (get_elts F s' pc' c) as [[q|]| |] eqn:E; cbn [bind]; try discriminate. apply IH in E; [|lia]. intros X; injection X as <-. cbn [more parens rest]. split; [lia|]. intros ->. apply E. lia. }
  destruct (Ascii.eqb x "+" || Ascii.eqb x "-") eqn:EX; [destruct (pc =? 0) eqn:E; [|discriminate]; intros X; injection X as <-; cbn; split; [lia|]; intros _; apply orb_prop in EX; destruct EX as [EX|EX]; apply Ascii.eqb_eq in EX; auto|].
  destruct (Ascii.eqb x ")"); [destruct (pc - 1 <? 0) eqn:E; [discriminate|]; intros X; injection X as <-; cbn; split; [lia|]; lia|].
  match goal with |- (if ?b then _ else _) = _ -> _ => destruct b end.
  { destruct (get_elt (String x r)) as [[[[n u] ok]|]| |] eqn:E; cbn [bind]; try discriminate. destruct (get_num u) as [[d v]|] eqn:G; [|discriminate]. apply LP. lia. }
  destruct (Ascii.eqb x "(").
  { destruct (get_elts F r (pc + 1) c) as [[q|]| |] eqn:E; cbn [bind]; try discriminate. apply IH in E; [|lia]. destruct (get_num (rest q)) as [[d v]|] eqn:G; [|discriminate]. apply LP. lia. }
  destruct (Ascii.eqb x ":"); [|discriminate]. destruct (get_num r) as [[d v]|] eqn:G; [|discriminate]. destruct (get_elts F v pc c) as [[q|]| |] eqn:E; cbn [bind]; try discriminate. apply IH in E; [|lia]. apply LP. lia.
Qed.
Definition net (s : string) : Z := tally "(" s - tally ")" s.
Lemma tally_app c a b : tally c (a ++ b)%string = tally c a + tally c b.
Proof. induction a as [|x a IH]; [reflexivity|]. cbn [append tally]. rewrite IH. lia. Qed.
Lemma net_app a b : net (a ++ b)%string = net a + net b.
Proof. unfold net. rewrite !tally_app. lia. Qed.
Lemma tally_free (p : ascii -> bool) c s : p c = false -> chars p s = true -> tally c s = 0.
Proof. intros H. induction s as [|x s IH]; [reflexivity|]. cbn [chars tally]. intros A. apply andb_prop in A. destruct A as [A B]. rewrite (IH B). destruct (Ascii.eqb c x) eqn:E; [apply Ascii.eqb_eq in E; congruence|lia]. Qed.
Lemma net_free (p : ascii -> bool) s : p "("%char = false -> p ")"%char = false -> chars p s = true -> net s = 0.
Proof. intros A B C. unfold net. rewrite (tally_free p _ _ A C), (tally_free p _ _ B C). reflexivity. Qed.
Lemma tally_nonneg c s : 0 <= tally c s.
Proof. induction s as [|x s IH]; cbn [tally]; [lia|]. destruct (Ascii.eqb c x); lia. Qed.
Lemma get_elts_net F : forall s pc c p, tally "[" s = 0 -> get_elts F s pc c = Ret (Some p) -> tally "[" (rest p) = 0 /\ net s - net (rest p) = parens p - pc.
Proof.
  induction F as [|F IH]; intros s pc c p HB; [discriminate|]. cbn [get_elts]. destruct s as [|x r]; [destruct (pc =? 0) eqn:E; [|discriminate]; intros X; injection X as <-; cbn; split; [auto|lia]|].
  assert (LP : forall l ok s' pc', tally "[" s' = 0 -> net (String x r) - net s' = pc' - pc -> (do y <- get_elts F s' pc' c; match y with None => Ret None | Some q => Ret (Some (more l ok q)) end) = Ret (Some p) -> tally "[" (rest p) = 0 /\ net (String x r) - net (rest p) = parens p - pc).
  { intros l ok s' pc' T L. destruct (get_elts F s' pc' c) as [[q|]| |] eqn:E; cbn [bind]; try discriminate. apply IH in E; [|exact T]. intros X; injection X as <-. cbn [more parens rest]. split; [tauto|]. lia. }
  destruct (Ascii.eqb x "+" || Ascii.eqb x "-") eqn:EX; [destruct (pc =? 0) eqn:E; [|discriminate]; intros X; injection X as <-; cbn [rest parens]; split; [exact HB|lia]|].
  pose proof (tally_nonneg "[" r) as TN.
  destruct (Ascii.eqb x ")") eqn:EC; [apply Ascii.eqb_eq in EC; subst x; destruct (pc - 1 <? 0) eqn:E; [discriminate|]; intros X; injection X as <-; cbn [rest parens]; split; [exact HB|]; change (String ")" r) with (")" ++ r)%string; rewrite net_app; change (net ")") with (-1); lia|].
  match goal with |- (if ?b then _ else _) = _ -> _ => destruct b eqn:EB end.
  { destruct (get_elt (String x r)) as [[[[n u] ok]|]| |] eqn:E; cbn [bind]; try discriminate. destruct (get_num u) as [[d v]|] eqn:G; [|discriminate]. destruct (get_num_len _ _ _ G) as (b & -> & B).
    cbn [get_elt] in E. destruct (Ascii.eqb x "[") eqn:EL; [exfalso; apply Ascii.eqb_eq in EL; subst x; cbn [tally] in HB; change (Ascii.eqb "[" "[") with true in HB; lia|].
    pose proof (span_spec tail_char r) as SP. destruct (span tail_char r) as [y w]. destruct SP as (-> & SP & _). injection E as <- -> <-. cbn [tally] in HB. rewrite !tally_app in HB. pose proof (tally_nonneg "[" y). pose proof (tally_nonneg "[" b). pose proof (tally_nonneg "[" v). apply LP.
    - destruct (Ascii.eqb "[" x); lia.
    - change (String x (y ++ b ++ v)) with (String x "" ++ (y ++ b ++ v))%string. rewrite !net_app. rewrite (net_free _ _ eq_refl eq_refl SP), (net_free _ _ eq_refl eq_refl B). unfold net. cbn [tally]. rewrite (Ascii.eqb_sym "(" x), (Ascii.eqb_sym ")" x), EC. replace (Ascii.eqb x "(") with false; [lia|]. symmetry. apply Ascii.eqb_neq. intros ->. discriminate. }
  destruct (Ascii.eqb x "(") eqn:EP.
  { apply Ascii.eqb_eq in EP. subst x. cbn [tally] in HB. change (Ascii.eqb "[" "(") with false in HB. destruct (get_elts F r (pc + 1) c) as [[q|]| |] eqn:E; cbn [bind]; try discriminate. apply IH in E; [|exact HB]. destruct E as [E1 E2]. destruct (get_num (rest q)) as [[d v]|] eqn:G; [|discriminate]. destruct (get_num_len _ _ _ G) as (b & GE & B). rewrite GE in E1, E2. rewrite tally_app in E1. rewrite net_app, (net_free _ _ eq_refl eq_refl B) in E2. pose proof (tally_nonneg "[" b). pose proof (tally_nonneg "[" v). apply LP; [lia|]. change (String "(" r) with ("(" ++ r)%string. rewrite net_app. change (net "(") with 1. lia. }
  destruct (Ascii.eqb x ":") eqn:EQ; [|discriminate]. apply Ascii.eqb_eq in EQ. subst x. cbn [tally] in HB. change (Ascii.eqb "[" ":") with false in HB. destruct (get_num r) as [[d v]|] eqn:G; [|discriminate]. destruct (get_num_len _ _ _ G) as (b & -> & B). rewrite tally_app in HB. pose proof (tally_nonneg "[" b). pose proof (tally_nonneg "[" v). destruct (get_elts F v pc c) as [[q|]| |] eqn:E; cbn [bind]; try discriminate. apply IH in E; [|lia]. destruct E as [E1 E2]. apply LP; [lia|]. change (String ":" (b ++ v)) with (":" ++ (b ++ v))%string. rewrite !net_app, (net_free _ _ eq_refl eq_refl B). change (net ":") with 0. lia.
Qed.
