(** Lemmas on the reading of input. *)
From Coq Require Import String Ascii ZArith Bool List Lia.
From Verif Require Import Inp_Model Inp_Spec.
Import ListNotations.
Local Open Scope string_scope.
Local Open Scope list_scope.
Local Open Scope Z_scope.

Lemma sapp_assoc : forall a b c : string, ((a ++ b) ++ c = a ++ b ++ c)%string.
Proof. induction a as [|x a IH]; intros; cbn; [|rewrite IH]; reflexivity. Qed.
Lemma sapp_nil : forall a : string, (a ++ "" = a)%string.
Proof. induction a as [|x a IH]; cbn; [|rewrite IH]; reflexivity. Qed.
Lemma sapp_len : forall a b : string, String.length (a ++ b) = (String.length a + String.length b)%nat.
Proof. induction a as [|x a IH]; intros; cbn; [|rewrite IH]; reflexivity. Qed.
Lemma snoc_app : forall a c s, (snoc a c ++ s = a ++ String c s)%string.
Proof. intros. unfold snoc. rewrite sapp_assoc. reflexivity. Qed.
Lemma sub_app : forall a b, substring 0 (String.length a) (a ++ b) = a.
Proof. induction a as [|x a IH]; intros b; cbn; [destruct b; reflexivity | rewrite IH; reflexivity]. Qed.
Lemma each_app : forall p a b, each p (a ++ b) = each p a && each p b.
Proof. induction a as [|x a IH]; intros; cbn; [reflexivity | rewrite IH, andb_assoc; reflexivity]. Qed.
Lemma each_imp : forall (p q : ascii -> bool) s, (forall c, p c = true -> q c = true) -> each p s = true -> each q s = true.
Proof.
  induction s as [|c s IH]; intros H E; cbn in *; [reflexivity|].
  apply andb_true_iff in E. destruct E as [A B]. rewrite (H c A), (IH H B). reflexivity.
Qed.

Lemma ordinary_ne : forall c, ordinary c = true ->
  Ascii.eqb c hash = false /\ Ascii.eqb c semicolon = false /\ Ascii.eqb c backslash = false /\
  Ascii.eqb c newline = false /\ Ascii.eqb c return_ = false.
Proof.
  intros c H. unfold ordinary in H. apply negb_true_iff in H.
  repeat (apply orb_false_iff in H; let K := fresh in destruct H as [H K]). repeat split; assumption.
Qed.

Lemma logical_plain : forall s acc r, each ordinary s = true ->
  logical Text acc (s ++ r) = logical Text (acc ++ s) r.
Proof.
  induction s as [|c s IH]; intros acc r E; cbn [String.append each] in *.
  - rewrite sapp_nil. reflexivity.
  - apply andb_true_iff in E. destruct E as [A B].
    destruct (ordinary_ne c A) as (H1 & H2 & H3 & H4 & _).
    cbn [logical]. rewrite H1, H2, H3, H4. cbn [orb]. rewrite IH by assumption.
    rewrite snoc_app. reflexivity.
Qed.

Lemma logical_gap : forall b p acc r, each gap b = true ->
  logical (Back p) acc (b ++ r) = logical (Back p) (acc ++ b) r.
Proof.
  induction b as [|c b IH]; intros p acc r E; cbn [String.append each] in *.
  - rewrite sapp_nil. reflexivity.
  - apply andb_true_iff in E. destruct E as [A B]. unfold gap in A. apply andb_true_iff in A. destruct A as [A O].
    destruct (ordinary_ne c O) as (H1 & H2 & H3 & H4 & _).
    cbn [logical]. rewrite H3, H4, A. rewrite IH by assumption. rewrite snoc_app. reflexivity.
Qed.

Lemma logical_part : forall p acc r, good_part p ->
  logical Text acc (chars_of p ++ r) = logical Text (acc ++ said p) r.
Proof.
  intros [s | b c | b] acc r G; cbn [chars_of said good_part] in *.
  - apply logical_plain, G.
  - destruct G as (E & S & NB & NH). cbn [String.append logical].
    change (Ascii.eqb backslash hash) with false. change (Ascii.eqb backslash semicolon) with false.
    change (Ascii.eqb backslash newline) with false. change (Ascii.eqb backslash backslash) with true.
    cbn [orb]. rewrite sapp_assoc, logical_gap by assumption. cbn [String.append logical].
    apply Ascii.eqb_neq in NB. rewrite NB, S.
    assert (N : Ascii.eqb c newline = false).
    { destruct (Ascii.eqb_spec c newline) as [-> | H]; [discriminate S | reflexivity]. }
    rewrite N. unfold snoc at 1. rewrite snoc_app, !sapp_assoc. reflexivity.
  - cbn [String.append logical].
    change (Ascii.eqb backslash hash) with false. change (Ascii.eqb backslash semicolon) with false.
    change (Ascii.eqb backslash newline) with false. change (Ascii.eqb backslash backslash) with true.
    cbn [orb]. rewrite sapp_assoc, logical_gap by assumption. cbn [String.append logical].
    change (Ascii.eqb newline backslash) with false. change (Ascii.eqb newline newline) with true.
    cbv beta iota. rewrite snoc_app, sub_app, sapp_nil. reflexivity.
Qed.

Lemma logical_parts : forall ps acc r, Forall good_part ps ->
  logical Text acc (concat_map chars_of ps ++ r) = logical Text (acc ++ concat_map said ps) r.
Proof.
  induction ps as [|p ps IH]; intros acc r F; cbn [concat_map].
  - rewrite sapp_nil. reflexivity.
  - inversion F as [|? ? G F']; subst. rewrite sapp_assoc, logical_part, IH, sapp_assoc by assumption. reflexivity.
Qed.

Lemma logical_comment : forall s acc r, each no_newline s = true ->
  logical Comment acc (s ++ r) = logical Comment (acc ++ s) r.
Proof.
  induction s as [|c s IH]; intros acc r E; cbn [String.append each] in *.
  - rewrite sapp_nil. reflexivity.
  - apply andb_true_iff in E. destruct E as [A B]. unfold no_newline in A.
    apply negb_true_iff, orb_false_iff in A. destruct A as [A _].
    cbn [logical]. rewrite A. rewrite IH by assumption. rewrite snoc_app. reflexivity.
Qed.

Definition no_hash (c : ascii) : bool := negb (Ascii.eqb c hash).
Lemma before_hash_same : forall s, each no_hash s = true -> before_hash s = s.
Proof.
  induction s as [|c s IH]; intros E; cbn in *; [reflexivity|].
  apply andb_true_iff in E. destruct E as [A B]. unfold no_hash in A. apply negb_true_iff in A.
  rewrite A, IH by assumption. reflexivity.
Qed.
Lemma before_hash_app : forall s t, each no_hash s = true -> before_hash (s ++ String hash t) = s.
Proof.
  induction s as [|c s IH]; intros t E; cbn in *; [reflexivity|].
  apply andb_true_iff in E. destruct E as [A B]. unfold no_hash in A. apply negb_true_iff in A.
  rewrite A, IH by assumption. reflexivity.
Qed.

Lemma ordinary_no_hash : forall c, ordinary c = true -> no_hash c = true.
Proof. intros c H. destruct (ordinary_ne c H) as (A & _). unfold no_hash. rewrite A. reflexivity. Qed.
Lemma gap_ordinary : forall c, gap c = true -> ordinary c = true.
Proof. intros c H. unfold gap in H. apply andb_true_iff in H. apply H. Qed.

Lemma said_no_hash : forall p, good_part p -> each no_hash (said p) = true.
Proof.
  intros [s | b c | b] G; cbn [said good_part] in *.
  - eapply each_imp; [apply ordinary_no_hash | exact G].
  - destruct G as (E & _ & _ & NH). cbn [each]. change (no_hash backslash) with true. cbn [andb].
    rewrite each_app. cbn [each].
    rewrite (each_imp gap no_hash b) by (auto using ordinary_no_hash, gap_ordinary).
    unfold no_hash. apply Ascii.eqb_neq in NH. rewrite NH. reflexivity.
  - reflexivity.
Qed.

Lemma content_no_hash : forall d, good_line d -> each no_hash (content d) = true.
Proof.
  intros [ps e] [F _]. unfold content. cbn [parts] in *. induction F as [|p ps G F IH]; cbn [concat_map]; [reflexivity|].
  rewrite each_app, said_no_hash, IH by assumption. reflexivity.
Qed.

Lemma get_line_of : forall d ds, good_line d -> (at_eof d = true -> ds = []) ->
  (exists save, get_logical_line (line_chars d ++ text_chars ds) = Some (save, text_chars ds) /\
     before_hash save = content d) \/
  (content d = "" /\ ds = [] /\ get_logical_line (line_chars d ++ text_chars ds) = None).
Proof.
  intros d ds G E. pose proof (content_no_hash d G) as NH. destruct G as [F GE].
  unfold get_logical_line, line_chars. rewrite sapp_assoc, logical_parts by assumption.
  cbn [String.append]. fold (content d). 
  destruct (fin d) as [| | s | | s] eqn:FD; cbn [end_chars good_end] in *.
  - left. exists (content d). cbn. split; [destruct (content d); reflexivity | apply before_hash_same, NH].
  - left. exists (content d). cbn. split; [destruct (content d); reflexivity | apply before_hash_same, NH].
  - left. exists (snoc (content d) hash ++ s)%string. split.
    + cbn [String.append logical]. change (Ascii.eqb hash hash) with true. cbv iota.
      rewrite sapp_assoc, logical_comment by assumption. cbn [String.append logical].
      change (Ascii.eqb newline newline) with true. cbv iota.
      destruct (snoc (content d) hash ++ s)%string; reflexivity.
    + rewrite snoc_app. apply before_hash_app, NH.
  - unfold at_eof in E. rewrite FD in E. rewrite (E eq_refl). cbn.
    destruct (content d) as [|c r] eqn:C.
    + right. repeat split.
    + left. exists (String c r). split; [reflexivity|]. apply before_hash_same, NH.
  - unfold at_eof in E. rewrite FD in E. rewrite (E eq_refl). left.
    cbn [text_chars concat_map]. rewrite sapp_nil. cbn [logical]. change (Ascii.eqb hash hash) with true. cbv iota.
    rewrite <- (sapp_nil s), logical_comment by assumption. rewrite snoc_app. cbn [logical].
    assert (NE : exists a b, (content d ++ String hash s)%string = String a b).
    { destruct (content d); cbn; eauto. }
    destruct NE as (a & b & NE). rewrite NE.
    destruct (last_char (String a b)) as [c|] eqn:L.
    + destruct (Ascii.eqb c semicolon).
      * exists (String a b). split; [reflexivity|]. rewrite <- NE. apply before_hash_app, NH.
      * unfold snoc. cbn [String.append]. eexists. split; [reflexivity|].
        change (String a (b ++ String c "")) with (String a b ++ String c "")%string. rewrite <- NE.
        rewrite sapp_assoc. cbn [String.append]. apply before_hash_app, NH.
    + exists (String a b). split; [reflexivity|]. rewrite <- NE. apply before_hash_app, NH.
Qed.

(** Returns. *)
Definition no_return (c : ascii) : bool := negb (Ascii.eqb c return_).
Lemma getcs_same : forall s, each no_return s = true -> getcs s = s.
Proof.
  induction s as [|c s IH]; intros E; [reflexivity|]. cbn [each] in E. apply andb_true_iff in E. destruct E as [A B].
  unfold no_return in A. apply negb_true_iff in A. cbn [getcs]. destruct s as [|d s]; [reflexivity|].
  rewrite A. cbn [andb]. rewrite IH by exact B. reflexivity.
Qed.
Lemma getcs_dos : forall s, each no_return s = true -> getcs (dos s) = s.
Proof.
  induction s as [|c s IH]; intros E; [reflexivity|]. cbn [each] in E. apply andb_true_iff in E. destruct E as [A B].
  specialize (IH B). unfold no_return in A. apply negb_true_iff in A. cbn [dos].
  destruct (Ascii.eqb_spec c newline) as [-> | N].
  - cbn [getcs]. change (Ascii.eqb return_ return_) with true. change (Ascii.eqb newline newline) with true.
    cbn [andb]. destruct (dos s) as [|e t] eqn:D.
    + destruct s as [|x y]; [reflexivity|]. cbn [dos] in D. destruct (Ascii.eqb x newline); discriminate D.
    + change (Ascii.eqb newline return_) with false. cbn [andb]. f_equal. exact IH.
  - cbn [getcs]. rewrite A. cbn [andb]. destruct (dos s) as [|e t] eqn:D.
    + destruct s as [|x y]; [reflexivity|]. cbn [dos] in D. destruct (Ascii.eqb x newline); discriminate D.
    + rewrite IH. reflexivity.
Qed.

Lemma ordinary_no_return : forall c, ordinary c = true -> no_return c = true.
Proof. intros c H. destruct (ordinary_ne c H) as (_ & _ & _ & _ & A). unfold no_return. rewrite A. reflexivity. Qed.

Lemma part_no_return : forall p, good_part p -> each no_return (chars_of p) = true.
Proof.
  intros [s | b c | b] G; cbn [chars_of good_part] in *.
  - eapply each_imp; [apply ordinary_no_return | exact G].
  - destruct G as (E & S & _). cbn [each]. change (no_return backslash) with true. cbn [andb].
    rewrite each_app. cbn [each].
    rewrite (each_imp gap no_return b) by (auto using ordinary_no_return, gap_ordinary).
    unfold no_return. destruct (Ascii.eqb_spec c return_) as [-> | N]; [discriminate S | reflexivity].
  - cbn [each]. change (no_return backslash) with true. cbn [andb]. rewrite each_app. cbn [each].
    rewrite (each_imp gap no_return b) by (auto using ordinary_no_return, gap_ordinary). reflexivity.
Qed.

Lemma no_newline_no_return : forall c, no_newline c = true -> no_return c = true.
Proof.
  intros c H. unfold no_newline in H. apply negb_true_iff, orb_false_iff in H. unfold no_return. rewrite (proj2 H). reflexivity.
Qed.

Lemma text_no_return : forall ds, good_text ds -> each no_return (text_chars ds) = true.
Proof.
  induction ds as [|d ds IH]; intros G; [reflexivity|]. destruct G as ((F & GE) & _ & G).
  unfold text_chars in *. cbn [concat_map]. rewrite each_app, IH by assumption. rewrite andb_true_r.
  unfold line_chars. rewrite each_app. apply andb_true_iff. split.
  - induction F as [|p ps GP F IHF]; [reflexivity|]. cbn [concat_map]. rewrite each_app, part_no_return, IHF by assumption. reflexivity.
  - destruct (fin d) as [| | s | | s]; cbn [end_chars each good_end] in *; try reflexivity.
    + rewrite each_app. cbn [each]. rewrite (each_imp no_newline no_return s no_newline_no_return GE). reflexivity.
    + rewrite (each_imp no_newline no_return s no_newline_no_return GE). reflexivity.
Qed.

(** Words. *)
Lemma blank_each : forall s, blank s = each isspace s.
Proof. induction s as [|c s IH]; cbn; [reflexivity | rewrite IH; reflexivity]. Qed.

Lemma skip_app : forall b s, each isspace b = true ->
  match s with "" => True | String c _ => isspace c = false end -> skip (b ++ s) = s.
Proof.
  induction b as [|c b IH]; intros s E H; cbn in *.
  - destruct s as [|c r]; [reflexivity|]. cbn. rewrite H. reflexivity.
  - apply andb_true_iff in E. destruct E as [A B]. rewrite A. apply IH; assumption.
Qed.
Lemma skip_split : forall s, exists b, s = (b ++ skip s)%string /\ each isspace b = true /\
  match skip s with "" => True | String c _ => isspace c = false end.
Proof.
  induction s as [|c s (b & E & A & H)]; [exists ""; cbn; auto|]. cbn [skip].
  destruct (isspace c) eqn:S.
  - exists (String c b). cbn. rewrite <- E, S. auto.
  - exists "". cbn. auto.
Qed.

Lemma word_app : forall w r, each (fun c => negb (isspace c)) w = true ->
  match r with "" => True | String c _ => isspace c = true end -> word_of (w ++ r) = (w, r).
Proof.
  induction w as [|c w IH]; intros r E H; cbn in *.
  - destruct r as [|c r]; [reflexivity|]. cbn. rewrite H. reflexivity.
  - apply andb_true_iff in E. destruct E as [A B]. apply negb_true_iff in A. rewrite A, IH by assumption. reflexivity.
Qed.
Lemma word_split : forall s, let '(w, r) := word_of s in s = (w ++ r)%string /\
  each (fun c => negb (isspace c)) w = true /\ match r with "" => True | String c _ => isspace c = true end.
Proof.
  induction s as [|c s IH]; [cbn; auto|]. cbn [word_of]. destruct (isspace c) eqn:S.
  - cbn. auto.
  - destruct (word_of s) as [w r]. destruct IH as (E & A & H). cbn. rewrite S, <- E, A. auto.
Qed.

Lemma token_of : forall line w rest, first_word line w rest -> copy_token line = (w, rest).
Proof.
  intros line w rest (b & -> & B & NE & W & R). unfold copy_token. rewrite skip_app; [apply word_app; assumption | assumption|].
  destruct w as [|c w]; [congruence|]. cbn in *. apply andb_true_iff in W. destruct W as [W _]. apply negb_true_iff, W.
Qed.
Lemma token_first : forall line w rest, copy_token line = (w, rest) -> w <> "" -> first_word line w rest.
Proof.
  intros line w rest E NE. unfold copy_token in E. destruct (skip_split line) as (b & L & B & _).
  pose proof (word_split (skip line)) as H. rewrite E in H. destruct H as (K & W & R).
  exists b. rewrite L at 1. rewrite K. auto.
Qed.

Lemma trim_right_blank : forall e, each isspace e = true -> trim_right e = "".
Proof.
  induction e as [|c e IH]; intros E; [reflexivity|]. cbn in *. apply andb_true_iff in E. destruct E as [A B].
  rewrite IH, A by assumption. reflexivity.
Qed.
Lemma trim_right_app : forall r d e, isspace d = false -> each isspace e = true ->
  trim_right (r ++ String d e) = (r ++ String d "")%string.
Proof.
  induction r as [|c r IH]; intros d e D E; cbn.
  - rewrite trim_right_blank, D by assumption. reflexivity.
  - rewrite IH by assumption. destruct (r ++ String d "")%string eqn:K; [|reflexivity]. destruct r; discriminate K.
Qed.
Lemma trim_of : forall b f e, each isspace b = true -> each isspace e = true -> trimmed f -> trim (b ++ f ++ e) = f.
Proof.
  intros b f e B E ((c & r & F1 & C) & (r' & d & F2 & D)). unfold trim.
  replace (b ++ f ++ e)%string with ((b ++ r') ++ String d e)%string
    by (rewrite F2, !sapp_assoc; reflexivity).
  rewrite trim_right_app by assumption. rewrite sapp_assoc, <- F2. apply skip_app; [assumption|]. rewrite F1. exact C.
Qed.

Lemma trim_right_split : forall s, exists e, s = (trim_right s ++ e)%string /\ each isspace e = true /\
  (trim_right s = "" \/ exists r d, trim_right s = (r ++ String d "")%string /\ isspace d = false).
Proof.
  induction s as [|c s (e & L & E & H)]; [exists ""; cbn; auto|]. cbn [trim_right].
  destruct (trim_right s) as [|x t] eqn:T.
  - cbn in L. subst e. destruct (isspace c) eqn:C.
    + exists (String c s). cbn. rewrite C. auto.
    + exists s. cbn. split; [reflexivity|]. split; [assumption|]. right. exists "", c. auto.
  - exists e. split; [cbn in *; rewrite L at 1; reflexivity|]. split; [assumption|]. right.
    destruct H as [H | (r & d & H & D)]; [discriminate H|]. exists (String c r), d. rewrite H. auto.
Qed.

Lemma skip_last : forall s r d, s = (r ++ String d "")%string -> isspace d = false ->
  exists r', skip s = (r' ++ String d "")%string.
Proof.
  intros s r d -> D. induction r as [|c r IH]; cbn.
  - rewrite D. exists "". reflexivity.
  - destruct (isspace c); [assumption|]. exists (String c r). reflexivity.
Qed.

Lemma trim_split : forall t, trim t <> "" -> exists b e, t = (b ++ trim t ++ e)%string /\
  each isspace b = true /\ each isspace e = true /\ trimmed (trim t).
Proof.
  intros t NE. unfold trim in *. destruct (trim_right_split t) as (e & L & E & H).
  destruct (skip_split (trim_right t)) as (b & L2 & B & K). exists b, e.
  split; [rewrite L at 1; rewrite L2 at 1; rewrite sapp_assoc; reflexivity|]. split; [assumption|]. split; [assumption|].
  destruct H as [H | (r & d & H & D)]; [rewrite H in NE; contradiction NE; reflexivity|]. split.
  - destruct (skip (trim_right t)) as [|c r'] eqn:S; [congruence|]. eauto.
  - destruct (skip_last _ r d H D) as (r' & R). exists r', d. auto.
Qed.

Lemma includes_some : forall line f, asks_for line f -> includes line = Some f.
Proof.
  intros line f (w & b & e & FW & B & E & T & P). unfold includes. rewrite (token_of _ _ _ FW).
  assert (Q : (prefix "include$" (lower w) || prefix "include_file" (lower w)) = true)
    by (destruct P as [-> | ->]; [reflexivity | apply orb_true_r]).
  rewrite Q, trim_of by assumption. destruct T as ((c & r & -> & _) & _). reflexivity.
Qed.
Lemma includes_asks : forall line f, includes line = Some f -> asks_for line f.
Proof.
  intros line f H. unfold includes in H. destruct (copy_token line) as [w t] eqn:C.
  destruct (prefix "include$" (lower w) || prefix "include_file" (lower w)) eqn:P; [|discriminate H].
  assert (NE : trim t <> "") by (destruct (trim t); congruence).
  assert (F : trim t = f) by (destruct (trim t); congruence).
  destruct (trim_split t NE) as (b & e & L & B & E & T). subst f.
  exists w, b, e. rewrite <- L. split; [|apply orb_true_iff in P; auto].
  apply token_first; [assumption|]. intros ->. discriminate P.
Qed.
Lemma includes_none : forall line, (forall f, ~ asks_for line f) -> includes line = None.
Proof.
  intros line H. destruct (includes line) as [f|] eqn:I; [|reflexivity]. exfalso. exact (H f (includes_asks _ _ I)).
Qed.

Lemma asks_not_blank : forall line f, asks_for line f -> each isspace line = false.
Proof.
  intros line f (w & b & e & (b' & -> & _ & NE & W & _) & _). rewrite !each_app.
  destruct w as [|c w]; [congruence|]. cbn in *. apply andb_true_iff in W. destruct W as [W _]. apply negb_true_iff in W.
  rewrite W. cbn. apply andb_false_r.
Qed.

(** The lines of a text. *)
Definition prepend {A} (l : list A) (r : option (list A * bool)) : option (list A * bool) :=
  match r with Some (t, e) => Some (l ++ t, e) | None => None end.

Lemma prepend_nil : forall A (r : option (list A * bool)), prepend [] r = r.
Proof. intros A [[t e]|]; reflexivity. Qed.
Lemma prepend_app : forall A (a b : list A) r, prepend a (prepend b r) = prepend (a ++ b) r.
Proof. intros A a b [[t e]|]; cbn; [rewrite app_assoc|]; reflexivity. Qed.

Lemma read_text : forall keys files ds out, stands_for files ds out -> good_text ds -> forall ss,
  exists n, forall m, lines (n + m) keys files (text_chars ds :: ss) =
    prepend (map (fun l => (kind_of keys l, l)) out) (lines m keys files ss).
Proof.
  intros keys files ds out H.
  induction H as [| d ds out B H IH | d ds out NB NA H IH | d ds out f inner out' A FI GI HI IHI H IH]; intros G ss.
  - exists 1%nat. intros m. cbn. rewrite prepend_nil. reflexivity.
  - destruct G as (GL & E & G). destruct (get_line_of d ds GL E) as [(save & L & C) | (C & -> & L)].
    + destruct (IH G ss) as (n & N). exists (S n). intros m. cbn [Nat.add lines one_turn]. unfold text_chars at 1. cbn [concat_map].
      fold (text_chars ds). rewrite L, C. rewrite blank_each, B. apply N.
    + inversion H; subst. exists 1%nat. intros m. cbn [Nat.add lines one_turn].
      change (text_chars [d]) with (line_chars d ++ text_chars [])%string. rewrite L. cbn [map]. rewrite prepend_nil. reflexivity.
  - destruct G as (GL & E & G). destruct (get_line_of d ds GL E) as [(save & L & C) | (C & -> & L)].
    + destruct (IH G ss) as (n & N). exists (S n). intros m. cbn [Nat.add lines one_turn]. unfold text_chars at 1. cbn [concat_map].
      fold (text_chars ds). rewrite L, C. rewrite blank_each, NB, (includes_none _ NA), N. cbn [map].
      destruct (lines m keys files ss) as [[t e]|]; reflexivity.
    + rewrite C in NB. discriminate NB.
  - destruct G as (GL & E & G). destruct (get_line_of d ds GL E) as [(save & L & C) | (C & -> & L)].
    + destruct (IH G ss) as (n & N). destruct (IHI GI (text_chars ds :: ss)) as (n' & N').
      exists (S (n' + n)). intros m. cbn [Nat.add lines one_turn]. unfold text_chars at 1. cbn [concat_map].
      fold (text_chars ds). rewrite L, C. rewrite blank_each, (asks_not_blank _ _ A), (includes_some _ _ A), FI.
      rewrite getcs_same by (apply text_no_return, GI).
      rewrite <- Nat.add_assoc, N', N, prepend_app, map_app. reflexivity.
    + apply asks_not_blank in A. rewrite C in A. discriminate A.
Qed.

Lemma lines_nil : forall m keys files, lines (S m) keys files [] = Some ([], true).
Proof. reflexivity. Qed.
