(** Properties of the reading of input: C103 lines, C104 kinds of lines, C105
    options. *)
From Coq Require Import String Ascii ZArith Bool List Lia ZifyBool.
From Verif Require Import Inp_Model Inp_Spec Inp_Proofs.
Import ListNotations.
Local Open Scope string_scope.
Local Open Scope list_scope.
Local Open Scope Z_scope.

(** * C103 *)

(** A reader gets the lines that a text stands for, in their order: semicolons
    and newlines end lines, a backslash at the end joins lines, remarks and
    blank lines are dropped, and files are read where they are asked for, at
    any depth. *)
Theorem C103_lines : forall keys files ds out, good_text ds -> stands_for files ds out ->
  gets keys files (text_chars ds) out.
Proof.
  intros keys files ds out G H. destruct (read_text keys files ds out H G []) as (n & N).
  exists (n + 1)%nat. intros m M. rewrite getcs_same by (apply text_no_return, G).
  replace m with (n + S (m - n - 1))%nat by lia. rewrite N, lines_nil. cbn [prepend]. rewrite app_nil_r. reflexivity.
Qed.
Print Assumptions C103_lines.

(** The same text with DOS line ends gives the same lines. *)
Theorem C103_dos : forall keys files ds out, good_text ds -> stands_for files ds out ->
  gets keys files (dos (text_chars ds)) out.
Proof.
  intros keys files ds out G H. destruct (C103_lines keys files ds out G H) as (n & N). exists n. intros m M.
  rewrite getcs_dos by (apply text_no_return, G). rewrite <- (N m M), getcs_same by (apply text_no_return, G). reflexivity.
Qed.
Print Assumptions C103_dos.

(** A file that cannot be opened ends the run where it is asked for: the lines
    before it have been read, none after it are. *)
Theorem C103_no_file : forall keys files ds out d f rest, good_text (ds ++ [d]) -> stands_for files ds out ->
  at_eof d = false -> asks_for (content d) f -> files f = None ->
  (forall x, In x ds -> at_eof x = false) ->
  exists n, forall m, (n <= m)%nat ->
    lines m keys files [(text_chars (ds ++ [d]) ++ rest)%string] =
    Some (map (fun l => (kind_of keys l, l)) out, false).
Proof.
  intros keys files ds out d f rest G H.
  assert (TC : forall a b, text_chars (a ++ b) = (text_chars a ++ text_chars b)%string).
  { induction a as [|x a IH]; intros b; [reflexivity|]. unfold text_chars in *. cbn [app concat_map]. rewrite IH, sapp_assoc. reflexivity. }
  assert (GA : forall a b, good_text (a ++ b) -> good_text b).
  { induction a as [|x a IH]; intros b K; [exact K|]. cbn in K. apply IH, K. }
  intros NE A FN NX.
  assert (GL : good_line d) by (pose proof (GA ds [d] G) as K; destruct K; assumption).
  (* one line, followed by anything *)
  assert (ONE : forall x r, good_line x -> at_eof x = false ->
    exists save, get_logical_line (line_chars x ++ r) = Some (save, r) /\ before_hash save = content x).
  { intros x r GX NXE. pose proof (content_no_hash x GX) as NH. destruct GX as [F GE].
    unfold get_logical_line, line_chars. rewrite sapp_assoc, logical_parts by assumption.
    cbn [String.append]. fold (content x). unfold at_eof in NXE.
    destruct (fin x) as [| | s | | s]; cbn [end_chars good_end] in *; try discriminate NXE.
    - exists (content x). cbn. split; [destruct (content x); reflexivity | apply before_hash_same, NH].
    - exists (content x). cbn. split; [destruct (content x); reflexivity | apply before_hash_same, NH].
    - exists (snoc (content x) hash ++ s)%string. split.
      + cbn [String.append logical]. change (Ascii.eqb hash hash) with true. cbv iota.
        rewrite sapp_assoc, logical_comment by assumption. cbn [String.append logical].
        change (Ascii.eqb newline newline) with true. cbv iota.
        destruct (snoc (content x) hash ++ s)%string; reflexivity.
      + rewrite snoc_app. apply before_hash_app, NH. }
  assert (LAST : forall ss m, (1 <= m)%nat ->
    lines m keys files ((line_chars d ++ rest)%string :: ss) = Some ([], false)).
  { intros ss m M. destruct m as [|m]; [lia|]. destruct (ONE d rest GL NE) as (save & L & C).
    cbn [lines one_turn]. rewrite L, C, blank_each, (asks_not_blank _ _ A), (includes_some _ _ A), FN. reflexivity. }
  rewrite TC. change (text_chars [d]) with (line_chars d ++ "")%string. rewrite sapp_nil, sapp_assoc.
  assert (GD : good_text (ds ++ [d])) by exact G. clear G TC GA.
  assert (MAIN : exists n, forall m, (n <= m)%nat ->
    lines m keys files [(text_chars ds ++ line_chars d ++ rest)%string] =
    Some (map (fun l => (kind_of keys l, l)) out, false)).
  { revert GD NX. induction H as [| x ds out B H IH | x ds out NB NA H IH | x ds out g inner out' AX FI GI HI IHI H IH]; intros GD NX.
    - exists 1%nat. intros m M. cbn [text_chars concat_map String.append map]. apply LAST, M.
    - destruct GD as (GX & _ & GD). destruct (IH GD (fun y Y => NX y (or_intror Y))) as (n & N). exists (S n). intros m M.
      destruct m as [|m]; [lia|]. unfold text_chars. cbn [concat_map]. rewrite sapp_assoc. fold (text_chars ds).
      destruct (ONE x (text_chars ds ++ line_chars d ++ rest)%string GX (NX x (or_introl eq_refl))) as (save & L & C).
      cbn [lines one_turn]. rewrite L, C, blank_each, B. apply N. lia.
    - destruct GD as (GX & _ & GD). destruct (IH GD (fun y Y => NX y (or_intror Y))) as (n & N). exists (S n). intros m M.
      destruct m as [|m]; [lia|]. unfold text_chars. cbn [concat_map]. rewrite sapp_assoc. fold (text_chars ds).
      destruct (ONE x (text_chars ds ++ line_chars d ++ rest)%string GX (NX x (or_introl eq_refl))) as (save & L & C).
      cbn [lines one_turn]. rewrite L, C, blank_each, NB, (includes_none _ NA), N by lia. reflexivity.
    - destruct GD as (GX & _ & GD). destruct (IH GD (fun y Y => NX y (or_intror Y))) as (n & N). clear IHI.
      destruct (read_text keys files inner out' HI GI [(text_chars ds ++ line_chars d ++ rest)%string]) as (n' & N').
      exists (S (n' + n)). intros m M.
      destruct m as [|m]; [lia|]. unfold text_chars. cbn [concat_map]. rewrite sapp_assoc. fold (text_chars ds).
      destruct (ONE x (text_chars ds ++ line_chars d ++ rest)%string GX (NX x (or_introl eq_refl))) as (save & L & C).
      cbn [lines one_turn]. rewrite L, C, blank_each, (asks_not_blank _ _ AX), (includes_some _ _ AX), FI.
      rewrite getcs_same by (apply text_no_return, GI).
      replace m with (n' + (m - n'))%nat by lia. rewrite N', N by lia. cbn [prepend]. rewrite map_app. reflexivity. }
  exact MAIN.
Qed.
Print Assumptions C103_no_file.

(** A # after a backslash starts a remark that does not reach to the end of the
    line: what follows a semicolon in it is read as input. *)
Theorem C103_remark_refuted : forall keys files a b c,
  each ordinary a = true -> each ordinary b = true -> each ordinary c = true -> each isspace c = false ->
  (forall f, ~ asks_for (a ++ String backslash "") f) -> (forall f, ~ asks_for c f) ->
  gets keys files (a ++ String backslash (String hash (b ++ String semicolon (c ++ String newline ""))))
    [(a ++ String backslash "")%string; c].
Proof.
  intros keys files a b c A B C NB NA NC.
  assert (GD : good_text [mkLine [Plain c] Newline]) by (cbn; repeat split; repeat constructor; cbn; auto).
  assert (SF : stands_for files [mkLine [Plain c] Newline] [c]).
  { assert (K : content (mkLine [Plain c] Newline) = c) by (unfold content; cbn; apply sapp_nil).
    rewrite <- K at 2. apply Sf_line; rewrite ?K; auto. apply Sf_nil. }
  destruct (read_text keys files _ _ SF GD []) as (n & N).
  exists (S (n + 1)). intros m M. destruct m as [|m]; [lia|].
  rewrite getcs_same.
  2:{ rewrite each_app. cbn [each]. rewrite each_app. cbn [each]. rewrite each_app.
      rewrite (each_imp ordinary no_return a ordinary_no_return A), (each_imp ordinary no_return b ordinary_no_return B),
              (each_imp ordinary no_return c ordinary_no_return C). reflexivity. }
  cbn [lines one_turn]. unfold get_logical_line. rewrite logical_plain by assumption.
  cbn [String.append logical].
  change (Ascii.eqb backslash hash) with false. change (Ascii.eqb backslash semicolon) with false.
  change (Ascii.eqb backslash newline) with false. change (Ascii.eqb backslash backslash) with true.
  change (Ascii.eqb hash backslash) with false. change (Ascii.eqb hash newline) with false.
  change (isspace hash) with false. cbn [orb]. rewrite logical_plain by assumption.
  cbn [logical]. change (Ascii.eqb semicolon hash) with false. change (Ascii.eqb semicolon semicolon) with true.
  cbn [orb]. unfold snoc at 1. rewrite !snoc_app, !sapp_assoc. cbn [String.append].
  assert (BH : before_hash (a ++ String backslash (String hash b)) = (a ++ String backslash "")%string).
  { replace (a ++ String backslash (String hash b))%string with ((a ++ String backslash "") ++ String hash b)%string
      by (rewrite sapp_assoc; reflexivity).
    apply before_hash_app. rewrite each_app, (each_imp ordinary no_hash a ordinary_no_hash A). reflexivity. }
  assert (E : each isspace (a ++ String backslash "") = false) by (rewrite each_app; cbn; apply andb_false_r).
  destruct (a ++ String backslash (String hash b))%string eqn:K.
  { destruct a; discriminate K. }
  rewrite BH, blank_each, E, (includes_none _ NA).
  replace (c ++ String newline "")%string with (text_chars [mkLine [Plain c] Newline]).
  2:{ unfold text_chars, line_chars. cbn. rewrite !sapp_nil. reflexivity. }
  replace m with (n + S (m - n - 1))%nat by lia. rewrite N, lines_nil. reflexivity.
Qed.
Print Assumptions C103_remark_refuted.

(** Of two backslashes at the end of a physical line, with blanks between and
    after them, only the second joins the lines; the first one stays. *)
Theorem C103_two_backslashes : forall keys files a b b' c,
  each ordinary a = true -> each gap b = true -> each gap b' = true -> each ordinary c = true ->
  let line := (a ++ String backslash (b ++ c))%string in (forall f, ~ asks_for line f) ->
  gets keys files (a ++ String backslash (b ++ String backslash (b' ++ String newline (c ++ String newline "")))) [line].
Proof.
  intros keys files a b b' c A B B' C line NA. subst line. exists 3%nat. intros m M. destruct m as [|[|[|m]]]; try lia.
  assert (GR : forall s, each gap s = true -> each no_return s = true).
  { intros s G. apply (each_imp gap); [|exact G]. intros x X. apply ordinary_no_return, gap_ordinary, X. }
  rewrite getcs_same.
  2:{ repeat (rewrite each_app; cbn [each]). rewrite (GR b B), (GR b' B').
      rewrite (each_imp ordinary no_return a ordinary_no_return A), (each_imp ordinary no_return c ordinary_no_return C). reflexivity. }
  cbn [lines one_turn]. unfold get_logical_line. rewrite logical_plain by assumption.
  cbn [String.append logical].
  change (Ascii.eqb backslash hash) with false. change (Ascii.eqb backslash semicolon) with false.
  change (Ascii.eqb backslash newline) with false. change (Ascii.eqb backslash backslash) with true. cbn [orb]. cbv iota.
  rewrite logical_gap by assumption. cbn [logical]. change (Ascii.eqb backslash backslash) with true. cbv iota.
  rewrite logical_gap by assumption. cbn [logical]. change (Ascii.eqb newline backslash) with false.
  change (Ascii.eqb newline newline) with true. cbv iota.
  unfold snoc at 2. rewrite sapp_assoc. cbn [String.append].
  replace (snoc (a ++ String backslash b) backslash ++ b')%string with ((a ++ String backslash b) ++ String backslash b')%string
    by (rewrite snoc_app; reflexivity).
  rewrite snoc_app. rewrite sub_app. rewrite logical_plain by assumption. cbn [logical].
  change (Ascii.eqb newline hash) with false. change (Ascii.eqb newline semicolon) with false.
  change (Ascii.eqb newline newline) with true. cbn [orb]. cbv iota. rewrite sapp_assoc. cbn [String.append].
  assert (BH : before_hash (a ++ String backslash (b ++ c)) = (a ++ String backslash (b ++ c))%string).
  { apply before_hash_same. rewrite each_app. cbn [each]. rewrite each_app.
    rewrite (each_imp ordinary no_hash a ordinary_no_hash A), (each_imp ordinary no_hash c ordinary_no_hash C).
    rewrite (each_imp ordinary no_hash b ordinary_no_hash (each_imp gap ordinary b gap_ordinary B)). reflexivity. }
  assert (E : each isspace (a ++ String backslash (b ++ c)) = false) by (rewrite each_app; cbn; apply andb_false_r).
  destruct (a ++ String backslash (b ++ c))%string eqn:K; [discriminate E|].
  rewrite BH, blank_each, E, (includes_none _ NA). reflexivity.
Qed.
Print Assumptions C103_two_backslashes.

(** A return that is not before a newline is a character like any other. *)
Theorem C103_return : forall keys files a x,
  each (fun c => ordinary c || Ascii.eqb c return_) a = true -> ordinary x = true ->
  let line := (a ++ String x "")%string in each isspace line = false -> (forall f, ~ asks_for line f) ->
  gets keys files (line ++ String newline "") [line].
Proof.
  intros keys files a x A X line NB NA. exists 3%nat. intros m M. destruct m as [|[|[|m]]]; try lia.
  assert (G : getcs (line ++ String newline "") = (line ++ String newline "")%string).
  { subst line. clear NB NA. induction a as [|c a IH].
    - destruct (ordinary_ne x X) as (_ & _ & _ & _ & R). cbn. rewrite R. reflexivity.
    - cbn [each] in A. apply andb_true_iff in A. destruct A as [A1 A]. specialize (IH A). cbn [String.append getcs].
      destruct ((a ++ String x "") ++ String newline "")%string as [|d r] eqn:D; [destruct a; discriminate D|].
      replace (Ascii.eqb d newline) with false; [rewrite andb_false_r, IH; reflexivity|].
      destruct a as [|y a].
      + cbn in D. assert (d = x) by congruence. subst d. destruct (ordinary_ne x X) as (_ & _ & _ & H & _). symmetry. exact H.
      + cbn in D. assert (d = y) by congruence. subst d. cbn [each] in A. apply andb_true_iff in A. destruct A as [A _].
        apply orb_true_iff in A. destruct A as [A | A].
        * destruct (ordinary_ne y A) as (_ & _ & _ & H & _). symmetry. exact H.
        * apply Ascii.eqb_eq in A. subst y. reflexivity. }
  rewrite G. clear G.
  assert (P : forall s acc r, each (fun c => ordinary c || Ascii.eqb c return_) s = true ->
    logical Text acc (s ++ r) = logical Text (acc ++ s) r).
  { induction s as [|c s IH]; intros acc r E; cbn [String.append each] in *; [rewrite sapp_nil; reflexivity|].
    apply andb_true_iff in E. destruct E as [E1 E].
    assert (Ascii.eqb c hash = false /\ Ascii.eqb c semicolon = false /\ Ascii.eqb c backslash = false /\ Ascii.eqb c newline = false) as (H1 & H2 & H3 & H4).
    { apply orb_true_iff in E1. destruct E1 as [O | O].
      - destruct (ordinary_ne c O) as (H1 & H2 & H3 & H4 & _). auto.
      - apply Ascii.eqb_eq in O. subst c. repeat split. }
    cbn [logical]. rewrite H1, H2, H3, H4. cbn [orb]. rewrite IH by assumption. rewrite snoc_app. reflexivity. }
  assert (AL : each (fun c => ordinary c || Ascii.eqb c return_) line = true).
  { subst line. rewrite each_app, A. cbn [each]. rewrite X. reflexivity. }
  cbn [lines one_turn]. unfold get_logical_line. rewrite P by exact AL. cbn [String.append logical].
  change (Ascii.eqb newline hash) with false. change (Ascii.eqb newline semicolon) with false.
  change (Ascii.eqb newline newline) with true. cbn [orb]. cbv iota.
  assert (BH : before_hash line = line).
  { apply before_hash_same. apply (each_imp (fun c => ordinary c || Ascii.eqb c return_)); [|exact AL].
    intros c C. apply orb_true_iff in C. destruct C as [C | C]; [apply ordinary_no_hash, C|].
    apply Ascii.eqb_eq in C. subst c. reflexivity. }
  destruct line as [|l0 l1]; [discriminate NB|].
  rewrite BH, blank_each, NB, (includes_none _ NA). reflexivity.
Qed.
Print Assumptions C103_return.

(** Two backslashes, and a return inside of a line. *)
Example C103_more_cases :
  lines 5 [] (fun _ => None) [getcs "a \ \  
b"] = Some ([(Data, "a \ b")], true) /\
  (exists s, s = String "a" (String return_ "b") /\ lines 5 [] (fun _ => None) [getcs s] = Some ([(Data, s)], true)).
Proof. split; [vm_compute; reflexivity|]. eexists. split; [reflexivity|]. vm_compute. reflexivity. Qed.

Definition some_files (f : string) : option string :=
  if String.eqb f "my data.txt" then Some "-ph 7" else None.

Definition some_text : list doc_line :=
  [mkLine [Plain "SOLUTION 1"] Semicolon; mkLine [Plain " units mg/L "] (Remark " was mol; kg\");
   mkLine [Plain "  "] Newline;
   mkLine [Plain "-density"; Joined " "; Plain " 1.0"; Escaped "" ";"] Newline;
   mkLine [Plain "Include$   my data.txt "] Newline; mkLine [Plain "END"] Eof].

(** A text with each of these. *)
Example C103_case :
  good_text some_text /\
  stands_for some_files some_text ["SOLUTION 1"; " units mg/L "; "-density 1.0\;"; "-ph 7"; "END"].
Proof.
  split.
  - repeat (constructor; try (intro; discriminate)); cbn; auto; try discriminate; intros; congruence.
  - assert (NI : forall l, includes l = None -> forall f, ~ asks_for l f).
    { intros l L f K. apply includes_some in K. congruence. }
    unfold some_text.
    apply Sf_line; [reflexivity | apply NI; reflexivity |].
    apply Sf_line; [reflexivity | apply NI; reflexivity |].
    apply Sf_blank; [reflexivity |].
    apply (Sf_line some_files (mkLine [Plain "-density"; Joined " "; Plain " 1.0"; Escaped "" ";"] Newline));
      [reflexivity | apply NI; reflexivity |].
    change ["-ph 7"; "END"] with (["-ph 7"] ++ ["END"]).
    apply (Sf_file some_files _ _ ["END"] "my data.txt" [mkLine [Plain "-ph 7"] Eof] ["-ph 7"]).
    + apply includes_asks. reflexivity.
    + reflexivity.
    + repeat constructor.
    + apply (Sf_line some_files (mkLine [Plain "-ph 7"] Eof)); [reflexivity | apply NI; reflexivity | apply Sf_nil].
    + apply (Sf_line some_files (mkLine [Plain "END"] Eof)); [reflexivity | apply NI; reflexivity | apply Sf_nil].
Qed.

(** "-iterations 10 \# default; -tolerance 1". *)
Example C103_remark_case :
  lines 5 [] some_files ["-iterations 10 \# default; -tolerance 1"] =
  Some ([(Option_, "-iterations 10 \"); (Option_, " -tolerance 1")], true).
Proof. vm_compute. reflexivity. Qed.

(** * C104 *)

(** A line is a keyword when its first word is the name of one, whatever its
    capitals. *)
Theorem C104_keyword : forall keys line w rest, first_word line w rest ->
  (kind_of keys line = Keyword <-> exists k, In k keys /\ lower w = k).
Proof.
  intros keys line w rest F. unfold kind_of. rewrite (token_of _ _ _ F). cbn [fst].
  destruct (existsb (String.eqb (lower w)) keys) eqn:E.
  - split; [|reflexivity]. intros _. apply existsb_exists in E. destruct E as (k & I & E).
    apply String.eqb_eq in E. eauto.
  - split.
    + intros K. destruct w as [|a [|b r]]; try discriminate K.
      destruct (Ascii.eqb a "-" && isalpha b); discriminate K.
    + intros (k & I & <-). exfalso.
      assert (T : existsb (String.eqb (lower w)) keys = true).
      { apply existsb_exists. exists (lower w). split; [assumption | apply String.eqb_refl]. }
      congruence.
Qed.
Print Assumptions C104_keyword.

(** A line is an option when its first word is a minus and a letter, and no
    keyword; so a negative number starts no option. *)
Theorem C104_option : forall keys line w rest, first_word line w rest ->
  (kind_of keys line = Option_ <->
   ~ In (lower w) keys /\ exists c v, w = String "-" (String c v) /\ isalpha c = true).
Proof.
  intros keys line w rest F. pose proof (C104_keyword keys line w rest F) as K.
  unfold kind_of in *. rewrite (token_of _ _ _ F) in *. cbn [fst] in *.
  destruct (existsb (String.eqb (lower w)) keys) eqn:E.
  - split; [discriminate|]. intros (N & _). destruct (proj1 K eq_refl) as (k & I & <-). contradiction.
  - assert (N : ~ In (lower w) keys).
    { intros I. assert (T : existsb (String.eqb (lower w)) keys = true).
      { apply existsb_exists. exists (lower w). split; [assumption | apply String.eqb_refl]. }
      congruence. }
    split.
    + intros H. split; [assumption|]. destruct w as [|a [|b r]]; try discriminate H.
      destruct (Ascii.eqb_spec a "-") as [-> | NE]; [|discriminate H]. cbn [andb] in H.
      destruct (isalpha b) eqn:B; [|discriminate H]. eauto.
    + intros (_ & c & v & -> & C). change (Ascii.eqb "-" "-") with true. rewrite C. reflexivity.
Qed.
Print Assumptions C104_option.

Example C104_case :
  map (kind_of ["solution"; "end"]) ["  Solution 1"; "-temp 25"; "-1.5 2"; "Na -1"; "END"; "solutions"; "-"]
  = [Keyword; Option_; Data; Data; Keyword; Data; Data] /\
  first_word "  Solution 1" "Solution" " 1".
Proof. split; [reflexivity|]. exists "  ". cbn. repeat split; congruence. Qed.

(** * C105 *)

Lemma prefix_app : forall a b, prefix a (a ++ b) = true.
Proof.
  induction a as [|c a IH]; intros b; [destruct b; reflexivity|]. cbn.
  destruct (ascii_dec c c); [apply IH | congruence].
Qed.
Lemma prefix_begins : forall a s, prefix a s = true <-> begins a s.
Proof.
  intros a s. split.
  - revert s. induction a as [|c a IH]; intros s P; [exists s; reflexivity|].
    destruct s as [|d s]; [discriminate P|]. cbn in P. destruct (ascii_dec c d) as [-> | N]; [|discriminate P].
    destruct (IH s P) as (t & ->). exists t. reflexivity.
  - intros (t & ->). apply prefix_app.
Qed.

Lemma find_from_some : forall exact w names k i, find_from k exact w names = Some i <->
  exists j n, i = k + Z.of_nat j /\ nth_error names j = Some n /\
    (if exact then n = w else begins w n) /\
    forall j' n', (j' < j)%nat -> nth_error names j' = Some n' -> ~ (if exact then n' = w else begins w n').
Proof.
  intros exact w names. induction names as [|n r IH]; intros k i; cbn [find_from].
  - split; [discriminate|]. intros (j & n & _ & E & _). destruct j; discriminate E.
  - assert (T : forall x, (if exact then String.eqb x w else prefix w x) = true <-> (if exact then x = w else begins w x)).
    { intros x. destruct exact; [apply String.eqb_eq | apply prefix_begins]. }
    destruct (if exact then String.eqb n w else prefix w n) eqn:P.
    + split.
      * intros H. assert (i = k) by congruence. subst i. exists O, n. repeat split; [lia | apply T, P |].
        intros j' n' L. lia.
      * intros (j & x & -> & E & X & F). destruct j as [|j].
        { f_equal. lia. }
        exfalso. apply (F O n); [lia | reflexivity | apply T, P].
    + split.
      * intros H. apply IH in H. destruct H as (j & x & -> & E & X & F). exists (S j), x.
        split; [lia|]. split; [exact E|]. split; [exact X|].
        intros j' n' L N. destruct j' as [|j'].
        { cbn in N. assert (n = n') by congruence. subst n'. intros K. apply T in K. congruence. }
        apply (F j' n'); [lia | exact N].
      * intros (j & x & -> & E & X & F). apply IH. destruct j as [|j].
        { cbn in E. assert (n = x) by congruence. subst x. apply T in X. congruence. }
        exists j, x. split; [lia|]. split; [exact E|]. split; [exact X|].
        intros j' n' L N. apply (F (S j') n'); [lia | exact N].
Qed.

(** An option is the first of the names that its word begins, whatever the
    capitals of the word; so every name can be abbreviated. *)
Theorem C105_abbreviation : forall v names i,
  find_option v names false = Some i <->
  exists j n, i = Z.of_nat j /\ nth_error names j = Some n /\ begins (lower v) n /\
    forall j' n', (j' < j)%nat -> nth_error names j' = Some n' -> ~ begins (lower v) n'.
Proof. intros v names i. apply (find_from_some false (lower v) names 0 i). Qed.
Print Assumptions C105_abbreviation.

(** Without the minus, the whole name is needed. *)
Theorem C105_whole : forall v names i, NoDup names ->
  (find_option v names true = Some i <-> exists j, i = Z.of_nat j /\ nth_error names j = Some (lower v)).
Proof.
  intros v names i ND. unfold find_option. rewrite find_from_some. split.
  - intros (j & n & -> & E & -> & _). exists j. split; [lia | exact E].
  - intros (j & -> & E). exists j, (lower v). split; [lia|]. split; [exact E|]. split; [reflexivity|].
    intros j' n' L N ->. assert (j' = j); [|lia].
    apply (proj1 (NoDup_nth_error names) ND); [|congruence]. apply nth_error_Some. congruence.
Qed.
Print Assumptions C105_whole.

(** A word that begins two names is not reported: it is taken for the first. *)
Theorem C105_ambiguous_refuted : forall v names j n j' n', (j < j')%nat ->
  nth_error names j = Some n -> nth_error names j' = Some n' -> begins (lower v) n -> begins (lower v) n' ->
  exists i, find_option v names false = Some i /\ i <= Z.of_nat j.
Proof.
  intros v names j n j' n' L E _ B _. unfold find_option.
  assert (G : forall names k j, nth_error names j = Some n -> exists i, find_from k false (lower v) names = Some i /\ i <= k + Z.of_nat j).
  { clear - B. induction names as [|x r IH]; intros k j E; [destruct j; discriminate E|]. cbn [find_from].
    destruct (prefix (lower v) x) eqn:P; [exists k; split; [reflexivity | lia]|].
    destruct j as [|j].
    - cbn in E. assert (x = n) by congruence. subst x. apply prefix_begins in B. congruence.
    - destruct (IH (k + 1) j E) as (i & F & LE). exists i. split; [exact F | lia]. }
  apply (G names 0 j E).
Qed.
Print Assumptions C105_ambiguous_refuted.

Lemma skip_same : forall b s, each isspace b = true ->
  match s with "" => True | String c _ => isspace c = false end -> skip (b ++ s) = s.
Proof. exact skip_app. Qed.
Definition word_char (c : ascii) : bool := negb (isspace c || Ascii.eqb c semicolon).
Lemma word2_app : forall w r, each word_char w = true ->
  match r with "" => True | String c _ => isspace c = true end -> word2_of (w ++ r) = (w, r).
Proof.
  induction w as [|c w IH]; intros r E H; cbn in *.
  - destruct r as [|c r]; [reflexivity|]. cbn. rewrite H. reflexivity.
  - apply andb_true_iff in E. destruct E as [A B]. apply negb_true_iff in A. rewrite A, IH by assumption. reflexivity.
Qed.
Lemma token2 : forall b w r, each isspace b = true -> each word_char w = true -> w <> "" ->
  match r with "" => True | String c _ => isspace c = true end -> copy_token2 (b ++ w ++ r) = (w, r).
Proof.
  intros b w r B W NE R. unfold copy_token2. rewrite skip_app; [apply word2_app; assumption | assumption|].
  destruct w as [|c w]; [congruence|]. cbn in *. apply andb_true_iff in W. destruct W as [W _].
  unfold word_char in W. apply negb_true_iff, orb_false_iff in W. apply W.
Qed.

Lemma sub_rest : forall a r, substring (String.length a) (String.length (a ++ r) - String.length a) (a ++ r) = r.
Proof.
  induction a as [|c a IH]; intros r; cbn [String.append String.length].
  - rewrite Nat.sub_0_r. induction r as [|c r IH]; [reflexivity|]. cbn. rewrite IH. reflexivity.
  - cbn [substring]. replace (S (String.length (a ++ r)) - S (String.length a))%nat with (String.length (a ++ r) - String.length a)%nat by lia.
    apply IH.
Qed.

Lemma replace_here : forall b v n r, each isspace b = true ->
  replace_first (String "-" v) n (b ++ String "-" v ++ r) = Some (b ++ n ++ r)%string.
Proof.
  induction b as [|c b IH]; intros v n r B.
  - cbn [String.append]. change (String "-" (v ++ r)) with (String "-" v ++ r)%string.
    assert (P : prefix (String "-" v) (String "-" v ++ r) = true) by apply prefix_app.
    unfold replace_first. destruct (String "-" v ++ r)%string eqn:E; [discriminate E|]. rewrite P.
    rewrite <- E. f_equal. f_equal. apply sub_rest.
  - cbn [each] in B. apply andb_true_iff in B. destruct B as [C B]. change ((String c b) ++ String "-" v ++ r)%string with (String c (b ++ String "-" v ++ r)).
    assert (P : prefix (String "-" v) (String c (b ++ String "-" v ++ r)) = false).
    { cbn [prefix]. destruct (ascii_dec "-" c) as [<- | N]; [discriminate C | reflexivity]. }
    specialize (IH v n r B). revert P IH. generalize (b ++ String "-" v ++ r)%string. intros t P IH.
    cbn [replace_first]. rewrite P, IH. reflexivity.
Qed.

(** The value of an option is what follows its word on the line, and the name
    is written out in the line, as long as the buffer has room for it. *)
Theorem C105_value : forall size names b v rest tail i n,
  let line := (b ++ String "-" v ++ rest)%string in
  each isspace b = true -> each word_char v = true ->
  match rest with "" => True | String c _ => isspace c = true end ->
  find_option v names false = Some i -> nth_name names i = n -> n <> "" -> each word_char n = true ->
  Z.of_nat (String.length (line ++ tail)) + Z.of_nat (String.length n) < size ->
  get_option size names Option_ line (line ++ tail)%string = Opt i rest.
Proof.
  intros size names b v rest tail i n line B V R F N NE W L. subst line.
  unfold get_option. rewrite token2; try assumption; try discriminate.
  cbn [String.length substring]. rewrite Nat.sub_succ, Nat.sub_0_r.
  assert (SV : substring 0 (String.length v) v = v) by (rewrite <- (sapp_nil v) at 2; apply sub_app).
  rewrite SV, F, N.
  rewrite !sapp_assoc in L. unfold replace. rewrite !sapp_assoc, !replace_here by assumption.
  rewrite !sapp_len in L. rewrite !sapp_len.
  cbn [String.length] in *. rewrite !(proj2 (Z.leb_le _ _)) by lia.
  rewrite token2 by assumption. reflexivity.
Qed.
Print Assumptions C105_value.

(** A word with a minus that begins no name is reported as an unknown option. *)
Theorem C105_unknown : forall size names b v rest save,
  let line := (b ++ String "-" v ++ rest)%string in
  each isspace b = true -> each word_char v = true ->
  match rest with "" => True | String c _ => isspace c = true end ->
  (get_option size names Option_ line save = BadOption <-> forall n, In n names -> ~ begins (lower v) n).
Proof.
  intros size names b v rest save line B V R. subst line. unfold get_option. rewrite token2; try assumption; try discriminate.
  cbn [String.length substring]. rewrite Nat.sub_succ, Nat.sub_0_r.
  assert (SV : substring 0 (String.length v) v = v) by (rewrite <- (sapp_nil v) at 2; apply sub_app).
  rewrite SV. destruct (find_option v names false) as [i|] eqn:F.
  - split.
    + intros K. exfalso. destruct (replace size (String "-" v) (nth_name names i) save);
        destruct (replace size (String "-" v) (nth_name names i) (b ++ String "-" v ++ rest)); discriminate K.
    + intros H. exfalso. apply C105_abbreviation in F. destruct F as (j & n & _ & E & P & _).
      apply (H n); [eapply nth_error_In, E | exact P].
  - split; [|reflexivity]. intros _ n I1 P. apply In_nth_error in I1. destruct I1 as (j & E).
    assert (G : exists i, find_option v names false = Some i); [|destruct G; congruence].
    unfold find_option. clear F. generalize 0. revert j E. induction names as [|x r IH]; intros j E k; [destruct j; discriminate E|].
    cbn [find_from]. destruct (prefix (lower v) x) eqn:PX; [eauto|]. destruct j as [|j].
    + exfalso. assert (x = n) by (cbn in E; congruence). subst x. apply prefix_begins in P. congruence.
    + apply (IH j E).
Qed.
Print Assumptions C105_unknown.

(** In data, a first word that is the whole name of an option is that option,
    and its value is what follows; other data stay as they are. *)
Theorem C105_data : forall size names b w rest save, NoDup names ->
  let line := (b ++ w ++ rest)%string in
  each isspace b = true -> each word_char w = true -> w <> "" ->
  match rest with "" => True | String c _ => isspace c = true end ->
  (forall j, nth_error names j = Some (lower w) -> get_option size names Data line save = Opt (Z.of_nat j) rest) /\
  (~ In (lower w) names -> get_option size names Data line save = Other line).
Proof.
  intros size names b w rest save ND line B W NE R. subst line. unfold get_option. rewrite token2 by assumption. split.
  - intros j E. rewrite (proj2 (C105_whole w names (Z.of_nat j) ND)); [reflexivity|]. exists j. auto.
  - intros NI. destruct (find_option w names true) as [i|] eqn:F; [|reflexivity].
    apply (C105_whole w names i ND) in F. destruct F as (j & _ & E). exfalso. apply NI. eapply nth_error_In, E.
Qed.
Print Assumptions C105_data.

(** A long line with an abbreviated option: when the line leaves one place in
    the buffer, the buffer is not made larger for the line, and writing out the
    name goes past its end. *)
Theorem C105_overrun_refuted : forall size names b v rest i n,
  let line := (b ++ String "-" v ++ rest)%string in
  each isspace b = true -> each word_char v = true ->
  match rest with "" => True | String c _ => isspace c = true end ->
  find_option v names false = Some i -> nth_name names i = n ->
  (String.length v + 3 <= String.length n)%nat -> Z.of_nat (String.length line) + 2 = size ->
  grow size line line = size /\ get_option size names Option_ line line = Overrun.
Proof.
  intros size names b v rest i n line B V R F N LN L. split.
  - unfold grow. rewrite Z.max_id. rewrite (proj2 (Z.leb_gt _ _)) by lia. reflexivity.
  - subst line. unfold get_option. rewrite token2; try assumption; try discriminate.
    cbn [String.length substring]. rewrite Nat.sub_succ, Nat.sub_0_r.
    assert (SV : substring 0 (String.length v) v = v) by (rewrite <- (sapp_nil v) at 2; apply sub_app).
    rewrite SV, F, N. unfold replace. rewrite !replace_here by assumption.
    rewrite !sapp_len in L. cbn [String.length] in L. rewrite !sapp_len.
    rewrite (proj2 (Z.leb_gt _ _)) by (cbn [String.length]; lia). reflexivity.
Qed.
Print Assumptions C105_overrun_refuted.

Definition some_names : list string := ["iterations"; "tolerance"; "step_size"; "debug_model"; "debug_prep"].
Fixpoint zeros (n : nat) : string := match n with O => "" | S n => String "0" (zeros n) end.

Example C105_case :
  get_option 4096 some_names Option_ "  -Tol 1e-9 x" "  -Tol 1e-9 x # remark" = Opt 1 " 1e-9 x" /\
  get_option 4096 some_names Option_ "-debug" "-debug" = Opt 3 "" /\
  get_option 4096 some_names Option_ "-tolerances 1" "-tolerances 1" = BadOption /\
  get_option 4096 some_names Data "step_size 10" "step_size 10" = Opt 2 " 10" /\
  get_option 4096 some_names Data "step 10" "step 10" = Other "step 10" /\
  (let line := ("-t 1e-9" ++ zeros (40 * 102 + 7))%string in
   Z.of_nat (String.length line) + 2 = 4096 /\ get_option 4096 some_names Option_ line line = Overrun).
Proof. vm_compute. repeat split. Qed.
