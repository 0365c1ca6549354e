(** C77, continued: blank lines, and the words whose numbers RENUM changes. *)
From Coq Require Import String Ascii List ZArith QArith Bool Lia.
From Verif Require Import CStr_Model CNum_Model Qx Basic_Model Basic_Spec Prog_Model Prog_Spec Prog_Proofs Lex_Model Lex_Proofs Prog_Props.
Import ListNotations.
Local Open Scope string_scope.
Local Open Scope list_scope.
Local Open Scope Z_scope.

Lemma logical_shorter s : s <> "" -> (String.length (snd (logical_line s)) < String.length s)%nat.
Proof.
  intros H. assert (G : forall s, (String.length (snd (logical_line s)) <= String.length s)%nat).
  { induction s0 as [|c r IH]; [cbn; lia|]. cbn [logical_line]. destruct (Ascii.eqb c ";" || Ascii.eqb c newline); [cbn; lia|].
    destruct (logical_line r) as [a b]. cbn [snd String.length] in *. lia. }
  destruct s as [|c r]; [congruence|]. cbn [logical_line]. destruct (Ascii.eqb c ";" || Ascii.eqb c newline); [cbn; lia|].
  specialize (G r). destruct (logical_line r) as [a b]. cbn [snd String.length] in *. lia.
Qed.
Lemma compile_fuel number : forall n s p f f', (String.length s <= n)%nat -> (String.length s <= f)%nat -> (String.length s <= f')%nat ->
  compile_from number f s p = compile_from number f' s p.
Proof.
  induction n as [|n IH]; intros s p f f' L F F'.
  - destruct s; [destruct f, f'; reflexivity|cbn in L; lia].
  - destruct s as [|c r]; [destruct f, f'; reflexivity|].
    destruct f as [|f]; [cbn in F; lia|]. destruct f' as [|f']; [cbn in F'; lia|].
    pose proof (logical_shorter (String c r) ltac:(discriminate)) as B. cbn [compile_from].
    destruct (logical_line (String c r)) as [a b]. cbn [snd] in B.
    destruct (typed number a) as [[m t]| | | |]; try reflexivity.
    destruct (m =? 0); [destruct t; [|reflexivity]|]; apply IH; lia.
Qed.

(** Nothing but blanks, tabs and carriage returns. *)
Definition is_blank_char (c : ascii) : Prop := c = " "%char \/ c = tab \/ c = carriage.
Fixpoint is_blank (s : string) : Prop := match s with "" => True | String c r => is_blank_char c /\ is_blank r end.

Lemma blank_logical b e rest : is_blank b -> e = ";"%char \/ e = newline -> logical_line (b ++ String e rest) = (b, rest) /\ logical_line b = (b, "").
Proof.
  intros H E. induction b as [|c b IH].
  - cbn [append logical_line]. split; [|reflexivity]. destruct E as [-> | ->]; reflexivity.
  - destruct H as [C H]. destruct (IH H) as [I1 I2]. cbn [append logical_line]. rewrite I1, I2.
    destruct C as [-> |[-> | ->]]; split; reflexivity.
Qed.
Lemma blank_typed number b : is_blank b -> typed number b = Ok (0, []).
Proof.
  intros H. unfold typed.
  assert (T : trim_left (trim_right (blanked b)) = "").
  { assert (G : trim_right (blanked b) = "").
    { induction b as [|c b IH]; [reflexivity|]. destruct H as [C H]. specialize (IH H). cbn [blanked trim_right]. rewrite IH.
      destruct C as [-> |[-> | ->]]; reflexivity. }
    rewrite G. reflexivity. }
  rewrite T. reflexivity.
Qed.

(** Blank lines are skipped, wherever they stand: the lines read before are kept, and the rest of the text is read as if the blank line was not there. *)
Theorem C77_blank_lines : forall number b e rest p f f', is_blank b -> e = ";"%char \/ e = newline ->
  (String.length (b ++ String e rest) <= f)%nat -> (String.length rest <= f')%nat ->
  compile_from number f (b ++ String e rest) p = compile_from number f' rest p /\
  compile number (b ++ String e rest) = compile number rest /\ compile number b = Program [].
Proof.
  assert (G : forall number b e rest p f f', is_blank b -> e = ";"%char \/ e = newline ->
    (String.length (b ++ String e rest) <= f)%nat -> (String.length rest <= f')%nat ->
    compile_from number f (b ++ String e rest) p = compile_from number f' rest p).
  { intros number b e rest p f f' H E F F'. destruct (blank_logical b e rest H E) as [L _].
    rewrite append_length in F. cbn [String.length] in F. destruct f as [|f]; [lia|]. cbn [compile_from].
    destruct (b ++ String e rest)%string as [|c u] eqn:S'; [destruct b; discriminate|].
    rewrite L, (blank_typed number b H). cbn [Z.eqb]. apply (compile_fuel number (String.length rest)); lia. }
  intros number b e rest p f f' H E F F'. split; [apply G; assumption|]. split; [apply G; auto|].
  unfold compile. destruct b as [|c b]; [reflexivity|].
  assert (L : logical_line (String c b) = (String c b, "")) by (apply (blank_logical (String c b) ";"%char ""); [exact H|left; reflexivity]).
  cbn [String.length compile_from]. rewrite L, (blank_typed number (String c b) H). cbn [Z.eqb]. destruct (String.length b); reflexivity.
Qed.
Print Assumptions C77_blank_lines.

Example C77_blank_case : is_blank (String tab " ") /\ compile (fun s => let '(n, r) := line_number 0 s in Some (inject_Z n, r)) ("10 stop;" ++ String tab " ;20 end") = Program [(10, [TStop]); (20, [TEnd])].
Proof. split; [cbn; unfold is_blank_char; tauto|reflexivity]. Qed.

(** RENUM changes the number behind GOTO, GOSUB, THEN, ELSE, RESTORE, RUN, DEL and LIST, in a statement of any line, and behind no other word. *)
Theorem C77_renum_words : forall p first inc n i r, 0 < inc -> names_line p n i ->
  (forall word, In word [TGoto; TGosub; TThen; TElse; TRestore; TRun; TOther "del"; TOther "list"] ->
     renum_toks p first inc Outside (word :: TNum (inject_Z n) :: r) = word :: TNum (inject_Z (first + inc * Z.of_nat i)) :: renum_toks p first inc AfterNum r) /\
  (forall word, ~ In word [TGoto; TGosub; TThen; TElse; TRestore; TRun; TOther "del"; TOther "list"] ->
     renum_toks p first inc Outside (word :: TNum (inject_Z n) :: r) = word :: TNum (inject_Z n) :: renum_toks p first inc Outside r).
Proof.
  intros p first inc n i r Hi N. split; intros word W.
  - assert (HW : has_lines word = true) by (repeat (destruct W as [<- |W]; [reflexivity|]); destruct W).
    destruct (C77_renum p first inc n word r Hi HW) as [_ [R _]]. apply R. exact N.
  - assert (HW : has_lines word = false).
    { destruct (has_lines word) eqn:E; [|reflexivity]. exfalso. apply W. destruct word; try discriminate; cbn [In]; try tauto.
      cbn in E. apply orb_prop in E. rewrite !String.eqb_eq in E. destruct E as [-> | ->]; tauto. }
    assert (X : renum_toks p first inc Outside (word :: TNum (inject_Z n) :: r) = word :: renum_toks p first inc (if has_lines word then Inside else Outside) (TNum (inject_Z n) :: r)) by (destruct word; reflexivity).
    rewrite X, HW. reflexivity.
Qed.
Print Assumptions C77_renum_words.
