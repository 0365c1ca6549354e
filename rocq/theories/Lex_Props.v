(** C74 and C77: the text of BASIC programs. *)
From Coq Require Import String Ascii List ZArith QArith Bool Lia.
From Verif Require Import CStr_Model CNum_Model Qx Chem_Model Ckpt_Model Basic_Model Prog_Model Prog_Spec Prog5_Proofs Prog_Props Lex_Model Lex_Spec Lex_Proofs.
Import ListNotations.
Local Open Scope string_scope.
Local Open Scope list_scope.
Local Open Scope Z_scope.

(** A line is read as the tokens that are written there, whatever their number, with any blanks between them; parentheses must pair up. *)
Theorem C74_tokens : forall number s l, reads number "" s l -> lex number s = if (lefts l =? rights l)%nat then Ok l else Err.
Proof. exact lex_text. Qed.
Print Assumptions C74_tokens.
(** A text that is not closed is an error. *)
Theorem C74_open_text : forall number s l q a, reads number (String q a) s l -> q = """"%char \/ q = "'"%char -> every (fun c => c <> q) a -> lex number s = Err.
Proof. exact lex_open. Qed.
Print Assumptions C74_open_text.
(** REM takes the rest of the line. *)
Theorem C74_remark : forall number s l a u, reads number (a ++ u) s l -> small a = "rem" -> ~ begins in_word u -> lex number s = if (lefts l =? rights l)%nat then Ok (l ++ [TRem u]) else Err.
Proof. exact lex_rem. Qed.
Print Assumptions C74_remark.
(** Names that agree in their first twenty characters are the same variable, without a message.  PBasic.cpp:720-740 (toklength, 24). *)
Theorem C74_names_refuted : forall number a b, begins is_letter a -> begins is_letter b -> every in_word a -> every in_word b -> substring 0 20 a = substring 0 20 b -> is_name (small (substring 0 20 a)) ->
  lex number a = lex number b /\ lex number a = Ok [TVar (small (substring 0 20 a))].
Proof.
  intros number a b Fa Fb Wa Wb E N.
  assert (G : forall x, begins is_letter x -> every in_word x -> substring 0 20 x = substring 0 20 a -> lex number x = Ok [TVar (small (substring 0 20 a))]).
  { intros x F W Ex. rewrite (lex_text number x [TVar (small (substring 0 20 a))]); [reflexivity|]. replace x with (x ++ "")%string by (clear; induction x; [reflexivity|cbn; congruence]).
    eapply rd_tok; [apply sp_name; [exact F|exact W|rewrite Ex; reflexivity|exact N]|cbn; tauto|apply rd_done]. }
  split; [rewrite (G a), (G b) by auto; reflexivity|apply G; auto].
Qed.
Print Assumptions C74_names_refuted.
(** The text of a program, line by line: the program has the lines in order, each with the text that was written last. *)
Theorem C77_compile : forall number ls s, text_of ls s -> Forall (good_line number) ls ->
  exists p, compile number s = Program p /\ ascending p /\ forall k, text_at p k = match last_typed (map (fun l => (fst (fst l), snd l)) ls) k with Some (x :: t) => Some (x :: t) | _ => None end.
Proof.
  intros number ls s H F. eexists. split; [exact (compile_text number ls s H F [] (String.length s) (le_n _))|].
  assert (E : forall p, fold_left (fun p l => enter (fst (fst l)) (snd l) p) ls p = fold_left (fun p (l : Z * list tok) => enter (fst l) (snd l) p) (map (fun l => (fst (fst l), snd l)) ls) p) by (clear; induction ls as [|[[n s] t] ls IH]; intros p; [reflexivity|apply IH]).
  rewrite E. split; [apply (C77_typed _ 0)|]. intros k. apply C77_typed.
Qed.
Print Assumptions C77_compile.
(** A number for the examples: digits only. *)
Definition digits_only (s : string) : option (Q * string) := let '(n, r) := line_number 0 s in Some (inject_Z n, r).

Example C74_text_case : reads digits_only "" "IF a1>=10 THEN PRINT(""x"")" [TIf; TVar "a1"; TGe; TNum 10; TThen; TPrint; TLp; TStr "x"; TRp].
Proof.
  apply (rd_tok digits_only "" TIf "IF" (fun r => ~ begins in_word r)); [apply (sp_reserved _ "if"); [cbn; tauto|reflexivity]|cbn; unfold in_word, is_letter; cbn; intuition discriminate|]. apply rd_blank.
  apply (rd_tok digits_only "" (TVar "a1") "a1" (fun r => ~ begins in_word r)).
  { apply sp_name; [left; cbn; tauto| |reflexivity|]; [cbn; repeat split; [left; left; cbn; tauto|right; left; cbn; tauto]|]. split; [cbn; intuition discriminate|]. split; [cbn; intuition discriminate|discriminate]. }
  { cbn. unfold in_word, is_letter. cbn. intuition discriminate. }
  apply (rd_tok digits_only "" TGe ">=" (fun _ => True)); [apply sp_ge|exact I|].
  apply (rd_tok digits_only "" (TNum 10) "10" (fun r => digits_only ("10" ++ r) = Some (10%Q, r))); [apply sp_num; cbn; tauto|reflexivity|]. apply rd_blank.
  apply (rd_tok digits_only "" TThen "THEN" (fun r => ~ begins in_word r)); [apply (sp_reserved _ "then"); [cbn; tauto|reflexivity]|cbn; unfold in_word, is_letter; cbn; intuition discriminate|]. apply rd_blank.
  apply (rd_tok digits_only "" TPrint "PRINT" (fun r => ~ begins in_word r)); [apply (sp_reserved _ "print"); [cbn; tauto|reflexivity]|cbn; unfold in_word, is_letter; cbn; intuition discriminate|].
  apply (rd_tok digits_only "" TLp "(" (fun _ => True)); [apply sp_sign; cbn; tauto|exact I|].
  apply (rd_tok digits_only "" (TStr "x") """x""" (fun _ => True)); [apply (sp_text _ """"%char "x"); [auto|cbn; split; [discriminate|exact I]]|exact I|].
  apply (rd_tok digits_only "" TRp ")" (fun _ => True)); [apply sp_sign; cbn; tauto|exact I|apply rd_done].
Qed.
Example C77_compile_case : let ls := [(20, "end", [TEnd]); (10, "stop", [TStop]); (20, "return", [TReturn])] in
  text_of ls "20 end;10 stop;20 return" /\ Forall (good_line digits_only) ls /\ compile digits_only "20 end;10 stop;20 return" = Program [(10, [TStop]); (20, [TReturn])].
Proof.
  assert (G : forall n w t, 1 <= n <= LONG_MAX -> In (w, t) reserved -> every plain_char w -> ends_plain w -> small w = w -> (t <> TLp) -> t <> TRp -> good_line digits_only (n, w, [t])).
  { intros n w t Hn H P E Sm N1 N2. split; [exact Hn|]. split; [exact P|]. split; [exact E|]. split.
    - replace w with (w ++ "")%string by (clear; induction w; [reflexivity|cbn; congruence]). eapply rd_tok; [eapply sp_reserved; [exact H|exact Sm]|cbn; tauto|apply rd_done].
    - destruct t; try reflexivity; contradiction. }
  intros ls. split; [|split; [|reflexivity]].
  - apply (to_line 20 "end" [TEnd] _ "10 stop;20 return" ";"%char); [auto|]. apply (to_line 10 "stop" [TStop] _ "20 return" ";"%char); [auto|]. apply (to_last 20 "return" [TReturn]).
  - assert (B : 20 <= LONG_MAX) by (unfold LONG_MAX; lia). repeat (apply Forall_cons; [apply G; [lia|cbn; tauto|cbn; unfold plain_char; repeat split; discriminate|reflexivity|reflexivity|discriminate|discriminate]|]). apply Forall_nil.
Qed.
