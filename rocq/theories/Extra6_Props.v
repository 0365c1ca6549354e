(** Further theorems on texts in Basic (C74). *)
From Coq Require Import String Ascii List ZArith QArith Bool Lia.
From Verif Require Import CNum_Model Basic_Model Basic_Spec Basic_Proofs Basic_Props.
Import ListNotations.
Local Open Scope string_scope.
Local Open Scope list_scope.
Local Open Scope Z_scope.

(** C74: ASC of a text is the code of its first character, and 0 for the empty text.  Finding: of a character beyond the 128 of ASCII it is
    the code less 256, a negative number. *)
Theorem C74_asc : forall w c r, let n := Z.of_nat (nat_of_ascii c) in
  (n < 128 -> yields w [TAsc; TStr (String c r)] (VNum (inject_Z n))) /\
  (128 <= n -> yields w [TAsc; TStr (String c r)] (VNum (inject_Z (n - 256)))) /\
  yields w [TAsc; TStr ""] (VNum 0).
Proof.
  intros w c r n. assert (N : Z.of_N (N_of_ascii c) = n) by (unfold n, nat_of_ascii; lia).
  split; [|split].
  - intros L. apply (yields_den w (Un Asc (Text (String c r)))); [exact I|]. cbn [den rbind un_value text_of]. unfold code_of. rewrite N.
    replace (128 <=? n) with false by (symmetry; apply Z.leb_gt; exact L). reflexivity.
  - intros L. apply (yields_den w (Un Asc (Text (String c r)))); [exact I|]. cbn [den rbind un_value text_of]. unfold code_of. rewrite N.
    replace (128 <=? n) with true by (symmetry; apply Z.leb_le; exact L). reflexivity.
  - apply (yields_den w (Un Asc (Text ""))); [exact I | reflexivity].
Qed.
Print Assumptions C74_asc.

(** C74: CHR$ undoes ASC: it gives back the first character of the text. *)
Theorem C74_chr_asc : forall w c r, nat_of_ascii c <> 0%nat -> yields w [TChr; TAsc; TStr (String c r)] (VStr (String c "")).
Proof.
  intros w c r NZ. assert (B : 0 < Z.of_N (N_of_ascii c) < 256).
  { pose proof (nat_ascii_bounded c). unfold nat_of_ascii in *. lia. }
  apply (yields_den w (Un Chr (Un Asc (Text (String c r))))); [exact I|]. cbn [den rbind un_value text_of].
  assert (R : rounded (VNum (inject_Z (code_of c))) = Ok (code_of c)).
  { cbn [rounded]. unfold to_int. assert (F : Qround.Qfloor (inject_Z (code_of c) + (1 # 2)) = code_of c).
    { unfold Qround.Qfloor, inject_Z, Qplus. cbn [Qnum Qden]. change (Z.pos (1 * 2)) with 2. rewrite Z.mul_1_r. symmetry. apply (Z.div_unique _ 2 _ 1); lia. }
    rewrite F. assert (C : -256 <= code_of c <= 256) by (unfold code_of; destruct (128 <=? Z.of_N (N_of_ascii c)); lia).
    replace (LONG_MIN <=? code_of c) with true by (symmetry; apply Z.leb_le; unfold LONG_MIN; lia).
    replace (code_of c <=? LONG_MAX) with true by (symmetry; apply Z.leb_le; unfold LONG_MAX; lia). reflexivity. }
  rewrite R. cbn [rbind]. assert (M : code_of c mod 256 = Z.of_N (N_of_ascii c)).
  { unfold code_of. destruct (128 <=? Z.of_N (N_of_ascii c)); [rewrite <- Zminus_mod_idemp_r; change (256 mod 256) with 0; rewrite Z.sub_0_r|]; apply Z.mod_small; lia. }
  rewrite M. replace (Z.of_N (N_of_ascii c) =? 0) with false by (symmetry; apply Z.eqb_neq; lia). rewrite N2Z.id, ascii_N_embedding. reflexivity.
Qed.
Print Assumptions C74_chr_asc.
