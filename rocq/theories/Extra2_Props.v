(** Further theorems on properties C26 and C38. *)
From Coq Require Import String Ascii ZArith Bool List Lia QArith Qabs.
From Verif Require Import SelOut_Model Inst_Model Inst_Spec Inst_Proofs Route_Model.
Import ListNotations.
Local Open Scope string_scope.
Local Open Scope list_scope.
Local Open Scope Z_scope.

(** C26: asking for a value outside the current table of selected output names what is out of
    range, the row first; asking for one inside leaves no error. *)
Theorem C26_lookup : forall s row col s' code v h t,
  get_value s row col = (s', RValue code v) ->
  tables (se s) (cur (se s)) = Some h -> run empty h = Some t ->
  let rows := 0 <= row < row_count t in
  let columns := 0 <= col < col_count t in
  (~ rows -> code = -4 /\
     getlines (err (rp s')) = ["GetSelectedOutputValue: VR_INVALIDROW Row index out of range."]) /\
  (rows -> ~ columns -> code = -5 /\
     getlines (err (rp s')) = ["GetSelectedOutputValue: VR_INVALIDCOL Column index out of range."]) /\
  (rows -> columns -> code = 0 /\ err (rp s') = "") /\
  (~ (rows /\ columns) -> err_lines (rp s') = getlines (err (rp s'))).
Proof.
  intros s row col s' code v h t G T R rows columns.
  unfold get_value in G. change (se (clear_errors s)) with (se s) in G. rewrite T, R in G.
  unfold get in G.
  destruct ((row >=? row_count t) || (row <? 0)) eqn:A.
  - assert (N : ~ rows) by (unfold rows; lia). cbn in G.
    assert (E1 : code = -4) by (injection G as _ <- _; reflexivity).
    assert (E2 : err (rp s') = ("GetSelectedOutputValue: VR_INVALIDROW Row index out of range." ++ nl)%string)
      by (injection G as <- _ _; reflexivity).
    assert (E3 : err_lines (rp s') = getlines (err (rp s'))) by (injection G as <- _ _; reflexivity).
    split; [intros _; split; [exact E1|rewrite E2; reflexivity]|].
    split; [tauto|]. split; [tauto|]. intros _. exact E3.
  - assert (Y : rows) by (unfold rows; lia).
    destruct ((col >=? col_count t) || (col <? 0)) eqn:B.
    + assert (N : ~ columns) by (unfold columns; lia). cbn in G.
      assert (E1 : code = -5) by (injection G as _ <- _; reflexivity).
      assert (E2 : err (rp s') = ("GetSelectedOutputValue: VR_INVALIDCOL Column index out of range." ++ nl)%string)
        by (injection G as <- _ _; reflexivity).
      assert (E3 : err_lines (rp s') = getlines (err (rp s'))) by (injection G as <- _ _; reflexivity).
      split; [tauto|]. split; [intros _ _; split; [exact E1|rewrite E2; reflexivity]|].
      split; [tauto|]. intros _. exact E3.
    + assert (C : columns) by (unfold columns; lia).
      assert (X : code = 0 /\ err (rp s') = "").
      { destruct (negb (row =? 0)).
        - destruct (nth_error (cols t) (Z.to_nat col)) as [c|]; [|discriminate].
          destruct (nth_error c (Z.to_nat (row - 1))); [|discriminate].
          cbn in G. injection G as <- <- _. split; reflexivity.
        - destruct (nth_error (headings t) (Z.to_nat col)); [|discriminate].
          cbn in G. injection G as <- <- _. split; reflexivity. }
      tauto.
Qed.
Print Assumptions C26_lookup.

(** C38: the unit of pumps, gallons per minute, is that of 231 cubic inches to six decimals of
    a cubic meter per hour. *)
Theorem C38_gallons :
  (Qabs (gpm2m3ph - (231 # 1) * ((254 # 10000) * (254 # 10000) * (254 # 10000)) * 60) < 5 # 10000000)%Q /\
  (inch2m == 254 # 10000)%Q.
Proof. split; reflexivity. Qed.
Print Assumptions C38_gallons.

(** With a table of one row and one column. *)
Example C26_lookup_example :
  let s := set_se created (mkSel 1 (fun _ => None) (fun _ => None)
             (fun _ => Some [Push "pH" (VString "7"); End]) (fun _ => None) (fun _ => None) []) in
  snd (get_value s 3 0) = RValue (-4) (VError (-4)) /\
  snd (get_value s 1 2) = RValue (-5) (VError (-5)) /\
  snd (get_value s 1 0) = RValue 0 (VString "7").
Proof. vm_compute. repeat split. Qed.
