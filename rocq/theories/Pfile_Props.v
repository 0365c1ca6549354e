(** Property C13.  [conv] is the conversion of a value text for a type; a newline after it does not matter (as for atof and atol). *)
From Coq Require Import String Ascii List ZArith Bool Lia ZifyBool.
From Verif Require Import CStr_Model CNum_Model Elem_Model Elem_Spec Elem_Proofs Pfile_Model Pfile_Spec Pfile_Proofs.
Import ListNotations.
Local Open Scope string_scope.
Local Open Scope list_scope.

(** The values of one parameter: too few (10) and too many (11) are errors, the right number is stored in order; notes go to the value before them.
    Nothing else of the parameter changes, and nothing is written outside of it. *)
Theorem C13_values : forall (V : Type) (conv : Z -> string -> V), (forall ty s, conv ty (s ++ newline)%string = conv ty s) ->
  forall p items ls tail e, Forall2 written items ls -> q_size p = Z.of_nat (length (q_vals p)) -> length (q_desc p) = length (q_vals p) -> notes_after 0 items ->
  (exists h r, tail = h :: r /\ prefix "####" h = true) \/ tail = [] ->
  let vs := map (conv (q_type p)) (listed items) in
  exists code q line f, read_values conv p (mkStream (ls ++ tail) e) = Ret (code, q, line, f) /\
    (code = 0%Z <-> length vs = length (q_vals p)) /\ (code = 10%Z <-> length vs < length (q_vals p)) /\ (code = 11%Z <-> length (q_vals p) < length vs) /\
    q_name q = q_name p /\ q_dims q = q_dims p /\ q_size q = q_size p /\ q_type q = q_type p /\ length (q_vals q) = length (q_vals p) /\
    (code = 0%Z -> q_vals q = vs /\ forall k, k < length vs -> nth_error (q_desc q) k = Some (note_on k 0 items (nth k (q_desc p) None))).
Proof.
  intros V conv CN p items ls tail e W SZ LD NA TL vs.
  destruct (values_ok conv CN p items ls tail e W SZ LD NA TL) as [q [line [f [R [Q1 [Q2 [Q3 [Q4 [_ [_ [_ [QV QD]]]]]]]]]]]]. cbn zeta in *.
  change (conv_texts conv (q_type p) (listed items)) with vs in *.
  eexists. exists q, line, f. split; [exact R|].
  assert (LV : length (q_vals q) = length (q_vals p)) by (rewrite QV, app_length, firstn_length, skipn_length; lia).
  destruct (Nat.compare_spec (length vs) (length (q_vals p))) as [E|E|E]; (split; [split; [try discriminate; intros _; exact E|intros; lia || reflexivity]|]);
    (split; [split; [try discriminate; intros _; exact E|intros; lia || reflexivity]|]); (split; [split; [try discriminate; intros _; exact E|intros; lia || reflexivity]|]);
    repeat (split; [assumption|]); try discriminate.
  intros _. split; [rewrite QV, firstn_all2, skipn_all2, app_nil_r by lia; reflexivity|]. destruct (QD ltac:(lia)) as [_ [ND _]]. intros k K. apply ND. lia.
Qed.
Print Assumptions C13_values.
(** A whole file: after the read every parameter has the values of its last block, the others are unchanged, blocks of undeclared parameters are ignored. *)
Theorem C13_file : forall (V : Type) (conv : Z -> string -> V), (forall ty s, conv ty (s ++ newline)%string = conv ty s) ->
  forall getdim sig bs lss pre mark junk (d : @db V) index, Forall2 (block_lines sig) bs lss -> regular bs lss ->
  (forall n, match lookup d n with
             | Some p => sig n = Some (q_dims p, q_size p, q_type p) /\ q_size p = Z.of_nat (length (q_vals p)) /\ length (q_desc p) = length (q_vals p)
             | None => sig n = None end) ->
  Forall ended pre -> Forall (fun l => prefix "** Parameters **" l = false) pre -> prefix "** Parameters **" mark = true -> ended mark ->
  Forall ended junk -> Forall (fun l => prefix "####" l = false) junk ->
  exists d', rp conv getdim index d ((if Z.eqb index 0 then pre ++ [mark] else []) ++ junk ++ concat lss) = Ret (0%Z, d') /\
    forall name, match last_block name bs with
      | None => lookup d' name = lookup d name
      | Some items => exists p q, lookup d name = Some p /\ lookup d' name = Some q /\ q_dims q = q_dims p /\ q_size q = q_size p /\ q_type q = q_type p /\
          q_vals q = map (conv (q_type q)) (listed items) /\ q_read q = true
      end.
Proof.
  intros V conv CN getdim sig bs lss pre mark junk d index B RG AG PE PN MK ME JE JN.
  assert (K : forall n line f, line :: lines f = junk ++ concat lss -> eof f = false -> length (lines f) < n -> exists d', rounds conv getdim n d line f = Ret (0%Z, d') /\
    forall name, match last_block name bs with
      | None => lookup d' name = lookup d name
      | Some items => exists p q, lookup d name = Some p /\ lookup d' name = Some q /\ q_dims q = q_dims p /\ q_size q = q_size p /\ q_type q = q_type p /\
          q_vals q = map (conv (q_type q)) (listed items) /\ q_read q = true
      end).
  { intros n line f E F N. destruct (rounds_ok conv CN getdim sig bs lss B n d line f junk RG AG) as [d' [R [A' L]]]; [|exact F|exact E|exact JN| |].
    - apply (f_equal (@length string)) in E. cbn [length] in E. rewrite app_length in E.
      assert (LL : length bs < length (concat lss) \/ bs = []).
      { clear - B. induction B as [|b ls bs lss B BS IH]; [right; reflexivity|]. left. cbn [concat length]. rewrite app_length.
        assert (2 <= length ls). { destruct B as [name items dims size type hl vl SG D0 D3 SZ TY HD W LL NA|]; [|cbn; lia]. destruct HD. cbn [app length]. lia. }
        destruct IH as [IH | ->]; [lia|]. cbn [length]. lia. }
      destruct LL as [LL| ->]; [lia|]. cbn [length]. lia.
    - intros x y ->. inversion JE; assumption.
    - exists d'. split; [exact R|]. intros name. specialize (L name). destruct (last_block name bs) as [items|]; [|exact L]. destruct L as [q [Q1 [Q2 Q3]]].
      pose proof (A' name) as A1. rewrite Q1 in A1. destruct A1 as [A1 _]. pose proof (AG name) as A2. destruct (lookup d name) as [p|]; [|congruence].
      destruct A2 as [A2 _]. rewrite A1 in A2. injection A2 as E1 E2 E3. exists p, q. repeat (split; [first [reflexivity|assumption]|]). exact Q3. }
  assert (NB : exists line r, junk ++ concat lss = line :: r /\ ended line).
  { destruct junk as [|x junk]; [|inversion JE; subst; exists x; eexists; split; [reflexivity|assumption]].
    destruct B as [|b ls bs lss B BS]; [destruct RG|]. destruct (block_head sig b ls B) as [h [r [-> [_ HE]]]]. exists h. eexists. split; [reflexivity|exact HE]. }
  destruct NB as [line [r [NB LE]]]. unfold rp. destruct (Z.eqb index 0).
  - assert (SD : skip_dims ((pre ++ [mark]) ++ junk ++ concat lss) false = Some (mkStream (junk ++ concat lss) false)).
    { rewrite <- app_assoc. cbn [app]. generalize (junk ++ concat lss). clear - PE PN MK ME. intros rest. induction pre as [|x pre IH]; cbn [app skip_dims].
      - rewrite (ended_nl _ ME), MK. reflexivity.
      - inversion PE; inversion PN; subst. rewrite (ended_nl x) by assumption. match goal with H : prefix _ x = false |- _ => rewrite H end. apply IH; assumption. }
    destruct ((pre ++ [mark]) ++ junk ++ concat lss) as [|l0 r0] eqn:L0; [destruct pre; discriminate|]. unfold fgets at 1. cbn [lines]. rewrite SD. unfold fgets. rewrite NB. cbn [lines eof orb].
    rewrite (ended_nl line LE). apply K; cbn [lines eof negb]; [symmetry; exact NB|reflexivity|lia].
  - cbn [app]. unfold fgets. rewrite NB. cbn [lines eof orb]. rewrite (ended_nl line LE). apply K; cbn [lines eof negb]; [symmetry; exact NB|reflexivity|lia].
Qed.
Print Assumptions C13_file.
(** The condition on the conversion holds for integers. *)
Theorem C13_integers : forall s, atoi (s ++ newline)%string = atoi s.
Proof. exact atoi_nl. Qed.
Print Assumptions C13_integers.
(** Integer values: a decimal numeral is stored as its value. *)
Theorem C13_integer_value : forall s n, numeral s n -> (n < 2147483648)%Z -> atoi s = n.
Proof. intros s n H L. apply numeral_atoi; assumption. Qed.
Print Assumptions C13_integer_value.

(** What the program writes it cannot read: after every value there is a blank, so that the newline is taken as another value. *)
Theorem C13_round_trip_refuted : forall (V : Type) (conv : Z -> string -> V) (show : Z -> V -> string) p,
  Forall (fun v => plain (show (q_type p) v) /\ prefix "@" (show (q_type p) v) = false /\ prefix "#" (show (q_type p) v) = false) (q_vals p) ->
  q_vals p <> [] -> q_size p = Z.of_nat (length (q_vals p)) -> length (q_desc p) = length (q_vals p) ->
  exists q line f, read_values conv p (mkStream (save_values show (q_type p) (q_vals p) (q_desc p)) false) = Ret (11%Z, q, line, f).
Proof.
  intros V conv show p SH NE SZ LD. assert (0 < length (q_vals p)) by (destruct (q_vals p); [contradiction|cbn; lia]).
  destruct (saved_lines conv show (q_type p) (q_vals p) SH (q_desc p) LD false [] (q_vals p) (q_desc p) (q_size p)) as [arr [notes' [line [f E]]]]; [exact SZ|exact LD|lia|].
  unfold read_values. cbn [lines eof]. cbn [app length] in E. change (Z.of_nat 0) with 0%Z in E. rewrite E. cbn [bind]. 
  replace (q_size p + 1 <? q_size p)%Z with false by lia. replace (q_size p + 1 >? q_size p)%Z with true by lia. eexists. eexists. eexists. reflexivity.
Qed.
Print Assumptions C13_round_trip_refuted.
Definition int_conv (ty : Z) (s : string) : Z := atoi s.
Definition ex_p : param Z := mkParam "slope" ["nmru"; "nac"] 4 1 [7; 7; 7; 7]%Z [None; None; None; None] 0 None false.
Definition nl_end (s : string) : string := (s ++ newline)%string.
(** A blank line among the values is taken as a value 0. *)
Theorem C13_blank_line_refuted : exists q line f,
  read_values int_conv ex_p (mkStream (map nl_end ["1"; ""; "2"; "3"]) false) = Ret (0%Z, q, line, f) /\ q_vals q = [1; 0; 2; 3]%Z.
Proof. eexists. eexists. eexists. split; vm_compute; reflexivity. Qed.
Print Assumptions C13_blank_line_refuted.
(** A note before the first value is written before the table of notes. *)
Theorem C13_note_refuted : forall (V : Type) (conv : Z -> string -> V) p t ls e, read_values conv p (mkStream (("@" ++ t) :: ls)%string e) = UB.
Proof. intros. reflexivity. Qed.
Print Assumptions C13_note_refuted.
(** Of two note lines on a value only the last is kept. *)
Theorem C13_notes_refuted : exists q line f,
  read_values int_conv ex_p (mkStream (map nl_end ["1"; "@ first line"; "@ second line"; "2 3 4"]) false) = Ret (0%Z, q, line, f) /\ nth_error (q_desc q) 0 = Some (Some " second line").
Proof. eexists. eexists. eexists. split; vm_compute; reflexivity. Qed.
Print Assumptions C13_notes_refuted.
(** A file whose last parameter is not declared is closed twice. *)
Definition head_lines : list string := map nl_end ["####"; "slope 10 %8.2f"; "2"; "nmru"; "nac"; "4"; "1"].
Theorem C13_undeclared_refuted : rp int_conv (fun _ => 0%Z) 1 [ex_p] (head_lines ++ map nl_end ["1 2"; "3 4"] ++ map nl_end ["####"; "nobody"; "1"; "one"; "1"; "1"; "5"]) = UB.
Proof. vm_compute. reflexivity. Qed.
Print Assumptions C13_undeclared_refuted.

(** A file with an undeclared parameter between two blocks of one. *)
Definition ex_sig (n : string) : option (list string * Z * Z) := if String.eqb n "slope" then Some (["nmru"; "nac"], 4%Z, 1%Z) else None.
Definition ex_blocks : list block := [Declared "slope" [Values [Many "4" "9" 4]]; Unknown "nobody"; Declared "slope" [Values [One "1"; Many "2" "22" 2]; Note " steep"; Values [One "3"]]].
Definition ex_lines : list (list string) :=
  [head_lines ++ map nl_end ["4*9"]; map nl_end ["####"; "nobody"; "1"; "one"; "1"; "1"; "5"]; head_lines ++ [nl_end "  1  2*22"; nl_end "@ steep"; "3"]].
Example C13_ex : Forall2 (block_lines ex_sig) ex_blocks ex_lines /\ regular ex_blocks ex_lines /\
  (exists d', rp int_conv (fun _ => 0%Z) 0 [ex_p] (map nl_end ["title"; "** Dimensions **"; "** Parameters **"; ""] ++ concat ex_lines) = Ret (0%Z, d') /\
    option_map q_vals (lookup d' "slope") = Some [1; 22; 22; 3]%Z /\ option_map q_desc (lookup d' "slope") = Some [None; None; Some " steep"; None]).
Proof.
  assert (PL : forall s, s <> "" -> forallb (fun c => negb (Ascii.eqb c " ") && negb (Ascii.eqb c "*") && negb (Ascii.eqb c "010")) (list_ascii_of_string s) = true -> plain s).
  { intros s N H. rewrite forallb_forall in H. split; [exact N|]. repeat split; intros I; specialize (H _ I); discriminate. }
  assert (HD : heading "slope" ["nmru"; "nac"] 4 1 head_lines).
  { change head_lines with (nl_end "####" :: nl_end "slope 10 %8.2f" :: nl_end "2" :: [nl_end "nmru"; nl_end "nac"] ++ [nl_end "4"; nl_end "1"]).
    assert (NL : forall s n, numeral s n -> number_line (nl_end s) n) by (intros s n H; exists s, "010"%char, ""; split; [exact H|]; split; [reflexivity|right; reflexivity]).
    constructor; try (eexists; reflexivity).
    - split; [discriminate|]. split; [intros I; cbn in I; intuition discriminate|]. split; [intros I; cbn in I; intuition discriminate|]. split; [cbn; lia|]. split; [reflexivity|]. right. exists "10 %8.2f". reflexivity.
    - apply NL. exact (num_digit 2 ltac:(lia)).
    - repeat constructor; cbn; lia.
    - apply NL. exact (num_digit 4 ltac:(lia)).
    - apply NL. exact (num_digit 1 ltac:(lia)). }
  split; [|split].
  - constructor; [|constructor; [|constructor; [|constructor]]].
    + change (head_lines ++ map nl_end ["4*9"]) with (head_lines ++ [nl_end "4*9"]). apply (bl_declared ex_sig "slope" _ ["nmru"; "nac"] 4 1); try reflexivity; try discriminate; try (cbn; lia); [exact HD|].
      * constructor; [|constructor]. change (nl_end "4*9") with (blanks 0 ++ "4*9" ++ newline)%string. constructor; [|left; reflexivity|reflexivity|reflexivity]. apply row_one. change "4*9" with ("4" ++ "*" ++ "9")%string. constructor; [exact (num_digit 4 ltac:(lia))|lia|apply PL; [discriminate|reflexivity]].
    + apply bl_unknown; [reflexivity|reflexivity|eexists; reflexivity| |repeat constructor].
      split; [discriminate|]. split; [intros J; cbn in J; intuition discriminate|]. split; [intros J; cbn in J; intuition discriminate|]. split; [cbn; lia|]. split; [reflexivity|]. left. reflexivity.
    + apply (bl_declared ex_sig "slope" _ ["nmru"; "nac"] 4 1); try reflexivity; try discriminate; try (cbn; lia); [exact HD|].
      * constructor; [|constructor; [|constructor; [|constructor]]].
        -- change (nl_end "  1  2*22") with (blanks 2 ++ ("1" ++ blanks 2 ++ ("2" ++ "*" ++ "22")) ++ newline)%string. constructor; [|left; reflexivity|reflexivity|reflexivity].
           apply row_more; [constructor; apply PL; [discriminate|reflexivity]|]. apply row_one. constructor; [exact (num_digit 2 ltac:(lia))|lia|apply PL; [discriminate|reflexivity]].
        -- change (nl_end "@ steep") with ("@" ++ " steep" ++ newline)%string. constructor; [|left; reflexivity]. intros J; cbn in J; intuition discriminate.
        -- change "3" with (blanks 0 ++ "3" ++ "")%string. constructor; [|right; reflexivity|reflexivity|reflexivity]. apply row_one. constructor. apply PL; [discriminate|reflexivity].
  - split; [repeat (constructor; [eexists; reflexivity|]); constructor|]. split; [repeat (constructor; [eexists; reflexivity|]); constructor|]. exact I.
  - eexists. split; [vm_compute; reflexivity|]. split; vm_compute; reflexivity.
Qed.
