(** Property C14.  [atof] is the conversion of a text to a real; a newline or a blank after it does not matter. *)
From Coq Require Import String Ascii List ZArith Bool Lia ZifyBool.
From Verif Require Import CStr_Model CNum_Model Elem_Spec Elem_Proofs Pfile_Model Pfile_Spec Pfile_Proofs Ctrl_Model Ctrl_Spec Ctrl_Proofs.
Import ListNotations.
Local Open Scope string_scope.
Local Open Scope list_scope.

(** The value of a text: integer (1), real (2, 3), text (4). *)
Definition means {V} (atof : string -> V) (ty : Z) (t : string) (v : value) : Prop :=
  (ty = 1%Z /\ (forall n, numeral t n -> (n < 2 ^ 63)%Z -> v = VLong n) /\ v = VLong (atol t)) \/ (ty = 2%Z /\ v = VFloat (atof t)) \/ (ty = 3%Z /\ v = VDouble (atof t)) \/ (ty = 4%Z /\ v = VString t).
(** Every listed variable has the values of its last block, the others are unchanged; nothing is written outside of the storage.  The variables have
    the type and at least the number of values of their blocks ([sig]); those not declared before are created. *)
Theorem C14_file : forall (V : Type) (atof : string -> V), (forall s close, close = newline \/ close = " " -> atof (s ++ close)%string = atof s) ->
  forall sig (d : @db V) bs ls, file_of bs ls ->
  (forall k c, control_addr d k = Some c -> sig k = Some (c_type c, c_size c) /\ (0 <= c_size c)%Z /\ Z.to_nat (c_size c) * width (c_type c) <= length (c_mem c)) ->
  Forall (fun b => exists n, sig (b_key b) = Some (b_type b, n) /\ (Z.of_nat (length (b_vals b)) <= n)%Z /\ (control_addr d (b_key b) = None -> Z.of_nat (length (b_vals b)) = n)) bs ->
  exists d', rc atof d (Some ls) = Ret (0%Z, d') /\ forall key,
    match last_of key bs with
    | None => control_addr d' key = control_addr d key
    | Some b => exists n, sig key = Some (b_type b, n) /\ control_var_size d' key = n /\ forall i t, nth_error (b_vals b) i = Some t ->
        exists v, control_array d' key (Z.of_nat i) = Ret (Some v) /\ means atof (b_type b) t v
    end.
Proof.
  intros V atof AC sig d bs ls F AG FT. pose proof (file_types bs ls F) as TY. destruct (steps_ok atof sig bs d AG FT TY) as [d' [R [AG' W]]]. exists d'.
  split; [rewrite (rc_eq atof AC bs ls d F), R; reflexivity|]. intros key. specialize (W key). destruct (last_of key bs) as [b|] eqn:LB; [|exact W].
  destruct W as [c [A [S [CT G]]]]. exists (c_size c). split; [rewrite S, CT; reflexivity|]. split; [unfold control_var_size; rewrite A; reflexivity|]. intros i t I. exists (value_of atof (b_type b) t). unfold last_of in LB. apply find_some in LB. destruct LB as [LB LK]. apply in_rev in LB. apply String.eqb_eq in LK.
  rewrite Forall_forall in FT, TY. destruct (FT b LB) as [n [S1 [S2 _]]]. specialize (TY b LB). rewrite LK, S in S1. injection S1 as _ S1. assert (IL : i < length (b_vals b)) by (apply nth_error_Some; rewrite I; discriminate). split.
  - unfold control_array. rewrite A. destruct (Z.geb_spec (Z.of_nat i) (c_size c)); [lia|]. destruct (Z.ltb_spec (Z.of_nat i) 0); [lia|]. rewrite Nat2Z.id, CT, (G i t I). reflexivity.
  - unfold means, value_of. destruct (Z.eqb_spec (b_type b) 1) as [E|]; [left; split; [exact E|]; split; [|reflexivity]; intros m N L; rewrite (numeral_atol t m N) by (unfold LONG_MAX; lia); reflexivity|]. right. destruct (Z.eqb_spec (b_type b) 2) as [E|]; [left; split; [exact E|reflexivity]|]. right. destruct (Z.eqb_spec (b_type b) 3) as [E|]; [left; split; [exact E|reflexivity]|]. right. split; [lia|reflexivity].
Qed.
Print Assumptions C14_file.
(** Comments and blank lines make no difference: two files with the same blocks have the same outcome, good or bad. *)
Theorem C14_comments : forall (V : Type) (atof : string -> V), (forall s close, close = newline \/ close = " " -> atof (s ++ close)%string = atof s) ->
  forall (d : @db V) bs ls1 ls2, file_of bs ls1 -> file_of bs ls2 -> rc atof d (Some ls1) = rc atof d (Some ls2).
Proof. intros V atof AC d bs ls1 ls2 F1 F2. rewrite (rc_eq atof AC bs ls1 d F1), (rc_eq atof AC bs ls2 d F2). reflexivity. Qed.
Print Assumptions C14_comments.
(** Looking up: an element of the variable, or the program stops. *)
Theorem C14_lookup : forall (V : Type) (d : @db V) key i, (0 <= i)%Z ->
  match control_addr d key with
  | None => control_array d key i = Exit /\ control_var d key = Exit
  | Some c => if (i <? c_size c)%Z then control_array d key i = Ret (get (c_mem c) (c_type c) (Z.to_nat i)) else control_array d key i = Exit
  end.
Proof.
  intros V d key i H. unfold control_array, control_var. destruct (control_addr d key) as [c|]; [|split; reflexivity].
  destruct (Z.ltb_spec i (c_size c)), (Z.geb_spec i (c_size c)); try lia; [|reflexivity]. destruct (Z.ltb_spec i 0); [lia|reflexivity].
Qed.
Print Assumptions C14_lookup.
(** A variable is created once. *)
Theorem C14_declare : forall (V : Type) (d : @db V) key ty size mem, match control_addr d key with
  | Some _ => decl_control d key ty size mem = Exit /\ add_control d key ty size = Exit
  | None => exists d', decl_control d key ty size mem = Ret d' /\ control_addr d' key = Some (mkControl key size ty mem) /\ forall k, k <> key -> control_addr d' k = control_addr d k
  end.
Proof.
  intros V d key ty size mem. unfold decl_control, add_control. destruct (control_addr d key) as [c|] eqn:A; [split; reflexivity|]. eexists. split; [reflexivity|]. split.
  - rewrite addr_snoc, A. cbn [c_key]. rewrite String.eqb_refl. reflexivity.
  - intros k K. rewrite addr_snoc. cbn [c_key]. destruct (control_addr d k); [reflexivity|]. destruct (String.eqb_spec key k); [subst; contradiction|reflexivity].
Qed.
Print Assumptions C14_declare.
(** A text for Fortran: its first characters, and NUL after it. *)
Theorem C14_string : forall (V : Type) (d : @db V) key len c s, control_addr d key = Some c -> c_type c = 4%Z -> get (c_mem c) 4 0 = Some (VString s) ->
  exists r, control_string d key len = Ret r /\ length r = len /\ forall k, k < len -> nth_error r k = Some (match nth_error (list_ascii_of_string s) k with Some a => a | None => "000"%char end).
Proof.
  intros V d key len c s A T G. unfold control_string, control_var. rewrite A, T, G. cbn [bind]. eexists. split; [reflexivity|]. set (t := list_ascii_of_string s). split; [rewrite app_length, firstn_length, repeat_length; lia|].
  intros k K. destruct (Nat.ltb_spec k (length t)) as [L|L].
  - rewrite nth_error_app1 by (rewrite firstn_length; lia). rewrite nth_error_first by exact K. destruct (nth_error t k) eqn:E; [reflexivity|]. apply nth_error_None in E. lia.
  - rewrite nth_error_app2 by (rewrite firstn_length; lia). rewrite (proj2 (nth_error_None t k) L). rewrite nth_error_repeat; [reflexivity|]. rewrite firstn_length. lia.
Qed.
Print Assumptions C14_string.
(** A file that cannot be opened: an error; the file read before is read again. *)
Theorem C14_missing : forall (V : Type) (atof : string -> V) fs old (d : @db V) name, fs name = None ->
  read_control atof fs (Some old) d name = (do r <- rc atof d (fs old); Ret (1%Z, snd r, Some old)) /\ read_control atof fs None d name = Ret (1%Z, d, Some name).
Proof. intros V atof fs old d name H. unfold read_control. rewrite H. split; reflexivity. Qed.
Print Assumptions C14_missing.

(** More values than the storage of a declared variable has room for are written outside of it. *)
Theorem C14_overflow_refuted : forall (V : Type) (atof : string -> V), (forall s close, close = newline \/ close = " " -> atof (s ++ close)%string = atof s) ->
  forall (d : @db V) b ls c, file_of [b] ls -> control_addr d (b_key b) = Some c -> length (c_mem c) < length (b_vals b) * width (b_type b) -> rc atof d (Some ls) = UB.
Proof.
  intros V atof AC d b ls c F A L. rewrite (rc_eq atof AC [b] ls d F). cbn [steps]. unfold step. rewrite A. cbn [bind]. rewrite A. rewrite puts_over; [reflexivity|exact L|cbn; lia].
Qed.
Print Assumptions C14_overflow_refuted.
Definition z_atof (s : string) : Z := atol s.
Definition nl_end (s : string) : string := (s ++ newline)%string.
(** A comment glued to the text is looked for before the line. *)
Theorem C14_glued_refuted : rc z_atof [] (Some (map nl_end ["####"; "start_step//first"; "1"; "1"; "5"])) = UB.
Proof. vm_compute. reflexivity. Qed.
Print Assumptions C14_glued_refuted.
(** Two blanks before the comment of a name make another name of it. *)
Theorem C14_two_blanks_refuted : exists d', rc z_atof [] (Some (map nl_end ["####"; "start_step  // first"; "1"; "1"; "5"])) = Ret (0%Z, d') /\ control_addr d' "start_step" = None /\ control_array d' "start_step " 0 = Ret (Some (VLong 5)).
Proof. eexists. split; [vm_compute; reflexivity|]. split; vm_compute; reflexivity. Qed.
Print Assumptions C14_two_blanks_refuted.
(** The 50th and later characters of a comment before a name are taken as the name. *)
Theorem C14_long_comment_refuted : exists d', rc z_atof [] (Some (map nl_end ["####"; "// the first step of the run, counted from the start of the data file"; "start_step"; "1"; "1"; "5"])) = Ret (0%Z, d') /\ control_addr d' "start_step" = None.
Proof. eexists. split; vm_compute; reflexivity. Qed.
Print Assumptions C14_long_comment_refuted.
(** A last text without newline loses its last character. *)
Theorem C14_last_line_refuted : exists d', rc z_atof [] (Some (map nl_end ["####"; "data_file"; "1"; "4"] ++ ["in.dat"])) = Ret (0%Z, d') /\ control_array d' "data_file" 0 = Ret (Some (VString "in.da")).
Proof. eexists. split; vm_compute; reflexivity. Qed.
Print Assumptions C14_last_line_refuted.
(** A negative index is not refused. *)
Theorem C14_negative_refuted : forall (V : Type) (d : @db V) key c, control_addr d key = Some c -> (0 <= c_size c)%Z -> control_array d key (-1) = UB.
Proof. intros V d key c A S. unfold control_array. rewrite A. destruct (Z.geb_spec (-1) (c_size c)); [lia|reflexivity]. Qed.
Print Assumptions C14_negative_refuted.
(** control_integer delivers the lowest byte only. *)
Theorem C14_integer_refuted : forall (V : Type) (d : @db V) key z, control_var d key = Ret (Some (VLong z)) -> (control_integer d key = Ret z <-> (-128 <= z < 128)%Z).
Proof.
  intros V d key z H. unfold control_integer. rewrite H. cbn [bind]. split; [intros E; injection E as E; pose proof (Z.mod_pos_bound (z + 128) 256 ltac:(lia)); lia|].
  intros B. f_equal. rewrite Z.mod_small by lia. lia.
Qed.
Print Assumptions C14_integer_refuted.

Definition ex_d : @db Z := [mkControl "start_time" 3 1 [Some (VLong 1, 0%nat); Some (VLong 1, 1%nat); None; None; None; None]; mkControl "model_mode" 1 4 [None; None]].
Definition ex_bs : list block := [mkBlock "start_time" 1 ["1990"; "10"]; mkBlock "data_file" 4 ["a b.dat"]; mkBlock "start_time" 1 ["2001"]].
Definition ex_plain : list string := map nl_end ["####"; "start_time"; "2"; "1"; "1990"; "10"; "####"; "data_file"; "1"; "4"; "a b.dat"; "####"; "start_time"; "1"; "1"; "2001"].
Definition ex_noisy : list string := map nl_end ["Title"; ""; "#### //first"; "// name"; "start_time"; "2 // two values"; "1"; "1990 //year"; ""; "10"; "####"; "data_file //data"; "1"; "4"; "a b.dat // relative"; "####"; "start_time"; "1"; "1"; "2001"; "// end"].
Lemma clean_b t : t <> "" -> forallb (fun c => negb (Ascii.eqb c "010") && negb (Ascii.eqb c "/")) (list_ascii_of_string t) = true -> clean t.
Proof.
  intros N H. rewrite forallb_forall in H. split; [exact N|]. split; [intros I; specialize (H _ I); discriminate|]. intros a b ->.
  assert (I : In "/"%char (list_ascii_of_string (a ++ "//" ++ b))). { clear. induction a as [|c a IH]; [left; reflexivity|right; exact IH]. } specialize (H _ I). discriminate.
Qed.
Lemma group_1 n t : t <> "" -> forallb (fun c => negb (Ascii.eqb c "010") && negb (Ascii.eqb c "/")) (list_ascii_of_string t) = true -> Nat.ltb (String.length (nl_end t)) n = true -> group n t [nl_end t].
Proof. intros N H L. split; [apply clean_b; assumption|]. exists [], (nl_end t). split; [reflexivity|]. split; [constructor|]. split; [left; reflexivity|]. constructor; [apply Nat.ltb_lt; exact L|constructor]. Qed.
Lemma group_c n t c : t <> "" -> forallb (fun c => negb (Ascii.eqb c "010") && negb (Ascii.eqb c "/")) (list_ascii_of_string t) = true -> forallb (fun c => negb (Ascii.eqb c "010")) (list_ascii_of_string c) = true ->
  Nat.ltb (String.length (nl_end (t ++ " //" ++ c))) n = true -> group n t [nl_end (t ++ " //" ++ c)].
Proof.
  intros N H F L. split; [apply clean_b; assumption|]. exists [], (nl_end (t ++ " //" ++ c)). split; [reflexivity|]. split; [constructor|]. split; [right; exists c; split|].
  - rewrite forallb_forall in F. intros I. specialize (F _ I). discriminate.
  - unfold nl_end. rewrite !app_assoc_s. reflexivity.
  - constructor; [apply Nat.ltb_lt; exact L|constructor].
Qed.
Lemma group_n n t x g : noise x -> Nat.ltb (String.length x) n = true -> group n t g -> group n t (x :: g).
Proof. intros N L [C [ns [l [-> [NN [LO F]]]]]]. split; [exact C|]. exists (x :: ns), l. split; [reflexivity|]. split; [constructor; assumption|]. split; [exact LO|]. constructor; [apply Nat.ltb_lt; exact L|exact F]. Qed.
Lemma noise_c c : forallb (fun c => negb (Ascii.eqb c "010")) (list_ascii_of_string c) = true -> noise (nl_end ("//" ++ c)).
Proof. intros F. right. exists c. split; [rewrite forallb_forall in F; intros I; specialize (F _ I); discriminate|]. unfold nl_end. rewrite app_assoc_s. reflexivity. Qed.
Ltac g1 := apply group_1; [discriminate|reflexivity|reflexivity].
Ltac d1 := first [exact (num_digit 1 ltac:(lia))|exact (num_digit 2 ltac:(lia))|exact (num_digit 4 ltac:(lia))].
Ltac gs := repeat (constructor; [first [g1|reflexivity]|]); constructor.
Example C14_ex : file_of ex_bs ex_plain /\ file_of ex_bs ex_noisy /\
  exists d', rc z_atof ex_d (Some ex_plain) = Ret (0%Z, d') /\ rc z_atof ex_d (Some ex_noisy) = Ret (0%Z, d') /\ control_array d' "start_time" 0 = Ret (Some (VLong 2001)) /\
    control_array d' "start_time" 1 = Ret (Some (VLong 10)) /\ control_array d' "data_file" 0 = Ret (Some (VString "a b.dat")) /\ control_array d' "start_time" 3 = Exit /\ control_string d' "data_file" 9 = Ret ["a"; " "; "b"; "."; "d"; "a"; "t"; "000"; "000"]%char.
Proof.
  split; [|split].
  - apply (file_lines ex_bs [] [] [map nl_end ["####"; "start_time"; "2"; "1"; "1990"; "10"]; map nl_end ["####"; "data_file"; "1"; "4"; "a b.dat"]; map nl_end ["####"; "start_time"; "1"; "1"; "2001"]] []); [constructor|constructor| |constructor|constructor|right; discriminate].
    constructor; [|constructor; [|constructor; [|constructor]]].
    + apply (block_of "start_time" 1 ["1990"; "10"] "####" "2" "1" [nl_end "####"] [nl_end "start_time"] [nl_end "2"] [nl_end "1"] [[nl_end "1990"]; [nl_end "10"]]); try reflexivity; try g1; try d1; try (cbn; lia); gs.
    + apply (block_of "data_file" 4 ["a b.dat"] "####" "1" "4" [nl_end "####"] [nl_end "data_file"] [nl_end "1"] [nl_end "4"] [[nl_end "a b.dat"]]); try reflexivity; try g1; try d1; try (cbn; lia); gs.
    + apply (block_of "start_time" 1 ["2001"] "####" "1" "1" [nl_end "####"] [nl_end "start_time"] [nl_end "1"] [nl_end "1"] [[nl_end "2001"]]); try reflexivity; try g1; try d1; try (cbn; lia); gs.
  - apply (file_lines ex_bs ["Title"] [[nl_end "Title"]] [map nl_end [""; "#### //first"; "// name"; "start_time"; "2 // two values"; "1"; "1990 //year"; ""; "10"]; map nl_end ["####"; "data_file //data"; "1"; "4"; "a b.dat // relative"]; map nl_end ["####"; "start_time"; "1"; "1"; "2001"]] [nl_end "// end"]).
    + constructor; [g1|constructor].
    + repeat constructor.
    + constructor; [|constructor; [|constructor; [|constructor]]].
      * apply (block_of "start_time" 1 ["1990"; "10"] "####" "2" "1" [nl_end ""; nl_end "#### //first"] [nl_end "// name"; nl_end "start_time"] [nl_end "2 // two values"] [nl_end "1"] [[nl_end "1990 //year"]; [nl_end ""; nl_end "10"]]); try reflexivity; try g1; try d1; try (cbn; lia).
        -- apply group_n; [left; reflexivity|reflexivity|]. apply (group_c 256 "####" "first"); [discriminate|reflexivity..].
        -- apply group_n; [apply (noise_c " name"); reflexivity|reflexivity|]. g1.
        -- apply (group_c 256 "2" " two values"); [discriminate|reflexivity..].
        -- constructor; [apply (group_c 256 "1990" "year"); [discriminate|reflexivity..]|]. constructor; [|constructor]. apply group_n; [left; reflexivity|reflexivity|]. g1.
        -- repeat constructor.
      * apply (block_of "data_file" 4 ["a b.dat"] "####" "1" "4" [nl_end "####"] [nl_end "data_file //data"] [nl_end "1"] [nl_end "4"] [[nl_end "a b.dat // relative"]]); try reflexivity; try g1; try d1; try (cbn; lia).
        -- apply (group_c 50 "data_file" "data"); [discriminate|reflexivity..].
        -- constructor; [|constructor]. apply (group_c 256 "a b.dat" " relative"); [discriminate|reflexivity..].
        -- repeat constructor.
      * apply (block_of "start_time" 1 ["2001"] "####" "1" "1" [nl_end "####"] [nl_end "start_time"] [nl_end "1"] [nl_end "1"] [[nl_end "2001"]]); try reflexivity; try g1; try d1; try (cbn; lia); gs.
    + constructor; [apply (noise_c " end"); reflexivity|constructor].
    + constructor; [cbn; lia|constructor].
    + right. discriminate.
  - eexists. repeat (split; [vm_compute; reflexivity|]). vm_compute. reflexivity.
Qed.
