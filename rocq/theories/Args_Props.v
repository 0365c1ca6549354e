(** Property C15. *)
From Coq Require Import String Ascii List ZArith Bool Lia ZifyBool.
From Verif Require Import CStr_Model CNum_Model Elem_Model Elem_Spec Elem_Proofs Ctrl_Model Ctrl_Spec Ctrl_Proofs Args_Model Args_Spec Args_Proofs.
Import ListNotations.
Local Open Scope string_scope.
Local Open Scope list_scope.

(** Every command line without -debug and at most 100 -set: control file, environment file, switches and pairs. *)
Theorem C15_settings : forall l, Forall good l -> Forall no_debug l -> length (pairs_of l) <= 100 ->
  exists s, parse_args (flat_map arguments l) = Ret s /\ cont_file s = control_of "control" l /\ env_file s = environment_of None l /\ set_pairs s = pairs_of l /\ debug s = 0%Z /\
    (batch s = true <-> In (Switch Batch) l) /\ (esp s = true <-> In (Switch Esp) l) /\ (rosenbrock s = true <-> In (Switch Rosenbrock) l) /\
    (print_mode s = true <-> In (Switch Print) l) /\ (period_of_record s = true <-> In (Switch Por) l) /\ (runtime_graph s = true <-> In (Switch Rtg) l).
Proof.
  intros l G N L. exists (fold_left (fun s i => effect i s) l initial). split; [apply parse_items; [exact G|exact L]|].
  split; [apply (all_control l initial N)|]. split; [apply (all_environment l initial)|]. split; [apply (all_pairs l initial)|]. split; [apply (all_debug l initial N)|].
  assert (K : forall k, state k (fold_left (fun s i => effect i s) l initial) = true <-> In (Switch k) l).
  { intros k. rewrite all_switch. split; [intros [H|H]; [destruct k; discriminate|exact H]|right; assumption]. }
  exact (conj (K Batch) (conj (K Esp) (conj (K Rosenbrock) (conj (K Print) (conj (K Por) (K Rtg)))))).
Qed.
Print Assumptions C15_settings.
(** The argument of -debug is taken as the control file as well, unless another one follows. *)
Theorem C15_debug_refuted : forall l n m, Forall good l -> is_file n -> Forall good m -> Forall no_debug m -> length (pairs_of (l ++ m)) <= 100 ->
  exists s, parse_args (flat_map arguments (l ++ Debug n :: m)) = Ret s /\ debug s = atoi n /\ cont_file s = control_of n m.
Proof.
  intros l n m GL GN GM NM L. eexists. split; [apply parse_items|].
  - apply Forall_app. split; [exact GL|]. constructor; assumption.
  - cbn [initial set_pairs length Nat.add]. replace (pairs_of (l ++ Debug n :: m)) with (pairs_of (l ++ m)); [exact L|]. clear. induction l as [|i l IH]; [reflexivity|]. cbn [app]. rewrite (pairs_cons i (l ++ m)), (pairs_cons i (l ++ Debug n :: m)), IH. reflexivity.
  - rewrite fold_left_app. cbn [fold_left]. split; [rewrite all_debug by exact NM; reflexivity|]. rewrite all_control by exact NM. reflexivity.
Qed.
Print Assumptions C15_debug_refuted.
(** An option the program does not know is taken as the control file. *)
Theorem C15_unknown_refuted : exists s, parse_args ["control.txt"; "-verbose"] = Ret s /\ cont_file s = "-verbose".
Proof. eexists. split; reflexivity. Qed.
Print Assumptions C15_unknown_refuted.
(** Options without their arguments are read beyond the end. *)
Theorem C15_truncated_refuted : forall l, Forall good l -> length (pairs_of l) <= 100 -> parse_args (flat_map arguments l ++ ["-debug"]) = UB /\ parse_args (flat_map arguments l ++ ["-set"; "x"]) = UB.
Proof.
  intros l G L. unfold parse_args.
  assert (K : forall tail s, length (set_pairs s) + length (pairs_of l) <= 100 -> (forall s, parse tail s = UB) -> parse (flat_map arguments l ++ tail) s = UB).
  { intros tail s H T. revert s H. clear L. induction l as [|i l IH]; intros s H; [apply T|]. inversion G; subst. cbn [flat_map]. rewrite pairs_cons, app_length in H. rewrite <- app_assoc.
    destruct (Nat.ltb_spec (length (set_pairs s)) 100) as [S|S].
    - rewrite parse_item by assumption. apply IH; [assumption|]. rewrite pairs_effect, app_length. lia.
    - assert (Z : pairs_of [i] = []) by (destruct (pairs_of [i]); [reflexivity|cbn [length] in H; lia]).
      assert (P : parse (arguments i ++ flat_map arguments l ++ tail) s = parse (flat_map arguments l ++ tail) (effect i s)).
      { destruct i as [k|f|f|n v|f|n]; try discriminate.
        - destruct k; reflexivity.
        - cbn [arguments app parse]. destruct (String.eqb_spec ("-C" ++ f) "-debug") as [E|_]; [discriminate|]. rewrite prefix_app, skip2_app by reflexivity. reflexivity.
        - cbn [arguments app parse]. destruct (String.eqb_spec ("-E" ++ f) "-debug") as [E|_]; [discriminate|]. change (prefix "-C" ("-E" ++ f)%string) with false. cbv iota. rewrite prefix_app, skip2_app by reflexivity. reflexivity.
        - apply parse_file. assumption.
        - change (parse (arguments (Debug n) ++ flat_map arguments l ++ tail) s) with (parse (n :: flat_map arguments l ++ tail) (set_debug s (atoi n))). apply parse_file. assumption. }
      rewrite P. apply IH; [assumption|]. rewrite pairs_effect, Z, app_nil_r. lia. }
  split; apply K; try exact L; reflexivity.
Qed.
Print Assumptions C15_truncated_refuted.
(** More than 100 -set are written outside of the tables. *)
Theorem C15_many_refuted : forall s n v r, 100 <= length (set_pairs s) -> parse ("-set" :: n :: v :: r) s = UB.
Proof.
  intros s n v r L. rewrite parse_set.
  destruct (Nat.ltb_spec (length (set_pairs s)) 100); [lia|reflexivity].
Qed.
Print Assumptions C15_many_refuted.
(** -set name value: the elements from the first get the values, the others stay; an unknown name is ignored. *)
Theorem C15_override : forall (V : Type) (atof : string -> V) (d : @db V) name value ts, comma_list value ts ->
  match control_addr d name with
  | None => set_control atof d name value = Ret d
  | Some c => (1 <= c_type c <= 4)%Z -> length ts * width (c_type c) <= length (c_mem c) ->
      exists d' c', set_control atof d name value = Ret d' /\ control_addr d' name = Some c' /\ c_type c' = c_type c /\ c_size c' = c_size c /\
        (forall k, k <> name -> control_addr d' k = control_addr d k) /\
        forall i, get (c_mem c') (c_type c') i = match nth_error ts i with
          | Some t => Some (match c_type c with 1%Z => VLong (atol t) | 2%Z => VFloat (atof t) | 3%Z => VDouble (atof t) | _ => VString t end)
          | None => get (c_mem c) (c_type c) i end
  end.
Proof.
  intros V atof d name value ts C. unfold set_control. destruct (control_addr d name) as [c|] eqn:A; [|reflexivity]. intros TY L.
  rewrite (comma_tokens value ts C), (set_puts atof (c_type c) TY). destruct (puts_ok atof (c_type c) TY ts 0 (c_mem c) L) as [mem' [-> [L' [G K]]]]. cbn [bind].
  eexists. exists (mkControl (c_key c) (c_size c) (c_type c) mem'). split; [reflexivity|]. pose proof (addr_key d name c A) as CK. split; [rewrite addr_update; cbn [c_key]; rewrite CK, String.eqb_refl, A; reflexivity|].
  split; [reflexivity|]. split; [reflexivity|]. split; [intros k N; rewrite addr_update; cbn [c_key]; rewrite CK; destruct (String.eqb_spec name k); [subst; contradiction|reflexivity]|].
  intros i. cbn [c_mem c_type]. destruct (nth_error ts i) as [t|] eqn:I.
  - change i with (0 + i) at 1. rewrite (G i t I). unfold value_of. assert (E : (c_type c = 1 \/ c_type c = 2 \/ c_type c = 3 \/ c_type c = 4)%Z) by lia. destruct E as [-> | [-> | [-> | ->]]]; reflexivity.
  - apply nth_error_None in I. unfold get. rewrite K; [reflexivity|]. right. cbn [Nat.add]. apply Nat.mul_le_mono_r. exact I.
Qed.
Print Assumptions C15_override.
(** More values than the variable has room for are written outside of it. *)
Theorem C15_override_refuted : forall (V : Type) (atof : string -> V) (d : @db V) name value ts c, comma_list value ts -> control_addr d name = Some c -> (1 <= c_type c <= 4)%Z ->
  length (c_mem c) < length ts * width (c_type c) -> set_control atof d name value = UB.
Proof.
  intros V atof d name value ts c C A TY L. unfold set_control. rewrite A, (comma_tokens value ts C), (set_puts atof (c_type c) TY), puts_over; [reflexivity|exact L|cbn; lia].
Qed.
Print Assumptions C15_override_refuted.
(** The model name: what follows the last directory separator. *)
Theorem C15_model_name : forall dir name, ~ In "/"%char (list_ascii_of_string name) -> model_name (dir ++ "/" ++ name) = name /\ (~ In "\"%char (list_ascii_of_string name) -> model_name name = name).
Proof.
  intros dir name N.
  assert (S0 : forall c s, ~ In c (list_ascii_of_string s) -> split_last c s = None).
  { intros c. induction s as [|x s IH]; intros H; [reflexivity|]. cbn [split_last list_ascii_of_string] in *. rewrite IH by (intros I; apply H; right; exact I). destruct (Ascii.eqb_spec x c) as [->|_]; [destruct H; left; reflexivity|reflexivity]. }
  split.
  - unfold model_name. assert (E : split_last "/" (dir ++ "/" ++ name) = Some (dir, name)).
    { induction dir as [|c dir IH]; cbn [append split_last]; [rewrite (S0 _ _ N); reflexivity|]. cbn [append] in IH. rewrite IH. reflexivity. }
    rewrite E. reflexivity.
  - intros N2. unfold model_name. rewrite (S0 _ _ N), (S0 _ _ N2). reflexivity.
Qed.
Print Assumptions C15_model_name.

Definition ex_l : list item := [File "a.control"; Switch Print; Set_ "start_time" "1990,10"; Control "b.control"; Environment "e"; Set_ "model_mode" "DAILY"].
Example C15_ex : Forall good ex_l /\ Forall no_debug ex_l /\ length (pairs_of ex_l) <= 100 /\ flat_map arguments ex_l = ["a.control"; "-print"; "-set"; "start_time"; "1990,10"; "-Cb.control"; "-Ee"; "-set"; "model_mode"; "DAILY"] /\
  parse_args (flat_map arguments ex_l) = Ret (mkSettings 0 "b.control" (Some "e") false false false true false false [("start_time", "1990,10"); ("model_mode", "DAILY")]) /\ comma_list "1990,10" ["1990"; "10"] /\
  exists d', overrides (fun s => atol s) [mkControl "start_time" 3 1 (repeat None 6)] [("start_time", "1990,10"); ("model_mode", "DAILY")] = Ret d' /\ control_array d' "start_time" 1 = Ret (Some (VLong 10)).
Proof.
  split; [repeat constructor; discriminate|]. split; [repeat constructor|]. split; [cbn; lia|]. split; [reflexivity|]. split; [reflexivity|].
  split; [apply (cl_more "1990" "10" ["10"]); [|apply cl_one]; (split; [discriminate|]; cbn; intuition discriminate)|]. eexists. split; vm_compute; reflexivity.
Qed.
