(** C19: checkpoint and restart. *)
From Coq Require Import String Ascii List ZArith QArith Qabs Bool Lia.
From Verif Require Import CStr_Model Dim_Model Pfile_Model Elem_Proofs Pfile_Spec Pfile_Proofs Ckpt_Model Ckpt_Spec Ckpt_Proofs.
Import ListNotations.
Local Open Scope string_scope.
Local Open Scope list_scope.
Local Open Scope Z_scope.

(** Writing the state and reading it into a run with the same dimensions, in which the variables of that name are declared
    alike: the return value is 0, every saved variable has its elements back, other variables are untouched, the step count
    is that of the checkpoint and the step length is right to half a millionth. *)
Theorem C19_round_trip : forall (V : Type) (show : Z -> V -> string) (atof : Z -> string -> V) (st st' : state),
  printer_ok show atof -> state_ok st -> same_dimensions (s_dims st) (s_dims st') -> NoDup (map v_key (s_vars st')) ->
  (forall v w, In v (s_vars st) -> In w (s_vars st') -> v_key v = v_key w -> same_declaration v w) ->
  exists file st'', save_vars show true st = Ret (Some file, 0) /\ read_vars atof (Some file) st' = Ret (st'', 0) /\
    all_restored (s_vars st) (s_vars st') (s_vars st'') /\ s_nsteps st'' = s_nsteps st /\ s_dims st'' = s_dims st' /\
    (Qabs (s_dt st'' - s_dt st) <= 1 # 2000000)%Q /\ s_dtnext st'' = s_dt st''.
Proof.
  intros V show atof st st' P OK SD ND SH. destruct (whole show atof P st OK) as (file & S1 & S2 & RD).
  destruct (RD st' (length file) (or_intror (conj ND SH))) as (st'' & c & R1 & R2 & R3 & R4 & R5 & R6 & R7 & R8).
  rewrite firstn_all in R1. rewrite (R8 (Nat.le_refl _)) in R1.
  replace (Nat.ltb (length file) 2) with false in R4 by (symmetry; apply Nat.ltb_ge; lia).
  replace (Nat.ltb (length file) 4) with false in R5 by (symmetry; apply Nat.ltb_ge; lia).
  exists file, st''. repeat (split; [assumption|]). split; [|repeat split; try assumption; apply R5].
  specialize (R7 SD). clear -R7. unfold all_restored. induction R7 as [|w w' vs vs' [A B] F IH]; constructor; [|exact IH].
  split; [|exact B]. intros v I E. destruct (A v I E) as (n & _ & N & T). rewrite (N (Nat.le_refl _)) in T. exact T.
Qed.
(** A checkpoint with a dimension that is not declared or has another value changes no variable; nor does any beginning of it. *)
Theorem C19_refused : forall (V : Type) (show : Z -> V -> string) (atof : Z -> string -> V) (st st' : state) file k,
  printer_ok show atof -> state_ok st -> save_vars show true st = Ret (Some file, 0) -> ~ same_dimensions (s_dims st) (s_dims st') ->
  exists st'' c, read_vars atof (Some (firstn k file)) st' = Ret (st'', c) /\ s_vars st'' = s_vars st' /\ s_dims st'' = s_dims st' /\ ((length file <= k)%nat -> c = 0).
Proof.
  intros V show atof st st' file k P OK SV ND. destruct (whole show atof P st OK) as (file' & S1 & S2 & RD). rewrite S1 in SV. injection SV as ->.
  destruct (RD st' k (or_introl ND)) as (st'' & c & R1 & R2 & R3 & R4 & R5 & R6 & R7 & R8). exists st'', c. repeat split; try assumption. apply R6. exact ND.
Qed.
(** A checkpoint of which only the first lines were written: every element read back is the one saved or the one before. *)
Theorem C19_cut : forall (V : Type) (show : Z -> V -> string) (atof : Z -> string -> V) (st st' : state) file k,
  printer_ok show atof -> state_ok st -> NoDup (map v_key (s_vars st')) ->
  (forall v w, In v (s_vars st) -> In w (s_vars st') -> v_key v = v_key w -> same_declaration v w) ->
  save_vars show true st = Ret (Some file, 0) ->
  exists st'' c, read_vars atof (Some (firstn k file)) st' = Ret (st'', c) /\ partly_restored (s_vars st) (s_vars st') (s_vars st'') /\
    (s_nsteps st'' = s_nsteps st \/ s_nsteps st'' = s_nsteps st').
Proof.
  intros V show atof st st' file k P OK ND SH SV. destruct (whole show atof P st OK) as (file' & S1 & S2 & RD). rewrite S1 in SV. injection SV as ->.
  destruct (RD st' k (or_intror (conj ND SH))) as (st'' & c & R1 & R2 & R3 & R4 & R5 & R6 & R7 & R8). exists st'', c. split; [exact R1|].
  split; [|rewrite R4; destruct (Nat.ltb k 2); auto].
  assert (R : Forall2 (pairwise (length file <= k)%nat (s_vars st)) (s_vars st') (s_vars st'') \/ s_vars st'' = s_vars st').
  { destruct (classic_dims (s_dims st) (s_dims st')) as [S|S]; [left; apply R7; exact S|right; apply R6; exact S]. }
  unfold partly_restored. destruct R as [R| ->].
  - clear -R. induction R as [|w w' vs vs' [A B] F IH]; constructor; [|exact IH]. split; [|exact B].
    intros v I E. destruct (A v I E) as (n & N & _ & T). exists n. split; assumption.
  - clear. induction (s_vars st') as [|w vs IH]; constructor; [|exact IH]. split; [|reflexivity].
    intros v _ _. exists 0%nat. split; [lia|apply taken_0].
Qed.
(** Where the size or the type of a variable differs from the checkpoint, reading ends with an error and that variable is unchanged. *)
Theorem C19_other_declaration : forall (V : Type) (show : Z -> V -> string) (atof : Z -> string -> V) (v w : var) rest,
  printer_ok show atof -> variable_ok v -> v_private v = v_private w -> (v_private v = false -> v_ndimen v = v_ndimen w /\ v_dims v = v_dims w) ->
  v_size v <> v_size w \/ v_type v <> v_type w ->
  exists body, save_var show v = Ret (("####" ++ newline)%string :: (v_key v ++ newline)%string :: body) /\
    exists w' f, read_var atof w (mkStream (body ++ rest) false) = Ret (w', false, f) /\ v_mem w' = v_mem w.
Proof. intros V show atof v w rest P. apply block_differs. exact P. Qed.
Print Assumptions C19_round_trip.
Print Assumptions C19_other_declaration.
Print Assumptions C19_refused.
Print Assumptions C19_cut.

(** A printer that satisfies the hypothesis, and two runs. *)
Definition show2 (ty : Z) (b : bool) : string := if b then "1.000000000000e+00" else "0.000000000000e+00".
Definition atof2 (ty : Z) (s : string) : bool := prefix "1" s.
Example C19_printer : printer_ok show2 atof2.
Proof. intros ty []; (split; [apply free_nochar; reflexivity|]; split; [cbn; lia|]; split; reflexivity). Qed.
Definition ex_dims : dimdb := [mkdim "nhru" 2 100 false; mkdim "one" 1 1 true].
Definition ex_vars (a b : Z) (x y : bool) : list (@var bool) :=
  [mkVar "flow" 1 ["nhru"] 2 3 (Reals [x; y]) false; mkVar "hidden" 77 [] 1 1 (Ints [a; b]) true; mkVar "state" 2 ["nhru"; "one"] 2 1 (Longs [a; b; 5]) false].
Definition ex_state (n : Z) (dt : Q) (ds : dimdb) (vs : list var) : @state bool := mkState ("A run" ++ newline) n (2450000 # 1) dt 0 ds vs.
Lemma ex_ok n dt a b x y : long_range n -> (Qabs dt < 1000000000)%Q -> int_range a -> int_range b -> state_ok (ex_state n dt ex_dims (ex_vars a b x y)).
Proof.
  intros R D A B. unfold state_ok, ex_state, ex_vars, ex_dims. cbn [s_info s_nsteps s_now s_dt s_dims s_vars map v_key].
  split; [exists "A run", newline; split; [reflexivity|]; split; [apply free_nochar; reflexivity|]; split; [cbn; lia|right; exists ""; reflexivity]|].
  split; [exact R|]. split; [reflexivity|]. split; [exact D|].
  assert (NM : forall s, no_char "010" s = true -> (String.length s < 49)%nat -> name_ok s) by (intros s H L; split; [apply free_nochar; exact H|exact L]).
  unfold int_range in *.
  split; [repeat (constructor; [split; [apply NM; [reflexivity|cbn; lia]|unfold long_range; cbn; lia]|]); constructor|].
  split; [repeat (constructor; [cbn; intuition discriminate|]); constructor|].
  constructor.
  { split; [apply NM; [reflexivity|cbn; lia]|]. split; [cbn; lia|]. split; [unfold storage_ok; cbn; lia|]. intros _. split; [reflexivity|]. split; [cbn; lia|].
    constructor; [split; [apply NM; [reflexivity|cbn; lia]|reflexivity]|constructor]. }
  constructor.
  { split; [apply NM; [reflexivity|cbn; lia]|]. split; [cbn; lia|]. split; [|discriminate]. unfold storage_ok; cbn. split; [lia|]. split; [lia|].
    repeat (constructor; [unfold int_range; lia|]). constructor. }
  constructor; [|constructor].
  split; [apply NM; [reflexivity|cbn; lia]|]. split; [cbn; lia|]. split.
  { unfold storage_ok; cbn. split; [lia|]. split; [lia|]. repeat (constructor; [unfold long_range; lia|]). constructor. }
  intros _. split; [reflexivity|]. split; [cbn; lia|]. repeat (constructor; [split; [apply NM; [reflexivity|cbn; lia]|reflexivity]|]). constructor.
Qed.

(** The hypotheses of the theorems are met by these runs. *)
Example C19_ex : exists file st'', let st := ex_state 41 (1 # 1) ex_dims (ex_vars (-7) 9 true false) in let st' := ex_state 0 0 ex_dims (ex_vars 1 2 false true ++ [mkVar "other" 1 ["one"] 1 1 (Longs [3]) false]) in
  state_ok st /\ same_dimensions (s_dims st) (s_dims st') /\ NoDup (map v_key (s_vars st')) /\
  (forall v w, In v (s_vars st) -> In w (s_vars st') -> v_key v = v_key w -> same_declaration v w) /\
  save_vars show2 true st = Ret (Some file, 0) /\ read_vars atof2 (Some file) st' = Ret (st'', 0) /\
  map v_mem (s_vars st'') = [Reals [true; false]; Ints [-7; 9]; Longs [-7; 9; 5]; Longs [3]] /\ s_nsteps st'' = 41 /\ length file = 36%nat.
Proof.
  destruct (save_vars show2 true (ex_state 41 (1 # 1) ex_dims (ex_vars (-7) 9 true false))) as [[[file|] c]| |] eqn:E; try (vm_compute in E; discriminate).
  destruct (read_vars atof2 (Some file) (ex_state 0 0 ex_dims (ex_vars 1 2 false true ++ [mkVar "other" 1 ["one"] 1 1 (Longs [3]) false]))) as [[st'' c2]| |] eqn:E2;
    try (vm_compute in E; injection E as <- <-; vm_compute in E2; discriminate).
  exists file, st''. cbn zeta. vm_compute in E. injection E as <- <-. vm_compute in E2. injection E2 as <- <-.
  split; [apply ex_ok; [unfold long_range; lia|reflexivity|unfold int_range; lia|unfold int_range; lia]|].
  split; [intros d [<-|[<-|[]]]; eexists; split; reflexivity|].
  split; [cbn; repeat (constructor; [cbn; intuition discriminate|]); constructor|].
  split.
  { intros v w I J E. cbn in I, J. repeat (destruct I as [<-|I]; [repeat (destruct J as [<-|J]; [try discriminate E; unfold same_declaration, same_storage; cbn; repeat split; try lia; try discriminate|]); contradiction|]). contradiction. }
  repeat (split; [vm_compute; reflexivity|]). reflexivity.
Qed.
Example C19_refused_ex : state_ok (ex_state 41 (1 # 1) ex_dims (ex_vars (-7) 9 true false)) /\ ~ same_dimensions ex_dims [mkdim "nhru" 3 100 false; mkdim "one" 1 1 true].
Proof.
  split; [apply ex_ok; [unfold long_range; lia|reflexivity|unfold int_range; lia|unfold int_range; lia]|].
  intros H. destruct (H _ (or_introl eq_refl)) as (e & E & F). cbn in E. injection E as <-. discriminate F.
Qed.

(** The step length does not come back exactly: a step of an hour is a twenty-fourth of a day. *)
Theorem C19_step_length_refuted : exists (st st' : @state bool) file st'', state_ok st /\ save_vars show2 true st = Ret (Some file, 0) /\
  read_vars atof2 (Some file) st' = Ret (st'', 0) /\ ~ (s_dt st'' == s_dt st)%Q.
Proof.
  exists (ex_state 5 (1 # 24) ex_dims (ex_vars 1 2 true false)), (ex_state 0 0 ex_dims (ex_vars 3 4 false false)).
  eexists. eexists. split; [apply ex_ok; [unfold long_range; lia|reflexivity|unfold int_range; lia|unfold int_range; lia]|].
  split; [vm_compute; reflexivity|]. split; [vm_compute; reflexivity|]. vm_compute. discriminate.
Qed.
(** A refused checkpoint has already replaced the step count and the step length. *)
Theorem C19_refused_steps_refuted : exists (st st' : @state bool) file st'', state_ok st /\ save_vars show2 true st = Ret (Some file, 0) /\
  ~ same_dimensions (s_dims st) (s_dims st') /\ read_vars atof2 (Some file) st' = Ret (st'', 0) /\ s_nsteps st'' <> s_nsteps st' /\ ~ (s_dt st'' == s_dt st')%Q.
Proof.
  exists (ex_state 5 (1 # 2) ex_dims (ex_vars 1 2 true false)), (ex_state 0 1 [mkdim "nhru" 3 100 false; mkdim "one" 1 1 true] (ex_vars 3 4 false false)).
  eexists. eexists. split; [apply ex_ok; [unfold long_range; lia|reflexivity|unfold int_range; lia|unfold int_range; lia]|].
  split; [vm_compute; reflexivity|]. split.
  { intros H. destruct (H _ (or_introl eq_refl)) as (e & E & F). cbn in E. injection E as <-. discriminate F. }
  split; [vm_compute; reflexivity|]. split; vm_compute; discriminate.
Qed.
(** A checkpoint cut off between two variables is taken for a whole one. *)
Theorem C19_cut_unnoticed_refuted : exists (st st' : @state bool) file k st'', state_ok st /\ save_vars show2 true st = Ret (Some file, 0) /\ (k < length file)%nat /\
  read_vars atof2 (Some (firstn k file)) st' = Ret (st'', 0) /\ map v_mem (s_vars st'') <> map v_mem (s_vars st).
Proof.
  exists (ex_state 5 (1 # 2) ex_dims (ex_vars 1 2 true true)), (ex_state 0 1 ex_dims (ex_vars 3 4 false false)).
  eexists. exists 20%nat. eexists. split; [apply ex_ok; [unfold long_range; lia|reflexivity|unfold int_range; lia|unfold int_range; lia]|].
  split; [vm_compute; reflexivity|]. split; [cbn; lia|]. split; [vm_compute; reflexivity|]. vm_compute. discriminate.
Qed.
(** A checkpoint cut off inside a number restores a value that nobody stored. *)
Theorem C19_cut_number_refuted : exists (st st' : @state bool) lines last rest st'' a b c, state_ok st /\ save_vars show2 true st = Ret (Some (lines ++ [(last ++ rest)%string]), 0) /\
  read_vars atof2 (Some (lines ++ [last])) st' = Ret (st'', 0) /\
  map v_mem (s_vars st) = a ++ [Longs [1; 123; 5]] /\ map v_mem (s_vars st') = b ++ [Longs [3; 4; 5]] /\ map v_mem (s_vars st'') = c ++ [Longs [1; 12; 5]].
Proof.
  destruct (save_vars show2 true (ex_state 5 (1 # 2) ex_dims (ex_vars 1 123 true true))) as [[[file|] c]| |] eqn:E; try (vm_compute in E; discriminate).
  exists (ex_state 5 (1 # 2) ex_dims (ex_vars 1 123 true true)), (ex_state 0 1 ex_dims (ex_vars 3 4 false false)), (firstn 35 file), "12", ("3 " ++ newline)%string.
  vm_compute in E. injection E as <- <-. eexists. exists [Reals [true; true]; Ints [1; 123]], [Reals [false; false]; Ints [3; 4]], [Reals [true; true]; Ints [1; 123]].
  split; [apply ex_ok; [unfold long_range; lia|reflexivity|unfold int_range; lia|unfold int_range; lia]|].
  split; [vm_compute; reflexivity|]. split; [vm_compute; reflexivity|]. repeat split; vm_compute; reflexivity.
Qed.
(** An error at one variable leaves the variables before it replaced. *)
Theorem C19_mismatch_refuted : exists (st st' : @state bool) file st'', state_ok st /\ save_vars show2 true st = Ret (Some file, 0) /\
  read_vars atof2 (Some file) st' = Ret (st'', 1) /\ map v_mem (s_vars st') = [Reals [false; false]; Ints [3; 4]; Longs [3; 4; 5]] /\
  map v_mem (s_vars st'') = [Reals [true; true]; Ints [1; 2]; Longs [3; 4; 5]].
Proof.
  exists (ex_state 5 (1 # 2) ex_dims (ex_vars 1 2 true true)),
    (ex_state 0 1 ex_dims [mkVar "flow" 1 ["nhru"] 2 3 (Reals [false; false]) false; mkVar "hidden" 0 [] 1 1 (Ints [3; 4]) true; mkVar "state" 2 ["nhru"; "one"] 3 1 (Longs [3; 4; 5]) false]).
  eexists. eexists. split; [apply ex_ok; [unfold long_range; lia|reflexivity|unfold int_range; lia|unfold int_range; lia]|].
  split; [vm_compute; reflexivity|]. split; [vm_compute; reflexivity|]. split; vm_compute; reflexivity.
Qed.
(** A variable with one dimension here and two in the file: the reader leaves the array of dimensions. *)
Theorem C19_more_dimensions_refuted : exists (st st' : @state bool) file, state_ok st /\ save_vars show2 true st = Ret (Some file, 0) /\ same_dimensions (s_dims st) (s_dims st') /\
  read_vars atof2 (Some file) st' = UB.
Proof.
  exists (ex_state 5 (1 # 2) ex_dims (ex_vars 1 2 true true)), (ex_state 0 1 ex_dims [mkVar "state" 1 ["nhru"] 2 1 (Longs [3; 4; 5]) false]).
  eexists. split; [apply ex_ok; [unfold long_range; lia|reflexivity|unfold int_range; lia|unfold int_range; lia]|].
  split; [vm_compute; reflexivity|]. split; [intros d I; cbn in I; destruct I as [<-|[<-|[]]]; eexists; split; reflexivity|]. vm_compute. reflexivity.
Qed.
(** A name of 49 characters is not found again: its variable is silently left out. *)
Definition long_name : string := "a234567890123456789012345678901234567890123456789".
Theorem C19_long_name_refuted : exists (st : @state bool) file st'', s_vars st = [mkVar long_name 1 ["one"] 1 1 (Longs [1]) false] /\ save_vars show2 true st = Ret (Some file, 0) /\
  read_vars atof2 (Some file) (mkState "" 0 0 0 0 (s_dims st) [mkVar long_name 1 ["one"] 1 1 (Longs [2]) false]) = Ret (st'', 0) /\ map v_mem (s_vars st'') = [Longs [2]].
Proof.
  exists (ex_state 5 (1 # 2) ex_dims [mkVar long_name 1 ["one"] 1 1 (Longs [1]) false]). eexists. eexists.
  split; [reflexivity|]. split; [vm_compute; reflexivity|]. split; [vm_compute; reflexivity|]. vm_compute. reflexivity.
Qed.
(** A title of 79 characters or more: its end is read as the step count. *)
Theorem C19_long_title_refuted : exists (st : @state bool) file st'', String.length (s_info st) = 94%nat /\ s_nsteps st = 41 /\ save_vars show2 true st = Ret (Some file, 0) /\
  read_vars atof2 (Some file) st = Ret (st'', 0) /\ s_nsteps st'' = 2026.
Proof.
  exists (mkState "A long description of the basin, of its parameters and of the period, with remarks; years 2026" 41 0 1 1 ex_dims (ex_vars 1 2 true true)).
  eexists. eexists. split; [vm_compute; reflexivity|]. split; [reflexivity|]. split; [vm_compute; reflexivity|]. split; [vm_compute; reflexivity|]. vm_compute. reflexivity.
Qed.
(** A variable without dimensions is written, but cannot be read back. *)
Theorem C19_no_dimension_refuted : forall (V : Type) (show : Z -> V -> string) (atof : Z -> string -> V) z w rest,
  exists body, save_var show (mkVar "v" 0 [] 1 1 (Longs [z]) false) = Ret (("####" ++ newline)%string :: ("v" ++ newline)%string :: body) /\
    exists w' f, read_var atof w (mkStream (body ++ rest) false) = Ret (w', false, f) /\ v_mem w' = v_mem w.
Proof. intros. eexists. split; [reflexivity|]. eexists. eexists. split; reflexivity. Qed.
(** Integers of a Fortran module have four bytes each, but are saved as longs: the writer leaves the storage. *)
Theorem C19_integers_refuted : forall (V : Type) (show : Z -> V -> string) v l, v_type v = 1 -> v_mem v = Ints l -> Z.of_nat (length l) = v_size v -> 1 <= v_size v ->
  save_var show v = UB.
Proof.
  intros V show v l T M L S.
  assert (X : forall n j, (length l < 2 * (j + n))%nat -> (1 <= n)%nat -> value_lines show 1 (Ints l) n j = UB).
  { induction n as [|n IH]; intros j H N; [lia|]. cbn [value_lines]. unfold value_line. cbn [Z.eqb]. change (1 =? 1) with true. cbn match.
    cbn [peek_long]. destruct (nth_error l (2 * j)) as [a|] eqn:A; [|reflexivity]. destruct (nth_error l (2 * j + 1)) as [b|] eqn:B; [|reflexivity].
    assert (2 * j + 1 < length l)%nat by (apply nth_error_Some; congruence). cbn [bind]. rewrite (IH (Datatypes.S j)) by lia. reflexivity. }
  unfold save_var, save_values. rewrite T, M. change ((1 =? 1) || (1 =? 2) || (1 =? 3)) with true. cbn match. rewrite X by lia.
  destruct (v_private v); [reflexivity|]. destruct (_ <? _); reflexivity.
Qed.
Print Assumptions C19_ex.
Print Assumptions C19_refused_ex.
Print Assumptions C19_step_length_refuted.
Print Assumptions C19_refused_steps_refuted.
Print Assumptions C19_cut_unnoticed_refuted.
Print Assumptions C19_cut_number_refuted.
Print Assumptions C19_mismatch_refuted.
Print Assumptions C19_more_dimensions_refuted.
Print Assumptions C19_long_name_refuted.
Print Assumptions C19_long_title_refuted.
Print Assumptions C19_no_dimension_refuted.
Print Assumptions C19_integers_refuted.
