(** Proofs for C24, C25, C26 and C28. *)
From Coq Require Import String Ascii ZArith Bool List Lia ZifyBool.
From Verif Require Import SelOut_Model Inst_Model Inst_Spec.
Import ListNotations.
Local Open Scope string_scope.
Local Open Scope list_scope.
Local Open Scope Z_scope.

(** ** Frames *)
Record same (s t : inst) : Prop := {
  f_sc : sc t = sc s; f_sw : sw t = sw s;
  f_cur : cur (se t) = cur (se s); f_file : file_on (se t) = file_on (se s); f_str : str_on (se t) = str_on (se s) }.
Lemma same_refl s : same s s.
Proof. constructor; reflexivity. Qed.
Lemma same_trans s t u : same s t -> same t u -> same s u.
Proof. intros [] []. constructor; congruence. Qed.
Ltac triv := constructor; reflexivity.
Lemma same_output s m : same s (output_msg s m).
Proof. unfold output_msg. destruct (out_str (sw s)); triv. Qed.
Lemma same_log s m : same s (log_msg s m).
Proof. unfold log_msg. destruct (log_str (sw s)); triv. Qed.
Lemma same_error s m : same s (error_msg s m).
Proof.
  unfold error_msg. set (s0 := if input_errors s <=? 0 then _ else s).
  apply (same_trans s s0); [unfold s0; destruct (input_errors s <=? 0); triv|].
  set (s1 := output_msg s0 _). apply (same_trans s0 s1); [apply same_output|].
  set (s2 := log_msg s1 _). apply (same_trans s1 s2); [apply same_log|].
  destruct (err_str _ && error_on _); triv.
Qed.
Lemma same_add_selected x n : cur (add_selected x n) = cur x /\ file_on (add_selected x n) = file_on x /\ str_on (add_selected x n) = str_on x /\
  lines (add_selected x n) = lines x /\ defs (add_selected x n) = defs x.
Proof. unfold add_selected. destruct (tables x n); repeat split. Qed.
Lemma same_adds l : forall x, cur (fold_left add_selected l x) = cur x /\ file_on (fold_left add_selected l x) = file_on x /\
  str_on (fold_left add_selected l x) = str_on x /\ lines (fold_left add_selected l x) = lines x /\ defs (fold_left add_selected l x) = defs x.
Proof.
  induction l as [|n l IH]; intros x; [repeat split|]. cbn [fold_left]. destruct (IH (add_selected x n)) as (-> & -> & -> & -> & ->). apply same_add_selected.
Qed.
Lemma same_act s a : same s (do_act s a).
Proof.
  destruct a; cbn [do_act]; try (apply same_output || apply same_log || apply same_error || triv).
  - unfold new_sim. constructor; try reflexivity; cbn [set_se se]; apply (same_adds _ (mkSel _ _ _ _ _ _ _)).
  - unfold punch. destruct (get_sel_out_string_on s n); triv.
  - unfold table_event. destruct (tables (se s) n); triv.
  - unfold table_event. destruct (tables (se s) n); triv.
Qed.
Lemma same_acts l : forall s, same s (acts s l).
Proof. unfold acts. induction l as [|a l IH]; intros s; [apply same_refl|]. cbn. eapply same_trans; [apply same_act | apply IH]. Qed.
Lemma same_fill s n : same s (fill_lines s n).
Proof.
  unfold fill_lines. destruct (get_sel_out_string_on s n); [|apply same_refl]. destruct (strings (se s) n); [|apply same_refl].
  destruct (getlines s0); triv.
Qed.
Lemma same_fills l : forall s, same s (fold_left fill_lines l s).
Proof. induction l as [|a l IH]; intros s; [apply same_refl|]. cbn. eapply same_trans; [apply same_fill | apply IH]. Qed.
Lemma same_do_run s l o : same s (do_run s l o).
Proof.
  unfold do_run. apply (same_trans s (acts s l)); [apply same_acts|]. set (s1 := acts s l). destruct o; [|apply same_error | apply same_refl].
  set (s2 := update_errors s1). apply (same_trans s1 s2); [triv|].
  set (s3 := if log_str (sw s2) then _ else s2). apply (same_trans s2 s3); [unfold s3; destruct (log_str (sw s2)); triv|].
  set (s4 := if out_str (sw s3) then _ else s3). apply (same_trans s3 s4); [unfold s4; destruct (out_str (sw s3)); triv|].
  apply same_fills.
Qed.
Lemma same_clear s : same s (clear_results s).
Proof. triv. Qed.
Lemma same_body s r t l o : same s (fst (fst (run_body s r t l o))).
Proof.
  unfold run_body. apply (same_trans s (clear_results s)); [apply same_clear|]. set (s1 := clear_results s).
  destruct (negb (loaded (sc s1))).
  - cbn [fst]. eapply same_trans; [|apply same_error]. triv.
  - set (s2 := set_errors s1 0 0). apply (same_trans s1 s2); [triv|]. destruct t as [t|]; [|apply same_error].
    pose proof (same_do_run s2 l o) as D. destruct o; cbn [fst]; try exact D. eapply same_trans; [exact D | apply same_error].
Qed.
Lemma body_thrown s r t l o : snd (fst (run_body s r t l o)) = loaded (sc s) && match t with Some _ => negb (ends_well o) | None => false end.
Proof. unfold run_body. cbn. destruct (loaded (sc s)); [|reflexivity]. destruct t; [destruct o; reflexivity | reflexivity]. Qed.
Lemma body_ran s r t l o : snd (run_body s r t l o) = if loaded (sc s) then t else None.
Proof. unfold run_body. cbn. destruct (loaded (sc s)); [|reflexivity]. destruct t; [destruct o; reflexivity | reflexivity]. Qed.
Lemma finish_same r : same (fst (fst r)) (fst (fst (finish r))).
Proof. destruct r as [[s []] t]; cbn; triv. Qed.
Lemma finish_ran r : snd (finish r) = snd r.
Proof. destruct r as [[s []] t]; reflexivity. Qed.
Lemma same_run_text s r t l o : same (set_sc s (mkScript (loaded (sc s)) false "")) (fst (fst (run_text s r t l o))).
Proof. unfold run_text. eapply same_trans; [|apply finish_same]. apply same_body. Qed.
Lemma run_acc_sc s l o : sc (fst (fst (run_accumulated s l o))) =
  if loaded (sc s) && negb (ends_well o) then sc s else mkScript (loaded (sc s)) true (acc (sc s)).
Proof.
  unfold run_accumulated. pose proof (same_body s "RunAccumulated" (Some (acc (sc s))) l o) as F.
  pose proof (body_thrown s "RunAccumulated" (Some (acc (sc s))) l o) as T.
  destruct (run_body s "RunAccumulated" (Some (acc (sc s))) l o) as [[s1 th] t]. cbn [fst snd] in F, T. rewrite <- T.
  destruct th; cbn; [apply (f_sc _ _ F)|]. rewrite (f_sc _ _ F). reflexivity.
Qed.
Lemma run_acc_frame s l o : sw (fst (fst (run_accumulated s l o))) = sw s /\ cur (se (fst (fst (run_accumulated s l o)))) = cur (se s) /\
  file_on (se (fst (fst (run_accumulated s l o)))) = file_on (se s) /\ str_on (se (fst (fst (run_accumulated s l o)))) = str_on (se s).
Proof.
  unfold run_accumulated. pose proof (same_body s "RunAccumulated" (Some (acc (sc s))) l o) as F.
  destruct (run_body s "RunAccumulated" (Some (acc (sc s))) l o) as [[s1 th] t]. cbn [fst snd] in F. destruct F.
  destruct th; cbn; auto.
Qed.
Lemma run_acc_ran s l o : snd (run_accumulated s l o) = if loaded (sc s) then Some (acc (sc s)) else None.
Proof.
  unfold run_accumulated. pose proof (body_ran s "RunAccumulated" (Some (acc (sc s))) l o) as F.
  destruct (run_body s "RunAccumulated" (Some (acc (sc s))) l o) as [[s1 th] t]. cbn [fst snd] in F. destruct th; cbn; exact F.
Qed.
Lemma run_text_ran s r t l o : snd (run_text s r t l o) = if loaded (sc s) then t else None.
Proof. unfold run_text. rewrite finish_ran, body_ran. reflexivity. Qed.

(** ** Errors counted *)
Definition counts (s : inst) : Prop := 0 <= input_error s /\ 0 <= io_errors s.
Lemma msg_errors s m : input_error (output_msg s m) = input_error s /\ io_errors (output_msg s m) = io_errors s /\
  input_error (log_msg s m) = input_error s /\ io_errors (log_msg s m) = io_errors s.
Proof. unfold output_msg, log_msg. destruct (out_str (sw s)), (log_str (sw s)); repeat split. Qed.
Lemma error_io s m : io_errors (error_msg s m) = io_errors s + 1 /\
  input_error (error_msg s m) = if input_errors s <=? 0 then 1 else input_error s.
Proof.
  unfold error_msg. set (s0 := if input_errors s <=? 0 then set_errors s 1 (io_errors s) else s).
  assert (E0 : io_errors s0 = io_errors s /\ input_error s0 = if input_errors s <=? 0 then 1 else input_error s)
    by (unfold s0; destruct (input_errors s <=? 0); split; reflexivity).
  destruct E0 as [<- <-]. set (mm := ("ERROR: " ++ m ++ nl)%string).
  destruct (msg_errors s0 mm) as (A & B & _). destruct (msg_errors (output_msg s0 mm) mm) as (_ & _ & C & D).
  cbn [set_errors io_errors input_error]. destruct (err_str _ && error_on _); cbn [add_error set_rp io_errors input_error set_errors]; split; lia.
Qed.
Lemma error_positive s m : counts s -> counts (error_msg s m) /\ 0 < input_errors (error_msg s m).
Proof.
  intros [A B]. destruct (error_io s m) as [C D]. unfold counts, input_errors. rewrite C, D.
  destruct (input_errors s <=? 0); cbn; split; try lia. unfold input_errors in *. destruct (input_error s =? 0) eqn:E; lia.
Qed.
Lemma act_errors s a : counts s -> counts (do_act s a) /\
  (if is_error a then 0 < input_errors (do_act s a) else input_errors (do_act s a) = input_errors s) /\
  (0 < input_errors s -> 0 < input_errors (do_act s a)).
Proof.
  intros W. pose proof W as [A B]. destruct a; cbn [do_act is_error].
  - destruct (msg_errors s m) as (C & D & _). unfold counts, input_errors. rewrite C, D. auto.
  - destruct (msg_errors s m) as (_ & _ & C & D). unfold counts, input_errors. rewrite C, D. auto.
  - cbn. auto.
  - destruct (error_positive s m W). auto.
  - unfold counts, input_errors. cbn. destruct (input_error s + 1 =? 0) eqn:E; lia.
  - cbn. auto.
  - unfold punch. destruct (get_sel_out_string_on s n); cbn; auto.
  - unfold table_event. destruct (tables (se s) n); cbn; auto.
  - unfold table_event. destruct (tables (se s) n); cbn; auto.
Qed.
Lemma acts_errors l : forall s, counts s -> counts (acts s l) /\ (0 < input_errors s -> 0 < input_errors (acts s l)) /\
  (if forallb (fun a => negb (is_error a)) l then input_errors (acts s l) = input_errors s else 0 < input_errors (acts s l)).
Proof.
  unfold acts. induction l as [|a l IH]; intros s W; [repeat split; try apply W; auto|]. cbn [fold_left forallb].
  destruct (act_errors s a W) as (W' & E & P). destruct (IH _ W') as (W2 & P2 & E2). split; [exact W2|]. split; [auto|].
  destruct (is_error a); cbn [negb andb]; [auto|]. destruct (forallb _ l); [congruence | exact E2].
Qed.
Lemma unload_counts s : counts (unload s) /\ input_errors (unload s) = 0.
Proof. split; [split; cbn; lia | reflexivity]. Qed.
Lemma load_db_ok s src : 
  let r := load_db s src in
  loaded (sc (fst r)) = read_well src /\
  snd r = (match src with Some (_, Crash) => true | _ => false end) /\
  counts (fst r) /\ (snd r = false -> (input_errors (fst r) =? 0) = read_well src) /\
  same (set_sc (unload s) (sc (fst r))) (fst r) /\ clear_acc (sc (fst r)) = false /\ acc (sc (fst r)) = "".
Proof.
  unfold load_db. destruct (unload_counts s) as [W Z0]. set (u := unload s) in *.
  assert (SU : clear_acc (sc u) = false /\ acc (sc u) = "" /\ loaded (sc u) = false) by (repeat split).
  destruct src as [[l o]|].
  - destruct (acts_errors l u W) as (W1 & _ & E). pose proof (same_acts l u) as F. set (a := acts u l) in *.
    destruct o as [|m|].
    + cbn [fst snd sc set_sc loaded clear_acc acc read_well]. rewrite (f_sc _ _ F).
      assert (EQ : (input_errors a =? 0) = forallb (fun a => negb (is_error a)) l) by (destruct (forallb _ l); lia).
      repeat split; try (exact EQ || apply W1 || apply SU); try (intros _; exact EQ); apply F.
    + destruct (error_positive a m W1) as [W2 P2]. pose proof (same_trans _ _ _ F (same_error a m)) as F2. set (b := error_msg a m) in *.
      cbn [fst snd sc set_sc loaded clear_acc acc read_well]. rewrite (f_sc _ _ F2).
      assert (EQ : (input_errors b =? 0) = false) by lia.
      repeat split; try (exact EQ || apply W2 || apply SU); try (intros _; exact EQ); apply F2.
    + set (m := "LoadDatabase: An unhandled exception occurred."). destruct (error_positive a m W1) as [W2 P2].
      pose proof (same_trans _ _ _ F (same_error a m)) as F2. set (b := error_msg a m) in *. cbn [fst snd read_well]. rewrite (f_sc _ _ F2).
      repeat split; try (apply W2 || apply SU); try discriminate; apply F2.
  - set (m := "LoadDatabase: Unable to open"). destruct (error_positive u m W) as [W2 P2]. pose proof (same_error u m) as F2.
    set (b := error_msg u m) in *. cbn [fst snd sc set_sc loaded clear_acc acc read_well]. rewrite (f_sc _ _ F2).
    assert (EQ : (input_errors b =? 0) = false) by lia.
    repeat split; try (exact EQ || apply W2 || apply SU); try (intros _; exact EQ); apply F2.
Qed.
Lemma run_text_result s r t l o s' : run_text s r t l o = s' -> loaded (sc s) = true -> ends_well o = true ->
  snd (fst s') = RInt (input_errors (fst (fst s'))).
Proof.
  intros <- L E. unfold run_text. pose proof (body_thrown (set_sc s (mkScript (loaded (sc s)) false "")) r t l o) as T.
  destruct (run_body _ r t l o) as [[s1 th] x]. cbn [fst snd] in T. replace th with false; [reflexivity|].
  rewrite T, E. cbn. rewrite L. destruct t; reflexivity.
Qed.
Lemma load_effect s src test : let s' := fst (load_database s src test) in
  loaded (sc s') = read_well src /\ clear_acc (sc s') = false /\ acc (sc s') = "" /\
  cur (se s') = 1 /\ file_on (se s') = (fun n => if n =? 1 then Some false else None) /\ str_on (se s') = (fun n => if n =? 1 then Some false else None).
Proof.
  unfold load_database. set (s0 := with_files s false false false).
  destruct (load_db_ok s0 src) as (L & TH & W & E & F & CA & AC). destruct (load_db s0 src) as [s1 th]. cbn [fst snd] in *.
  assert (X : cur (se s1) = 1 /\ file_on (se s1) = (fun n => if n =? 1 then Some false else None) /\ str_on (se s1) = (fun n => if n =? 1 then Some false else None)).
  { rewrite (f_cur _ _ F), (f_file _ _ F), (f_str _ _ F). repeat split. }
  destruct th; [cbn; tauto|]. specialize (E eq_refl). destruct (negb (input_errors s1 =? 0)); [cbn; tauto|].
  destruct test as [[t l] o]. pose proof (same_run_text s1 "RunString" (Some t) l o) as F2.
  destruct (run_text s1 "RunString" (Some t) l o) as [[s2 r] ran]. cbn [fst] in F2.
  assert (Y : loaded (sc s2) = read_well src /\ clear_acc (sc s2) = false /\ acc (sc s2) = "" /\ cur (se s2) = 1 /\
    file_on (se s2) = (fun n => if n =? 1 then Some false else None) /\ str_on (se s2) = (fun n => if n =? 1 then Some false else None)).
  { rewrite (f_sc _ _ F2), (f_cur _ _ F2), (f_file _ _ F2), (f_str _ _ F2). cbn. tauto. }
  destruct r; cbn; tauto.
Qed.

(** ** C25 *)
Lemma step_loaded s p : loaded (sc (stepi s p)) = match p with Load src _ => read_well src | _ => loaded (sc s) end.
Proof.
  unfold stepi. destruct p; try reflexivity; cbn [step].
  - unfold accumulate_line. destruct (clear_acc (sc s)); reflexivity.
  - rewrite run_acc_sc. destruct (loaded (sc s) && negb (ends_well o)); reflexivity.
  - rewrite (f_sc _ _ (same_run_text s "RunString" (Some text) l o)). reflexivity.
  - rewrite (f_sc _ _ (same_run_text s "RunFile" text l o)). reflexivity.
  - pose proof (load_effect s source test) as E. destruct (load_database s source test) as [s1 r]. apply E.
  - destruct (0 <=? n); reflexivity.
  - destruct (0 <=? cur (se s)); reflexivity.
  - unfold get_value. destruct (tables (se (clear_errors s)) (cur (se (clear_errors s)))); [|reflexivity].
    destruct (run empty l); [|reflexivity]. destruct (get t row col) as [[code v]|]; [|reflexivity]. destruct (code =? VR_OK); reflexivity.
Qed.
Lemma runs_loaded h : forall s, loaded (sc (runs s h)) = usable h (loaded (sc s)).
Proof.
  unfold runs. induction h as [|p h IH]; intros s; [reflexivity|]. cbn [fold_left usable]. rewrite IH, step_loaded. destruct p; reflexivity.
Qed.
Lemma executed_acc h l o : snd (step (runs created h) (RunAccumulated l o)) =
  if usable h false then Some (acc (sc (runs created h))) else None.
Proof. cbn [step]. rewrite run_acc_ran, runs_loaded. reflexivity. Qed.
Lemma executed_string h t l o : snd (step (runs created h) (RunString t l o)) = if usable h false then Some t else None.
Proof. cbn [step]. rewrite run_text_ran, runs_loaded. reflexivity. Qed.
Lemma executed_file h t l o : snd (step (runs created h) (RunFile t l o)) = if usable h false then t else None.
Proof. cbn [step]. rewrite run_text_ran, runs_loaded. reflexivity. Qed.
Lemma refused_body s r t l o : loaded (sc s) = false ->
  let s' := fst (fst (run_body s r t l o)) in
  snd (fst (run_body s r t l o)) = false /\ input_errors s' = 1 /\
  (forall n, tables (se s') n = None /\ strings (se s') n = None /\ lines (se s') n = None) /\
  out_lines (tx s') = [] /\ log_lines (tx s') = [] /\
  out (tx s') = (if out_str (sw s) then "ERROR: " ++ (r ++ ": No database is loaded") ++ nl else "")%string /\
  log (tx s') = (if log_str (sw s) then "ERROR: " ++ (r ++ ": No database is loaded") ++ nl else "")%string /\
  err (rp s') = (if err_str (sw s) && error_on (sw s) then "ERROR: " ++ (r ++ ": No database is loaded") ++ nl else "")%string.
Proof.
  intros L. unfold run_body. cbn [sc clear_results set_tx set_se clear_warnings clear_errors set_rp]. rewrite L. cbn [negb fst snd].
  unfold error_msg, input_errors. cbn [set_errors input_error Z.eqb]. change (1 <=? 0) with false. cbv iota.
  unfold output_msg. cbn [set_errors sw clear_results set_tx set_se clear_warnings clear_errors set_rp].
  destruct (out_str (sw s)); unfold log_msg; cbn; destruct (log_str (sw s)); cbn; destruct (err_str (sw s) && error_on (sw s)); cbn; repeat split.
Qed.
Definition run_op (p : op) : option string :=
  match p with RunAccumulated _ _ => Some "RunAccumulated" | RunString _ _ _ => Some "RunString" | RunFile _ _ _ => Some "RunFile" | _ => None end.
Lemma refused h p r : run_op p = Some r -> usable h false = false ->
  let s := runs created h in
  let s' := stepi s p in
  let msg := ("ERROR: " ++ (r ++ ": No database is loaded") ++ nl)%string in
  snd (fst (step s p)) = RInt 1 /\
  (forall n, tables (se s') n = None /\ strings (se s') n = None /\ lines (se s') n = None) /\
  out_lines (tx s') = [] /\ log_lines (tx s') = [] /\
  out (tx s') = (if out_str (sw s) then msg else "") /\
  log (tx s') = (if log_str (sw s) then msg else "") /\
  err (rp s') = (if err_str (sw s) && error_on (sw s) then msg else "").
Proof.
  intros R U. cbv zeta. assert (L : loaded (sc (runs created h)) = false) by (rewrite runs_loaded; exact U). set (s := runs created h) in *.
  unfold stepi. destruct p; try discriminate R; injection R as <-; cbn [step].
  - unfold run_accumulated. pose proof (refused_body s "RunAccumulated" (Some (acc (sc s))) l o L) as B. cbv zeta in B.
    destruct (run_body s "RunAccumulated" (Some (acc (sc s))) l o) as [[s1 th] x]. cbn [fst snd] in B. destruct B as (-> & B). cbn. unfold input_errors in *. cbn.
    destruct B as (-> & B). tauto.
  - unfold run_text. pose proof (refused_body (set_sc s (mkScript (loaded (sc s)) false "")) "RunString" (Some text) l o L) as B. cbv zeta in B.
    destruct (run_body _ "RunString" (Some text) l o) as [[s1 th] x]. cbn [fst snd] in B. destruct B as (-> & B). cbn. unfold input_errors in *. cbn.
    destruct B as (-> & B). cbn in B. tauto.
  - unfold run_text. pose proof (refused_body (set_sc s (mkScript (loaded (sc s)) false "")) "RunFile" text l o L) as B. cbv zeta in B.
    destruct (run_body _ "RunFile" text l o) as [[s1 th] x]. cbn [fst snd] in B. destruct B as (-> & B). cbn. unfold input_errors in *. cbn.
    destruct B as (-> & B). cbn in B. tauto.
Qed.
Lemma body_counts s r t l o : counts s -> loaded (sc s) = true ->
  let s' := fst (fst (run_body s r (Some t) l o)) in
  (input_errors s' =? 0) = match o with Done => forallb (fun a => negb (is_error a)) l | _ => false end.
Proof.
  intros W L. unfold run_body. cbn [sc clear_results set_tx set_se clear_warnings clear_errors set_rp]. rewrite L. cbn [negb].
  set (s2 := set_errors (clear_results s) 0 0). assert (W2 : counts s2) by (split; cbn; lia). unfold do_run.
  destruct (acts_errors l s2 W2) as (W3 & _ & E). set (a := acts s2 l) in *. destruct o; cbn [fst].
  - assert (EQ : forall x, input_error x = input_error a -> io_errors x = io_errors a -> forall ds, input_errors (fold_left fill_lines ds x) = input_errors a).
    { intros x A B ds. revert x A B. induction ds as [|d ds IH]; intros x A B; [unfold input_errors; cbn; rewrite A, B; reflexivity|].
      cbn [fold_left]. apply IH; unfold fill_lines; destruct (get_sel_out_string_on x d); try assumption; destruct (strings (se x) d); try assumption;
        destruct (getlines s0); assumption. }
    rewrite EQ; [destruct (forallb _ l); [rewrite E; reflexivity | lia]| |].
    + destruct (out_str _); cbn; destruct (log_str _); reflexivity.
    + destruct (out_str _); cbn; destruct (log_str _); reflexivity.
  - destruct (error_positive a m W3). lia.
  - destruct (error_positive a (r ++ ": An unhandled exception occurred.") W3). lia.
Qed.
Lemma load_returns s src test : orderly (Load src test) = true ->
  exists n, snd (load_database s src test) = RInt n /\ ((n =? 0) = read_well src && test_well test) /\
  let s' := fst (load_database s src test) in
  out_file (sw s') = out_file (sw s) /\ log_file (sw s') = log_file (sw s) /\ err_file (sw s') = err_file (sw s).
Proof.
  intros O. unfold load_database. set (s0 := with_files s false false false).
  destruct (load_db_ok s0 src) as (L & TH & W & E & F & CA & AC). destruct (load_db s0 src) as [s1 th]. cbn [fst snd] in *.
  assert (T0 : th = false) by (rewrite TH; destruct src as [[l o]|]; [|reflexivity]; destruct o; try reflexivity; destruct test as [[? ?] ?]; discriminate).
  rewrite T0 in *. specialize (E eq_refl). rewrite E. destruct (read_well src); cbn [negb].
  - destruct test as [[t l] o]. pose proof (run_text_result s1 "RunString" (Some t) l o _ eq_refl L) as R.
    assert (EW : ends_well o = true) by (cbn in O; destruct src as [[? ?]|]; [apply andb_true_iff in O; apply O | exact O]). specialize (R EW).
    assert (N : (input_errors (fst (fst (run_text s1 "RunString" (Some t) l o))) =? 0) = test_well (t, l, o)).
    { unfold run_text. set (s2 := set_sc s1 (mkScript (loaded (sc s1)) false "")).
      pose proof (body_counts s2 "RunString" t l o W) as B. specialize (B L). cbv zeta in B.
      destruct (run_body s2 "RunString" (Some t) l o) as [[s3 th3] x]. cbn [fst] in B. unfold finish. destruct th3; cbn [fst]; unfold input_errors in *; cbn; rewrite B; destruct o; reflexivity. }
    destruct (run_text s1 "RunString" (Some t) l o) as [[s2 r] ran]. cbn [fst snd] in *. subst r. eexists. split; [reflexivity|]. split; [exact N|]. cbn. auto.
  - eexists. split; [reflexivity|]. split; [exact E|]. cbn. auto.
Qed.

(** ** C24 *)
Lemma kept_snoc h p : forall a, kept (h ++ [p]) a = if discards p then [] else kept h a ++ [p].
Proof. induction h as [|q h IH]; intros a; cbn [app kept]; [destruct (discards p); reflexivity | apply IH]. Qed.
Lemma scripts_ne h : scripts h <> [].
Proof. induction h as [|p h IH]; cbn; [discriminate|]. destruct p; try exact IH; [destruct (scripts h); discriminate | discriminate]. Qed.
Definition open_script (h : list op) : list string := last (scripts h) [].
Definition ended (h : list op) : list (list string) := removelast (scripts h).
Lemma scripts_split h : scripts h = ended h ++ [open_script h].
Proof. apply app_removelast_last. apply scripts_ne. Qed.
Lemma scripts_acc h l : scripts (h ++ [Accumulate l]) = ended h ++ [open_script h ++ [l]].
Proof.
  unfold ended, open_script. induction h as [|p h IH]; [reflexivity|]. destruct p; try exact IH; cbn [app scripts].
  - rewrite IH. destruct (scripts h) as [|x xs] eqn:E; [destruct (scripts_ne h E)|]. destruct xs; reflexivity.
  - rewrite IH. destruct (scripts h) as [|x xs] eqn:E; [destruct (scripts_ne h E) | reflexivity].
Qed.
Lemma scripts_run h l o : scripts (h ++ [RunAccumulated l o]) = scripts h ++ [[]].
Proof.
  induction h as [|p h IH]; [reflexivity|]. destruct p; try exact IH; cbn [app scripts].
  - rewrite IH. destruct (scripts h) as [|x xs] eqn:E; [destruct (scripts_ne h E) | reflexivity].
  - rewrite IH. reflexivity.
Qed.
Lemma scripts_other h p : discards p = false -> (match p with Accumulate _ | RunAccumulated _ _ => false | _ => true end) = true ->
  scripts (h ++ [p]) = scripts h.
Proof.
  intros D X. induction h as [|q h IH]; [destruct p; try discriminate; reflexivity|]. destruct q; cbn [app scripts]; rewrite ?IH; reflexivity.
Qed.
Lemma sapp_assoc a b c : ((a ++ b) ++ c = a ++ (b ++ c))%string.
Proof. induction a as [|x a IH]; [reflexivity|]. cbn. rewrite IH. reflexivity. Qed.
Lemma text_snoc l x : text_of (l ++ [x]) = (text_of l ++ x ++ nl)%string.
Proof. induction l as [|y l IH]; [cbn [app text_of append]; reflexivity|]. cbn [app text_of]. rewrite IH, !sapp_assoc. reflexivity. Qed.
Lemma text_app a b : text_of (a ++ b) = (text_of a ++ text_of b)%string.
Proof. induction a as [|x a IH]; [reflexivity|]. cbn [app text_of]. rewrite IH, !sapp_assoc. reflexivity. Qed.
Lemma filter_open a (x : list string) : x <> [] -> last (filter has_lines (a ++ [x])) [] = x.
Proof. intros N. rewrite filter_app. cbn. destruct x; [contradiction|]. apply last_last. Qed.
Record acc_inv (s : inst) (h : list op) : Prop := {
  a_text : acc (sc s) = text_of (last (filter has_lines (scripts h)) []);
  a_open : if clear_acc (sc s) then open_script h = [] else acc (sc s) = text_of (open_script h) }.
Lemma step_sc s p : (match p with Accumulate _ | ClearAccumulated | RunAccumulated _ _ | RunString _ _ _ | RunFile _ _ _ | Load _ _ => false | _ => true end) = true ->
  sc (stepi s p) = sc s.
Proof.
  unfold stepi. destruct p; try discriminate; intros _; try reflexivity; cbn [step].
  - destruct (0 <=? n); reflexivity.
  - destruct (0 <=? cur (se s)); reflexivity.
  - unfold get_value. destruct (tables _ _); [|reflexivity].
    destruct (run empty l); [|reflexivity]. destruct (get t row col) as [[code v]|]; [|reflexivity]. destruct (code =? VR_OK); reflexivity.
Qed.
Lemma acc_step s h p : orderly p = true -> acc_inv s (kept h []) -> acc_inv (stepi s p) (kept (h ++ [p]) []).
Proof.
  intros O J. rewrite kept_snoc.
  assert (Z : forall s', acc (sc s') = "" -> acc_inv s' []).
  { intros s' A. constructor; [exact A|]. destruct (clear_acc (sc s')); [reflexivity | exact A]. }
  assert (K : sc (stepi s p) = sc s -> discards p = false -> (match p with Accumulate _ | RunAccumulated _ _ => false | _ => true end) = true ->
    acc_inv (stepi s p) (kept h [] ++ [p])).
  { intros E D X. destruct J as [A B]. constructor; rewrite ?E; unfold open_script; rewrite scripts_other by assumption; assumption. }
  destruct p; cbn [discards] in *; try (apply Z); try (apply K; [apply step_sc; reflexivity | reflexivity | reflexivity]).
  - (* Accumulate *) unfold stepi. cbn [step fst]. unfold accumulate_line. destruct J as [A B].
    destruct (clear_acc (sc s)) eqn:C.
    + constructor; cbn [sc set_sc acc clear_acc clear_warnings clear_errors set_rp append].
      * rewrite scripts_acc, B. rewrite filter_open by discriminate. reflexivity.
      * unfold open_script at 1. rewrite scripts_acc, last_last, B. reflexivity.
    + constructor; cbn [sc set_sc acc clear_acc clear_warnings clear_errors set_rp]; rewrite ?C.
      * rewrite scripts_acc, filter_open; [|intros X; apply (f_equal (@List.length string)) in X; rewrite app_length in X; cbn in X; lia].
        rewrite text_snoc, B. reflexivity.
      * unfold open_script. rewrite scripts_acc, last_last, text_snoc, B. reflexivity.
  - (* ClearAccumulated *) reflexivity.
  - (* RunAccumulated *) unfold stepi. cbn [step]. cbn in O. destruct J as [A B]. constructor; rewrite run_acc_sc, O; cbn [negb]; rewrite andb_false_r; cbn [acc clear_acc].
    + rewrite scripts_run, filter_app. cbn [filter has_lines]. rewrite app_nil_r. exact A.
    + unfold open_script. rewrite scripts_run. apply last_last.
  - unfold stepi. cbn [step]. rewrite (f_sc _ _ (same_run_text s "RunString" (Some text) l o)). reflexivity.
  - unfold stepi. cbn [step]. rewrite (f_sc _ _ (same_run_text s "RunFile" text l o)). reflexivity.
  - unfold stepi. cbn [step]. pose proof (load_effect s source test) as E. destruct (load_database s source test) as [s1 r]. apply E.
Qed.
Lemma runs_snoc h p : forall s, runs s (h ++ [p]) = stepi (runs s h) p.
Proof. intros s. unfold runs. rewrite fold_left_app. reflexivity. Qed.
Lemma acc_runs h : forallb orderly h = true -> acc_inv (runs created h) (kept h []).
Proof.
  induction h as [|p h IH] using rev_ind; intros O; [constructor; reflexivity|]. rewrite forallb_app in O. apply andb_true_iff in O.
  destruct O as [O1 O2]. cbn in O2. rewrite andb_true_r in O2. rewrite runs_snoc. apply acc_step; [exact O2 | apply IH; exact O1].
Qed.
Lemma script_ok h : forallb orderly h = true -> acc (sc (runs created h)) = text_of (script_lines h).
Proof. intros O. apply (a_text _ _ (acc_runs h O)). Qed.
Lemma fresh_ok h l o x : forallb orderly h = true -> ends_well o = true ->
  acc (sc (runs created (h ++ [RunAccumulated l o; Accumulate x]))) = (x ++ nl)%string.
Proof.
  intros O W. replace (h ++ [RunAccumulated l o; Accumulate x]) with ((h ++ [RunAccumulated l o]) ++ [Accumulate x]) by (rewrite <- app_assoc; reflexivity).
  rewrite !runs_snoc. unfold stepi at 1. cbn [step fst]. unfold stepi. cbn [step]. unfold accumulate_line. rewrite run_acc_sc, W. cbn [negb]. rewrite andb_false_r. reflexivity.
Qed.

(** ** C26 *)
Lemma getline_ok s : forall line, one_line line -> lines_of (line ++ s) (getline line s).
Proof.
  assert (E0 : forall a, (a ++ "" = a)%string) by (induction a as [|c a IH]; [reflexivity | cbn; rewrite IH; reflexivity]).
  induction s as [|c r IH]; intros line O; cbn [getline].
  - rewrite E0. destruct line as [|d line]; [split; [constructor | left; reflexivity]|]. split; [constructor; [exact O | constructor]|].
    right. exists [], (String d line). repeat split; try discriminate.
  - destruct (Ascii.eqb c (Ascii.ascii_of_nat 10)) eqn:E.
    + apply Ascii.eqb_eq in E. subst c. destruct (IH "") as [F T]; [intros c []|]. split; [constructor; assumption|].
      destruct T as [T|(ls' & l & A & B & C)].
      * left. cbn [text_of]. rewrite T. reflexivity.
      * right. exists (line :: ls'), l. cbn [text_of app]. rewrite A. repeat split; [exact B|]. cbn [append] in C. rewrite C. rewrite !sapp_assoc. reflexivity.
    + apply Ascii.eqb_neq in E. replace (line ++ String c r)%string with ((line ++ String c "") ++ r)%string by (rewrite sapp_assoc; reflexivity).
      apply IH. intros d I.
      assert (G : list_ascii_of_string (line ++ String c "") = list_ascii_of_string line ++ [c]).
      { clear. induction line as [|x l IH]; [reflexivity|]. cbn. rewrite IH. reflexivity. }
      rewrite G in I. apply in_app_or in I. destruct I as [I|[<-|[]]]; [apply O; exact I | exact E].
Qed.
Lemma getlines_ok t : lines_of t (getlines t).
Proof. apply (getline_ok t ""). intros c []. Qed.
(** Such lines are unique. *)
Lemma one_line_split a b r t : one_line a -> one_line b -> (a ++ nl ++ r = b ++ nl ++ t)%string -> a = b /\ r = t.
Proof.
  revert b. induction a as [|c a IH]; intros [|d b] A B E; cbn in E.
  - injection E as ->. split; reflexivity.
  - exfalso. injection E as E _. apply (B d); [left; reflexivity | symmetry; exact E].
  - exfalso. injection E as E _. apply (A c); [left; reflexivity | exact E].
  - injection E as -> E. destruct (IH b) as [-> ->]; [intros x I; apply A; right; exact I | intros x I; apply B; right; exact I | exact E | split; reflexivity].
Qed.
Lemma no_nl l ls r : one_line l -> l <> (text_of ls ++ r)%string \/ ls = [].
Proof.
  intros O. destruct ls as [|x ls]; [right; reflexivity|]. left. intros E. apply (O (Ascii.ascii_of_nat 10)); [|reflexivity]. rewrite E. cbn [text_of].
  rewrite !sapp_assoc. clear. induction x as [|c x IH]; [left; reflexivity | right; exact IH].
Qed.
Lemma lines_unique t a b : lines_of t a -> lines_of t b -> a = b.
Proof.
  revert t b. induction a as [|x a IH]; intros t b [FA TA] [FB TB].
  - destruct TA as [TA|(ls & l & A & _)]; [|destruct ls; discriminate]. cbn in TA. subst t. destruct TB as [TB|(ls & l & A & N & E)].
    + destruct b as [|y b]; [reflexivity|]. cbn in TB. destruct y; discriminate.
    + destruct ls as [|y ls]; [destruct l; [contradiction | discriminate] | cbn in E; destruct y; discriminate].
  - destruct b as [|y b].
    + destruct TB as [TB|(ls & l & A & _)]; [|destruct ls; discriminate]. cbn in TB. subst t. destruct TA as [TA|(ls & l & A & N & E)].
      * cbn in TA. destruct x; discriminate.
      * destruct ls as [|z ls]; [destruct l; [contradiction | discriminate] | cbn in E; destruct z; discriminate].
    + inversion FA as [|? ? OX FA']; subst. inversion FB as [|? ? OY FB']; subst.
      (* the head of a: complete or the unfinished last line *)
      assert (CA : (exists r, t = (x ++ nl ++ r)%string /\ lines_of r a) \/ (a = [] /\ t = x /\ x <> "")).
      { destruct TA as [TA|(ls & l & A & N & E)].
        - left. exists (text_of a). split; [symmetry; exact TA|]. split; [exact FA' | left; reflexivity].
        - destruct ls as [|z ls]; cbn [app] in A; injection A as A1 A2.
          + right. subst. repeat split. exact N.
          + left. subst z. exists (text_of ls ++ l)%string. split; [rewrite E; cbn [text_of]; rewrite !sapp_assoc; reflexivity|].
            split; [exact FA'|]. right. exists ls, l. repeat split; assumption. }
      assert (CB : (exists r, t = (y ++ nl ++ r)%string /\ lines_of r b) \/ (b = [] /\ t = y /\ y <> "")).
      { destruct TB as [TB|(ls & l & A & N & E)].
        - left. exists (text_of b). split; [symmetry; exact TB|]. split; [exact FB' | left; reflexivity].
        - destruct ls as [|z ls]; cbn [app] in A; injection A as A1 A2.
          + right. subst. repeat split. exact N.
          + left. subst z. exists (text_of ls ++ l)%string. split; [rewrite E; cbn [text_of]; rewrite !sapp_assoc; reflexivity|].
            split; [exact FB'|]. right. exists ls, l. repeat split; assumption. }
      destruct CA as [(r & E & LA)|(-> & -> & N)], CB as [(r' & E' & LB)|(-> & E' & N')].
      * rewrite E in E'. destruct (one_line_split _ _ _ _ OX OY E') as [-> ->]. f_equal. apply (IH r' b LA LB).
      * exfalso. rewrite E in E'. destruct (no_nl y [x] r OY) as [C|C]; [|discriminate]. apply C. cbn [text_of]. rewrite <- E', !sapp_assoc. reflexivity.
      * exfalso. destruct (no_nl x [y] r' OX) as [C|C]; [|discriminate]. apply C. cbn [text_of]. rewrite E' at 1. rewrite !sapp_assoc. reflexivity.
      * subst. reflexivity.
Qed.
Lemma get_line_ok l n : get_line l n = Some (if (0 <=? n) && (n <? line_count l) then nth (Z.to_nat n) l "" else "").
Proof.
  unfold get_line, line_count. destruct ((n <? 0) || (n >=? Z.of_nat (List.length l))) eqn:E.
  - replace ((0 <=? n) && (n <? Z.of_nat (List.length l))) with false by lia. reflexivity.
  - replace ((0 <=? n) && (n <? Z.of_nat (List.length l))) with true by lia. apply nth_error_nth'. lia.
Qed.
Lemma finish_lines r s' res t : finish r = (s', res, t) -> snd (fst r) = false ->
  err_lines (rp s') = getlines (err (rp s')) /\ warn_lines (rp s') = getlines (warn (rp s')).
Proof. destruct r as [[s th] x]. cbn. intros E ->. injection E as <- _ _. split; reflexivity. Qed.
Lemma error_lines_ok s p r : run_op p = Some r -> orderly p = true -> let s' := stepi s p in
  err_lines (rp s') = getlines (err (rp s')) /\ warn_lines (rp s') = getlines (warn (rp s')).
Proof.
  intros R O. unfold stepi. cbv zeta. destruct p; try discriminate R; cbn [step orderly] in *.
  - unfold run_accumulated. pose proof (body_thrown s "RunAccumulated" (Some (acc (sc s))) l o) as T. rewrite O, andb_false_r in T.
    destruct (run_body s "RunAccumulated" (Some (acc (sc s))) l o) as [[s1 th] t]. cbn in T. rewrite T. split; reflexivity.
  - unfold run_text. set (b := run_body _ "RunString" (Some text) l o). destruct (finish b) as [[s' res] t] eqn:E.
    apply (finish_lines _ _ _ _ E). unfold b. rewrite body_thrown, O. apply andb_false_r.
  - unfold run_text. set (b := run_body _ "RunFile" text l o). destruct (finish b) as [[s' res] t] eqn:E.
    apply (finish_lines _ _ _ _ E). unfold b. rewrite body_thrown, O. destruct text; apply andb_false_r.
Qed.
(** Completed runs. *)
Definition quiet (s : inst) : Prop := (forall n, lines (se s) n = None) /\ out_lines (tx s) = [] /\ log_lines (tx s) = [] /\ NoDup (defs (se s)).
Lemma nodup_add l n : NoDup l -> NoDup (add_def l n).
Proof.
  intros N. unfold add_def. destruct (existsb (Z.eqb n) l) eqn:E; [exact N|].
  assert (I : ~ In n l).
  { intros I. assert (X : existsb (Z.eqb n) l = true) by (apply existsb_exists; exists n; split; [exact I | apply Z.eqb_refl]). congruence. }
  clear E. induction N as [|a l NI N IH]; cbn; [repeat constructor; intros []|]. constructor.
  - intros X. apply in_app_or in X. destruct X as [X|[->|[]]]; [contradiction | apply I; left; reflexivity].
  - apply IH. intros X. apply I. right. exact X.
Qed.
Lemma nodup_adds news : forall l, NoDup l -> NoDup (fold_left add_def news l).
Proof. induction news as [|n r IH]; intros l N; [exact N|]. cbn. apply IH. apply nodup_add. exact N. Qed.
Lemma quiet_msg s m : quiet s -> quiet (output_msg s m) /\ quiet (log_msg s m).
Proof. unfold quiet, output_msg, log_msg. intros Q. destruct (out_str (sw s)), (log_str (sw s)); cbn; tauto. Qed.
Lemma quiet_error s m : quiet s -> quiet (error_msg s m).
Proof.
  intros Q0. unfold error_msg. set (s0 := if input_errors s <=? 0 then _ else s). assert (Q1 : quiet s0) by (unfold s0; destruct (input_errors s <=? 0); exact Q0).
  set (mm := ("ERROR: " ++ m ++ nl)%string). destruct (quiet_msg s0 mm Q1) as [Q2 _]. destruct (quiet_msg _ mm Q2) as [_ Q3].
  destruct (err_str _ && error_on _); exact Q3.
Qed.
Lemma quiet_act s a : quiet s -> quiet (do_act s a).
Proof.
  intros Q0. destruct a; cbn [do_act]; try (apply quiet_msg; exact Q0); try exact Q0.
  - apply quiet_error. exact Q0.
  - unfold new_sim, quiet. cbn [se set_se tx]. destruct (same_adds (fold_left add_def news (defs (se s)))
      (mkSel (cur (se s)) (file_on (se s)) (str_on (se s)) (tables (se s)) (strings (se s)) (lines (se s)) (fold_left add_def news (defs (se s)))))
      as (_ & _ & _ & -> & ->). cbn. destruct Q0 as (A & B & C & D). repeat split; try assumption. apply nodup_adds. exact D.
  - unfold punch. destruct (get_sel_out_string_on s n); exact Q0.
  - unfold table_event. destruct (tables (se s) n); exact Q0.
  - unfold table_event. destruct (tables (se s) n); exact Q0.
Qed.
Lemma quiet_acts l : forall s, quiet s -> quiet (acts s l).
Proof. unfold acts. induction l as [|a l IH]; intros s Q0; [exact Q0|]. cbn. apply IH. apply quiet_act. exact Q0. Qed.
Lemma fill_other s n : strings (se (fill_lines s n)) = strings (se s) /\ tx (fill_lines s n) = tx s /\ defs (se (fill_lines s n)) = defs (se s) /\
  get_sel_out_string_on (fill_lines s n) = get_sel_out_string_on s /\ (forall m, m <> n -> lines (se (fill_lines s n)) m = lines (se s) m).
Proof.
  unfold fill_lines. destruct (get_sel_out_string_on s n); [|repeat split]. destruct (strings (se s) n); [|repeat split]. destruct (getlines s0); [repeat split|].
  repeat split. intros m N. cbn. unfold zupd. replace (m =? n) with false by lia. reflexivity.
Qed.
Lemma fills_ok ds : NoDup ds -> forall s n, let s' := fold_left fill_lines ds s in
  tx s' = tx s /\ strings (se s') = strings (se s) /\
  (~ In n ds -> lines (se s') n = lines (se s) n) /\
  (In n ds -> lines (se s) n = None -> get_sel_out_string_on s n = true ->
    match lines (se s') n with Some l => l | None => [] end = match strings (se s) n with Some t => getlines t | None => [] end).
Proof.
  induction 1 as [|d ds NI N IH]; intros s n; [cbn; repeat split; auto; intros []|]. cbn [fold_left].
  destruct (fill_other s d) as (FS & FT & FD & FO & FL). destruct (IH (fill_lines s d) n) as (A & B & C & D).
  split; [congruence|]. split; [congruence|]. split.
  - intros X. rewrite C by (intros I; apply X; right; exact I). apply FL. intros ->. apply X. left. reflexivity.
  - intros [->|I] L O.
    + rewrite C by exact NI. unfold fill_lines. rewrite O, L. destruct (strings (se s) n) eqn:ES; [|rewrite L; reflexivity].
      destruct (getlines s0) eqn:EG; [rewrite L; reflexivity|]. cbn. unfold zupd. rewrite Z.eqb_refl. reflexivity.
    + rewrite <- FS. apply D; [exact I | | rewrite FO; exact O]. rewrite FL; [exact L | intros ->; contradiction].
Qed.
Lemma done_lines s l : quiet s -> let s' := do_run s l Done in
  (out_str (sw s') = true -> out_lines (tx s') = getlines (out (tx s'))) /\
  (log_str (sw s') = true -> log_lines (tx s') = getlines (log (tx s'))) /\
  (str_on (se s') (cur (se s')) = Some true -> In (cur (se s')) (defs (se s')) -> selected_lines s' = getlines (get_selected_string s')) /\
  NoDup (defs (se s')).
Proof.
  intros Q0. pose proof (same_do_run s l Done) as F. cbv zeta. rewrite (f_sw _ _ F). unfold do_run in *. pose proof (quiet_acts l s Q0) as Q1. pose proof (same_acts l s) as FA.
  set (a := acts s l) in *. set (s2 := update_errors a) in *.
  set (s3 := if log_str (sw s2) then _ else s2) in *. set (s4 := if out_str (sw s3) then _ else s3) in *.
  assert (W3 : sw s3 = sw s) by (unfold s3; destruct (log_str (sw s2)); apply FA).
  assert (T4 : (out_str (sw s) = true -> out_lines (tx s4) = getlines (out (tx s4))) /\ (log_str (sw s) = true -> log_lines (tx s4) = getlines (log (tx s4)))).
  { destruct Q1 as (_ & OL & LL & _). unfold s4. rewrite W3. unfold s3. change (sw s2) with (sw a). rewrite (f_sw _ _ FA).
    destruct (out_str (sw s)) eqn:O1; destruct (log_str (sw s)) eqn:O2; cbn; rewrite ?OL, ?LL; split; intros X; try discriminate X; reflexivity. }
  assert (S4 : se s4 = se a) by (unfold s4; destruct (out_str (sw s3)); unfold s3; destruct (log_str (sw s2)); reflexivity).
  assert (ND : NoDup (defs (se s4))) by (rewrite S4; apply Q1).
  pose proof (same_fills (defs (se s4)) s4) as FF.
  assert (FD : defs (se (fold_left fill_lines (defs (se s4)) s4)) = defs (se s4)).
  { generalize (defs (se s4)) at 1. intros ds. generalize s4. induction ds as [|d ds IH]; intros x; [reflexivity|]. cbn [fold_left]. rewrite IH. apply fill_other. }
  destruct (fills_ok _ ND s4 (cur (se s4))) as (TX & ST & _ & LN). split; [|split; [|split]].
  - rewrite TX. apply T4.
  - rewrite TX. apply T4.
  - unfold selected_lines, get_selected_string. rewrite FD, (f_cur _ _ FF), (f_str _ _ FF), ST. intros O I. rewrite O.
    rewrite LN; [destruct (strings (se s4) (cur (se s4))); reflexivity | exact I | rewrite S4; apply Q1 | unfold get_sel_out_string_on; rewrite O; reflexivity].
  - rewrite FD. exact ND.
Qed.
(** Definitions are never listed twice. *)
Lemma defs_do_run s l o : NoDup (defs (se s)) -> NoDup (defs (se (do_run s l o))).
Proof.
  intros N. unfold do_run. assert (A : NoDup (defs (se (acts s l)))).
  { unfold acts. revert s N. induction l as [|a l IH]; intros s N; [exact N|]. cbn. apply IH. destruct a; cbn [do_act]; try exact N.
    - unfold output_msg. destruct (out_str (sw s)); exact N.
    - unfold log_msg. destruct (log_str (sw s)); exact N.
    - unfold error_msg, log_msg, output_msg. repeat match goal with |- context [if ?b then _ else _] => destruct b end; exact N.
    - unfold new_sim. cbn [se set_se]. destruct (same_adds (fold_left add_def news (defs (se s)))
      (mkSel (cur (se s)) (file_on (se s)) (str_on (se s)) (tables (se s)) (strings (se s)) (lines (se s)) (fold_left add_def news (defs (se s)))))
      as (_ & _ & _ & _ & ->). cbn. apply nodup_adds. exact N.
    - unfold punch. destruct (get_sel_out_string_on s n); exact N.
    - unfold table_event. destruct (tables (se s) n); exact N.
    - unfold table_event. destruct (tables (se s) n); exact N. }
  set (a := acts s l) in *. destruct o; [| |exact A].
  - set (s4 := if out_str _ then _ else _). assert (S4 : defs (se s4) = defs (se a)) by (unfold s4; destruct (out_str _); destruct (log_str _); reflexivity).
    rewrite <- S4 in A. revert A. generalize (defs (se s4)) at 2. intros ds. generalize s4. induction ds as [|d ds IH]; intros x A; [exact A|]. cbn [fold_left]. apply IH.
    destruct (fill_other x d) as (_ & _ & -> & _). exact A.
  - unfold error_msg, log_msg, output_msg. repeat match goal with |- context [if ?b then _ else _] => destruct b end; exact A.
Qed.
Lemma defs_error s m : defs (se (error_msg s m)) = defs (se s).
Proof. unfold error_msg, log_msg, output_msg. repeat match goal with |- context [if ?b then _ else _] => destruct b end; reflexivity. Qed.
Lemma defs_body s r t l o : NoDup (defs (se s)) -> NoDup (defs (se (fst (fst (run_body s r t l o))))).
Proof.
  intros N. unfold run_body. destruct (negb (loaded (sc (clear_results s)))); cbn [fst]; [rewrite defs_error; exact N|].
  destruct t as [t|]; cbn [fst]; [|rewrite defs_error; exact N]. destruct o; cbn [fst]; rewrite ?defs_error; apply defs_do_run; exact N.
Qed.
Lemma defs_finish r : defs (se (fst (fst (finish r)))) = defs (se (fst (fst r))).
Proof. destruct r as [[s []] t]; reflexivity. Qed.
Lemma defs_load_db s source : NoDup (defs (se (fst (load_db s source)))).
Proof.
  unfold load_db. assert (N : NoDup (defs (se (unload s)))) by constructor. revert N. generalize (unload s). clear s. intros s N.
  destruct source as [[l o]|]; [|cbn [fst set_sc se]; rewrite defs_error; exact N].
  assert (A : NoDup (defs (se (acts s l)))) by (apply (defs_do_run s l Crash); exact N).
  revert A. generalize (acts s l). clear. intros s A. destruct o; cbn [fst set_sc se]; rewrite ?defs_error; exact A.
Qed.
Lemma defs_load s source test : NoDup (defs (se (fst (load_database s source test)))).
Proof.
  unfold load_database. generalize (with_files s false false false) as s0. intros s0. pose proof (defs_load_db s0 source) as B. revert B.
  generalize (load_db s0 source). intros [s1 th] B. cbn [fst] in B. destruct th; [exact B|]. destruct (negb (input_errors s1 =? 0)); [exact B|].
  destruct test as [[t l] o]. assert (C : NoDup (defs (se (fst (fst (run_text s1 "RunString" (Some t) l o)))))) by (unfold run_text; rewrite defs_finish; apply defs_body; exact B).
  revert C. generalize (run_text s1 "RunString" (Some t) l o). intros [[s2 r] x] C. destruct r; exact C.
Qed.
Lemma defs_step s p : NoDup (defs (se s)) -> NoDup (defs (se (stepi s p))).
Proof.
  intros N. unfold stepi. destruct p; try exact N; cbn [step].
  - unfold accumulate_line. destruct (clear_acc (sc s)); exact N.
  - unfold run_accumulated. pose proof (defs_body s "RunAccumulated" (Some (acc (sc s))) l o N) as B.
    destruct (run_body s "RunAccumulated" (Some (acc (sc s))) l o) as [[s1 []] t]; exact B.
  - unfold run_text. rewrite defs_finish. apply defs_body. exact N.
  - unfold run_text. rewrite defs_finish. apply defs_body. exact N.
  - pose proof (defs_load s source test) as B. revert B. generalize (load_database s source test). intros [s1 r] B. exact B.
  - destruct (0 <=? n); exact N.
  - destruct (0 <=? cur (se s)); exact N.
  - unfold get_value. destruct (tables _ _); [|exact N].
    destruct (run empty l); [|exact N]. destruct (get t row col) as [[code v]|]; [|exact N]. destruct (code =? VR_OK); exact N.
Qed.
Lemma defs_runs h : NoDup (defs (se (runs created h))).
Proof. induction h as [|p h IH] using rev_ind; [constructor|]. rewrite runs_snoc. apply defs_step. exact IH. Qed.
Definition completed (p : op) : bool :=
  match p with RunAccumulated _ Done | RunString _ _ Done | RunFile (Some _) _ Done => true | _ => false end.
Lemma output_lines_ok h p : completed p = true -> usable h false = true -> let s' := stepi (runs created h) p in
  (out_str (sw s') = true -> out_lines (tx s') = getlines (get_output_string s')) /\
  (log_str (sw s') = true -> log_lines (tx s') = getlines (get_log_string s')) /\
  (str_on (se s') (cur (se s')) = Some true -> In (cur (se s')) (defs (se s')) -> selected_lines s' = getlines (get_selected_string s')).
Proof.
  intros C U. assert (L : loaded (sc (runs created h)) = true) by (rewrite runs_loaded; exact U). pose proof (defs_runs h) as ND. set (s := runs created h) in *.
  assert (B : forall x, loaded (sc x) = true -> NoDup (defs (se x)) -> forall r t l, let s' := fst (fst (run_body x r (Some t) l Done)) in
    snd (fst (run_body x r (Some t) l Done)) = false /\
    (out_str (sw s') = true -> out_lines (tx s') = getlines (out (tx s'))) /\ (log_str (sw s') = true -> log_lines (tx s') = getlines (log (tx s'))) /\
    (str_on (se s') (cur (se s')) = Some true -> In (cur (se s')) (defs (se s')) -> selected_lines s' = getlines (get_selected_string s'))).
  { intros x LX NX r t l. cbv zeta. rewrite body_thrown, LX. split; [reflexivity|]. unfold run_body. cbn [sc clear_results set_tx set_se clear_warnings clear_errors set_rp]. rewrite LX. cbn [negb fst].
    assert (Q0 : quiet (set_errors (clear_results x) 0 0)) by (repeat split; exact NX). destruct (done_lines _ l Q0) as (A1 & A2 & A3 & _). auto. }
  assert (G : forall s' : inst, (out_str (sw s') = true -> out_lines (tx s') = getlines (out (tx s'))) /\ (log_str (sw s') = true -> log_lines (tx s') = getlines (log (tx s'))) /\
    (str_on (se s') (cur (se s')) = Some true -> In (cur (se s')) (defs (se s')) -> selected_lines s' = getlines (get_selected_string s')) ->
    (out_str (sw s') = true -> out_lines (tx s') = getlines (get_output_string s')) /\ (log_str (sw s') = true -> log_lines (tx s') = getlines (get_log_string s')) /\
    (str_on (se s') (cur (se s')) = Some true -> In (cur (se s')) (defs (se s')) -> selected_lines s' = getlines (get_selected_string s'))).
  { intros s' (A1 & A2 & A3). unfold get_output_string, get_log_string. repeat split; auto; intros X; rewrite X; auto. }
  cbv zeta. apply G. unfold stepi. destruct p; try discriminate C; cbn [step] in *.
  - destruct o; try discriminate C. unfold run_accumulated. destruct (B s L ND "RunAccumulated" (acc (sc s)) l) as (T & R).
    destruct (run_body s "RunAccumulated" (Some (acc (sc s))) l Done) as [[s1 th] t]. cbn [fst snd] in *. subst th. exact R.
  - destruct o; try discriminate C. unfold run_text. destruct (B (set_sc s (mkScript (loaded (sc s)) false "")) L ND "RunString" text l) as (T & R).
    destruct (run_body _ "RunString" (Some text) l Done) as [[s1 th] t]. cbn [fst snd] in *. subst th. exact R.
  - destruct text as [text|]; [|discriminate C]. destruct o; try discriminate C. unfold run_text.
    destruct (B (set_sc s (mkScript (loaded (sc s)) false "")) L ND "RunFile" text l) as (T & R).
    destruct (run_body _ "RunFile" (Some text) l Done) as [[s1 th] t]. cbn [fst snd] in *. subst th. exact R.
Qed.

(** ** C28 *)
Definition on (m : zmap bool) (n : Z) : bool := match m n with Some b => b | None => false end.
Lemma step_sel s p : let s' := stepi s p in
  cur (se s') = current_after (cur (se s)) p /\
  (forall n, 0 <= cur (se s) -> on (file_on (se s')) n = match p with SetSelectedFileOn v => if cur (se s) =? n then v else on (file_on (se s)) n | Load _ _ => false | _ => on (file_on (se s)) n end) /\
  (forall n, on (str_on (se s')) n = match p with SetSelectedStringOn v => if cur (se s) =? n then v else on (str_on (se s)) n | Load _ _ => false | _ => on (str_on (se s)) n end).
Proof.
  unfold stepi. destruct p; try (repeat split; fail); cbn [step current_after].
  - unfold accumulate_line. destruct (clear_acc (sc s)); repeat split.
  - destruct (run_acc_frame s l o) as (_ & -> & -> & ->). repeat split.
  - pose proof (same_run_text s "RunString" (Some text) l o) as F. rewrite (f_cur _ _ F), (f_file _ _ F), (f_str _ _ F). repeat split.
  - pose proof (same_run_text s "RunFile" text l o) as F. rewrite (f_cur _ _ F), (f_file _ _ F), (f_str _ _ F). repeat split.
  - pose proof (load_effect s source test) as E. destruct (load_database s source test) as [s1 r]. cbn [fst] in *. destruct E as (_ & _ & _ & -> & -> & ->).
    repeat split; intros n; unfold on; destruct (n =? 1); reflexivity.
  - destruct (0 <=? n) eqn:E; repeat split.
  - cbn [fst]. destruct (0 <=? cur (se s)) eqn:E; repeat split; intros n H; unfold on; cbn; unfold zupd; [|lia].
    rewrite Z.eqb_sym. destruct (cur (se s) =? n); reflexivity.
  - repeat split; intros n; unfold on; cbn; unfold zupd. rewrite Z.eqb_sym. destruct (cur (se s) =? n); reflexivity.
  - unfold get_value. destruct (tables _ _); [|repeat split].
    destruct (run empty l); [|repeat split]. destruct (get t row col) as [[code v]|]; [|repeat split]. destruct (code =? VR_OK); repeat split.
Qed.
Lemma current_nonneg c p : 0 <= c -> 0 <= current_after c p.
Proof. intros N. destruct p; cbn; try exact N; [lia|]. destruct (0 <=? n) eqn:E; lia. Qed.
Lemma runs_sel h : forall s, 0 <= cur (se s) ->
  cur (se (runs s h)) = current h (cur (se s)) /\
  (forall n, on (file_on (se (runs s h))) n = file_switch h (cur (se s)) (on (file_on (se s)) n) n) /\
  (forall n, on (str_on (se (runs s h))) n = string_switch h (cur (se s)) (on (str_on (se s)) n) n).
Proof.
  induction h as [|p h IH]; intros s N; [repeat split|]. unfold runs in *. cbn [fold_left].
  destruct (step_sel s p) as (A & B & C). cbv zeta in A, B, C. destruct (IH (stepi s p)) as (A1 & B1 & C1); [rewrite A; apply current_nonneg; exact N|].
  split; [rewrite A1, A; reflexivity|]. split; intros n.
  - rewrite B1, A, (B n N). destruct p; reflexivity.
  - rewrite C1, A, (C n). destruct p; reflexivity.
Qed.
Lemma file_switch_ok h n : get_sel_out_file_on (runs created h) n = file_switch h 1 false n.
Proof.
  destruct (runs_sel h created) as (_ & B & _); [cbn; lia|]. unfold get_sel_out_file_on. change (on (file_on (se (runs created h))) n = file_switch h 1 false n).
  rewrite B. f_equal. unfold on. cbn. destruct (n =? 1); reflexivity.
Qed.
Lemma string_switch_ok h n : get_sel_out_string_on (runs created h) n = string_switch h 1 false (current h 1).
Proof.
  destruct (runs_sel h created) as (A & _ & C); [cbn; lia|]. unfold get_sel_out_string_on. rewrite A.
  change (on (str_on (se (runs created h))) (current h 1) = string_switch h 1 false (current h 1)).
  rewrite C. f_equal. unfold on. cbn. destruct (current h 1 =? 1); reflexivity.
Qed.
