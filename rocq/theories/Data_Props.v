(** C16-C18 and C53: data files. *)
From Coq Require Import String Ascii List ZArith QArith Bool Lia ZifyBool Sorted Lqa.
From Verif Require Import Calendar_Model Calendar_Spec CStr_Model CNum_Model Qx Elem_Model Elem_Spec Elem_Proofs Pfile_Model Pfile_Spec Pfile_Proofs Ctrl_Model Ctrl_Proofs
  Data_Model Data_Spec Data_Proofs.
Import ListNotations.
Local Open Scope string_scope.
Local Open Scope list_scope.
Local Open Scope Z_scope.

(** * C18: the time of a record *)
(** A line whose six fields are in range is accepted with these fields, the day number and the instant, and the columns
    start after the seconds. *)
Theorem C18_accepted : forall strtod f y m d h mi s rest, reads_integers strtod -> stamped (f_line f) y m d h mi s rest -> fields_ok y m d h mi s ->
  t_year (f_time f) <> 9999 ->
  exists f', extract strtod f = Ret (f', 0) /\ f_line f' = f_line f /\ f_rest f' = f_rest f /\
    (let t := f_time f' in t_year t = y /\ t_month t = m /\ t_day t = d /\ t_hour t = h /\ t_min t = mi /\ t_sec t = s /\
       t_jd t = day_number y m d /\ (t_jt t == instant y m d h mi s)%Q) /\
    substring (f_off f') (String.length (f_line f) - f_off f') (f_line f) = rest.
Proof.
  intros strtod f y m d h mi s rest RI S F Y. rewrite (extract_ok strtod RI f (f_line f) y m d h mi s rest S F eq_refl Y).
  eexists. split; [reflexivity|]. cbn. repeat split; [unfold instant, time_of_day; rewrite !Qmake_Qdiv; reflexivity|]. apply (rest_of _ _ _ _ _ _ _ _ S).
Qed.
Print Assumptions C18_accepted.
(** A line with a year, month, day, hour or minute out of range, or negative seconds, is refused; the file keeps its
    place and the instant of the record before. *)
Theorem C18_refused : forall strtod f y m d h mi s rest, reads_integers strtod -> stamped (f_line f) y m d h mi s rest -> -2147483648 <= s <= 2147483647 ->
  ~ (1800 <= y <= 2100 /\ 1 <= m <= 12 /\ 1 <= d <= 31 /\ 0 <= h <= 24 /\ 0 <= mi <= 59 /\ 0 <= s) -> t_year (f_time f) <> 9999 ->
  exists f' e, extract strtod f = Ret (f', e) /\ e <> 0 /\ f_rest f' = f_rest f /\ t_jt (f_time f') = t_jt (f_time f).
Proof.
  intros strtod f y m d h mi s rest RI S IS N Y. destruct (extract_stamped strtod RI f (f_line f) y m d h mi s rest S IS eq_refl Y) as (f' & e & E & [H|H]); [exfalso; tauto|].
  exists f', e. tauto.
Qed.
Print Assumptions C18_refused.
(** Seconds above 59 are not refused, however large. *)
Theorem C18_seconds_refuted : forall strtod f y m d h mi s rest, reads_integers strtod -> stamped (f_line f) y m d h mi s rest -> fields_ok y m d h mi 0 ->
  60 <= s <= 2147483647 -> t_year (f_time f) <> 9999 -> exists f', extract strtod f = Ret (f', 0) /\ t_sec (f_time f') = s.
Proof.
  intros strtod f y m d h mi s rest RI S (F1 & F2 & F3 & F4 & F5 & _) H Y. destruct (extract_stamped strtod RI f (f_line f) y m d h mi s rest S ltac:(lia) eq_refl Y) as (f' & e & E & [K|K]); [|exfalso; lia].
  destruct K as (_ & _ & _ & _ & _ & _ & -> & ->). eexists. split; [exact E|reflexivity].
Qed.
Print Assumptions C18_seconds_refuted.
(** Nor are days that the month does not have. *)
Theorem C18_calendar_refuted : forall strtod f y h mi s rest, reads_integers strtod -> stamped (f_line f) y 2 30 h mi s rest -> fields_ok y 2 28 h mi s -> t_year (f_time f) <> 9999 ->
  ~ Valid (mkdate y 2 30) /\ exists f', extract strtod f = Ret (f', 0) /\ t_month (f_time f') = 2 /\ t_day (f_time f') = 30.
Proof.
  intros strtod f y h mi s rest RI S (F1 & F2 & F3 & F4 & F5 & F6) Y. split.
  - unfold Valid. cbn [dy dm dd]. intros (_ & _ & H & _). unfold Days_in_month in H. cbn in H. destruct (Leap y); lia.
  - rewrite (extract_ok strtod RI f (f_line f) y 2 30 h mi s rest S) by (auto; unfold fields_ok; lia). eexists. split; [reflexivity|]. auto.
Qed.
Print Assumptions C18_calendar_refuted.
(** A refused record ends the run: the call that finds it is not followed by a step. *)
Theorem C18_stops : forall V strtod (conv : Z -> string -> V * string * bool) start stop init w f bad more y m d h mi s rest, reads_integers strtod ->
  w_files w = [f] -> f_open f = true -> t_year (f_time f) <> 9999 -> f_rest f = bad :: more -> stamped bad y m d h mi s rest -> -2147483648 <= s <= 2147483647 ->
  ~ (1800 <= y <= 2100 /\ 1 <= m <= 12 /\ 1 <= d <= 31 /\ 0 <= h <= 24 /\ 0 <= mi <= 59 /\ 0 <= s) -> (f_off f <= String.length (f_line f))%nat ->
  exists w' c, read_line strtod conv start stop init w = Ret (w', c) /\ c <> 0.
Proof.
  intros V strtod conv start stop init w f bad more y m d h mi s rest RI WF OP Y R ST IS N OFF.
  destruct (extract_stamped strtod RI (mkFile more true bad (f_off f) (f_time f)) bad y m d h mi s rest ST IS eq_refl Y) as (f' & e & E & [H|H]); [exfalso; tauto|]. destruct H as (_ & NE & _).
  assert (L : forall k pt x, w_files x = [f] -> exists w' c, read_loop strtod conv start stop init (S k) pt x = Ret (w', c) /\ c <> 0).
  { intros k pt x XF. cbn [read_loop]. rewrite XF. cbn [with_next List.length choose bind nth_error]. replace (t_year (f_time f) =? 9999) with false by lia.
    destruct (qlt stop _); [do 2 eexists; split; [reflexivity|discriminate]|]. destruct (qle start _).
    - unfold accept. cbv zeta. replace (Nat.ltb (String.length (f_line f)) (f_off f)) with false by (symmetry; apply Nat.ltb_ge; exact OFF).
      destruct (qlt _ _); [do 2 eexists; split; [reflexivity|discriminate]|]. destruct (row conv _ _) as [cols er]. destruct er; [do 2 eexists; split; [reflexivity|discriminate]|].
      unfold advance. rewrite OP, R. rewrite (stamped_nl _ _ _ _ _ _ _ _ ST), E. cbn [bind]. replace (negb (e =? 0)) with true by lia. do 2 eexists. split; [reflexivity|discriminate].
    - unfold advance_early. rewrite OP, R, E. cbn [bind]. replace (e =? 0) with false by lia. do 2 eexists. split; [reflexivity|discriminate]. }
  unfold read_line. cbv zeta. destruct (w_nsteps w =? 0); unfold rounds; apply L; exact WF.
Qed.
Print Assumptions C18_stops.

(** A concrete number reader, for the examples. *)
Definition ex_strtod (s : string) : Q * string * bool := let (v, e) := strtol s in (inject_Z v, e, false).
Definition ex_conv (ty : Z) (s : string) : Z * string * bool := let (v, e) := strtol s in (v, e, false).
Lemma ex_reads : reads_integers ex_strtod.
Proof.
  intros k t v rest T A R. unfold ex_strtod. rewrite (strtol_int k t v rest T (after_stops rest A)). unfold saturate, LONG_MIN, LONG_MAX. rewrite Z.max_r, Z.min_r by lia. reflexivity.
Qed.
Lemma digits_numeral t v : all_digits t = true -> atol t = v -> v < LONG_MAX -> int_text t v.
Proof.
  intros A E L. apply it_plain. apply all_digits_numeral in A. destruct A as [x N]. replace v with x; [exact N|]. pose proof (numeral_pos t x N) as P.
  destruct (Z.le_gt_cases x LONG_MAX) as [B|B]; [rewrite (numeral_atol t x N B) in E; exact E|exfalso].
  revert E L. unfold atol, strtol. pose proof (raw_int 0 t x "" (it_plain _ _ N) I) as R. cbn [blanks append] in R. rewrite app_nil_s in R. rewrite R. unfold saturate, LONG_MIN, LONG_MAX in *. cbn [fst]. lia.
Qed.
Ltac text := apply digits_numeral; [reflexivity|reflexivity|reflexivity].
Example C18_ex : stamped ("1980 10 2 24 0 0  7 8" ++ newline) 1980 10 2 24 0 0 ("  7 8" ++ newline) /\ fields_ok 1980 10 2 24 0 0.
Proof.
  split; [|unfold fields_ok; lia].
  apply (st_intro 0 0 0 0 0 0 "1980" "10" "2" "24" "0" "0" 1980 10 2 24 0 0 ("  7 8" ++ newline)); try text. right. exists (" 7 8" ++ newline)%string. left. reflexivity.
Qed.

(** * C16: the time window *)
(** Whatever the files contain: a call that lets a step happen puts the time inside the window and counts one step; a
    call always ends, with one of four codes; at the end of the data it counts no step, and at a record after the end
    the time is put back. *)
Theorem C16_window : forall V strtod (conv : Z -> string -> V * string * bool) start stop init w w' c,
  read_line strtod conv start stop init w = Ret (w', c) ->
  (c = 0 \/ c = ENDOFDATA \/ c = ENDOFFILE \/ c = ERROR_TIME) /\
  (c = 0 -> (start <= t_jt (w_now w') <= stop)%Q /\ w_nsteps w' = w_nsteps w + 1) /\
  (c = ENDOFFILE -> w_nsteps w' = w_nsteps w) /\
  (c = ENDOFDATA -> w_nsteps w' = w_nsteps w -> w_now w' = w_now w).
Proof.
  intros V strtod conv start stop init w w' c H. unfold read_line in H. cbv zeta in H.
  destruct (Z.eqb_spec (w_nsteps w) 0) as [E|E]; apply loop_total in H; try apply weight_rounds; cbn [w_nsteps w_now] in H; rewrite ?E; tauto.
Qed.
Print Assumptions C16_window.
(** Every step of a run is inside the window, and the counter is the number of steps when the run ends without error. *)
Theorem C16_steps : forall V strtod (conv : Z -> string -> V * string * bool) start stop init w l w' c,
  run strtod conv start stop init w l w' c ->
  Forall (fun s => (start <= t_jt (s_time s) <= stop)%Q) l /\ (c = ENDOFFILE -> w_nsteps w' = w_nsteps w + Z.of_nat (List.length l)).
Proof.
  intros V strtod conv start stop init w l w' c H. induction H as [w w' c H NZ|w w1 l w' c H R [IH1 IH2]].
  - apply C16_window in H. destruct H as (_ & _ & H & _). split; [constructor|]. intros C. specialize (H C). cbn [List.length]. lia.
  - apply C16_window in H. destruct H as (_ & H & _). destruct (H eq_refl) as [A B]. split; [constructor; assumption|]. intros C. specialize (IH2 C). cbn [List.length]. lia.
Qed.
Print Assumptions C16_steps.

(** What a step shows of a record. *)
Definition says {V} (r : @rec V) (s : @step V) : Prop :=
  let t := s_time s in
  t_year t = r_year r /\ t_month t = r_month r /\ t_day t = r_day r /\ t_hour t = r_hour r /\ t_min t = r_min r /\ t_sec t = r_sec r /\
  t_jd t = day r /\ (t_jt t == moment r)%Q /\ s_vals s = r_vals r.
Lemma shows_says {V} (r : @rec V) s : shows r (s_time s) (s_vals s) -> says r s.
Proof. intros [A B]. unfold says. rewrite A. cbn. repeat split; [|exact B]. apply mom_moment. Qed.
Lemma until_single {V} (rs : list (@rec V)) : until_first_ends (map (fun r => (0%nat, r)) rs) = map (fun r => (0%nat, r)) rs.
Proof. induction rs as [|r rs IH]; [reflexivity|]. cbn [map until_first_ends existsb fst Nat.eqb orb]. rewrite IH. reflexivity. Qed.
Lemma snd_single {V} (rs : list (@rec V)) : map snd (map (fun r => (0%nat, r)) rs) = rs.
Proof. induction rs as [|r rs IH]; [reflexivity|]. cbn. rewrite IH. reflexivity. Qed.
Lemma filter_single {V} (rs : list (@rec V)) : filter (fun x : nat * rec => Nat.eqb (fst x) 0) (map (fun r => (0%nat, r)) rs) = map (fun r => (0%nat, r)) rs.
Proof. induction rs as [|r rs IH]; [reflexivity|]. cbn. rewrite IH. reflexivity. Qed.
(** One data file with times in increasing order: the run executes exactly the records inside the window, in order, with
    their times and values; the first step has the initial length, every other the time since the record before; the
    counter is the number of steps; the run ends at the first record after the window, or at the end of the file. *)
Theorem C16_run : forall V strtod (conv : Z -> string -> V * string * bool) start stop init layout junk rs text,
  reads_integers strtod -> Forall (fun x => 1 <= fst x <= 3) layout -> Forall (good conv layout) rs ->
  StronglySorted (fun a b => moment a < moment b)%Q rs -> file_text start rs text -> (115 # 10000000 <= init / 24 <= 1000000)%Q ->
  exists f, open_files strtod junk [text] = Ret ([f], 0) /\
    forall w, w_files w = [f] -> w_nsteps w = 0 -> map (fun c => (k_type c, List.length (k_vals c))) (w_cols w) = layout ->
    exists l w', run strtod conv start stop init w l w' (if existsb (fun r => negb (Qle_bool (moment r) stop)) rs then ENDOFDATA else ENDOFFILE) /\
      Forall2 says (filter (within start stop) rs) l /\ w_nsteps w' = Z.of_nat (List.length l) /\
      Forall2 Qeq (map s_dt l) (match filter (within start stop) rs with [] => [] | r :: more => (init / 24)%Q :: lengths (moment r) more end).
Proof.
  intros V strtod conv start stop init layout junk rs text RI LT G O FT INIT. set (M := map (fun r => (0%nat, r)) rs : @merged V).
  assert (RE : records_of 0 M = rs) by (unfold records_of, M; rewrite filter_single; apply snd_single).
  destruct (whole_run strtod RI conv start stop init layout junk M [text] LT) as (fs & E & LN & H).
  - unfold M. apply Forall_forall. intros x I. apply in_map_iff in I. destruct I as (r & <- & I). rewrite Forall_forall in G. exact (G r I).
  - unfold M, in_order. clear -O. induction O as [|r rs O IH F]; [constructor|]. cbn [map]. constructor; [exact IH|]. rewrite Forall_forall in *. intros x I. apply in_map_iff in I.
    destruct I as (r' & <- & I). split; [exact (F r' I)|]. cbn. congruence.
  - unfold M. apply Forall_forall. intros x I. apply in_map_iff in I. destruct I as (r & <- & _). cbn. lia.
  - discriminate.
  - intros [|[|i]] t N; [injection N as <-; rewrite RE; exact FT|discriminate..].
  - exact INIT.
  - destruct fs as [|f [|g fs]]; try discriminate LN. exists f. split; [exact E|]. intros w WF N0 SH. destruct (H w WF N0 SH) as (l & w' & R & OUT & NS & DT).
    assert (EX : executed start stop M = filter (within start stop) rs) by (unfold executed, M; rewrite until_single, snd_single; reflexivity).
    assert (EN : ends_with stop M = if existsb (fun r => negb (Qle_bool (moment r) stop)) rs then ENDOFDATA else ENDOFFILE).
    { unfold ends_with, M. rewrite until_single. replace (existsb (fun x => negb (Qle_bool (moment (snd x)) stop)) (map (fun r => (0%nat, r)) rs)) with (existsb (fun r => negb (Qle_bool (moment r) stop)) rs); [reflexivity|].
      clear. induction rs as [|r rs IH]; [reflexivity|]. cbn. rewrite IH. reflexivity. }
    rewrite EN in R. rewrite EX in DT. unfold outcome_of in OUT. rewrite EX in OUT. exists l, w'. split; [exact R|]. split; [|split; assumption].
    clear -OUT. induction OUT as [|r0 s0 rs0 l0 S0 OUT IH]; constructor; auto. apply shows_says. exact S0.
Qed.
Print Assumptions C16_run.

(** The step length at a restart: with steps already counted and no time of a step before, the length of the checkpoint
    is kept for the first record. *)
Theorem C16_restart : forall V strtod (conv : Z -> string -> V * string * bool) start stop init w f w', w_files w = [f] -> 0 < w_nsteps w -> w_first w = false ->
  w_prevjt w = (-1)%Q -> (2 <= t_jt (f_time f))%Q -> (start <= t_jt (f_time f))%Q -> read_line strtod conv start stop init w = Ret (w', 0) ->
  w_dt w' = w_dt w /\ w_prevjt w' = t_jt (f_time f) /\ w_nsteps w' = w_nsteps w + 1.
Proof.
  intros V strtod conv start stop init w f w' WF N FI PJ T2 ST H. unfold read_line in H. replace (w_nsteps w =? 0) with false in H by lia. cbv zeta in H. unfold rounds in H.
  cbn [read_loop] in H. rewrite WF, PJ in H. cbn [with_next List.length choose bind nth_error] in H. destruct (t_year (f_time f) =? 9999); [discriminate|].
  rewrite (qle_false (t_jt (f_time f) - -1) (1 # 1000000)) in H by lra. rewrite andb_false_r in H. destruct (qlt stop _); [discriminate|]. rewrite (qle_true start _ ST) in H.
  apply accept_inv in H. cbn [set_now set_files w_now w_first w_prevjt w_dt w_nsteps] in H. destruct H as (_ & _ & _ & NS & _ & H). destruct (H eq_refl) as [P D]. rewrite FI in D.
  destruct D as [_ D]. rewrite (qlt_false (t_jt (f_time f) - -1) _) in D by lra. rewrite (qlt_true (-1) 0) in D by reflexivity. auto.
Qed.
Print Assumptions C16_restart.

Definition ex_time : dtime := mkTime 0 0 0 0 0 0 0 0.
Definition ex_line (y m d h v : string) : string := (y ++ " " ++ m ++ " " ++ d ++ " " ++ h ++ " 0 0 " ++ v ++ newline)%string.
Definition ex_world (fs : list fdata) : @world Z := mkWorld fs ex_time 0 0 0 false ex_time 0 [mkCol "runoff" 1 [0]].
Definition ex_at (y m d h : Z) : Q := instant y m d h 0 0.
Fixpoint ex_steps (k : nat) (start stop : Q) (w : @world Z) : list (Z * Z * Q * list (list Z)) * option Z :=
  match k with
  | O => ([], None)
  | S k => match read_line ex_strtod ex_conv start stop 24 w with
           | Ret (w, 0) => let (l, c) := ex_steps k start stop w in ((t_day (w_now w), t_hour (w_now w), Qred (w_dt w), map k_vals (w_cols w)) :: l, c)
           | Ret (_, c) => ([], Some c)
           | _ => ([], None)
           end
  end.
Definition ex_run (start stop : Q) (files : list (list string)) : list (Z * Z * Q * list (list Z)) * option Z :=
  match open_files ex_strtod ex_time files with Ret (fs, 0) => ex_steps 20 start stop (ex_world fs) | _ => ([], None) end.
Example C16_ex : ex_run (ex_at 1980 10 2 0) (ex_at 1980 10 4 0) [["head"; "####"; ex_line "1980" "10" "1" "0" "5"; ex_line "1980" "10" "2" "0" "6"; ex_line "1980" "10" "3" "12" "7"; ex_line "1980" "10" "5" "0" "8"]]
  = ([(2, 0, 1%Q, [[6]]); (3, 12, (3 # 2)%Q, [[7]])], Some ENDOFDATA).
Proof. vm_compute. reflexivity. Qed.

(** The order of the steps: a file that goes back before the start of the window afterwards runs backwards unnoticed. *)
Theorem C16_order_refuted : exists start stop files,
  ex_run start stop files = ([(12, 0, 1%Q, [[1]]); (11, 0, 6%Q, [[3]])], Some ENDOFFILE).
Proof.
  exists (ex_at 1980 10 10 0), (ex_at 1980 10 20 0), [["####"; ex_line "1980" "10" "12" "0" "1"; ex_line "1980" "10" "5" "0" "2"; ex_line "1980" "10" "11" "0" "3"]]. vm_compute. reflexivity.
Qed.
Print Assumptions C16_order_refuted.
(** A second record at the same time is a step of a whole day. *)
Theorem C16_length_refuted : exists start stop files,
  ex_run start stop files = ([(12, 0, 1%Q, [[1]]); (12, 0, 1%Q, [[2]])], Some ENDOFFILE).
Proof.
  exists (ex_at 1980 10 10 0), (ex_at 1980 10 20 0), [["####"; ex_line "1980" "10" "12" "0" "1"; ex_line "1980" "10" "12" "0" "2"]]. vm_compute. reflexivity.
Qed.
Print Assumptions C16_length_refuted.
(** An empty line that ends the file before the start of the window is an error; later it is the end of the file. *)
Theorem C16_empty_line_refuted : exists start stop r,
  ex_run start stop [["####"; r; newline]] = ([], Some ERROR_TIME) /\ ex_run start stop [["####"; r]] = ([], Some ENDOFFILE).
Proof. exists (ex_at 1980 10 10 0), (ex_at 1980 10 20 0), (ex_line "1980" "10" "5" "0" "2"). split; vm_compute; reflexivity. Qed.
Print Assumptions C16_empty_line_refuted.
(** The counter after an error: the record that found the next one bad is counted but not executed. *)
Theorem C16_count_refuted : exists w w', w_nsteps w = 0 /\ read_line ex_strtod ex_conv (ex_at 1980 10 10 0) (ex_at 1980 10 20 0) 24 w = Ret (w', ERROR_TIME) /\ w_nsteps w' = 1.
Proof.
  exists (ex_world (match open_files ex_strtod ex_time [["####"; ex_line "1980" "10" "12" "0" "1"; ex_line "1980" "13" "12" "0" "1"]] with Ret (fs, _) => fs | _ => [] end)).
  eexists. split; [reflexivity|]. split; [vm_compute; reflexivity|]. reflexivity.
Qed.
Print Assumptions C16_count_refuted.

(** * C17: several files *)
(** Files without a day in common, with times in increasing order, and [M] all their records by time: the run uses the
    records in the order of [M], each once, until the first file has no more; of these it executes those inside the
    window. *)
Theorem C17_merge : forall V strtod (conv : Z -> string -> V * string * bool) start stop init layout junk (M : @merged V) texts,
  reads_integers strtod -> Forall (fun x => 1 <= fst x <= 3) layout -> Forall (fun x => good conv layout (snd x)) M -> in_order M ->
  Forall (fun x => (fst x < List.length texts)%nat) M -> texts <> [] ->
  (forall i t, nth_error texts i = Some t -> file_text start (records_of i M) t) -> (115 # 10000000 <= init / 24 <= 1000000)%Q ->
  exists fs, open_files strtod junk texts = Ret (fs, 0) /\
    forall w, w_files w = fs -> w_nsteps w = 0 -> map (fun c => (k_type c, List.length (k_vals c))) (w_cols w) = layout ->
    exists l w', run strtod conv start stop init w l w' (ends_with stop M) /\ Forall2 says (executed start stop M) l /\
      w_nsteps w' = Z.of_nat (List.length l) /\
      Forall2 Qeq (map s_dt l) (match executed start stop M with [] => [] | r :: more => (init / 24)%Q :: lengths (moment r) more end).
Proof.
  intros V strtod conv start stop init layout junk M texts RI LT G O B NE FT INIT. destruct (whole_run strtod RI conv start stop init layout junk M texts LT G O B NE FT INIT) as (fs & E & _ & H).
  exists fs. split; [exact E|]. intros w WF N0 SH. destruct (H w WF N0 SH) as (l & w' & R & OUT & NS & DT). exists l, w'. split; [exact R|]. split; [|split; assumption].
  unfold outcome_of in OUT. clear -OUT. induction OUT as [|r0 s0 rs0 l0 S0 OUT IH]; constructor; auto. apply shows_says. exact S0.
Qed.
Print Assumptions C17_merge.
(** When the first file has the last record, every record is used. *)
Theorem C17_all_used : forall V (M : @merged V) r, until_first_ends (M ++ [(0%nat, r)]) = M ++ [(0%nat, r)].
Proof.
  intros V M r. induction M as [|x M IH]; [reflexivity|]. cbn [app until_first_ends].
  replace (existsb _ (x :: M ++ [(0%nat, r)])) with true; [rewrite IH; reflexivity|]. symmetry. apply existsb_exists. exists (0%nat, r). split; [right; apply in_or_app; right; left; reflexivity|reflexivity].
Qed.
Print Assumptions C17_all_used.
Example C17_ex : ex_run (ex_at 1980 10 2 0) (ex_at 1980 10 9 0)
  [["####"; ex_line "1980" "10" "1" "0" "1"; ex_line "1980" "10" "4" "0" "4"; ex_line "1980" "10" "8" "0" "8"]; ["note"; "####"; ex_line "1980" "10" "2" "6" "2"; ex_line "1980" "10" "2" "12" "3"; ex_line "1980" "10" "5" "0" "5"; newline]]
  = ([(2, 6, 1%Q, [[2]]); (2, 12, (1 # 4)%Q, [[3]]); (4, 0, (3 # 2)%Q, [[4]]); (5, 0, 1%Q, [[5]]); (8, 0, 3%Q, [[8]])], Some ENDOFFILE).
Proof. vm_compute. reflexivity. Qed.
(** The hypotheses hold of two files with three records. *)
Definition ex_rec (d v : string) (dz vz : Z) : @rec Z := mkRec (ex_line "1980" "10" d "0" v) 1980 10 dz 0 0 0 [[vz]].
Definition ex_M : @merged Z := [(0%nat, ex_rec "1" "5" 1 5); (1%nat, ex_rec "2" "6" 2 6); (0%nat, ex_rec "4" "7" 4 7)].
Lemma ex_good d v dz vz : int_text d dz -> int_text v vz -> 1 <= dz <= 31 -> LONG_MIN <= vz <= LONG_MAX -> good ex_conv [(1, 1%nat)] (ex_rec d v dz vz).
Proof.
  intros D N R VR. exists (" " ++ v ++ newline)%string. split; [|split].
  - change (r_line (ex_rec d v dz vz)) with (blanks 0 ++ "1980" ++ blanks 1 ++ "10" ++ blanks 1 ++ d ++ blanks 1 ++ "0" ++ blanks 1 ++ "0" ++ blanks 1 ++ "0" ++ (" " ++ v ++ newline))%string.
    apply st_intro; try text; [exact D|right; exists (v ++ newline)%string; left; reflexivity].
  - unfold fields_ok. cbn. lia.
  - apply (dl_cons _ 1 1 [] _ [vz] newline); [|constructor]. apply (rd_cons _ 1 0 _ vz newline); [|constructor]. unfold ex_conv.
    pose proof (strtol_int 1 v vz newline N eq_refl) as E. cbn [blanks append] in E |- *. rewrite E.
    replace (saturate vz) with vz by (unfold saturate; lia). reflexivity.
Qed.
Example C17_ex_hyp : Forall (fun x => good ex_conv [(1, 1%nat)] (snd x)) ex_M /\ in_order ex_M /\ Forall (fun x => (fst x < 2)%nat) ex_M /\
  (forall i t, nth_error [["head"; "####"; ex_line "1980" "10" "1" "0" "5"; ex_line "1980" "10" "4" "0" "7"; newline]; ["####"; ex_line "1980" "10" "2" "0" "6"]] i = Some t ->
     file_text (ex_at 1980 10 2 0) (records_of i ex_M) t).
Proof.
  split; [|split; [|split]].
  - repeat (constructor; [apply ex_good; try text; unfold LONG_MIN, LONG_MAX; lia|]). constructor.
  - unfold in_order, ex_M. repeat (constructor; [|repeat (constructor; [split; [reflexivity|cbn; congruence || reflexivity]|]); constructor]). constructor.
  - repeat (constructor; [cbn; lia|]). constructor.
  - intros [|[|[|i]]] t N; try discriminate; injection N as <-.
    + exists ["head"], "####", [newline]. split; [reflexivity|]. split; [repeat constructor|]. split; [reflexivity|]. split; [discriminate|]. right. split; [exists "", []; reflexivity|].
      exists (ex_rec "4" "7" 4 7). split; [right; left; reflexivity|]. vm_compute. discriminate.
    + exists [], "####", []. repeat split; auto; discriminate.
Qed.
(** The end of the first file ends the run, although others have records inside the window. *)
Theorem C17_first_file_refuted : exists start stop a b, (start <= ex_at 1980 10 3 0 <= stop)%Q /\ b = ex_line "1980" "10" "3" "0" "2" /\
  ex_run start stop [["####"; a]; ["####"; b]] = ([(2, 0, 1%Q, [[1]])], Some ENDOFFILE) /\
  ex_run start stop [["####"; b]; ["####"; a]] = ([(2, 0, 1%Q, [[1]]); (3, 0, 1%Q, [[2]])], Some ENDOFFILE).
Proof.
  exists (ex_at 1980 10 1 0), (ex_at 1980 10 9 0), (ex_line "1980" "10" "2" "0" "1"). eexists. split; [split; vm_compute; discriminate|]. split; [reflexivity|]. split; vm_compute; reflexivity.
Qed.
Print Assumptions C17_first_file_refuted.
(** Two files with the same day: the earlier record is dropped. *)
Theorem C17_same_day_refuted : forall strtod c p pj, active c -> active p -> t_jd (f_time p) = t_jd (f_time c) -> (t_jt (f_time p) < t_jt (f_time c))%Q -> f_open p = true -> f_rest p = [] ->
  exists p', with_next strtod [c; p] pj = Ret ([c; p'], 0%nat, t_jt (f_time p)) /\ t_year (f_time p') = 9999.
Proof.
  intros strtod c p pj AC AP J L OP R. cbn [with_next List.length choose nth_error]. replace (t_year (f_time p) =? 9999) with false by (unfold active in AP; lia).
  rewrite J, Z.eqb_refl, qeq_false by (intros X; rewrite X in L; exact (Qlt_irrefl _ L)). rewrite (qlt_true _ _ L). unfold advance. rewrite OP, R. cbn. eexists. split; reflexivity.
Qed.
Print Assumptions C17_same_day_refuted.
(** After the end of the first file, a record of its last day read from another file is undefined behaviour. *)
Definition ex_storm : @world Z := ex_world (match open_files ex_strtod ex_time
  [["####"; ex_line "1980" "10" "2" "0" "1"]; ["####"; ex_line "1980" "10" "2" "6" "2"; ex_line "1980" "10" "2" "12" "3"]] with Ret (fs, 0) => fs | _ => [] end).
Theorem C17_crash_refuted : exists w, read_line ex_strtod ex_conv (ex_at 1980 10 1 0) (ex_at 1980 10 9 0) 24 ex_storm = Ret (w, 0) /\
  read_line ex_strtod ex_conv (ex_at 1980 10 1 0) (ex_at 1980 10 9 0) 24 w = UB.
Proof.
  exists (match read_line ex_strtod ex_conv (ex_at 1980 10 1 0) (ex_at 1980 10 9 0) 24 ex_storm with Ret (w, _) => w | _ => ex_storm end). split; vm_compute; reflexivity.
Qed.
Print Assumptions C17_crash_refuted.

(** * C53: the columns of a data file *)
(** A header of comments, empty lines and variables with their numbers of columns is read as exactly these variables. *)
Theorem C53_header : forall V var_type (junk : V) info items ls hash data, (0 < String.length info < 80)%nat -> Forall2 head_line items ls -> prefix "####" hash = true -> data <> [] ->
  Forall (fun e => var_type (fst e) <> None) (entries items) ->
  exists cols, read_datainfo var_type junk (info :: ls ++ hash :: data) = Ret (cols, 0) /\
    map (fun c => (k_name c, List.length (k_vals c))) cols = entries items /\ Forall (fun c => var_type (k_name c) = Some (k_type c)) cols.
Proof.
  intros V var_type junk info items ls hash data L H HA D A. exists (map (column_of var_type junk) (entries items)). split; [|split].
  - unfold read_datainfo, fgets_n. cbn [lines eof]. replace (Nat.ltb (String.length info) 80) with true by (symmetry; apply Nat.ltb_lt; lia). cbn [lines].
    assert (DL : exists x, drop_last info = Some x).
    { destruct info as [|c s]; [cbn in L; lia|]. clear. revert c. induction s as [|d s IH]; intros c; [eexists; reflexivity|]. cbn [drop_last]. destruct (IH d) as [x E]. cbn [drop_last] in E. rewrite E. eexists. reflexivity. }
    destruct DL as [x ->]. exact (header_ok var_type junk hash data HA D items ls [] H A).
  - rewrite map_map. rewrite <- (map_id (entries items)) at 2. apply map_ext. intros [n c]. unfold column_of. cbn. rewrite repeat_length. reflexivity.
  - rewrite Forall_forall in *. intros c I. apply in_map_iff in I. destruct I as (e & <- & I). specialize (A e I). unfold column_of. cbn. destruct (var_type (fst e)); [reflexivity|congruence].
Qed.
Print Assumptions C53_header.
(** A variable that is not declared is refused. *)
Theorem C53_undeclared : forall V var_type (junk : V) info items ls name n l more, (0 < String.length info < 80)%nat -> Forall2 head_line items ls ->
  Forall (fun e => var_type (fst e) <> None) (entries items) -> head_line (Entry name n) l -> var_type name = None ->
  exists cols, read_datainfo var_type junk (info :: ls ++ l :: more) = Ret (cols, 4).
Proof.
  intros V var_type junk info items ls name n l more L H A HL VT. unfold read_datainfo, fgets_n. cbn [lines eof]. replace (Nat.ltb (String.length info) 80) with true by (symmetry; apply Nat.ltb_lt; lia). cbn [lines].
  assert (DL : exists x, drop_last info = Some x).
  { destruct info as [|c s]; [cbn in L; lia|]. clear. revert c. induction s as [|d s IH]; intros c; [eexists; reflexivity|]. cbn [drop_last]. destruct (IH d) as [x E]. cbn [drop_last] in E. rewrite E. eexists. reflexivity. }
  destruct DL as [x ->]. generalize ([] : list (@column V)) as acc. revert A. induction H as [|i y items ls HI H IH]; intros A acc.
  - exists acc. exact (header_undeclared var_type junk name n l more acc HL VT).
  - cbn [app]. destruct i as [t| |nm k].
    + inversion HI; subst. cbn [header append]. change (hashes (String "/" (String "/" t))) with false. replace (prefix "//" (String "/" (String "/" t))) with true by (destruct t; reflexivity). apply IH. exact A.
    + inversion HI; subst. apply (IH A acc).
    + inversion A as [|? ? A1 A2]; subst. cbn [fst] in A1. destruct (var_type nm) as [ty|] eqn:VN; [|congruence]. rewrite (header_entry var_type junk nm k y _ acc ty HI VN). apply IH. exact A2.
Qed.
Print Assumptions C53_undeclared.
(** The variables stay the same during the run. *)
Theorem C53_names : forall V strtod (conv : Z -> string -> V * string * bool) start stop init w l w' c, run strtod conv start stop init w l w' c -> map k_name (w_cols w') = map k_name (w_cols w).
Proof.
  assert (X : forall V strtod (conv : Z -> string -> V * string * bool) start stop init w w' c, read_line strtod conv start stop init w = Ret (w', c) -> map k_name (w_cols w') = map k_name (w_cols w)).
  { intros V strtod conv start stop init w w' c H. unfold read_line in H. cbv zeta in H. apply loop_names in H. destruct (w_nsteps w =? 0); exact H. }
  intros V strtod conv start stop init w l w' c H. induction H as [w w' c H _|w w1 l w' c H R IH]; apply X in H; congruence.
Qed.
Print Assumptions C53_names.
(** A module asking for a variable gets the values of its columns; it gets an error when the variable is not in the file
    or has another number of columns there. *)
Theorem C53_delivered : forall V var_type (cols : list (@column V)) i c size, NoDup (map k_name cols) -> nth_error cols i = Some c -> var_type (k_name c) <> None ->
  readvar var_type cols (k_name c) size = if Nat.eqb (List.length (k_vals c)) size then Some (k_vals c) else None.
Proof.
  intros V var_type cols i c size ND N D. unfold readvar. destruct (var_type (k_name c)); [|congruence]. replace (find _ cols) with (Some c); [reflexivity|]. symmetry. revert i N.
  induction cols as [|x cols IH]; intros i N; [destruct i; discriminate|]. inversion ND as [|? ? X ND2]; subst. cbn [find]. destruct i as [|i]; [injection N as ->; rewrite String.eqb_refl; reflexivity|].
  destruct (String.eqb_spec (k_name x) (k_name c)) as [E|]; [|exact (IH ND2 i N)]. elim X. rewrite E. apply in_map. exact (nth_error_In cols i N).
Qed.
Print Assumptions C53_delivered.
Theorem C53_absent : forall V var_type (cols : list (@column V)) name size, ~ In name (map k_name cols) -> readvar var_type cols name size = None.
Proof.
  intros V var_type cols name size N. unfold readvar. destruct (var_type name); [|reflexivity]. replace (find _ cols) with (@None (@column V)); [reflexivity|]. symmetry.
  induction cols as [|x cols IH]; [reflexivity|]. cbn [find]. destruct (String.eqb_spec (k_name x) name) as [E|]; [elim N; left; exact E|]. apply IH. intros I. apply N. right. exact I.
Qed.
Print Assumptions C53_absent.
(** With several files the variables are those of the last header, whatever the others say. *)
Theorem C53_several_refuted : forall V var_type (junk : V) a b cols cols', read_datainfo var_type junk a = Ret (cols, 0) -> read_datainfo var_type junk b = Ret (cols', 0) ->
  read_info var_type junk [a; b] [] = Ret (cols', 0).
Proof. intros V var_type junk a b cols cols' A B. cbn [read_info]. rewrite A. cbn [bind]. rewrite Z.eqb_refl, B. reflexivity. Qed.
Print Assumptions C53_several_refuted.
(** A first line of 80 characters or more is cut, and its rest is read as a variable. *)
Theorem C53_title_refuted : forall V var_type (junk : V) info rest more name, String.length info = 79%nat -> rest = (name ++ newline)%string -> word name -> prefix "//" name = false -> prefix "####" name = false -> var_type (name ++ newline)%string = None ->
  read_datainfo var_type junk ((info ++ rest)%string :: more) = Ret ([], 4).
Proof.
  intros V var_type junk info rest more name L -> (NE & W1 & W2) P1 P2 VT. rewrite free_nochar in W1, W2. unfold read_datainfo, fgets_n. cbn [lines eof]. rewrite len_app_s, L.
  replace (Nat.ltb (79 + String.length (name ++ newline)) 80) with false by (symmetry; apply Nat.ltb_ge; rewrite len_app_s; cbn; lia). cbn [lines].
  assert (PRE : forall a b, substring 0 (String.length a) (a ++ b)%string = a) by (induction a as [|c a IH]; intros b; [destruct b; reflexivity|]; cbn [String.length append substring]; rewrite IH; reflexivity).
  replace (79 + String.length (name ++ newline) - (80 - 1))%nat with (String.length (name ++ newline)) by lia. replace (80 - 1)%nat with (String.length info) by lia. rewrite PRE, substring_rest.
  assert (DL : exists x, drop_last info = Some x).
  { destruct info as [|c s]; [cbn in L; lia|]. clear. revert c. induction s as [|d s IH]; intros c; [eexists; reflexivity|]. cbn [drop_last]. destruct (IH d) as [x E]. cbn [drop_last] in E. rewrite E. eexists. reflexivity. }
  destruct DL as [x ->]. cbn [header]. unfold hashes, newline. rewrite (prefix_sep "####" name "010" "" eq_refl), P2, (prefix_sep "//" name "010" "" eq_refl), P1.
  replace (Nat.leb (String.length (name ++ String "010" "")) 1) with false by (symmetry; apply Nat.leb_gt; rewrite len_app_s; destruct name; [congruence|cbn; lia]).
  unfold strtok. rewrite (gap_word name "" _ W1 W2). change ("" ++ name)%string with name. cbn [strtok_from]. change (is_gap "010") with false. cbv iota.
  destruct (String.eqb_spec (name ++ String "010" "")%string "") as [E|_]; [destruct name; discriminate|]. unfold newline in VT. rewrite VT. reflexivity.
Qed.
Print Assumptions C53_title_refuted.
Example C53_ex : read_datainfo (fun n => if String.eqb n "runoff" then Some 2 else if String.eqb n "tmax" then Some 2 else None) 0
    ["Title" ++ newline; "// a comment" ++ newline; newline; "runoff 2" ++ newline; "  tmax  1 degrees" ++ newline; "####" ++ newline; "1980 10 1 0 0 0 1 2 3" ++ newline]%string
  = Ret ([mkCol "runoff" 2 [0; 0]; mkCol "tmax" 2 [0]], 0).
Proof. reflexivity. Qed.
