(** Proofs about data files. *)
From Coq Require Import String Ascii List ZArith QArith Qround Bool Lia ZifyBool Sorted Lqa.
From Verif Require Import Calendar_Model CStr_Model CNum_Model Qx Elem_Model Elem_Spec Elem_Proofs Pfile_Model Pfile_Spec Pfile_Proofs Ctrl_Model Ctrl_Proofs
  Data_Model Data_Spec.
Import ListNotations.
Local Open Scope string_scope.
Local Open Scope list_scope.
Local Open Scope Z_scope.

(** * Reading integers *)
Definition stops (rest : string) : Prop := match rest with EmptyString => True | String c _ => digit c = None end.
Lemma after_stops rest : after rest -> stops rest.
Proof. intros [-> | [r [-> | ->]]]; exact I || reflexivity. Qed.
Lemma digits_rest : forall s acc l rest, digs s = Some l -> stops rest -> digits acc (s ++ rest)%string = (val acc l, rest).
Proof.
  induction s as [|c s IH]; intros acc l rest D R.
  - injection D as <-. cbn [append val]. destruct rest as [|c r]; [reflexivity|]. cbn [digits]. cbn in R. rewrite R. reflexivity.
  - cbn [digs] in D. destruct (digit c) as [d|] eqn:E; [|discriminate]. destruct (digs s) as [l'|] eqn:E2; [|discriminate]. injection D as <-.
    cbn [append digits]. rewrite E, (IH _ l' rest eq_refl R). reflexivity.
Qed.
Lemma udigits_rest s v rest : numeral s v -> stops rest -> udigits (s ++ rest)%string = Some (v, rest).
Proof.
  intros N R. destruct (numeral_digs s v N) as (l & D & L & ->). destruct s as [|c s]; [injection D as <-; congruence|].
  cbn [digs] in D. destruct (digit c) as [d|] eqn:E; [|discriminate]. destruct (digs s) as [l'|] eqn:E2; [|discriminate]. injection D as <-.
  cbn [append udigits]. rewrite E, (digits_rest s d l' rest E2 R). cbn [val]. repeat f_equal; lia.
Qed.
Lemma skip_blanks_s k s : skip_space (blanks k ++ s)%string = skip_space s.
Proof. induction k as [|k IH]; [reflexivity|exact IH]. Qed.
Lemma numeral_head s v : numeral s v -> exists c r d, s = String c r /\ digit c = Some d.
Proof.
  intros N. destruct (numeral_digs s v N) as (l & D & L & _). destruct s as [|c s]; [injection D as <-; congruence|].
  cbn [digs] in D. destruct (digit c) as [d|] eqn:E; [|discriminate]. eauto.
Qed.
Lemma raw_int k t v rest : int_text t v -> stops rest -> strtol_raw (blanks k ++ t ++ rest)%string = (v, rest).
Proof.
  intros T R. unfold strtol_raw. rewrite skip_blanks_s. destruct T as [s v N|s v N].
  - pose proof (udigits_rest s v rest N R) as U. destruct (numeral_head s v N) as (c & r & d & -> & D). cbn [append] in *.
    assert (SP : is_space c = false) by (destruct (digit_inv c d D) as (n & Hn & -> & _); do 10 (destruct n as [|n]; [reflexivity|]); lia).
    assert (NS : c <> "-"%char /\ c <> "+"%char) by (split; intros ->; discriminate D).
    cbn [skip_space]. rewrite SP. destruct NS as [N1 N2].
    destruct c as [[] [] [] [] [] [] [] []]; try rewrite U; try reflexivity; congruence.
  - cbn [append skip_space]. change (is_space "-") with false. cbn match. rewrite (udigits_rest s v rest N R). reflexivity.
Qed.
Lemma strtol_int k t v rest : int_text t v -> stops rest -> strtol (blanks k ++ t ++ rest)%string = (saturate v, rest).
Proof. intros T R. unfold strtol. rewrite (raw_int k t v rest T R). reflexivity. Qed.
Lemma erange_int k t v rest : int_text t v -> stops rest -> strtol_erange (blanks k ++ t ++ rest)%string = ((v <? LONG_MIN) || (LONG_MAX <? v))%bool.
Proof. intros T R. unfold strtol_erange. rewrite (raw_int k t v rest T R). reflexivity. Qed.
Lemma blanks_stop k s : stops (blanks (S k) ++ s)%string.
Proof. reflexivity. Qed.

(** * EXTRACT_time *)
Definition clock (y m d h mi s : Z) : dtime :=
  mkTime y m d h mi s (day_number y m d) (inject_Z (day_number y m d) + time_of_day h mi s)%Q.
Lemma saturate_out lo hi v : LONG_MIN < lo -> hi < LONG_MAX -> (saturate v <? lo) || (hi <? saturate v) = (v <? lo) || (hi <? v).
Proof. unfold saturate. intros A B. lia. Qed.
Lemma saturate_in lo hi v : LONG_MIN < lo -> hi < LONG_MAX -> lo <= v <= hi -> saturate v = v.
Proof. unfold saturate. intros A B. lia. Qed.
Lemma julday_some_year y m d : 1800 <= y -> exists j, julday (mkdate y m d) = Some j.
Proof. intros H. unfold julday. cbn [dy dm dd]. replace (y =? 0) with false by lia. destruct (IGREG <=? _); eexists; reflexivity. Qed.
Lemma julian_clock y m d h mi s jd jt : 1800 <= y -> set_julian (mkTime y m d h mi s jd jt) = clock y m d h mi s.
Proof.
  intros H. destruct (julday_some_year y m d H) as [j E]. unfold set_julian, clock, day_number, julday_jt. cbn [t_year t_month t_day t_hour t_min t_sec].
  rewrite E. reflexivity.
Qed.
Lemma trunc_int v : trunc (inject_Z v) = v.
Proof. unfold trunc. destruct (qle 0 (inject_Z v)); [apply Qfloor_Z|apply Qceiling_Z]. Qed.

Section Extract.
Variable strtod : string -> Q * string * bool.
Hypothesis RI : reads_integers strtod.
Ltac bounds := unfold LONG_MIN, LONG_MAX, INT_LO, INT_HI in *; lia.
Ltac field0 T := first [rewrite (strtol_int _ _ _ _ T) by (try apply blanks_stop; assumption)].
Ltac erg T := rewrite (erange_int _ _ _ _ T) by (try apply blanks_stop; assumption).
Lemma extract_stamped f line y m d h mi s rest : stamped line y m d h mi s rest -> -2147483648 <= s <= 2147483647 ->
  f_line f = line -> t_year (f_time f) <> 9999 ->
  exists f' e, extract strtod f = Ret (f', e) /\
    (1800 <= y <= 2100 /\ 1 <= m <= 12 /\ 1 <= d <= 31 /\ 0 <= h <= 24 /\ 0 <= mi <= 59 /\ 0 <= s /\
       e = 0 /\ f' = mkFile (f_rest f) (f_open f) line (String.length line - String.length rest) (clock y m d h mi s) \/
     ~ (1800 <= y <= 2100 /\ 1 <= m <= 12 /\ 1 <= d <= 31 /\ 0 <= h <= 24 /\ 0 <= mi <= 59 /\ 0 <= s) /\ e <> 0 /\
       f_rest f' = f_rest f /\ f_open f' = f_open f /\ f_line f' = f_line f /\ f_off f' = f_off f /\ t_jt (f_time f') = t_jt (f_time f) /\ t_jd (f_time f') = t_jd (f_time f)).
Proof.
  intros S IS L Y9. destruct S as [k0 k1 k2 k3 k4 k5 ty tm td th ti ts y m d h mi s rest Ty Tm Td Th Ti Ts A].
  unfold extract. replace (t_year (f_time f) =? 9999) with false by lia. rewrite L. pose proof (after_stops rest A) as SR.
  field0 Ty. rewrite (saturate_out 1800 2100) by bounds. destruct ((y <? 1800) || (2100 <? y)) eqn:B1;
    [do 2 eexists; split; [reflexivity|]; right; split; [lia|]; split; [lia|]; repeat split; first [reflexivity|exact L]|].
  rewrite (saturate_in 1800 2100) by bounds. erg Ty. replace ((y <? LONG_MIN) || (LONG_MAX <? y)) with false by bounds.
  field0 Tm. rewrite (saturate_out 1 12) by bounds. destruct ((m <? 1) || (12 <? m)) eqn:B2;
    [do 2 eexists; split; [reflexivity|]; right; split; [lia|]; split; [lia|]; repeat split; first [reflexivity|exact L]|].
  rewrite (saturate_in 1 12) by bounds. erg Tm. replace ((m <? LONG_MIN) || (LONG_MAX <? m)) with false by bounds.
  field0 Td. rewrite (saturate_out 1 31) by bounds. destruct ((d <? 1) || (31 <? d)) eqn:B3;
    [do 2 eexists; split; [reflexivity|]; right; split; [lia|]; split; [lia|]; repeat split; first [reflexivity|exact L]|].
  rewrite (saturate_in 1 31) by bounds. erg Td. replace ((d <? LONG_MIN) || (LONG_MAX <? d)) with false by bounds.
  field0 Th. rewrite (saturate_out 0 24) by bounds. destruct ((h <? 0) || (24 <? h)) eqn:B4;
    [do 2 eexists; split; [reflexivity|]; right; split; [lia|]; split; [lia|]; repeat split; first [reflexivity|exact L]|].
  rewrite (saturate_in 0 24) by bounds. erg Th. replace ((h <? LONG_MIN) || (LONG_MAX <? h)) with false by bounds.
  field0 Ti. rewrite (saturate_out 0 59) by bounds. destruct ((mi <? 0) || (59 <? mi)) eqn:B5;
    [do 2 eexists; split; [reflexivity|]; right; split; [lia|]; split; [lia|]; repeat split; first [reflexivity|exact L]|].
  rewrite (saturate_in 0 59) by bounds. erg Ti. replace ((mi <? LONG_MIN) || (LONG_MAX <? mi)) with false by bounds.
  rewrite (RI (S k5) ts s rest Ts A IS). cbv zeta. rewrite trunc_int. replace ((s <? INT_LO) || (INT_HI <? s)) with false by bounds.
  replace (59 <? mi) with false by lia. rewrite orb_false_r. destruct (s <? 0) eqn:B6;
    [do 2 eexists; split; [reflexivity|]; right; split; [lia|]; split; [lia|]; repeat split; first [reflexivity|exact L]|].
  do 2 eexists. split; [reflexivity|]. left. repeat split; try lia. f_equal.
  unfold set_year, set_month, set_day, set_hour, set_min, set_sec. cbn [t_year t_month t_day t_hour t_min t_sec t_jd t_jt]. apply julian_clock. lia.
Qed.
Lemma extract_ok f line y m d h mi s rest : stamped line y m d h mi s rest -> fields_ok y m d h mi s -> f_line f = line -> t_year (f_time f) <> 9999 ->
  extract strtod f = Ret (mkFile (f_rest f) (f_open f) line (String.length line - String.length rest) (clock y m d h mi s), 0).
Proof.
  intros S (F1 & F2 & F3 & F4 & F5 & F6) L Y. destruct (extract_stamped f line y m d h mi s rest S ltac:(lia) L Y) as (f' & e & E & [H|H]); [|exfalso; lia].
  destruct H as (_ & _ & _ & _ & _ & _ & -> & ->). exact E.
Qed.
End Extract.

(** * Every call of read_line ends *)
Definition wt (f : fdata) : nat := if f_open f then S (length (f_rest f)) else 0%nat.
Definition weight (fs : list fdata) : nat := fold_right (fun f n => (wt f + n)%nat) 0%nat fs.
Lemma weight_rounds fs : (weight fs < rounds fs)%nat.
Proof. unfold rounds, weight. induction fs as [|f fs IH]; cbn [fold_right] in *; [lia|]. unfold wt at 1. destruct (f_open f); lia. Qed.
Lemma put_weight : forall fs i f f', nth_error fs i = Some f -> (weight (put_file fs i f') + wt f = weight fs + wt f')%nat.
Proof.
  induction fs as [|g fs IH]; intros i f f' H; [destruct i; discriminate|]. destruct i as [|i].
  - injection H as ->. unfold put_file, weight. cbn. lia.
  - specialize (IH i f f' H). unfold put_file, weight in *. cbn [firstn skipn app fold_right] in *. lia.
Qed.
Lemma put_length : forall (fs : list fdata) i f f', nth_error fs i = Some f -> length (put_file fs i f') = length fs.
Proof.
  induction fs as [|g fs IH]; intros i f f' H; [destruct i; discriminate|]. destruct i as [|i]; [reflexivity|].
  specialize (IH i f f' H). unfold put_file in *. cbn [firstn skipn app length] in *. lia.
Qed.
Lemma put_nth_same : forall fs i f f', nth_error fs i = Some f -> nth_error (put_file fs i f') i = Some f'.
Proof.
  induction fs as [|g fs IH]; intros i f f' H; [destruct i; discriminate|]. destruct i as [|i]; [reflexivity|].
  specialize (IH i f f' H). unfold put_file in *. cbn [firstn skipn app nth_error] in *. exact IH.
Qed.
Lemma put_nth_other : forall fs i j f f', nth_error fs i = Some f -> i <> j -> nth_error (put_file fs i f') j = nth_error fs j.
Proof.
  induction fs as [|g fs IH]; intros i j f f' H N; [destruct i; discriminate|]. destruct i as [|i], j as [|j]; try congruence; try reflexivity.
  specialize (IH i j f f' H). unfold put_file in *. cbn [firstn skipn app nth_error] in *. apply IH. congruence.
Qed.
Lemma extract_frame strtod f f' e : extract strtod f = Ret (f', e) -> f_rest f' = f_rest f /\ f_open f' = f_open f /\ f_line f' = f_line f.
Proof.
  unfold extract. repeat (lazymatch goal with
    | |- (if ?b then _ else _) = _ -> _ => destruct b
    | |- (let (_, _) := ?p in _) = _ -> _ => destruct p
    | |- match ?p with (_, _) => _ end = _ -> _ => destruct p end; cbv zeta);
  intros H; try discriminate; injection H as <- <-; auto.
Qed.
Lemma advance_weight strtod f f' e : advance strtod f = Ret (f', e) -> (wt f' < wt f)%nat.
Proof.
  unfold advance, wt. destruct (f_open f); [|discriminate]. destruct (f_rest f) as [|l r].
  - intros H. injection H as <- <-. cbn. lia.
  - destruct (prefix nl l); [intros H; injection H as <- <-; cbn; lia|]. intros H. apply extract_frame in H. destruct H as (-> & -> & _). cbn. lia.
Qed.
Lemma early_weight strtod f f' e : advance_early strtod f = Ret (f', e) -> (wt f' < wt f)%nat.
Proof.
  unfold advance_early, wt. destruct (f_open f); [|discriminate]. destruct (f_rest f) as [|l r];
  intros H; apply extract_frame in H; destruct H as (-> & -> & _); cbn; lia.
Qed.
Lemma choose_weight strtod : forall k fs cur i pj fs' m pj', choose strtod k fs cur i pj = Ret (fs', m, pj') -> (weight fs' <= weight fs)%nat.
Proof.
  induction k as [|k IH]; intros fs cur i pj fs' m pj' H; cbn [choose] in H; [injection H as <- <- <-; lia|].
  destruct (nth_error fs cur) as [c|] eqn:C; [|discriminate]. destruct (nth_error fs i) as [p|] eqn:P; [|discriminate].
  destruct (t_year (f_time p) =? 9999); [exact (IH _ _ _ _ _ _ _ H)|].
  destruct (t_jd (f_time p) =? t_jd (f_time c)); [|destruct (t_jd (f_time p) <? t_jd (f_time c)); exact (IH _ _ _ _ _ _ _ H)].
  destruct (qeq _ _); [exact (IH _ _ _ _ _ _ _ H)|]. destruct (qlt _ _).
  - destruct (advance strtod p) as [[p' e]| |] eqn:A; try discriminate. cbn [bind fst] in H. apply IH in H. apply advance_weight in A. pose proof (put_weight fs i p p' P). lia.
  - destruct (advance strtod c) as [[c' e]| |] eqn:A; try discriminate. cbn [bind fst] in H. apply IH in H. apply advance_weight in A. pose proof (put_weight fs cur c c' C). lia.
Qed.
Section Loop.
Context {V : Type}.
Variable strtod : string -> Q * string * bool.
Variable conv : Z -> string -> V * string * bool.
Variables start stop init : Q.
Notation read_loop := (read_loop strtod conv start stop init).
Notation read_line := (read_line strtod conv start stop init).
Notation accept := (accept strtod conv init).
Definition codes (c : Z) : Prop := c = 0 \/ c = ENDOFDATA \/ c = ENDOFFILE \/ c = ERROR_TIME.
Lemma accept_inv w cur f w' c : accept w cur f = Ret (w', c) ->
  codes c /\ c <> ENDOFFILE /\ w_now w' = w_now w /\ w_nsteps w' = w_nsteps w + 1 /\ w_first w' = false /\
  (c = 0 -> w_prevjt w' = t_jt (w_now w) /\
    (let pj := if w_first w then (t_jt (w_now w) - init / 24)%Q else w_prevjt w in
     (pj <= t_jt (w_now w))%Q /\ w_dt w' = (if qlt (t_jt (w_now w) - pj) (115 # 10000000) then 1%Q else if qlt pj 0 then w_dt w else (t_jt (w_now w) - pj)%Q))).
Proof.
  unfold accept. cbv zeta. set (pj := if w_first w then _ else _). cbn [w_now w_prevjt w_dt w_nsteps w_first w_files w_cols w_next w_dtnext].
  destruct (Nat.ltb _ _); [discriminate|]. destruct (qlt (t_jt (w_now w)) pj) eqn:E.
  { intros H. injection H as <- <-. cbn. unfold codes, ENDOFFILE, ERROR_TIME. repeat split; auto; lia. }
  destruct (row conv (w_cols w) _) as [cols er]. destruct er.
  { intros H. injection H as <- <-. cbn. unfold codes, ENDOFFILE, ENDOFDATA. repeat split; auto; lia. }
  destruct (advance strtod f) as [[f' e]| |]; try discriminate. cbn [bind]. destruct (negb (e =? 0)).
  { intros H. injection H as <- <-. cbn. unfold codes, ENDOFFILE, ERROR_TIME. repeat split; auto; lia. }
  apply qlt_f in E. destruct (f_open f'); intros H; injection H as <- <-; cbn; unfold codes, ENDOFFILE; repeat split; auto; lia.
Qed.
Lemma loop_total : forall k pt w w' c, (weight (w_files w) < k)%nat -> read_loop k pt w = Ret (w', c) ->
  codes c /\ (c = 0 -> (start <= t_jt (w_now w') <= stop)%Q /\ w_nsteps w' = w_nsteps w + 1) /\
  (c = ENDOFFILE -> w_nsteps w' = w_nsteps w) /\ (w_nsteps w' = w_nsteps w -> c = ENDOFDATA -> w_now w' = pt).
Proof.
  induction k as [|k IH]; intros pt w w' c K H; [lia|]. cbn [Data_Model.read_loop] in H.
  destruct (with_next strtod (w_files w) (w_prevjt w)) as [[[fs cur] pj]| |] eqn:N; try discriminate. cbn [bind] in H.
  assert (W : (weight fs <= weight (w_files w))%nat).
  { unfold with_next in N. destruct (w_files w) as [|f0 fr]; [discriminate|]. exact (choose_weight _ _ _ _ _ _ _ _ _ N). }
  destruct (nth_error fs cur) as [f|] eqn:F; [|discriminate].
  destruct (t_year (f_time f) =? 9999).
  { injection H as <- <-. unfold codes, ENDOFDATA, ENDOFFILE. cbn. repeat split; auto; lia. }
  remember (if qlt pj 0 && qle (t_jt (f_time f) - pj) (1 # 1000000) then inject_Z (t_jd (w_now (set_files w fs pj))) else pj) as pj2 eqn:P2. clear P2.
  cbn [w_now set_now set_files w_files w_prevjt w_nsteps] in H.
  destruct (qlt stop (t_jt (f_time f))) eqn:E1.
  { injection H as <- <-. unfold codes, ENDOFDATA, ENDOFFILE. cbn. repeat split; auto; lia. }
  destruct (qle start (t_jt (f_time f))) eqn:E2.
  { apply accept_inv in H. cbn in H. destruct H as (H1 & H2 & H3 & H4 & H5 & H6). split; [exact H1|]. split; [|split; [congruence|lia]].
    intros _. rewrite H3. cbn. split; [split; [exact (qle_t _ _ E2)|exact (qlt_f _ _ E1)]|exact H4]. }
  destruct (advance_early strtod f) as [[f' e]| |] eqn:A; try discriminate. cbn [bind] in H. destruct (e =? 0).
  - apply IH in H; [exact H|]. cbn [w_files set_files]. apply early_weight in A. pose proof (put_weight fs cur f f' F). lia.
  - injection H as <- <-. unfold codes, ENDOFDATA, ENDOFFILE, ERROR_TIME. cbn. repeat split; auto; lia.
Qed.
(** More rounds change nothing once the loop returns. *)
Lemma loop_more : forall k pt w w' c, read_loop k pt w = Ret (w', c) -> c <> -1 -> forall k', (k <= k')%nat -> read_loop k' pt w = Ret (w', c).
Proof.
  induction k as [|k IH]; intros pt w w' c H C k' K; [cbn in H; congruence|]. destruct k' as [|k']; [lia|]. cbn [Data_Model.read_loop] in *.
  destruct (with_next strtod (w_files w) (w_prevjt w)) as [[[fs cur] pj]| |]; try discriminate. cbn [bind] in *.
  destruct (nth_error fs cur) as [f|]; [|discriminate]. destruct (t_year (f_time f) =? 9999); [exact H|].
  destruct (qlt stop _); [exact H|]. destruct (qle start _); [exact H|].
  destruct (advance_early strtod f) as [[f' e]| |]; try discriminate. cbn [bind] in *. destruct (e =? 0); [|exact H]. apply IH; [exact H|exact C|lia].
Qed.
Definition prepared (w : @world V) : world := if w_nsteps w =? 0
  then mkWorld (w_files w) (w_now w) 1 (w_dt w) 0 true (w_next w) (w_dtnext w) (w_cols w) else w.
Lemma line_of_loop k w w' c : read_loop k (w_now w) (prepared w) = Ret (w', c) -> c <> -1 -> read_line w = Ret (w', c).
Proof.
  intros H C. unfold read_line. change (if w_nsteps w =? 0 then _ else w) with (prepared w). cbv zeta.
  replace (w_now (prepared w)) with (w_now w) by (unfold prepared; destruct (w_nsteps w =? 0); reflexivity).
  remember (rounds (w_files (prepared w))) as n eqn:EN. pose proof (weight_rounds (w_files (prepared w))) as W.
  pose proof (loop_more k _ _ _ _ H C (k + n) ltac:(lia)) as H1.
  assert (T : exists r, read_loop n (w_now w) (prepared w) = r /\ forall w2, r <> Ret (w2, -1)).
  { eexists. split; [reflexivity|]. intros w2 X. apply loop_total in X; [|lia]. destruct X as [X _]. unfold codes, ENDOFDATA, ENDOFFILE, ERROR_TIME in X. lia. }
  destruct T as (r & R & NR).
  assert (G : forall a b pt x r', read_loop a pt x = r' -> (forall w2, r' <> Ret (w2, -1)) -> read_loop (b + a) pt x = r').
  { clear. induction a as [|a IH]; intros b pt x r' E N; [cbn in E; elim (N x); auto|]. replace (b + S a)%nat with (S (b + a)) by lia. cbn [Data_Model.read_loop] in *.
    destruct (with_next strtod (w_files x) (w_prevjt x)) as [[[fs cur] pj]| |]; [|exact E..]. cbn [bind] in *.
    destruct (nth_error fs cur) as [f|]; [|exact E]. destruct (t_year (f_time f) =? 9999); [exact E|].
    destruct (qlt stop _); [exact E|]. destruct (qle start _); [exact E|].
    destruct (advance_early strtod f) as [[f' e]| |]; [|exact E..]. cbn [bind] in *. destruct (e =? 0); [|exact E]. apply IH; [exact E|exact N]. }
  specialize (G n k (w_now w) (prepared w) r R NR). rewrite G in H1. rewrite <- H1. exact R.
Qed.
End Loop.

(** * Choosing the next file *)
Definition active (f : fdata) : Prop := t_year (f_time f) <> 9999.
Lemma choose_min strtod fs pj : (forall a b fa fb, a <> b -> nth_error fs a = Some fa -> nth_error fs b = Some fb -> active fa -> active fb -> t_jd (f_time fa) <> t_jd (f_time fb)) ->
  forall k cur i c, nth_error fs cur = Some c -> active c -> (cur < i)%nat -> (i + k <= length fs)%nat ->
  exists m fm, choose strtod k fs cur i pj = Ret (fs, m, pj) /\ nth_error fs m = Some fm /\ active fm /\ t_jd (f_time fm) <= t_jd (f_time c) /\
    (forall j fj, (i <= j < i + k)%nat -> nth_error fs j = Some fj -> active fj -> t_jd (f_time fm) <= t_jd (f_time fj)).
Proof.
  intros D. induction k as [|k IH]; intros cur i c C A L K; [exists cur, c; cbn; repeat split; auto; try lia; intros; lia|].
  cbn [choose]. rewrite C. destruct (nth_error fs i) as [p|] eqn:P; [|apply nth_error_None in P; lia].
  assert (STEP : forall cur' c', nth_error fs cur' = Some c' -> active c' -> (cur' < S i)%nat -> t_jd (f_time c') <= t_jd (f_time c) ->
      (active p -> t_jd (f_time c') <= t_jd (f_time p)) ->
      exists m fm, choose strtod k fs cur' (S i) pj = Ret (fs, m, pj) /\ nth_error fs m = Some fm /\ active fm /\ t_jd (f_time fm) <= t_jd (f_time c) /\
        (forall j fj, (i <= j < i + S k)%nat -> nth_error fs j = Some fj -> active fj -> t_jd (f_time fm) <= t_jd (f_time fj))).
  { intros cur' c' C' A' L' J1 J2. destruct (IH cur' (S i) c' C' A' L' ltac:(lia)) as (m & fm & E & M1 & M2 & M3 & M4). exists m, fm. repeat split; auto; [lia|].
    intros j fj J F AF. destruct (Nat.eq_dec j i) as [->|NE]; [rewrite P in F; injection F as <-; specialize (J2 AF); lia|apply (M4 j fj); auto; lia]. }
  destruct (t_year (f_time p) =? 9999) eqn:E9; [apply (STEP cur c); auto; try lia; intros X; unfold active in X; lia|].
  assert (AP : active p) by (unfold active; lia).
  assert (NE : t_jd (f_time p) <> t_jd (f_time c)) by (apply (D i cur p c); auto; lia). replace (t_jd (f_time p) =? t_jd (f_time c)) with false by lia.
  destruct (t_jd (f_time p) <? t_jd (f_time c)) eqn:LT; [apply (STEP i p); auto; lia|apply (STEP cur c); auto; lia].
Qed.
Lemma choose_stay strtod fs pj c cur : nth_error fs cur = Some c -> (forall p fp, nth_error fs p = Some fp -> active fp -> t_jd (f_time c) < t_jd (f_time fp)) ->
  forall k i, (i + k <= length fs)%nat -> choose strtod k fs cur i pj = Ret (fs, cur, pj).
Proof.
  intros C D. induction k as [|k IH]; intros i K; [reflexivity|]. cbn [choose]. rewrite C. destruct (nth_error fs i) as [p|] eqn:P; [|apply nth_error_None in P; lia].
  destruct (t_year (f_time p) =? 9999) eqn:E9; [apply IH; lia|]. assert (AP : active p) by (unfold active; lia). specialize (D i p P AP).
  replace (t_jd (f_time p) =? t_jd (f_time c)) with false by lia. replace (t_jd (f_time p) <? t_jd (f_time c)) with false by lia. apply IH. lia.
Qed.

(** * Times *)
Definition mom {V} (r : @rec V) : Q := t_jt (clock (r_year r) (r_month r) (r_day r) (r_hour r) (r_min r) (r_sec r)).
Lemma mom_moment {V} (r : @rec V) : (mom r == moment r)%Q.
Proof. unfold mom, moment, instant, clock, time_of_day. cbn [t_jt]. rewrite !Qmake_Qdiv. reflexivity. Qed.
Lemma mom_int {V} (r : @rec V) : exists n : Z, (mom r == n # 86400)%Q.
Proof.
  unfold mom, clock, time_of_day. cbn [t_jt]. set (j := day_number _ _ _). exists (86400 * j + 3600 * r_hour r + 60 * r_min r + r_sec r).
  unfold Qeq, Qplus, inject_Z. cbn [Qnum Qden]. lia.
Qed.
Lemma mom_gap {V} (a b : @rec V) : (mom a < mom b)%Q -> (1 # 86400 <= mom b - mom a)%Q.
Proof.
  destruct (mom_int a) as [x X], (mom_int b) as [y Y]. rewrite X, Y. unfold Qlt, Qle, Qminus, Qplus, Qopp. cbn [Qnum Qden]. lia.
Qed.
Lemma day_pos y m d : 1800 <= y <= 2100 -> 1 <= m <= 12 -> 1 <= d -> 2000000 <= day_number y m d.
Proof.
  intros Y M D. unfold day_number, julday. cbn [dy dm dd]. replace (y =? 0) with false by lia. replace (y <? 0) with false by lia.
  assert (G : IGREG <= d + 31 * (m + 12 * y)) by (unfold IGREG; lia). apply Z.leb_le in G. rewrite G. clear G.
  set (jy := if 2 <? m then y else y - 1). set (jm := if 2 <? m then m + 1 else m + 13).
  assert (J1 : 1799 <= jy <= 2100) by (subst jy; destruct (2 <? m); lia). assert (J2 : 0 <= jm) by (subst jm; destruct (2 <? m); lia). clearbody jy jm.
  assert (Q1 : 0 <= Z.quot jy 100 <= 21) by (rewrite Z.quot_div_nonneg by lia; split; [apply Z.div_pos; lia|apply Z.lt_succ_r, Z.div_lt_upper_bound; lia]).
  assert (Q2 : 0 <= Z.quot (Z.quot jy 100) 4) by (apply Z.quot_pos; lia).
  assert (Q3 : 0 <= 306001 * jm / 10000) by (apply Z.div_pos; lia).
  assert (Q4 : 600000 <= 1461 * jy / 4) by (apply Z.div_le_lower_bound; lia). lia.
Qed.
Lemma mom_pos {V} (r : @rec V) : fields_ok (r_year r) (r_month r) (r_day r) (r_hour r) (r_min r) (r_sec r) -> (2000000 <= mom r)%Q.
Proof.
  intros (A & B & C & D & E & F). pose proof (day_pos (r_year r) (r_month r) (r_day r) A B ltac:(lia)) as P. unfold mom, clock, time_of_day. cbn [t_jt].
  set (j := day_number _ _ _) in *. unfold Qle, Qplus, inject_Z. cbn [Qnum Qden]. lia.
Qed.

(** * The text of a record *)
Lemma stamped_split line y m d h mi s rest : stamped line y m d h mi s rest -> exists pre, line = (pre ++ rest)%string.
Proof.
  intros [k0 k1 k2 k3 k4 k5 ty tm td th ti ts y' m' d' h' mi' s' rest' _ _ _ _ _ _ _].
  exists (blanks k0 ++ ty ++ blanks (S k1) ++ tm ++ blanks (S k2) ++ td ++ blanks (S k3) ++ th ++ blanks (S k4) ++ ti ++ blanks (S k5) ++ ts)%string.
  rewrite !app_assoc_s. reflexivity.
Qed.
Lemma substring_all s : substring 0 (String.length s) s = s.
Proof. induction s as [|c s IH]; [reflexivity|]. cbn [String.length substring]. rewrite IH. reflexivity. Qed.
Lemma substring_rest pre rest : substring (String.length pre) (String.length rest) (pre ++ rest)%string = rest.
Proof. induction pre as [|c pre IH]; [apply substring_all|]. exact IH. Qed.
Lemma rest_of line y m d h mi s rest : stamped line y m d h mi s rest ->
  let off := (String.length line - String.length rest)%nat in
  Nat.ltb (String.length line) off = false /\ substring off (String.length line - off) line = rest.
Proof.
  intros S. destruct (stamped_split _ _ _ _ _ _ _ _ S) as [pre ->]. cbv zeta. rewrite len_app_s.
  replace (String.length pre + String.length rest - String.length rest)%nat with (String.length pre) by lia. split; [apply Nat.ltb_ge; lia|].
  replace (String.length pre + String.length rest - String.length pre)%nat with (String.length rest) by lia. apply substring_rest.
Qed.
Lemma stamped_nl line y m d h mi s rest : stamped line y m d h mi s rest -> prefix nl line = false.
Proof.
  intros [k0 k1 k2 k3 k4 k5 ty tm td th ti ts y' m' d' h' mi' s' rest' T _ _ _ _ _ _]. destruct k0 as [|k0]; [|reflexivity]. cbn [blanks append].
  destruct T as [t v N|t v N]; [|reflexivity]. destruct (numeral_head t v N) as (c & r & x & -> & D). cbn [append prefix nl].
  destruct (ascii_dec NL c) as [<-|]; [discriminate D|reflexivity].
Qed.

Section Files.
Context {V : Type}.
Variable strtod : string -> Q * string * bool.
Hypothesis RI : reads_integers strtod.
Variable conv : Z -> string -> V * string * bool.
Variables start stop init : Q.
Variable layout : list (Z * nat).
Notation rec := (@rec V).
Notation world := (@world V).
Notation good := (good conv layout).
Notation advance := (advance strtod).
Definition rclock (r : rec) : dtime := clock (r_year r) (r_month r) (r_day r) (r_hour r) (r_min r) (r_sec r).
Definition current (tail : list string) (f : fdata) (r : rec) (rs : list rec) : Prop := exists rest,
  stamped (r_line r) (r_year r) (r_month r) (r_day r) (r_hour r) (r_min r) (r_sec r) rest /\ delivers conv layout rest (r_vals r) /\
  f = mkFile (map r_line rs ++ tail) true (r_line r) (String.length (r_line r) - String.length rest) (rclock r).
Definition pending (tail : list string) (f : fdata) (rs : list rec) : Prop :=
  match rs with [] => t_year (f_time f) = 9999 | r :: rs => current tail f r rs end.
Definition tail_ok (tail : list string) : Prop := tail = [] \/ exists e more, tail = (newline ++ e)%string :: more.
Lemma good_year r : good r -> t_year (rclock r) <> 9999.
Proof. intros (rest & _ & (Y & _) & _). cbn. lia. Qed.
Lemma extract_good ls l off t r : good r -> l = r_line r -> t_year t <> 9999 ->
  exists rest, stamped (r_line r) (r_year r) (r_month r) (r_day r) (r_hour r) (r_min r) (r_sec r) rest /\ delivers conv layout rest (r_vals r) /\
  extract strtod (mkFile ls true l off t) = Ret (mkFile ls true (r_line r) (String.length (r_line r) - String.length rest) (rclock r), 0).
Proof.
  intros (rest & S & F & D) -> Y. exists rest. split; [exact S|]. split; [exact D|].
  exact (extract_ok strtod RI (mkFile ls true (r_line r) off t) (r_line r) _ _ _ _ _ _ rest S F eq_refl Y).
Qed.
Lemma advance_pending tail f r rs : tail_ok tail -> good r -> Forall good rs -> current tail f r rs ->
  exists f', advance f = Ret (f', 0) /\ pending tail f' rs /\ (rs = [] -> t_jd (f_time f') = day r).
Proof.
  intros T G GS (rest & S & D & ->). unfold Data_Model.advance. cbn [f_open f_rest f_off f_time]. destruct rs as [|r2 rs].
  - cbn [map app]. destruct T as [-> | (e & more & ->)].
    + eexists. split; [reflexivity|]. split; [reflexivity|intros _; reflexivity].
    + replace (prefix nl (newline ++ e)%string) with true by (destruct e; reflexivity). eexists. split; [reflexivity|]. split; [reflexivity|intros _; reflexivity].
  - inversion GS as [|? ? G2 GS2]; subst. cbn [map app]. destruct G2 as (rest2 & S2 & F2 & D2). rewrite (stamped_nl _ _ _ _ _ _ _ _ S2).
    destruct (extract_good (map r_line rs ++ tail) (r_line r2) (String.length (r_line r) - String.length rest) (rclock r) r2) as (rest3 & S3 & D3 & E3).
    { exists rest2. auto. } { reflexivity. } { apply good_year. exact G. }
    rewrite E3. eexists. split; [reflexivity|]. split; [exists rest3; auto|discriminate].
Qed.
Lemma early_pending tail f r rs : (rs = [] -> tail = []) -> good r -> Forall good rs -> current tail f r rs ->
  exists f', advance_early strtod f = Ret (f', 0) /\ pending tail f' rs /\ (rs = [] -> t_jd (f_time f') = day r).
Proof.
  intros T G GS (rest & S & D & ->). unfold advance_early. cbn [f_open f_rest f_off f_time]. destruct rs as [|r2 rs].
  - rewrite (T eq_refl). cbn [map app]. eexists. split; [reflexivity|]. split; [reflexivity|intros _; reflexivity].
  - inversion GS as [|? ? G2 GS2]; subst. cbn [map app].
    destruct (extract_good (map r_line rs ++ tail) (r_line r2) (String.length (r_line r) - String.length rest) (rclock r) r2 G2 eq_refl (good_year r G)) as (rest3 & S3 & D3 & E3).
    rewrite E3. eexists. split; [reflexivity|]. split; [exists rest3; auto|discriminate].
Qed.

(** * The columns *)
Definition shape (c : @column V) : Z * nat := (k_type c, length (k_vals c)).
Lemma cells_reads ty : forall n p vs p1, reads conv ty n p vs p1 -> forall old, length old = n -> cells conv ty old p = (vs, p1, false).
Proof.
  induction 1 as [p|n p v p1 vs p2 C R IH]; intros old L; (destruct old as [|o old]; try discriminate L); [reflexivity|].
  cbn [cells]. rewrite C, (IH old) by (cbn in L; lia). reflexivity.
Qed.
Lemma reads_length ty n p vs p1 : reads conv ty n p vs p1 -> length vs = n.
Proof. induction 1; cbn; congruence. Qed.
Lemma row_delivers : forall l p vss, delivers conv l p vss -> Forall (fun x => 1 <= fst x <= 3) l -> forall cols, map shape cols = l ->
  exists cols', row conv cols p = (cols', false) /\ map k_vals cols' = vss /\ map shape cols' = l /\ map k_name cols' = map k_name cols.
Proof.
  induction 1 as [p|ty n l p vs p1 vss R D IH]; intros F cols M; (destruct cols as [|c cols]; try discriminate M).
  - exists []. auto.
  - inversion F as [|? ? T F2]; subst. cbn in M. injection M as M1 M2 M3. destruct (IH F2 cols M3) as (cols' & E & K & S & N).
    cbn [row]. replace (converted (k_type c)) with true by (unfold converted; cbn in T; lia). rewrite M1, (cells_reads ty n p vs p1 R (k_vals c) M2), E.
    eexists. split; [reflexivity|]. cbn. rewrite K, S, N. unfold shape. cbn. rewrite (reads_length _ _ _ _ _ R). auto.
Qed.

(** * The files of a merged list of records *)
Variable tails : nat -> list string.
Definition ready (M : @merged V) (fs : list fdata) : Prop :=
  (forall i f, nth_error fs i = Some f -> pending (tails i) f (records_of i M) /\ (records_of i M = [] -> forall x, In x M -> t_jd (f_time f) < day (snd x))) /\
  Forall (fun x => (fst x < length fs)%nat) M /\ Forall (fun x => good (snd x)) M /\ in_order M.
Lemma records_in i (M : @merged V) r : In r (records_of i M) <-> In (i, r) M.
Proof.
  unfold records_of. rewrite in_map_iff. split.
  - intros ([j x] & <- & I). apply filter_In in I. destruct I as [I E]. cbn in E. apply Nat.eqb_eq in E. cbn. subst j. exact I.
  - intros I. exists (i, r). split; [reflexivity|]. apply filter_In. split; [exact I|]. cbn. apply Nat.eqb_refl.
Qed.
Lemma order_days (M : @merged V) : in_order M -> forall x y, In x M -> In y M -> fst x <> fst y -> day (snd x) <> day (snd y).
Proof.
  induction 1 as [|z M S IH F]; intros x y X Y N; [destruct X|]. rewrite Forall_forall in F. destruct X as [<-|X], Y as [<-|Y]; [congruence| | |apply IH; auto].
  - destruct (F y Y) as [_ D]. specialize (D N). lia.
  - destruct (F x X) as [_ D]. specialize (D ltac:(congruence)). lia.
Qed.
Lemma head_jd tail f (rs : list rec) : pending tail f rs -> active f -> exists r rs', rs = r :: rs' /\ t_jd (f_time f) = day r /\ current tail f r rs'.
Proof.
  intros P A. destruct rs as [|r rs]; [elim A; exact P|]. exists r, rs. split; [reflexivity|]. split; [|exact P]. destruct P as (rest & _ & _ & ->). reflexivity.
Qed.
Lemma current_active tail f r rs : good r -> current tail f r rs -> active f.
Proof. intros G (rest & _ & _ & ->). exact (good_year r G). Qed.
Lemma next_is_head i r M fs pj : ready ((i, r) :: M) fs -> existsb (fun y => Nat.eqb (fst y) 0) ((i, r) :: M) = true ->
  with_next strtod fs pj = Ret (fs, i, pj) /\ exists f, nth_error fs i = Some f /\ current (tails i) f r (records_of i M).
Proof.
  intros (P & B & G & O) Z. set (MM := (i, r) :: M) in *.
  assert (GI : forall j x, In (j, x) MM -> good x) by (intros j x I; rewrite Forall_forall in G; exact (G (j, x) I)).
  assert (LI : forall j x, In (j, x) MM -> exists f, nth_error fs j = Some f).
  { intros j x I. rewrite Forall_forall in B. specialize (B (j, x) I). cbn in B. destruct (nth_error fs j) eqn:E; [eauto|apply nth_error_None in E; lia]. }
  assert (HI : records_of i MM = r :: records_of i M) by (unfold records_of, MM; cbn [filter fst]; rewrite Nat.eqb_refl; reflexivity).
  assert (AJ : forall j f, nth_error fs j = Some f -> active f -> exists x, In (j, x) MM /\ t_jd (f_time f) = day x).
  { intros j f F A. destruct (P j f F) as [PF _]. destruct (head_jd _ _ _ PF A) as (x & rs & E & J & _). exists x. split; [|exact J].
    apply records_in. rewrite E. left. reflexivity. }
  destruct (LI i r (or_introl eq_refl)) as [fi FI]. destruct (P i fi FI) as [PI _]. rewrite HI in PI. cbn in PI.
  assert (AI : active fi) by (apply (current_active _ _ _ _ (GI i r (or_introl eq_refl)) PI)).
  assert (JI : t_jd (f_time fi) = day r) by (destruct PI as (rest & _ & _ & ->); reflexivity).
  split; [|eauto].
  assert (A0 : exists f0, nth_error fs 0 = Some f0 /\ active f0).
  { apply existsb_exists in Z. destruct Z as ([j x] & I & E). cbn in E. apply Nat.eqb_eq in E. subst j. destruct (LI 0%nat x I) as [f0 F0]. exists f0. split; [exact F0|].
    destruct (P 0%nat f0 F0) as [P0 _]. apply records_in in I. destruct (records_of 0 MM) as [|r0 rs0] eqn:R0; [destruct I|].
    apply (current_active (tails 0%nat) f0 r0 rs0); [|exact P0]. apply (GI 0%nat). apply records_in. rewrite R0. left. reflexivity. }
  destruct A0 as (f0 & F0 & A0). destruct fs as [|g fr]; [discriminate|]. unfold with_next.
  destruct (choose_min strtod (g :: fr) pj) with (k := length fr) (cur := 0%nat) (i := 1%nat) (c := f0) as (m & fm & E & FM & AM & J0 & JJ).
  { intros a b fa fb N FA FB AA AB. destruct (AJ a fa FA AA) as (x & IX & ->). destruct (AJ b fb FB AB) as (y & IY & ->). exact (order_days MM O (a, x) (b, y) IX IY N). }
  { exact F0. } { exact A0. } { lia. } { cbn. lia. }
  rewrite E. replace m with i; [reflexivity|]. destruct (Nat.eq_dec i m) as [|NE]; [assumption|exfalso].
  destruct (AJ m fm FM AM) as (x & IX & JX).
  assert (LT : day r < day x).
  { destruct IX as [IX|IX]; [congruence|]. inversion O as [|? ? O1 O2]; subst. rewrite Forall_forall in O2. destruct (O2 (m, x) IX) as [_ D]. apply D. cbn. congruence. }
  destruct i as [|i]; [rewrite F0 in FI; injection FI as ->; lia|].
  assert (LE : t_jd (f_time fm) <= t_jd (f_time fi)) by (apply (JJ (S i) fi); auto; assert (X : nth_error (g :: fr) (S i) <> None) by congruence; apply nth_error_Some in X; cbn in X; lia). lia.
Qed.
Lemma next_ended M fs pj : fs <> [] -> ready M fs -> existsb (fun y => Nat.eqb (fst y) 0) M = false ->
  exists f, with_next strtod fs pj = Ret (fs, 0%nat, pj) /\ nth_error fs 0 = Some f /\ t_year (f_time f) = 9999.
Proof.
  intros NE (P & B & G & O) Z. destruct fs as [|f0 fr]; [congruence|]. destruct (P 0%nat f0 eq_refl) as [P0 D0].
  assert (R0 : records_of 0 M = []).
  { destruct (records_of 0 M) as [|r rs] eqn:E; [reflexivity|]. assert (I : In (0%nat, r) M) by (apply records_in; rewrite E; left; reflexivity).
    assert (X : existsb (fun y => Nat.eqb (fst y) 0) M = true) by (apply existsb_exists; exists (0%nat, r); auto). congruence. }
  exists f0. rewrite R0 in P0. split; [|split; [reflexivity|exact P0]]. unfold with_next. apply choose_stay with (c := f0); [reflexivity| |cbn; lia].
  intros p fp FP AP. destruct (P p fp FP) as [PP _]. destruct (head_jd _ _ _ PP AP) as (x & rs & E & -> & _). apply (D0 R0 (p, x)). apply records_in. rewrite E. left. reflexivity.
Qed.
Lemma ready_next i r M fs f f' : ready ((i, r) :: M) fs -> nth_error fs i = Some f -> pending (tails i) f' (records_of i M) ->
  (records_of i M = [] -> t_jd (f_time f') = day r) -> ready M (put_file fs i f').
Proof.
  intros (P & B & G & O) F PF J. inversion B as [|? ? B1 B2]; inversion G as [|? ? G1 G2]; inversion O as [|? ? O1 O2]; subst.
  split; [|split; [rewrite (put_length fs i f f' F); exact B2|split; [exact G2|exact O1]]].
  intros j g N. destruct (Nat.eq_dec i j) as [<-|NE].
  - rewrite (put_nth_same fs i f f' F) in N. injection N as <-. split; [exact PF|]. intros E x I. rewrite (J E). rewrite Forall_forall in O2.
    destruct (O2 x I) as [_ D]. apply D. cbn. intros EQ. destruct x as [a x]. cbn in EQ. subst a. apply records_in in I. rewrite E in I. destruct I.
  - rewrite (put_nth_other fs i j f f' F NE) in N. destruct (P j g N) as [P1 P2].
    assert (RJ : records_of j ((i, r) :: M) = records_of j M) by (unfold records_of; cbn [filter fst]; apply Nat.eqb_neq in NE; rewrite NE; reflexivity).
    rewrite RJ in *. split; [exact P1|]. intros E x I. apply (P2 E). right. exact I.
Qed.

(** * A record inside the window *)
Variable LT : Forall (fun x => 1 <= fst x <= 3) layout.
Notation read_loop := (read_loop strtod conv start stop init).
Notation read_line := (read_line strtod conv start stop init).
Notation run := (run strtod conv start stop init).
Definition shows (r : rec) (t : dtime) (vals : list (list V)) : Prop := t = rclock r /\ vals = r_vals r.
Lemma accept_good (w : world) i f r rs pj : tail_ok (tails i) -> good r -> Forall good rs -> current (tails i) f r rs -> nth_error (w_files w) i = Some f ->
  map shape (w_cols w) = layout -> w_now w = f_time f -> pj = (if w_first w then (mom r - init / 24)%Q else w_prevjt w) ->
  (0 <= pj)%Q -> (115 # 10000000 <= mom r - pj)%Q ->
  exists w' f', accept strtod conv init w i f = Ret (w', 0) /\ w_files w' = put_file (w_files w) i f' /\ pending (tails i) f' rs /\ (rs = [] -> t_jd (f_time f') = day r) /\
    w_now w' = rclock r /\ w_prevjt w' = mom r /\ w_dt w' = (mom r - pj)%Q /\ w_nsteps w' = w_nsteps w + 1 /\ w_first w' = false /\
    map k_vals (w_cols w') = r_vals r /\ map shape (w_cols w') = layout /\ map k_name (w_cols w') = map k_name (w_cols w).
Proof.
  intros T G GS C F SH NOW PJ P0 P1. destruct (advance_pending (tails i) f r rs T G GS C) as (f' & A & PF & J).
  destruct C as (rest & S & D & ->). destruct (rest_of _ _ _ _ _ _ _ _ S) as [O1 O2]. destruct (row_delivers layout rest (r_vals r) D LT (w_cols w) SH) as (cols & R & KV & KS & KN).
  unfold accept. cbv zeta. rewrite NOW. cbn [f_time f_line f_off]. change (t_jt (rclock r)) with (mom r). rewrite <- PJ.
  cbn [w_files w_now w_prevjt w_dt w_nsteps w_first w_cols w_next w_dtnext]. rewrite O1, O2.
  rewrite (qlt_false (mom r) pj) by lra. rewrite R. rewrite (qlt_false (mom r - pj) _ P1). rewrite (qlt_false pj 0 P0). rewrite A. cbn [bind].
  change (negb (0 =? 0)) with false. cbn match. destruct (f_open f'); eexists; exists f'; (split; [reflexivity|]); cbn; repeat split; auto.
Qed.
Lemma records_good (M : @merged V) i : Forall (fun x => good (snd x)) M -> Forall good (records_of i M).
Proof. intros G. rewrite Forall_forall in *. intros r I. apply records_in in I. exact (G (i, r) I). Qed.
Lemma qle_mom a (r : rec) : Qle_bool a (moment r) = qle a (mom r).
Proof. unfold qle. apply Bool.eq_iff_eq_true. rewrite !Qle_bool_iff, mom_moment. reflexivity. Qed.
Lemma qle_mom_r a (r : rec) : Qle_bool (moment r) a = qle (mom r) a.
Proof. unfold qle. apply Bool.eq_iff_eq_true. rewrite !Qle_bool_iff, mom_moment. reflexivity. Qed.
Lemma order_mom (M : @merged V) x : in_order (x :: M) -> forall y, In y M -> (mom (snd x) < mom (snd y))%Q.
Proof. intros O y I. inversion O as [|? ? O1 O2]; subst. rewrite Forall_forall in O2. destruct (O2 y I) as [L _]. rewrite !mom_moment. exact L. Qed.
Lemma until_in (M : @merged V) x : In x (until_first_ends M) -> In x M.
Proof. induction M as [|y M IH]; [auto|]. cbn [until_first_ends]. destruct (existsb _ _); [|intros []]. intros [<-|I]; [left; reflexivity|right; apply IH, I]. Qed.
Lemma until_more x (M : @merged V) : existsb (fun y => Nat.eqb (fst y) 0) (x :: M) = true -> until_first_ends (x :: M) = x :: until_first_ends M.
Proof. intros E. cbn [until_first_ends]. rewrite E. reflexivity. Qed.
Lemma until_none (M : @merged V) : existsb (fun y => Nat.eqb (fst y) 0) M = false -> until_first_ends M = [].
Proof. destruct M as [|x M]; [reflexivity|]. intros E. cbn [until_first_ends]. rewrite E. reflexivity. Qed.
Lemma executed_none (M : @merged V) : (forall x, In x M -> (stop < mom (snd x))%Q) -> executed start stop M = [].
Proof.
  intros H. unfold executed. assert (X : forall l : list (nat * rec), (forall x, In x l -> (stop < mom (snd x))%Q) -> filter (within start stop) (map snd l) = []).
  { induction l as [|x l IH]; intros K; [reflexivity|]. cbn. unfold within at 1. rewrite qle_mom_r, (qle_false (mom (snd x)) stop) by (apply K; left; reflexivity).
    rewrite andb_false_r. apply IH. intros y I. apply K. right. exact I. }
  apply X. intros x I. apply H, until_in, I.
Qed.
Lemma order_tail x (M : @merged V) : in_order (x :: M) -> in_order M.
Proof. intros O. inversion O; assumption. Qed.
Lemma ready_ne i r M fs : ready ((i, r) :: M) fs -> fs <> [].
Proof. intros (_ & B & _) ->. inversion B as [|? ? B1 _]. cbn in B1. lia. Qed.

(** What one round does with the next record. *)
Lemma round_end k pt w M : w_files w <> [] -> ready M (w_files w) -> existsb (fun y => Nat.eqb (fst y) 0) M = false ->
  exists w', read_loop (S k) pt w = Ret (w', ENDOFFILE) /\ w_nsteps w' = w_nsteps w /\ w_now w' = w_now w.
Proof.
  intros NE R Z. destruct (next_ended M (w_files w) (w_prevjt w) NE R Z) as (f & N & F & Y). cbn [Data_Model.read_loop]. rewrite N. cbn [bind]. rewrite F, Y. cbn.
  eexists. split; [reflexivity|]. auto.
Qed.
Lemma round_late k pt w i r M : ready ((i, r) :: M) (w_files w) -> existsb (fun y => Nat.eqb (fst y) 0) ((i, r) :: M) = true -> (stop < mom r)%Q ->
  exists w', read_loop (S k) pt w = Ret (w', ENDOFDATA) /\ w_nsteps w' = w_nsteps w /\ w_now w' = pt.
Proof.
  intros R Z L. destruct (next_is_head i r M (w_files w) (w_prevjt w) R Z) as (N & f & F & C). destruct R as (_ & _ & G & _). inversion G as [|? ? G1 G2]; subst.
  pose proof (good_year r G1) as Y. destruct C as (rest & _ & _ & EF). assert (TF : f_time f = rclock r) by (rewrite EF; reflexivity).
  cbn [Data_Model.read_loop]. rewrite N. cbn [bind]. rewrite F, TF. replace (t_year (rclock r) =? 9999) with false by lia.
  change (t_jt (rclock r)) with (mom r). rewrite (qlt_true stop (mom r) L). eexists. split; [reflexivity|]. auto.
Qed.
Lemma round_before pt w i r M : ready ((i, r) :: M) (w_files w) -> existsb (fun y => Nat.eqb (fst y) 0) ((i, r) :: M) = true ->
  (mom r <= stop)%Q -> (mom r < start)%Q -> (0 <= w_prevjt w)%Q -> (records_of i M = [] -> tails i = []) ->
  exists w', (forall k, read_loop (S k) pt w = read_loop k pt w') /\ ready M (w_files w') /\ w_prevjt w' = mom r /\ w_nsteps w' = w_nsteps w /\ w_first w' = w_first w /\
    w_cols w' = w_cols w /\ length (w_files w') = length (w_files w).
Proof.
  intros R Z L E P0 T. destruct (next_is_head i r M (w_files w) (w_prevjt w) R Z) as (N & f & F & C). pose proof R as (_ & _ & G & _). inversion G as [|? ? G1 G2]; subst.
  destruct (early_pending (tails i) f r (records_of i M) T G1 (records_good M i G2) C) as (f' & A & PF & J).
  pose proof (good_year r G1) as Y. pose proof C as (rest & _ & _ & EF). assert (TF : f_time f = rclock r) by (rewrite EF; reflexivity).
  eexists. split.
  { intros k. cbn [Data_Model.read_loop]. rewrite N. cbn [bind]. rewrite F, TF. replace (t_year (rclock r) =? 9999) with false by lia.
  change (t_jt (rclock r)) with (mom r). rewrite (qlt_false (w_prevjt w) 0 P0). cbn [andb]. rewrite (qlt_false stop (mom r) L), (qle_false start (mom r) E), A. cbn [bind].
  change (0 =? 0) with true. cbn match. reflexivity. }
  cbn [set_files set_now w_files w_prevjt w_nsteps w_first w_cols].
  split; [exact (ready_next i r M (w_files w) f f' R F PF J)|]. split; [reflexivity|]. split; [reflexivity|]. split; [reflexivity|]. split; [reflexivity|]. apply (put_length _ _ f f' F).
Qed.
Lemma round_in k pt w i r M pj : ready ((i, r) :: M) (w_files w) -> existsb (fun y => Nat.eqb (fst y) 0) ((i, r) :: M) = true -> tail_ok (tails i) ->
  (start <= mom r <= stop)%Q -> (0 <= w_prevjt w)%Q -> map shape (w_cols w) = layout ->
  pj = (if w_first w then (mom r - init / 24)%Q else w_prevjt w) -> (0 <= pj)%Q -> (115 # 10000000 <= mom r - pj)%Q ->
  exists w', read_loop (S k) pt w = Ret (w', 0) /\ ready M (w_files w') /\ w_now w' = rclock r /\ w_prevjt w' = mom r /\ w_dt w' = (mom r - pj)%Q /\
    w_nsteps w' = w_nsteps w + 1 /\ w_first w' = false /\ map k_vals (w_cols w') = r_vals r /\ map shape (w_cols w') = layout /\
    length (w_files w') = length (w_files w) /\ map k_name (w_cols w') = map k_name (w_cols w).
Proof.
  intros R Z T [L1 L2] P0 SH PJ PP P1. destruct (next_is_head i r M (w_files w) (w_prevjt w) R Z) as (N & f & F & C). pose proof R as (_ & _ & G & _). inversion G as [|? ? G1 G2]; subst.
  pose proof (good_year r G1) as Y. pose proof C as (rest & _ & _ & EF). assert (TF : f_time f = rclock r) by (rewrite EF; reflexivity).
  cbn [Data_Model.read_loop]. rewrite N. cbn [bind]. rewrite F, TF. replace (t_year (rclock r) =? 9999) with false by lia.
  change (t_jt (rclock r)) with (mom r). rewrite (qlt_false (w_prevjt w) 0 P0). cbn [andb]. rewrite (qlt_false stop (mom r) L2), (qle_true start (mom r) L1).
  edestruct (accept_good (set_now (set_files (set_files w (w_files w) (w_prevjt w)) (w_files w) (w_prevjt w)) (rclock r)) i f r (records_of i M))
    as (w' & f' & A & W1 & W2 & W3 & W4 & W5 & W6 & W7 & W8 & W9 & W10 & W11); [exact T|exact G1|exact (records_good M i G2)|exact C|exact F|exact SH|symmetry; exact TF|reflexivity|exact PP|exact P1|].
  rewrite A. exists w'. split; [reflexivity|]. rewrite W1. cbn [set_files set_now w_files] in *.
  split; [exact (ready_next i r M (w_files w) f f' R F W2 W3)|]. repeat split; auto. apply (put_length _ _ f f' F).
Qed.

(** * The whole run *)
Definition outcome_of (M : @merged V) (l : list (@step V)) : Prop := Forall2 (fun r s => shows r (s_time s) (s_vals s)) (executed start stop M) l.
Hypothesis TO : forall i, tail_ok (tails i).
Lemma executed_in i (r : rec) (M : @merged V) : existsb (fun y => Nat.eqb (fst y) 0) ((i, r) :: M) = true -> (start <= mom r <= stop)%Q -> executed start stop ((i, r) :: M) = r :: executed start stop M.
Proof.
  intros Z [A B]. unfold executed. rewrite (until_more _ _ Z). cbn [map snd filter]. unfold within at 1. rewrite qle_mom, qle_mom_r, (qle_true _ _ A), (qle_true _ _ B). reflexivity.
Qed.
Lemma executed_early i (r : rec) (M : @merged V) : existsb (fun y => Nat.eqb (fst y) 0) ((i, r) :: M) = true -> (mom r < start)%Q -> executed start stop ((i, r) :: M) = executed start stop M.
Proof.
  intros Z A. unfold executed. rewrite (until_more _ _ Z). cbn [map snd filter]. unfold within at 1. rewrite qle_mom, (qle_false _ _ A). reflexivity.
Qed.
Lemma ends_more i (r : rec) (M : @merged V) : existsb (fun y => Nat.eqb (fst y) 0) ((i, r) :: M) = true -> (mom r <= stop)%Q -> ends_with stop ((i, r) :: M) = ends_with stop M.
Proof. intros Z A. unfold ends_with. rewrite (until_more _ _ Z). cbn [existsb snd]. rewrite qle_mom_r, (qle_true _ _ A). reflexivity. Qed.
Lemma ends_late i (r : rec) (M : @merged V) : existsb (fun y => Nat.eqb (fst y) 0) ((i, r) :: M) = true -> (stop < mom r)%Q -> ends_with stop ((i, r) :: M) = 1.
Proof. intros Z A. unfold ends_with. rewrite (until_more _ _ Z). cbn [existsb snd]. rewrite qle_mom_r, (qle_false _ _ A). reflexivity. Qed.
Lemma late_all i (r : rec) (M : @merged V) : in_order ((i, r) :: M) -> (stop < mom r)%Q -> forall x, In x ((i, r) :: M) -> (stop < mom (snd x))%Q.
Proof. intros O A x [<-|I]; [exact A|]. pose proof (order_mom M (i, r) O x I) as L. cbn [snd] in L. lra. Qed.
Lemma prepared_running (w : world) : 1 <= w_nsteps w -> prepared w = w.
Proof. intros H. unfold prepared. replace (w_nsteps w =? 0) with false by lia. reflexivity. Qed.
Lemma run_on : forall (M : @merged V) (w : world) (r0 : rec), ready M (w_files w) -> w_files w <> [] -> 1 <= w_nsteps w -> w_first w = false -> w_prevjt w = mom r0 -> (0 <= mom r0)%Q -> (start <= mom r0)%Q ->
  (forall x, In x M -> (mom r0 < mom (snd x))%Q) -> map shape (w_cols w) = layout ->
  exists l w', run w l w' (ends_with stop M) /\ outcome_of M l /\ Forall2 Qeq (map s_dt l) (lengths (moment r0) (executed start stop M)) /\ w_nsteps w' = w_nsteps w + Z.of_nat (length l).
Proof.
  induction M as [|[i r] M IH]; intros w r0 R NE N1 FI PJ P0 S0 AL SH.
  { destruct (round_end 0 (w_now w) w [] NE R eq_refl) as (w' & E & N & _). exists [], w'. split; [|repeat split; [constructor|constructor|cbn; lia]].
    apply run_end; [|discriminate]. apply (line_of_loop strtod conv start stop init 1); [rewrite (prepared_running w N1); exact E|discriminate]. }
  destruct (existsb (fun y => Nat.eqb (fst y) 0) ((i, r) :: M)) eqn:Z.
  2:{ destruct (round_end 0 (w_now w) w _ NE R Z) as (w' & E & N & _). exists [], w'. unfold ends_with, outcome_of, executed. rewrite (until_none _ Z). cbn [map filter existsb lengths].
      split; [|repeat split; [constructor|constructor|cbn; lia]].
      apply run_end; [|discriminate]. apply (line_of_loop strtod conv start stop init 1); [rewrite (prepared_running w N1); exact E|discriminate]. }
  pose proof R as (_ & _ & G & O). destruct (Qlt_le_dec stop (mom r)) as [L|L].
  { destruct (round_late 0 (w_now w) w i r M R Z L) as (w' & E & N & _). exists [], w'. rewrite (ends_late i r M Z L). unfold outcome_of. rewrite (executed_none _ (late_all i r M O L)).
    split; [|repeat split; [constructor|constructor|cbn; lia]].
    apply run_end; [|discriminate]. apply (line_of_loop strtod conv start stop init 1); [rewrite (prepared_running w N1); exact E|discriminate]. }
  pose proof (AL (i, r) (or_introl eq_refl)) as LR. cbn [snd] in LR. pose proof (mom_gap r0 r LR) as GAP.
  assert (IN : (start <= mom r <= stop)%Q) by (split; lra).
  destruct (round_in 0 (w_now w) w i r M (mom r0) R Z (TO i) IN ltac:(rewrite PJ; exact P0) SH ltac:(rewrite FI; symmetry; exact PJ) P0 ltac:(lra))
    as (w1 & E & R1 & W1 & W2 & W3 & W4 & W5 & W6 & W7 & W8 & W9).
  destruct (IH w1 r R1) as (l & w' & RUN & OUT & DT & NS); auto; try lia; try lra.
  { intros X. rewrite X in W8. destruct (w_files w); [congruence|discriminate]. }
  { intros x I. exact (order_mom M (i, r) O x I). }
  exists (mkStep (w_now w1) (w_dt w1) (map k_vals (w_cols w1)) :: l), w'. rewrite (ends_more i r M Z (proj2 IN)). split; [|split; [|split]].
  - apply run_step; [|exact RUN]. apply (line_of_loop strtod conv start stop init 1); [rewrite (prepared_running w N1); exact E|discriminate].
  - unfold outcome_of. rewrite (executed_in i r M Z IN). constructor; [split; cbn; congruence|exact OUT].
  - rewrite (executed_in i r M Z IN). cbn [map s_dt lengths]. constructor; [rewrite W3, !mom_moment; reflexivity|exact DT].
  - cbn [length]. lia.
Qed.
Hypothesis INIT : (115 # 10000000 <= init / 24 <= 1000000)%Q.
Lemma first_call : forall (M : @merged V) (w : world) pt, ready M (w_files w) -> w_files w <> [] -> w_nsteps w = 0 -> w_first w = true -> (0 <= w_prevjt w)%Q -> map shape (w_cols w) = layout ->
  (forall i, tails i <> [] -> (i < length (w_files w))%nat -> exists r, In r (records_of i M) /\ (start <= mom r)%Q) ->
  exists k w' c, read_loop k pt w = Ret (w', c) /\
   (c = ends_with stop M /\ executed start stop M = [] /\ w_nsteps w' = 0 /\ (c = 1 \/ c = 2) \/
    c = 0 /\ exists i r M', executed start stop M = r :: executed start stop M' /\ ends_with stop M = ends_with stop M' /\ ready M' (w_files w') /\ length (w_files w') = length (w_files w) /\
      in_order ((i, r) :: M') /\ good r /\ shows r (w_now w') (map k_vals (w_cols w')) /\ (w_dt w' == init / 24)%Q /\ w_prevjt w' = mom r /\ (start <= mom r)%Q /\
      w_nsteps w' = 1 /\ w_first w' = false /\ map shape (w_cols w') = layout).
Proof.
  induction M as [|[i r] M IH]; intros w pt R NE N0 FI P0 SH TL.
  { destruct (round_end 0 pt w [] NE R eq_refl) as (w' & E & N & _). exists 1%nat, w', ENDOFFILE. split; [exact E|]. left. repeat split; auto. lia. }
  destruct (existsb (fun y => Nat.eqb (fst y) 0) ((i, r) :: M)) eqn:Z.
  2:{ destruct (round_end 0 pt w _ NE R Z) as (w' & E & N & _). exists 1%nat, w', ENDOFFILE. split; [exact E|]. left. unfold ends_with, executed. rewrite (until_none _ Z). repeat split; auto. lia. }
  pose proof R as (_ & B & G & O). inversion G as [|? ? G1 G2]; inversion B as [|? ? B1 B2]; subst. cbn [snd fst] in *. destruct (Qlt_le_dec stop (mom r)) as [L|L].
  { destruct (round_late 0 pt w i r M R Z L) as (w' & E & N & _). exists 1%nat, w', ENDOFDATA. split; [exact E|]. left. rewrite (ends_late i r M Z L).
    rewrite (executed_none _ (late_all i r M O L)). repeat split; auto. lia. }
  assert (MP : (2000000 <= mom r)%Q) by (destruct G1 as (rest & _ & F & _); exact (mom_pos r F)).
  destruct (Qlt_le_dec (mom r) start) as [E|E].
  - assert (T : records_of i M = [] -> tails i = []).
    { intros X. destruct (tails i) as [|t ts] eqn:TT; [reflexivity|exfalso]. destruct (TL i ltac:(congruence) B1) as (r' & I & S').
      unfold records_of in I. cbn [filter fst] in I. rewrite Nat.eqb_refl in I. cbn [map snd] in I. destruct I as [<-|I]; [lra|].
      change (map snd (filter (fun x => Nat.eqb (fst x) i) M)) with (records_of i M) in I. rewrite X in I. destruct I. }
    destruct (round_before pt w i r M R Z L E P0 T) as (w1 & STEP & R1 & W1 & W2 & W3 & W4 & W5).
    destruct (IH w1 pt R1) as (k & w' & c & K & H); auto; try congruence.
    { intros X. rewrite X in W5. destruct (w_files w); [congruence|discriminate]. } { rewrite W1. lra. }
    { intros j TJ BJ. destruct (TL j TJ ltac:(congruence)) as (r' & I & S'). exists r'. split; [|exact S']. apply records_in. apply records_in in I. destruct I as [I|I]; [|exact I].
      injection I as <- <-. lra. }
    exists (S k), w', c. rewrite STEP, (ends_more i r M Z L), (executed_early i r M Z E), <- W5. split; [exact K|exact H].
  - assert (IN : (start <= mom r <= stop)%Q) by (split; lra). destruct INIT as [I1 I2].
    destruct (round_in 0 pt w i r M (mom r - init / 24) R Z (TO i) IN P0 SH ltac:(rewrite FI; reflexivity) ltac:(lra) ltac:(lra))
      as (w1 & X & R1 & W1 & W2 & W3 & W4 & W5 & W6 & W7 & W8 & W9).
    exists 1%nat, w1, 0. split; [exact X|]. right. split; [reflexivity|]. exists i, r, M. rewrite (executed_in i r M Z IN), (ends_more i r M Z L).
    split; [reflexivity|]. split; [reflexivity|]. split; [exact R1|]. split; [exact W8|]. split; [exact O|]. split; [exact G1|]. split; [split; congruence|].
    split; [rewrite W3; ring|]. split; [exact W2|]. split; [exact E|]. split; [lia|]. split; [exact W5|exact W7].
Qed.
End Files.

(** * Opening the files *)
Lemma skip_to_head : forall head e hash ls, Forall (fun l => prefix "####" l = false) head -> prefix "####" hash = true ->
  exists e', skip_to (head ++ hash :: ls) e = Some (mkStream ls e').
Proof.
  induction head as [|h head IH]; intros e hash ls F H; cbn [app skip_to]; unfold hashes.
  - rewrite H. eexists. reflexivity.
  - inversion F as [|? ? F1 F2]; subst. rewrite F1. apply IH; assumption.
Qed.
Section Open.
Context {V : Type}.
Variable strtod : string -> Q * string * bool.
Hypothesis RI : reads_integers strtod.
Variable conv : Z -> string -> V * string * bool.
Variables start stop init : Q.
Variable layout : list (Z * nat).
Notation rec := (@rec V).
Notation good := (good conv layout).
Lemma open_one junk (rs : list rec) text : Forall good rs -> file_text start rs text ->
  exists f tail, open_file strtod junk text = Ret (Some f, 0) /\ pending conv layout tail f rs /\ rs <> [] /\ tail_ok tail /\ (tail <> [] -> exists r, In r rs /\ (start <= mom r)%Q).
Proof.
  intros G (head & hash & tail & -> & H1 & H2 & NE & T). destruct rs as [|r rs]; [congruence|]. inversion G as [|? ? G1 G2]; subst.
  destruct (skip_to_head head false hash (map r_line (r :: rs) ++ tail) H1 H2) as [e' SK].
  destruct (extract_good strtod RI conv layout (map r_line rs ++ tail) (r_line r) 0 (set_year junk 0) r G1 eq_refl ltac:(cbn; lia)) as (rest & S & D & E).
  eexists. exists tail. split; [|split; [exists rest; split; [exact S|split; [exact D|reflexivity]]|split; [exact NE|split]]].
  - unfold open_file. rewrite SK. cbn [lines map app]. rewrite E. cbn [bind]. destruct head; reflexivity.
  - destruct T as [->|[(e & more & ->) _]]; [left; reflexivity|right; eauto].
  - intros N. destruct T as [->|[_ (x & I & L)]]; [congruence|]. exists x. split; [exact I|]. rewrite mom_moment. exact L.
Qed.
Lemma open_all junk (M : @merged V) : Forall (fun x => good (snd x)) M -> forall texts k, (forall i t, nth_error texts i = Some t -> file_text start (records_of (k + i) M) t) ->
  exists fs tl, open_files strtod junk texts = Ret (fs, 0) /\ length fs = length texts /\ (forall i, tail_ok (nth i tl [])) /\
    forall i f, nth_error fs i = Some f -> pending conv layout (nth i tl []) f (records_of (k + i) M) /\ records_of (k + i) M <> [] /\
      (nth i tl [] <> [] -> exists r, In r (records_of (k + i) M) /\ (start <= mom r)%Q).
Proof.
  intros G. induction texts as [|t texts IH]; intros k H.
  { exists [], []. repeat split; auto; [|destruct i; discriminate..]. intros i. left. destruct i; reflexivity. }
  destruct (open_one junk (records_of (k + 0) M) t (records_good conv layout M _ G) (H 0%nat t eq_refl)) as (f & tail & E & P & NE & TK & T).
  destruct (IH (S k)) as (fs & tl & EF & L & TL & A). { intros i t' N. replace (S k + i)%nat with (k + S i)%nat by lia. apply (H (S i) t' N). }
  exists (f :: fs), (tail :: tl). cbn [open_files]. rewrite E. cbn [bind]. rewrite EF. cbn [bind fst snd]. split; [reflexivity|]. split; [cbn; lia|]. split.
  { intros [|i]; [exact TK|exact (TL i)]. }
  intros [|i] g N; [injection N as <-; cbn [nth]; auto|]. cbn [nth]. specialize (A i g N). replace (k + S i)%nat with (S k + i)%nat by lia. exact A.
Qed.
Lemma whole_run junk (M : @merged V) texts : Forall (fun x => 1 <= fst x <= 3) layout -> Forall (fun x => good (snd x)) M -> in_order M ->
  Forall (fun x => (fst x < length texts)%nat) M -> texts <> [] -> (forall i t, nth_error texts i = Some t -> file_text start (records_of i M) t) ->
  (115 # 10000000 <= init / 24 <= 1000000)%Q ->
  exists fs, open_files strtod junk texts = Ret (fs, 0) /\ length fs = length texts /\ forall w, w_files w = fs -> w_nsteps w = 0 -> map shape (w_cols w) = layout ->
    exists l w', run strtod conv start stop init w l w' (ends_with stop M) /\ outcome_of start stop M l /\ w_nsteps w' = Z.of_nat (length l) /\
      Forall2 Qeq (map s_dt l) (match executed start stop M with [] => [] | r :: rs => (init / 24)%Q :: lengths (moment r) rs end).
Proof.
  intros LT G O B NE FT INIT. destruct (open_all junk M G texts 0 FT) as (fs & tl & E & L & TK & A). exists fs. split; [exact E|]. split; [exact L|]. intros w WF N0 SH.
  set (tails := fun i => nth i tl []).
  assert (R : ready conv layout tails M fs).
  { split; [|split; [rewrite L; exact B|split; [exact G|exact O]]]. intros i f N. destruct (A i f N) as (P & X & _). split; [exact P|]. intros Y. elim X. exact Y. }
  assert (FN : fs <> []) by (intros ->; destruct texts; [congruence|discriminate]).
  pose proof (first_call strtod RI conv start stop init layout tails LT TK INIT M (prepared w) (w_now w)) as FC.
  unfold prepared in FC. rewrite N0 in FC. change (0 =? 0) with true in FC. cbn match in FC. cbn [w_files w_nsteps w_first w_prevjt w_cols] in FC. rewrite WF in FC.
  destruct (FC R FN eq_refl eq_refl ltac:(lra) SH) as (k & w1 & c & K & H).
  { intros i X Y. destruct (nth_error fs i) as [f|] eqn:F; [|apply nth_error_None in F; lia]. destruct (A i f F) as (_ & _ & Z). exact (Z X). }
  assert (RL : read_line strtod conv start stop init w = Ret (w1, c)).
  { apply (line_of_loop strtod conv start stop init k); [|destruct H as [(_ & _ & _ & [-> | ->])|[-> _]]; discriminate]. unfold prepared. rewrite N0. cbn. rewrite WF. exact K. }
  destruct H as [(-> & X & N1 & C)|[-> (i & r & M' & X & Y & R1 & LN & O1 & G1 & SW & DT & PJ & S0 & N1 & F1 & SH1)]].
  - exists [], w1. unfold outcome_of. rewrite X. repeat split; [|constructor|exact N1|constructor]. apply run_end; [exact RL|destruct C as [-> | ->]; discriminate].
  - assert (MP : (2000000 <= mom r)%Q) by (destruct G1 as (rest & _ & F & _); exact (mom_pos r F)).
    destruct (run_on strtod RI conv start stop init layout tails LT TK M' w1 r R1) as (l & w' & RUN & OUT & D & N); auto; try lia; try lra.
    { intros Z. rewrite Z in LN. destruct fs; [congruence|discriminate]. } { exact (order_mom M' (i, r) O1). }
    exists (mkStep (w_now w1) (w_dt w1) (map k_vals (w_cols w1)) :: l), w'. rewrite X, Y. split; [apply run_step; assumption|]. split; [|split].
    + unfold outcome_of in *. rewrite X. constructor; [exact SW|exact OUT].
    + cbn [length]. lia.
    + cbn [map s_dt]. constructor; [exact DT|exact D].
Qed.
End Open.

(** * The header *)
Lemma prefix_sep : forall p a c b, no_char c p = true -> prefix p (a ++ String c b)%string = prefix p a.
Proof.
  induction p as [|x p IH]; intros a c b N; [destruct (a ++ String c b)%string, a; reflexivity|]. rewrite no_char_cons in N. apply andb_prop in N. destruct N as [N1 N2].
  destruct a as [|y a]; cbn [append prefix].
  - destruct (ascii_dec x c) as [->|]; [rewrite Ascii.eqb_refl in N1; discriminate|reflexivity].
  - destruct (ascii_dec x y); [apply IH; exact N2|reflexivity].
Qed.
Lemma gap_word : forall t cur s, no_char " " t = true -> no_char "009" t = true -> strtok_from is_gap cur (t ++ s)%string = strtok_from is_gap (cur ++ t)%string s.
Proof.
  induction t as [|c t IH]; intros cur s H K; cbn [append]; [rewrite app_nil_s; reflexivity|].
  rewrite no_char_cons in H, K. apply andb_prop in H, K. destruct H as [H1 H2], K as [K1 K2]. cbn [strtok_from]. unfold is_gap at 1.
  destruct (Ascii.eqb c " "); [discriminate|]. destruct (Ascii.eqb c "009"); [discriminate|]. cbn [orb]. rewrite IH by assumption. rewrite app_assoc_s. reflexivity.
Qed.
Lemma gap_blanks : forall k s, strtok_from is_gap "" (blanks k ++ s)%string = strtok_from is_gap "" s.
Proof. induction k as [|k IH]; intros s; [reflexivity|]. cbn [blanks append strtok_from]. apply IH. Qed.
Lemma gap_gap cur k s : cur <> "" -> strtok_from is_gap cur (blanks (S k) ++ s)%string = cur :: strtok_from is_gap "" s.
Proof.
  intros H. cbn [blanks append strtok_from]. change (is_gap " ") with true. cbv iota. destruct (String.eqb_spec cur ""); [contradiction|]. rewrite gap_blanks. reflexivity.
Qed.
Lemma gap_token : forall s cur, cur <> "" -> exists x more, strtok_from is_gap cur s = (cur ++ x)%string :: more /\ (x = "" \/ exists c r y, s = String c r /\ x = String c y).
Proof.
  induction s as [|c s IH]; intros cur N; cbn [strtok_from].
  - exists "", []. destruct (String.eqb_spec cur ""); [contradiction|]. rewrite app_nil_s. auto.
  - destruct (is_gap c).
    + destruct (String.eqb_spec cur ""); [contradiction|]. eexists "", _. rewrite app_nil_s. split; [reflexivity|auto].
    + destruct (IH (cur ++ String c "")%string) as (x & more & E & _); [destruct cur; discriminate|]. rewrite E. exists (String c x), more. rewrite app_assoc_s. split; [reflexivity|]. right. eauto.
Qed.
Lemma numeral_gapfree t v : numeral t v -> no_char " " t = true /\ no_char "009" t = true.
Proof. intros N. split; apply (numeral_nochar _ t v); auto. Qed.
Section Header.
Context {V : Type}.
Variable var_type : string -> option Z.
Variable junk : V.
Definition column_of (e : string * nat) : @column V := mkCol (fst e) (match var_type (fst e) with Some t => t | None => 0 end) (repeat junk (snd e)).
Lemma header_entry name n line ls acc ty : head_line (Entry name n) line -> var_type name = Some ty ->
  header var_type junk (line :: ls) acc = header var_type junk ls (acc ++ [column_of (name, n)]).
Proof.
  intros H VT. inversion H as [| |name' t n' k j rest (NE & W1 & W2) P1 P2 N LM A]; subst. rewrite free_nochar in W1, W2.
  cbn [header]. set (L := (blanks k ++ name ++ blanks (S j) ++ t ++ rest)%string).
  assert (PF : forall p, no_char " " p = true -> p <> "" -> prefix p name = false -> prefix p L = false).
  { intros p NP NN PP. unfold L. destruct k as [|k]; [cbn [blanks append]; rewrite (prefix_sep p name " " _ NP); exact PP|].
    cbn [blanks append]. destruct p as [|c p]; [congruence|]. cbn [prefix]. destruct (ascii_dec c " ") as [->|]; [rewrite no_char_cons in NP; discriminate|reflexivity]. }
  unfold hashes. rewrite (PF "####" eq_refl) by (exact P2 || discriminate). rewrite (PF "//" eq_refl) by (exact P1 || discriminate).
  replace (Nat.leb (String.length L) 1) with false.
  2:{ symmetry. apply Nat.leb_gt. unfold L. rewrite !len_app_s. destruct name; [congruence|]. cbn [String.length blanks]. lia. }
  unfold strtok, L. rewrite gap_blanks, (gap_word name "" _ W1 W2). change ("" ++ name)%string with name. rewrite (gap_gap name j _ NE). rewrite VT.
  destruct (numeral_gapfree t _ N) as [G1 G2]. rewrite (gap_word t "" rest G1 G2). change ("" ++ t)%string with t.
  destruct (gap_token rest t (numeral_ne t _ N)) as (x & more & E & X). rewrite E.
  assert (SX : stops x). { destruct X as [->|(c & r & y & -> & ->)]; [exact I|]. pose proof (after_stops _ A) as S. exact S. }
  pose proof (strtol_int 0 t (Z.of_nat n) x (it_plain _ _ N) SX) as E1. pose proof (erange_int 0 t (Z.of_nat n) x (it_plain _ _ N) SX) as E2. cbn [blanks append] in E1, E2. rewrite E1, E2. cbn [fst].
  replace (saturate (Z.of_nat n)) with (Z.of_nat n) by (unfold saturate, LONG_MIN, LONG_MAX; lia).
  replace ((Z.of_nat n <? LONG_MIN) || (LONG_MAX <? Z.of_nat n) || (Z.of_nat n <? 0)) with false by (unfold LONG_MIN, LONG_MAX; lia).
  rewrite Nat2Z.id. unfold column_of. cbn [fst snd]. rewrite VT. reflexivity.
Qed.
Lemma header_ok hash data : prefix "####" hash = true -> data <> [] -> forall items ls acc, Forall2 head_line items ls -> Forall (fun e => var_type (fst e) <> None) (entries items) ->
  header var_type junk (ls ++ hash :: data) acc = Ret (acc ++ map column_of (entries items), 0).
Proof.
  intros H D items ls acc F. revert acc. induction F as [|i l items ls HL F IH]; intros acc A.
  - cbn [app header map entries flat_map]. unfold hashes. rewrite H, app_nil_r. destruct data; [congruence|reflexivity].
  - cbn [app]. destruct i as [t| |name n].
    + inversion HL; subst. cbn [header append]. change (hashes (String "/" (String "/" t))) with false. replace (prefix "//" (String "/" (String "/" t))) with true by (destruct t; reflexivity). apply IH. exact A.
    + inversion HL; subst. apply (IH acc A).
    + inversion A as [|? ? A1 A2]; subst. cbn [fst] in A1. destruct (var_type name) as [ty|] eqn:VT; [|congruence]. rewrite (header_entry name n l _ acc ty HL VT). rewrite IH by exact A2.
      cbn [entries flat_map app map]. rewrite <- app_assoc. reflexivity.
Qed.
Lemma header_undeclared name n line ls acc : head_line (Entry name n) line -> var_type name = None -> header var_type junk (line :: ls) acc = Ret (acc, 4).
Proof.
  intros H VT. inversion H as [| |name' t n' k j rest (NE & W1 & W2) P1 P2 N LM A]; subst. rewrite free_nochar in W1, W2.
  cbn [header]. set (L := (blanks k ++ name ++ blanks (S j) ++ t ++ rest)%string).
  assert (PF : forall p, no_char " " p = true -> p <> "" -> prefix p name = false -> prefix p L = false).
  { intros p NP NN PP. unfold L. destruct k as [|k]; [cbn [blanks append]; rewrite (prefix_sep p name " " _ NP); exact PP|].
    cbn [blanks append]. destruct p as [|c p]; [congruence|]. cbn [prefix]. destruct (ascii_dec c " ") as [->|]; [rewrite no_char_cons in NP; discriminate|reflexivity]. }
  unfold hashes. rewrite (PF "####" eq_refl) by (exact P2 || discriminate). rewrite (PF "//" eq_refl) by (exact P1 || discriminate).
  replace (Nat.leb (String.length L) 1) with false.
  2:{ symmetry. apply Nat.leb_gt. unfold L. rewrite !len_app_s. destruct name; [congruence|]. cbn [String.length blanks]. lia. }
  unfold strtok, L. rewrite gap_blanks, (gap_word name "" _ W1 W2). change ("" ++ name)%string with name. rewrite (gap_gap name j _ NE). rewrite VT. reflexivity.
Qed.
End Header.
Lemma row_names {V} (conv : Z -> string -> V * string * bool) : forall cols p cols' e, row conv cols p = (cols', e) -> map k_name cols' = map k_name cols.
Proof.
  induction cols as [|c cols IH]; intros p cols' e H; cbn [row] in H; [injection H as <- <-; reflexivity|]. destruct (converted (k_type c)).
  - destruct (cells conv (k_type c) (k_vals c) p) as [[vs p1] er]. destruct er; [injection H as <- <-; reflexivity|]. destruct (row conv cols p1) as [r e1] eqn:R. injection H as <- <-. cbn. rewrite (IH _ _ _ R). reflexivity.
  - destruct (row conv cols p) as [r e1] eqn:R. injection H as <- <-. cbn. rewrite (IH _ _ _ R). reflexivity.
Qed.
Lemma loop_names {V} strtod (conv : Z -> string -> V * string * bool) start stop init : forall k pt w w' c, read_loop strtod conv start stop init k pt w = Ret (w', c) ->
  map k_name (w_cols w') = map k_name (w_cols w).
Proof.
  induction k as [|k IH]; intros pt w w' c H; [injection H as <- <-; reflexivity|]. cbn [read_loop] in H.
  destruct (with_next strtod (w_files w) (w_prevjt w)) as [[[fs cur] pj]| |]; try discriminate. cbn [bind] in H. destruct (nth_error fs cur) as [f|]; [|discriminate].
  destruct (t_year (f_time f) =? 9999); [injection H as <- <-; reflexivity|]. destruct (qlt stop _); [injection H as <- <-; reflexivity|]. destruct (qle start _).
  - unfold accept in H. cbv zeta in H. destruct (Nat.ltb _ _); [discriminate|]. destruct (qlt _ _); [injection H as <- <-; reflexivity|].
    cbn [w_cols set_now set_files] in H. match type of H with context [row conv ?a ?b] => destruct (row conv a b) as [cols er] eqn:R end. apply row_names in R. cbn [w_cols] in R. destruct er; [injection H as <- <-; exact R|].
    destruct (advance strtod f) as [[f' e]| |]; try discriminate. cbn [bind] in H. destruct (negb _); [injection H as <- <-; exact R|]. destruct (f_open f'); injection H as <- <-; exact R.
  - destruct (advance_early strtod f) as [[f' e]| |]; try discriminate. cbn [bind] in H. destruct (e =? 0); [apply IH in H; exact H|injection H as <- <-; reflexivity].
Qed.
