(** Properties C96-C97: ADVECTION. *)

From Coq Require Import List ZArith QArith Bool Lia Lqa ZifyBool.
From Verif Require Import Steps_Model Advec_Model Advec_Spec Steps_Proofs Advec_Proofs.
Import ListNotations.
Local Open Scope list_scope.
Local Open Scope Z_scope.

(** * C96: the column *)

Lemma advection_split : forall A R rd react n k kin modulus flags (w w' : world A R) out t,
  advection rd react n k kin modulus flags w = Column w' out t ->
  accepted rd n kin w = true /\
  fold_left (one_shift rd react n modulus flags) (from_ 1 k) (w, []) = (w', out) /\
  t = (inject_Z (Z.of_nat k) * kin)%Q.
Proof.
  intros A R rd react n k kin modulus flags w w' out t H. unfold advection in H.
  destruct (accepted rd n kin w); [|discriminate].
  destruct (fold_left (one_shift rd react n modulus flags) (from_ 1 k) (w, [])) as [a b].
  injection H as <- <- <-. split; [reflexivity |]. split; reflexivity.
Qed.

(** An ADVECTION that is accepted does its shifts one after the other: in each,
    every cell takes the solution of the cell before it, cell 1 that of
    solution 0, and reacts once; nothing but the cells changes; the output has
    the wanted cells in order; the time grows by the time step for each
    shift. *)
Theorem C96_shifts : forall A R (rd : reading R) (react : reactor A R) n shifts kin modulus flags w w' out t,
  (1 <= n)%nat -> 0 < modulus ->
  advection rd react n shifts kin modulus flags w = Column w' out t ->
  shifts_to rd react n modulus (fun i => flags (i - 1)) 1 shifts w w' out /\
  (t == inject_Z (Z.of_nat shifts) * kin)%Q.
Proof.
  intros A R rd react n k kin modulus flags w w' out t N M H.
  apply advection_split in H. destruct H as [AC [F ->]]. split; [|reflexivity].
  apply accepted_filled in AC.
  destruct (shifts_done A R rd react n modulus flags k 1 w [] N AC M ltac:(lia)) as [o [O1 [O2 _]]].
  cbv zeta in *. rewrite F in *. cbn [fst snd app] in *. subst o. exact O2.
Qed.

(** It is refused exactly when a solution from 0 to the number of cells is not
    defined, or when a cell has kinetics and no time step was given. *)
Theorem C96_guard : forall A R (rd : reading R) (react : reactor A R) n shifts kin modulus flags w,
  advection rd react n shifts kin modulus flags w = Refused <->
  (exists j, 0 <= j <= Z.of_nat n /\ sols w j = None) \/
  ((kin <= 0)%Q /\ exists i, 1 <= i <= Z.of_nat n /\ has_kin rd (reac w i) = true).
Proof.
  intros A R rd react n k kin modulus flags w.
  assert (E : advection rd react n k kin modulus flags w = Refused <-> accepted rd n kin w = false).
  { unfold advection. destruct (accepted rd n kin w); [|tauto].
    destruct (fold_left (one_shift rd react n modulus flags) (from_ 1 k) (w, [])).
    split; discriminate. }
  rewrite E. unfold accepted. rewrite andb_false_iff, negb_false_iff, andb_true_iff.
  rewrite existsb_exists, Qle_bool_iff. clear E.
  assert (G : forallb (fun i => match sols w i with Some _ => true | None => false end) (from_ 0 (n + 1)) = false
              <-> exists j, 0 <= j <= Z.of_nat n /\ sols w j = None).
  { split.
    - intros F. destruct (existsb (fun i => match sols w i with Some _ => false | None => true end) (from_ 0 (n + 1))) eqn:X.
      + rewrite existsb_exists in X. destruct X as [j [J1 J2]]. apply from_In in J1.
        exists j. split; [lia |]. destruct (sols w j); [discriminate | reflexivity].
      + exfalso. assert (forallb (fun i => match sols w i with Some _ => true | None => false end) (from_ 0 (n + 1)) = true); [|congruence].
        rewrite forallb_forall. intros j J. destruct (sols w j) eqn:S'; [reflexivity |].
        assert (existsb (fun i => match sols w i with Some _ => false | None => true end) (from_ 0 (n + 1)) = true); [|congruence].
        rewrite existsb_exists. exists j. split; [exact J |]. rewrite S'. reflexivity.
    - intros [j [J1 J2]]. destruct (forallb _ _) eqn:F; [|reflexivity].
      rewrite forallb_forall in F. specialize (F j). rewrite from_In, J2 in F. discriminate F. lia. }
  rewrite G. split.
  - intros [H | [H1 [i [I1 I2]]]]; [left; exact H | right]. split; [exact H1 |].
    apply from_In in I1. exists i. split; [lia | exact I2].
  - intros [H | [H1 [i [I1 I2]]]]; [left; exact H | right]. split; [exact H1 |].
    exists i. split; [apply from_In; lia | exact I2].
Qed.

Lemma advection_next : forall A R rd react n k kin modulus flags (w w1 w2 : world A R) o1 o2 t1 t2,
  (1 <= n)%nat -> 0 < modulus ->
  advection rd react n k kin modulus flags w = Column w1 o1 t1 ->
  advection rd react n (S k) kin modulus flags w = Column w2 o2 t2 ->
  shifted rd react n (Z.of_nat (S k)) w1 w2 /\ filled n w1 /\ sols w1 0 = sols w 0.
Proof.
  intros A R rd react n k kin modulus flags w w1 w2 o1 o2 t1 t2 N M H1 H2.
  pose proof (C96_shifts _ _ _ _ _ _ _ _ _ _ _ _ _ N M H1) as [SH _].
  apply advection_split in H1. apply advection_split in H2.
  destruct H1 as [AC [F1 _]]. destruct H2 as [_ [F2 _]].
  rewrite from_snoc, fold_left_app, F1 in F2. cbn [fold_left] in F2.
  apply accepted_filled in AC.
  destruct (shifts_done A R rd react n modulus flags k 1 w [] N AC M ltac:(lia)) as [o [_ [_ FL]]].
  cbv zeta in *. rewrite F1 in *. cbn [fst snd] in *.
  pose proof (shift_done A R rd react n modulus flags (1 + Z.of_nat k) w1 o1 N FL) as D. cbv zeta in D.
  rewrite F2 in D. cbn [fst snd] in D. destruct D as [D _].
  replace (Z.of_nat (S k)) with (1 + Z.of_nat k) by lia.
  split; [exact D |]. split; [exact FL |].
  clear - SH. induction SH as [|step k w wa wb o S1 S2 IH]; [reflexivity |].
  rewrite IH. destruct S1 as [_ [S1 _]]. apply S1; lia.
Qed.

(** Each further shift changes the amount of anything that the reactions keep
    by what solution 0 brings less what the last cell had in solution: nothing
    else is gained or lost. *)
Theorem C96_balance : forall A R (rd : reading R) (react : reactor A R) (q : A -> Q) (qr : R -> Q)
    n k kin modulus flags w w1 w2 o1 o2 t1 t2 feed last,
  (1 <= n)%nat -> 0 < modulus ->
  (forall r, mix_of rd r = None) ->
  (forall step i s r, let '(s', r') := react step i (Own (Some s)) r in (q s' + qr r' == q s + qr r)%Q) ->
  sols w 0 = Some feed ->
  advection rd react n k kin modulus flags w = Column w1 o1 t1 ->
  sols w1 (Z.of_nat n) = Some last ->
  advection rd react n (S k) kin modulus flags w = Column w2 o2 t2 ->
  (content q qr w2 n == content q qr w1 n + q feed - q last)%Q.
Proof.
  intros A R rd react q qr n k kin modulus flags w w1 w2 o1 o2 t1 t2 feed last N M NM KE F0 H1 HL H2.
  destruct (advection_next _ _ _ _ _ _ _ _ _ _ _ _ _ _ _ _ N M H1 H2) as [[SH _] [FL Z0]].
  rewrite F0 in Z0.
  assert (G : forall m, (m <= n)%nat ->
     (content q qr w2 m == content q qr w1 m + q feed -
        match sols w1 (Z.of_nat m) with Some s => q s | None => 0 end)%Q).
  { induction m as [|m IH]; intros L.
    - cbn [content]. change (Z.of_nat 0) with 0. rewrite Z0. lra.
    - specialize (IH ltac:(lia)). cbn [content].
      specialize (SH (Z.of_nat (S m)) ltac:(lia)). unfold sees in SH. rewrite NM in SH.
      unfold moved in SH. replace ((1 <=? Z.of_nat (S m)) && (Z.of_nat (S m) <=? Z.of_nat n)) with true in SH by lia.
      replace (Z.of_nat (S m) - 1) with (Z.of_nat m) in SH by lia.
      destruct (sols w1 (Z.of_nat m)) as [sm|] eqn:E; [|exfalso; apply (FL (Z.of_nat m)); [lia | exact E]].
      specialize (KE (Z.of_nat (S k)) (Z.of_nat (S m)) sm (reac w1 (Z.of_nat (S m)))).
      destruct (react (Z.of_nat (S k)) (Z.of_nat (S m)) (Own (Some sm)) (reac w1 (Z.of_nat (S m)))) as [s' r'].
      destruct SH as [-> ->]. 
      destruct (sols w1 (Z.of_nat (S m))); lra. }
  rewrite (G n ltac:(lia)), HL. reflexivity.
Qed.

(** Where nothing reacts, the column is a conveyor: after k shifts cell i has
    the solution that cell i-k had at the start, or solution 0 when k >= i; so
    after as many shifts as cells, all of it is solution 0. *)
Theorem C96_conveyor : forall A R (rd : reading R) (react : reactor A R) n k kin modulus flags w w' out t,
  (1 <= n)%nat -> 0 < modulus ->
  (forall r, mix_of rd r = None) ->
  (forall step i s r, react step i (Own (Some s)) r = (s, r)) ->
  advection rd react n k kin modulus flags w = Column w' out t ->
  forall i, 1 <= i <= Z.of_nat n ->
    sols w' i = sols w (Z.max 0 (i - Z.of_nat k)) /\ reac w' i = reac w i.
Proof.
  intros A R rd react n k kin modulus flags w w' out t N M NM RE H.
  pose proof (C96_shifts _ _ _ _ _ _ _ _ _ _ _ _ _ N M H) as [SH _].
  apply advection_split in H. destruct H as [AC _]. apply accepted_filled in AC.
  assert (G : forall i, 0 <= i <= Z.of_nat n ->
     sols w' i = sols w (Z.max 0 (i - Z.of_nat k)) /\ reac w' i = reac w i);
    [|intros i I'; apply G; lia].
  clear kin t. induction SH as [step w | step k w wa wb o S1 S2 IH]; intros i I'.
  - split; [f_equal; lia | reflexivity].
  - destruct S1 as [S1 [SO RO]].
    assert (C : forall j, 0 <= j <= Z.of_nat n ->
              sols wa j = sols w (Z.max 0 (j - 1)) /\ reac wa j = reac w j).
    { intros j J. destruct (Z.eq_dec j 0) as [-> | NJ].
      - rewrite SO, RO by lia. split; reflexivity.
      - specialize (S1 j ltac:(lia)). unfold sees in S1. rewrite NM in S1. unfold moved in S1.
        replace ((1 <=? j) && (j <=? Z.of_nat n)) with true in S1 by lia.
        destruct (sols w (j - 1)) as [s|] eqn:E; [|exfalso; apply (AC (j - 1)); [lia | exact E]].
        rewrite RE in S1. destruct S1 as [-> ->]. split; [|reflexivity].
        rewrite <- E. f_equal. lia. }
    assert (FL : filled n wa).
    { intros j J. destruct (C j J) as [-> _]. apply AC. lia. }
    destruct (IH FL i I') as [-> ->]. 
    destruct (C (Z.max 0 (i - Z.of_nat k)) ltac:(lia)) as [-> _].
    destruct (C i I') as [_ ->]. split; [f_equal; lia | reflexivity].
Qed.

(** A column of three cells: reactions that keep a total, dissolving one unit
    where there is one left. *)
Definition dissolve : reactor Z Z := fun _ _ src r =>
  match src with
  | Own (Some s) => if 0 <? r then (s + 1, r - 1) else (s, r)
  | Own None => (0, r)
  | Mixed ss => (fold_left (fun a s => a + match s with Some x => x | None => 0 end) ss 0 + 1, r)
  end.

Definition column : world Z Z :=
  mkWorld (fun j => if (0 <=? j) && (j <=? 3) then Some (10 * j) else None)
          (fun j => if j =? 2 then 1 else 0).

Definition plain_rd : reading Z := mkReading (fun _ => None) (fun r => r =? 7).

Example C96_case : exists w' w2,
  advection plain_rd dissolve 3 2 (1#2)%Q 2 (cell_flags 3 [2; 3]) column =
    Column w' [(2, 2, 0, 0); (2, 3, 11, 0)] (inject_Z 2 * (1#2))%Q /\
  map (sols w') (from_ 0 4) = [Some 0; Some 0; Some 0; Some 11] /\
  advection plain_rd dissolve 3 3 (1#2)%Q 2 (cell_flags 3 [2; 3]) column =
    Column w2 [(2, 2, 0, 0); (2, 3, 11, 0)] (inject_Z 3 * (1#2))%Q /\
  (content inject_Z inject_Z w2 3 == content inject_Z inject_Z w' 3 + 0 - 11)%Q.
Proof.
  eexists. eexists. split; [vm_compute; reflexivity |]. split; [vm_compute; reflexivity |].
  split; [vm_compute; reflexivity |]. vm_compute. reflexivity.
Qed.

Example C96_guard_case :
  advection plain_rd dissolve 4 1 1%Q 1 (cell_flags 4 []) column = Refused.
Proof. reflexivity. Qed.

(** The cells that the MIX of a cell names do not all have the same state: in
    one shift, a MIX that names the cell just before finds its solution from
    before its reaction of this shift, and a MIX that names the cell before that
    one finds it after. Here cell 2 mixes cell 1 and cell 3 mixes cell 1 as well,
    with the same reaction, and they get different solutions. *)
Theorem C96_mix_refuted : exists (rd : reading Z) (react : reactor Z Z) (w w' : world Z Z) out t,
  (forall step i i' src r r', fst (react step i src r) = fst (react step i' src r')) /\
  mix_of rd (reac w 2) = Some [1] /\ mix_of rd (reac w 3) = Some [1] /\
  advection rd react 3 1 0%Q 1 (cell_flags 3 []) w = Column w' out t /\
  sols w' 2 = Some 1 /\ sols w' 3 = Some 2.
Proof.
  exists (mkReading (fun r => if 2 <=? r then Some [1] else None) (fun _ => false)),
    (fun _ _ src r => (match src with
                       | Own (Some s) => s + 1
                       | Own None => 0
                       | Mixed ss => fold_left (fun a s => a + match s with Some x => x | None => 0 end) ss 0 + 1
                       end, r)),
    (mkWorld (fun j => if (0 <=? j) && (j <=? 3) then Some (10 * j) else None) (fun j => j)).
  eexists. eexists. eexists. split; [intros; reflexivity |].
  split; [reflexivity |]. split; [reflexivity |]. split; [vm_compute; reflexivity |].
  split; vm_compute; reflexivity.
Qed.

(** With no cells, ADVECTION does not leave solution 0 alone: at each shift
    solution -2, which an earlier reaction left there, is put in the place of
    solution 0. *)
Theorem C96_no_cells_refuted : forall A R (rd : reading R) (react : reactor A R) k kin modulus flags w s0 s,
  sols w 0 = Some s0 -> sols w (-2) = Some s ->
  exists w', advection rd react 0 (S k) kin modulus flags w
             = Column w' [] (inject_Z (Z.of_nat (S k)) * kin)%Q /\ sols w' 0 = Some s.
Proof.
  intros A R rd react k kin modulus flags w s0 s H0 H2.
  unfold advection. assert (AC : accepted rd 0 kin w = true).
  { unfold accepted. cbn. rewrite H0, andb_false_r. reflexivity. }
  rewrite AC.
  assert (G : forall l (v : world A R), sols v (-2) = Some s -> (l = [] -> sols v 0 = Some s) ->
     exists v', fold_left (one_shift rd react 0 modulus flags) l (v, []) = (v', []) /\ sols v' 0 = Some s).
  { induction l as [|x l IH]; intros v V1 V2.
    - exists v. split; [reflexivity | apply V2; reflexivity].
    - cbn [fold_left]. unfold one_shift at 2. cbn [advect from_ rev fold_left]. cbn [sols reac].
      apply IH; cbn [sols]; unfold sol_copy; cbn [sols]; 
        change (advect 0 (sols v)) with (sols v); rewrite V1; [|intros _]; unfold set_at; cbn; [exact V1 | reflexivity]. }
  destruct (G (from_ 1 (S k)) w H2 ltac:(discriminate)) as [w' [E W]].
  rewrite E. exists w'. split; [reflexivity | exact W].
Qed.

(** * C97: which cells are printed, and how often *)

(** The cells that the list names are printed, those out of range are left out,
    and without a list all of them are. *)
Theorem C97_cells : forall n cells i, 1 <= i <= n ->
  cell_flags n cells (i - 1) = true <-> cells = [] \/ In i cells.
Proof.
  intros n cells i I'. unfold cell_flags. destruct cells as [|c0 cs]; [split; auto |].
  assert (G : forall l f, fold_left (fun f c => if (n <? c) || (c <? 1) then f else set_at f (c - 1) true) l f (i - 1) = true
              <-> f (i - 1) = true \/ In i l).
  { induction l as [|c l IH]; intros f; cbn [fold_left In]; [tauto |].
    rewrite IH. destruct ((n <? c) || (c <? 1)) eqn:B.
    - split; intros [H | H]; auto. destruct H as [H | H]; [lia | auto].
    - destruct (Z.eq_dec c i) as [-> | NE].
      + rewrite set_same. tauto.
      + rewrite set_other by lia. tauto. }
  rewrite G. split.
  - intros [H | H]; [discriminate | auto].
  - intros [H | H]; [discriminate | auto].
Qed.

(** A list with no number in range prints nothing at all. *)
Theorem C97_out_of_range : forall n cells, cells <> [] -> (forall c, In c cells -> ~ (1 <= c <= n)) ->
  forall i, 1 <= i <= n -> cell_flags n cells (i - 1) = false.
Proof.
  intros n cells NE H i I'. destruct (cell_flags n cells (i - 1)) eqn:E; [|reflexivity].
  apply C97_cells in E; [|exact I']. destruct E as [-> | E]; [congruence |]. exfalso. exact (H i E I').
Qed.

Lemma frequency_is : forall given, frequency given = if 0 <? given then given else 1000.
Proof. intros given. unfold frequency. destruct (given <=? 0) eqn:B; destruct (0 <? given) eqn:C; lia. Qed.

(** Lines of output are those of the wanted cells at the multiples of the
    frequency given, 1000 where that is not positive: every one of them and no
    other. *)
Theorem C97_lines : forall A R (rd : reading R) (react : reactor A R) n shifts kin given cells w w' out t,
  (1 <= n)%nat ->
  advection rd react n shifts kin (frequency given) (cell_flags (Z.of_nat n) cells) w = Column w' out t ->
  forall step i, (exists s r, In (step, i, s, r) out) <->
    1 <= step <= Z.of_nat shifts /\ step mod (if 0 <? given then given else 1000) = 0 /\
    1 <= i <= Z.of_nat n /\ (cells = [] \/ In i cells).
Proof.
  intros A R rd react n k kin given cells w w' out t N H step i. rewrite <- frequency_is.
  assert (FP : 0 < frequency given) by (unfold frequency; destruct (given <=? 0) eqn:B; lia).
  destruct (C96_shifts _ _ _ _ _ _ _ _ _ _ _ _ _ N FP H) as [SH _]. clear H t kin.
  assert (G : forall fl st k w w' out, 
     shifts_to rd react n (frequency given) fl st k w w' out ->
     (exists s r, In (step, i, s, r) out) <->
     st <= step < st + Z.of_nat k /\ step mod frequency given = 0 /\ 1 <= i <= Z.of_nat n /\ fl i = true).
  { clear SH w w' out k. intros fl st k w w' out SH.
    induction SH as [st w | st k w wa wb o S1 S2 IH].
    - split; [intros [s [r []]] | lia].
    - assert (P : (exists s r, In (step, i, s, r) (printed n (frequency given) fl st wa)) <->
                  step = st /\ st mod frequency given = 0 /\ 1 <= i <= Z.of_nat n /\ fl i = true).
      { unfold printed. destruct (st mod frequency given =? 0) eqn:M.
        - split.
          + intros [s [r I']]. apply in_flat_map in I'. destruct I' as [x [X1 X2]]. apply from_In in X1.
            destruct (sols wa x); [|contradiction]. destruct (fl x) eqn:FX; [|contradiction].
            destruct X2 as [X2 | []]. injection X2 as E1 E2 _ _. subst st x. split; [reflexivity |].
            split; [lia |]. split; [lia | exact FX].
          + intros [-> [_ [I' FI]]]. destruct S1 as [S1 _]. specialize (S1 i I').
            destruct (react st i _ _) as [s r]. destruct S1 as [S1 RI]. exists s, (reac wa i).
            apply in_flat_map. exists i. split; [apply from_In; lia |]. rewrite S1, FI. left. f_equal.
        - split; [intros [s [r []]] | lia]. }
      split.
      + intros [s [r I']]. apply in_app_or in I'. destruct I' as [I' | I'].
        * destruct P as [P _]. destruct (P (ex_intro _ s (ex_intro _ r I'))) as [-> [P2 P3]].
          split; [lia |]. split; assumption.
        * destruct IH as [IH _]. destruct (IH (ex_intro _ s (ex_intro _ r I'))) as [P1 P2].
          split; [lia | exact P2].
      + intros [B [M FI]]. destruct (Z.eq_dec step st) as [-> | NE].
        * destruct P as [_ P]. destruct P as [s [r I']]; [split; [reflexivity | split; [exact M | exact FI]] |].
          exists s, r. apply in_or_app. left. exact I'.
        * destruct IH as [_ IH]. destruct IH as [s [r I']]; [split; [lia | split; [exact M | exact FI]] |].
          exists s, r. apply in_or_app. right. exact I'. }
  rewrite (G _ _ _ _ _ _ SH). split.
  - intros [B [M [I' FI]]]. split; [lia |]. split; [exact M |]. split; [exact I' |]. apply C97_cells in FI; assumption.
  - intros [B [M [I' FI]]]. split; [lia |]. split; [exact M |]. split; [exact I' |].
    apply C97_cells; assumption.
Qed.

Example C97_case : map (fun i => cell_flags 4 [4; 9; 2; 0] (i - 1)) [1; 2; 3; 4] = [false; true; false; true].
Proof. reflexivity. Qed.

Print Assumptions C96_shifts.
Print Assumptions C96_guard.
Print Assumptions C96_balance.
Print Assumptions C96_conveyor.
Print Assumptions C96_mix_refuted.
Print Assumptions C96_no_cells_refuted.
Print Assumptions C97_cells.
Print Assumptions C97_out_of_range.
Print Assumptions C97_lines.
