(** C127: interpolation of time series in TSPROC. *)
From Coq Require Import List ZArith QArith Qabs Bool Arith Lia Lqa.
From Verif Require Import Qx Vol_Model Vol_Spec Vol_Props Tbase_Model Tbase_Spec.
Import ListNotations.
Local Open Scope Q_scope.

Lemma time_to_when d1 s1 d2 s2 : time_to d1 s1 d2 s2 == (1 # 86400) * inject_Z (Moment d2 s2 - Moment d1 s1).
Proof.
  unfold time_to, Moment. replace (86400 * d2 + s2 - (86400 * d1 + s1))%Z with ((d2 - d1) * 86400 + (s2 - s1))%Z by ring.
  rewrite inject_Z_plus, inject_Z_mult. change (inject_Z 86400) with 86400. ring.
Qed.
Lemma inject_nonneg z : (0 <= z)%Z -> 0 <= inject_Z z.
Proof. intros H. change 0 with (inject_Z 0). now rewrite <- Zle_Qle. Qed.
Lemma inject_neg z : (z < 0)%Z -> inject_Z z < 0.
Proof. intros H. change 0 with (inject_Z 0). now rewrite <- Zlt_Qlt. Qed.
Lemma time_sign d s x : qle 0 (time_to d s (days x) (secs x)) = (Moment d s <=? When x)%Z.
Proof.
  pose proof (time_to_when d s (days x) (secs x)) as T. fold (When x) in T. destruct (Z.leb_spec (Moment d s) (When x)) as [C | C].
  - apply qle_true. pose proof (inject_nonneg (When x - Moment d s) ltac:(lia)). lra.
  - apply qle_false. pose proof (inject_neg (When x - Moment d s) ltac:(lia)). lra.
Qed.

Lemma order_index l : forall i j a b, In_order l -> nth_error l i = Some a -> nth_error l j = Some b -> (i < j)%nat -> (When a < When b)%Z.
Proof.
  induction l as [|x l IH]; intros [|i] [|j] a b O A B L; cbn [nth_error] in A, B; try discriminate; try lia.
  - injection A as ->. apply nth_error_In in B. now apply (order_later l a b).
  - apply (IH i j a b); [now apply (order_tail x) | exact A | exact B | lia].
Qed.
Lemma search_ok : forall fuel l i d s n x, (1 <= i <= n)%nat -> entry l n = Some x -> (Moment d s <= When x)%Z -> (n - i < fuel)%nat ->
  exists y, let k := search fuel l i d s in (i <= k <= n)%nat /\ entry l k = Some y /\ (Moment d s <= When y)%Z /\ (forall m z, (i <= m < k)%nat -> entry l m = Some z -> (When z < Moment d s)%Z).
Proof.
  induction fuel as [|fuel IH]; intros l i d s n x I X T F; [lia|]. cbn [search]. destruct (entry l i) as [y|] eqn:Y.
  - rewrite time_sign. destruct (Z.leb_spec (Moment d s) (When y)) as [C | C].
    + exists y. cbv zeta. split; [lia|]. split; [exact Y|]. split; [exact C | intros; lia].
    + assert (i <> n) by (intros e; rewrite e, X in Y; injection Y as e2; rewrite e2 in T; lia).
      destruct (IH l (S i) d s n x ltac:(lia) X T ltac:(lia)) as (z & K). cbv zeta in *. destruct K as (K1 & K2 & K3 & K4). exists z. split; [lia|]. split; [exact K2|]. split; [exact K3|].
      intros m w M W. destruct (Nat.eq_dec m i) as [-> | N]; [rewrite Y in W; injection W as <-; lia | apply (K4 m w); [lia | exact W]].
  - exfalso. destruct i as [|i]; [lia|]. cbn in Y. apply nth_error_None in Y. destruct n as [|n]; [lia|]. cbn in X. assert (n < length l)%nat by (apply nth_error_Some; congruence). lia.
Qed.
Lemma clamp_range n i : (2 <= n)%nat -> (1 <= clamp n i <= n - 1)%nat /\ (clamp n i <= Nat.max i 1)%nat.
Proof. intros N. unfold clamp. cbv zeta. destruct (Nat.ltb_spec i 1); destruct (Nat.ltb_spec (n - 1) 1); destruct (Nat.ltb_spec (n - 1) i); lia. Qed.

(** The places before the one to start from are before the time. *)
Definition Ready (l : list sample) (start : nat) (t : Z) : Prop := forall m z, (1 <= m < start)%nat -> entry l m = Some z -> (When z < t)%Z.

Lemma interp_reading l d s rnear start : In_order l -> (2 <= length l)%nat -> Covered l d s -> Ready l start (Moment d s) ->
  (forall a b, In a l -> In b l -> inject_Z (When b - When a) <= 86400 * rnear) ->
  exists v i, interp l d s rnear 0 start = (Some v, i) /\ Ready l i (Moment d s) /\ Reading l (Moment d s) v.
Proof.
  intros O N [S0 (a0 & b0 & A0 & B0 & T)] R NEAR. set (t := Moment d s) in *.
  apply In_nth_error in B0. destruct B0 as [n B0]. assert (NL : (n < length l)%nat) by (apply nth_error_Some; congruence).
  destruct (clamp_range (length l) start N) as [C1 C2].
  assert (NC : (clamp (length l) start <= S n)%nat).
  { destruct (le_lt_dec (clamp (length l) start) (S n)); [assumption|]. exfalso. assert (When b0 < t)%Z by (apply (R (S n) b0); [lia | exact B0]). lia. }
  destruct (search_ok (S (length l)) l (clamp (length l) start) d s (S n) b0 ltac:(lia) B0 ltac:(fold t; lia) ltac:(lia)) as (x & K). cbv zeta in K.
  remember (search (S (length l)) l (clamp (length l) start) d s) as i eqn:DI. destruct K as (K1 & X & K3 & K4). fold t in K3, K4.
  assert (RI : Ready l i t).
  { intros m z M Z. destruct (le_lt_dec (clamp (length l) start) m) as [G | G]; [apply (K4 m z); [lia | exact Z] | apply (R m z); [lia | exact Z]]. }
  destruct i as [|k]; [lia|]. cbn [entry] in X.
  assert (AFT : forall m z, (k <= m)%nat -> nth_error l m = Some z -> (When x <= When z)%Z).
  { intros m z M Z. destruct (Nat.eq_dec m k) as [-> | NE]; [rewrite X in Z; injection Z as <-; lia | pose proof (order_index l k m x z O X Z ltac:(lia)); lia]. }
  assert (ATX : forall a, In a l -> When a = t -> a = x).
  { intros a I E. apply In_nth_error in I. destruct I as [m I]. destruct (le_lt_dec k m) as [G | G].
    - destruct (Nat.eq_dec m k) as [-> | NE]; [congruence|]. pose proof (order_index l k m x a O X I ltac:(lia)). lia.
    - pose proof (RI (S m) a ltac:(lia) I). lia. }
  assert (BET : forall pre a b post, l = pre ++ a :: b :: post -> (When a < t < When b)%Z -> b = x /\ (1 <= k)%nat /\ nth_error l (k - 1) = Some a).
  { intros pre a b post E H. assert (Ia : nth_error l (length pre) = Some a) by (rewrite E, nth_error_app2, Nat.sub_diag by lia; reflexivity).
    assert (Ib : nth_error l (S (length pre)) = Some b) by (rewrite E, nth_error_app2 by lia; replace (S (length pre) - length pre)%nat with 1%nat by lia; reflexivity).
    assert (length pre < k)%nat by (destruct (le_lt_dec k (length pre)) as [G | G]; [pose proof (AFT _ _ G Ia); lia | exact G]).
    assert (k <= S (length pre))%nat by (destruct (le_lt_dec k (S (length pre))) as [G | G]; [exact G|]; pose proof (RI (S (S (length pre))) b ltac:(lia) Ib); lia).
    assert (k = S (length pre)) as -> by lia. rewrite X in Ib. split; [congruence|]. split; [lia|]. replace (S (length pre) - 1)%nat with (length pre) by lia. exact Ia. }
  replace (interp l d s rnear 0 start) with (interp_many l d s rnear 0 start) by (destruct l as [|l1 [|l2 r]]; [cbn in N; lia | cbn in N; lia | reflexivity]).
  unfold interp_many. cbv zeta. rewrite <- DI. cbn [entry]. rewrite X.
  pose proof (time_to_when d s (days x) (secs x)) as TX. fold (When x) t in TX. set (diff := time_to d s (days x) (secs x)) in *.
  assert (D0 : 0 <= diff) by (pose proof (inject_nonneg (When x - t) ltac:(lia)); lra).
  destruct k as [|k].
  - (* the first sample *)
    cbn [Nat.eqb]. assert (TE : When x = t).
    { assert (When x <= When a0)%Z by (apply In_nth_error in A0; destruct A0 as [m A0]; apply (AFT m a0); [lia | exact A0]). lia. }
    assert (DZ : diff == 0) by (rewrite TX, TE, Z.sub_diag; reflexivity). rewrite (qle_true diff 0) by lra. exists (flow x), 1%nat. split; [reflexivity|]. split; [exact RI|]. split.
    + intros a I E. rewrite (ATX a I E). split; [auto | reflexivity].
    + intros pre a b post E H. destruct (BET pre a b post E H) as (_ & Z & _). lia.
  - cbn [Nat.eqb]. replace (S (S k) - 1)%nat with (S k) by lia. destruct (entry l (S k)) as [p|] eqn:P; cbn [entry] in P.
    2: { apply nth_error_None in P. assert (S k < length l)%nat by (apply nth_error_Some; congruence). lia. }
    assert (PT : (When p < t)%Z) by (apply (RI (S k) p); [lia | exact P]).
    pose proof (time_to_when (days p) (secs p) (days x) (secs x)) as TP. fold (When p) (When x) in TP. set (dentime := time_to (days p) (secs p) (days x) (secs x)) in *.
    assert (DP : 0 < dentime) by (pose proof (inject_pos (When x - When p) ltac:(lia)); lra).
    rewrite (qle_false dentime 0) by lra.
    assert (D1 : dentime - diff == (1 # 86400) * inject_Z (t - When p)) by (rewrite TP, TX, !inject_sub; ring). assert (D1P : 0 < dentime - diff) by (pose proof (inject_pos (t - When p) ltac:(lia)); lra).
    assert (NR : qlt rnear (dentime - diff) && qlt rnear diff = false).
    { assert (dentime <= rnear) by (pose proof (NEAR p x (nth_error_In _ _ P) (nth_error_In _ _ X)); lra). rewrite (qlt_false rnear diff) by lra. apply andb_false_r. }
    rewrite NR. rewrite (qle_false (dentime - diff) 0) by lra.
    assert (LN : flow p + (flow x - flow p) / dentime * (dentime - diff) == Line p x t).
    { unfold Line. rewrite D1, TP. pose proof (inject_pos (When x - When p) ltac:(lia)). set (y := inject_Z (When x - When p)) in *. set (w := inject_Z (t - When p)). clearbody y w. field. lra. }
    assert (LOW : low == - inject_Z (10 ^ 38)) by reflexivity. assert (MV : Missing missing_value) by reflexivity.
    destruct (qlt (flow x) low) eqn:EX; [apply qlt_t in EX | apply qlt_f in EX].
    + exists missing_value, (S (S k)). split; [reflexivity|]. split; [exact RI|]. split.
      * intros a I E. rewrite (ATX a I E). split; [intros; exact MV | intros NM; exfalso; apply NM; unfold Missing; lra].
      * intros pre a b post E H. destruct (BET pre a b post E H) as (-> & _ & _). split; [intros; exact MV | intros _ NM; exfalso; apply NM; unfold Missing; lra].
    + destruct (qlt (flow p) low) eqn:EP; [apply qlt_t in EP | apply qlt_f in EP].
      * eexists _, (S (S k)). split; [reflexivity|]. split; [exact RI|]. split.
        -- intros a I E. assert (a = x) by now apply ATX. subst a. rewrite (qle_true diff 0) by (rewrite TX, E, Z.sub_diag; discriminate).
           split; [auto | reflexivity].
        -- intros pre a b post E H. destruct (BET pre a b post E H) as (-> & _ & IA). replace (S k - 1)%nat with k in IA by lia. rewrite P in IA. injection IA as ->.
           rewrite (qle_false diff 0) by (pose proof (inject_pos (When x - t) ltac:(lia)); lra).
           split; [intros; exact MV | intros NM; exfalso; apply NM; unfold Missing; lra].
      * eexists _, (S (S k)). split; [reflexivity|]. split; [exact RI|]. split.
        -- intros a I E. assert (a = x) by now apply ATX. subst a. split; [unfold Missing; intros; lra|]. intros _.
           assert (DZ : diff == 0) by (rewrite TX, E, Z.sub_diag; reflexivity). rewrite DZ. field. lra.
        -- intros pre a b post E H. destruct (BET pre a b post E H) as (-> & _ & IA). replace (S k - 1)%nat with k in IA by lia. rewrite P in IA. injection IA as ->.
           split; [unfold Missing; intros [M | M]; lra|]. intros _ _. exact LN.
Qed.

Lemma ready_later l i t t' : Ready l i t -> (t <= t')%Z -> Ready l i t'.
Proof. intros R T m z M Z. specialize (R m z M Z). lia. Qed.

(** C127: brought to any times within the record, that do not go back, the series has the value of the sample taken at that time, or the value on
    the straight line between the samples before and after it; a value between samples is missing when one of these is. *)
Theorem C127_time_base : forall l base, In_order l -> (2 <= length l)%nat -> Forall (fun s => Z.abs (days s) < 2 ^ 31)%Z l ->
  Forward base -> Forall (fun p => Covered l (fst p) (snd p)) base ->
  exists vals, time_base l base = map Some vals /\ Forall2 (fun p v => Reading l (Moment (fst p) (snd p)) v) base vals.
Proof.
  intros l base O N DAYS. unfold time_base.
  assert (NEAR : forall a b, In a l -> In b l -> inject_Z (When b - When a) <= 86400 * inject_Z (10 ^ 20)).
  { intros a b A B. change 86400 with (inject_Z 86400). rewrite <- inject_Z_mult, <- Zle_Qle. rewrite Forall_forall in DAYS. pose proof (DAYS a A). pose proof (DAYS b B).
    assert (SECS : forall x, In x l -> (0 <= secs x < 86400)%Z).
    { clear - O. revert O. induction l as [|y l IH]; intros O x I; [destruct I|]. destruct (order_tail y l O) as [O1 S1]. destruct I as [<- | I]; [exact S1 | now apply IH]. }
    pose proof (SECS a A). pose proof (SECS b B). unfold When, Moment. change (2 ^ 31)%Z with 2147483648%Z in *. change (86400 * 10 ^ 20)%Z with 8640000000000000000000000%Z. lia. }
  assert (GEN : forall base start, (match base with [] => True | (d, s) :: _ => Ready l start (Moment d s) end) -> Forward base -> Forall (fun p => Covered l (fst p) (snd p)) base ->
     exists vals, on_base l base start = map Some vals /\ Forall2 (fun p v => Reading l (Moment (fst p) (snd p)) v) base vals).
  { clear base. induction base as [|[d s] base IH]; intros start R F C; [exists []; split; [reflexivity | constructor]|].
    inversion C as [|? ? C1 C2]. subst. cbn [fst snd] in C1. destruct (interp_reading l d s (inject_Z (10 ^ 20)) start O N C1 R NEAR) as (v & i & E & RI & RD).
    cbn [on_base]. rewrite E. destruct (IH i) as (vals & EV & FV).
    - destruct base as [|[d' s'] base]; [exact Logic.I|]. cbn [Forward] in F. apply (ready_later l i (Moment d s)); [exact RI | apply F].
    - destruct base as [|[d' s'] base]; [exact Logic.I|]. cbn [Forward] in F. apply F.
    - exact C2.
    - exists (v :: vals). rewrite EV. split; [reflexivity | constructor; [exact RD | exact FV]]. }
  intros F C. apply GEN; [|exact F | exact C]. destruct base as [|[d s] base]; [exact Logic.I|]. intros m z M. lia.
Qed.
Print Assumptions C127_time_base.

Lemma covered_cases l : forall t a0 b0, In_order l -> In a0 l -> In b0 l -> (When a0 <= t <= When b0)%Z ->
  (exists a, In a l /\ When a = t) \/ (exists pre a b post, l = pre ++ a :: b :: post /\ (When a < t < When b)%Z).
Proof.
  induction l as [|p l IH]; intros t a0 b0 O A B T; [destruct A|]. pose proof (order_tail p l O) as [O1 _].
  assert (PT : (When p <= t)%Z) by (destruct A as [-> | A]; [lia | pose proof (order_later l p a0 O A); lia]).
  destruct (Z.eq_dec (When p) t) as [E | NE]; [left; exists p; split; [now left | exact E]|].
  destruct B as [-> | B]; [lia|]. destruct l as [|c r]; [destruct B|]. destruct (Z_lt_le_dec t (When c)) as [C | C].
  - right. exists [], p, c, r. split; [reflexivity | lia].
  - destruct (IH t c b0 O1 (or_introl eq_refl) B ltac:(lia)) as [(a & I & E) | (pre & a & b & post & E & H)]; [left; exists a; split; [now right | exact E]|].
    right. exists (p :: pre), a, b, post. split; [cbn [app]; now rewrite E | exact H].
Qed.

(** C127: without missing values, all values of the new series are between the lowest and the highest of the old one; two readings of the same
    moment are the same. *)
Theorem C127_within : forall l d s lo hi v w, In_order l -> Covered l d s -> Forall (fun x => lo <= flow x <= hi) l -> Forall (fun x => ~ Missing (flow x)) l ->
  Reading l (Moment d s) v -> Reading l (Moment d s) w -> lo <= v <= hi /\ v == w.
Proof.
  intros l d s lo hi v w O [S0 (a0 & b0 & A0 & B0 & T)] B M RV RW. rewrite Forall_forall in B, M.
  destruct (covered_cases l (Moment d s) a0 b0 O A0 B0 T) as [(a & I & E) | (pre & a & b & post & E & H)].
  - destruct (proj1 RV a I E) as [_ V]. destruct (proj1 RW a I E) as [_ W]. specialize (V (M a I)). specialize (W (M a I)). specialize (B a I). split; lra.
  - assert (IA : In a l) by (rewrite E; apply in_or_app; right; now left). assert (IB : In b l) by (rewrite E; apply in_or_app; right; right; now left).
    destruct (proj2 RV pre a b post E H) as [_ V]. destruct (proj2 RW pre a b post E H) as [_ W]. specialize (V (M a IA) (M b IB)). specialize (W (M a IA) (M b IB)).
    pose proof (line_bounds a b (Moment d s) lo hi ltac:(lia) ltac:(lia) (B a IA) (B b IB)). split; lra.
Qed.
Print Assumptions C127_within.

(** C127: a series of one sample can only be read at the time of that sample. *)
Theorem C127_one : forall x d s, (Moment d s = When x -> time_base [x] [(d, s)] = [Some (flow x)]) /\
  ((When x < Moment d s)%Z -> time_base [x] [(d, s)] = [Some (- inject_Z (91 * 10 ^ 36))]) /\ ((Moment d s < When x)%Z -> time_base [x] [(d, s)] = [Some (- inject_Z (81 * 10 ^ 36))]).
Proof.
  intros x d s. unfold time_base, on_base, interp. cbv zeta. pose proof (time_to_when (days x) (secs x) d s) as T. fold (When x) in T.
  set (z := time_to (days x) (secs x) d s) in *. split; [|split]; intros H.
  - rewrite H, Z.sub_diag in T. change (inject_Z 0) with 0 in T. assert (Z0 : z == 0) by lra. rewrite (qle_true (Qabs z) 0); [reflexivity|]. rewrite Z0. discriminate.
  - pose proof (inject_pos (Moment d s - When x) ltac:(lia)). assert (P : 0 < z) by lra. rewrite (qle_false (Qabs z) 0) by (rewrite Qabs_pos by lra; lra). rewrite (qlt_true 0 z P). reflexivity.
  - pose proof (inject_neg (Moment d s - When x) ltac:(lia)). assert (P : z < 0) by lra. rewrite (qle_false (Qabs z) 0) by (rewrite Qabs_neg by lra; lra). rewrite (qlt_false 0 z) by lra. reflexivity.
Qed.
Print Assumptions C127_one.

Definition record : list sample := [Sample 10 43200 4; Sample 11 43200 6; Sample 12 0 (inject_Z (-11 * 10 ^ 37)); Sample 14 0 5; Sample 15 0 7].
Definition times : list (Z * Z) := [(10, 43200); (11, 0); (11, 43200); (11, 50000); (13, 0); (14, 0); (14, 21600); (15, 0); (15, 0)]%Z.
Example C127_example : In_order record /\ Forward times /\ Forall (fun p => Covered record (fst p) (snd p)) times /\
  map (option_map Qred) (time_base record times) =
    [Some 4; Some 5; Some 6; Some (inject_Z (-11 * 10 ^ 37)); Some (inject_Z (-11 * 10 ^ 37)); Some 5; Some (11 # 2); Some 7; Some 7].
Proof.
  split; [cbn; unfold When, Moment; cbn; lia|]. split; [cbn; unfold Moment; lia|]. split; [|vm_compute; reflexivity].
  assert (C : forall d s, (0 <= s < 86400)%Z -> (Moment 10 43200 <= Moment d s <= Moment 15 0)%Z -> Covered record d s).
  { intros d s S0 T. split; [exact S0|]. exists (Sample 10 43200 4), (Sample 15 0 7). split; [now left|]. split; [do 4 right; now left | exact T]. }
  unfold times. repeat apply Forall_cons; try apply Forall_nil; cbn [fst snd]; (apply C; [lia | unfold Moment; lia]).
Qed.
