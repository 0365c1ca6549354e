From Coq Require Import String List ZArith Bool Arith Lia Sorted Permutation.
From Verif Require Import CStr_Model Sort_Model Sort_Proofs Dim_Model Var_Model Var_Spec.
Import ListNotations.
Local Open Scope string_scope.
Local Open Scope list_scope.

Definition klt (a b : pubvar) : Prop := slt (v_key a) (v_key b).
Definition Sorted_vars (l : list pubvar) : Prop := StronglySorted klt l.

Lemma sorted_nth : forall l, Sorted_vars l -> forall i j a b, i < j ->
  nth_error l i = Some a -> nth_error l j = Some b -> klt a b.
Proof.
  unfold Sorted_vars; induction 1 as [|x l S IH F]; intros i j a b L A B.
  - destruct i; discriminate.
  - destruct j as [|j]; [lia|]. destruct i as [|i]; cbn in *.
    + inversion A; subst. rewrite Forall_forall in F. apply F. eapply nth_error_In; eauto.
    + eapply IH; [|eassumption|eassumption]; lia.
Qed.

Lemma keycmp_some : forall l i v key, nth_error l i = Some v ->
  keycmp (map Some l) i key = Ret (String.compare (v_key v) key).
Proof. intros; unfold keycmp. rewrite nth_error_map, H; reflexivity. Qed.

Lemma entry_some : forall l i v, nth_error l i = Some v ->
  entry (map Some l) i = Ret (Some v).
Proof. intros; unfold entry. rewrite nth_error_map, H; reflexivity. Qed.

(** Result of a search: the entry with the key, or [None] when there is none. *)
Definition Found (l : list pubvar) (key : string) (r : option pubvar) : Prop :=
  match r with
  | Some v => In v l /\ v_key v = key
  | None => forall v, In v l -> v_key v <> key
  end.

Lemma found_unique : forall l key r r', Sorted_vars l -> Found l key r -> Found l key r' -> r = r'.
Proof.
  intros l key [v|] [w|] S F F'; cbn in *; auto.
  - destruct F as [I K], F' as [I' K']. f_equal.
    apply In_nth_error in I, I'. destruct I as [i I], I' as [j I'].
    destruct (Nat.lt_trichotomy i j) as [L|[->|L]].
    + exfalso. pose proof (sorted_nth l S i j v w L I I') as X. unfold klt in X.
      rewrite K, K' in X. apply slt_irrefl in X; auto.
    + congruence.
    + exfalso. pose proof (sorted_nth l S j i w v L I' I) as X. unfold klt in X.
      rewrite K, K' in X. apply slt_irrefl in X; auto.
  - exfalso; destruct F; eapply F'; eauto.
  - exfalso; destruct F'; eapply F; eauto.
Qed.

Lemma bisect_spec : forall l key, Sorted_vars l -> forall fuel low high vl vh,
  low < high -> high - low <= fuel ->
  nth_error l low = Some vl -> nth_error l high = Some vh ->
  slt (v_key vl) key -> slt key (v_key vh) ->
  exists r, bisect fuel (map Some l) key low high = Ret r /\ Found l key r.
Proof.
  intros l key S. induction fuel as [|fuel IH]; intros low high vl vh L F Nl Nh Kl Kh; [lia|].
  cbn [bisect]. destruct (Nat.eqb_spec low high); [lia|].
  pose (mid := (low + high) / 2).
  assert (M : low <= mid < high).
  { subst mid. split; [apply Nat.div_le_lower_bound; lia|apply Nat.div_lt_upper_bound; lia]. }
  assert (M2 : low + high < 2 * mid + 2).
  { subst mid. pose proof (Nat.mul_succ_div_gt (low + high) 2). lia. }
  fold mid. clearbody mid.
  destruct (nth_error l mid) as [vm|] eqn:Nm.
  2:{ apply nth_error_None in Nm. assert (high < length l) by (apply nth_error_Some; congruence). lia. }
  rewrite (keycmp_some l mid vm key Nm); cbn [bind].
  destruct (String.compare (v_key vm) key) eqn:C.
  - rewrite (entry_some l mid vm Nm). exists (Some vm); split; auto. split.
    + eapply nth_error_In; eauto.
    + apply scompare_eq; auto.
  - destruct (Nat.eqb_spec mid low); cbn [orb].
    + exists None; split; auto. intros v I K.
      assert (high = low + 1).
      { lia. }
      apply In_nth_error in I; destruct I as [i I].
      destruct (Nat.lt_trichotomy i low) as [L1|[->|L1]].
      * pose proof (sorted_nth l S i low v vl L1 I Nl) as X. unfold klt in X. rewrite K in X.
        apply (slt_irrefl key). eapply slt_trans; eauto.
      * assert (v = vl) by congruence. subst. apply (slt_irrefl (v_key vl)); auto.
      * destruct (Nat.eq_dec i high) as [->|].
        -- assert (v = vh) by congruence. subst. apply (slt_irrefl (v_key vh)); auto.
        -- assert (high < i) by lia. pose proof (sorted_nth l S high i vh v H0 Nh I) as X.
           unfold klt in X. rewrite K in X. apply (slt_irrefl key). eapply slt_trans; eauto.
    + destruct (Nat.eqb_spec mid high); [lia|]. cbn.
      apply (IH mid high vm vh); auto; lia.
  - apply sgt_slt in C. destruct (Nat.eqb_spec mid low) as [Em|]; cbn [orb].
    + exfalso. rewrite Em in Nm. assert (vm = vl) by congruence. subst.
      apply (slt_irrefl key). eapply slt_trans; eauto.
    + destruct (Nat.eqb_spec mid high); [lia|]. cbn.
      apply (IH low mid vl vm); auto; lia.
Qed.

Lemma var_addr_spec : forall l key, Sorted_vars l ->
  exists r, var_addr (map Some l) key = Ret r /\ Found l key r.
Proof.
  intros l key S. destruct l as [|a l0] eqn:El.
  { exists None; split; auto. intros ? []. }
  unfold var_addr. change (map Some (a :: l0)) with (Some a :: map Some l0) at 1.
  cbv iota. rewrite <- El in *.
  assert (N0 : nth_error l 0 = Some a) by (subst; auto).
  rewrite (keycmp_some l 0 a key N0); cbn [bind].
  destruct (String.compare (v_key a) key) eqn:C.
  - rewrite (entry_some l 0 a N0). exists (Some a); split; auto.
    split; [subst; cbn; auto|apply scompare_eq; auto].
  - rewrite map_length.
    destruct (nth_error l (length l - 1)) as [z|] eqn:Nz.
    2:{ apply nth_error_None in Nz. subst; cbn in Nz; lia. }
    rewrite (keycmp_some l _ z key Nz); cbn [bind].
    destruct (String.compare (v_key z) key) eqn:Cz.
    + rewrite (entry_some l _ z Nz). exists (Some z); split; auto.
      split; [eapply nth_error_In; eauto|apply scompare_eq; auto].
    + exists None; split; auto. intros v I K. apply In_nth_error in I; destruct I as [i I].
      assert (i < length l) by (apply nth_error_Some; congruence).
      destruct (Nat.eq_dec i (length l - 1)) as [->|].
      * assert (v = z) by congruence; subst v. rewrite K, scompare_refl in Cz; discriminate.
      * assert (X : klt v z) by (apply (sorted_nth l S i (length l - 1)); auto; lia).
        unfold klt in X. rewrite K in X. apply (slt_irrefl key). eapply slt_trans; eauto.
    + apply sgt_slt in Cz.
      assert (0 < length l - 1).
      { destruct (length l - 1) eqn:E; [|lia]. assert (a = z) by congruence. subst z.
        exfalso. apply (slt_irrefl key). eapply slt_trans; eauto. }
      destruct (bisect_spec l key S (length l) 0 (length l - 1) a z) as (r & E & F); auto; try lia.
      exists r; auto.
  - exists None; split; auto. intros v I K. apply sgt_slt in C.
    apply In_nth_error in I; destruct I as [[|i] I].
    + assert (v = a) by congruence; subst v. rewrite K in C. apply (slt_irrefl key); auto.
    + assert (X : klt a v) by (apply (sorted_nth l S 0 (Datatypes.S i)); auto; lia).
      unfold klt in X. rewrite K in X. apply (slt_irrefl key). eapply slt_trans; eauto.
Qed.

Lemma sort_vars_spec : forall l, NoDup (map v_key l) ->
  exists l', sort_vars (map Some l) = Ret (map Some l') /\ Permutation l' l /\ Sorted_vars l'.
Proof.
  intros l N.
  destruct (bubble_sort_spec (fun o => match o with Some v => v_key v | None => "" end)
    var_gt (fun o => o <> None)) with (l := map Some l) as (m & E & P & S).
  - intros [a|] [b|] A B; try congruence. reflexivity.
  - apply Forall_forall; intros x I. apply in_map_iff in I. destruct I as (? & <- & _). discriminate.
  - assert (Q : exists l', m = map Some l' /\ Permutation l' l).
    { apply Permutation_map_inv in P. destruct P as (l' & -> & P). exists l'; split; auto. symmetry; auto. }
    destruct Q as (l' & -> & Q). exists l'; repeat split; auto.
    assert (N' : NoDup (map v_key l')) by (rewrite (Permutation_map v_key Q); auto).
    clear - S N'. unfold Sorted_vars. induction l' as [|a l' IH]; constructor; inversion S; inversion N'; subst; auto.
    apply Forall_forall; intros x I. rewrite Forall_forall in H2.
    specialize (H2 (Some x) (in_map Some _ _ I)). unfold kle in H2.
    apply sle_lt_eq in H2. destruct H2 as [|H2]; auto.
    exfalso. apply H5. rewrite H2. apply in_map; auto.
Qed.

Lemma sorted_nodup : forall l, Sorted_vars l -> NoDup (map v_key l).
Proof.
  unfold Sorted_vars; induction 1 as [|a l S IH F]; cbn; constructor; auto.
  rewrite in_map_iff; intros (x & E & I). rewrite Forall_forall in F.
  specialize (F _ I). unfold klt in F. rewrite E in F. apply slt_irrefl in F; auto.
Qed.

(** The registry after a history of calls each correct in itself. *)
Definition Holds (db : vardb) (h : list varcall) : Prop :=
  exists l, vars db = map Some l /\ length l < max_vars db /\ Sorted_vars l /\
   (forall v, In v l -> exists c, FirstVar (v_key v) h c /\ Makes c v) /\
   (forall c, In c h -> exists v, In v l /\ v_key v = call_name c).

Lemma type_name_fun : forall t ty, TypeName t ty -> type_of_name t = Ret ty.
Proof. destruct 1; reflexivity. Qed.

Lemma size_values : forall dims toks n, Size dims toks n ->
  exists vals, dim_values dims toks = Some vals /\ prod vals = n.
Proof.
  unfold prod. assert (G : forall vals k, fold_left Z.mul vals k = (k * fold_left Z.mul vals 1)%Z).
  { induction vals as [|a vals IH]; intros k; cbn [fold_left]; [lia|].
    rewrite (IH (k * a)%Z), (IH (1 * a)%Z). lia. }
  induction 1 as [|t r d n D S (vals & E & P)].
  - exists []; auto.
  - exists (d_value d :: vals). cbn [dim_values]. rewrite D, E. split; auto.
    cbn [fold_left]. rewrite G, P. lia.
Qed.

Lemma makes_fun : forall c v w, Makes c v -> Makes c w -> v = w.
Proof.
  intros c v w H1 H2.
  destruct H1 as [dims m n d x t a ty size T L S X|n s t a ty T]; inversion H2; subst.
  - match goal with Hs : Size _ _ ?z, Ht : TypeName _ ?y |- _ = mkvar _ _ _ ?z ?y _ _ =>
      apply type_name_fun in T, Ht; destruct (size_values _ _ _ S) as (q & E & <-);
      destruct (size_values _ _ _ Hs) as (q' & E' & <-);
      assert (ty = y) by congruence; assert (q = q') by congruence; subst; reflexivity end.
  - match goal with Ht : TypeName _ ?y |- _ = mkvar _ _ _ _ ?y _ _ =>
      apply type_name_fun in T, Ht; assert (ty = y) by congruence; subst; reflexivity end.
Qed.

Lemma makes_key : forall c v, Makes c v -> v_key v = call_name c.
Proof. destruct 1; auto. Qed.

Lemma room_spec : forall db, length (vars db) < max_vars db ->
  vars (room db) = vars db /\ S (length (vars db)) < max_vars (room db).
Proof.
  intros db L. unfold room. destruct (Nat.leb_spec (max_vars db - 1) (length (vars db))); cbn; split; auto; lia.
Qed.

(** Effect of one call that is correct in itself. *)
Lemma do_varcall_eq : forall pm db c v, Makes c v -> length (vars db) < max_vars db ->
  do_varcall pm db c =
   (do found <- var_addr (vars db) (call_name c);
    match found with
    | Some _ => Ret (room db, match c with CallVar _ _ _ _ _ _ _ => if pm then 0 else 1 | _ => 1 end)%Z
    | None => do s <- sort_vars (vars db ++ [Some v]);
              Ret (mkvardb s (max_vars (room db)), 0%Z)
    end).
Proof.
  intros pm db c v M L. destruct (room_spec db L) as [R1 R2].
  assert (P : forall o, push (room db) o = Ret (mkvardb (vars db ++ [o]) (max_vars (room db)))).
  { intros o; unfold push. rewrite R1. destruct (Nat.ltb_spec (length (vars db)) (max_vars (room db))); auto; lia. }
  destruct M; cbn [do_varcall call_name]; unfold declvar, declpri; rewrite R1;
    destruct (var_addr (vars db) n) as [[?|]| |]; cbn [bind]; auto;
    rewrite (type_name_fun _ _ H); cbn [bind].
  - destruct (Nat.ltb_spec 3 (length (strtok is_comma d))); [lia|].
    destruct (size_values _ _ _ H1) as (vals & E & Pv). rewrite E, Pv.
    destruct (Z.gtb_spec size x); [lia|]. rewrite P; cbn [bind vars max_vars]. reflexivity.
  - rewrite P; cbn [bind vars max_vars]. reflexivity.
Qed.

Lemma firstvar_snoc : forall n h c c', FirstVar n h c -> FirstVar n (h ++ [c']) c.
Proof.
  intros n h c c' (h1 & h2 & -> & A & B). exists h1, (h2 ++ [c']).
  rewrite <- app_assoc; auto.
Qed.

Lemma holds_call : forall pm db h c v, Holds db h -> Makes c v ->
  exists db' code, do_varcall pm db c = Ret (db', code) /\ Holds db' (h ++ [c]) /\
   ((code = 0%Z /\ forall c', In c' h -> call_name c' <> call_name c) \/
    (code = match c with CallVar _ _ _ _ _ _ _ => if pm then 0 else 1 | _ => 1 end)%Z /\
      exists c', In c' h /\ call_name c' = call_name c).
Proof.
  intros pm db h c v (l & E & L & S & A & B) M.
  assert (L' : length (vars db) < max_vars db) by (rewrite E, map_length; auto).
  rewrite (do_varcall_eq pm db c v M L').
  destruct (room_spec db L') as [R1 R2]. rewrite E in R2; rewrite map_length in R2.
  rewrite E. destruct (var_addr_spec l (call_name c) S) as ([w|] & Ev & F); rewrite Ev; cbn [bind].
  - eexists _, _; split; [reflexivity|]. destruct F as [I K]. split.
    + exists l; repeat split; auto; try congruence; try lia.
      * intros v0 I0. destruct (A v0 I0) as (c0 & F0 & M0). exists c0; split; auto using firstvar_snoc.
      * intros c0 I0. apply in_app_iff in I0; destruct I0 as [I0|[<-|[]]]; eauto.
    + right; split; auto. destruct (A w I) as (c0 & (h1 & h2 & -> & N0 & _) & M0).
      exists c0; split; [apply in_app_iff; cbn; auto|congruence].
  - assert (N : NoDup (map v_key (l ++ [v]))).
    { rewrite map_app; cbn. apply (Permutation_NoDup (l := v_key v :: map v_key l)).
      - apply Permutation_cons_append.
      - constructor; [|apply sorted_nodup; auto]. rewrite in_map_iff; intros (x & Ex & Ix).
        apply (F x Ix). rewrite Ex. apply makes_key; auto. }
    destruct (sort_vars_spec (l ++ [v]) N) as (l' & Es & P & S').
    rewrite map_app in Es; cbn in Es. rewrite Es; cbn [bind].
    assert (Fr : forall c', In c' h -> call_name c' <> call_name c).
    { intros c' I' K. destruct (B c' I') as (v' & Iv & Kv). apply (F v' Iv); congruence. }
    eexists _, _; split; [reflexivity|]. split.
    + exists l'; cbn [vars max_vars]; repeat split; auto.
      * rewrite P, app_length; cbn; lia.
      * intros v0 I0. rewrite P in I0. apply in_app_iff in I0; destruct I0 as [I0|[<-|[]]].
        -- destruct (A v0 I0) as (c0 & F0 & M0). exists c0; split; auto using firstvar_snoc.
        -- exists c; split; auto. rewrite (makes_key c v M). exists h, []; auto.
      * intros c0 I0. apply in_app_iff in I0; destruct I0 as [I0|[<-|[]]].
        -- destruct (B c0 I0) as (v0 & I & K). exists v0; split; auto. rewrite P; apply in_app_iff; auto.
        -- exists v; split; [rewrite P; apply in_app_iff; cbn; auto|apply makes_key; auto].
    + left; auto.
Qed.

Lemma run_varcalls_holds : forall pm k db h, Holds db h -> (forall c, In c k -> exists v, Makes c v) ->
  exists db' codes, run_varcalls pm db k = Ret (db', codes) /\ Holds db' (h ++ k) /\
    length codes = length k /\
    forall i c, nth_error k i = Some c ->
      (nth_error codes i = Some 0%Z /\ forall c', In c' (h ++ firstn i k) -> call_name c' <> call_name c) \/
      (nth_error codes i = Some (match c with CallVar _ _ _ _ _ _ _ => if pm then 0 else 1 | _ => 1 end)%Z /\
        exists c', In c' (h ++ firstn i k) /\ call_name c' = call_name c).
Proof.
  intros pm; induction k as [|c k IH]; intros db h H W.
  - exists db, []; cbn; rewrite app_nil_r; repeat split; auto. intros [|]; discriminate.
  - destruct (W c (or_introl eq_refl)) as (v & M).
    destruct (holds_call pm db h c v H M) as (db1 & code & E & H1 & C).
    destruct (IH db1 (h ++ [c]) H1) as (db' & codes & E' & H' & L & Cs); [intros; apply W; cbn; auto|].
    exists db', (code :: codes). cbn [run_varcalls]. rewrite E; cbn [bind]. rewrite E'; cbn [bind].
    rewrite <- app_assoc in H'. repeat split; auto; [cbn; auto|].
    intros [|i] c0 Hc; cbn in Hc.
    + inversion Hc; subst c0. cbn [nth_error firstn]. rewrite app_nil_r.
      destruct C as [[-> C]|[-> C]]; auto.
    + cbn [nth_error firstn]. specialize (Cs i c0 Hc). rewrite <- app_assoc in Cs. exact Cs.
Qed.

Lemma holds_start : Holds (mkvardb [] 500) [].
Proof.
  exists []; cbn [vars max_vars length]. repeat split; auto; try (intros ? []); [|constructor].
  apply Nat.ltb_lt; reflexivity.
Qed.

Lemma firstvar_unique : forall n h c c', FirstVar n h c -> FirstVar n h c' -> c = c'.
Proof.
  intros n h c c' (h1 & h2 & -> & A & B) (k1 & k2 & E & A' & B').
  revert k1 E B'; induction h1 as [|x h1 IH]; intros [|y k1] E B'; cbn in E; inversion E; subst; auto.
  - exfalso; apply (B' y); cbn; auto.
  - exfalso; apply (B c'); cbn; auto.
  - apply IH with k1; auto; intros; [apply B|apply B']; cbn; auto.
Qed.

Lemma lookup_main : forall pm h, (forall c, In c h -> exists v, Makes c v) ->
  exists db codes, run_vars pm h = Ret (db, codes) /\
   (forall key c v, FirstVar key h c -> Makes c v -> var_addr (vars db) key = Ret (Some v)) /\
   (forall key, (forall c, In c h -> call_name c <> key) -> var_addr (vars db) key = Ret None).
Proof.
  intros pm h W. destruct (run_varcalls_holds pm h _ [] holds_start W) as (db & codes & E & H & _).
  cbn in H. exists db, codes; split; [exact E|]. destruct H as (l & El & L & S & A & B). rewrite El. split.
  - intros key c v F M. destruct (var_addr_spec l key S) as (r & Er & Fr). rewrite Er; f_equal.
    pose proof F as (h1 & h2 & Eh & Nc & _).
    destruct (B c) as (w & Iw & Kw); [subst h; apply in_app_iff; cbn; auto|].
    assert (Fw : Found l key (Some w)) by (split; [auto|congruence]).
    rewrite (found_unique l key r (Some w) S Fr Fw). f_equal.
    destruct (A w Iw) as (c0 & F0 & M0). rewrite Kw, Nc in F0.
    rewrite (firstvar_unique _ _ _ _ F F0) in M. eapply makes_fun; eauto.
  - intros key N. destruct (var_addr_spec l key S) as ([w|] & Er & Fr); rewrite Er; auto.
    exfalso. destruct Fr as [Iw Kw]. destruct (A w Iw) as (c0 & (h1 & h2 & -> & N0 & _) & _).
    apply (N c0); [apply in_app_iff; cbn; auto|congruence].
Qed.

Lemma codes_main : forall pm h, (forall c, In c h -> exists v, Makes c v) ->
  exists db codes, run_vars pm h = Ret (db, codes) /\ length codes = length h /\
    forall i c, nth_error h i = Some c ->
      (nth_error codes i = Some 0%Z /\ forall c', In c' (firstn i h) -> call_name c' <> call_name c) \/
      (nth_error codes i = Some (match c with CallVar _ _ _ _ _ _ _ => if pm then 0 else 1 | _ => 1 end)%Z /\
        exists c', In c' (firstn i h) /\ call_name c' = call_name c).
Proof.
  intros pm h W. destruct (run_varcalls_holds pm h _ [] holds_start W) as (db & codes & E & _ & R).
  exists db, codes; auto.
Qed.
