(** Lemmas about the dimension registry. *)
From Coq Require Import String List ZArith Bool Lia Sorted Permutation.
From Verif Require Import CStr_Model Sort_Model Sort_Proofs Dim_Model Dim_Spec.
Import ListNotations.
Local Open Scope string_scope.
Local Open Scope list_scope.
Local Open Scope Z_scope.

Lemma dim_addr_some : forall db n d, dim_addr db n = Some d -> In d db /\ d_name d = n.
Proof.
  induction db as [|e r IH]; cbn; intros n d H; try discriminate.
  unfold strcmp_zero in H. destruct (String.eqb_spec (d_name e) n).
  - inversion H; subst; auto.
  - destruct (IH _ _ H); auto.
Qed.

Lemma dim_addr_none : forall db n, dim_addr db n = None <-> ~ In n (map d_name db).
Proof.
  induction db as [|e r IH]; cbn; intros n; [tauto|].
  unfold strcmp_zero. destruct (String.eqb_spec (d_name e) n).
  - split; intros H; [discriminate|exfalso; auto].
  - rewrite IH; tauto.
Qed.

Lemma dim_addr_in : forall db d, NoDup (map d_name db) -> In d db ->
  dim_addr db (d_name d) = Some d.
Proof.
  induction db as [|e r IH]; cbn; intros d N I; [tauto|]. inversion N; subst.
  unfold strcmp_zero. destruct (String.eqb_spec (d_name e) (d_name d)) as [E|E].
  - destruct I as [->|I]; auto. exfalso; apply H1; rewrite E; apply in_map; auto.
  - destruct I as [->|I]; [congruence|auto].
Qed.

Lemma dim_addr_perm : forall db db' n, NoDup (map d_name db) -> Permutation db' db ->
  dim_addr db' n = dim_addr db n.
Proof.
  intros db db' n N P.
  assert (N' : NoDup (map d_name db')) by (rewrite (Permutation_map d_name P); auto).
  destruct (dim_addr db n) as [d|] eqn:E.
  - destruct (dim_addr_some _ _ _ E) as [I <-]. apply dim_addr_in; auto. rewrite P; auto.
  - apply dim_addr_none. rewrite (Permutation_map d_name P). apply dim_addr_none; auto.
Qed.

Lemma dim_addr_app : forall db e n, dim_addr (db ++ [e]) n =
  match dim_addr db n with Some d => Some d | None => if String.eqb (d_name e) n then Some e else None end.
Proof.
  induction db as [|d r IH]; cbn; intros; auto.
  unfold strcmp_zero; destruct (String.eqb (d_name d) n); auto.
Qed.

Definition Inv (db : dimdb) : Prop := StronglySorted (fun a b => slt (d_name a) (d_name b)) db.

Lemma inv_nodup : forall db, Inv db -> NoDup (map d_name db).
Proof.
  unfold Inv; induction 1 as [|a l S IH F]; cbn; constructor; auto.
  rewrite in_map_iff; intros (x & E & I). rewrite Forall_forall in F.
  specialize (F _ I). rewrite E in F. apply slt_irrefl in F; auto.
Qed.

Lemma sort_dims_spec : forall db, NoDup (map d_name db) ->
  exists db', sort_dims db = Ret db' /\ Permutation db' db /\ Inv db'.
Proof.
  intros db N.
  destruct (bubble_sort_spec d_name dim_gt (fun _ => True) (fun a b _ _ => eq_refl) db) as (l & E & P & S).
  - apply Forall_forall; auto.
  - exists l; repeat split; auto. apply sorted_strict; auto.
    rewrite (Permutation_map d_name P); auto.
Qed.

Lemma fix_last_spec : forall db, db <> [] ->
  exists p d, db = p ++ [d] /\ fix_last db = Ret (p ++ [mkdim (d_name d) (d_value d) (d_max d) true]).
Proof.
  induction db as [|d [|e r] IH]; intros H; [congruence| |].
  - exists [], d; auto.
  - destruct IH as (p & x & E & F); [congruence|].
    exists (d :: p), x. rewrite E; split; auto.
    change (fix_last (d :: p ++ [x])) with
      (match p ++ [x] with [] => Ret [mkdim (d_name d) (d_value d) (d_max d) true]
       | _ => do r' <- fix_last (p ++ [x]); Ret (d :: r') end).
    rewrite <- E, F. reflexivity.
Qed.

Lemma nodup_snoc : forall (A : Type) (l : list A) a, NoDup l -> ~ In a l -> NoDup (l ++ [a]).
Proof.
  intros A l a N H. apply (Permutation_NoDup (l := a :: l)).
  - apply Permutation_cons_append.
  - constructor; auto.
Qed.

Lemma decldim_spec : forall db n v m, Inv db ->
  exists db' code, decldim db n v m = Ret (db', code) /\ Inv db' /\
   ((code = 0 /\ dim_addr db n = None /\ 0 <= v <= m /\
      Permutation db' (db ++ [mkdim n v m false])) \/
    (code = 1 /\ db' = db /\ (dim_addr db n <> None \/ ~ 0 <= v <= m))).
Proof.
  intros db n v m I. unfold decldim.
  destruct (dim_addr db n) eqn:E.
  { exists db, 1; repeat split; auto. right; repeat split; auto. left; congruence. }
  destruct (v <? 0) eqn:E1.
  { apply Z.ltb_lt in E1. exists db, 1; repeat split; auto. right; repeat split; auto. right; lia. }
  destruct (v >? m) eqn:E2.
  { rewrite Z.gtb_ltb in E2; apply Z.ltb_lt in E2.
    exists db, 1; repeat split; auto. right; repeat split; auto. right; lia. }
  apply Z.ltb_ge in E1. rewrite Z.gtb_ltb in E2; apply Z.ltb_ge in E2.
  destruct (sort_dims_spec (db ++ [mkdim n v m false])) as (db' & Es & P & I').
  { rewrite map_app; cbn. apply nodup_snoc; [apply inv_nodup; auto|apply dim_addr_none; auto]. }
  rewrite Es; cbn. exists db', 0; repeat split; auto.
  left; repeat split; auto; lia.
Qed.

(** Only the [fixed] mark differs. *)
Definition unfix (d : dim) : dim := mkdim (d_name d) (d_value d) (d_max d) false.

Lemma dim_addr_unfix : forall db n, dim_addr (map unfix db) n = option_map unfix (dim_addr db n).
Proof.
  induction db as [|d r IH]; cbn [map dim_addr]; intros; auto.
  change (d_name (unfix d)) with (d_name d).
  destruct (strcmp_zero (d_name d) n); auto.
Qed.

Lemma inv_names : forall db db', map d_name db = map d_name db' -> Inv db -> Inv db'.
Proof.
  unfold Inv; induction db as [|d r IH]; intros [|e s] E I; cbn in *; try discriminate; auto.
  inversion E; inversion I; subst. constructor; auto.
  rewrite Forall_forall in *; intros x Hx.
  apply (in_map d_name) in Hx. rewrite <- H1 in Hx. apply in_map_iff in Hx.
  destruct Hx as (y & Ey & Hy). rewrite <- Ey, <- H0. auto.
Qed.

Lemma inv_unfix : forall db, Inv (map unfix db) <-> Inv db.
Proof.
  intros; split; apply inv_names; rewrite map_map; reflexivity.
Qed.

(** Outcome of one call, [decldim] or [declfix]. *)
Lemma do_call_spec : forall db c, Inv db -> db <> [] \/ c_fix c = false ->
  exists db' code, do_call db c = Ret (db', code) /\ Inv db' /\ (code = 0 -> db' <> []) /\
   ((code = 0 /\ dim_addr db (c_name c) = None /\ Legal c /\
      Permutation (map unfix db') (map unfix (db ++ [mkdim (c_name c) (c_value c) (c_max c) false]))) \/
    (code = 1 /\ map unfix db' = map unfix db /\ (c_fix c = false -> db' = db) /\
      (dim_addr db (c_name c) <> None \/ ~ Legal c))).
Proof.
  intros db c I NE. unfold do_call.
  destruct (decldim_spec db (c_name c) (c_value c) (c_max c) I) as (db1 & code & E & I1 & C).
  assert (NE1 : db1 <> [] \/ c_fix c = false /\ code = 1).
  { destruct C as [(-> & _ & _ & P)|(-> & -> & _)].
    - left; intros ->. apply Permutation_nil in P. destruct db; discriminate.
    - destruct NE; auto. }
  destruct (c_fix c) eqn:F.
  - destruct NE1 as [NE1|[? ?]]; [|discriminate].
    unfold declfix. rewrite E; cbn [bind].
    destruct (fix_last_spec db1 NE1) as (p & d & Ed & Ef). rewrite Ef; cbn [bind].
    exists (p ++ [mkdim (d_name d) (d_value d) (d_max d) true]), code.
    assert (U : map unfix (p ++ [mkdim (d_name d) (d_value d) (d_max d) true]) = map unfix db1).
    { rewrite Ed, !map_app; reflexivity. }
    split; [reflexivity|]. split; [apply inv_unfix; rewrite U; apply inv_unfix; auto|].
    split; [intros _; destruct p; discriminate|].
    rewrite U. destruct C as [(-> & A & L & P)|(-> & -> & A)].
    + left; repeat split; auto; try (unfold Legal; lia). rewrite P; reflexivity.
    + right; repeat split; auto; try discriminate.
  - exists db1, code. split; [exact E|]. split; auto.
    split.
    { intros ->. destruct NE1 as [|[_ ?]]; [auto|discriminate]. }
    destruct C as [(-> & A & L & P)|(-> & -> & A)].
    + left; repeat split; auto; try (unfold Legal; lia). rewrite P; reflexivity.
    + right; repeat split; auto.
Qed.

Lemma dim_addr_call : forall db db' c n, Inv db -> Inv db' ->
  dim_addr db (c_name c) = None ->
  Permutation (map unfix db') (map unfix (db ++ [mkdim (c_name c) (c_value c) (c_max c) false])) ->
  option_map unfix (dim_addr db' n) =
  match option_map unfix (dim_addr db n) with Some d => Some d
  | None => if String.eqb (c_name c) n then Some (mkdim (c_name c) (c_value c) (c_max c) false) else None end.
Proof.
  intros db db' c n I I' A P. rewrite <- !dim_addr_unfix.
  rewrite (dim_addr_perm (map unfix (db ++ [mkdim (c_name c) (c_value c) (c_max c) false]))).
  - rewrite map_app. change (map unfix [mkdim (c_name c) (c_value c) (c_max c) false])
      with [mkdim (c_name c) (c_value c) (c_max c) false].
    rewrite dim_addr_app; reflexivity.
  - apply (Permutation_NoDup (l := map d_name (map unfix db'))).
    + rewrite P; reflexivity.
    + rewrite map_map. apply inv_nodup; auto.
  - auto.
Qed.

(** Meaning of the registry after history [h]: for each name, the first legal call. *)
Definition Means (db : dimdb) (h : list dimcall) : Prop :=
  Inv db /\ forall n,
   match dim_addr db n with
   | Some d => exists c, First n h c /\ unfix d = mkdim n (c_value c) (c_max c) false
   | None => Never n h
   end.

Lemma means_first : forall db h n c, Means db h -> First n h c ->
  exists d, dim_addr db n = Some d /\ d_value d = c_value c /\ d_max d = c_max c.
Proof.
  intros db h n c [_ M] (h1 & h2 & -> & Nn & L & Fr). specialize (M n).
  destruct (dim_addr db n) as [d|].
  - destruct M as (c' & (k1 & k2 & Ek & Nk & Lk & Fk) & U).
    assert (c = c') as <-.
    { clear - Ek Nn L Fr Nk Lk Fk. revert k1 Ek Fk; induction h1 as [|x h1 IH]; intros [|y k1] Ek Fk;
        cbn in Ek; inversion Ek; subst; auto.
      - exfalso; apply (Fk y); cbn; auto.
      - exfalso; apply (Fr c'); cbn; auto.
      - apply IH with k1; auto; intros; [apply Fr|apply Fk]; cbn; auto. }
    exists d. inversion U; auto.
  - exfalso; apply (M c); auto. apply in_app_iff; right; cbn; auto.
Qed.

Lemma means_never : forall db h n, Means db h -> Never n h -> dim_addr db n = None.
Proof.
  intros db h n [_ M] N. specialize (M n). destruct (dim_addr db n) as [d|]; auto.
  destruct M as (c & (h1 & h2 & -> & Nn & L & _) & _). exfalso; apply (N c); auto.
  apply in_app_iff; right; cbn; auto.
Qed.

Lemma first_snoc : forall n h c c', First n h c -> First n (h ++ [c']) c.
Proof.
  intros n h c c' (h1 & h2 & -> & A & B & C). exists h1, (h2 ++ [c']).
  rewrite <- app_assoc; auto.
Qed.

Lemma means_call : forall db h c, Means db h -> db <> [] \/ c_fix c = false ->
  exists db' code, do_call db c = Ret (db', code) /\ Means db' (h ++ [c]) /\
   (db <> [] -> db' <> []) /\
   (code = 0 \/ code = 1) /\ (code = 0 <-> Never (c_name c) h /\ Legal c) /\
   (code = 1 -> c_fix c = false -> db' = db).
Proof.
  intros db h c M NE. destruct (do_call_spec db c (proj1 M) NE) as (db' & code & E & I' & Z & C).
  exists db', code. split; [exact E|].
  destruct C as [(-> & A & L & P)|(-> & U & Same & R)].
  - split; [|split; [auto|split; [auto|split; [|discriminate]]]].
    + split; auto. intros n.
      pose proof (dim_addr_call db db' c n (proj1 M) I' A P) as X.
      destruct M as [I M]. specialize (M n).
      destruct (dim_addr db n) as [d|] eqn:D; cbn in X.
      * destruct (dim_addr db' n) as [d'|]; cbn in X; [|discriminate].
        assert (X' : unfix d' = unfix d) by congruence.
        destruct M as (c0 & F0 & U0). exists c0; split; [apply first_snoc; auto|]. congruence.
      * destruct (String.eqb_spec (c_name c) n) as [<-|Ne].
        -- destruct (dim_addr db' (c_name c)) as [d'|]; cbn in X; [|discriminate].
           assert (U' : unfix d' = mkdim (c_name c) (c_value c) (c_max c) false) by congruence.
           exists c; split; [|exact U'].
           exists h, []; repeat split; auto; apply L.
        -- destruct (dim_addr db' n) as [d'|]; cbn in X; [discriminate|].
           intros c1 I1 N1. apply in_app_iff in I1; destruct I1 as [I1|[<-|[]]]; auto.
    + split; auto. intros _; split; auto.
      destruct M as [I M]; specialize (M (c_name c)); rewrite A in M; exact M.
  - split; [|split; [|split; [auto|split; [|auto]]]].
    + split; auto. intros n.
      assert (X : option_map unfix (dim_addr db' n) = option_map unfix (dim_addr db n)).
      { rewrite <- !dim_addr_unfix, U; reflexivity. }
      pose proof M as [I M']. specialize (M' n).
      destruct (dim_addr db n) as [d|] eqn:D; destruct (dim_addr db' n) as [d'|]; cbn in X; inversion X.
      * destruct M' as (c0 & F0 & U0). exists c0; split; [apply first_snoc; auto|]. congruence.
      * intros c1 I1 N1. apply in_app_iff in I1; destruct I1 as [I1|[<-|[]]]; auto.
        destruct R as [R|R]; auto. exfalso; apply R; rewrite N1; auto.
    + intros NEd ->. cbn in U. symmetry in U; apply map_eq_nil in U; auto.
    + split; [discriminate|]. intros [N L]. exfalso.
      destruct R as [R|R]; auto. apply R. apply (means_never db h); auto.
Qed.

Lemma run_calls_means : forall k db h, Means db h -> db <> [] ->
  exists db' codes, run_calls db k = Ret (db', codes) /\ Means db' (h ++ k) /\
    length codes = length k /\
    forall i c, nth_error k i = Some c ->
      (nth_error codes i = Some 0 /\ Never (c_name c) (h ++ firstn i k) /\ Legal c) \/
      (nth_error codes i = Some 1 /\ ~ (Never (c_name c) (h ++ firstn i k) /\ Legal c)).
Proof.
  induction k as [|c k IH]; intros db h M NE.
  - exists db, []; cbn; rewrite app_nil_r; repeat split; auto; try apply M.
    intros [|] ? ?; discriminate.
  - destruct (means_call db h c M (or_introl NE)) as (db1 & code & E & M1 & NE1 & C01 & C0 & _).
    destruct (IH db1 (h ++ [c]) M1 (NE1 NE)) as (db' & codes & E' & M' & L & Cs).
    exists db', (code :: codes). cbn [run_calls]. rewrite E; cbn [bind]. rewrite E'; cbn [bind].
    rewrite <- app_assoc in M'. repeat split; auto; try apply M'.
    { cbn; auto. }
    intros [|i] c0 Hc; cbn in Hc.
    + inversion Hc; subst c0. cbn [nth_error firstn]. rewrite app_nil_r.
      destruct C01 as [-> | ->]; [left|right]; split; auto.
      * apply C0; auto.
      * intros X; apply C0 in X; discriminate.
    + cbn [nth_error firstn]. specialize (Cs i c0 Hc). rewrite <- app_assoc in Cs. exact Cs.
Qed.

Definition db_one : dimdb := [mkdim "one" 1 1 false].

Lemma means_one : Means db_one start_calls.
Proof.
  split; [repeat constructor|]. intros n. unfold db_one. cbn [dim_addr d_name]. unfold strcmp_zero.
  destruct (String.eqb_spec "one" n) as [<-|N].
  - exists (mkcall false "one" 1 1); split; [|reflexivity]. exists [], []; cbn; repeat split; cbn; try lia; tauto.
  - intros c [<-|[]] E; cbn in *; congruence.
Qed.

Lemma run_dims_eq : forall h, run_dims h =
  do (db, codes) <- run_calls db_one h; Ret (db, 0 :: codes).
Proof. intros; reflexivity. Qed.

Lemma run_dims_main : forall h, exists db codes, run_dims h = Ret (db, 0 :: codes) /\
  Means db (start_calls ++ h) /\ length codes = length h /\
  forall i c, nth_error h i = Some c ->
      (nth_error codes i = Some 0 /\ Never (c_name c) (start_calls ++ firstn i h) /\ Legal c) \/
      (nth_error codes i = Some 1 /\ ~ (Never (c_name c) (start_calls ++ firstn i h) /\ Legal c)).
Proof.
  intros h. destruct (run_calls_means h db_one start_calls means_one) as (db & codes & E & R); [discriminate|].
  exists db, codes. rewrite run_dims_eq, E. auto.
Qed.

(** Registry values seen through [getdim]. *)
Lemma run_dims_getdim : forall h, exists db codes, run_dims h = Ret (db, codes) /\
  (forall n c, First n (start_calls ++ h) c -> getdim db n = c_value c) /\
  (forall n, Never n (start_calls ++ h) -> getdim db n = -1).
Proof.
  intros h. destruct (run_dims_main h) as (db & codes & E & M & _).
  exists db, (0 :: codes); repeat split; auto; intros n; unfold getdim.
  - intros c F. destruct (means_first _ _ _ _ M F) as (d & -> & V & _); auto.
  - intros N. rewrite (means_never _ _ _ M N); auto.
Qed.

Lemma run_dims_codes : forall h, exists db codes, run_dims h = Ret (db, 0 :: codes) /\
  length codes = length h /\
  forall i c, nth_error h i = Some c ->
      (nth_error codes i = Some 0 /\ Never (c_name c) (start_calls ++ firstn i h) /\ Legal c) \/
      (nth_error codes i = Some 1 /\ ~ (Never (c_name c) (start_calls ++ firstn i h) /\ Legal c)).
Proof.
  intros h. destruct (run_dims_main h) as (db & codes & E & _ & R). eauto.
Qed.

Lemma run_dims_sorted : forall h db codes, run_dims h = Ret (db, codes) ->
  forall i j a b, (i < j)%nat -> nth_error db i = Some a -> nth_error db j = Some b ->
  String.compare (d_name a) (d_name b) = Lt.
Proof.
  intros h db codes E. destruct (run_dims_main h) as (db' & codes' & E' & M & _).
  assert (db' = db) as -> by congruence. clear - M. destruct M as [I _].
  unfold Inv in I. induction I as [|x l S IH F]; intros i j a b L A B.
  - destruct i; discriminate.
  - destruct j as [|j]; [lia|]. destruct i as [|i]; cbn in *.
    + inversion A; subst. rewrite Forall_forall in F. apply F. eapply nth_error_In; eauto.
    + eapply IH; [|eassumption|eassumption]; lia.
Qed.

Lemma run_dims_app : forall h k db codes, run_dims h = Ret (db, codes) ->
  run_dims (h ++ k) = do (db2, codes2) <- run_calls db k; Ret (db2, codes ++ codes2).
Proof.
  unfold run_dims. intros h k db codes E. rewrite app_assoc. revert E.
  generalize (start_calls ++ h) as l. generalize (@nil dim) as d0. intros d0 l; revert d0 db codes.
  induction l as [|c l IH]; intros d0 db codes E; cbn in E |- *.
  - inversion E; subst. destruct (run_calls db k) as [[? ?]| |]; auto.
  - destruct (do_call d0 c) as [[d1 c1]| |]; cbn in *; try discriminate.
    destruct (run_calls d1 l) as [[d2 c2]| |] eqn:E2; cbn in *; try discriminate.
    inversion E; subst. rewrite (IH _ _ _ E2).
    destruct (run_calls db k) as [[? ?]| |]; auto.
Qed.

(** A refused [decldim] changes nothing. *)
Lemma run_dims_refused : forall h db codes n v m, run_dims h = Ret (db, codes) ->
  forall db' code, decldim db n v m = Ret (db', code) -> code <> 0 -> db' = db.
Proof.
  intros h db codes n v m E db' code D NZ.
  destruct (run_dims_main h) as (db0 & codes' & E' & M & _).
  assert (db0 = db) as -> by congruence.
  destruct (decldim_spec db n v m (proj1 M)) as (d1 & c1 & E1 & _ & C).
  rewrite E1 in D; inversion D; subst. destruct C as [(-> & _)|(_ & -> & _)]; congruence.
Qed.

(** What [declfix] really marks: the entry with the greatest name. *)
Lemma run_dims_fix : forall h db codes n v m, run_dims h = Ret (db, codes) ->
  Never n (start_calls ++ h) -> 0 <= v <= m ->
  (forall d, In d db -> slt (d_name d) n) ->
  exists db', declfix db n v m = Ret (db', 0) /\
    dim_addr db' n = Some (mkdim n v m true) /\
    forall k, k <> n -> dim_addr db' k = dim_addr db k.
Proof.
  intros h db codes n v m E N L G.
  destruct (run_dims_main h) as (db0 & codes' & E' & M & _).
  assert (db0 = db) as -> by congruence.
  destruct (decldim_spec db n v m (proj1 M)) as (d1 & c1 & E1 & I1 & C).
  assert (A : dim_addr db n = None) by (apply (means_never _ _ _ M); auto).
  destruct C as [(-> & _ & _ & P)|(_ & _ & [?|?])]; [|congruence|tauto].
  assert (X : d1 = db ++ [mkdim n v m false]).
  { assert (I2 : Inv (db ++ [mkdim n v m false])).
    { unfold Inv. destruct M as [I _]. unfold Inv in I. clear - I G.
      induction I as [|x l S IH F]; cbn; [repeat constructor|].
      constructor; [apply IH; intros; apply G; cbn; auto|].
      apply Forall_app; split; auto. constructor; [apply G; cbn; auto|constructor]. }
    clear - P I1 I2. revert P I2. generalize (db ++ [mkdim n v m false]) as l.
    unfold Inv in *; induction I1 as [|x d1 S IH F]; intros l P I2.
    - apply Permutation_nil in P; auto.
    - destruct l as [|y l]; [symmetry in P; apply Permutation_nil in P; discriminate|].
      inversion I2; subst. rewrite Forall_forall in *.
      assert (x = y) as <-.
      { assert (Hx : In x (y :: l)) by (rewrite <- P; cbn; auto).
        assert (Hy : In y (x :: d1)) by (rewrite P; cbn; auto).
        destruct Hx as [|Hx]; auto. destruct Hy as [|Hy]; auto.
        exfalso. apply (slt_irrefl (d_name x)). eapply slt_trans; eauto. }
      f_equal. apply IH; auto. apply Permutation_cons_inv in P; auto. }
  unfold declfix. rewrite E1; cbn [bind]. subst d1.
  destruct (fix_last_spec (db ++ [mkdim n v m false])) as (p & d & Ed & Ef); [destruct db; discriminate|].
  apply app_inj_tail in Ed; destruct Ed as [<- <-]. rewrite Ef; cbn [bind d_name d_value d_max].
  eexists; split; [reflexivity|]. split.
  - rewrite dim_addr_app, A. cbn. rewrite String.eqb_refl; auto.
  - intros k Nk. rewrite dim_addr_app. destruct (dim_addr db k); auto. cbn.
    destruct (String.eqb_spec n k); congruence.
Qed.

(** The program's own first declarations: 'five' is declared fixed, but the mark lands on
    'one' (webmod.d/src/call_modules_webmod.F:276 after alloc_space). *)
Lemma declfix_five : exists db, run_dims [mkcall true "five" 5 5] = Ret (db, [0; 0]) /\
  dim_addr db "five" = Some (mkdim "five" 5 5 false) /\
  dim_addr db "one" = Some (mkdim "one" 1 1 true).
Proof. eexists; split; [vm_compute; reflexivity|]. split; reflexivity. Qed.

Lemma declfix_refused : exists db, run_dims [mkcall true "one" 7 7] = Ret (db, [0; 1]) /\
  dim_addr db_one "one" = Some (mkdim "one" 1 1 false) /\
  dim_addr db "one" = Some (mkdim "one" 1 1 true).
Proof. eexists; split; [vm_compute; reflexivity|]. split; reflexivity. Qed.
