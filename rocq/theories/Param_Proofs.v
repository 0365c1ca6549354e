From Coq Require Import String Ascii List ZArith QArith Bool Arith Lia Sorted Permutation.
From Verif Require Import CStr_Model CNum_Model Sort_Model Sort_Proofs Dim_Model Var_Model Var_Spec
  Var_Proofs Param_Model Param_Spec.
Import ListNotations.
Local Open Scope string_scope.
Local Open Scope list_scope.
Local Open Scope Z_scope.

Lemma split_last_none : forall s, split_last "*" s = None <-> ~ HasStar s.
Proof.
  induction s as [|c s IH]; cbn [split_last].
  - split; auto. intros _ (a & b & E). destruct a; discriminate.
  - destruct (split_last "*" s) as [[x y]|] eqn:E.
    + split; [discriminate|]. intros N. exfalso.
      assert (H : ~ ~ HasStar s) by (intros X; apply IH in X; discriminate).
      apply H. intros (a & b & ->). apply N. exists (String c a), b; reflexivity.
    + destruct (Ascii.eqb_spec c "*") as [->|Nc].
      * split; [discriminate|]. intros N; exfalso; apply N. exists "", s; reflexivity.
      * split; auto. intros _ (a & b & Eab). destruct a as [|a0 a]; cbn in Eab; inversion Eab; subst.
        -- congruence.
        -- apply (proj1 IH eq_refl). exists a, b; auto.
Qed.

Lemma split_last_some : forall s x y, split_last "*" s = Some (x, y) <->
  s = (x ++ String "*" y)%string /\ ~ HasStar y.
Proof.
  induction s as [|c s IH]; intros x y; cbn [split_last].
  - split; [discriminate|]. intros [E _]. destruct x; discriminate.
  - destruct (split_last "*" s) as [[x0 y0]|] eqn:E.
    + destruct (proj1 (IH x0 y0) eq_refl) as [-> Ny]. split.
      * intros H; inversion H; subst. auto.
      * intros [Eq Ny']. destruct x as [|c' x]; cbn in Eq; inversion Eq; subst.
        -- exfalso; apply Ny'. exists x0, y0; auto.
        -- assert (X : Some (x0, y0) = Some (x, y)).
           { apply IH; split; auto. }
           inversion X; subst; auto.
    + apply split_last_none in E. destruct (Ascii.eqb_spec c "*") as [->|Nc].
      * split.
        -- intros H; inversion H; subst; auto.
        -- intros [Eq Ny']. destruct x as [|c' x]; cbn in Eq; inversion Eq; subst; auto.
           exfalso; apply E. exists x, y; auto.
      * split; [discriminate|]. intros [Eq Ny']. destruct x as [|c' x]; cbn in Eq; inversion Eq; subst.
        -- congruence.
        -- exfalso; apply E. exists x, y; auto.
Qed.

Section S2V.
Context {V : Type} (conv : string -> option V).

Lemma decode_item : forall t, (String.length t < 128)%nat ->
  (exists n v, decode conv t = Ret (Some (n, v)) /\ Item conv t n v) \/
  (decode conv t = Ret None /\ forall n v, ~ Item conv t n v).
Proof.
  intros t L. unfold decode, MAXTOKLEN. destruct (Nat.leb_spec 128 (String.length t)); [lia|].
  destruct (split_last "*" t) as [[c w]|] eqn:E.
  - pose proof E as E0. apply split_last_some in E. destruct E as [-> Nw].
    assert (Uni : forall n v, Item conv (c ++ String "*" w)%string n v ->
      strtol c = (n, "") /\ 0 < n /\ conv w = Some v).
    { intros n v I. inversion I; subst.
      - exfalso; apply H0. exists c, w; auto.
      - assert (X : split_last "*" (cnt ++ String "*" w0)%string = Some (cnt, w0)).
        { apply split_last_some; auto. }
        rewrite H0 in X. rewrite E0 in X. inversion X; subst; auto. }
    destruct (strtol c) as [rep e] eqn:S.
    destruct (Z.leb_spec rep 0); cbn [orb].
    + right; split; auto. intros n v I. destruct (Uni n v I) as (A & B & _). inversion A; subst. lia.
    + destruct (String.eqb_spec e "") as [->|Ne]; cbn [negb].
      * destruct (conv w) as [v|] eqn:C.
        -- left; exists rep, v; split; auto. constructor; auto.
        -- right; split; auto. intros n v I. destruct (Uni n v I) as (_ & _ & D). congruence.
      * right; split; auto. intros n v I. destruct (Uni n v I) as (A & _). congruence.
  - apply split_last_none in E. destruct (conv t) as [v|] eqn:C.
    + left; exists 1, v; split; auto. constructor; auto.
    + right; split; auto. intros n v I. inversion I; subst.
      * congruence.
      * apply E. exists cnt, w; auto.
Qed.

Lemma item_pos : forall t n v, Item conv t n v -> 0 < n.
Proof. destruct 1; lia. Qed.

Lemma item_fun : forall t n v n' v', Item conv t n v -> Item conv t n' v' -> n = n' /\ v = v'.
Proof.
  intros t n v n' v' A B. inversion A; subst; inversion B; subst.
  - split; congruence.
  - exfalso; apply H. exists cnt, w; auto.
  - exfalso; apply H3. exists cnt, w; auto.
  - assert (X : split_last "*" (cnt ++ String "*" w)%string = Some (cnt, w)) by (apply split_last_some; auto).
    assert (Y : split_last "*" (cnt0 ++ String "*" w0)%string = Some (cnt0, w0)) by (apply split_last_some; auto).
    rewrite H3 in Y. rewrite X in Y. inversion Y; subst. split; congruence.
Qed.

Lemma expand_fun : forall toks L L', Expand conv toks L -> Expand conv toks L' -> L = L'.
Proof.
  intros toks L L' H; revert L'; induction H; intros L' H'; inversion H'; subst; auto.
  destruct (item_fun _ _ _ _ _ H H3) as [-> ->]. f_equal; auto.
Qed.

Lemma decode_all_spec : forall toks size acc, 0 <= size -> Fits conv size toks ->
  (length acc <= Z.to_nat size)%nat ->
  (exists L, Expand conv toks L /\
     decode_all conv size acc toks = Ret (Some (firstn (Z.to_nat size) (acc ++ L)))) \/
  ((exists t, In t toks /\ forall n v, ~ Item conv t n v) /\
     decode_all conv size acc toks = Ret None).
Proof.
  induction toks as [|t r IH]; intros size acc P F L.
  - left; exists []; split; [constructor|]. cbn. rewrite app_nil_r, firstn_all2 by lia. auto.
  - cbn [decode_all].
    destruct (decode_item t) as [(n & v & D & I)|[D N]]; [apply F; cbn; auto| |].
    2:{ right; split; [exists t; cbn; auto|]. rewrite D; reflexivity. }
    rewrite D; cbn [bind]. pose proof (item_pos t n v I) as Pn.
    assert (O : size + n <= LONG_MAX) by (eapply F; [cbn; auto|eauto]).
    rewrite Z.gtb_ltb. destruct (Z.ltb_spec LONG_MAX (Z.of_nat (length acc) + n)) as [B|_]; [lia|].
    assert (F' : Fits conv size r).
    { destruct F as [F1 F2]; split; intros; [apply F1|eapply F2]; cbn; eauto. }
    set (rep := if Z.of_nat (length acc) + n >? size then size - Z.of_nat (length acc) else n).
    assert (R : firstn (Z.to_nat size) (acc ++ repeat v (Z.to_nat n)) = acc ++ repeat v (Z.to_nat rep)).
    { subst rep. rewrite Z.gtb_ltb. destruct (Z.ltb_spec size (Z.of_nat (length acc) + n)).
      - rewrite firstn_app, firstn_all2 by lia. f_equal.
        replace (Z.to_nat n) with ((Z.to_nat size - length acc) + (Z.to_nat n - (Z.to_nat size - length acc)))%nat by lia.
        rewrite repeat_app, firstn_app, repeat_length, Nat.sub_diag, firstn_O, app_nil_r.
        rewrite firstn_all2 by (rewrite repeat_length; lia). f_equal. lia.
      - rewrite firstn_all2; auto. rewrite app_length, repeat_length. lia. }
    assert (Lr : (length (acc ++ repeat v (Z.to_nat rep)) <= Z.to_nat size)%nat).
    { rewrite <- R. apply firstn_le_length. }
    destruct (IH size (acc ++ repeat v (Z.to_nat rep)) P F' Lr) as [(L' & E & D')|[(t' & It & N) D']].
    + left. exists (repeat v (Z.to_nat n) ++ L'). split; [constructor; auto|]. rewrite D'. do 2 f_equal.
      rewrite <- R. rewrite app_assoc.
      rewrite (firstn_app (Z.to_nat size) (firstn _ _)), (firstn_app (Z.to_nat size) (acc ++ repeat v (Z.to_nat n)) L').
      rewrite firstn_firstn, Nat.min_id.
      destruct (Nat.le_gt_cases (Z.to_nat size) (length (acc ++ repeat v (Z.to_nat n)))) as [G|G].
      * rewrite firstn_length_le by auto. rewrite Nat.sub_diag.
        replace (Z.to_nat size - length (acc ++ repeat v (Z.to_nat n)))%nat with 0%nat by lia. reflexivity.
      * rewrite (firstn_all2 (acc ++ repeat v (Z.to_nat n))) by lia. reflexivity.
    + right; split; auto. exists t'; cbn; auto.
Qed.

Lemma cycle_spec : forall n (acc : list V) nd is (L : list V),
  length L = nd -> (0 < nd)%nat -> (is < nd)%nat ->
  (nd <= length acc)%nat -> is = (length acc mod nd)%nat ->
  (forall i, (i < length acc)%nat -> nth_error acc i = nth_error L (i mod nd)) ->
  exists l, cycle n acc nd is = Ret l /\ length l = (length acc + n)%nat /\
    forall i, (i < length l)%nat -> nth_error l i = nth_error L (i mod nd).
Proof.
  induction n as [|n IH]; intros acc nd is L EL P I G M A.
  - exists acc; cbn; repeat split; auto.
  - cbn [cycle]. destruct (nth_error acc is) as [v|] eqn:E.
    2:{ apply nth_error_None in E. lia. }
    assert (V1 : nth_error L is = Some v).
    { rewrite <- E. symmetry. rewrite A by lia. f_equal. apply Nat.mod_small; auto. }
    destruct (IH (acc ++ [v]) nd (if Nat.eqb (S is) nd then 0%nat else S is) L EL P) as (l & E1 & E2 & E3).
    + destruct (Nat.eqb_spec (S is) nd); lia.
    + rewrite app_length; lia.
    + rewrite app_length; cbn [length]. rewrite Nat.add_1_r.
      destruct (Nat.eqb_spec (S is) nd) as [Q|Q].
      * symmetry. apply Nat.mod_divides; [lia|]. exists (S (length acc / nd)).
        pose proof (Nat.div_mod (length acc) nd). lia.
      * apply Nat.mod_unique with (length acc / nd)%nat; [lia|].
        pose proof (Nat.div_mod (length acc) nd). lia.
    + intros i Hi. rewrite app_length in Hi; cbn in Hi.
      destruct (Nat.lt_ge_cases i (length acc)) as [H|H].
      * rewrite nth_error_app1 by auto. auto.
      * assert (i = length acc) by lia. subst i. rewrite nth_error_app2, Nat.sub_diag by lia.
        cbn. rewrite <- M. auto.
    + exists l; split; auto. split; auto. rewrite E2, app_length; cbn; lia.
Qed.

Lemma str_to_vals_ok : forall s size L, 0 <= size -> Fits conv size (strtok is_valsep s) ->
  Expand conv (strtok is_valsep s) L -> (L <> [] \/ size = 0) ->
  exists l, str_to_vals conv s size = Ret (Some l) /\ Cyclic L size l.
Proof.
  intros s size L P F X NE. unfold str_to_vals.
  destruct (decode_all_spec _ size [] P F) as [(L' & X' & D)|[(t & It & N) D]]; [cbn; lia| |].
  2:{ exfalso. clear - X It N. induction X; cbn in It; [tauto|].
      destruct It as [<-|It]; auto. eapply N; eauto. }
  rewrite (expand_fun _ _ _ X' X) in D. rewrite D; cbn [bind app].
  destruct (Nat.le_gt_cases (Z.to_nat size) (length L)) as [G|G].
  - rewrite firstn_length_le by auto. rewrite Nat.sub_diag; cbn [cycle bind].
    eexists; split; [reflexivity|]. split; rewrite firstn_length_le by auto; [lia|].
    intros i Hi. rewrite Nat.mod_small by lia.
    clear - Hi. revert L i Hi. induction (Z.to_nat size) as [|k IH]; intros L i Hi; [lia|].
    destruct L as [|a L], i as [|i]; cbn; auto. apply IH; lia.
  - rewrite (firstn_all2 L) by lia.
    destruct NE as [NE|NE]; [|lia].
    destruct (cycle_spec (Z.to_nat size - length L) L (length L) 0 L) as (l & E & Ll & A); auto.
    + destruct L; cbn; [congruence|lia].
    + destruct L; cbn; [congruence|lia].
    + rewrite Nat.mod_same; auto. destruct L; cbn; [congruence|lia].
    + intros i Hi. rewrite Nat.mod_small; auto.
    + rewrite E; cbn [bind]. exists l; split; auto. split; [lia|exact A].
Qed.

Lemma str_to_vals_bad : forall s size, 0 <= size -> Fits conv size (strtok is_valsep s) ->
  (exists t, In t (strtok is_valsep s) /\ forall n v, ~ Item conv t n v) ->
  str_to_vals conv s size = Ret None.
Proof.
  intros s size P F (t & It & N). unfold str_to_vals.
  destruct (decode_all_spec _ size [] P F) as [(L' & X' & D)|[_ D]]; [cbn; lia| |].
  - exfalso. clear - X' It N. induction X'; cbn in It; [tauto|].
    destruct It as [<-|It]; auto. eapply N; eauto.
  - rewrite D; reflexivity.
Qed.

(** Whatever the string, a filled array has exactly [size] elements. *)
Lemma decode_all_length : forall toks size acc l, 0 <= size -> (length acc <= Z.to_nat size)%nat ->
  decode_all conv size acc toks = Ret (Some l) -> (length l <= Z.to_nat size)%nat.
Proof.
  induction toks as [|t r IH]; intros size acc l P L H; cbn [decode_all] in H.
  - inversion H; subst; auto.
  - destruct (decode conv t) as [[[n v]|]| |]; cbn [bind] in H; try discriminate.
    destruct (Z.of_nat (length acc) + n >? LONG_MAX); [discriminate|].
    apply IH in H; auto. rewrite app_length, repeat_length.
    rewrite Z.gtb_ltb. destruct (Z.ltb_spec size (Z.of_nat (length acc) + n)); lia.
Qed.

Lemma cycle_length : forall n (acc : list V) nd is l, cycle n acc nd is = Ret l ->
  length l = (length acc + n)%nat.
Proof.
  induction n as [|n IH]; intros acc nd is l H; cbn [cycle] in H.
  - inversion H; subst; lia.
  - destruct (nth_error acc is); [|discriminate]. apply IH in H. rewrite H, app_length; cbn; lia.
Qed.

Lemma str_to_vals_length : forall s size l, 0 <= size -> str_to_vals conv s size = Ret (Some l) ->
  Z.of_nat (length l) = size.
Proof.
  intros s size l P H. unfold str_to_vals in H.
  destruct (decode_all conv size [] _) as [[acc|]| |] eqn:D; cbn [bind] in H; try discriminate.
  apply decode_all_length in D; auto; [|cbn; lia].
  destruct (cycle _ _ _ _) as [l0| |] eqn:C; cbn [bind] in H; inversion H; subst.
  apply cycle_length in C. lia.
Qed.
End S2V.

Section Load.
Variable strtod : vtype -> string -> option Q.
Notation Decodes := (Decodes strtod).

Lemma in_range_within : forall mn mx v, length mn = length v -> length mx = length v ->
  in_range mn mx v = true <-> Within mn v mx.
Proof.
  induction mn as [|a mn IH]; intros [|b mx] [|c v] L1 L2; cbn in L1, L2; try discriminate.
  - split; auto. intros _; repeat split; auto; destruct i; discriminate.
  - cbn [in_range]. split.
    + intros H. destruct (Qle_bool a b) eqn:E1; cbn in H; try discriminate.
      destruct (Qle_bool a c) eqn:E2; cbn in H; try discriminate.
      destruct (Qle_bool c b) eqn:E3; cbn in H; try discriminate.
      apply IH in H; auto. destruct H as (_ & _ & H). split; [cbn; lia|split; [cbn; lia|]].
      intros [|i] x y z X Y Z; cbn in *.
      * inversion X; inversion Y; inversion Z; subst. apply Qle_bool_iff in E2, E3; auto.
      * eapply H; eauto.
    + intros (_ & _ & H). destruct (H 0%nat a c b) as [A B]; auto.
      rewrite (proj2 (Qle_bool_iff a b)) by (eapply Qle_trans; eauto).
      rewrite (proj2 (Qle_bool_iff a c)), (proj2 (Qle_bool_iff c b)) by auto. cbn.
      apply IH; auto. split; [lia|split; [lia|]]. intros i x y z X Y Z. apply (H (S i) x y z); auto.
Qed.

Lemma load_param_ok : forall t size b s mn mx df, 0 <= size ->
  match b with
  | Strings smin smax => Decodes t size smin mn /\ Decodes t size smax mx
  | ByDim v => mn = repeat (inject_Z 0) (Z.to_nat size) /\ mx = repeat (inject_Z v) (Z.to_nat size)
  end -> Decodes t size s df ->
  exists code, load_param strtod t size b s = Ret (code, Some (mkarr mn mx df df)) /\
   (code = 0 \/ code = 1) /\ (code = 0 <-> Within mn df mx).
Proof.
  intros t size b s mn mx df P B D.
  assert (L3 : Z.of_nat (length df) = size) by (eapply str_to_vals_length; eauto).
  assert (L : length mn = length df /\ length mx = length df).
  { destruct b; destruct B as [B1 B2].
    - apply str_to_vals_length in B1, B2; auto. lia.
    - subst. rewrite !repeat_length. lia. }
  unfold load_param. exists (if in_range mn mx df then 0 else 1). split.
  - destruct b; destruct B as [B1 B2]; unfold Param_Spec.Decodes in *.
    + rewrite B1; cbn [bind]. rewrite B2; cbn [bind]. rewrite D; reflexivity.
    + subst; cbn [bind]. rewrite D; reflexivity.
  - destruct (in_range mn mx df) eqn:E; split; auto.
    + split; auto. intros _; apply in_range_within; tauto.
    + split; [discriminate|]. intros W. apply in_range_within in W; try tauto. congruence.
Qed.

(** Parameter registry. *)
Lemma param_addr_some : forall db n p, param_addr db n = Some p -> In p db /\ p_key p = n.
Proof.
  induction db as [|e r IH]; cbn; intros n p H; try discriminate.
  unfold strcmp_zero in H. destruct (String.eqb_spec (p_key e) n).
  - inversion H; subst; auto.
  - destruct (IH _ _ H); auto.
Qed.
Lemma param_addr_none : forall db n, param_addr db n = None <-> ~ In n (map p_key db).
Proof.
  induction db as [|e r IH]; cbn; intros n; [tauto|].
  unfold strcmp_zero. destruct (String.eqb_spec (p_key e) n).
  - split; intros H; [discriminate|exfalso; auto].
  - rewrite IH; tauto.
Qed.
Lemma param_addr_in : forall db p, NoDup (map p_key db) -> In p db -> param_addr db (p_key p) = Some p.
Proof.
  induction db as [|e r IH]; cbn; intros d N I; [tauto|]. inversion N; subst.
  unfold strcmp_zero. destruct (String.eqb_spec (p_key e) (p_key d)) as [E|E].
  - destruct I as [->|I]; auto. exfalso; apply H1; rewrite E; apply in_map; auto.
  - destruct I as [->|I]; [congruence|auto].
Qed.

Lemma nodup_snoc : forall (A : Type) (l : list A) a, NoDup l -> ~ In a l -> NoDup (l ++ [a]).
Proof.
  intros A l a N H. apply (Permutation_NoDup (l := a :: l)).
  - apply Permutation_cons_append.
  - constructor; auto.
Qed.

Lemma load_param_data : forall t size b s data, load_param strtod t size b s = Ret (0, data) ->
  exists a, data = Some a.
Proof.
  intros t size b s data H. unfold load_param in H.
  repeat match type of H with
  | (do _ <- ?m; _) = _ => destruct m as [[?|]| |]; cbn [bind] in H; try discriminate
  end; inversion H; eauto.
Qed.

Lemma load_param_within : forall t size b s a, 0 <= size ->
  load_param strtod t size b s = Ret (0, Some a) ->
  a_value a = a_def a /\ Z.of_nat (length (a_value a)) = size /\ Within (a_min a) (a_value a) (a_max a) /\
  Decodes t size s (a_value a).
Proof.
  intros t size b s a P H. unfold load_param in H.
  assert (X : exists mn mx df, length mn = length df /\ length mx = length df /\
    Z.of_nat (length df) = size /\ Decodes t size s df /\
    (if in_range mn mx df then 0 else 1, Some (mkarr mn mx df df)) = (0, Some a)).
  { destruct b as [s1 s2|v].
    - destruct (str_to_vals _ s1 size) as [[mn|]| |] eqn:E1; cbn [bind] in H; try discriminate.
      destruct (str_to_vals _ s2 size) as [[mx|]| |] eqn:E2; cbn [bind] in H; try discriminate.
      destruct (str_to_vals _ s size) as [[df|]| |] eqn:E3; cbn [bind] in H; try discriminate.
      assert (I : (if in_range mn mx df then 0 else 1, Some (mkarr mn mx df df)) = (0, Some a)) by congruence.
      pose proof E3 as E3'. apply str_to_vals_length in E1, E2, E3; auto.
      exists mn, mx, df. repeat split; auto; lia.
    - cbn [bind] in H.
      destruct (str_to_vals _ s size) as [[df|]| |] eqn:E3; cbn [bind] in H; try discriminate.
      pose proof E3 as E3'. apply str_to_vals_length in E3; auto.
      exists (repeat (inject_Z 0) (Z.to_nat size)), (repeat (inject_Z v) (Z.to_nat size)), df.
      repeat split; auto; rewrite ?repeat_length; try lia. congruence. }
  destruct X as (mn & mx & df & L1 & L2 & L3 & D & E).
  destruct (in_range mn mx df) eqn:R; inversion E; subst a; cbn.
  split; auto. split; auto. split; auto. apply in_range_within; auto.
Qed.

Notation Comes := (Comes strtod).

Lemma VAR_type_legal : forall s ty, VAR_type s = Some ty <-> TypeName s ty.
Proof.
  intros s ty; split.
  - unfold VAR_type, strcmp_zero; intros H.
    destruct (String.eqb_spec s "integer"); [subst; inversion H; constructor|].
    destruct (String.eqb_spec s "long"); [subst; inversion H; constructor|].
    destruct (String.eqb_spec s "real"); [subst; inversion H; constructor|].
    destruct (String.eqb_spec s "float"); [subst; inversion H; constructor|].
    destruct (String.eqb_spec s "double precision"); [subst; inversion H; constructor|].
    destruct (String.eqb_spec s "double"); [subst; inversion H; constructor|].
    discriminate.
  - destruct 1; reflexivity.
Qed.
Lemma VAR_type_none : forall s, VAR_type s <> None <-> LegalType s.
Proof.
  intros s; unfold LegalType; split.
  - destruct (VAR_type s) as [ty|] eqn:E; [|congruence]. exists ty; apply VAR_type_legal; auto.
  - intros [ty H]. apply VAR_type_legal in H; congruence.
Qed.

Lemma param_size_spec : forall dims toks acc n, param_size dims toks acc = Ret n ->
  exists s, Size dims toks s /\ n = (if acc * s =? 0 then 1 else acc * s).
Proof.
  induction toks as [|t r IH]; intros acc n H; cbn in H.
  - inversion H; subst. exists 1; split; [constructor|]. rewrite Z.mul_1_r; auto.
  - destruct (dim_addr dims t) as [d|] eqn:D; [|discriminate].
    destruct (IH _ _ H) as (s & S & E). exists (d_value d * s); split; [econstructor; eauto|].
    rewrite E. rewrite Z.mul_assoc; auto.
Qed.

Lemma sort_params_spec : forall db, exists db', sort_params db = Ret db' /\ Permutation db' db.
Proof.
  intros db. destruct (bubble_sort_spec p_key param_gt (fun _ => True) (fun a b _ _ => eq_refl) db) as (l & E & P & S).
  - apply Forall_forall; auto.
  - eauto.
Qed.

Lemma declparam_spec : forall db c db' code, NoDup (map p_key db) ->
  do_pcall strtod db c = Ret (db', code) ->
  (db' = db /\ code = 0 /\ (VAR_type (q_type c) = None \/ param_addr db (q_name c) <> None)) \/
  (VAR_type (q_type c) <> None /\ param_addr db (q_name c) = None /\
    exists p, Comes p c code /\ Permutation db' (db ++ [p])).
Proof.
  intros db c db' code N H. unfold do_pcall, declparam in H.
  destruct (VAR_type (q_type c)) as [t|] eqn:T.
  2:{ inversion H; subst; auto. }
  unfold CHECK_param_in_db in H.
  destruct (param_addr db (q_name c)) as [p|] eqn:A.
  { left. destruct (p_dimen p) as [[|]|]; cbn [bind] in H; inversion H; subst. repeat split; auto. right; congruence. }
  right. split; [congruence|]. split; auto. cbn [bind] in H. cbv iota in H.
  assert (Stub : forall p, Ret (db ++ [p], 1) = Ret (db', code) ->
    p_key p = q_name c -> p_module p = q_module c -> p_type p = t ->
    exists p0, Comes p0 c code /\ Permutation db' (db ++ [p0])).
  { intros p E K M Ty. inversion E; subst. exists p; split; auto. unfold Param_Spec.Comes.
    split; auto. split; auto. split; [apply VAR_type_legal; auto|]. discriminate. }
  destruct (3 <? length _)%nat; [eapply Stub; eauto|].
  destruct (_ && _)%bool; [eapply Stub; eauto|].
  destruct (if strcmp_zero (q_min c) "bounded" then _ else _) as [b|]; [|eapply Stub; eauto].
  destruct (param_size (q_dims c) (strtok is_comma (q_dimen c)) 1) as [size| |] eqn:S; cbn [bind] in H; try discriminate.
  destruct (load_param strtod t size b (q_value c)) as [[ret data]| |] eqn:Ld; cbn [bind] in H; try discriminate.
  exists (mkparam (q_name c) (q_module c) (Some (strtok is_comma (q_dimen c))) t size data).
  destruct (Z.eqb_spec ret 0) as [->|NZ]; cbn [negb] in H.
  - destruct (sort_params_spec (db ++ [mkparam (q_name c) (q_module c) (Some (strtok is_comma (q_dimen c))) t size data]))
      as (l & E & P).
    rewrite E in H; cbn [bind] in H. inversion H; subst. split; auto.
    unfold Param_Spec.Comes; cbn. split; auto. split; auto. split; [apply VAR_type_legal; auto|]. intros _. split; auto.
    apply param_size_spec in S. destruct S as (sz & Sz & ->). exists sz; split; auto.
    rewrite !Z.mul_1_l in *. split; auto. intros P0.
    destruct (load_param_data _ _ _ _ _ Ld) as (a & ->). exists a; split; auto.
    eapply load_param_within; eauto.
  - inversion H; subst. split; auto. unfold Param_Spec.Comes; cbn. split; auto. split; auto. split; [apply VAR_type_legal; auto|]. congruence.
Qed.

Definition HoldsP (db : paramdb) (h : list paramcall) (codes : list Z) : Prop :=
  length codes = length h /\ NoDup (map p_key db) /\
  (forall p, In p db -> exists i c code, nth_error h i = Some c /\ nth_error codes i = Some code /\
     VAR_type (q_type c) <> None /\
     (forall c', In c' (firstn i h) -> q_name c' = q_name c -> VAR_type (q_type c') = None) /\
     Comes p c code) /\
  (forall c, In c h -> VAR_type (q_type c) <> None -> exists p, In p db /\ p_key p = q_name c).

Lemma firstn_snoc_in : forall A (h : list A) c i, (i < length h)%nat -> firstn i (h ++ [c]) = firstn i h.
Proof.
  intros A h c i L. rewrite firstn_app. replace (i - length h)%nat with 0%nat by lia.
  rewrite firstn_O, app_nil_r; auto.
Qed.

Lemma holdsP_call : forall db h codes c db' code, HoldsP db h codes ->
  do_pcall strtod db c = Ret (db', code) -> HoldsP db' (h ++ [c]) (codes ++ [code]).
Proof.
  intros db h codes c db' code (Lc & N & A & B) H.
  assert (Old : forall p, In p db -> exists i c0 code0, nth_error (h ++ [c]) i = Some c0 /\
     nth_error (codes ++ [code]) i = Some code0 /\ VAR_type (q_type c0) <> None /\
     (forall c', In c' (firstn i (h ++ [c])) -> q_name c' = q_name c0 -> VAR_type (q_type c') = None) /\
     Comes p c0 code0).
  { intros p Ip. destruct (A p Ip) as (i & c0 & k & E1 & E2 & T & F & C).
    assert (i < length h)%nat by (apply nth_error_Some; congruence).
    exists i, c0, k. rewrite !nth_error_app1 by lia. rewrite firstn_snoc_in by auto. auto. }
  destruct (declparam_spec db c db' code N H) as [(-> & -> & R)|(T & An & p & C & P)].
  - split; [rewrite !app_length; cbn; lia|]. split; auto. split; [exact Old|].
    intros c0 I0 T0. apply in_app_iff in I0; destruct I0 as [I0|[<-|[]]]; auto.
    destruct R as [R|R]; [congruence|].
    destruct (param_addr db (q_name c)) as [p|] eqn:E; [|congruence].
    apply param_addr_some in E. eauto.
  - assert (Kp : p_key p = q_name c) by apply C.
    split; [rewrite !app_length; cbn; lia|]. split.
    { rewrite (Permutation_map p_key P), map_app; cbn. apply nodup_snoc; auto.
      rewrite Kp. apply param_addr_none; auto. }
    split.
    + intros p0 I0. rewrite P in I0. apply in_app_iff in I0; destruct I0 as [I0|[<-|[]]]; auto.
      exists (length h), c, code. rewrite !nth_error_app2 by lia.
      rewrite Lc, Nat.sub_diag; cbn [nth_error]. split; auto. split; auto. split; auto. split; auto.
      intros c' I' Q. rewrite firstn_app, firstn_all, Nat.sub_diag, app_nil_r in I'.
      destruct (VAR_type (q_type c')) eqn:Tc; auto. exfalso.
      destruct (B c' I') as (p' & Ip & Kp'); [congruence|].
      apply param_addr_none in An. apply An. rewrite <- Q, <- Kp'. apply in_map; auto.
    + intros c0 I0 T0. apply in_app_iff in I0; destruct I0 as [I0|[<-|[]]].
      * destruct (B c0 I0 T0) as (p' & I' & K'). exists p'; split; auto. rewrite P; apply in_app_iff; auto.
      * exists p; split; auto. rewrite P; apply in_app_iff; cbn; auto.
Qed.

Lemma run_pcalls_holds : forall k db h codes db' codes', HoldsP db h codes ->
  run_pcalls strtod db k = Ret (db', codes') -> HoldsP db' (h ++ k) (codes ++ codes').
Proof.
  induction k as [|c k IH]; intros db h codes db' codes' H R; cbn in R.
  - inversion R; subst. rewrite !app_nil_r; auto.
  - destruct (do_pcall strtod db c) as [[db1 code]| |] eqn:E; cbn [bind] in R; try discriminate.
    destruct (run_pcalls strtod db1 k) as [[db2 cs]| |] eqn:E2; cbn [bind] in R; inversion R; subst.
    pose proof (holdsP_call _ _ _ _ _ _ H E) as H1.
    pose proof (IH _ _ _ _ _ H1 E2) as H2. rewrite <- !app_assoc in H2. exact H2.
Qed.

Lemma registry_main : forall h db codes, run_pcalls strtod [] h = Ret (db, codes) ->
  (forall i c code, nth_error h i = Some c -> nth_error codes i = Some code ->
     VAR_type (q_type c) <> None ->
     (forall c', In c' (firstn i h) -> q_name c' = q_name c -> VAR_type (q_type c') = None) ->
     exists p, param_addr db (q_name c) = Some p /\ Comes p c code) /\
  (forall key, (forall c, In c h -> q_name c = key -> VAR_type (q_type c) = None) ->
     param_addr db key = None).
Proof.
  intros h db codes R.
  assert (H0 : HoldsP [] [] []).
  { split; auto. split; [constructor|]. split; [intros ? []|intros ? []]. }
  pose proof (run_pcalls_holds _ _ _ _ _ _ H0 R) as (Lc & N & A & B). cbn in Lc, A, B. split.
  - intros i c code Ei Ec T F.
    destruct (B c (nth_error_In _ _ Ei) T) as (p & Ip & Kp).
    exists p. split; [rewrite <- Kp; apply param_addr_in; auto|].
    destruct (A p Ip) as (j & c0 & k & Ej & Ek & T0 & F0 & C).
    assert (Q : q_name c0 = q_name c) by (destruct C as (K & _); congruence).
    destruct (Nat.lt_trichotomy i j) as [L|[->|L]].
    + exfalso. apply T. apply (F0 c); [|congruence].
      clear - Ei L. revert j L Ei; revert i; induction h as [|x h IH]; intros [|i] [|j] L E; cbn in *; try lia; try discriminate.
      * inversion E; auto.
      * right; eapply IH; [|exact E]; lia.
    + rewrite Ei in Ej; rewrite Ec in Ek. inversion Ej; inversion Ek; subst; auto.
    + exfalso. apply T0. apply (F c0); [|congruence].
      clear - Ej L. revert j L Ej; revert i; induction h as [|x h IH]; intros [|i] [|j] L E; cbn in *; try lia; try discriminate.
      * inversion E; auto.
      * right; eapply IH; [|exact E]; lia.
  - intros key K. apply param_addr_none. intros I. apply in_map_iff in I. destruct I as (p & Kp & Ip).
    destruct (A p Ip) as (i & c & code & Ei & _ & T & _ & C). apply T. apply K.
    + eapply nth_error_In; eauto.
    + destruct C as (Kc & _). congruence.
Qed.

Lemma registry_legal : forall h db codes, run_pcalls strtod [] h = Ret (db, codes) ->
  (forall i c code, nth_error h i = Some c -> nth_error codes i = Some code ->
     LegalType (q_type c) ->
     (forall c', In c' (firstn i h) -> q_name c' = q_name c -> ~ LegalType (q_type c')) ->
     exists p, param_addr db (q_name c) = Some p /\ Comes p c code) /\
  (forall key, (forall c, In c h -> q_name c = key -> ~ LegalType (q_type c)) ->
     param_addr db key = None).
Proof.
  intros h db codes R. destruct (registry_main h db codes R) as [A B].
  assert (N : forall s, ~ LegalType s -> VAR_type s = None).
  { intros s H. destruct (VAR_type s) eqn:E; auto. exfalso; apply H. apply VAR_type_none; congruence. }
  split.
  - intros i c code Ei Ec T F. eapply A; eauto. apply VAR_type_none; auto.
  - intros key K. apply B; auto.
Qed.
End Load.
