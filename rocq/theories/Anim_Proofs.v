(** Lemmas on the files of a run. *)
From Coq Require Import String Ascii ZArith Bool List Lia ZifyBool.
From Verif Require Import Anim_Model Anim_Spec.
Import ListNotations.
Local Open Scope string_scope.
Local Open Scope list_scope.

Lemma sapp_assoc : forall a b c, ((a ++ b) ++ c)%string = (a ++ (b ++ c))%string.
Proof. induction a as [|x a IH]; intros b c; [reflexivity|]. cbn. rewrite IH. reflexivity. Qed.
Lemma sapp_nil : forall a, (a ++ "")%string = a.
Proof. induction a as [|x a IH]; [reflexivity|]. cbn. rewrite IH. reflexivity. Qed.
Lemma join_app : forall a b, join (a ++ b) = (join a ++ join b)%string.
Proof. induction a as [|x a IH]; intros b; [reflexivity|]. cbn. rewrite sapp_assoc. f_equal. apply IH. Qed.

Lemma print_same : forall fs i s, print fs i s i = (fs i ++ s)%string.
Proof. intros. unfold print. rewrite Nat.eqb_refl. reflexivity. Qed.
Lemma print_other : forall fs i s k, k <> i -> print fs i s k = fs k.
Proof. intros fs i s k N. unfold print. apply Nat.eqb_neq in N. rewrite N. reflexivity. Qed.

(** Dimensions. *)
Lemma known_in : forall ds d, known_dim ds d = true <-> In d ds.
Proof.
  intros ds d. unfold known_dim. rewrite existsb_exists. split.
  - intros (x & I1 & E). apply String.eqb_eq in E. subst x. exact I1.
  - intros I1. exists d. split; [exact I1 | apply String.eqb_refl].
Qed.
Definition add_dim (ds : list string) (v : pubvar) : list string := if known_dim ds (dim0 v) then ds else ds ++ [dim0 v].
Lemma dims_grow : forall vs ds, NoDup ds -> NoDup (fold_left add_dim vs ds) /\
  (forall d, In d (fold_left add_dim vs ds) <-> In d ds \/ exists v, In v vs /\ dim0 v = d) /\
  length (fold_left add_dim vs ds) <= length ds + length vs.
Proof.
  induction vs as [|v vs IH]; intros ds N; cbn [fold_left].
  - split; [exact N|]. split; [|cbn; lia]. intros d. split; [auto|]. intros [I1 | (v & [] & _)]; exact I1.
  - assert (N2 : NoDup (add_dim ds v)).
    { unfold add_dim. destruct (known_dim ds (dim0 v)) eqn:K; [exact N|].
      assert (NI : ~ In (dim0 v) ds) by (rewrite <- known_in; congruence). clear K IH.
      induction ds as [|x ds IH]; cbn; [repeat constructor; intros []|].
      inversion N; subst. constructor; [rewrite in_app_iff; cbn; intros [H | [H | []]]; [contradiction|]; apply NI; left; congruence|].
      apply IH; [assumption|]. intros H. apply NI. right. exact H. }
    destruct (IH _ N2) as (A & B & C). split; [exact A|]. split.
    + intros d. rewrite B. unfold add_dim. destruct (known_dim ds (dim0 v)) eqn:K.
      * apply known_in in K. split; [intros [H | (w & H & E)]; [auto | right; exists w; split; [right|]; assumption]|].
        intros [H | (w & [-> | H] & E)]; [auto | left; congruence | right; exists w; auto].
      * rewrite in_app_iff. cbn [In]. split.
        -- intros [[H | [H | []]] | (w & H & E)]; [auto | right; exists v; auto | right; exists w; auto].
        -- intros [H | (w & [-> | H] & E)]; [auto | left; right; left; exact E | right; exists w; auto].
    + cbn [length]. unfold add_dim in *. destruct (known_dim ds (dim0 v)); [lia|]. rewrite app_length in C. cbn in C. lia.
Qed.
Lemma dims_nodup : forall vs, NoDup (ani_dims vs).
Proof. intros vs. apply (dims_grow vs []). constructor. Qed.
Lemma dims_in : forall vs d, In d (ani_dims vs) <-> exists v, In v vs /\ dim0 v = d.
Proof.
  intros vs d. destruct (dims_grow vs [] (NoDup_nil _)) as (_ & H & _). unfold ani_dims. fold add_dim. rewrite (H d). cbn. intuition.
Qed.
Lemma dims_length : forall vs, length (ani_dims vs) <= length vs.
Proof. intros vs. destruct (dims_grow vs [] (NoDup_nil _)) as (_ & _ & H). exact H. Qed.

(** The file of a variable. *)
Lemma file_fold : forall v ds n k i, NoDup ds -> nth_error ds i = Some (dim0 v) ->
  snd (fold_left (fun '(j, k) d => (S j, if String.eqb (dim0 v) d then j else k)) ds (n, k)) = (n + i)%nat.
Proof.
  assert (NO : forall v ds n k, ~ In (dim0 v) ds ->
    snd (fold_left (fun '(j, k) d => (S j, if String.eqb (dim0 v) d then j else k)) ds (n, k)) = k).
  { induction ds as [|d ds IH]; intros n k H; [reflexivity|]. cbn [fold_left].
    destruct (String.eqb_spec (dim0 v) d) as [E | E]; [exfalso; apply H; left; congruence|].
    apply IH. intros X. apply H. right. exact X. }
  induction ds as [|d ds IH]; intros n k i N E; [destruct i; discriminate E|]. inversion N; subst. cbn [fold_left].
  destruct i as [|i]; cbn [nth_error] in E.
  - assert (d = dim0 v) by congruence. subst d. rewrite String.eqb_refl, NO by assumption. lia.
  - rewrite (IH _ _ i) by assumption. lia.
Qed.
Lemma file_is : forall ds v i, NoDup ds -> nth_error ds i = Some (dim0 v) -> file_of ds v = i.
Proof. intros ds v i N E. unfold file_of. rewrite (file_fold v ds O O i N E). reflexivity. Qed.
Lemma file_iff : forall ds v k d, NoDup ds -> In (dim0 v) ds -> nth_error ds k = Some d -> (file_of ds v = k <-> dim0 v = d).
Proof.
  intros ds v k d N I1 E. apply In_nth_error in I1. destruct I1 as (i & I1). rewrite (file_is ds v i N I1). split.
  - intros ->. congruence.
  - intros H. subst d. apply (proj1 (NoDup_nth_error ds) N); [apply nth_error_Some; congruence | congruence].
Qed.

(** Printing to all files. *)
Lemma each_dim_fold : forall (f : string -> string) ds n fs k,
  snd (fold_left (fun '(i, fs) d => (S i, print fs i (f d))) ds (n, fs)) k =
  (fs k ++ if Nat.leb n k then match nth_error ds (k - n) with Some d => f d | None => "" end else "")%string.
Proof.
  intros f. induction ds as [|d ds IH]; intros n fs k; cbn [fold_left].
  - destruct (Nat.leb n k); [destruct (k - n)%nat|]; cbn; rewrite sapp_nil; reflexivity.
  - rewrite IH. destruct (Nat.leb_spec (S n) k) as [L | L].
    + replace (Nat.leb n k) with true by (symmetry; apply Nat.leb_le; lia). rewrite print_other by lia.
      replace (k - n)%nat with (S (k - S n)) by lia. reflexivity.
    + destruct (Nat.leb_spec n k) as [L2 | L2].
      * replace k with n by lia. rewrite Nat.sub_diag. cbn [nth_error]. rewrite print_same, sapp_nil. reflexivity.
      * rewrite print_other by lia. reflexivity.
Qed.
Lemma each_dim_at : forall ds f fs k d, nth_error ds k = Some d -> each_dim ds f fs k = (fs k ++ f d)%string.
Proof. intros ds f fs k d E. unfold each_dim. rewrite each_dim_fold. cbn [Nat.leb]. rewrite Nat.sub_0_r, E. reflexivity. Qed.

Lemma each_var_at : forall ds f k d vs fs, NoDup ds -> (forall v, In v vs -> In (dim0 v) ds) -> nth_error ds k = Some d ->
  each_var ds vs f fs k = (fs k ++ join (map f (having d vs)))%string.
Proof.
  intros ds f k d vs. unfold each_var. induction vs as [|v vs IH]; intros fs N I1 E; cbn [fold_left].
  - cbn. rewrite sapp_nil. reflexivity.
  - rewrite IH by (auto; intros; apply I1; right; assumption). unfold having. cbn [filter].
    pose proof (file_iff ds v k d N (I1 v (or_introl eq_refl)) E) as F.
    destruct (String.eqb_spec (dim0 v) d) as [D | D].
    + apply F in D. rewrite D, print_same. cbn [map join fold_right]. rewrite sapp_assoc. reflexivity.
    + rewrite print_other; [reflexivity|]. intros H. apply D, F. congruence.
Qed.

(** Where integers go. *)
Definition integers_right (ds : list string) (vs : list pubvar) : Prop :=
  forall v, In v vs -> vtype v = Long -> exists w, nth_error vs (file_of ds v) = Some w /\ file_of ds w = file_of ds v.

Lemma values_at : forall p m ds all i d j k vs fs, NoDup ds -> (forall v, In v all -> In (dim0 v) ds) ->
  integers_right ds all -> Forall is_number all -> nth_error ds i = Some d -> (forall v, In v vs -> In v all) ->
  fold_left (one_value p m ds all i d j) vs fs k =
  (fs k ++ if Nat.eqb k i then join (flat_map (fun v => [tab; shown p (vtype v) (values m (vname v) j)]) (having d vs)) else "")%string.
Proof.
  intros p m ds all i d j k vs. induction vs as [|v vs IH]; intros fs N I1 R F E SUB; cbn [fold_left].
  - destruct (Nat.eqb k i); cbn; rewrite sapp_nil; reflexivity.
  - rewrite IH by (auto; intros; apply SUB; right; assumption).
    assert (IV : In v all) by (apply SUB; left; reflexivity).
    unfold one_value at 1. unfold having. cbn [filter].
    destruct (String.eqb_spec (dim0 v) d) as [D | D]; [|reflexivity].
    pose proof (proj2 (file_iff ds v i d N (I1 v IV) E) D) as FV.
    assert (G : forall s, s = (tab ++ shown p (vtype v) (values m (vname v) j))%string ->
      (print fs i s k ++ (if Nat.eqb k i then join (flat_map (fun v => [tab; shown p (vtype v) (values m (vname v) j)]) (having d vs)) else ""))%string =
      (fs k ++ (if Nat.eqb k i then join (flat_map (fun v => [tab; shown p (vtype v) (values m (vname v) j)]) (v :: having d vs)) else ""))%string).
    { intros s ->. destruct (Nat.eqb_spec k i) as [K | K].
      - subst k. rewrite print_same. cbn [flat_map]. rewrite join_app. cbn [join fold_right]. rewrite !sapp_assoc. cbn [String.append]. reflexivity.
      - rewrite print_other by assumption. reflexivity. }
    fold (having d vs). destruct (vtype v) eqn:T; cbn [shown] in G.
    + destruct (R v IV T) as (w & W & FW). rewrite FV in W. rewrite W. rewrite FW, FV. apply G. reflexivity.
    + rewrite FV. apply G. reflexivity.
    + rewrite FV. apply G. reflexivity.
    + exfalso. rewrite Forall_forall in F. apply (F v IV T).
Qed.

Lemma rows_at : forall p m ds vs i d k js fs, NoDup ds -> (forall v, In v vs -> In (dim0 v) ds) ->
  integers_right ds vs -> Forall is_number vs -> nth_error ds i = Some d ->
  fold_left (one_row p m ds vs i d) js fs k =
  (fs k ++ if Nat.eqb k i then join (map (row p m (having d vs)) js) else "")%string.
Proof.
  intros p m ds vs i d k js. induction js as [|j js IH]; intros fs N I1 R F E; cbn [fold_left].
  - destruct (Nat.eqb k i); cbn; rewrite sapp_nil; reflexivity.
  - rewrite IH by assumption. unfold one_row at 1. destruct (Nat.eqb_spec k i) as [K | K].
    + subst k. rewrite print_same, values_at by (auto). rewrite Nat.eqb_refl, print_same. cbn [map join fold_right].
      unfold row at 2. unfold line. cbn [join fold_right]. rewrite !sapp_assoc. reflexivity.
    + rewrite print_other by assumption. rewrite values_at by auto. apply Nat.eqb_neq in K. rewrite K, sapp_nil.
      apply Nat.eqb_neq in K. rewrite print_other by assumption. reflexivity.
Qed.

Lemma step_fold : forall p size vs m all ds n fs k, NoDup all -> (forall v, In v vs -> In (dim0 v) all) ->
  integers_right all vs -> Forall is_number vs -> (forall i d, nth_error ds i = Some d -> nth_error all (n + i) = Some d) ->
  snd (fold_left (fun '(i, fs) d => (S i, fold_left (one_row p m all vs i d) (seq 0 (size d)) fs)) ds (n, fs)) k =
  (fs k ++ if Nat.leb n k then match nth_error ds (k - n) with Some d => join (map (row p m (having d vs)) (seq 0 (size d))) | None => "" end else "")%string.
Proof.
  intros p size vs m all. induction ds as [|d ds IH]; intros n fs k N I1 R F H; cbn [fold_left].
  - destruct (Nat.leb n k); [destruct (k - n)%nat|]; cbn; rewrite sapp_nil; reflexivity.
  - assert (E : nth_error all n = Some d) by (specialize (H O d eq_refl); rewrite Nat.add_0_r in H; exact H).
    rewrite IH; auto.
    2:{ intros i d' X. specialize (H (S i) d' X). rewrite Nat.add_succ_r in H. exact H. }
    rewrite rows_at by assumption.
    destruct (Nat.leb_spec (S n) k) as [L | L].
    + replace (Nat.leb n k) with true by (symmetry; apply Nat.leb_le; lia).
      replace (Nat.eqb k n) with false by (symmetry; apply Nat.eqb_neq; lia). rewrite sapp_nil.
      replace (k - n)%nat with (S (k - S n)) by lia. reflexivity.
    + destruct (Nat.leb_spec n k) as [L2 | L2].
      * replace k with n by lia. rewrite Nat.sub_diag, Nat.eqb_refl. cbn [nth_error]. rewrite sapp_nil. reflexivity.
      * replace (Nat.eqb k n) with false by (symmetry; apply Nat.eqb_neq; lia). rewrite !sapp_nil. reflexivity.
Qed.

Lemma header_at : forall vs k d, nth_error (ani_dims vs) k = Some d -> headers vs k = file_header d (having d vs).
Proof.
  intros vs k d E. unfold headers. cbv zeta.
  assert (IN : forall v, In v vs -> In (dim0 v) (ani_dims vs)) by (intros v I1; apply dims_in; exists v; auto).
  pose proof (dims_nodup vs) as N.
  repeat (rewrite (each_dim_at _ _ _ _ _ E) || rewrite (each_var_at _ _ _ _ _ _ N IN E)).
  assert (FM : forall (f : pubvar -> string) l, join (map (fun v => (tab ++ f v)%string) l) = join (flat_map (fun v => [tab; f v]) l)).
  { clear. induction l as [|v l IH]; [reflexivity|]. unfold join in *. cbn [map flat_map app fold_right].
    rewrite IH, sapp_assoc. reflexivity. }
  rewrite (FM vname), (FM (fun _ => "10n")).
  unfold file_header.
  rewrite (map_ext (fun v => line ["# "; vname v; ",#FIELD_DECIMAL,10,2"]) (fun v => ("# " ++ vname v ++ ",#FIELD_DECIMAL,10,2" ++ newline)%string)).
  2:{ intros v. unfold line. cbn [join fold_right]. rewrite !sapp_assoc. reflexivity. }
  set (h := map _ _). repeat rewrite join_app. unfold line. cbn [join fold_right].
  repeat rewrite sapp_assoc. cbn [String.append]. rewrite !sapp_nil. reflexivity.
Qed.

Lemma animation_at : forall p size vs ms k d, Forall is_number vs -> integers_right (ani_dims vs) vs ->
  nth_error (ani_dims vs) k = Some d ->
  animation p size vs ms k = file_text p d (size d) (having d vs) ms.
Proof.
  intros p size vs ms k d F R E. unfold animation, file_text.
  assert (IN : forall v, In v vs -> In (dim0 v) (ani_dims vs)) by (intros v I1; apply dims_in; exists v; auto).
  assert (G : forall ms fs, fold_left (one_step p size vs) ms fs k =
    (fs k ++ join (map (fun m => join (map (row p m (having d vs)) (seq 0 (size d)))) ms))%string).
  { clear ms. induction ms as [|m r IH]; intros fs; [cbn; rewrite sapp_nil; reflexivity|].
    cbn [fold_left map].
    rewrite IH. unfold one_step at 1. rewrite step_fold; auto; [|apply dims_nodup]. cbn [Nat.leb]. rewrite Nat.sub_0_r, E, sapp_assoc. reflexivity. }
  rewrite G, (header_at _ _ _ E). reflexivity.
Qed.
