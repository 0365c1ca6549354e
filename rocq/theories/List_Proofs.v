From Coq Require Import List Arith Lia.
From Verif Require Import CStr_Model List_Model.
Import ListNotations.

Section P.
Context {A : Type}.
Implicit Types (l : clist A) (xs : list A).

(** The block holds exactly [xs] followed by unset cells. *)
Definition Rep l xs : Prop :=
  l_count l = length xs /\ length xs <= l_size l /\
  l_itm l = map Some xs ++ repeat None (l_size l - length xs).

Lemma rep_alloc : forall n, Rep (@ALLOC_list A n) [].
Proof. intros; unfold Rep; cbn; rewrite Nat.sub_0_r; repeat split; lia. Qed.

Lemma store_at : forall (p : list (option A)) k x,
  store (p ++ repeat None (S k)) (length p) x = Ret (p ++ Some x :: repeat None k).
Proof.
  induction p as [|c p IH]; intros; cbn; auto. cbn in IH; rewrite IH; reflexivity.
Qed.

Lemma rep_add : forall l xs x, Rep l xs -> exists l', ADD_to_list l x = Ret l' /\ Rep l' (xs ++ [x]).
Proof.
  intros l xs x (C & L & I). unfold ADD_to_list.
  assert (G : forall l0, Rep l0 xs -> length xs < l_size l0 ->
    exists l', (do b <- store (l_itm l0) (l_count l0) x; Ret (mklist b (l_size l0) (S (l_count l0)))) = Ret l'
      /\ Rep l' (xs ++ [x])).
  { intros l0 (C0 & L0 & I0) Lt. rewrite C0, I0.
    replace (l_size l0 - length xs) with (S (l_size l0 - length xs - 1)) by lia.
    rewrite <- (map_length Some xs). rewrite store_at. cbn [bind]. rewrite !map_length.
    eexists; split; [reflexivity|]. unfold Rep; cbn [l_count l_size l_itm].
    rewrite app_length, map_app, <- app_assoc; cbn [length map app].
    repeat split; try lia. do 3 f_equal. lia. }
  destruct (Nat.leb_spec (l_size l) (l_count l)).
  - apply G; [|cbn; lia].
    assert (E : l_itm l = map Some xs).
    { rewrite I. replace (l_size l - length xs) with 0 by lia. cbn; apply app_nil_r. }
    unfold Rep, RESIZE_list; cbn [l_count l_size l_itm]. repeat split; try lia.
    unfold realloc. rewrite E, map_length, firstn_all2 by (rewrite map_length; lia). reflexivity.
  - apply G; [unfold Rep; auto|lia].
Qed.

Lemma rep_add_all : forall ys l xs, Rep l xs -> exists l', add_all l ys = Ret l' /\ Rep l' (xs ++ ys).
Proof.
  induction ys as [|y ys IH]; intros l xs R; cbn.
  - exists l; rewrite app_nil_r; auto.
  - destruct (rep_add l xs y R) as (l1 & E & R1). rewrite E; cbn.
    destruct (IH l1 (xs ++ [y]) R1) as (l' & E' & R'). exists l'; split; auto.
    rewrite <- app_assoc in R'; auto.
Qed.

Lemma rep_item : forall l xs i, Rep l xs ->
  item l i = match nth_error xs i with Some x => Ret x | None => UB end.
Proof.
  intros l xs i (C & L & I). unfold item. rewrite I.
  destruct (Nat.lt_ge_cases i (length xs)).
  - rewrite nth_error_app1 by (rewrite map_length; auto). rewrite nth_error_map.
    destruct (nth_error xs i) eqn:E; auto.
  - rewrite nth_error_app2 by (rewrite map_length; auto).
    rewrite (proj2 (nth_error_None xs i)) by auto.
    destruct (nth_error (repeat None _) _) eqn:E; auto.
    apply nth_error_In, repeat_spec in E; subst; auto.
Qed.

Lemma growable : forall n xs, exists l, add_all (ALLOC_list n) xs = Ret l /\
  l_count l = length xs /\ l_count l <= l_size l /\ length (l_itm l) = l_size l /\
  forall i, i < length xs -> exists x, nth_error xs i = Some x /\ item l i = Ret x.
Proof.
  intros n xs. destruct (rep_add_all xs _ _ (rep_alloc n)) as (l & E & R).
  exists l; split; auto. pose proof R as (C & L & I). repeat split; auto; try (cbn in *; lia).
  - rewrite I, app_length, map_length, repeat_length. cbn in *; lia.
  - intros i Hi. destruct (nth_error xs i) as [x|] eqn:E1.
    + exists x; split; auto. rewrite (rep_item _ _ i R). cbn. rewrite E1; auto.
    + apply nth_error_None in E1; lia.
Qed.
End P.
