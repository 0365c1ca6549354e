(** Lemmas on attempts. *)
From Coq Require Import String Ascii ZArith QArith Bool List Lia ZifyBool.
From Verif Require Import Inp_Model Retry_Model Retry_Spec.
Import ListNotations.
Local Open Scope string_scope.
Local Open Scope list_scope.
Local Open Scope Z_scope.

Lemma reset_clean : forall u, clean u -> reset u = u.
Proof. intros u (A & N & F). destruct u; cbn in *. subst. reflexivity. Qed.

Lemma adjust_planned : forall m hp u j, clean u -> 0 <= j < 14 ->
  adjust m hp j u = if applies m hp u j then Some (planned u j) else None.
Proof.
  intros m hp u j (A & N & F) J. destruct u as [it tl st p mn cl dl dg aq ng fl]. cbn in A, N, F. subst.
  assert (C : j = 0 \/ j = 1 \/ j = 2 \/ j = 3 \/ j = 4 \/ j = 5 \/ j = 6 \/ j = 7 \/ j = 8 \/ j = 9 \/ j = 10 \/ j = 11 \/ j = 12 \/ j = 13) by lia.
  unfold applies.
  repeat (destruct C as [-> | C]; [cbn; rewrite ?andb_false_r; cbn;
     try (destruct (pitzer m); reflexivity); try (destruct hp, (pitzer m); reflexivity);
     try (destruct (Qle_bool p 5), (Qle_bool st 10), (pitzer m); reflexivity) |]).
  subst j. cbn. rewrite andb_false_r. reflexivity.
Qed.

Lemma adjust_first : forall m hp s, adjust m hp 0 s = Some s.
Proof. reflexivity. Qed.

Lemma restore_same : forall A (e f : ents A), some (pp f) = some (pp e) -> some (ss f) = some (ss e) -> some (kin f) = some (kin e) ->
  restore e f = e.
Proof.
  intros A [[p|] [s|] [x|]] [[p'|] [s'|] [x'|]] P S' K; cbn in *; try discriminate; reflexivity.
Qed.

(** What the loop does from attempt [j] >= 1 on. *)
Lemma turns_from : forall A (m : model) (eng : Z -> knobs -> ents A -> verdict * ents A) u e, clean u -> steady eng ->
  forall n j f, 1 <= j -> j + Z.of_nat n <= 14 ->
  some (pp f) = some (pp e) -> some (ss f) = some (ss e) -> some (kin f) = some (kin e) ->
  let '(l, v, s, g) := turns m eng u e n j u f in
  exists later,
    map (fun i => (i, planned u i)) (filter (applies m (some (pp e)) u) (map (fun x => j + Z.of_nat x) (seq 0 n))) =
      map (fun a => (number_ a, with_ a)) l ++ later /\
    Forall (fun a => from a = e) l /\
    match v with
    | Failed => later = [] /\ Forall (fun a => came_of eng a = Failed) l /\ s = u
    | Thrown => exists l' a, l = l' ++ [a] /\ Forall (fun a => came_of eng a = Failed) l' /\ came_of eng a = Thrown /\ s = with_ a
    | w => exists l' a, l = l' ++ [a] /\ Forall (fun a => came_of eng a = Failed) l' /\ came_of eng a = w /\ s = u
    end.
Proof.
  intros A m eng u e C ST. induction n as [|n IH]; intros j f J L P1 P2 P3.
  - cbn. exists []. repeat split; constructor.
  - cbn [turns]. change (match pp f with Some _ => true | None => false end) with (some (pp f)).
    rewrite P1, adjust_planned by (try assumption; lia).
    cbn [seq map]. replace (j + Z.of_nat 0) with j by lia.
    assert (SH : map (fun x => j + Z.of_nat x) (seq 1 n) = map (fun x => (j + 1) + Z.of_nat x) (seq 0 n)).
    { rewrite <- seq_shift, map_map. apply map_ext. intros x. lia. }
    rewrite SH. cbn [filter].
    destruct (applies m (some (pp e)) u j) eqn:AP.
    + replace (0 <? j) with true by lia. rewrite restore_same by assumption.
      destruct (eng j (planned u j) e) as [v e''] eqn:E.
      pose proof (ST j (planned u j) e) as K. rewrite E in K. cbn [snd] in K. destruct K as (K1 & K2 & K3).
      assert (CO : came_of eng (mkAtt j (planned u j) e) = v) by (unfold came_of; cbn; rewrite E; reflexivity).
      rewrite (reset_clean u C).
      destruct v; cbn [map].
      * eexists. cbn [app]. split; [reflexivity|]. split; [constructor; [reflexivity | constructor]|].
        exists [], (mkAtt j (planned u j) e). repeat split; [constructor | exact CO].
      * specialize (IH (j + 1) e'' ltac:(lia) ltac:(lia) K1 K2 K3).
        destruct (turns m eng u e n (j + 1) u e'') as [[[l v] s] g]. destruct IH as (later & M & F & W).
        exists later. split; [cbn [map app]; rewrite <- M; reflexivity|]. split; [constructor; [reflexivity | exact F]|].
        destruct v.
        { destruct W as (l' & a & -> & FL & CA & S'). exists (mkAtt j (planned u j) e :: l'), a. repeat split; auto. }
        { destruct W as (-> & FL & S'). repeat split; auto. }
        { destruct W as (l' & a & -> & FL & CA & S'). exists (mkAtt j (planned u j) e :: l'), a. repeat split; auto. }
        { destruct W as (l' & a & -> & FL & CA & S'). exists (mkAtt j (planned u j) e :: l'), a. repeat split; auto. }
      * eexists. cbn [app]. split; [reflexivity|]. split; [constructor; [reflexivity | constructor]|].
        exists [], (mkAtt j (planned u j) e). repeat split; [constructor | exact CO].
      * eexists. cbn [app]. split; [reflexivity|]. split; [constructor; [reflexivity | constructor]|].
        exists [], (mkAtt j (planned u j) e). repeat split; [constructor | exact CO].
    + apply IH; try assumption; lia.
Qed.

(** What the whole call does. *)
Lemma wrapper_all : forall A (m : model) (eng : Z -> knobs -> ents A -> verdict * ents A) fv u e, clean u -> steady eng ->
  let r := wrapper m eng fv u e in
  exists later,
    plan m (some (pp e)) u = map (fun a => (number_ a, with_ a)) (attempts r) ++ later /\
    Forall (fun a => from a = e) (attempts r) /\
    match ended r with
    | Ok_ => exists l a, attempts r = l ++ [a] /\ Forall (fun a => came_of eng a = Failed) l /\ came_of eng a = Converged /\ after r = u
    | Mass => (exists l a, attempts r = l ++ [a] /\ Forall (fun a => came_of eng a = Failed) l /\ came_of eng a = MassBalance /\ after r = u)
       \/ (cvode m = true /\ later = [] /\ Forall (fun a => came_of eng a = Failed) (attempts r) /\ (attempts r <> [] -> after r = u))
    | Stop_ => cvode m = false /\ later = [] /\ Forall (fun a => came_of eng a = Failed) (attempts r) /\ (attempts r <> [] -> after r = u)
    | Thrown_ => exists l a, attempts r = l ++ [a] /\ Forall (fun a => came_of eng a = Failed) l /\ came_of eng a = Thrown /\ after r = with_ a
    end.
Proof.
  intros A m eng fv u e C ST. unfold wrapper, plan. cbv zeta.
  replace (if max_tries m <? 14 then max_tries m else 14) with (Z.min (max_tries m) 14) by (destruct (max_tries m <? 14) eqn:MT; lia).
  set (start := if pitzer m then set_full (set_diag u true) false else u).
  assert (FP : first_planned m u = start).
  { unfold first_planned, start. destruct C as (A1 & A2 & A3). destruct u; cbn in *. subst. destruct (pitzer m); reflexivity. }
  destruct (Z.to_nat (Z.min (max_tries m) 14)) as [|n] eqn:N.
  - cbn. exists []. destruct (cvode m) eqn:CV; cbn; repeat split; auto.
    right. repeat split; auto. congruence.
    congruence.
  - cbn [turns]. rewrite adjust_first. change (0 <? 0) with false. cbv iota zeta.
    destruct (eng 0 start e) as [v e''] eqn:E.
    pose proof (ST 0 start e) as K. rewrite E in K. cbn [snd] in K. destruct K as (K1 & K2 & K3).
    assert (CO : came_of eng (mkAtt 0 start e) = v) by (unfold came_of; cbn; rewrite E; reflexivity).
    rewrite (reset_clean u C). cbn [seq map filter].
    change (Z.of_nat 0) with 0.
    assert (AP : applies m (some (pp e)) u 0 = true) by (unfold applies; cbn; rewrite andb_false_r; reflexivity).
    rewrite AP. cbn [map]. change (0 =? 0) with true. cbv iota. rewrite FP.
    assert (SH : map (fun j => (j, if j =? 0 then start else planned u j))
        (filter (applies m (some (pp e)) u) (map Z.of_nat (seq 1 n))) =
      map (fun i => (i, planned u i)) (filter (applies m (some (pp e)) u) (map (fun x => 1 + Z.of_nat x) (seq 0 n)))).
    { replace (map (fun x => 1 + Z.of_nat x) (seq 0 n)) with (map Z.of_nat (seq 1 n)).
      - apply map_ext_in. intros x I'. apply filter_In in I'. destruct I' as [I' _]. apply in_map_iff in I'.
        destruct I' as (y & <- & Y). apply in_seq in Y. replace (Z.of_nat y =? 0) with false by lia. reflexivity.
      - rewrite <- seq_shift, map_map. apply map_ext. intros x. lia. }
    rewrite SH. clear SH.
    destruct v; cbn [attempts ended after].
    + eexists. split; [cbn [map app]; reflexivity|]. split; [constructor; [reflexivity | constructor]|].
      exists [], (mkAtt 0 start e). repeat split; [constructor | exact CO].
    + pose proof (turns_from A m eng u e C ST n 1 e'' ltac:(lia) ltac:(lia) K1 K2 K3) as H.
      change (0 + 1) with 1.
      destruct (turns m eng u e n 1 u e'') as [[[l v] s] g]. destruct H as (later & M & F & W).
      assert (MM : (0, start) :: map (fun i => (i, planned u i)) (filter (applies m (some (pp e)) u) (map (fun x => 1 + Z.of_nat x) (seq 0 n)))
                 = map (fun a => (number_ a, with_ a)) (mkAtt 0 start e :: l) ++ later) by (cbn [map app number_ with_]; rewrite <- M; reflexivity).
      assert (FF : Forall (fun a => from a = e) (mkAtt 0 start e :: l)) by (constructor; [reflexivity | exact F]).
      destruct v.
      * exists later. split; [exact MM|]. split; [exact FF|]. destruct W as (l' & a & -> & FL & CA & S').
        exists (mkAtt 0 start e :: l'), a. repeat split; auto.
      * destruct W as (-> & FL & S').
        destruct (cvode m) eqn:CV; cbn [attempts ended after]; exists []; (split; [exact MM|]); (split; [exact FF|]).
        { right. repeat split; auto. }
        { repeat split; auto. }
      * exists later. split; [exact MM|]. split; [exact FF|]. destruct W as (l' & a & -> & FL & CA & S').
        left. exists (mkAtt 0 start e :: l'), a. repeat split; auto.
      * exists later. split; [exact MM|]. split; [exact FF|]. destruct W as (l' & a & -> & FL & CA & S').
        exists (mkAtt 0 start e :: l'), a. repeat split; auto.
    + eexists. split; [cbn [map app]; reflexivity|]. split; [constructor; [reflexivity | constructor]|].
      left. exists [], (mkAtt 0 start e). repeat split; [constructor | exact CO].
    + eexists. split; [cbn [map app]; reflexivity|]. split; [constructor; [reflexivity | constructor]|].
      exists [], (mkAtt 0 start e). repeat split; [constructor | exact CO].
Qed.
