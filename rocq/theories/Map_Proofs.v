(** Facts about the ordered map. *)
From Coq Require Import String Ascii List Bool Sorted.
From Verif Require Import CStr_Model Sort_Model Sort_Proofs Map_Model.
Import ListNotations.
Local Open Scope string_scope.
Local Open Scope list_scope.

Section Map.
Context {A : Type}.
Implicit Types m : smap A.

(** The invariant of std::map: keys strictly increasing. *)
Definition sorted m : Prop := StronglySorted (fun a b => slt (fst a) (fst b)) m.

Lemma mfind_mset m k x j : mfind (mset m k x) j = if String.eqb k j then Some x else mfind m j.
Proof.
  induction m as [|[n y] r IH]; cbn [mset mfind].
  - reflexivity.
  - destruct (String.compare k n) eqn:C; cbn [mfind].
    + apply scompare_eq in C. subst. destruct (String.eqb n j); reflexivity.
    + reflexivity.
    + rewrite IH. destruct (String.eqb n j) eqn:E; [|reflexivity].
      destruct (String.eqb k j) eqn:E2; [|reflexivity]. apply String.eqb_eq in E, E2. subst.
      rewrite scompare_refl in C. discriminate.
Qed.
Lemma mset_in m k x p : In p (mset m k x) -> p = (k, x) \/ In p m.
Proof.
  induction m as [|[n y] r IH]; cbn [mset].
  - intros [<-|[]]. left; reflexivity.
  - destruct (String.compare k n) eqn:C.
    + apply scompare_eq in C. subst. intros [<-|I]; [left; reflexivity | right; right; exact I].
    + intros [<-|I]; [left; reflexivity | right; exact I].
    + intros [<-|I]; [right; left; reflexivity|]. destruct (IH I) as [->|J]; [left; reflexivity | right; right; exact J].
Qed.
Lemma mset_sorted m k x : sorted m -> sorted (mset m k x).
Proof.
  unfold sorted. induction 1 as [|[n y] r S IH F]; cbn [mset].
  - repeat constructor.
  - destruct (String.compare k n) eqn:C.
    + constructor; assumption.
    + constructor; [constructor; assumption|]. constructor; [exact C|].
      rewrite Forall_forall in F |- *. intros p I. apply slt_trans with n; [exact C | apply (F p I)].
    + constructor; [exact IH|]. rewrite Forall_forall in F |- *. intros p I. apply mset_in in I.
      destruct I as [->|I]; [apply sgt_slt; exact C | apply F; exact I].
Qed.
Lemma sorted_inv p m : sorted (p :: m) -> sorted m /\ forall q, In q m -> slt (fst p) (fst q).
Proof. intros S. inversion S as [|? ? S' F]; subst. split; [exact S' | rewrite Forall_forall in F; exact F]. Qed.
Lemma sorted_nodup m : sorted m -> NoDup (map fst m).
Proof.
  induction m as [|p r IH]; intros S; [constructor|]. apply sorted_inv in S. destruct S as [S F]. cbn. constructor.
  - intros I. apply in_map_iff in I. destruct I as (q & E & I). specialize (F q I). rewrite E in F. apply (slt_irrefl _ F).
  - apply IH. exact S.
Qed.
Lemma mfind_in m k x : mfind m k = Some x -> In (k, x) m.
Proof.
  induction m as [|[n y] r IH]; cbn; [discriminate|]. destruct (String.eqb n k) eqn:E.
  - apply String.eqb_eq in E. subst. intros [= <-]. left; reflexivity.
  - intros H. right. apply IH. exact H.
Qed.
Lemma mfind_none m k : mfind m k = None <-> ~ In k (map fst m).
Proof.
  induction m as [|[n y] r IH]; cbn; [tauto|]. destruct (String.eqb n k) eqn:E.
  - apply String.eqb_eq in E. split; [discriminate | intros N; exfalso; apply N; left; exact E].
  - apply String.eqb_neq in E. rewrite IH. tauto.
Qed.
Lemma mfind_some_iff m k : (exists x, mfind m k = Some x) <-> In k (map fst m).
Proof.
  destruct (mfind m k) as [x|] eqn:E.
  - split; [intros _|eauto]. apply mfind_in in E. apply (in_map fst) in E. exact E.
  - apply mfind_none in E. split; [intros [x X]; discriminate | contradiction].
Qed.
Lemma in_mfind m k x : NoDup (map fst m) -> In (k, x) m -> mfind m k = Some x.
Proof.
  induction m as [|[n y] r IH]; intros N I; [destruct I|]. cbn in *. inversion N as [|? ? N1 N2]; subst. destruct I as [E|I].
  - injection E as -> ->. rewrite String.eqb_refl. reflexivity.
  - destruct (String.eqb n k) eqn:E.
    + apply String.eqb_eq in E. subst. exfalso. apply N1. apply (in_map fst) in I. exact I.
    + apply IH; assumption.
Qed.
Lemma merase_in m k p : In p (merase m k) -> In p m.
Proof.
  induction m as [|[n y] r IH]; cbn; [tauto|]. destruct (String.eqb n k); [tauto|]. intros [<-|I]; auto.
Qed.
Lemma merase_sorted m k : sorted m -> sorted (merase m k).
Proof.
  unfold sorted. induction 1 as [|[n y] r S IH F]; cbn; [constructor|]. destruct (String.eqb n k); [exact S|].
  constructor; [exact IH|]. rewrite Forall_forall in F |- *. intros p I. apply F. apply merase_in in I. exact I.
Qed.
Lemma mfind_merase m k j : NoDup (map fst m) -> mfind (merase m k) j = if String.eqb k j then None else mfind m j.
Proof.
  induction m as [|[n y] r IH]; intros N; cbn [merase mfind].
  - destruct (String.eqb k j); reflexivity.
  - cbn in N. inversion N as [|? ? N1 N2]; subst. destruct (String.eqb n k) eqn:E.
    + apply String.eqb_eq in E. subst. destruct (String.eqb k j) eqn:E2; [|reflexivity].
      apply String.eqb_eq in E2. subst. apply mfind_none. exact N1.
    + cbn [mfind]. rewrite IH by exact N2. destruct (String.eqb n j) eqn:E2; [|reflexivity].
      apply String.eqb_eq in E2. subst. rewrite String.eqb_sym, E. reflexivity.
Qed.
Lemma filter_sorted f m : sorted m -> sorted (filter f m).
Proof.
  unfold sorted. induction 1 as [|p r S IH F]; cbn; [constructor|]. destruct (f p); [|exact IH].
  constructor; [exact IH|]. rewrite Forall_forall in F |- *. intros q I. apply F. apply filter_In in I. tauto.
Qed.
Lemma mfind_filter (g : string -> bool) m j : mfind (filter (fun p => g (fst p)) m) j = if g j then mfind m j else None.
Proof.
  induction m as [|[n y] r IH]; cbn [filter mfind fst].
  - destruct (g j); reflexivity.
  - destruct (g n) eqn:G; cbn [mfind]; destruct (String.eqb n j) eqn:E.
    + apply String.eqb_eq in E. subst. rewrite G. reflexivity.
    + exact IH.
    + apply String.eqb_eq in E. subst. rewrite IH, G. reflexivity.
    + exact IH.
Qed.
(** Two maps with the same content are the same list. *)
Lemma map_ext m1 : forall m2, sorted m1 -> sorted m2 -> (forall k, mfind m1 k = mfind m2 k) -> m1 = m2.
Proof.
  induction m1 as [|[n x] r IH]; intros [|[n' x'] r'] S1 S2 E.
  - reflexivity.
  - specialize (E n'). cbn in E. rewrite String.eqb_refl in E. discriminate.
  - specialize (E n). cbn in E. rewrite String.eqb_refl in E. discriminate.
  - assert (N : n = n').
    { destruct (sorted_inv _ _ S1) as [_ F1]. destruct (sorted_inv _ _ S2) as [_ F2].
      pose proof (E n) as E1. pose proof (E n') as E2. cbn [mfind] in E1, E2. rewrite String.eqb_refl in E1, E2.
      destruct (String.eqb n' n) eqn:C; [apply String.eqb_eq in C; congruence|]. rewrite String.eqb_sym, C in E2.
      symmetry in E1. apply mfind_in in E1. apply mfind_in in E2. apply F2 in E1. apply F1 in E2. cbn in E1, E2.
      exfalso. apply (slt_irrefl n). apply slt_trans with n'; assumption. }
    subst n'. pose proof (E n) as E1. cbn [mfind] in E1. rewrite String.eqb_refl in E1. injection E1 as <-. f_equal.
    pose proof (sorted_nodup _ S1) as N1. pose proof (sorted_nodup _ S2) as N2.
    apply IH; [apply sorted_inv in S1; tauto | apply sorted_inv in S2; tauto|].
    intros k. specialize (E k). cbn [mfind] in E. destruct (String.eqb n k) eqn:C; [|exact E].
    apply String.eqb_eq in C. subst. cbn in N1, N2. inversion N1; inversion N2; subst.
    rewrite (proj2 (mfind_none r k)) by assumption. symmetry. apply mfind_none. assumption.
Qed.
(** Assigning in increasing order of keys appends. *)
Lemma mset_last m k x : (forall p, In p m -> slt (fst p) k) -> mset m k x = m ++ [(k, x)].
Proof.
  induction m as [|[n y] r IH]; intros F; [reflexivity|]. cbn [mset].
  assert (C : String.compare k n = Gt) by (apply sgt_slt; apply (F (n, y)); left; reflexivity). rewrite C. cbn. f_equal.
  apply IH. intros p I. apply F. right. exact I.
Qed.
End Map.
