From Coq Require Import QArith Qabs ZArith List Bool Lqa.
From Verif Require Import Qx Infil_Model.
Local Open Scope Q_scope.

Definition good (rint dt : Q) (s : inf_state) (r : inf_state * Q) : Prop :=
  snd r <= rint * dt /\ cumf (fst r) == cumf s + snd r /\
  (irof (fst r) = true -> snd r < rint * dt) /\
  (irof (fst r) = false -> snd r == rint * dt).

Lemma finish_good rint dt s f : irof s = true -> good rint dt s (finish rint dt s f).
Proof.
  intros H. unfold finish, good. qif; qprop; cbn [fst snd cumf irof].
  - split; [lra|]. split; [ring|]. split; [intros; lra|congruence].
  - split; [lra|]. split; [ring|]. split; [discriminate|reflexivity].
Qed.
Lemma no_ponding_good rint dt s : good rint dt s (no_ponding rint dt s).
Proof.
  unfold no_ponding, good; cbn [fst snd cumf irof].
  split; [lra|]. split; [ring|]. split; [discriminate|reflexivity].
Qed.
Lemma ponded_good expf logf p it rint dt s tp' f :
  good rint dt s (ponded expf logf p it rint dt s tp' f).
Proof.
  unfold ponded, excess. cbv zeta.
  match goal with |- good _ _ _ (finish _ _ ?s0 ?x) => 
    pose proof (finish_good rint dt s0 x eq_refl) as H end.
  exact H.
Qed.
Lemma test_good expf logf p it rint dt s f1 :
  good rint dt s (test_ponding expf logf p it rint dt s f1).
Proof.
  unfold test_ponding. cbv zeta. repeat qif; try apply no_ponding_good.
  - match goal with |- good _ _ _ (no_ponding _ _ ?s0) => 
      pose proof (no_ponding_good rint dt s0) as H end. exact H.
  - apply ponded_good.
Qed.
Lemma expinf_good expf logf p it rint dt s :
  good rint dt s (expinf expf logf p it rint dt s).
Proof.
  unfold expinf. destruct (irof s) eqn:E.
  - unfold excess. apply finish_good; auto.
  - repeat qif; auto using test_good, ponded_good.
Qed.

Lemma inf_run_good expf logf p dt rs : forall it s,
  let '(s', dfs) := inf_run expf logf p dt it rs s in
  cumf s' == cumf s + qsum dfs /\ Forall2 (fun df r => df <= r * dt) dfs rs.
Proof.
  induction rs as [|r rs IH]; intros it s; cbn [inf_run].
  - split; [simpl; ring|constructor].
  - destruct (expinf_good expf logf p it r dt s) as (A & B & _).
    destruct (expinf expf logf p it r dt s) as [s' df]; cbn [fst snd] in *.
    specialize (IH (it + 1)%Z s'). destruct (inf_run _ _ _ _ _ rs s') as [s'' dfs].
    destruct IH as [I1 I2]. split; [|constructor; auto].
    cbn [qsum]. lra.
Qed.
