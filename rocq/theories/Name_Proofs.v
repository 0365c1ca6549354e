(** Proofs for C34 and C35. *)
From Coq Require Import String Ascii ZArith QArith Bool List Sorted Lia ZifyBool Lqa.
From Verif Require Import Qx CStr_Model Sort_Model Sort_Proofs Map_Model Map_Proofs Name_Model Name_Spec.
Import ListNotations.
Local Open Scope string_scope.
Local Open Scope list_scope.

(** ** Folding over a map *)
Section Fold.
Context {S : Type} (step : S -> string * Q -> S) (get : S -> string -> option Q).
(** A step that changes only its own name. *)
Hypothesis local : forall s p k, k <> fst p -> get (step s p) k = get s k.
Lemma fold_other l : forall s k, ~ In k (map fst l) -> get (fold_left step l s) k = get s k.
Proof.
  induction l as [|p r IH]; intros s k N; [reflexivity|]. cbn in *. rewrite IH by tauto. apply local. intros ->. tauto.
Qed.
Lemma fold_own l : forall s k x, NoDup (map fst l) -> In (k, x) l ->
  exists s', get s' k = get s k /\ get (fold_left step l s) k = get (step s' (k, x)) k.
Proof.
  induction l as [|p r IH]; intros s k x N I; [destruct I|]. cbn in N. inversion N as [|? ? N1 N2]; subst.
  destruct I as [->|I]; cbn [fold_left].
  - exists s. split; [reflexivity|]. apply fold_other. exact N1.
  - destruct (IH (step s p) k x N2 I) as (s' & A & B). exists s'. split; [|exact B]. rewrite A. apply local.
    intros ->. apply N1. apply (in_map fst) in I. exact I.
Qed.
End Fold.
Lemma fold_sorted {B} (step : nd -> B -> nd) l : (forall m p, sorted m -> sorted (step m p)) ->
  forall m, sorted m -> sorted (fold_left step l m).
Proof. intros H. induction l as [|p r IH]; intros m S; [exact S|]. cbn. apply IH, H, S. Qed.

Lemma proper_sorted m : proper m <-> sorted m.
Proof. reflexivity. Qed.
Lemma amount_in m k x : sorted m -> In (k, x) m -> amount m k = x.
Proof. intros S I. unfold amount. rewrite (in_mfind m k x (sorted_nodup _ S) I). reflexivity. Qed.
Lemma present_dec m k : {x | mfind m k = Some x /\ present m k} + {mfind m k = None /\ ~ present m k}.
Proof.
  destruct (mfind m k) as [x|] eqn:E.
  - left. exists x. split; [reflexivity|]. apply mfind_some_iff. eauto.
  - right. split; [reflexivity|]. apply mfind_none. exact E.
Qed.
Lemma eqb_neq_sym a b : a <> b -> String.eqb b a = false.
Proof. intros N. apply String.eqb_neq. congruence. Qed.

(** ** add_extensive *)
Definition estep (f : Q) := fun (m : nd) (p : string * Q) =>
  match mfind m (fst p) with
  | Some x => mset m (fst p) (x + snd p * f)%Q
  | None => mset m (fst p) (snd p * f)%Q
  end.
Lemma estep_local f m p k : k <> fst p -> mfind (estep f m p) k = mfind m k.
Proof.
  intros N. unfold estep. destruct (mfind m (fst p)); rewrite mfind_mset, (eqb_neq_sym _ _ N); reflexivity.
Qed.
Lemma estep_own f m k x : exists y, mfind (estep f m (k, x)) k = Some y /\ (y == amount m k + f * x)%Q.
Proof.
  unfold estep, amount. cbn [fst snd]. destruct (mfind m k) as [y|]; rewrite mfind_mset, String.eqb_refl;
    eexists; (split; [reflexivity|]); ring.
Qed.
Lemma estep_sorted f m p : sorted m -> sorted (estep f m p).
Proof. intros S. unfold estep. destruct (mfind m (fst p)); apply mset_sorted; exact S. Qed.

Lemma extensive_find f m addee k : sorted addee ->
  match mfind addee k with
  | Some x => exists y, mfind (fold_left (estep f) addee m) k = Some y /\ (y == amount m k + f * x)%Q
  | None => mfind (fold_left (estep f) addee m) k = mfind m k
  end.
Proof.
  intros S. destruct (mfind addee k) as [x|] eqn:E.
  - destruct (fold_own (estep f) mfind (estep_local f) addee m k x (sorted_nodup _ S) (mfind_in _ _ _ E)) as (s' & A & B).
    destruct (estep_own f s' k x) as (y & C & D). exists y. rewrite B. split; [exact C|]. unfold amount in *. rewrite A in D. exact D.
  - apply fold_other; [apply estep_local|]. apply mfind_none. exact E.
Qed.
Lemma extensive_unfold m addee f : add_extensive m addee f = if qeq f 0 then m else fold_left (estep f) addee m.
Proof. reflexivity. Qed.
Lemma extensive_ok m addee f : proper m -> proper addee ->
  proper (add_extensive m addee f) /\
  (forall k, amount (add_extensive m addee f) k == amount m k + f * amount addee k)%Q /\
  (forall k, ~ f == 0 -> present (add_extensive m addee f) k <-> present m k \/ present addee k) /\
  (f == 0 -> add_extensive m addee f = m).
Proof.
  intros Sm Sa. rewrite extensive_unfold. destruct (qeq f 0) eqn:F.
  - apply qeq_t in F. split; [exact Sm|]. split; [intros k; rewrite F; ring|]. split; [intros k N; contradiction | reflexivity].
  - apply qeq_f in F. split; [apply fold_sorted; [apply estep_sorted | exact Sm]|]. split; [|split; [|contradiction]].
    + intros k. pose proof (extensive_find f m addee k Sa) as H. unfold amount. destruct (mfind addee k) as [x|].
      * destruct H as (y & -> & Y). exact Y.
      * rewrite H. unfold amount. ring.
    + intros k _. pose proof (extensive_find f m addee k Sa) as H. unfold present.
      rewrite <- !mfind_some_iff. destruct (mfind addee k) as [x|].
      * destruct H as (y & -> & _). split; [intros _; right; eauto | intros _; eauto].
      * rewrite H. split; [intros G; left; exact G | intros [G|[x G]]; [exact G | discriminate]].
Qed.

(** ** Totals of elements as sums *)
Definition esum (e : string) (m : nd) : Q := qsum (map (fun p => if String.eqb (cut (fst p)) e then snd p else 0%Q) m).
Lemma total_esum e m : (total_element m e == esum e m)%Q.
Proof.
  assert (G : forall l d, (fold_left (fun d p => if String.eqb (cut (fst p)) e then (d + snd p)%Q else d) l d == d + esum e l)%Q).
  { induction l as [|p r IH]; intros d; unfold esum in *; cbn [fold_left map qsum fold_right]; [cbn; ring|].
    rewrite IH. destruct (String.eqb (cut (fst p)) e); cbn [qsum fold_right]; ring. }
  unfold total_element. rewrite G. ring.
Qed.
Lemma esum_mset e m k v : sorted m ->
  (esum e (mset m k v) == esum e m + (if String.eqb (cut k) e then v - amount m k else 0))%Q.
Proof.
  induction m as [|[n y] r IH]; intros S; unfold esum in *; cbn [mset].
  - cbn. unfold amount. cbn. destruct (String.eqb (cut k) e); ring.
  - unfold amount. cbn [mfind]. apply sorted_inv in S. destruct S as [S F]. destruct (String.compare k n) eqn:C; cbn [map qsum fold_right fst snd].
    + apply scompare_eq in C. subst. rewrite String.eqb_refl. destruct (String.eqb (cut n) e); ring.
    + assert (N : String.eqb n k = false) by (apply String.eqb_neq; intros ->; rewrite scompare_refl in C; discriminate).
      rewrite N. assert (M : mfind r k = None).
      { apply mfind_none. intros I. apply in_map_iff in I. destruct I as (q & <- & I). apply F in I. cbn in I.
        apply (slt_irrefl n). apply slt_trans with (fst q); assumption. }
      rewrite M. destruct (String.eqb (cut k) e); ring.
    + assert (N : String.eqb n k = false) by (apply String.eqb_neq; intros ->; rewrite scompare_refl in C; discriminate).
      rewrite N. fold (qsum (map (fun p => if String.eqb (cut (fst p)) e then snd p else 0%Q) (mset r k v))).
      rewrite IH by exact S. unfold amount. unfold qsum. destruct (String.eqb (cut k) e); ring.
Qed.
Lemma esum_estep e f m p : sorted m ->
  (esum e (estep f m p) == esum e m + f * (if String.eqb (cut (fst p)) e then snd p else 0))%Q.
Proof.
  intros S. unfold estep. destruct (mfind m (fst p)) as [x|] eqn:E; rewrite esum_mset by exact S; unfold amount; rewrite E;
    destruct (String.eqb (cut (fst p)) e); ring.
Qed.
Lemma esum_fold e f addee : forall m, sorted m ->
  (esum e (fold_left (estep f) addee m) == esum e m + f * esum e addee)%Q.
Proof.
  induction addee as [|p r IH]; intros m S; cbn [fold_left].
  - unfold esum. cbn. ring.
  - rewrite IH by (apply estep_sorted; exact S). rewrite esum_estep by exact S. unfold esum. cbn [map qsum fold_right]. 
    unfold qsum. ring.
Qed.
Lemma totals_add m addee f e : proper m -> proper addee ->
  (total_element (add_extensive m addee f) e == total_element m e + f * total_element addee e)%Q.
Proof.
  intros Sm Sa. rewrite !total_esum. rewrite extensive_unfold. destruct (qeq f 0) eqn:F.
  - apply qeq_t in F. rewrite F. ring.
  - apply esum_fold. exact Sm.
Qed.

(** ** The smaller operations *)
Lemma add_ok m k t : proper m ->
  proper (add m k t) /\ (amount (add m k t) k == amount m k + t)%Q /\ present (add m k t) k /\
  (forall j, j <> k -> mfind (add m k t) j = mfind m j).
Proof.
  intros S. unfold add. split; [destruct (mfind m k); apply mset_sorted; exact S|]. split; [|split].
  - unfold amount. destruct (mfind m k) as [x|]; rewrite mfind_mset, String.eqb_refl; ring.
  - apply mfind_some_iff. destruct (mfind m k); rewrite mfind_mset, String.eqb_refl; eauto.
  - intros j N. destruct (mfind m k); rewrite mfind_mset, (eqb_neq_sym _ _ N); reflexivity.
Qed.
Lemma mfind_multiply m f k : mfind (multiply m f) k = option_map (fun x => (x * f)%Q) (mfind m k).
Proof.
  induction m as [|[n x] r IH]; [reflexivity|]. cbn. destruct (String.eqb n k); [reflexivity | exact IH].
Qed.
Lemma multiply_ok m f : proper m ->
  proper (multiply m f) /\ (forall k, amount (multiply m f) k == amount m k * f)%Q /\
  (forall k, present (multiply m f) k <-> present m k).
Proof.
  intros S. split; [|split].
  - unfold proper, multiply. induction S as [|p r S IH F]; cbn; constructor; [exact IH|].
    rewrite Forall_forall in F |- *. intros q I. apply in_map_iff in I. destruct I as (q' & <- & I). apply (F q' I).
  - intros k. unfold amount. rewrite mfind_multiply. destruct (mfind m k); cbn; ring.
  - intros k. unfold present, multiply. rewrite map_map. cbn. reflexivity.
Qed.
Definition sstep (moles : bool) (f : Q) := fun (m : nd) (p : string * Q) =>
  if moles then if qlt 0 (snd p * f)%Q then mset m (fst p) (snd p * f)%Q else m
  else mset m (fst p) (snd p * f)%Q.
Lemma sstep_local moles f m p k : k <> fst p -> mfind (sstep moles f m p) k = mfind m k.
Proof.
  intros N. unfold sstep. destruct moles; [destruct (qlt 0 (snd p * f)%Q); [|reflexivity]|];
    rewrite mfind_mset, (eqb_neq_sym _ _ N); reflexivity.
Qed.
Lemma scaled_ok moles m f : proper m ->
  proper (scaled moles m f) /\
  forall k, mfind (scaled moles m f) k =
    match mfind m k with
    | Some x => if moles && negb (qlt 0 (x * f)%Q) then None else Some (x * f)%Q
    | None => None
    end.
Proof.
  intros S. change (scaled moles m f) with (fold_left (sstep moles f) m []). split.
  - apply fold_sorted; [|constructor]. intros n p T. unfold sstep.
    destruct moles; [destruct (qlt 0 (snd p * f)%Q); [|exact T]|]; apply mset_sorted; exact T.
  - intros k. destruct (mfind m k) as [x|] eqn:E.
    + destruct (fold_own (sstep moles f) mfind (sstep_local moles f) m [] k x (sorted_nodup _ S) (mfind_in _ _ _ E)) as (s' & A & B).
      rewrite B. unfold sstep. cbn [fst snd]. destruct moles; cbn [andb].
      * destruct (qlt 0 (x * f)%Q); cbn [negb]; [rewrite mfind_mset, String.eqb_refl; reflexivity | exact A].
      * rewrite mfind_mset, String.eqb_refl. reflexivity.
    + rewrite (fold_other (sstep moles f) mfind (sstep_local moles f)); [reflexivity|]. apply mfind_none. exact E.
Qed.

Definition cstep := fun (m : nd) (p : option string * Q) =>
  match fst p with
  | None => m
  | Some k => match mfind m k with
              | None => mset m k (snd p)
              | Some x => mset m k (x + snd p)%Q
              end
  end.
Lemma cstep_add m k x : cstep m (Some k, x) = add m k x.
Proof. unfold cstep, add. cbn. destruct (mfind m k); reflexivity. Qed.
Lemma from_coefs_gen l : forall m, sorted m ->
  sorted (fold_left cstep l m) /\ (forall k, amount (fold_left cstep l m) k == amount m k + coef_sum l k)%Q /\
  (forall k, present (fold_left cstep l m) k <-> present m k \/ exists x, In (Some k, x) l).
Proof.
  induction l as [|[o x] r IH]; intros m S.
  - split; [exact S|]. split; [intros k; unfold coef_sum; cbn; ring|]. intros k. cbn. split; [auto | intros [H|[x []]]; exact H].
  - cbn [fold_left]. destruct o as [n|].
    + rewrite cstep_add. destruct (add_ok m n x S) as (S' & A & B & C). destruct (IH _ S') as (D & E & F).
      split; [exact D|]. split.
      * intros k. rewrite E. unfold coef_sum. cbn [filter fst]. destruct (String.eqb n k) eqn:Q1.
        -- apply String.eqb_eq in Q1. subst. rewrite A. cbn [map snd qsum fold_right]. unfold qsum. ring.
        -- apply String.eqb_neq in Q1. unfold amount. rewrite C by congruence. reflexivity.
      * intros k. rewrite F. destruct (String.eqb n k) eqn:Q1.
        -- apply String.eqb_eq in Q1. subst. split; [intros _; right; exists x; left; reflexivity | intros _; left; exact B].
        -- apply String.eqb_neq in Q1. unfold present. rewrite <- !(mfind_some_iff). rewrite C by congruence.
           split; (intros [H|[y H]]; [left; exact H|]); right.
           ++ exists y. right. exact H.
           ++ destruct H as [H|H]; [congruence | exists y; exact H].
    + change (cstep m (None, x)) with m. destruct (IH _ S) as (D & E & F). split; [exact D|]. split.
      * intros k. rewrite E. reflexivity.
      * intros k. rewrite F. split; (intros [H|[y H]]; [left; exact H|]); right; exists y; [right; exact H|].
        destruct H as [H|H]; [congruence | exact H].
Qed.
Lemma from_coefs_ok l :
  proper (from_coefs l) /\ (forall k, amount (from_coefs l) k == coef_sum l k)%Q /\
  (forall k, present (from_coefs l) k <-> exists x, In (Some k, x) l).
Proof.
  destruct (from_coefs_gen l [] ltac:(constructor)) as (A & B & C). change (from_coefs l) with (fold_left cstep l []).
  split; [exact A|]. split.
  - intros k. rewrite B. unfold amount. cbn. ring.
  - intros k. rewrite C. cbn. split; [intros [[]|H]; exact H | auto].
Qed.

(** ** Names *)
Lemma cut_plain e : has_paren e = false -> cut e = e.
Proof.
  induction e as [|c r IH]; [reflexivity|]. cbn. destruct (Ascii.eqb c "("); [discriminate|]. cbn. intros H. rewrite IH by exact H. reflexivity.
Qed.
Lemma cut_app e v : has_paren e = false -> cut (e ++ String "(" v) = e.
Proof.
  induction e as [|c r IH]; [reflexivity|]. cbn. destruct (Ascii.eqb c "("); [discriminate|]. cbn. intros H. rewrite IH by exact H. reflexivity.
Qed.
Lemma paren_app e v : has_paren (e ++ String "(" v) = true.
Proof. induction e as [|c r IH]; [reflexivity|]. cbn. rewrite IH. apply orb_true_r. Qed.
Lemma slength_app a b : String.length (a ++ b) = (String.length a + String.length b)%nat.
Proof. induction a as [|c r IH]; [reflexivity|]. cbn. rewrite IH. reflexivity. Qed.
Lemma cut_no_paren s : has_paren (cut s) = false.
Proof. induction s as [|c r IH]; [reflexivity|]. cbn. destruct (Ascii.eqb c "(") eqn:E; [reflexivity|]. cbn. rewrite E, IH. reflexivity. Qed.

Lemma state_cut n e : state_of n e -> cut n = e.
Proof.
  intros (P & _ & [->|(v & -> & _)]); [apply cut_plain; exact P|]. exact (cut_app e (v ++ ")") P).
Qed.
Lemma state_ename n e : state_of n e -> ename n = e.
Proof.
  intros H. pose proof (state_cut n e H) as C. unfold ename. destruct H as (P & _ & [->|(v & -> & V & E)]).
  - rewrite P. destruct (Nat.ltb (String.length e) 4); reflexivity.
  - replace (Nat.ltb _ 4) with false.
    + change (e ++ "(" ++ v ++ ")")%string with (e ++ String "(" (v ++ ")"))%string in *. rewrite paren_app. exact C.
    + symmetry. apply Nat.ltb_ge. rewrite !slength_app. destruct e; [contradiction|]. destruct v; [contradiction|]. cbn. lia.
Qed.
Lemma state_unique n e e' : state_of n e -> state_of n e' -> e = e'.
Proof. intros A B. rewrite <- (state_cut n e A). apply state_cut. exact B. Qed.
Lemma total_ok m e s : all_named m -> has_paren e = false -> element_sum e m s -> (total_element m e == s)%Q.
Proof.
  intros A P H. rewrite total_esum. induction H as [|n x m s ST H IH|n x m s NS H IH].
  - reflexivity.
  - unfold esum. cbn [map qsum fold_right fst snd]. rewrite (state_cut _ _ ST), String.eqb_refl.
    change (fold_right Qplus 0%Q (map (fun p => if String.eqb (cut (fst p)) e then snd p else 0%Q) m)) with (esum e m).
    rewrite IH; [reflexivity|]. intros p I. apply A. right. exact I.
  - unfold esum. cbn [map qsum fold_right fst snd]. destruct (A (n, x)) as (e' & ST); [left; reflexivity|]. cbn in ST.
    replace (String.eqb (cut n) e) with false.
    + change (fold_right Qplus 0%Q (map (fun p => if String.eqb (cut (fst p)) e then snd p else 0%Q) m)) with (esum e m).
      rewrite IH; [ring|]. intros p I. apply A. right. exact I.
    + symmetry. apply String.eqb_neq. intros C. apply NS. rewrite (state_cut _ _ ST) in C. subst. exact ST.
Qed.

(** Cutting keeps the order. *)
Lemma paren_least c : (40 <= nat_of_ascii c)%nat -> Ascii.eqb c "(" = false -> (40 < nat_of_ascii c)%nat.
Proof.
  intros L N. destruct (Nat.eq_dec 40 (nat_of_ascii c)) as [E|E]; [|lia]. exfalso.
  assert (c = "("%char) by (rewrite <- (ascii_nat_embedding c), <- E; reflexivity). subst. discriminate.
Qed.
Lemma acompare_lt a b : Ascii.compare a b = Lt <-> (nat_of_ascii a < nat_of_ascii b)%nat.
Proof. unfold Ascii.compare, nat_of_ascii. rewrite N.compare_lt_iff. lia. Qed.
Lemma cut_mono a : forall b, plain a -> plain b -> slt a b -> sle (cut a) (cut b).
Proof.
  unfold slt, sle. induction a as [|x a IH]; intros [|y b] Pa Pb H; cbn [cut] in *; try discriminate.
  - destruct (Ascii.eqb y "("); discriminate.
  - cbn [plain] in *. cbn [String.compare] in H. destruct (Ascii.eqb x "(") eqn:X.
    + destruct (Ascii.eqb y "("); discriminate.
    + destruct (Ascii.compare x y) eqn:C; [| |discriminate].
      * apply acompare_eq in C. subst. rewrite X. cbn [String.compare]. unfold Ascii.compare at 1. rewrite N.compare_refl.
        apply IH; tauto.
      * destruct (Ascii.eqb y "(") eqn:Y.
        -- apply Ascii.eqb_eq in Y. subst. apply acompare_lt in C. change (nat_of_ascii "(") with 40%nat in C. destruct Pa. lia.
        -- cbn [String.compare]. rewrite C. discriminate.
Qed.

(** ** Simplify_redox *)
Definition skip (e : string) : bool := String.eqb e "H" || String.eqb e "O" || String.eqb e "Charge".
Definition nstep := fun (t : nd) (p : string * Q) => if skip (ename (fst p)) then t else mset t (ename (fst p)) 0%Q.
Lemma new_totals_gen m : forall t, sorted t ->
  sorted (fold_left nstep m t) /\
  forall e, mfind (fold_left nstep m t) e =
    if negb (skip e) && existsb (fun p => String.eqb (ename (fst p)) e) m then Some 0%Q else mfind t e.
Proof.
  induction m as [|p r IH]; intros t S.
  - split; [exact S|]. intros e. cbn. rewrite andb_false_r. reflexivity.
  - cbn [fold_left existsb]. assert (S' : sorted (nstep t p)) by (unfold nstep; destruct (skip _); [exact S | apply mset_sorted; exact S]).
    destruct (IH _ S') as [A B]. split; [exact A|]. intros e. rewrite B. unfold nstep.
    destruct (String.eqb (ename (fst p)) e) eqn:E.
    + apply String.eqb_eq in E. rewrite E. cbn [orb]. destruct (skip e) eqn:K; cbn [negb andb]; [reflexivity|].
      rewrite mfind_mset, String.eqb_refl. destruct (existsb _ r); reflexivity.
    + cbn [orb]. destruct (negb (skip e) && existsb _ r); [reflexivity|]. destruct (skip (ename (fst p))); [reflexivity|].
      rewrite mfind_mset, E. reflexivity.
Qed.

Definition osum (e : string) (m : nd) : Q := qsum (map (fun p => if String.eqb (ename (fst p)) e then snd p else 0%Q) m).
Lemma osum_cons e p m : osum e (p :: m) = ((if String.eqb (ename (fst p)) e then snd p else 0) + osum e m)%Q.
Proof. reflexivity. Qed.
Lemma osum_none e m : (forall p, In p m -> ename (fst p) <> e) -> (osum e m == 0)%Q.
Proof.
  induction m as [|p r IH]; intros N; [reflexivity|]. rewrite osum_cons.
  rewrite (proj2 (String.eqb_neq (ename (fst p)) e)) by (apply N; left; reflexivity). rewrite IH; [ring|]. intros q I. apply N. right. exact I.
Qed.
Definition monotone (old : nd) : Prop := StronglySorted (fun a b => sle (ename (fst a)) (ename (fst b))) old.

Lemma sum_into_unfold n x ro e y rn : sum_into ((n, x) :: ro) ((e, y) :: rn) =
  match String.compare e (ename n) with
  | Lt => (e, y) :: sum_into ((n, x) :: ro) rn
  | Eq => sum_into ro ((e, (y + x)%Q) :: rn)
  | Gt => sum_into ro ((e, y) :: rn)
  end.
Proof. reflexivity. Qed.
Lemma sum_into_keys old : forall new, map fst (sum_into old new) = map fst new.
Proof.
  induction old as [|[n x] ro IH]; [reflexivity|]. induction new as [|[e y] rn IH2]; [reflexivity|].
  rewrite sum_into_unfold. destruct (String.compare e (ename n)).
  - rewrite IH. reflexivity.
  - cbn [map fst]. rewrite IH2. reflexivity.
  - rewrite IH. reflexivity.
Qed.
Lemma sorted_keys (a b : nd) : map fst a = map fst b -> sorted a -> sorted b.
Proof.
  revert b. induction a as [|p r IH]; intros [|q s] E S; try discriminate; [constructor|]. cbn in E. injection E as E1 E2.
  apply sorted_inv in S. destruct S as [S F]. constructor; [apply IH; assumption|]. rewrite Forall_forall. intros u I.
  apply (in_map fst) in I. rewrite <- E2 in I. apply in_map_iff in I. destruct I as (u' & E3 & I). rewrite <- E1, <- E3. apply F. exact I.
Qed.
Lemma sum_into_amount old : forall new, monotone old -> sorted new ->
  forall e, In e (map fst new) -> (amount (sum_into old new) e == amount new e + osum e old)%Q.
Proof.
  induction old as [|[n x] ro IH]; intros new M.
  - intros _ e _. cbn. unfold osum. cbn. ring.
  - inversion M as [|? ? M' F]; subst. rewrite Forall_forall in F. cbn [fst] in F.
    induction new as [|[e0 y] rn IH2]; intros S e I; [destruct I|].
    pose proof (sorted_inv _ _ S) as [S' G]. rewrite sum_into_unfold. destruct (String.compare e0 (ename n)) eqn:C.
    + apply scompare_eq in C.
      assert (S2 : sorted ((e0, (y + x)%Q) :: rn)) by (apply (sorted_keys ((e0, y) :: rn)); [reflexivity | exact S]).
      rewrite (IH _ M' S2 e I). rewrite osum_cons. cbn [fst snd]. rewrite <- C. unfold amount. cbn [mfind].
      destruct (String.eqb e0 e); ring.
    + unfold amount. cbn [mfind]. destruct (String.eqb e0 e) eqn:E.
      * apply String.eqb_eq in E. subst. rewrite osum_none; [ring|]. intros p [<-|Ip] Q1.
        -- cbn in Q1. rewrite Q1, scompare_refl in C. discriminate.
        -- apply F in Ip. rewrite Q1 in Ip. apply Ip. apply sgt_slt. exact C.
      * apply IH2; [exact S'|]. destruct I as [I|I]; [|exact I]. cbn in I. subst. rewrite String.eqb_refl in E. discriminate.
    + rewrite (IH _ M' S e I). rewrite osum_cons. cbn [fst snd].
      replace (String.eqb (ename n) e) with false; [ring|]. symmetry. apply String.eqb_neq. intros Q1. subst e.
      apply sgt_slt in C. destruct I as [I|I].
      * cbn in I. rewrite I in C. apply (slt_irrefl _ C).
      * apply in_map_iff in I. destruct I as (q & E & I). apply G in I. cbn in I. rewrite E in I.
        apply (slt_irrefl (ename n)). apply slt_trans with e0; assumption.
Qed.
Lemma named_monotone m : sorted m -> all_named m -> monotone m.
Proof.
  induction m as [|p r IH]; intros S A; [constructor|]. apply sorted_inv in S. destruct S as [S F].
  constructor; [apply IH; [exact S | intros q I; apply A; right; exact I]|]. rewrite Forall_forall. intros q I.
  destruct (A p) as (e & E); [left; reflexivity|]. destruct (A q) as (e' & E'); [right; exact I|].
  rewrite (state_ename _ _ E), (state_ename _ _ E'). rewrite <- (state_cut _ _ E), <- (state_cut _ _ E').
  apply cut_mono; [apply E | apply E' | apply F; exact I].
Qed.
Lemma osum_total m e : all_named m -> (osum e m == total_element m e)%Q.
Proof.
  intros A. rewrite total_esum. induction m as [|p r IH]; [reflexivity|]. rewrite osum_cons. unfold esum. cbn [map qsum fold_right].
  change (fold_right Qplus 0%Q (map (fun p => if String.eqb (cut (fst p)) e then snd p else 0%Q) r)) with (esum e r).
  rewrite IH by (intros q I; apply A; right; exact I). destruct (A p) as (e' & E); [left; reflexivity|].
  rewrite (state_ename _ _ E), (state_cut _ _ E). reflexivity.
Qed.
Lemma simplify_present m e : present (simplify_redox m) e <->
  skip e = false /\ exists p, In p m /\ ename (fst p) = e.
Proof.
  unfold present, simplify_redox. rewrite sum_into_keys. destruct (new_totals_gen m [] ltac:(constructor)) as [_ B].
  specialize (B e). change (new_totals m) with (fold_left nstep m []). rewrite <- mfind_some_iff. rewrite B. cbn [mfind].
  destruct (skip e); cbn [negb andb].
  - split; [intros [x H]; discriminate | intros [H _]; discriminate].
  - destruct (existsb _ m) eqn:E.
    + apply existsb_exists in E. destruct E as (p & I & E). apply String.eqb_eq in E. split; [eauto | eauto].
    + split; [intros [x H]; discriminate|]. intros (_ & p & I & Q1). exfalso.
      assert (T : existsb (fun p => String.eqb (ename (fst p)) e) m = true) by (apply existsb_exists; exists p; split; [exact I | apply String.eqb_eq; exact Q1]).
      congruence.
Qed.
Lemma simplify_ok m : proper m -> all_named m ->
  proper (simplify_redox m) /\
  forall e, has_paren e = false -> e <> "H" -> e <> "O" -> e <> "Charge" ->
    (present (simplify_redox m) e <-> exists n, present m n /\ state_of n e) /\
    (amount (simplify_redox m) e == total_element m e)%Q.
Proof.
  intros S A. destruct (new_totals_gen m [] ltac:(constructor)) as [N B]. split.
  - apply (sorted_keys (new_totals m)); [symmetry; apply sum_into_keys | exact N].
  - intros e P H O C.
    assert (PR : present (simplify_redox m) e <-> exists n, present m n /\ state_of n e).
    { rewrite simplify_present. unfold skip. rewrite !(proj2 (String.eqb_neq _ _)) by assumption. split.
      - intros (_ & p & I & E). exists (fst p). split; [apply in_map; exact I|].
        destruct (A p I) as (e' & ST). rewrite (state_ename _ _ ST) in E. subst. exact ST.
      - intros (n & I & ST). split; [reflexivity|]. apply in_map_iff in I. destruct I as (p & <- & I). exists p.
        split; [exact I | apply state_ename; exact ST]. }
    split; [exact PR|]. rewrite <- osum_total by exact A.
    destruct (in_dec string_dec e (map fst (new_totals m))) as [I|I].
    + unfold simplify_redox. rewrite sum_into_amount; [|apply named_monotone; assumption | exact N | exact I].
      unfold amount. specialize (B e). change (new_totals m) with (fold_left nstep m []). rewrite B. cbn [mfind].
      destruct (negb (skip e) && _); ring.
    + rewrite osum_none.
      * unfold amount. destruct (mfind (simplify_redox m) e) as [x|] eqn:E; [|reflexivity]. exfalso. apply I.
        rewrite <- (sum_into_keys m). apply mfind_some_iff. eauto.
      * intros p Ip Q1. apply I. rewrite <- (sum_into_keys m). apply simplify_present. split.
        -- unfold skip. rewrite !(proj2 (String.eqb_neq _ _)) by assumption. reflexivity.
        -- exists p. auto.
Qed.
Lemma simplify_skips m : proper m -> all_named m ->
  ~ present (simplify_redox m) "H" /\ ~ present (simplify_redox m) "O" /\ ~ present (simplify_redox m) "Charge".
Proof.
  intros _ _. rewrite !simplify_present. split; [|split]; intros [H _]; discriminate.
Qed.

(** ** merge_redox *)
Definition mstep := fun (m : nd) (p : string * Q) =>
  if has_paren (fst p) then mset (merase m (shortened (fst p))) (fst p) (snd p)
  else mset (filter (fun q => negb (String.prefix (fst p ++ "(") (fst q))) m) (fst p) (snd p).
Lemma mstep_sorted m p : sorted m -> sorted (mstep m p).
Proof.
  intros S. unfold mstep. destruct (has_paren (fst p)); apply mset_sorted; [apply merase_sorted | apply filter_sorted]; exact S.
Qed.
Lemma prefix_paren e k : String.prefix (e ++ "(") k = true -> has_paren k = true.
Proof.
  revert k. induction e as [|c r IH]; intros [|d k]; cbn -[ascii_dec]; try discriminate.
  - destruct (ascii_dec "(" d) as [<-|]; [reflexivity | discriminate].
  - destruct (ascii_dec c d) as [<-|]; [|discriminate]. intros H. rewrite (IH _ H). apply orb_true_r.
Qed.
Lemma mstep_total m n x k : has_paren n = false ->
  mfind (mstep m (n, x)) k = if String.eqb n k then Some x else if String.prefix (n ++ "(") k then None else mfind m k.
Proof.
  intros P. unfold mstep. cbn [fst snd]. rewrite P, mfind_mset. destruct (String.eqb n k); [reflexivity|].
  rewrite (mfind_filter (fun j => negb (String.prefix (n ++ "(") j))). destruct (String.prefix _ k); reflexivity.
Qed.
Lemma merge_totals_gen source : (forall n, In n (map fst source) -> has_paren n = false) -> NoDup (map fst source) ->
  forall m k, mfind (fold_left mstep source m) k =
    match mfind source k with
    | Some x => Some x
    | None => if existsb (fun p => String.prefix (fst p ++ "(") k) source then None else mfind m k
    end.
Proof.
  induction source as [|[n x] r IH]; intros P N m k; [reflexivity|]. cbn [fold_left mfind existsb fst].
  cbn in N. inversion N as [|? ? N1 N2]; subst.
  rewrite IH; [|intros j I; apply P; right; exact I | exact N2]. rewrite mstep_total by (apply P; left; reflexivity).
  destruct (String.eqb n k) eqn:E.
  - apply String.eqb_eq in E. subst. rewrite (proj2 (mfind_none r k) N1).
    destruct (existsb _ r) eqn:X; [|reflexivity]. apply existsb_exists in X. destruct X as (q & _ & X). apply prefix_paren in X.
    rewrite (P k) in X by (left; reflexivity). discriminate.
  - destruct (mfind r k); [reflexivity|]. destruct (existsb _ r); [rewrite orb_true_r; reflexivity|]. rewrite orb_false_r. reflexivity.
Qed.
Lemma merge_totals m source : proper m -> proper source ->
  (forall n, present source n -> has_paren n = false) ->
  proper (merge_redox m source) /\
  forall k, mfind (merge_redox m source) k =
    match mfind source k with
    | Some x => Some x
    | None => if existsb (fun p => String.prefix (fst p ++ "(") k) source then None else mfind m k
    end.
Proof.
  intros Sm Ss P. change (merge_redox m source) with (fold_left mstep source m). split; [apply fold_sorted; [apply mstep_sorted | exact Sm]|].
  apply merge_totals_gen; [exact P | apply sorted_nodup; exact Ss].
Qed.
Lemma merge_state m e v x : proper m -> e <> "" -> has_paren e = false ->
  let n := (e ++ "(" ++ v)%string in
  mfind (merge_redox m [(n, x)]) n = Some x /\
  forall k, k <> n -> mfind (merge_redox m [(n, x)]) k = if String.eqb k (but_last e) then None else mfind m k.
Proof.
  intros S E P n. unfold merge_redox. cbn [fold_left fst snd].
  assert (H : has_paren n = true) by apply paren_app. rewrite H.
  assert (SH : shortened n = but_last e).
  { unfold shortened. unfold n. change (e ++ "(" ++ v)%string with (e ++ String "(" v)%string. rewrite cut_app by exact P.
    rewrite (proj2 (String.eqb_neq e "")) by exact E. reflexivity. }
  rewrite SH. split.
  - rewrite mfind_mset, String.eqb_refl. reflexivity.
  - intros k N. rewrite mfind_mset, (eqb_neq_sym _ _ N). rewrite mfind_merase by (apply sorted_nodup; exact S).
    rewrite (String.eqb_sym k). reflexivity.
Qed.
Lemma merge_bug : exists m source,
  proper m /\ proper source /\ source = [("Fe(2)", 1%Q)] /\
  present m "F" /\ ~ present (merge_redox m source) "F" /\
  mfind (merge_redox m source) "Fe" = mfind m "Fe" /\ present m "Fe" /\
  (total_element (merge_redox m source) "Fe" == total_element m "Fe" + 1)%Q.
Proof.
  exists [("F", 3%Q); ("Fe", 2%Q)], [("Fe(2)", 1%Q)].
  split; [repeat (constructor; try reflexivity)|]. split; [repeat constructor|]. split; [reflexivity|].
  split; [left; reflexivity|]. split; [apply mfind_none; reflexivity|]. split; [reflexivity|]. split; [right; left; reflexivity|]. reflexivity.
Qed.

(** ** add_intensive *)
Definition istep (f1 f2 : Q) := fun (m : nd) (p : string * Q) =>
  match mfind m (fst p) with
  | Some x => mset m (fst p) (f1 * x + f2 * snd p)%Q
  | None => mset m (fst p) (f2 * snd p)%Q
  end.
Lemma istep_local f1 f2 m p k : k <> fst p -> mfind (istep f1 f2 m p) k = mfind m k.
Proof.
  intros N. unfold istep. destruct (mfind m (fst p)); rewrite mfind_mset, (eqb_neq_sym _ _ N); reflexivity.
Qed.
Lemma intensive_ok m addee f1 f2 : proper m -> proper addee ->
  proper (add_intensive m addee f1 f2) /\
  forall k, present addee k ->
    (amount (add_intensive m addee f1 f2) k == f1 * amount m k + f2 * amount addee k)%Q.
Proof.
  intros Sm Sa. change (add_intensive m addee f1 f2) with (fold_left (istep f1 f2) addee m). split.
  - apply fold_sorted; [|exact Sm]. intros n p T. unfold istep. destruct (mfind n (fst p)); apply mset_sorted; exact T.
  - intros k P. apply mfind_some_iff in P. destruct P as [x E].
    destruct (fold_own (istep f1 f2) mfind (istep_local f1 f2) addee m k x (sorted_nodup _ Sa) (mfind_in _ _ _ E)) as (s' & A & B).
    unfold amount. rewrite B, E, <- A. unfold istep. cbn [fst snd]. destruct (mfind s' k); rewrite mfind_mset, String.eqb_refl; ring.
Qed.
Lemma intensive_bug : exists m addee f1 f2 k, proper m /\ proper addee /\
  ~ (amount (add_intensive m addee f1 f2) k == f1 * amount m k + f2 * amount addee k)%Q.
Proof.
  exists [("Ca", 2%Q)], [], (1 # 2)%Q, (1 # 2)%Q, "Ca". split; [repeat constructor|]. split; [constructor|]. vm_compute. discriminate.
Qed.

(** ** Dictionary *)
Local Open Scope Z_scope.
Record good (d : dictionary) : Prop := {
  g_nodup : NoDup (words d);
  g_oss : oss d = words d;
  g_len : List.length (numbers d) = List.length (words d);
  g_num : forall w i, mfind (numbers d) w = Some i <-> 0 <= i /\ nth_error (words d) (Z.to_nat i) = Some w }.
Lemma good_known d w : good d -> (exists i, mfind (numbers d) w = Some i) <-> In w (words d).
Proof.
  intros G. split.
  - intros [i H]. apply (g_num d G) in H. destruct H as [_ H]. apply nth_error_In in H. exact H.
  - intros I. apply In_nth_error in I. destruct I as [n N]. exists (Z.of_nat n). apply (g_num d G). split; [lia|].
    rewrite Nat2Z.id. exact N.
Qed.
Lemma mset_length {A} (m : smap A) k x : mfind m k = None -> List.length (mset m k x) = S (List.length m).
Proof.
  induction m as [|[n y] r IH]; cbn [mset mfind]; [reflexivity|]. destruct (String.eqb n k) eqn:E; [discriminate|]. intros N.
  destruct (String.compare k n) eqn:C; cbn; [|reflexivity | rewrite IH by exact N; reflexivity].
  apply scompare_eq in C. subst. rewrite String.eqb_refl in E. discriminate.
Qed.
Lemma NoDup_app_last {A} (l : list A) x : ~ In x l -> NoDup l -> NoDup (l ++ [x]).
Proof.
  induction l as [|a l IH]; intros N D; cbn; [repeat constructor; auto|]. inversion D as [|? ? D1 D2]; subst. constructor.
  - intros I. apply in_app_or in I. destruct I as [I|[->|[]]]; [contradiction | apply N; left; reflexivity].
  - apply IH; [intros I; apply N; right; exact I | exact D2].
Qed.
Lemma good_empty : good empty_dictionary.
Proof.
  constructor; try reflexivity; [constructor|]. intros w i. cbn. split; [discriminate|]. intros [_ H]. destruct (Z.to_nat i); discriminate.
Qed.
Lemma good_find d w : good d -> good (fst (find_word d w)).
Proof.
  intros G. unfold find_word. destruct (mfind (numbers d) w) as [n|] eqn:E; [exact G|]. cbn [fst].
  assert (NI : ~ In w (words d)).
  { intros I. apply (good_known d w G) in I. destruct I as [i I]. congruence. }
  constructor; cbn [words oss numbers].
  - apply NoDup_app_last; [exact NI | apply (g_nodup d G)].
  - rewrite (g_oss d G). reflexivity.
  - rewrite mset_length by exact E. rewrite app_length, (g_len d G). cbn. lia.
  - intros v i. rewrite mfind_mset. destruct (String.eqb w v) eqn:Q1.
    + apply String.eqb_eq in Q1. subst. rewrite (g_len d G). split.
      * intros [= <-]. split; [lia|]. rewrite Nat2Z.id, nth_error_app2, Nat.sub_diag by lia. reflexivity.
      * intros [I N]. f_equal. destruct (Nat.lt_ge_cases (Z.to_nat i) (List.length (words d))) as [L|L].
        -- rewrite nth_error_app1 in N by exact L. apply nth_error_In in N. contradiction.
        -- rewrite nth_error_app2 in N by exact L. destruct (Z.to_nat i - List.length (words d))%nat eqn:D; [lia|].
           cbn in N. destruct n; discriminate.
    + apply String.eqb_neq in Q1. rewrite (g_num d G). split; intros [I N]; (split; [exact I|]).
      * rewrite nth_error_app1; [exact N|]. apply nth_error_Some. congruence.
      * destruct (Nat.lt_ge_cases (Z.to_nat i) (List.length (words d))) as [L|L].
        -- rewrite nth_error_app1 in N by exact L. exact N.
        -- rewrite nth_error_app2 in N by exact L. destruct (Z.to_nat i - List.length (words d))%nat as [|q] eqn:D.
           ++ cbn in N. congruence.
           ++ cbn in N. destruct q; discriminate.
Qed.
Lemma after_snoc l w : after (l ++ [w]) = fst (find_word (after l) w).
Proof. unfold after. rewrite fold_left_app. reflexivity. Qed.
Lemma after_app l l' : after (l ++ l') = fold_left (fun d w => fst (find_word d w)) l' (after l).
Proof. unfold after. apply fold_left_app. Qed.
Lemma good_after l : good (after l).
Proof.
  induction l as [|w l IH] using rev_ind; [exact good_empty|]. rewrite after_snoc. apply good_find. exact IH.
Qed.
Lemma find_words d w : exists more, words (fst (find_word d w)) = words d ++ more /\ (more = [] \/ more = [w]).
Proof.
  unfold find_word. destruct (mfind (numbers d) w); [exists []; rewrite app_nil_r; auto | exists [w]; auto].
Qed.
Lemma find_in d w : good d -> In w (words (fst (find_word d w))).
Proof.
  intros G. unfold find_word. destruct (mfind (numbers d) w) as [n|] eqn:E; cbn.
  - apply (good_known d w G). eauto.
  - apply in_or_app. right. left. reflexivity.
Qed.
Lemma after_words l : forall w, In w (words (after l)) <-> In w l.
Proof.
  induction l as [|v l IH] using rev_ind; intros w; [cbn; tauto|]. rewrite after_snoc, in_app_iff.
  destruct (find_words (after l) v) as (more & E & [-> | ->]); rewrite E, in_app_iff, IH; cbn; [|tauto].
  split; [tauto|]. intros [H|[->|[]]]; [tauto|]. left. apply IH.
  pose proof (find_in (after l) w (good_after l)) as I. rewrite E, app_nil_r in I. exact I.
Qed.
Lemma numbers_ok l :
  NoDup (words (after l)) /\ oss (after l) = words (after l) /\
  (forall w, In w (words (after l)) <-> In w l) /\
  (forall w i, mfind (numbers (after l)) w = Some i <->
     (0 <= i)%Z /\ nth_error (words (after l)) (Z.to_nat i) = Some w).
Proof.
  pose proof (good_after l) as G. split; [apply (g_nodup _ G)|]. split; [apply (g_oss _ G)|]. split; [apply after_words | apply (g_num _ G)].
Qed.
Lemma extend_words l l' : exists more, words (after (l ++ l')) = words (after l) ++ more.
Proof.
  induction l' as [|w l' IH] using rev_ind; [exists []; rewrite !app_nil_r; reflexivity|]. destruct IH as [more E].
  rewrite app_assoc, after_snoc. destruct (find_words (after (l ++ l')) w) as (m2 & E2 & _). rewrite E2, E.
  exists (more ++ m2). rewrite app_assoc. reflexivity.
Qed.
Lemma find_number l w : exists n, find_word (after l) w = (after (l ++ [w]), n) /\ 0 <= n /\
  nth_error (words (after (l ++ [w]))) (Z.to_nat n) = Some w.
Proof.
  pose proof (good_after (l ++ [w])) as G. rewrite after_snoc in *. unfold find_word in *.
  destruct (mfind (numbers (after l)) w) as [n|] eqn:E; cbn [fst] in *.
  - exists n. split; [reflexivity|]. apply (g_num _ G). exact E.
  - eexists. split; [reflexivity|]. apply (g_num _ G). cbn [numbers]. rewrite mfind_mset, String.eqb_refl. reflexivity.
Qed.
Lemma number_later l w l' n : 0 <= n -> nth_error (words (after (l ++ [w]))) (Z.to_nat n) = Some w ->
  mfind (numbers (after ((l ++ [w]) ++ l'))) w = Some n.
Proof.
  intros I N. apply (g_num _ (good_after _)). split; [exact I|]. destruct (extend_words (l ++ [w]) l') as [more E]. rewrite E.
  rewrite nth_error_app1; [exact N|]. apply nth_error_Some. congruence.
Qed.
Lemma stable l w l' :
  let (d, n) := find_word (after l) w in
  d = after (l ++ [w]) /\ find_word (after (l ++ [w] ++ l')) w = (after (l ++ [w] ++ l'), n) /\
  (exists more, words (after (l ++ [w] ++ l')) = words d ++ more).
Proof.
  destruct (find_number l w) as (n & E & I & N). rewrite E. split; [reflexivity|]. rewrite app_assoc. split.
  - unfold find_word. rewrite (number_later l w l' n I N). reflexivity.
  - apply extend_words.
Qed.

(** The text. *)
Lemma app_snoc a c r : ((a ++ String c "") ++ r = a ++ String c r)%string.
Proof. induction a as [|x a IH]; [reflexivity|]. cbn. rewrite IH. reflexivity. Qed.
Lemma get_line w : forall cur r, ~ In newline (list_ascii_of_string w) -> (String.length cur + String.length w <= 255)%nat ->
  get_lines cur (w ++ String newline r) = (cur ++ w)%string :: get_lines "" r.
Proof.
  induction w as [|c w IH]; intros cur r N L.
  - cbn [append]. cbn [get_lines]. rewrite Ascii.eqb_refl. f_equal. clear. induction cur as [|x a IH]; [reflexivity|]. cbn. rewrite <- IH. reflexivity.
  - cbn [append]. cbn [get_lines]. cbn in N, L. replace (Ascii.eqb c newline) with false by (symmetry; apply Ascii.eqb_neq; tauto).
    replace (Nat.leb 255 (String.length cur)) with false by (symmetry; apply Nat.leb_gt; lia).
    rewrite IH; [rewrite app_snoc; reflexivity | tauto|]. rewrite slength_app. cbn [String.length]. lia.
Qed.
Lemma get_text l : (forall w, In w l -> ~ In newline (list_ascii_of_string w) /\ (String.length w <= 255)%nat) ->
  get_lines "" (text l) = l.
Proof.
  induction l as [|w l IH]; intros H; [reflexivity|]. cbn [text]. destruct (H w) as [A B]; [left; reflexivity|].
  rewrite get_line; [|exact A | exact B]. f_equal. apply IH. intros v I. apply H. right. exact I.
Qed.
Lemma rebuild l : after (words (after l)) = after l.
Proof.
  induction l as [|w l IH] using rev_ind; [reflexivity|]. rewrite after_snoc. unfold find_word.
  destruct (mfind (numbers (after l)) w) as [n|] eqn:E; cbn [fst]; [exact IH|]. cbn [words]. rewrite after_snoc, IH. unfold find_word.
  rewrite E. reflexivity.
Qed.
Lemma text_ok l : (forall w, In w l -> ~ In newline (list_ascii_of_string w) /\ (String.length w <= 255)%nat) ->
  dictionary_of (text (oss (after l))) = after l.
Proof.
  intros H. rewrite (g_oss _ (good_after l)). unfold dictionary_of. rewrite get_text.
  - apply rebuild.
  - intros w I. apply H. apply after_words. exact I.
Qed.
Fixpoint many (n : nat) : string := match n with O => "" | S k => String "a" (many k) end.
Lemma long_word : exists l, words (dictionary_of (text (oss (after l)))) <> words (after l).
Proof. exists [many 256; "Ca"]. vm_compute. discriminate. Qed.

(** Serialization. *)
Definition wstep := fun (a : dictionary * list Z * list Q) (p : string * Q) =>
  let '(d, ints, doubles) := a in
  let (d', n) := find_word d (fst p) in (d', ints ++ [n], doubles ++ [snd p]).
Lemma serialize_gen m : forall l ints doubles, exists ids,
  fold_left wstep m (after l, ints, doubles) = (after (l ++ map fst m), ints ++ ids, doubles ++ map snd m) /\
  Forall2 (fun p n => 0 <= n /\ nth_error (words (after (l ++ map fst m))) (Z.to_nat n) = Some (fst p)) m ids.
Proof.
  induction m as [|p r IH]; intros l ints doubles; cbn [fold_left map].
  - exists []. rewrite !app_nil_r. split; [reflexivity | constructor].
  - destruct (find_number l (fst p)) as (n & E & I & N).
    assert (W : wstep (after l, ints, doubles) p = (after (l ++ [fst p]), ints ++ [n], doubles ++ [snd p])) by (unfold wstep; rewrite E; reflexivity).
    rewrite W. destruct (IH (l ++ [fst p]) (ints ++ [n]) (doubles ++ [snd p])) as (ids & A & B). exists (n :: ids).
    rewrite A. rewrite <- !app_assoc. cbn [app]. rewrite <- app_assoc in B. cbn [app] in B. split; [reflexivity|]. constructor; [|exact B].
    split; [exact I|]. destruct (extend_words (l ++ [fst p]) (map fst r)) as [more X]. rewrite <- app_assoc in X. cbn [app] in X. rewrite X.
    rewrite nth_error_app1; [exact N|]. apply nth_error_Some. congruence.
Qed.
Lemma at_mid {A} (a : list A) x b : at_ (a ++ x :: b) (Z.of_nat (List.length a)) = Some x.
Proof.
  unfold at_. replace (Z.of_nat (List.length a) <? 0) with false by lia. rewrite Nat2Z.id, nth_error_app2, Nat.sub_diag by lia. reflexivity.
Qed.
Lemma loop_ok d m ids : Forall2 (fun p n => 0 <= n /\ nth_error (words d) (Z.to_nat n) = Some (fst p)) m ids ->
  ~ In "" (map fst m) -> forall ints ints' doubles doubles' acc, sorted (acc ++ m) ->
  deserialize_loop d (ints ++ ids ++ ints') (doubles ++ map snd m ++ doubles') (List.length m)
    (Z.of_nat (List.length ints)) (Z.of_nat (List.length doubles)) acc
  = Some (acc ++ m, Z.of_nat (List.length ints + List.length m), Z.of_nat (List.length doubles + List.length m)).
Proof.
  induction 1 as [|p n m ids [I N] H IH]; intros NE ints ints' doubles doubles' acc S; cbn [List.length deserialize_loop].
  - rewrite app_nil_r, !Nat.add_0_r. reflexivity.
  - cbn [app map]. rewrite at_mid. unfold at_ at 1. replace (n <? 0) with false by lia. rewrite N.
    cbn in NE. rewrite (proj2 (String.eqb_neq (fst p) "")) by tauto. rewrite at_mid.
    replace (mset acc (fst p) (snd p)) with (acc ++ [p]).
    + specialize (IH ltac:(tauto) (ints ++ [n]) ints' (doubles ++ [snd p]) doubles' (acc ++ [p])).
      rewrite <- !app_assoc in IH. cbn [app] in IH. specialize (IH S). rewrite !app_length in IH. cbn [List.length] in IH.
      replace (Z.of_nat (List.length ints + 1)) with (Z.of_nat (List.length ints) + 1) in IH by lia.
      replace (Z.of_nat (List.length doubles + 1)) with (Z.of_nat (List.length doubles) + 1) in IH by lia.
      rewrite IH. f_equal. f_equal; [f_equal|]; lia.
    + rewrite mset_last; [destruct p; reflexivity|]. intros q Iq. clear - S Iq.
      induction acc as [|a acc IHa]; [destruct Iq|]. cbn in S. apply sorted_inv in S. destruct S as [S F]. destruct Iq as [->|Iq].
      * apply F. apply in_or_app. right. left. reflexivity.
      * apply IHa; assumption.
Qed.
Lemma round_trip l m ints doubles : proper m -> ~ present m "" ->
  exists ids,
    serialize (after l) m ints doubles = (after (l ++ map fst m), ints ++ ids, doubles ++ map snd m) /\
    List.length ids = S (List.length m) /\
    forall later ints' doubles',
      deserialize (after (l ++ map fst m ++ later)) (ints ++ ids ++ ints') (doubles ++ map snd m ++ doubles')
        (Z.of_nat (List.length ints)) (Z.of_nat (List.length doubles))
      = Some (m, Z.of_nat (List.length ints + List.length ids), Z.of_nat (List.length doubles + List.length m)).
Proof.
  intros S NE. destruct (serialize_gen m l (ints ++ [Z.of_nat (List.length m)]) doubles) as (ids & A & B).
  exists (Z.of_nat (List.length m) :: ids). rewrite <- app_assoc in A. cbn [app] in A. split; [exact A|].
  assert (LB : List.length m = List.length ids) by (clear - B; induction B; cbn; congruence). split; [cbn [List.length]; lia|]. intros later ints' doubles'. unfold deserialize. cbn [app]. rewrite at_mid, Nat2Z.id.
  assert (B' : Forall2 (fun p n => 0 <= n /\ nth_error (words (after (l ++ map fst m ++ later))) (Z.to_nat n) = Some (fst p)) m ids).
  { destruct (extend_words (l ++ map fst m) later) as [more X]. rewrite <- app_assoc in X. rewrite X.
    clear - B. remember (words (after (l ++ map fst m))) as W eqn:EW. clear EW. induction B as [|p n m' ids' [I N] _ IH]; constructor; [|exact IH]. split; [exact I|].
    rewrite nth_error_app1; [exact N|]. apply nth_error_Some. congruence. }
  pose proof (loop_ok _ m ids B' NE (ints ++ [Z.of_nat (List.length m)]) ints' doubles doubles' [] S) as L.
  rewrite <- app_assoc in L. cbn [app] in L. rewrite app_length in L. cbn [List.length] in L.
  replace (Z.of_nat (List.length ints + 1)) with (Z.of_nat (List.length ints) + 1) in L by lia. rewrite L.
  cbn [List.length]. rewrite <- LB. replace (List.length ints + Datatypes.S (List.length m))%nat with (List.length ints + 1 + List.length m)%nat by lia. reflexivity.
Qed.
Lemma empty_name : exists m d ints doubles m' ii dd, proper m /\
  serialize empty_dictionary m [] [] = (d, ints, doubles) /\
  deserialize d ints doubles 0 0 = Some (m', ii, dd) /\ mfind m' "Ca" <> mfind m "Ca".
Proof.
  exists [("", 1%Q); ("Ca", 2%Q)]. do 6 eexists. split; [repeat (constructor; try reflexivity)|].
  split; [reflexivity|]. split; [reflexivity|]. cbn. discriminate.
Qed.
