(** Lemmas on units. *)
From Coq Require Import String Ascii ZArith QArith Qfield Bool List Lia ZifyBool Lqa.
From Verif Require Import Inp_Model Inp_Spec Inp_Proofs Inp_Props Units_Model Units_Spec.
Import ListNotations.
Local Open Scope string_scope.
Local Open Scope list_scope.
Local Open Scope Z_scope.

Lemma app_assoc_s : forall a b c, ((a ++ b) ++ c)%string = (a ++ (b ++ c))%string.
Proof. induction a as [|x a IH]; intros b c; [reflexivity|]. cbn. rewrite IH. reflexivity. Qed.
Lemma app_nil_s : forall a, (a ++ "")%string = a.
Proof. induction a as [|x a IH]; [reflexivity|]. cbn. rewrite IH. reflexivity. Qed.

Lemma has_app : forall c a b, has c (a ++ b) = has c a || has c b.
Proof. intros c. induction a as [|d a IH]; intros b; [reflexivity|]. cbn. rewrite IH, orb_assoc. reflexivity. Qed.

Lemma prefix_split : forall a s, prefix a s = true -> exists t, s = (a ++ t)%string.
Proof. intros a s H. apply prefix_begins in H. exact H. Qed.

Lemma prefix_cons : forall c a d s, prefix (String c a) (String d s) = Ascii.eqb c d && prefix a s.
Proof.
  intros c a d s. cbn [prefix]. destruct (ascii_dec c d) as [-> | N].
  - rewrite Ascii.eqb_refl. reflexivity.
  - apply Ascii.eqb_neq in N. rewrite N. reflexivity.
Qed.

Lemma prefix_refl_app : forall a t, prefix a (a ++ t) = true.
Proof. induction a as [|c a IH]; intros t; [destruct t; reflexivity|]. cbn [String.append]. rewrite prefix_cons, Ascii.eqb_refl, IH. reflexivity. Qed.

(** A place of [p] cannot start with all of [h], followed by what does not start
    with i. *)
Definition safe (p h : string) : bool := negb (prefix h p) || prefix (h ++ "i") p.

(** A place of [p] that starts in [h] is impossible, if what follows [h] does not
    start with i. *)
Fixpoint never (p h : string) : bool :=
  match h with
  | "" => true
  | String _ r => negb (prefix p h) && safe p h && never p r
  end.

Lemma clash : forall p h t, starts "i" t = false -> prefix p h = false -> safe p h = true -> prefix p (h ++ t) = false.
Proof.
  intros p h t T. revert h. induction p as [|c p IH]; intros h A B.
  - destruct h; discriminate A.
  - unfold safe in B. destruct h as [|d h].
    + cbn [String.append] in *. change (prefix "" (String c p)) with true in B. cbn [negb orb] in B. rewrite prefix_cons in B.
      apply andb_true_iff in B. destruct B as [B _]. apply Ascii.eqb_eq in B. subst c.
      destruct t as [|e t]; [reflexivity|]. rewrite prefix_cons. cbn [starts] in T. rewrite T. reflexivity.
    + cbn [String.append] in *. rewrite !prefix_cons in *.
      rewrite (Ascii.eqb_sym d c) in B. destruct (Ascii.eqb c d); [|reflexivity]. cbn in *. apply IH; assumption.
Qed.

Lemma replace_cons : forall a b c r, replace_first a b (String c r) =
  if prefix a (String c r) then Some (b ++ substring (String.length a) (String.length (String c r) - String.length a) (String c r))%string
  else option_map (String c) (replace_first a b r).
Proof. reflexivity. Qed.
Lemma upto_cons : forall a c r, upto a (String c r) = if prefix a (String c r) then Some a else option_map (String c) (upto a r).
Proof. reflexivity. Qed.

Lemma replace_never : forall p b h t, starts "i" t = false -> never p h = true ->
  replace1 p b (h ++ t) = (h ++ replace1 p b t)%string.
Proof.
  intros p b h t T N. unfold replace1. assert (E : replace_first p b (h ++ t) = option_map (String.append h) (replace_first p b t)).
  { induction h as [|c h IH]; [cbn; destruct (replace_first p b t); reflexivity|].
    cbn [never] in N. rewrite !andb_true_iff, negb_true_iff in N. destruct N as [[A B] N].
    pose proof (clash p (String c h) t T A B) as C. cbn [String.append] in *. rewrite replace_cons, C, IH by exact N.
    destruct (replace_first p b t); reflexivity. }
  rewrite E. destruct (replace_first p b t); reflexivity.
Qed.
Lemma upto_never : forall p h t, starts "i" t = false -> never p h = true -> upto p (h ++ t) = option_map (String.append h) (upto p t).
Proof.
  intros p h t T. revert h. induction h as [|c h IH]; intros N; [cbn; destruct (upto p t); reflexivity|].
  cbn [never] in N. rewrite !andb_true_iff, negb_true_iff in N. destruct N as [[A B] N].
  pose proof (clash p (String c h) t T A B) as C. cbn [String.append] in *. rewrite upto_cons, C, IH by exact N.
  destruct (upto p t); reflexivity.
Qed.

(** The first place of [p] is in [h]: all that follows stays. *)
Fixpoint early (p h : string) : bool :=
  match h with
  | "" => false
  | String _ r => prefix p h || (safe p h && early p r)
  end.

Lemma prefix_app_l : forall p h t, prefix p h = true -> prefix p (h ++ t) = true.
Proof. intros p h t H. apply prefix_split in H. destruct H as (q & ->). rewrite app_assoc_s. apply prefix_refl_app. Qed.

Lemma replace_early : forall p b h t, starts "i" t = false -> p <> "" -> early p h = true -> replace1 p b (h ++ t) = (replace1 p b h ++ t)%string.
Proof.
  intros p b h t T NE E. unfold replace1.
  assert (G : exists x, replace_first p b h = Some x /\ replace_first p b (h ++ t) = Some (x ++ t)%string).
  { induction h as [|c h IH]; [discriminate E|]. cbn [early] in E. cbn [String.append]. rewrite !replace_cons.
    destruct (prefix p (String c h)) eqn:P.
    - pose proof (prefix_app_l p (String c h) t P) as P'. cbn [String.append] in P'. rewrite P'.
      eexists. split; [reflexivity|]. apply prefix_split in P. destruct P as (q & Q').
      change (String c (h ++ t))%string with (String c h ++ t)%string. rewrite Q', !app_assoc_s, !sub_rest. reflexivity.
    - cbn [orb] in E. apply andb_true_iff in E. destruct E as [B E].
      pose proof (clash p (String c h) t T P B) as C. cbn [String.append] in C. rewrite C.
      destruct (IH E) as (x & X1 & X2). rewrite X1, X2. eexists. split; reflexivity. }
  destruct G as (x & -> & ->). reflexivity.
Qed.
Lemma upto_early : forall p h t, starts "i" t = false -> early p h = true -> upto p (h ++ t) = upto p h.
Proof.
  intros p h t T. revert h. induction h as [|c h IH]; intros E; [discriminate E|]. cbn [early] in E. cbn [String.append]. rewrite !upto_cons.
  destruct (prefix p (String c h)) eqn:P.
  - pose proof (prefix_app_l p (String c h) t P) as P'. cbn [String.append] in P'. rewrite P'. reflexivity.
  - cbn [orb] in E. apply andb_true_iff in E. destruct E as [B E].
    pose proof (clash p (String c h) t T P B) as C. cbn [String.append] in C. rewrite C, IH by exact E. reflexivity.
Qed.

(** Characters that neither the text nor the replacement has. *)
Lemma replace_has : forall x a b s, has x s = false -> has x b = false -> has x (replace1 a b s) = false.
Proof.
  intros x a b s S' B. unfold replace1. destruct (replace_first a b s) as [t|] eqn:E; [|exact S'].
  revert t E. induction s as [|c s IH]; intros t E.
  - cbn [replace_first] in E. destruct (prefix a "") eqn:P; [|discriminate E].
    apply prefix_split in P. destruct P as (q & Q'). destruct a; [|discriminate Q'].
    assert (t = (b ++ "")%string) by (cbn in E; congruence). subst t. rewrite app_nil_s. exact B.
  - rewrite replace_cons in E. cbn [has] in S'. apply orb_false_iff in S'. destruct S' as [S1 S2].
    destruct (prefix a (String c s)) eqn:P.
    + apply prefix_split in P. destruct P as (q & Q'). rewrite Q', sub_rest in E.
      assert (t = (b ++ q)%string) by congruence. subst t. rewrite has_app, B. cbn [orb].
      assert (H : has x (a ++ q) = false) by (rewrite <- Q'; cbn [has]; rewrite S1, S2; reflexivity).
      rewrite has_app in H. apply orb_false_iff in H. apply H.
    + destruct (replace_first a b s) as [u|]; [|discriminate E]. assert (t = String c u) by (cbn in E; congruence). subst t.
      cbn [has]. rewrite S1. apply (IH S2 u eq_refl).
Qed.
Lemma replace_absent : forall x a b s, has x s = false -> has x a = true -> replace1 a b s = s.
Proof.
  intros x a b s S' A. unfold replace1. replace (replace_first a b s) with (@None string); [reflexivity|]. symmetry.
  assert (NP : forall t, has x t = false -> prefix a t = false).
  { intros t T. destruct (prefix a t) eqn:P; [|reflexivity]. apply prefix_split in P. destruct P as (q & ->).
    rewrite has_app, A in T. discriminate T. }
  induction s as [|c s IH].
  - cbn [replace_first]. rewrite (NP "" eq_refl). reflexivity.
  - rewrite replace_cons, (NP _ S'). cbn [has] in S'. apply orb_false_iff in S'. rewrite IH by apply S'. reflexivity.
Qed.
Lemma upto_absent : forall x a s, has x s = false -> has x a = true -> upto a s = None.
Proof.
  intros x a s S' A.
  assert (NP : forall t, has x t = false -> prefix a t = false).
  { intros t T. destruct (prefix a t) eqn:P; [|reflexivity]. apply prefix_split in P. destruct P as (q & ->).
    rewrite has_app, A in T. discriminate T. }
  induction s as [|c s IH].
  - cbn [upto]. rewrite (NP "" eq_refl). reflexivity.
  - rewrite upto_cons, (NP _ S'). cbn [has] in S'. apply orb_false_iff in S'. rewrite IH by apply S'. reflexivity.
Qed.

(** * All replacements on a head and what follows *)

(** The head after the replacements, if it can be known without what follows. *)
Fixpoint head_of (rs : list (string * string)) (h : string) : option string :=
  match rs with
  | [] => Some h
  | (a, b) :: r => if never a h then head_of r h else if early a h then head_of r (replace1 a b h) else None
  end.

Definition harmless (r : string * string) : bool :=
  has "p" (fst r) || negb (has "/" (snd r) || has "p" (snd r) || String.eqb (snd r) "" || starts "i" (snd r)).

Lemma replace_starts : forall x a b s, b <> "" -> starts x s = false -> starts x b = false -> starts x (replace1 a b s) = false.
Proof.
  intros x a b s NE S' B. unfold replace1. destruct s as [|c s].
  - cbn [replace_first]. destruct (prefix a ""); [|reflexivity]. destruct b as [|d b]; [congruence | exact B].
  - rewrite replace_cons. destruct (prefix a (String c s)).
    + destruct b as [|d b]; [congruence | exact B].
    + destruct (replace_first a b s); exact S'.
Qed.

Lemma rewrite_head : forall rs h h' t, forallb (fun r => negb (String.eqb (fst r) "") && harmless r) rs = true ->
  has "/" t = false -> has "p" t = false -> starts "i" t = false -> head_of rs h = Some h' ->
  exists t', fold_left (fun x r => replace1 (fst r) (snd r) x) rs (h ++ t)%string = (h' ++ t')%string /\ has "/" t' = false /\
    starts "i" t' = false.
Proof.
  induction rs as [|[a b] rs IH]; intros h h' t HR S' P ST H.
  - cbn in H. assert (h = h') by congruence. subst. exists t. auto.
  - cbn [forallb fst snd] in HR. rewrite !andb_true_iff in HR. destruct HR as [[NE HA] HR].
    assert (NE' : a <> "") by (intros ->; discriminate NE).
    cbn [head_of] in H. cbn [fold_left fst snd].
    destruct (never a h) eqn:N.
    + rewrite replace_never by assumption.
      assert (K : has "/" (replace1 a b t) = false /\ has "p" (replace1 a b t) = false /\ starts "i" (replace1 a b t) = false).
      { unfold harmless in HA. cbn [fst snd] in HA. destruct (has "p" a) eqn:PA.
        - rewrite (replace_absent "p") by assumption. auto.
        - cbn [orb] in HA. rewrite negb_true_iff, !orb_false_iff in HA. destruct HA as [[[H1 H2] H3] H4].
          split; [|split]; [apply replace_has; assumption..|]. apply replace_starts; try assumption. intros ->. discriminate H3. }
      apply IH; tauto.
    + destruct (early a h) eqn:E; [|discriminate H]. rewrite replace_early by assumption. apply IH; assumption.
Qed.

Lemma replacements_good : forallb (fun r => negb (String.eqb (fst r) "") && harmless r) replacements = true.
Proof. vm_compute. reflexivity. Qed.

(** Cutting. *)
Definition cut_of (h : string) : option string :=
  if early "/l" h then upto "/l" h
  else if never "/l" h then
    if early "/kgs" h then upto "/kgs" h
    else if never "/kgs" h then if early "/kgw" h then upto "/kgw" h else None else None
  else None.
Lemma cut_head : forall h t u, has "/" t = false -> starts "i" t = false -> cut_of h = Some u -> cut (h ++ t) = u.
Proof.
  intros h t u T TI C. unfold cut_of in C. unfold cut.
  destruct (early "/l" h) eqn:E1; [rewrite upto_early, C by assumption; reflexivity|].
  destruct (never "/l" h) eqn:N1; [|discriminate C].
  rewrite upto_never by assumption. rewrite (upto_absent "/") by (first [exact T | reflexivity]). cbn [option_map].
  destruct (early "/kgs" h) eqn:E2; [rewrite upto_early, C by assumption; reflexivity|].
  destruct (never "/kgs" h) eqn:N2; [|discriminate C].
  rewrite upto_never by assumption. rewrite (upto_absent "/") by (first [exact T | reflexivity]). cbn [option_map].
  destruct (early "/kgw" h) eqn:E3; [rewrite upto_early, C by assumption; reflexivity|discriminate C].
Qed.

(** * Amounts *)

Definition grams_unit (u : unit_) : bool := match counted_of u with Grams => true | _ => false end.
Lemma has_grams : forall u, contains "g/" (standard u) = grams_unit u.
Proof. intros [[] [] []]; reflexivity. Qed.
Lemma has_litre : forall u, contains "/l" (standard u) = match per_of u with Litre => true | _ => false end.
Proof. intros [[] [] []]; reflexivity. Qed.
Lemma has_kgs : forall u, contains "kgs" (standard u) = match per_of u with Solution => true | _ => false end.
Proof. intros [[] [] []]; reflexivity. Qed.

(** The grams that are added up. *)
Definition counted_grams (u : unit_) (m g : Q) : Q :=
  match per_of u, counted_of u with
  | Water, _ => 0%Q
  | Solution, Equivalents => 0%Q
  | _, Grams => m
  | _, _ => (m * g)%Q
  end.
Lemma grams_unit_is : forall u m g, grams (standard u) m g = counted_grams u m g.
Proof. intros [[] [] []] m g; reflexivity. Qed.

Lemma scaled_is : forall d density x w, means w x ->
  (scaled (standard d) density (element x) == wanted x * match per_of d with Litre => 1 / density | _ => 1 end)%Q.
Proof.
  intros d density x w (U & _). unfold scaled, wanted. rewrite U, has_litre. destruct (in_units x) as [[] [] []], (per_of d); cbn; ring.
Qed.

Definition here (d : unit_) (density : Q) (x : meant) : Q := scaled (standard d) density (element x).
Definition moles_here (d : unit_) (density : Q) (x : meant) : Q := in_moles (standard (in_units x)) (here d density x) (weighs x).
Definition grams_here (d : unit_) (density : Q) (x : meant) : Q := counted_grams (in_units x) (here d density x) (weighs x).

Lemma word_token : forall s, one_word s = true -> fst (copy_token2 s) = s.
Proof.
  intros s H. unfold one_word in H. apply andb_true_iff in H. destruct H as [H W]. apply negb_true_iff, String.eqb_neq in H.
  pose proof (token2 "" s "" eq_refl W H Logic.I) as T. cbn [String.append] in T. rewrite sapp_nil in T. rewrite T. reflexivity.
Qed.
Lemma given : forall c, (0 < gfw c)%Q -> Qle_bool (gfw c) 0 = false.
Proof. intros c H. destruct (Qle_bool (gfw c) 0) eqn:E; [|reflexivity]. apply Qle_bool_iff in E. lra. Qed.
Lemma known_weight : forall w c g, known w c g -> weight w c = (Some g, 0).
Proof.
  intros w c g [L | f g' L A F N | g' L A F N | g' L A O F]; unfold weight.
  - rewrite given by exact L. reflexivity.
  - apply Qle_bool_iff in L. rewrite L, A, F. cbn [negb].
    destruct (String.eqb_spec (name c) "Alkalinity"), (String.eqb_spec f "CaCO3"); try reflexivity. tauto.
  - apply Qle_bool_iff in L. rewrite L, A, F, N. reflexivity.
  - apply Qle_bool_iff in L. rewrite L, A, word_token by exact O. rewrite F. reflexivity.
Qed.
Lemma unknown_weight : forall w c, unknown w c -> snd (weight w c) = 1.
Proof.
  intros w c [f L A F | L A O F]; unfold weight; apply Qle_bool_iff in L; rewrite L, A.
  - rewrite F. reflexivity.
  - rewrite word_token by exact O. rewrite F. reflexivity.
Qed.
Lemma weight_errors : forall w c, 0 <= snd (weight w c).
Proof.
  intros w c. unfold weight. destruct (Qle_bool (gfw c) 0); [|cbn; lia]. cbn [negb].
  destruct (as_ c) as [f|]; [destruct (formula w f); cbn; lia|]. destruct (master w (fst (copy_token2 (name c)))); cbn; lia.
Qed.

Lemma one_meant : forall w d density t s e x, means w x ->
  one_comp w (standard d) density (t, s, e) (element x) =
  (put (put t (name (element x)) 0) (name (element x)) (moles_here d density x), (s + grams_here d density x)%Q, e).
Proof.
  intros w d density t s e x (U & W & G & C & M & N1 & N2). unfold one_comp. rewrite M.
  apply String.eqb_neq in N1, N2. rewrite N1, N2.
  assert (Q0 : Qle_bool (conc (element x)) 0 = false).
  { destruct (Qle_bool (conc (element x)) 0) eqn:E; [|reflexivity]. apply Qle_bool_iff in E. lra. }
  rewrite Q0, (known_weight _ _ _ W). cbn [orb]. rewrite U, grams_unit_is, Z.add_0_r. reflexivity.
Qed.

Lemma all_meant : forall w d density xs t s e, Forall (means w) xs -> NoDup (map (fun x => name (element x)) xs) ->
  exists t' s', fold_left (one_comp w (standard d) density) (map element xs) (t, s, e) = (t', s', e) /\
    (s' == s + total (grams_here d density) xs)%Q /\
    (forall x, In x xs -> t' (name (element x)) = Some (moles_here d density x)) /\
    (forall n, ~ In n (map (fun x => name (element x)) xs) -> t' n = t n).
Proof.
  intros w d density. induction xs as [|x xs IH]; intros t s e F ND.
  - exists t, s. cbn. split; [reflexivity|]. split; [ring|]. split; [intros x []|]. reflexivity.
  - cbn [map fold_left]. rewrite one_meant by (inversion F; assumption).
    assert (FR : Forall (means w) xs) by (inversion F; assumption).
    cbn [map] in ND. inversion ND as [|? ? NI ND2]; subst.
    destruct (IH (put (put t (name (element x)) 0) (name (element x)) (moles_here d density x)) (s + grams_here d density x)%Q e FR ND2)
      as (t' & s' & E & S' & I1 & I2).
    exists t', s'. split; [exact E|]. split; [rewrite S'; cbn [total fold_right]; unfold total; ring|]. split.
    + intros y [<- | Y]; [|apply I1, Y]. rewrite I2 by exact NI. unfold put. rewrite String.eqb_refl. reflexivity.
    + intros n N. rewrite I2 by (intros K; apply N; right; exact K). unfold put.
      assert (NE : String.eqb n (name (element x)) = false) by (apply String.eqb_neq; intros ->; apply N; left; reflexivity).
      rewrite NE. reflexivity.
Qed.

Lemma total_ext : forall A (f g : A -> Q) l, (forall a, In a l -> (f a == g a)%Q) -> (total f l == total g l)%Q.
Proof.
  induction l as [|a l IH]; intros H; [reflexivity|]. cbn [total fold_right].
  fold (total f l). fold (total g l). rewrite IH by (intros b B; apply H; right; exact B). rewrite (H a) by (left; reflexivity). reflexivity.
Qed.
Lemma total_mul : forall A (f : A -> Q) k l, (total (fun a => f a * k) l == total f l * k)%Q.
Proof.
  induction l as [|a l IH]; [cbn; ring|]. cbn [total fold_right]. fold (total f l). fold (total (fun a => f a * k)%Q l). rewrite IH. ring.
Qed.

(** Blanks and capitals. *)
Lemma space_is : forall c, space c = isspace c.
Proof. intros [[] [] [] [] [] [] [] []]; reflexivity. Qed.
Lemma small_is : forall c, small c = tolower c.
Proof. intros [[] [] [] [] [] [] [] []]; reflexivity. Qed.
Lemma plain_is : forall s, lower (squeeze s) = plain s.
Proof.
  induction s as [|c s IH]; [reflexivity|]. cbn [squeeze]. unfold plain in *. cbn [list_ascii_of_string filter]. rewrite space_is.
  destruct (isspace c); cbn [negb]; [exact IH|]. cbn [map string_of_list_ascii lower]. rewrite IH, small_is. reflexivity.
Qed.
