From Coq Require Import String Ascii List ZArith QArith Bool Sorted Lia ZifyBool Arith.
From Verif Require Import CStr_Model CNum_Model Elem_Spec Elem_Proofs Pfile_Spec Data_Spec Data_Proofs Store_Model Store_Spec.
Import ListNotations.
Local Open Scope string_scope.
Local Open Scope list_scope.
Local Open Scope Z_scope.

(** ** Sets and maps *)
Lemma in_zins x y l : In y (zins x l) <-> y = x \/ In y l.
Proof.
  induction l as [|z l IH]; cbn [zins In]; [intuition|]. destruct (Z.ltb_spec x z); [cbn [In]; intuition|].
  destruct (Z.eqb_spec x z) as [->|]; cbn [In]; [intuition|]. rewrite IH. intuition.
Qed.
Lemma sorted_zins x l : StronglySorted Z.lt l -> StronglySorted Z.lt (zins x l).
Proof.
  induction l as [|z l IH]; intros H; cbn [zins]; [constructor; constructor|]. inversion H as [|? ? H1 H2]; subst.
  destruct (Z.ltb_spec x z) as [L|L].
  - constructor; [exact H|]. constructor; [exact L|]. eapply Forall_impl; [|exact H2]. cbn. lia.
  - destruct (Z.eqb_spec x z) as [|N]; [exact H|]. constructor; [exact (IH H1)|]. apply Forall_forall. intros y Y. rewrite in_zins in Y.
    destruct Y as [->|Y]; [lia|]. rewrite Forall_forall in H2. exact (H2 y Y).
Qed.
Lemma zins_not_nil x l : zins x l <> [].
Proof. destruct l as [|y l]; cbn [zins]; [discriminate|]. destruct (x <? y); [discriminate|]. destruct (x =? y); discriminate. Qed.
Lemma in_zrange n : forall a x, In x (zrange a n) <-> a <= x < a + Z.of_nat n.
Proof. induction n as [|n IH]; intros a x; cbn [zrange In]; [lia|]. rewrite IH. lia. Qed.
Lemma in_zins_all xs : forall l y, In y (fold_left (fun l x => zins x l) xs l) <-> In y xs \/ In y l.
Proof. induction xs as [|x xs IH]; intros l y; cbn [fold_left In]; [intuition|]. rewrite IH, in_zins. intuition. Qed.
Lemma sorted_zins_all xs : forall l, StronglySorted Z.lt l -> StronglySorted Z.lt (fold_left (fun l x => zins x l) xs l).
Proof. induction xs as [|x xs IH]; intros l H; cbn [fold_left]; [exact H|]. apply IH, sorted_zins, H. Qed.
Lemma zins_all_not_nil xs : forall l, (xs <> [] \/ l <> []) -> fold_left (fun l x => zins x l) xs l <> [].
Proof. induction xs as [|x xs IH]; intros l H; cbn [fold_left]; [destruct H as [H|H]; [congruence|exact H]|]. apply IH. right. apply zins_not_nil. Qed.

Lemma find_set {A} (m : zmap A) k x j : zfind (zset m k x) j = if j =? k then Some x else zfind m j.
Proof.
  induction m as [|[n y] m IH]; cbn [zset zfind].
  - destruct (Z.eqb_spec k j), (Z.eqb_spec j k); congruence || lia.
  - destruct (Z.ltb_spec k n) as [L|L]; [|destruct (Z.eqb_spec k n) as [->|N]]; cbn [zfind].
    + destruct (Z.eqb_spec k j), (Z.eqb_spec j k); congruence || lia.
    + destruct (Z.eqb_spec n j), (Z.eqb_spec j n); congruence || lia.
    + rewrite IH. destruct (Z.eqb_spec n j), (Z.eqb_spec j k); congruence || lia || reflexivity.
Qed.
Lemma fst_zset {A} (m : zmap A) k x : map fst (zset m k x) = zins k (map fst m).
Proof.
  induction m as [|[n y] m IH]; [reflexivity|]. cbn [zset map fst zins]. destruct (k <? n); [reflexivity|]. destruct (Z.eqb_spec k n) as [->|]; [reflexivity|].
  cbn [map fst]. rewrite IH. reflexivity.
Qed.
Lemma up_set {A} (m : zmap A) k x : keys_up m -> keys_up (zset m k x).
Proof. unfold keys_up. rewrite fst_zset. apply sorted_zins. Qed.
Lemma find_above {A} (m : zmap A) k : Forall (Z.lt k) (map fst m) -> zfind m k = None.
Proof.
  induction m as [|[n y] m IH]; intros H; [reflexivity|]. cbn [map fst] in H. inversion H; subst. cbn [zfind]. destruct (Z.eqb_spec n k); [lia|]. apply IH. assumption.
Qed.
Lemma find_erase {A} (m : zmap A) k j : keys_up m -> zfind (zerase m k) j = if j =? k then None else zfind m j.
Proof.
  unfold keys_up. induction m as [|[n y] m IH]; intros H; cbn [zerase zfind]; [destruct (j =? k); reflexivity|]. cbn [map fst] in H. inversion H as [|? ? H1 H2]; subst.
  destruct (Z.eqb_spec n k) as [->|N].
  - destruct (Z.eqb_spec j k) as [M|M]; [rewrite M; apply find_above; exact H2|]. destruct (Z.eqb_spec k j); [lia|reflexivity].
  - cbn [zfind]. rewrite (IH H1). destruct (Z.eqb_spec n j), (Z.eqb_spec j k); congruence || lia || reflexivity.
Qed.
Lemma fst_erase_in {A} (m : zmap A) k y : In y (map fst (zerase m k)) -> In y (map fst m).
Proof. induction m as [|[n x] m IH]; [easy|]. cbn [zerase]. destruct (n =? k); cbn [map fst In]; [auto|]. intuition. Qed.
Lemma up_erase {A} (m : zmap A) k : keys_up m -> keys_up (zerase m k).
Proof.
  unfold keys_up. induction m as [|[n x] m IH]; intros H; [exact H|]. cbn [map fst] in H. inversion H as [|? ? H1 H2]; subst. cbn [zerase].
  destruct (n =? k); [exact H1|]. cbn [map fst]. constructor; [exact (IH H1)|]. apply Forall_forall. intros y Y. rewrite Forall_forall in H2. apply H2. exact (fst_erase_in m k y Y).
Qed.
Lemma find_erase_all {A} l : forall (m : zmap A) j, keys_up m -> (In j l -> zfind (fold_left zerase l m) j = None) /\ (~ In j l -> zfind (fold_left zerase l m) j = zfind m j).
Proof.
  induction l as [|x l IH]; intros m j H; cbn [fold_left In]; [tauto|]. destruct (IH (zerase m x) j (up_erase m x H)) as [I1 I2]. rewrite (find_erase m x j H) in I2.
  destruct (Z.eqb_spec j x) as [->|N].
  - split; [|tauto]. intros _. destruct (in_dec Z.eq_dec x l) as [Y|Y]; [exact (I1 Y)|exact (I2 Y)].
  - split; [intros [E|E]; [congruence|exact (I1 E)]|]. intros E. apply I2. tauto.
Qed.

(** ** Number lists *)
Lemma digit_not_dash c d : digit c = Some d -> Ascii.eqb c "-" = false /\ Ascii.eqb c "&" = false /\ Ascii.eqb c "." = false.
Proof.
  intros D. repeat split; destruct (Ascii.eqb_spec c "-"), (Ascii.eqb_spec c "&"), (Ascii.eqb_spec c "."); subst; try reflexivity; discriminate D.
Qed.
Lemma dashes_cons a t : t <> ""%string -> dashes (String a t) = match t with String b r => if Ascii.eqb a "-" && Ascii.eqb b "-" then String " " (String "&" r) else String a (dashes t) | "" => String a t end.
Proof. destruct t; [congruence|reflexivity]. Qed.
Lemma dashes_digit c d r : digit c = Some d -> dashes (String c r) = String c (dashes r).
Proof. intros D. destruct (digit_not_dash c d D) as [E _]. destruct r as [|b r]; [reflexivity|]. cbn [dashes]. rewrite E. reflexivity. Qed.
Lemma dashes_digits s : forall l r, digs s = Some l -> dashes (s ++ r)%string = (s ++ dashes r)%string.
Proof.
  induction s as [|c s IH]; intros l r D; [reflexivity|]. cbn [digs] in D. destruct (digit c) as [d|] eqn:E; [|discriminate]. destruct (digs s) as [l'|] eqn:E2; [|discriminate].
  cbn [append]. rewrite (dashes_digit c d _ E), (IH l' r eq_refl). reflexivity.
Qed.
Lemma dashes_minus c d r : digit c = Some d -> dashes (String "-" (String c r)) = String "-" (dashes (String c r)).
Proof. intros D. destruct (digit_not_dash c d D) as [E _]. cbn [dashes]. rewrite E. reflexivity. Qed.
Lemma swap_digits x y s : forall l r, digs s = Some l -> (x = "-"%char \/ x = "&"%char) -> swap_char x y (s ++ r)%string = (s ++ swap_char x y r)%string.
Proof.
  induction s as [|c s IH]; intros l r D X; [reflexivity|]. cbn [digs] in D. destruct (digit c) as [d|] eqn:E; [|discriminate]. destruct (digs s) as [l'|] eqn:E2; [|discriminate].
  cbn [append swap_char]. rewrite (IH l' r eq_refl X). destruct (digit_not_dash c d E) as (E3 & E4 & _). destruct X as [-> | ->]; rewrite ?E3, ?E4; reflexivity.
Qed.
(** An integer text: its first character and the rest, which is digits. *)
Lemma int_parts t v : int_text t v -> exists c s l, t = String c s /\ digs s = Some l /\ (digit c <> None \/ c = "-"%char /\ s <> ""%string).
Proof.
  intros [s v' N|s v' N]; destruct (numeral_digs s v' N) as (l & D & L & _).
  - destruct s as [|c s]; [cbn in D; congruence|]. cbn [digs] in D. destruct (digit c) as [d|] eqn:E; [|discriminate]. destruct (digs s) as [l'|] eqn:E2; [|discriminate].
    exists c, s, l'. split; [reflexivity|]. split; [exact E2|]. left. congruence.
  - exists "-"%char, s, l. split; [reflexivity|]. split; [exact D|]. right. split; [reflexivity|]. intros ->. cbn in D. congruence.
Qed.
Lemma dashes_int t v r : int_text t v -> dashes (t ++ r)%string = (t ++ dashes r)%string.
Proof.
  intros T. destruct (int_parts t v T) as (c & s & l & -> & D & [X|[-> X]]).
  - destruct (digit c) as [d|] eqn:E; [|congruence]. cbn [append]. rewrite (dashes_digit c d _ E), (dashes_digits s l r D). reflexivity.
  - destruct s as [|c s]; [congruence|]. pose proof D as D'. cbn [digs] in D. destruct (digit c) as [d|] eqn:E; [|discriminate].
    cbn [append]. rewrite (dashes_minus c d _ E). change (String c (s ++ r)%string) with ((String c s) ++ r)%string. rewrite (dashes_digits _ l r D'). reflexivity.
Qed.
Lemma respell_one t v : int_text t v -> respell t = t.
Proof.
  intros T. unfold respell. pose proof (dashes_int t v "" T) as E. rewrite !app_nil_s in E. cbn [dashes] in E. rewrite ?app_nil_s in E. rewrite E.
  destruct (int_parts t v T) as (c & s & l & -> & D & _). f_equal. pose proof (swap_digits "-" " " s l "" D (or_introl eq_refl)) as E1. pose proof (swap_digits "&" "-" s l "" D (or_intror eq_refl)) as E2.
  cbn [swap_char] in E1, E2. rewrite app_nil_s in E1, E2. rewrite E1, E2. reflexivity.
Qed.
Lemma respell_range ta tb a b : int_text ta a -> int_text tb b -> respell (ta ++ "-" ++ tb)%string = (ta ++ " " ++ tb)%string.
Proof.
  intros TA TB. unfold respell. rewrite (dashes_int ta a _ TA). destruct (int_parts ta a TA) as (c & s & l & -> & D & _). cbn [append]. f_equal.
  destruct (int_parts tb b TB) as (c' & s' & l' & -> & D' & [X|[-> X]]).
  - destruct (digit c') as [d|] eqn:E; [|congruence]. rewrite (dashes_minus c' d _ E), (dashes_digit c' d _ E).
    pose proof (dashes_digits s' l' "" D') as E1. cbn [dashes] in E1. rewrite app_nil_s in E1. rewrite E1.
    rewrite (swap_digits "-" " " s l _ D (or_introl eq_refl)), (swap_digits "&" "-" s l _ D (or_intror eq_refl)). f_equal.
    destruct (digit_not_dash c' d E) as (E3 & E4 & _). cbn [swap_char]. rewrite E3. cbn [swap_char]. rewrite E4. change (Ascii.eqb "-" "-") with true. cbv iota. change (Ascii.eqb " " "&") with false. cbv iota.
    pose proof (swap_digits "-" " " s' l' "" D' (or_introl eq_refl)) as F1. pose proof (swap_digits "&" "-" s' l' "" D' (or_intror eq_refl)) as F2.
    cbn [swap_char] in F1, F2. rewrite app_nil_s in F1, F2. rewrite F1, F2. reflexivity.
  - destruct s' as [|c2 s2]; [congruence|]. change (dashes (String "-" (String "-" (String c2 s2)))) with (String " " (String "&" (String c2 s2))).
    rewrite (swap_digits "-" " " s l _ D (or_introl eq_refl)), (swap_digits "&" "-" s l _ D (or_intror eq_refl)). f_equal.
    pose proof (swap_digits "-" " " (String c2 s2) l' "" D' (or_introl eq_refl)) as F1. pose proof (swap_digits "&" "-" (String c2 s2) l' "" D' (or_intror eq_refl)) as F2.
    rewrite !app_nil_s in F1, F2. cbn [swap_char] in F1, F2. rewrite ?app_nil_s in F1, F2. set (W0 := String c2 s2) in *.
    change (swap_char "-" " " (String " " (String "&" W0))) with (String " " (String "&" (swap_char "-" " " W0))).
    change (swap_char "&" "-" (String " " (String "&" (swap_char "-" " " W0)))) with (String " " (String "-" (swap_char "&" "-" (swap_char "-" " " W0)))).
    assert (G1 : swap_char "-" " " W0 = W0) by exact F1. rewrite G1. assert (G2 : swap_char "&" "-" W0 = W0) by exact F2. rewrite G2. reflexivity.
Qed.
Lemma len_pos t v : int_text t v -> (0 < String.length t)%nat.
Proof. intros T. destruct (int_parts t v T) as (c & s & l & -> & _). cbn. lia. Qed.
Lemma is_int_ok x : an_int x -> is_int x = true.
Proof. unfold an_int, is_int, INT_MIN, INT_MAX. lia. Qed.
Lemma scan_int k t v rest : int_text t v -> stops rest -> an_int v -> scan (blanks k ++ t ++ rest)%string = Some (v, rest).
Proof.
  intros T R I. unfold scan. rewrite (raw_int k t v rest T R), (is_int_ok v I). rewrite !len_app_s. pose proof (len_pos t v T).
  replace (Nat.ltb _ _) with true by (symmetry; apply Nat.ltb_lt; lia). reflexivity.
Qed.
Lemma scan_nil : scan "" = None.
Proof. reflexivity. Qed.
Lemma text_not_empty t v r : int_text t v -> String.eqb (t ++ r) "" = false.
Proof. intros T. destruct (int_parts t v T) as (c & s & l & -> & _). reflexivity. Qed.
Definition ok_item (it : item) : Prop := StronglySorted Z.lt (numbers it).
Lemma augment_listing it t a b : listing t a b -> ok_item it ->
  exists it', augment it t = Ret it' /\ defined it' = true /\ ok_item it' /\ numbers it' <> [] /\ forall x, In x (numbers it') <-> between a b x \/ In x (numbers it).
Proof.
  intros L OK. unfold augment. destruct L as [t a T I|ta tb a b TA TB IA IB NA NB].
  - pose proof (text_not_empty t a "" T) as E. rewrite app_nil_s in E. rewrite E, (respell_one t a T).
    pose proof (scan_int 0 t a "" T Logic.I I) as SC. cbn [blanks append] in SC. rewrite app_nil_s in SC. rewrite SC, scan_nil.
    eexists. split; [reflexivity|]. cbn [defined numbers]. split; [reflexivity|]. split; [apply sorted_zins; exact OK|]. split; [apply zins_not_nil|].
    intros x. rewrite in_zins. unfold between. split; (intros [H|H]; [left; lia|right; exact H]).
  - rewrite (text_not_empty ta a _ TA), (respell_range ta tb a b TA TB).
    pose proof (scan_int 0 ta a (" " ++ tb)%string TA eq_refl IA) as SC. cbn [blanks] in SC. change ("" ++ ta ++ " " ++ tb)%string with (ta ++ " " ++ tb)%string in SC. rewrite SC.
    pose proof (scan_int 1 tb b "" TB Logic.I IB) as SD. change (blanks 1 ++ tb ++ "")%string with (" " ++ (tb ++ ""))%string in SD. rewrite app_nil_s in SD. rewrite SD.
    destruct (Z.eqb_spec a b) as [->|N].
    + eexists. split; [reflexivity|]. cbn [defined numbers]. split; [reflexivity|]. split; [apply sorted_zins; exact OK|]. split; [apply zins_not_nil|].
      intros x. rewrite in_zins. unfold between. split; (intros [H|H]; [left; lia|right; exact H]).
    + unfold an_int in IA, IB. destruct (Z.eqb_spec (Z.max a b) INT_MAX) as [E|E]; [unfold INT_MAX in E; lia|].
      eexists. split; [reflexivity|]. cbn [defined numbers]. split; [reflexivity|]. split; [apply sorted_zins_all; exact OK|].
      split. { apply zins_all_not_nil. left. destruct (Z.to_nat (Z.max a b - Z.min a b + 1)) as [|n] eqn:Z0; [lia|]. discriminate. }
      intros x. rewrite in_zins_all, in_zrange. unfold between. split; (intros [H|H]; [left; lia|right; exact H]).
Qed.

Lemma digs_minus s : digs (String "-" s) = None.
Proof. reflexivity. Qed.
Lemma int_unique t v w : int_text t v -> int_text t w -> v = w.
Proof.
  intros A B. pose proof (raw_int 0 t v "" A Logic.I) as E. pose proof (raw_int 0 t w "" B Logic.I) as F. rewrite E in F. injection F as ->. reflexivity.
Qed.
(** A listing is read in one way only: its respelled text is. *)
Lemma listing_unique t a b a' b' : listing t a b -> listing t a' b' -> (a = a' /\ b = b') \/ (a = b' /\ b = a').
Proof.
  assert (RD : forall t a b, listing t a b -> exists rest, scan (respell t) = Some (a, rest) /\ (scan rest = Some (b, "") \/ scan rest = None /\ b = a)).
  { intros t0 a0 b0 [t1 a1 T I1|ta tb a1 b1 TA TB IA IB NA NB].
    - exists ""%string. rewrite (respell_one t1 a1 T). pose proof (scan_int 0 t1 a1 "" T Logic.I I1) as SC. cbn [blanks append] in SC. rewrite app_nil_s in SC. rewrite SC. split; [reflexivity|]. right. split; reflexivity.
    - exists (" " ++ tb)%string. rewrite (respell_range ta tb a1 b1 TA TB). pose proof (scan_int 0 ta a1 (" " ++ tb)%string TA eq_refl IA) as SC. cbn [blanks] in SC. change ("" ++ ta ++ " " ++ tb)%string with (ta ++ " " ++ tb)%string in SC. rewrite SC.
      split; [reflexivity|]. left. pose proof (scan_int 1 tb b1 "" TB Logic.I IB) as SD. change (blanks 1 ++ tb ++ "")%string with (" " ++ (tb ++ ""))%string in SD. rewrite app_nil_s in SD. exact SD. }
  intros A B. destruct (RD _ _ _ A) as (r & R1 & R2). destruct (RD _ _ _ B) as (r' & S1 & S2). rewrite R1 in S1. injection S1 as <- <-.
  left. split; [reflexivity|]. destruct R2 as [R2|[R2 ->]], S2 as [S2|[S2 ->]]; rewrite R2 in S2; congruence.
Qed.
Lemma is_number_listing t a b : listing t a b -> is_number t = true.
Proof.
  assert (X : forall t v r, int_text t v -> is_number (t ++ r)%string = true).
  { intros t0 v r T. destruct (int_parts t0 v T) as (c & s & l & -> & _ & [X|[-> _]]); cbn [append is_number]; [destruct (digit c); [reflexivity|congruence]|reflexivity]. }
  intros [t' a' T _|ta tb a' b' TA _ _ _ _ _]; [rewrite <- (app_nil_s t')|]; eapply X; eassumption.
Qed.
Lemma augment_nil it : augment it "" = Ret (mkItem true (numbers it)).
Proof. reflexivity. Qed.
Definition numbers_after (toks : list string) (it it' : item) : Prop :=
  defined it' = true /\ ok_item it' /\ (toks <> [] -> numbers it' <> []) /\ (numbers it <> [] -> numbers it' <> []) /\ forall x, In x (numbers it') <-> listed toks x \/ In x (numbers it).
Lemma tokens_ok (rd : item -> list string -> outcome item) toks :
  (forall it, rd it [] = augment it "") -> (forall it t l, is_number t = true -> rd it (t :: l) = bind (augment it t) (fun it => rd it l)) ->
  forall it, all_listings toks -> ok_item it -> exists it', rd it toks = Ret it' /\ numbers_after toks it it'.
Proof.
  intros R0 R1. induction toks as [|t toks IH]; intros it AL OK.
  - exists (mkItem true (numbers it)). split; [rewrite R0; reflexivity|]. split; [reflexivity|]. split; [exact OK|]. split; [congruence|]. split; [auto|].
    intros x. cbn [numbers]. split; [auto|]. intros [(t & a & b & [] & _)|H]; exact H.
  - inversion AL as [|? ? (a & b & L) AL2]; subst. rewrite (R1 it t toks (is_number_listing t a b L)).
    destruct (augment_listing it t a b L OK) as (it1 & -> & D1 & OK1 & NN & I1). cbn [bind].
    destruct (IH it1 AL2 OK1) as (it' & -> & D2 & OK2 & N1 & N2 & I2). exists it'. split; [reflexivity|]. split; [exact D2|]. split; [exact OK2|]. split; [intros _; exact (N2 NN)|].
    split; [intros _; exact (N2 NN)|]. intros x. rewrite I2, I1. split.
    + intros [(t' & a' & b' & H1 & H2 & H3)|[H|H]]; [left; exists t', a', b'; split; [right; exact H1|split; assumption]|left; exists t, a, b; split; [left; reflexivity|split; assumption]|right; exact H].
    + intros [(t' & a' & b' & [->|H1] & H2 & H3)|H]; [|left; exists t', a', b'; split; [exact H1|split; assumption]|right; right; exact H].
      right. left. destruct (listing_unique t' a b a' b' L H2) as [X|X]; unfold between in *; lia.
Qed.

(** ** Copies *)
Lemma size_pos x : 0 <= x -> an_int x -> size_of x = x.
Proof. unfold an_int, size_of. intros. apply Z.mod_small. lia. Qed.
Lemma size_neg x : x < 0 -> an_int x -> size_of x = x + 2 ^ 64.
Proof. unfold an_int, size_of. intros. symmetry. apply Z.mod_unique with (q := -1); lia. Qed.
Lemma int_of_congr x y q : an_int y -> x = y + 2 ^ 32 * q -> int_of x = y.
Proof.
  unfold an_int, int_of. intros I ->. rewrite Z.mul_comm, Z.mod_add by lia. destruct (Z.ltb_spec y 0) as [L|L].
  - replace (y mod 2 ^ 32) with (y + 2 ^ 32) by (apply Z.mod_unique with (q := -1); lia). destruct (Z.ltb_spec (y + 2 ^ 32) (2 ^ 31)); lia.
  - rewrite Z.mod_small by lia. destruct (Z.ltb_spec y (2 ^ 31)); lia.
Qed.
Lemma int_of_range x : an_int (int_of x).
Proof. unfold an_int, int_of. pose proof (Z.mod_pos_bound x (2 ^ 32) ltac:(lia)). destruct (Z.ltb_spec (x mod 2 ^ 32) (2 ^ 31)); lia. Qed.
Section Copies.
Context {B : Type}.
Implicit Types (m : zmap (entity B)).
Lemma up_copy m i j : keys_up m -> keys_up (rxn_copy m i j).
Proof. intros H. unfold rxn_copy. destruct (zfind m i); [apply up_set|]; exact H. Qed.
Definition copy_loop n xs m := fold_left (fun m i => if i =? size_of n then m else rxn_copy m n (int_of i)) xs m.
Lemma copy_fold n : forall xs m x, zfind m n = Some x -> keys_up m ->
  keys_up (copy_loop n xs m) /\
  (forall k, (exists i, In i xs /\ i <> size_of n /\ int_of i = k) -> zfind (copy_loop n xs m) k = Some (numbered k x)) /\
  (forall k, ~ (exists i, In i xs /\ i <> size_of n /\ int_of i = k) -> zfind (copy_loop n xs m) k = zfind m k).
Proof.
  induction xs as [|i xs IH]; intros m x F U; unfold copy_loop; cbn [fold_left].
  - split; [exact U|]. split; [intros k (i & [] & _)|reflexivity].
  - fold (copy_loop n xs (if i =? size_of n then m else rxn_copy m n (int_of i))).
    destruct (Z.eqb_spec i (size_of n)) as [E|N].
    + destruct (IH m x F U) as (U' & I1 & I2). split; [exact U'|]. split; intros k K; [apply I1|apply I2].
      * destruct K as (j & [->|J] & K1 & K2); [congruence|]. exists j. auto.
      * intros (j & J & K1 & K2). apply K. exists j. split; [right; exact J|auto].
    + unfold rxn_copy. rewrite F. set (j := int_of i) in *. set (m1 := zset m j (renumber x j)).
      assert (F1 : exists x1, zfind m1 n = Some x1 /\ body x1 = body x).
      { unfold m1. rewrite find_set. destruct (n =? j); eexists; split; [reflexivity|reflexivity|exact F|reflexivity]. }
      destruct F1 as (x1 & F1 & B1). destruct (IH m1 x1 F1 (up_set m j _ U)) as (U' & I1 & I2). split; [exact U'|].
      assert (NB : forall k, numbered k x1 = numbered k x) by (intros k; unfold numbered; rewrite B1; reflexivity).
      assert (DEC : forall k, (exists i0, In i0 xs /\ i0 <> size_of n /\ int_of i0 = k) \/ ~ (exists i0, In i0 xs /\ i0 <> size_of n /\ int_of i0 = k)).
      { intros k. clear. induction xs as [|y xs IH]; [right; intros (? & [] & _)|]. destruct IH as [(i0 & I0 & I1)|H]; [left; exists i0; split; [right; exact I0|exact I1]|].
        destruct (Z.eq_dec y (size_of n)) as [->|N]; [right; intros (i0 & [<-|I0] & I1 & I2); [congruence|apply H; exists i0; auto]|].
        destruct (Z.eq_dec (int_of y) k) as [E|N2]; [left; exists y; split; [left; reflexivity|auto]|]. right; intros (i0 & [<-|I0] & I1 & I2); [congruence|apply H; exists i0; auto]. }
      split; intros k K.
      * destruct (DEC k) as [D|D]; [rewrite (I1 k D), NB; reflexivity|]. rewrite (I2 k D). destruct K as (i0 & [<-|I0] & K1 & K2); [|elim D; exists i0; auto].
        unfold m1. rewrite find_set. fold j in K2. rewrite K2, Z.eqb_refl. unfold renumber, numbered. reflexivity.
      * destruct (DEC k) as [(i0 & I0 & K1 & K2)|D]; [elim K; exists i0; split; [right; exact I0|auto]|]. rewrite (I2 k D). unfold m1. rewrite find_set.
        destruct (Z.eqb_spec k j) as [->|]; [|reflexivity]. elim K. exists i. split; [left; reflexivity|auto].
Qed.
Lemma copy_one_ok m n s e : keys_up m -> an_int n -> target_range s e ->
  exists m', copy_one m (n, s, e) = Some m' /\ keys_up m' /\ copied n s e (zfind m) (zfind m').
Proof.
  intros U IN (IS & IE & R). unfold copy_one, copied. destruct (zfind m n) as [x|] eqn:F; [|exists m; split; [reflexivity|]; split; [exact U|reflexivity]].
  destruct (Z.eqb_spec e (-1)); [lia|]. eexists. split; [reflexivity|].
  destruct (copy_fold n (zrange (size_of s) (Z.to_nat (size_of e - size_of s + 1))) m x F U) as (U' & I1 & I2). unfold copy_loop in *. split; [exact U'|].
  assert (EQ : forall k, (exists i, In i (zrange (size_of s) (Z.to_nat (size_of e - size_of s + 1))) /\ i <> size_of n /\ int_of i = k) <-> s <= k <= e /\ k <> n).
  { intros k. split.
    - intros (i & I & NI & K). rewrite in_zrange in I. destruct R as [[R1 R2]|[R1 R2]].
      + rewrite (size_pos s R1 IS), (size_pos e R2 IE) in I. assert (K' : int_of i = i) by (apply int_of_congr with (q := 0); unfold an_int in *; lia).
        rewrite K' in K. subst i. split; [lia|]. intros ->. apply NI. symmetry. apply size_pos; [lia|exact IN].
      + rewrite (size_neg s R1 IS), (size_neg e ltac:(lia) IE) in I. assert (K' : int_of i = i - 2 ^ 64) by (apply int_of_congr with (q := 2 ^ 32); unfold an_int in *; lia).
        rewrite K' in K. split; [lia|]. intros ->. apply NI. rewrite <- K. rewrite size_neg; unfold an_int in *; lia.
    - intros (K & NK). destruct R as [[R1 R2]|[R1 R2]].
      + exists k. rewrite in_zrange, (size_pos s R1 IS), (size_pos e R2 IE). split; [lia|]. split.
        * intros E. destruct (Z.ltb_spec n 0) as [L|L]; [rewrite (size_neg n L IN) in E; unfold an_int in *; lia|rewrite (size_pos n L IN) in E; congruence].
        * apply int_of_congr with (q := 0); unfold an_int in *; lia.
      + exists (k + 2 ^ 64). rewrite in_zrange, (size_neg s R1 IS), (size_neg e ltac:(lia) IE). split; [lia|]. split.
        * intros E. destruct (Z.ltb_spec n 0) as [L|L]; [rewrite (size_neg n L IN) in E; lia|rewrite (size_pos n L IN) in E; unfold an_int in *; lia].
        * apply int_of_congr with (q := 2 ^ 32); unfold an_int in *; lia. }
  intros k. split.
  - intros K NK. apply I1. rewrite EQ. auto.
  - intros K. apply I2. rewrite EQ. tauto.
Qed.
Lemma copy_kind_ok : forall cs m, keys_up m -> (forall n s e, In (n, s, e) cs -> an_int n /\ target_range s e) ->
  exists m', copy_kind m cs = Some m' /\ keys_up m' /\ copied_all cs (zfind m) (zfind m').
Proof.
  induction cs as [|[[n s] e] cs IH]; intros m U H; cbn [copy_kind].
  - exists m. split; [reflexivity|]. split; [exact U|]. constructor. reflexivity.
  - destruct (H n s e (or_introl eq_refl)) as [IN T]. destruct (copy_one_ok m n s e U IN T) as (m1 & -> & U1 & C1).
    destruct (IH m1 U1) as (m' & E & U' & C'); [intros; apply H; right; assumption|]. exists m'. split; [exact E|]. split; [exact U'|]. econstructor; eassumption.
Qed.
Lemma kind_eqb_spec a b : reflect (a = b) (kind_eqb a b).
Proof. destruct a, b; constructor; congruence. Qed.
Lemma copy_entities_ok : forall ks cs (s : store B), NoDup ks -> (forall k, exists m, copy_kind (s k) (cs k) = Some m) ->
  exists s', copy_entities ks cs s = Some s' /\ forall k, (In k ks -> copy_kind (s k) (cs k) = Some (s' k)) /\ (~ In k ks -> s' k = s k).
Proof.
  induction ks as [|k0 ks IH]; intros cs s ND H; cbn [copy_entities].
  - exists s. split; [reflexivity|]. intros k. split; [intros []|reflexivity].
  - inversion ND as [|? ? NI ND2]; subst. destruct (H k0) as [m0 E0]. rewrite E0. set (s1 := set_map s k0 m0).
    assert (O : forall k, k <> k0 -> s1 k = s k) by (intros k N; unfold s1, set_map; destruct (kind_eqb_spec k k0); congruence).
    assert (RES : forall ks s', copy_entities ks cs s1 = Some s' -> ~ In k0 ks -> s' k0 = m0).
    { assert (G : forall ks (t t' : store B), copy_entities ks cs t = Some t' -> ~ In k0 ks -> t' k0 = t k0).
      { clear. induction ks as [|k ks IH]; intros t t' E NI; cbn [copy_entities] in E; [injection E as <-; reflexivity|]. destruct (copy_kind (t k) (cs k)) as [m|]; [|discriminate].
        rewrite (IH _ _ E (fun X => NI (or_intror X))). unfold set_map. destruct (kind_eqb_spec k0 k) as [->|]; [|reflexivity]. elim NI. left. reflexivity. }
      intros ks' s' E NI'. rewrite (G ks' s1 s' E NI'). unfold s1, set_map. destruct (kind_eqb_spec k0 k0); congruence. }
    set (cs1 := fun k => if kind_eqb k k0 then [] else cs k).
    assert (EXT : forall ks (t : store B), ~ In k0 ks -> copy_entities ks cs t = copy_entities ks cs1 t).
    { clear. induction ks as [|k ks IH]; intros t NI; cbn [copy_entities]; [reflexivity|]. replace (cs1 k) with (cs k); [|unfold cs1; destruct (kind_eqb_spec k k0) as [->|]; [elim NI; left; reflexivity|reflexivity]].
      destruct (copy_kind (t k) (cs k)); [|reflexivity]. apply IH. intros X. apply NI. right. exact X. }
    destruct (IH cs1 s1 ND2) as (s' & E & P).
    { intros k. unfold cs1. destruct (kind_eqb_spec k k0) as [->|N]; [eexists; reflexivity|]. rewrite (O k N). apply H. }
    exists s'. rewrite (EXT ks s1 NI). split; [exact E|]. intros k. destruct (kind_eqb_spec k k0) as [->|N].
    + split; [|intros X; elim X; left; reflexivity]. intros _. rewrite E0. f_equal. symmetry. apply (RES ks); [rewrite (EXT ks s1 NI); exact E|exact NI].
    + destruct (P k) as [P1 P2]. split.
      * intros [X|X]; [congruence|]. specialize (P1 X). rewrite (O k N) in P1. unfold cs1 in P1. destruct (kind_eqb_spec k k0); [congruence|exact P1].
      * intros X. rewrite P2; [exact (O k N)|]. intros Y. apply X. right. exact Y.
Qed.
Lemma copy_kinds_all k : In k copy_order.
Proof. destruct k; cbn; tauto. Qed.
Lemma copy_order_nodup : NoDup copy_order.
Proof. unfold copy_order. repeat (constructor; [cbn; intuition discriminate|]). constructor. Qed.

(** Copies of one reactant to the numbers after it. *)
Lemma copies_fold : forall n m (x : entity B) i, keys_up m ->
  let r := fold_left (fun (a : zmap (entity B) * entity B) y => let c := renumber (snd a) y in (zset (fst a) y c, c)) (zrange i n) (m, x) in
  keys_up (fst r) /\ forall k, zfind (fst r) k = if (i <=? k) && (k <? i + Z.of_nat n) then Some (numbered k x) else zfind m k.
Proof.
  induction n as [|n IH]; intros m x i U; cbn [zrange fold_left].
  - split; [exact U|]. intros k. replace ((i <=? k) && (k <? i + Z.of_nat 0)) with false by lia. reflexivity.
  - cbn [fst snd]. destruct (IH (zset m i (renumber x i)) (renumber x i) (i + 1) (up_set m i _ U)) as [U' P]. split; [exact U'|]. intros k. rewrite P. rewrite find_set.
    destruct (Z.eqb_spec k i) as [->|N].
    + replace ((i + 1 <=? i) && (i <? i + 1 + Z.of_nat n)) with false by lia. replace ((i <=? i) && (i <? i + Z.of_nat (S n))) with true by lia. reflexivity.
    + replace ((i + 1 <=? k) && (k <? i + 1 + Z.of_nat n)) with ((i <=? k) && (k <? i + Z.of_nat (S n))) by lia. destruct ((i <=? k) && (k <? i + Z.of_nat (S n))); reflexivity.
Qed.
Lemma copies_ok m i j : keys_up m -> keys_up (rxn_copies m i j) /\ copied i i j (zfind m) (zfind (rxn_copies m i j)).
Proof.
  intros U. unfold rxn_copies, copied. destruct (Z.leb_spec j i) as [L|L].
  - split; [exact U|]. intros k. destruct (zfind m i); [|reflexivity]. split; [lia|reflexivity].
  - destruct (zfind m i) as [x|] eqn:F; [|split; [exact U|reflexivity]]. destruct (copies_fold (Z.to_nat (j - i)) m x (i + 1) U) as [U' P]. split; [exact U'|].
    intros k. split.
    + intros K N. rewrite P. replace (_ && _) with true by lia. reflexivity.
    + intros K. rewrite P. replace (_ && _) with false by lia. reflexivity.
Qed.
Lemma last_key_max m : keys_up m -> match last_key m with None => m = [] | Some l => Forall (fun x => x <= l) (map fst m) /\ In l (map fst m) end.
Proof.
  unfold keys_up. induction m as [|[n x] m IH]; intros U; [reflexivity|]. cbn [map fst] in U. inversion U as [|? ? U1 U2]; subst. specialize (IH U1). cbn [last_key]. destruct m as [|y m].
  - split; [constructor; [cbn; lia|constructor]|left; reflexivity].
  - destruct (last_key (y :: m)) as [l|]; [|discriminate]. destruct IH as [I1 I2]. split; [|right; exact I2]. cbn [map fst]. constructor; [|exact I1]. rewrite Forall_forall in U2. specialize (U2 l I2). lia.
Qed.
Lemma next_unused m : keys_up m -> forall k, next_user_number m <= k -> zfind m k = None.
Proof.
  intros U k K. unfold next_user_number in K. pose proof (last_key_max m U) as L. destruct (last_key m) as [l|]; [|subst m; reflexivity]. destruct L as [L _].
  clear -L K. induction m as [|[n x] m IH]; [reflexivity|]. cbn [map fst] in L. inversion L; subst. cbn [zfind]. destruct (Z.eqb_spec n k); [lia|]. auto.
Qed.
End Copies.

(** ** Selections *)
Definition sound (it : item) : Prop := ok_item it /\ (defined it = true <-> numbers it <> []).
Lemma sound_no : sound no_item.
Proof. split; [constructor|]. cbn. split; congruence. Qed.
Lemma sound_after toks it it' : toks <> [] -> numbers_after toks it it' -> sound it'.
Proof. intros T (D & OK & N1 & _). split; [exact OK|]. rewrite D. split; auto. Qed.
Lemma wo_cons {O} (saved o : option O) toks ls :
  with_options saved ((o, toks) :: ls) = (match o with None => saved | _ => o end, toks) :: with_options (match o with None => saved | _ => o end) ls.
Proof. destruct o; reflexivity. Qed.
Lemma augment_ints : forall l it, sound it ->
  sound (fold_left augment_int l it) /\ forall x, In x (numbers (fold_left augment_int l it)) <-> In x l \/ In x (numbers it).
Proof.
  induction l as [|y l IH]; intros it SO; cbn [fold_left].
  - split; [exact SO|]. intros x. split; [auto|intros [[]|H]; exact H].
  - assert (E : augment_int it y = mkItem true (zins y (numbers it))).
    { unfold augment_int. destruct SO as [_ SO]. destruct (defined it) eqn:D; [|reflexivity]. destruct (numbers it) eqn:N; [|reflexivity]. elim (proj1 SO eq_refl). reflexivity. }
    rewrite E. destruct (IH (mkItem true (zins y (numbers it)))) as [S1 P].
    { split; [apply sorted_zins; apply SO|]. cbn [defined numbers]. split; [intros _; apply zins_not_nil|reflexivity]. }
    split; [exact S1|]. intros x. rewrite P. cbn [numbers]. rewrite in_zins. cbn [In]. intuition congruence.
Qed.
Definition sounds (b : binlist) : Prop := forall k, sound (items b k).
Lemma items_set b k it k' : items (set_item b k it) k' = if kind_eqb k' k then it else items b k'.
Proof. reflexivity. Qed.
Lemma delete_lines_ok : forall ls saved b,
  Forall (fun l => (fst l = Some OCells \/ exists k, fst l = Some (OKind k)) /\ snd l <> [] /\ all_listings (snd l)) (with_options saved ls) ->
  sounds b -> sound (cell b) ->
  exists b', delete_lines ls saved b = Ret (b', true) /\ sounds b' /\ sound (cell b') /\
    (forall k x, In x (numbers (items b' k)) <-> (exists toks, In (Some (OKind k), toks) (with_options saved ls) /\ listed toks x) \/ In x (numbers (items b k))) /\
    (forall x, In x (numbers (cell b')) <-> (exists toks, In (Some OCells, toks) (with_options saved ls) /\ listed toks x) \/ In x (numbers (cell b))).
Proof.
  induction ls as [|[o toks] ls IH]; intros saved b F SB SC.
  - exists b. split; [reflexivity|]. split; [exact SB|]. split; [exact SC|]. cbn [with_options]. split; intros; (split; [auto|]; intros [(t & [] & _)|H]; exact H).
  - rewrite wo_cons in *. cbn [delete_lines]. set (o' := match o with None => saved | _ => o end) in *. inversion F as [|? ? (K & NE & AL) F2]; subst. cbn [fst snd] in K, NE, AL.
    destruct K as [K|[k K]]; rewrite K in *.
    + destruct (tokens_ok read_tokens toks (fun _ => eq_refl) ltac:(intros it t l E; cbn [read_tokens]; rewrite E; reflexivity) (cell b) AL (proj1 SC)) as (it & -> & NA). cbn [bind].
      destruct (IH (Some OCells) (mkBin (items b) it) F2 SB (sound_after _ _ _ NE NA)) as (b' & E & SB' & SC' & P1 & P2).
      exists b'. split; [exact E|]. split; [exact SB'|]. split; [exact SC'|]. destruct NA as (_ & _ & _ & _ & NA). cbn [items cell] in *. split; intros.
      * rewrite P1. split; (intros [(t & T & L)|H]; [left; exists t|right; exact H]); (split; [|exact L]); [right; exact T|destruct T as [T|T]; [discriminate|exact T]].
      * rewrite P2, NA. split.
        -- intros [(t & T & L)|[H|H]]; [left; exists t; split; [right; exact T|exact L]|left; exists toks; split; [left; reflexivity|exact H]|right; exact H].
        -- intros [(t & [T|T] & L)|H]; [injection T as <-; right; left; exact L|left; exists t; auto|right; right; exact H].
    + destruct (tokens_ok read_tokens toks (fun _ => eq_refl) ltac:(intros it t l E; cbn [read_tokens]; rewrite E; reflexivity) (items b k) AL (proj1 (SB k))) as (it & -> & NA). cbn [bind].
      destruct (IH (Some (OKind k)) (set_item b k it) F2) as (b' & E & SB' & SC' & P1 & P2).
      { intros k'. rewrite items_set. destruct (kind_eqb_spec k' k); [exact (sound_after _ _ _ NE NA)|apply SB]. }
      { exact SC. }
      exists b'. split; [exact E|]. split; [exact SB'|]. split; [exact SC'|]. destruct NA as (_ & _ & _ & _ & NA). split; [intros k' x|intros x].
      * rewrite P1, items_set. destruct (kind_eqb_spec k' k) as [->|N].
        -- rewrite NA. split.
           ++ intros [(t & T & L)|[H|H]]; [left; exists t; split; [right; exact T|exact L]|left; exists toks; split; [left; reflexivity|exact H]|right; exact H].
           ++ intros [(t & [T|T] & L)|H]; [injection T as <-; right; left; exact L|left; exists t; auto|right; right; exact H].
        -- split; (intros [(t & T & L)|H]; [left; exists t|right; exact H]); (split; [|exact L]); [right; exact T|destruct T as [T|T]; [congruence|exact T]].
      * rewrite P2. cbn [set_item cell]. split; (intros [(t & T & L)|H]; [left; exists t|right; exact H]); (split; [|exact L]); [right; exact T|destruct T as [T|T]; [discriminate|exact T]].
Qed.
Lemma read_delete_ok ls b : delete_list ls -> unselected b ->
  exists b', read_delete b ls = Ret (b', true) /\ sounds b' /\ forall k x, In x (numbers (items b' k)) <-> delete_names ls k x.
Proof.
  intros D U. unfold read_delete. assert (SB : sounds (mkBin (items b) no_item)) by (intros k; cbn [items]; rewrite U; exact sound_no).
  destruct (delete_lines_ok ls None (mkBin (items b) no_item) D SB sound_no) as (b1 & -> & SB1 & SC & P1 & P2). cbn [bind].
  cbn [items cell numbers no_item] in P1, P2. unfold delete_names.
  assert (DN : forall k x, delete_names ls k x <-> (exists toks, In (Some OCells, toks) (with_options None ls) /\ listed toks x) \/ (exists toks, In (Some (OKind k), toks) (with_options None ls) /\ listed toks x)).
  { intros k x. unfold delete_names. split; [intros (t & [T|T] & L); [left|right]; exists t; auto|intros [(t & T & L)|(t & T & L)]; exists t; auto]. }
  assert (PK : forall k x, In x (numbers (items b1 k)) <-> (exists toks, In (Some (OKind k), toks) (with_options None ls) /\ listed toks x)).
  { intros k x. rewrite P1, U. cbn. tauto. }
  eexists. split; [reflexivity|]. destruct (defined (cell b1)) eqn:DF.
  - destruct (numbers (cell b1)) as [|y l] eqn:N; [destruct SC as [_ SC]; rewrite N in SC; elim (proj1 SC DF); reflexivity|]. rewrite <- N in *. split.
    + intros k. unfold transfer_all. cbn [items]. apply augment_ints, SB1.
    + intros k x. fold (delete_names ls k x). rewrite DN. unfold transfer_all. cbn [items]. rewrite (proj2 (augment_ints _ _ (SB1 k))), PK, P2. cbn [In]. tauto.
  - split; [exact SB1|]. intros k x. fold (delete_names ls k x). rewrite DN, PK. split; [auto|]. intros [H|H]; [|exact H].
    exfalso. assert (In x (numbers (cell b1))) as X by (rewrite P2; auto). destruct SC as [_ SC]. destruct (numbers (cell b1)) eqn:N; [elim X|]. rewrite (proj2 SC ltac:(congruence)) in DF. discriminate.
Qed.
Lemma item_eta it : sound it -> defined it = false -> it = no_item.
Proof. destruct it as [d l]. intros [_ SO] D. cbn in *. subst d. destruct l; [reflexivity|]. discriminate (proj2 SO ltac:(congruence)). Qed.
Lemma kinds_all k : In k kinds.
Proof. destruct k; cbn; tauto. Qed.
Section Selected.
Context {C : Type}.
Lemma up_erase_all : forall l (m : zmap (entity C)), keys_up m -> keys_up (fold_left zerase l m).
Proof. induction l as [|y l IH]; intros m U; [exact U|]. cbn [fold_left]. apply IH, up_erase, U. Qed.
Lemma delete_ok b (s : store C) : sounds b -> (forall k, keys_up (s k)) ->
  unselected (snd (delete_entities b s)) /\ forall k, keys_up (fst (delete_entities b s) k) /\
    forall x, (In x (numbers (items b k)) -> zfind (fst (delete_entities b s) k) x = None) /\ (~ In x (numbers (items b k)) -> zfind (fst (delete_entities b s) k) x = zfind (s k) x).
Proof.
  intros SB U. unfold delete_entities. destruct (existsb (fun k => defined (items b k)) kinds) eqn:EX; cbn [fst snd].
  - split; [intros k; reflexivity|]. intros k. unfold delete_kind. destruct (defined (items b k)) eqn:D.
    + destruct (numbers (items b k)) as [|y l] eqn:N; [destruct (SB k) as [_ X]; elim (proj1 X D); exact N|]. rewrite <- N. split; [apply up_erase_all, U|].
      intros x. apply find_erase_all, U.
    + split; [apply U|]. intros x. rewrite (item_eta _ (SB k) D). cbn. split; [intros []|reflexivity].
  - assert (A : forall k, items b k = no_item).
    { intros k. apply item_eta; [apply SB|]. destruct (defined (items b k)) eqn:D; [|reflexivity]. rewrite <- EX. symmetry. apply existsb_exists. exists k. split; [apply kinds_all|exact D]. }
    split; [exact A|]. intros k. split; [apply U|]. intros x. rewrite A. cbn. split; [intros []|reflexivity].
Qed.

(** ** Dumps *)
Lemma find_below : forall (m : zmap (entity C)) n x k, keys_up ((n, x) :: m) -> k < n -> zfind ((n, x) :: m) k = None.
Proof. intros m n x k U L. apply (find_above ((n, x) :: m) k). unfold keys_up in U. cbn [map fst] in *. inversion U as [|? ? U1 U2]; subst. constructor; [exact L|]. eapply Forall_impl; [|exact U2]. cbn. lia. Qed.
Lemma filter_ext_keys (f g : Z -> bool) (q : entity C -> bool) : forall (m : zmap (entity C)), Forall (fun k => f k = g k) (map fst m) ->
  filter (fun x => f (fst x) && q (snd x)) m = filter (fun x => g (fst x) && q (snd x)) m.
Proof. intros m H. apply filter_ext_in. intros [n x] I. rewrite Forall_forall in H. cbn [fst snd]. rewrite (H n); [reflexivity|]. change n with (fst (n, x)). apply in_map, I. Qed.
Lemma dump_merge (q : entity C -> bool) : forall N l (m : zmap (entity C)), (length l + length m <= N)%nat -> StronglySorted Z.lt l -> keys_up m ->
  flat_map (fun i => match zfind m i with Some e => if q e then [e] else [] | None => [] end) l =
  map snd (filter (fun x => existsb (Z.eqb (fst x)) l && q (snd x)) m).
Proof.
  induction N as [|N IH]; intros l m LE SL U.
  - destruct l, m; cbn in LE; try lia. reflexivity.
  - destruct m as [|[n x] m].
    { cbn [filter map]. clear. induction l; [reflexivity|]. cbn [flat_map zfind]. exact IHl. }
    destruct l as [|i l].
    { cbn [flat_map existsb andb]. clear. induction ((n, x) :: m); [reflexivity|]. exact IHl. }
    inversion SL as [|? ? SL2 FL]; subst. assert (U0 := U). unfold keys_up in U0. cbn [map fst] in U0. inversion U0 as [|? ? U1 U2]; subst. fold (keys_up m) in U1.
    assert (ABOVE : forall j, n < j -> zfind ((n, x) :: m) j = zfind m j) by (intros j J; cbn [zfind]; destruct (Z.eqb_spec n j); [lia|reflexivity]).
    assert (NOT : forall k l, Forall (Z.lt k) l -> existsb (Z.eqb k) l = false).
    { clear. intros k l F. induction F as [|y l L F IHl]; [reflexivity|]. cbn [existsb]. rewrite IHl. destruct (Z.eqb_spec k y); [lia|reflexivity]. }
    assert (FE : forall l (m m' : zmap (entity C)), (forall j, In j l -> zfind m j = zfind m' j) ->
      flat_map (fun i => match zfind m i with Some e => if q e then [e] else [] | None => [] end) l = flat_map (fun i => match zfind m' i with Some e => if q e then [e] else [] | None => [] end) l).
    { clear. induction l as [|j l IHl]; intros m m' H; [reflexivity|]. cbn [flat_map]. rewrite (H j (or_introl eq_refl)), (IHl m m'); [reflexivity|]. intros; apply H; right; assumption. }
    destruct (Z.lt_trichotomy n i) as [L|[->|L]].
    + rewrite (FE (i :: l) ((n, x) :: m) m) by (intros j [<-|J]; apply ABOVE; [exact L|rewrite Forall_forall in FL; specialize (FL j J); lia]).
      rewrite (IH (i :: l) m); [|cbn [length] in *; lia|exact SL|exact U1]. cbn [filter fst snd]. rewrite (NOT n (i :: l)); [reflexivity|].
      constructor; [exact L|]. eapply Forall_impl; [|exact FL]. cbn. lia.
    + cbn [flat_map]. rewrite (FE l ((i, x) :: m) m) by (intros j J; apply ABOVE; rewrite Forall_forall in FL; exact (FL j J)).
      rewrite (IH l m); [|cbn [length] in *; lia|exact SL2|exact U1]. cbn [zfind]. rewrite Z.eqb_refl. cbn [filter fst snd existsb]. rewrite Z.eqb_refl. cbn [orb andb].
      rewrite (filter_ext_keys (fun k => (k =? i) || existsb (Z.eqb k) l) (fun k => existsb (Z.eqb k) l) q m).
      * destruct (q x); reflexivity.
      * eapply Forall_impl; [|exact U2]. cbn. intros k K. destruct (Z.eqb_spec k i); [lia|reflexivity].
    + cbn [flat_map]. rewrite (find_below m n x i U L). cbn [app]. rewrite (IH l ((n, x) :: m)); [|cbn [length] in *; lia|exact SL2|exact U].
      f_equal. symmetry. apply (filter_ext_keys (fun k => existsb (Z.eqb k) (i :: l)) (fun k => existsb (Z.eqb k) l) q).
      cbn [map fst existsb]. constructor; [destruct (Z.eqb_spec n i); [lia|reflexivity]|]. eapply Forall_impl; [|exact U2]. cbn. intros k K. destruct (Z.eqb_spec k i); [lia|reflexivity].
Qed.
Lemma dump_kind_ok (m : zmap (entity C)) it (sel : Z -> bool) : sound it -> keys_up m -> Forall (fun x => n_user (snd x) = fst x) m ->
  (forall x, sel x = true <-> In x (numbers it)) -> dump_kind m it = map snd (filter (fun x => sel (fst x) && (0 <=? fst x)) m).
Proof.
  intros SO U OWN SE. unfold dump_kind. assert (Q1 : map snd (filter (fun x => sel (fst x) && (0 <=? fst x)) m) = map snd (filter (fun x => existsb (Z.eqb (fst x)) (numbers it) && (0 <=? n_user (snd x))) m)).
  { f_equal. apply filter_ext_in. intros x X. rewrite Forall_forall in OWN. rewrite (OWN x X). f_equal. apply eq_true_iff_eq. rewrite SE, existsb_exists. split.
    - intros H. exists (fst x). split; [exact H|apply Z.eqb_refl].
    - intros (y & Y & E). apply Z.eqb_eq in E. rewrite E. exact Y. }
  rewrite Q1. destruct (defined it) eqn:D.
  - destruct (numbers it) as [|y l] eqn:N; [destruct SO as [_ X]; elim (proj1 X D); exact N|]. rewrite <- N in *. eapply dump_merge; [reflexivity|apply SO|exact U].
  - rewrite (item_eta it SO D). cbn [numbers no_item existsb andb]. clear. induction m; [reflexivity|exact IHm].
Qed.
End Selected.
Lemma dump_lines_ok : forall ls saved b,
  Forall (fun l => (fst l = Some DCells \/ exists k, fst l = Some (DKind k)) /\ snd l <> [] /\ all_listings (snd l)) (with_options saved ls) ->
  sounds b ->
  exists b', dump_lines ls saved true b = Ret (b', true) /\ sounds b' /\
    (forall k x, In x (numbers (items b' k)) <-> (exists toks, (In (Some DCells, toks) (with_options saved ls) \/ In (Some (DKind k), toks) (with_options saved ls)) /\ listed toks x) \/ In x (numbers (items b k))).
Proof.
  induction ls as [|[o toks] ls IH]; intros saved b F SB.
  - exists b. split; [reflexivity|]. split; [exact SB|]. cbn [with_options]. intros; (split; [auto|]; intros [(t & [[]|[]] & _)|H]; exact H).
  - rewrite wo_cons in *. cbn [dump_lines]. set (o' := match o with None => saved | _ => o end) in *. inversion F as [|? ? (K & NE & AL) F2]; subst. cbn [fst snd] in K, NE, AL.
    destruct K as [K|[k K]]; rewrite K in *.
    + destruct (tokens_ok dump_tokens toks (fun _ => eq_refl) ltac:(intros it t l E; cbn [dump_tokens]; rewrite E; reflexivity) no_item AL (proj1 sound_no)) as (it & -> & NA). cbn [bind].
      destruct (IH (Some DCells) (transfer_all it b) F2) as (b' & E & SB' & P1); [intros k; apply augment_ints, SB|].
      exists b'. split; [exact E|]. split; [exact SB'|]. destruct NA as (_ & _ & _ & _ & NA). intros k x. rewrite P1. unfold transfer_all. cbn [items].
      rewrite (proj2 (augment_ints _ _ (SB k))), NA. cbn [numbers no_item In]. split.
      * intros [(t & T & L)|[[H|[]]|H]]; [left; exists t; split; [destruct T; [left|right]; right; assumption|exact L]|left; exists toks; split; [left; left; reflexivity|exact H]|right; exact H].
      * intros [(t & [[T|T]|[T|T]] & L)|H]; [injection T as <-; right; left; left; exact L|left; exists t; auto|discriminate|left; exists t; auto|right; right; exact H].
    + destruct (tokens_ok dump_tokens toks (fun _ => eq_refl) ltac:(intros it t l E; cbn [dump_tokens]; rewrite E; reflexivity) (items b k) AL (proj1 (SB k))) as (it & -> & NA). cbn [bind].
      destruct (IH (Some (DKind k)) (set_item b k it) F2) as (b' & E & SB' & P1).
      { intros k'. rewrite items_set. destruct (kind_eqb_spec k' k); [exact (sound_after _ _ _ NE NA)|apply SB]. }
      exists b'. split; [exact E|]. split; [exact SB'|]. destruct NA as (_ & _ & _ & _ & NA). intros k' x. rewrite P1, items_set. destruct (kind_eqb_spec k' k) as [->|N].
      * rewrite NA. split.
        -- intros [(t & T & L)|[H|H]]; [left; exists t; split; [destruct T; [left|right]; right; assumption|exact L]|left; exists toks; split; [right; left; reflexivity|exact H]|right; exact H].
        -- intros [(t & [[T|T]|[T|T]] & L)|H]; [discriminate|left; exists t; auto|injection T as <-; right; left; exact L|left; exists t; auto|right; right; exact H].
      * split; (intros [(t & T & L)|H]; [left; exists t|right; exact H]); (split; [|exact L]).
        -- destruct T; [left|right]; right; assumption.
        -- destruct T as [[T|T]|[T|T]]; [discriminate|left; exact T|congruence|right; exact T].
Qed.
Lemma read_dump_ok ls b : ls <> [] -> dump_list ls ->
  exists b', read_dump b ls = Ret (b', true) /\ sounds b' /\ forall k x, In x (numbers (items b' k)) <-> dump_names ls k x.
Proof.
  intros NE D. unfold read_dump. assert (E : dump_lines ls None false b = dump_lines ls None true (set_all false b)).
  { destruct ls as [|[o toks] ls]; [congruence|]. unfold dump_list, line_of in D. rewrite wo_cons in D. inversion D as [|? ? (K & _) _]; subst. cbn [fst] in K. cbn [dump_lines].
    destruct K as [K|[k K]]; rewrite K; reflexivity. }
  rewrite E. destruct (dump_lines_ok ls None (set_all false b) D (fun _ => sound_no)) as (b' & -> & SB & P). exists b'. split; [reflexivity|]. split; [exact SB|].
  intros k x. rewrite P. cbn. unfold dump_names. tauto.
Qed.

(** ** COPY blocks *)
Lemma first_dash_digits s : forall l r, digs s = Some l -> first_dash (s ++ r)%string = (s ++ first_dash r)%string.
Proof.
  induction s as [|c s IH]; intros l r D; [reflexivity|]. cbn [digs] in D. destruct (digit c) as [d|] eqn:E; [|discriminate]. destruct (digs s) as [l'|] eqn:E2; [|discriminate].
  cbn [append first_dash]. rewrite (proj1 (digit_not_dash c d E)), (IH l' r eq_refl). reflexivity.
Qed.
Lemma is_number_int t v : int_text t v -> is_number t = true.
Proof.
  intros T. destruct (int_parts t v T) as (c & s & l & -> & _ & [X|[-> _]]); cbn [is_number]; [destruct (digit c); [reflexivity|congruence]|reflexivity].
Qed.
Lemma is_number_app t v r : int_text t v -> is_number (t ++ r)%string = true.
Proof.
  intros T. destruct (int_parts t v T) as (c & s & l & -> & _ & [X|[-> _]]); cbn [append is_number]; [destruct (digit c); [reflexivity|congruence]|reflexivity].
Qed.
Lemma scan_whole t v : int_text t v -> an_int v -> scan t = Some (v, "").
Proof. intros T I. pose proof (scan_int 0 t v "" T Logic.I I) as SC. cbn [blanks append] in SC. rewrite app_nil_s in SC. exact SC. Qed.
Definition dashed (tgt : string) : string := match tgt with EmptyString => "" | String c r => String c (first_dash r) end.
Lemma dashed_one t v : int_text t v -> dashed t = t.
Proof. intros T. destruct (int_parts t v T) as (c & s & l & -> & D & _). cbn [dashed]. f_equal. pose proof (first_dash_digits s l "" D) as E. cbn [first_dash] in E. rewrite app_nil_s in E. exact E. Qed.
Lemma dashed_range ta tb a : int_text ta a -> dashed (ta ++ "-" ++ tb) = (ta ++ " " ++ tb)%string.
Proof. intros T. destruct (int_parts ta a T) as (c & s & l & -> & D & _). cbn [append dashed]. f_equal. rewrite (first_dash_digits s l _ D). reflexivity. Qed.
Definition added (w : copy_of) (c : instr) (cs : kind -> list instr) : kind -> list instr :=
  fun k => if match w with CKind k' => kind_eqb k k' | CCell => true | COther => false end then cs k ++ [c] else cs k.
Lemma read_copy_ok w src tgt n s e cs : w <> COther -> int_text src n -> an_int n ->
  (int_text tgt s /\ an_int s /\ e = s \/ exists ts te, tgt = (ts ++ "-" ++ te)%string /\ int_text ts s /\ int_text te e /\ an_int s /\ an_int e) ->
  exists cs', read_copy w src tgt cs = Ret (Some cs') /\ forall k, cs' k = added w (n, s, e) cs k.
Proof.
  intros W SR IN T. unfold read_copy. rewrite (is_number_int src n SR), (scan_whole src n SR IN). cbn [negb]. fold (dashed tgt).
  assert (X : is_number tgt = true /\ exists rest, scan (dashed tgt) = Some (s, rest) /\ match scan rest with Some (e, _) => e | None => s end = e).
  { destruct T as [(T & I & ->)|(ts & te & -> & TS & TE & IS & IE)].
    - split; [exact (is_number_int tgt s T)|]. exists ""%string. rewrite (dashed_one tgt s T), (scan_whole tgt s T I). split; reflexivity.
    - split; [exact (is_number_app ts s _ TS)|]. exists (" " ++ te)%string. rewrite (dashed_range ts te s TS).
      pose proof (scan_int 0 ts s (" " ++ te)%string TS eq_refl IS) as SC. cbn [blanks] in SC. change ("" ++ ts ++ " " ++ te)%string with (ts ++ " " ++ te)%string in SC. rewrite SC. split; [reflexivity|].
      pose proof (scan_int 1 te e "" TE Logic.I IE) as SD. change (blanks 1 ++ te ++ "")%string with (" " ++ (te ++ ""))%string in SD. rewrite app_nil_s in SD. rewrite SD. reflexivity. }
  destruct X as [-> (rest & -> & E)]. cbn [negb]. rewrite E. unfold added. destruct w as [k'| |]; [| |congruence]; (eexists; split; [reflexivity|]; intros k; cbn; reflexivity).
Qed.
