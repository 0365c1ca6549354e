(** Proofs about whole equations. *)
From Coq Require Import String Ascii List ZArith QArith Qabs Bool NArith Lia Lqa Sorting.Permutation Sorting.Sorted ZifyBool.
From Verif Require Import CStr_Model CNum_Model Qx Sort_Proofs Chem_Model Chem_Spec Chem_Proofs Chem2_Proofs Chem3_Proofs.
Import ListNotations.
Local Open Scope string_scope.
Local Open Scope list_scope.
Local Open Scope Z_scope.

(** ** Coefficients *)
Definition numchar (c : ascii) : bool := isdigit c || Ascii.eqb c ".".
Lemma numeral_chars t v : numeral t v -> chars numchar t = true.
Proof.
  assert (X : forall a, chars isdigit a = true -> chars numchar a = true) by (intros a; apply chars_imp; intros c H; unfold numchar; now rewrite H).
  intros [|a A B C|a b A B C D]; [reflexivity|apply X; exact B|]. rewrite chars_app, (X a B). cbn. apply X. exact C.
Qed.
Lemma numchar_coef c : numchar c = true -> coef_char c = true.
Proof. destruct c as [[] [] [] [] [] [] [] []]; (reflexivity || discriminate). Qed.
Lemma numchar_charge c : numchar c = true -> charge_char c = true.
Proof. destruct c as [[] [] [] [] [] [] [] []]; (reflexivity || discriminate). Qed.
Lemma numchar_start c : numchar c = true -> starts_name c = false.
Proof. destruct c as [[] [] [] [] [] [] [] []]; (reflexivity || discriminate). Qed.
Lemma numchar_sign c : numchar c = true -> Ascii.eqb c "+" = false /\ Ascii.eqb c "-" = false.
Proof. destruct c as [[] [] [] [] [] [] [] []]; (split; reflexivity) || discriminate. Qed.
Lemma numeral_text t v : numeral t v -> t <> "" -> num_text t = (t, "") /\ decimal t = v /\ String.eqb t "." = false.
Proof.
  intros H N. destruct H as [|a A B C|a b A B C D]; [congruence| |].
  - pose proof (num_text_int a "" B Logic.I) as X. rewrite sapp_nil in X. rewrite X, (decimal_int a B). split; [reflexivity|]. split; [reflexivity|]. apply String.eqb_neq. intros ->. discriminate B.
  - change ("." ++ b)%string with (String "." b). pose proof (num_text_dec a b "" B C Logic.I) as X. rewrite sapp_nil in X. rewrite X, (decimal_dec a b B C). split; [reflexivity|]. split; [reflexivity|]. apply String.eqb_neq. intros E. apply A. destruct a as [|x a]; [cbn in *; now injection E|]. cbn in E. injection E as -> E. destruct a; discriminate.
Qed.
Lemma strtod_all_ok t v : numeral t v -> t <> "" -> strtod_all t = Some v /\ strtod_all (String "+" t) = Some v.
Proof.
  intros H N. destruct (numeral_text t v H N) as (A & B & C). pose proof (numeral_chars t v H) as CH. assert (X : strtod_all (String "+" t) = Some v). { unfold strtod_all. rewrite A, B, C, (seqb_ne t N). reflexivity. } split; [|exact X].
  destruct t as [|c t]; [congruence|]. cbn [chars] in CH. apply andb_prop in CH. destruct CH as [CH _]. apply numchar_sign in CH. destruct CH as [C1 C2]. rewrite <- X. unfold strtod_all. apply Ascii.eqb_neq in C1, C2. destruct c as [[] [] [] [] [] [] [] []]; try reflexivity; exfalso; (apply C1; reflexivity) || (apply C2; reflexivity).
Qed.
Lemma get_coef_ok t v s : numeral t v -> (String.length t < 200)%nat -> begins s -> get_coef (t ++ s)%string = Some (v, s) /\ get_coef (String "+" (t ++ s)) = Some (v, s).
Proof.
  intros H L (c & u & -> & B1 & B2 & B3 & B4). destruct t as [|d t].
  - inversion H as [E|a A E1|a b A B C D E1]; subst; [|congruence|destruct a; discriminate]. cbn [append get_coef]. rewrite B1. change (starts_name "+") with false. change (Ascii.eqb "+" "+") with true. split; reflexivity.
  - pose proof (numeral_chars _ _ H) as CH. assert (CC : chars coef_char (String d t) = true) by (eapply chars_imp; [apply numchar_coef|exact CH]). assert (NE : String d t <> "") by discriminate. destruct (strtod_all_ok _ _ H NE) as [S1 S2]. pose proof CH as CH'. cbn [chars] in CH'. apply andb_prop in CH'. destruct CH' as [CD _]. destruct (numchar_sign d CD) as [D1 D2].
    split.
    + pose proof (span_app coef_char (String d t) (String c u) CC B3) as SP. cbn [append] in SP |- *. unfold get_coef. rewrite (numchar_start d CD), D1, D2, (numchar_coef d CD), SP. cbn [andb]. replace (MAX_LENGTH <=? Z.of_nat (String.length (String d t))) with false by (unfold MAX_LENGTH; lia). rewrite S1. reflexivity.
    + assert (CC' : chars coef_char (String "+" (String d t)) = true) by exact CC. pose proof (span_app coef_char _ (String c u) CC' B3) as SP. cbn [append] in SP |- *. unfold get_coef. change (starts_name "+") with false. change (Ascii.eqb "+" "+") with true. change (Ascii.eqb "+" "-") with false. rewrite (numchar_start d CD). change (coef_char "+") with true. rewrite SP. cbn [andb]. replace (MAX_LENGTH <=? Z.of_nat (String.length (String "+" (String d t)))) with false by (unfold MAX_LENGTH; cbn in L |- *; lia). rewrite S2. reflexivity.
Qed.

(** ** Species *)
Lemma canonical_len d t : isdigit d = true -> d <> "0"%char -> chars isdigit t = true -> whole (String d t) <= 2147483647 -> (String.length (String d t) <= 12)%nat.
Proof.
  intros A B C W. assert (Z.of_nat (String.length t) < 11); [|cbn; lia]. destruct (Z.lt_ge_cases (Z.of_nat (String.length t)) 11) as [|G]; [assumption|exfalso]. assert (HH : 10 ^ 11 <= whole (String d t)); [|change (10 ^ 11) with 100000000000 in HH; lia]. cbn [whole]. pose proof (whole_range t C). assert (1 <= weight d). { pose proof (weight_range d A). assert (weight d <> 0); [|lia]. unfold weight. intros E. apply B. rewrite <- (ascii_N_embedding d). replace (N_of_ascii d) with 48%N by lia. reflexivity. } pose proof (Z.pow_le_mono_r 10 11 (Z.of_nat (String.length t)) ltac:(lia) G). nia.
Qed.
Lemma charge_text_chars s i : charge_text s i -> chars charge_char s = true /\ (String.length s <= 13)%nat /\ ends s.
Proof.
  intros H. destruct H as [| | |s c d t E A B C W SG]; [repeat split; cbn; auto; lia..|]. subst s. assert (CT : chars isdigit (String d t) = true) by (cbn; now rewrite A, C). assert (CC : chars charge_char (String d t) = true) by (apply (chars_imp isdigit); [intros x X; apply numchar_charge; unfold numchar; rewrite X; reflexivity|exact CT]). split; [|split; [pose proof (canonical_len d t A B C ltac:(lia)); cbn in *; lia|exact SG]]. cbn [chars] in *. rewrite CC. destruct SG as [-> | ->]; reflexivity.
Qed.
Definition nosign (c : ascii) : bool := negb (Ascii.eqb c "+" || Ascii.eqb c "-").
Lemma last_sign_none t : chars nosign t = true -> last_sign t = None.
Proof. induction t as [|c t IH]; [reflexivity|]. cbn [chars last_sign]. intros H. apply andb_prop in H. destruct H as [A B]. rewrite (IH B). apply negb_true_iff in A. now rewrite A. Qed.
Lemma last_sign_app a t : chars nosign t = true -> last_sign (a ++ String "+" t)%string = Some (a, String "+" t).
Proof. intros H. induction a as [|c a IH]; cbn [append last_sign]; [rewrite (last_sign_none t H); reflexivity|]. rewrite IH. reflexivity. Qed.
Inductive next : string -> Prop :=
| next_end : next ""
| next_equal r : next (String "=" r)
| next_plus t v s : numeral t v -> (String.length t < 200)%nat -> begins s -> next (String "+" (t ++ s)).
Lemma body_ne b : good_body b -> body_text b <> "".
Proof. intros H E. destruct (body_begins b "" H) as (c & t & X & _). rewrite sapp_nil, E in X. discriminate. Qed.
Lemma get_token_ok b ch z r : good_body b -> charge_text ch z -> next r -> get_token (body_text b ++ ch ++ r)%string = Some ((body_text b ++ ch)%string, inject_Z z, r).
Proof.
  intros GB CT NX. unfold get_token. rewrite (opaque_body b GB). destruct (charge_text_chars ch z CT) as (C1 & C2 & C3). pose proof (charge_text_fixed ch z CT) as CF.
  assert (SN : species_name false (ch ++ r)%string = Some ("", (ch ++ r)%string)). { destruct ch as [|c ch]; [|cbn [append species_name]; destruct C3 as [-> | ->]; reflexivity]. destruct NX; reflexivity. }
  rewrite SN, sapp_nil, (seqb_ne _ (body_ne b GB)).
  assert (M : forall (x y : option (string * Q * string)), (match (ch ++ r)%string with EmptyString => x | String "=" _ => x | _ => y end) = if String.eqb ch "" then match r with EmptyString => x | String "=" _ => x | _ => y end else y). { intros x y. destruct ch as [|c ch]; [reflexivity|]. cbn [append]. destruct C3 as [-> | ->]; reflexivity. }
  assert (MR : forall x y : option (string * Q * string), match r with EmptyString => x | String "=" _ => x | _ => y end = if match r with String "+" _ => true | _ => false end then y else x) by (intros; destruct NX; reflexivity).
  match goal with |- match ?u with EmptyString => ?x1 | _ => _ end = _ => set (W := u) end.
  transitivity (if String.eqb ch "" && negb match r with String "+" _ => true | _ => false end then Some (body_text b, 0%Q, r) else
    let '(c', v) := span charge_char (ch ++ r) in if MAX_LENGTH <=? Z.of_nat (String.length c') then None else
      let '(c', v) := match v with EmptyString => (c', v) | String "=" _ => (c', v) | _ => match last_sign c' with Some (a, b0) => (a, (b0 ++ v)%string) | None => ("", (c' ++ v)%string) end end in
      match get_charge c' with Some (t, z0) => Some ((body_text b ++ t)%string, z0, v) | None => None end).
  { destruct ch as [|c ch].
    - subst W. cbn [append]. cbn [String.eqb]. destruct NX; reflexivity.
    - subst W. cbn [append]. cbn [String.eqb andb]. destruct C3 as [-> | ->]; reflexivity. }
  destruct (String.eqb ch "") eqn:EC.
  - apply String.eqb_eq in EC. subst ch. inversion CT; subst. destruct NX as [|r|t v s HT HL HB]; [cbn [andb negb append]; rewrite sapp_nil; reflexivity..|]. cbn [andb negb append]. destruct HB as (c & u & -> & B1 & B2 & B3 & B4). pose proof (numeral_chars t v HT) as NC.
    assert (CC : chars charge_char (String "+" t) = true) by (cbn [chars]; eapply chars_imp; [apply numchar_charge|exact NC]). pose proof (span_app charge_char _ (String c u) CC B2) as SP. cbn [append] in SP. rewrite SP. replace (MAX_LENGTH <=? Z.of_nat (String.length (String "+" t))) with false by (unfold MAX_LENGTH; cbn; lia).
    pose proof (last_sign_app "" t ltac:(eapply chars_imp; [|exact NC]; intros x X; unfold nosign; destruct (numchar_sign x X) as [-> ->]; reflexivity)) as LS. cbn [append] in LS. rewrite LS.
    assert (X : forall (x y : string * string), match String c u with EmptyString => x | String "=" _ => x | _ => y end = y). { intros x y. destruct c as [[] [] [] [] [] [] [] []]; try reflexivity. exfalso. apply B4. reflexivity. } rewrite X. cbn [get_charge append]. rewrite sapp_nil. reflexivity.
  - cbn [andb]. destruct NX as [|r|t v s HT HL HB].
    + rewrite sapp_nil, (span_all _ _ C1). replace (MAX_LENGTH <=? Z.of_nat (String.length ch)) with false by (unfold MAX_LENGTH; lia). rewrite CF. reflexivity.
    + rewrite (span_app charge_char ch (String "=" r) C1 eq_refl). replace (MAX_LENGTH <=? Z.of_nat (String.length ch)) with false by (unfold MAX_LENGTH; lia). rewrite CF. reflexivity.
    + destruct HB as (c & u & -> & B1 & B2 & B3 & B4). pose proof (numeral_chars t v HT) as NC. assert (CC : chars charge_char (ch ++ String "+" t) = true) by (rewrite chars_app, C1; cbn [chars]; eapply chars_imp; [apply numchar_charge|exact NC]).
      replace (ch ++ String "+" (t ++ String c u))%string with ((ch ++ String "+" t) ++ String c u)%string by (rewrite sapp_assoc; reflexivity). rewrite (span_app charge_char _ (String c u) CC B2). replace (MAX_LENGTH <=? Z.of_nat (String.length (ch ++ String "+" t))) with false by (unfold MAX_LENGTH; rewrite slen_app; cbn; lia).
      rewrite (last_sign_app ch t ltac:(eapply chars_imp; [|exact NC]; intros x X; unfold nosign; destruct (numchar_sign x X) as [-> ->]; reflexivity)).
      assert (X : forall (x y : string * string), match String c u with EmptyString => x | String "=" _ => x | _ => y end = y). { intros x y. destruct c as [[] [] [] [] [] [] [] []]; try reflexivity. exfalso. apply B4. reflexivity. } rewrite X, CF. reflexivity.
Qed.
Definition tok (x : term) (v : Q) (z : Z) : token := mkTok (species_text x) v (inject_Z z).
Lemma get_species_ok x v z r : good_term x v z -> next r -> get_species (term_text x ++ r)%string = Some (tok x v z, r) /\ get_species (String "+" (term_text x ++ r)) = Some (tok x v z, r).
Proof.
  intros (A & B & C & D & E) NX. unfold term_text, species_text. rewrite !sapp_assoc. destruct (get_coef_ok (k_num x) v (body_text (k_body x) ++ k_charge x ++ r)%string A B (body_begins _ _ C)) as [G1 G2]. unfold get_species. rewrite G1, G2. rewrite (get_token_ok _ _ _ _ C D NX). split; reflexivity.
Qed.
Lemma term_next x v z r : good_term x v z -> next (String "+" (term_text x ++ r)).
Proof. intros (A & B & C & D & E). unfold term_text. rewrite sapp_assoc. econstructor; [exact A|exact B|]. unfold species_text. rewrite sapp_assoc. apply body_begins. exact C. Qed.
Lemma term_head x v z r : good_term x v z -> exists c u, (term_text x ++ r)%string = String c u /\ c <> "="%char.
Proof.
  intros (A & B & C & D & E). unfold term_text. rewrite sapp_assoc. destruct (k_num x) as [|c t] eqn:N.
  - unfold species_text. cbn [append]. rewrite sapp_assoc. destruct (body_begins (k_body x) (k_charge x ++ r) C) as (c & u & X & _ & _ & _ & Y). exists c, u. auto.
  - exists c, (t ++ species_text x ++ r)%string. split; [reflexivity|]. apply numeral_chars in A. cbn [chars] in A. apply andb_prop in A. destruct A as [A _]. intros ->. discriminate A.
Qed.
(** ** Sides *)
Definition good3 (y : term * Q * Z) : Prop := let '(x, v, z) := y in good_term x v z.
Definition tok3 (y : term * Q * Z) : token := let '(x, v, z) := y in tok x v z.
Definition term3 (y : term * Q * Z) : term := fst (fst y).
Definition tail_text (l : list term) : string := match l with [] => "" | _ => String "+" (side_text l) end.
Lemma side_text_cons x l : side_text (x :: l) = (term_text x ++ tail_text l)%string.
Proof. destruct l; reflexivity. Qed.
Definition stopper (stop : string -> bool) : Prop := forall c u, c <> "="%char -> stop (String c u) = false.
Lemma stop_equal : stopper at_equal.
Proof. intros c u H. unfold at_equal. destruct c as [[] [] [] [] [] [] [] []]; try reflexivity. exfalso. apply H. reflexivity. Qed.
Lemma stop_end : stopper at_end.
Proof. intros c u H. reflexivity. Qed.
Lemma side_tail stop r : stopper stop -> next r -> stop r = true -> forall l F, Forall good3 l -> (length l < F)%nat -> side F stop (tail_text (map term3 l) ++ r)%string = Some (map tok3 l, r).
Proof.
  intros ST NX SR. induction l as [|y l IH]; intros F G L; (destruct F as [|F]; [cbn in L; lia|]); inversion G as [|? ? G1 G2]; subst.
  - cbn [map tail_text append side]. rewrite SR. reflexivity.
  - destruct y as [[x v] z]. cbn [map tail_text term3 fst]. rewrite side_text_cons. cbn [append side]. rewrite (ST "+"%char _) by discriminate. cbn [good3] in G1.
    rewrite sapp_assoc. assert (N2 : next (tail_text (map term3 l) ++ r)%string). { destruct l as [|[[x' v'] z'] l]; [exact NX|]. inversion G2 as [|? ? G3 G4]; subst. cbn [map tail_text append]. cbn [term3 fst]. rewrite side_text_cons, sapp_assoc. eapply term_next. exact G3. }
    destruct (get_species_ok x v z _ G1 N2) as [_ E]. rewrite E. rewrite IH; [reflexivity|exact G2|cbn in L; lia].
Qed.
Lemma side_ok stop r : stopper stop -> next r -> stop r = true -> forall y l F, Forall good3 (y :: l) -> (length (y :: l) < F)%nat -> side F stop (side_text (map term3 (y :: l)) ++ r)%string = Some (map tok3 (y :: l), r).
Proof.
  intros ST NX SR y l F G L. destruct F as [|F]; [lia|]. inversion G as [|? ? G1 G2]; subst. destruct y as [[x v] z]. cbn [map term3 fst]. rewrite side_text_cons, sapp_assoc. cbn [good3] in G1. destruct (term_head x v z (tail_text (map term3 l) ++ r) G1) as (c & u & E & NE). cbn [side].
  assert (N2 : next (tail_text (map term3 l) ++ r)%string). { destruct l as [|[[x' v'] z'] l]; [exact NX|]. inversion G2 as [|? ? G3 G4]; subst. cbn [map tail_text append]. cbn [term3 fst]. rewrite side_text_cons, sapp_assoc. eapply term_next. exact G3. }
  destruct (get_species_ok x v z _ G1 N2) as [E2 _]. rewrite E in *. rewrite (ST c u NE), E2. rewrite (side_tail stop r ST NX SR l F G2) by (cbn in L; lia). reflexivity.
Qed.
Lemma side_len l : Forall good3 l -> (length l <= String.length (side_text (map term3 l)))%nat /\ (length l <= String.length (tail_text (map term3 l)))%nat.
Proof.
  induction 1 as [|y l A B IH]; [cbn; lia|]. destruct y as [[x v] z]. cbn [map term3 fst tail_text String.length]. rewrite side_text_cons, slen_app. destruct (term_head x v z "" A) as (c & u & E & _). rewrite sapp_nil in E. rewrite E. cbn [String.length length]. lia.
Qed.
Lemma legit_chars s : legit s = chars islegit s.
Proof. induction s as [|c s IH]; [reflexivity|]. cbn. now rewrite IH. Qed.
Lemma parse_dissociation eqn y l y' m : squeeze eqn = (side_text (map term3 (y :: l)) ++ "=" ++ side_text (map term3 (y' :: m)))%string -> chars islegit (squeeze eqn) = true -> Forall good3 (y :: l) -> Forall good3 (y' :: m) ->
  parse_sides false eqn = Some (map flip (map tok3 (y :: l)) ++ map tok3 (y' :: m)).
Proof.
  intros E LG G1 G2. unfold parse_sides. rewrite legit_chars, LG. cbn [negb]. rewrite E. cbn [append]. rewrite (side_ok at_equal (String "=" _) stop_equal (next_equal _) eq_refl y l _ G1). 2:{ rewrite slen_app. pose proof (side_len _ G1). lia. }
  pose proof (side_ok at_end "" stop_end next_end eq_refl y' m (S (String.length (side_text (map term3 (y' :: m))))) G2) as X. rewrite sapp_nil in X. rewrite X; [reflexivity|]. pose proof (side_len _ G2). lia.
Qed.
Lemma parse_association eqn y l y' m : squeeze eqn = (side_text (map term3 (y :: l)) ++ "=" ++ side_text (map term3 (y' :: m)))%string -> chars islegit (squeeze eqn) = true -> Forall good3 (y :: l) -> Forall good3 (y' :: m) ->
  parse_sides true eqn = Some ((flip (tok3 y') :: map tok3 l ++ [tok3 y]) ++ map flip (map tok3 m)).
Proof.
  intros E LG G1 G2. unfold parse_sides. rewrite legit_chars, LG. cbn [negb]. rewrite E. cbn [append]. rewrite (side_ok at_equal (String "=" _) stop_equal (next_equal _) eq_refl y l _ G1). 2:{ rewrite slen_app. pose proof (side_len _ G1). lia. }
  inversion G2 as [|? ? G3 G4]; subst. destruct y' as [[x v] z]. cbn [map]. change (term3 (x, v, z)) with x. rewrite side_text_cons. assert (N2 : next (tail_text (map term3 m))). { destruct m as [|[[x' v'] z'] m]; [constructor|]. inversion G4 as [|? ? G5 G6]; subst. cbn [map tail_text]. change (term3 (x', v', z')) with x'. rewrite side_text_cons. eapply term_next. exact G5. }
  destruct (get_species_ok x v z _ G3 N2) as [E2 _]. rewrite E2. pose proof (side_tail at_end "" stop_end next_end eq_refl m (S (String.length (tail_text (map term3 m)))) G4) as X. rewrite sapp_nil in X. rewrite X; [reflexivity|]. pose proof (side_len _ G4). lia.
Qed.
(** ** Checking *)
Definition bodyl (c : Q) (b : body) : list (string * Q) :=
  match b with Formula l => flats c l | Hydrate l t m => flats c l ++ scale (nv t) (flats c m) | Electron => [("e", (1 * c)%Q)] end.
Lemma parse_body b ch z c : good_body b -> charge_text ch z -> (b = Electron -> ch = "-") -> elements_of (body_text b ++ ch) c = Ret (Some (mkParsed (bodyl c b) ch 0 true)).
Proof.
  intros GB CT EL. destruct (charge_text_chars ch z CT) as (_ & _ & C3). unfold elements_of. fold (parse (body_text b ++ ch) 0 c). destruct b as [l|l t m|]; cbn [good_body body_text bodyl] in *.
  - destruct GB as [_ W]. rewrite (parse_parts l W ch 0 c ltac:(lia) (ends_follow _ C3)), (parse_ends _ _ C3). unfold pre, more. cbn. now rewrite app_nil_r.
  - destruct GB as (_ & W & _ & W2 & v & HT). rewrite !sapp_assoc. cbn [append]. rewrite (parse_parts l W (String ":" (t ++ shows m ++ ch)) 0 c ltac:(lia)) by (split; [split|]; [reflexivity|discriminate|reflexivity]). rewrite (parse_hydrate t v m ch 0 c HT W2 (ends_follow _ C3)), (parse_parts m W2 ch 0 c ltac:(lia) (ends_follow _ C3)), (parse_ends _ _ C3). unfold pre at 2. cbn [bind more found rest parens clean]. rewrite (parse_ends _ _ C3). cbn [bind more found rest parens clean]. unfold pre, more. cbn. rewrite !app_nil_r, (nv_ok _ _ HT). reflexivity.
  - rewrite (EL eq_refl). reflexivity.
Qed.
Lemma bodyl_mean e b a c : good_body b -> body_amount e b a -> (amount e (bodyl c b) == c * a)%Q.
Proof.
  intros GB M. inversion M as [l q M1|l t v m q q' M1 HT M2|]; subst; cbn [good_body bodyl] in *.
  - rewrite (flats_mean l (proj2 GB) c e a M1). ring.
  - destruct GB as (_ & W & _ & W2 & _). rewrite amount_app, amount_scale, (flats_mean l W c e q M1), (flats_mean m W2 c e q' M2), (nv_ok _ _ HT). ring.
  - unfold amount. cbn [map qsum fst snd]. destruct (String.eqb "e" e); ring.
Qed.
Lemma body_amount_exists e b : good_body b -> exists a, body_amount e b a.
Proof.
  destruct b as [l|l t m|]; cbn [good_body].
  - intros [_ W]. destruct (meanings_exist l W e) as [q M]. eexists. constructor. exact M.
  - intros (_ & W & _ & W2 & v & HT). destruct (meanings_exist l W e) as [q M]. destruct (meanings_exist m W2 e) as [q' M']. eexists. econstructor; eassumption.
  - intros _. eexists. constructor.
Qed.
(** Names are parts of the text. *)
Lemma flat_names c p : forall x, In x (flat c p) -> (String.length (fst x) <= String.length (show p))%nat.
Proof.
  induction p as [n t|l t IH] using part_induction; intros x X.
  - cbn in X. destruct X as [<-|[]]. cbn [fst show]. rewrite slen_app. lia.
  - rewrite flat_group in X. rewrite show_group. cbn [append String.length]. rewrite !slen_app. unfold scale in X. apply in_map_iff in X. destruct X as (y & <- & Y). cbn [fst]. enough (String.length (fst y) <= String.length (shows l))%nat by lia. revert Y. induction IH as [|p l P1 P2 IH2]; [intros []|]. cbn [flats shows]. rewrite slen_app, in_app_iff. intros [Y|Y]; [specialize (P1 y Y); lia|specialize (IH2 Y); lia].
Qed.
Lemma flats_names c l : forall x, In x (flats c l) -> (String.length (fst x) <= String.length (shows l))%nat.
Proof. induction l as [|p l IH]; cbn [flats shows]; [intros x []|]. intros x. rewrite slen_app, in_app_iff. intros [X|X]; [apply flat_names in X; lia|apply IH in X; lia]. Qed.
Lemma bodyl_short c b : short_body b -> short_names (bodyl c b).
Proof.
  unfold short_body, short_names. rewrite Forall_forall. intros L x X. destruct b as [l|l t m|]; cbn [bodyl body_text] in *.
  - apply flats_names in X. lia.
  - rewrite !slen_app in L. apply in_app_iff in X. destruct X as [X|X]; [apply flats_names in X; lia|]. unfold scale in X. apply in_map_iff in X. destruct X as (y & <- & Y). cbn [fst]. apply flats_names in Y. lia.
  - destruct X as [<-|[]]. cbn. lia.
Qed.
(** All elements of a list of tokens. *)
Definition matches (y : term * Q * Z) (t : token) : Prop := good3 y /\ short_body (k_body (term3 y)) /\ t_name t = species_text (term3 y).
Fixpoint elist (l : list ((term * Q * Z) * token)) : list (string * Q) := match l with [] => [] | (y, t) :: r => bodyl (t_coef t) (k_body (term3 y)) ++ elist r end.
Lemma all_elements_ok l : Forall (fun p => matches (fst p) (snd p)) l -> all_elements (map snd l) = Ret (Some (elist l)) /\ short_names (elist l).
Proof.
  induction 1 as [|[y t] l A B IH]; [split; [reflexivity|constructor]|]. destruct IH as [IH1 IH2]. cbn [fst snd] in A. destruct A as (A1 & A2 & A3). destruct y as [[x v] z]. cbn [map snd all_elements elist]. destruct A1 as (C1 & C2 & C3 & C4 & C5). change (term3 (x, v, z)) with x in *. rewrite A3. unfold species_text. rewrite (parse_body _ _ _ _ C3 C4 C5). cbn [bind found]. rewrite IH1. cbn [bind]. split; [reflexivity|]. apply Forall_app. split; [apply bodyl_short; exact A2|exact IH2].
Qed.
Definition part_of (e : string) (y : term * Q * Z) : Q := amount e (bodyl 1 (k_body (term3 y))).
Lemma bodyl_lin e b c : good_body b -> (amount e (bodyl c b) == c * amount e (bodyl 1 b))%Q.
Proof. intros G. destruct (body_amount_exists e b G) as [a A]. rewrite !(bodyl_mean e b a _ G A). ring. Qed.
Lemma good3_body y : good3 y -> good_body (k_body (term3 y)).
Proof. destruct y as [[x v] z]. intros (C1 & C2 & C3 & C4 & C5). exact C3. Qed.
Lemma elist_amount e l : Forall (fun p => matches (fst p) (snd p)) l -> (amount e (elist l) == qsum (map (fun p => t_coef (snd p) * part_of e (fst p)) l))%Q.
Proof.
  induction 1 as [|[y t] l A B IH]; [reflexivity|]. cbn [fst snd] in A. destruct A as (A1 & A2 & A3). cbn [elist]. rewrite amount_app, IH. cbn [map qsum fst snd]. rewrite (bodyl_lin e _ (t_coef t) (good3_body _ A1)). reflexivity.
Qed.
Lemma check_ok sorted l : sorts sorted -> Forall (fun p => matches (fst p) (snd p)) l -> forall y t r, l = (y, t) :: r ->
  exists b, check_eqn sorted (map snd l) = Ret b /\ (b = true <-> (Qabs (t_coef t - - (1)) <= TOL)%Q /\ (Qabs (charge_sum (map snd l)) <= TOL)%Q /\ forall e, e <> "e" -> (Qabs (amount e (elist l)) <= TOL)%Q).
Proof.
  intros HS HL y t r E. destruct (all_elements_ok l HL) as [AE SN]. unfold check_eqn. subst l. cbn [map snd] in *. rewrite AE. destruct (near (t_coef t) (- (1)) TOL) eqn:N; cbn [negb].
  2:{ exists false. split; [reflexivity|]. split; [discriminate|]. intros [H _]. apply near_ok in H. congruence. }
  cbn [bind]. eexists. split; [reflexivity|]. apply near_ok in N. rewrite andb_true_iff, near_ok, forallb_forall. set (m := elist ((y, t) :: r)) in *. destruct (HS m) as [P SS]. assert (SN' : short_names (sorted m)) by (unfold short_names in *; rewrite Forall_forall in *; intros x X; apply SN; eapply Permutation_in; [apply Permutation_sym; exact P|exact X]). pose proof (elt_combine_nodup _ SS SN') as ND.
  assert (QZ : forall q, (Qabs (q - 0) <= TOL <-> Qabs q <= TOL)%Q). { intros q. assert (q - 0 == q)%Q by ring. rewrite H. reflexivity. }
  assert (AM : forall e, (amount e (elt_combine (sorted m)) == amount e m)%Q) by (intros e; rewrite elt_combine_amount; symmetry; apply amount_perm; exact P).
  split.
  - intros [H1 H2]. split; [exact N|]. split; [apply QZ; exact H1|]. intros e NE. rewrite <- AM. destruct (in_dec string_dec e (map fst (elt_combine (sorted m)))) as [IN|NI].
    + apply in_map_iff in IN. destruct IN as ([e' q] & X & Y). cbn in X. subst e'. specialize (H2 _ Y). cbn [fst snd] in H2. rewrite (amount_in e q _ ND Y). apply orb_prop in H2. destruct H2 as [H2|H2]; [apply near_ok in H2; apply QZ; exact H2|]. apply String.eqb_eq in H2. congruence.
    + rewrite (amount_absent e _ NI). cbn. unfold TOL. lra.
  - intros (_ & H1 & H2). split; [apply QZ; exact H1|]. intros [e q] X. cbn [fst snd]. destruct (String.eqb e "e") eqn:EE; [apply orb_true_r|]. apply String.eqb_neq in EE. rewrite orb_false_r. apply near_ok, QZ. rewrite <- (amount_in e q _ ND X), AM. apply H2. exact EE.
Qed.
(** From sides to lists with values. *)
Lemma numeral_fun t v v' : numeral t v -> numeral t v' -> v = v'.
Proof. intros A B. apply nv_ok in A, B. congruence. Qed.
Lemma side_list l q : side_charge l q -> exists ys, map term3 ys = l /\ Forall good3 ys /\ (q == qsum (map (fun y => snd (fst y) * inject_Z (snd y)) ys))%Q.
Proof.
  induction 1 as [|x l v z q G SC IH]; [exists []; split; [reflexivity|]; split; [constructor|reflexivity]|]. destruct IH as (ys & A & B & C). exists ((x, v, z) :: ys). split; [cbn; now rewrite A|]. split; [constructor; assumption|]. cbn [map qsum fst snd]. now rewrite C.
Qed.
Lemma side_values e ys q : side_amount e (map term3 ys) q -> Forall good3 ys -> (q == qsum (map (fun y => snd (fst y) * part_of e y) ys))%Q.
Proof.
  revert q. induction ys as [|[[x v] z] ys IH]; intros q S G; inversion S as [|x0 l0 v0 z0 a0 q0 G0 B0 S0]; subst; [reflexivity|]. inversion G as [|? ? G1 G2]; subst. cbn [map qsum fst snd]. rewrite <- (IH q0 S0 G2). destruct G0 as (N0 & _ & GB & _). destruct G1 as (N1 & _). pose proof (numeral_fun _ _ _ N1 N0) as <-. unfold part_of. rewrite (bodyl_mean e _ a0 1 GB B0). ring.
Qed.
Lemma side_amount_exists e ys : Forall good3 ys -> exists q, side_amount e (map term3 ys) q.
Proof.
  induction 1 as [|[[x v] z] ys A B IH]; [eexists; constructor|]. destruct IH as [q IH]. destruct (body_amount_exists e _ (good3_body _ A)) as [a AA]. eexists. cbn [map]. econstructor; [exact A|exact AA|exact IH].
Qed.
Lemma qsum_app a b : (qsum (a ++ b) == qsum a + qsum b)%Q.
Proof. induction a as [|x a IH]; cbn; [ring|]. rewrite IH. ring. Qed.
(** A signed pair for each term. *)
Definition plus_tok (y : term * Q * Z) := (y, tok3 y).
Definition minus_tok (y : term * Q * Z) := (y, flip (tok3 y)).
Lemma plus_matches ys : Forall good3 ys -> Forall (fun x => short_body (k_body x)) (map term3 ys) -> Forall (fun p => matches (fst p) (snd p)) (map plus_tok ys) /\ Forall (fun p => matches (fst p) (snd p)) (map minus_tok ys).
Proof.
  intros G S. induction G as [|[[x v] z] ys A B IH]; [split; constructor|]. inversion S; subst. destruct IH as [I1 I2]; [assumption|]. split; constructor; try assumption; (split; [exact A|]; split; [assumption|reflexivity]).
Qed.
Lemma plus_sums (f : (term * Q * Z) * token -> Q) (g : term * Q * Z -> Q) ys : (forall y, In y ys -> (f (plus_tok y) == snd (fst y) * g y /\ f (minus_tok y) == - (snd (fst y) * g y))%Q) ->
  (qsum (map f (map plus_tok ys)) == qsum (map (fun y => snd (fst y) * g y) ys))%Q /\ (qsum (map f (map minus_tok ys)) == - qsum (map (fun y => snd (fst y) * g y) ys))%Q.
Proof.
  induction ys as [|y ys IH]; intros H; [split; reflexivity|]. destruct IH as [I1 I2]; [intros; apply H; now right|]. destruct (H y (or_introl eq_refl)) as [H1 H2]. cbn [map qsum]. split; [rewrite I1, H1; reflexivity|rewrite I2, H2; ring].
Qed.
Lemma tok_sum e y : (t_coef (snd (plus_tok y)) * part_of e (fst (plus_tok y)) == snd (fst y) * part_of e y /\ t_coef (snd (minus_tok y)) * part_of e (fst (minus_tok y)) == - (snd (fst y) * part_of e y))%Q.
Proof. destruct y as [[x v] z]. cbn. split; ring. Qed.
Lemma tok_charge y : (t_coef (snd (plus_tok y)) * t_z (snd (plus_tok y)) == snd (fst y) * inject_Z (snd y) /\ t_coef (snd (minus_tok y)) * t_z (snd (minus_tok y)) == - (snd (fst y) * inject_Z (snd y)))%Q.
Proof. destruct y as [[x v] z]. cbn. split; ring. Qed.
Lemma charge_sum_map l : charge_sum (map snd l) = qsum (map (fun p : (term * Q * Z) * token => (t_coef (snd p) * t_z (snd p))%Q) l).
Proof. unfold charge_sum. now rewrite map_map. Qed.
Lemma balance_iff P y t r ls ms ql qm v (s : bool) : Forall (fun p => matches (fst p) (snd p)) P -> P = (y, t) :: r -> t_coef t = (v * - (1))%Q -> Forall good3 ls -> Forall good3 ms ->
  (ql == qsum (map (fun y => snd (fst y) * inject_Z (snd y)) ls))%Q -> (qm == qsum (map (fun y => snd (fst y) * inject_Z (snd y)) ms))%Q ->
  (forall g : term * Q * Z -> Q, forall f : (term * Q * Z) * token -> Q, (forall y, (f (plus_tok y) == snd (fst y) * g y /\ f (minus_tok y) == - (snd (fst y) * g y))%Q) ->
     (qsum (map f P) == (if s then - (1) else 1) * (qsum (map (fun y => snd (fst y) * g y) ms) - qsum (map (fun y => snd (fst y) * g y) ls)))%Q) ->
  (((Qabs (t_coef t - - (1)) <= TOL)%Q /\ (Qabs (charge_sum (map snd P)) <= TOL)%Q /\ (forall e, e <> "e" -> (Qabs (amount e (elist P)) <= TOL)%Q)) <-> balanced TOL (map term3 ls) (map term3 ms) ql qm v).
Proof.
  intros MP EP TC GL GM QL QM SUM. assert (AB : forall x, (Qabs ((if s then - (1) else 1) * x) == Qabs x)%Q). { intros x. destruct s; [|setoid_replace (1 * x)%Q with x by ring; reflexivity]. setoid_replace (- (1) * x)%Q with (- x)%Q by ring. apply Qabs_opp. }
  assert (CS : (Qabs (charge_sum (map snd P)) == Qabs (qm - ql))%Q). { rewrite charge_sum_map, (SUM (fun y => inject_Z (snd y)) (fun p => (t_coef (snd p) * t_z (snd p))%Q) tok_charge), AB, QL, QM. reflexivity. }
  assert (V : (Qabs (t_coef t - - (1)) == Qabs (v - 1))%Q). { rewrite TC. setoid_replace (v * - (1) - - (1))%Q with (- (v - 1))%Q by ring. apply Qabs_opp. }
  assert (EA : forall e al am, side_amount e (map term3 ls) al -> side_amount e (map term3 ms) am -> (Qabs (amount e (elist P)) == Qabs (am - al))%Q).
  { intros e al am A B. rewrite (elist_amount e P MP), (SUM (part_of e) (fun p => (t_coef (snd p) * part_of e (fst p))%Q) (tok_sum e)), AB. rewrite <- (side_values e ls al A GL), <- (side_values e ms am B GM). reflexivity. }
  unfold balanced. rewrite V, CS. split.
  - intros (H1 & H2 & H3). split; [exact H1|]. split; [exact H2|]. intros e al am NE A B. rewrite <- (EA e al am A B). apply H3. exact NE.
  - intros (H1 & H2 & H3). split; [exact H1|]. split; [exact H2|]. intros e NE. destruct (side_amount_exists e ls GL) as [al A]. destruct (side_amount_exists e ms GM) as [am B]. rewrite (EA e al am A B). apply (H3 e al am NE A B).
Qed.
Lemma dissociation_check sorted eqn y l y' m ql qm : sorts sorted -> squeeze eqn = (side_text (map term3 (y :: l)) ++ "=" ++ side_text (map term3 (y' :: m)))%string -> chars islegit (squeeze eqn) = true -> Forall good3 (y :: l) -> Forall good3 (y' :: m) ->
  Forall (fun x => short_body (k_body x)) (map term3 (y :: l)) -> Forall (fun x => short_body (k_body x)) (map term3 (y' :: m)) ->
  (ql == qsum (map (fun y => snd (fst y) * inject_Z (snd y)) (y :: l)))%Q -> (qm == qsum (map (fun y => snd (fst y) * inject_Z (snd y)) (y' :: m)))%Q ->
  exists toks b, parse_sides false eqn = Some toks /\ check_eqn sorted toks = Ret b /\ (b = true <-> balanced TOL (map term3 (y :: l)) (map term3 (y' :: m)) ql qm (snd (fst y))).
Proof.
  intros HS E LG G1 G2 S1 S2 QL QM. eexists. set (P := map minus_tok (y :: l) ++ map plus_tok (y' :: m)).
  assert (MP : Forall (fun p => matches (fst p) (snd p)) P) by (apply Forall_app; split; [apply (plus_matches _ G1 S1)|apply (plus_matches _ G2 S2)]).
  destruct (check_ok sorted P HS MP y (flip (tok3 y)) _ eq_refl) as (b & CB & IFF). exists b. split; [apply parse_dissociation; eassumption|]. replace (map flip (map tok3 (y :: l)) ++ map tok3 (y' :: m)) with (map snd P) by (unfold P; rewrite map_app, !map_map; reflexivity). split; [exact CB|]. rewrite IFF.
  apply (balance_iff P y (flip (tok3 y)) (map minus_tok l ++ map plus_tok (y' :: m)) (y :: l) (y' :: m) ql qm (snd (fst y)) false MP eq_refl); try assumption; [destruct y as [[x v] z]; reflexivity|].
  intros g f H. unfold P. rewrite map_app, qsum_app. destruct (plus_sums f g (y :: l) (fun y _ => H y)) as [_ X1]. destruct (plus_sums f g (y' :: m) (fun y _ => H y)) as [X2 _]. rewrite X1, X2. ring.
Qed.
Lemma association_check sorted eqn y l y' m ql qm : sorts sorted -> squeeze eqn = (side_text (map term3 (y :: l)) ++ "=" ++ side_text (map term3 (y' :: m)))%string -> chars islegit (squeeze eqn) = true -> Forall good3 (y :: l) -> Forall good3 (y' :: m) ->
  Forall (fun x => short_body (k_body x)) (map term3 (y :: l)) -> Forall (fun x => short_body (k_body x)) (map term3 (y' :: m)) ->
  (ql == qsum (map (fun y => snd (fst y) * inject_Z (snd y)) (y :: l)))%Q -> (qm == qsum (map (fun y => snd (fst y) * inject_Z (snd y)) (y' :: m)))%Q ->
  exists toks b, parse_sides true eqn = Some toks /\ check_eqn sorted toks = Ret b /\ (b = true <-> balanced TOL (map term3 (y :: l)) (map term3 (y' :: m)) ql qm (snd (fst y'))).
Proof.
  intros HS E LG G1 G2 S1 S2 QL QM. eexists. set (P := (minus_tok y' :: map plus_tok l ++ [plus_tok y]) ++ map minus_tok m).
  assert (MP : Forall (fun p => matches (fst p) (snd p)) P). { destruct (plus_matches _ G1 S1) as [A _]. destruct (plus_matches _ G2 S2) as [_ B]. inversion A; inversion B; subst. unfold P. apply Forall_app. split; [|assumption]. constructor; [assumption|]. apply Forall_app. split; [assumption|]. constructor; [assumption|constructor]. }
  destruct (check_ok sorted P HS MP y' (flip (tok3 y')) _ eq_refl) as (b & CB & IFF). exists b. split; [apply parse_association; eassumption|]. replace ((flip (tok3 y') :: map tok3 l ++ [tok3 y]) ++ map flip (map tok3 m)) with (map snd P) by (unfold P; rewrite map_app; cbn [map]; rewrite map_app, !map_map; reflexivity). split; [exact CB|]. rewrite IFF.
  apply (balance_iff P y' (flip (tok3 y')) _ (y :: l) (y' :: m) ql qm (snd (fst y')) true MP eq_refl); try assumption; [destruct y' as [[x v] z]; reflexivity|].
  intros g f H. unfold P. rewrite map_app, qsum_app. cbn [map qsum]. rewrite map_app, qsum_app. cbn [map qsum]. destruct (plus_sums f g l (fun y _ => H y)) as [X1 _]. destruct (plus_sums f g m (fun y _ => H y)) as [_ X2]. rewrite X1, X2. destruct (H y) as [Y1 _]. destruct (H y') as [_ Y2]. rewrite Y1, Y2. ring.
Qed.

(** ** White space and characters *)
Lemma white_space c : white c <-> is_space c = true.
Proof. unfold white, code, is_space. rewrite orb_true_iff, andb_true_iff, !N.leb_le, N.eqb_eq. lia. Qed.
Lemma spaced_squeeze s t : spaced s t -> squeeze s = t.
Proof.
  induction 1 as [|c s t W H IH|c s t W H IH]; [reflexivity| |]; cbn [squeeze].
  - apply white_space in W. rewrite W. exact IH.
  - destruct (is_space c) eqn:E; [elim W; apply white_space; exact E|]. rewrite IH. reflexivity.
Qed.
Lemma legal_legit c : legal c <-> islegit c = true.
Proof.
  unfold legal, code, islegit, isalpha, isupper, islower, isdigit, between, among. rewrite !orb_true_iff, !andb_true_iff, !N.leb_le, existsb_exists. split.
  - intros [H | [H | [H | H]]]; [left; left|left; left|left; right|right]; try (change (N_of_ascii "a") with 97%N; change (N_of_ascii "z") with 122%N; change (N_of_ascii "A") with 65%N; change (N_of_ascii "Z") with 90%N; change (N_of_ascii "0") with 48%N; change (N_of_ascii "9") with 57%N; lia).
    exists c. split; [cbn in H |- *; intuition|apply Ascii.eqb_refl].
  - change (N_of_ascii "a") with 97%N; change (N_of_ascii "z") with 122%N; change (N_of_ascii "A") with 65%N; change (N_of_ascii "Z") with 90%N; change (N_of_ascii "0") with 48%N; change (N_of_ascii "9") with 57%N.
    intros [[[H | H] | H] | (x & A & B)]; [lia|lia|lia|]. apply Ascii.eqb_eq in B. subst x. right; right; right. cbn in A |- *; intuition.
Qed.
Lemma each_legit s : each legal s <-> chars islegit s = true.
Proof.
  split.
  - induction 1 as [|c s A B IH]; [reflexivity|]. cbn. apply legal_legit in A. rewrite A. exact IH.
  - induction s as [|c s IH]; [constructor|]. cbn. intros H. apply andb_prop in H. destruct H as [A B]. constructor; [apply legal_legit; exact A|apply IH; exact B].
Qed.
(** ** A minus sign *)
Lemma strtod_all_minus t v : numeral t v -> t <> "" -> strtod_all (String "-" t) = Some (- v)%Q.
Proof. intros H N. destruct (numeral_text t v H N) as (A & B & C). unfold strtod_all. rewrite A, B, C, (seqb_ne t N). reflexivity. Qed.
Lemma get_coef_minus t v s : numeral t v -> (String.length t < 200)%nat -> begins s -> get_coef (String "-" (t ++ s)) = Some ((- v)%Q, s).
Proof.
  intros H L (c & u & -> & B1 & B2 & B3 & B4). destruct t as [|d t].
  - inversion H as [E|a A E1|a b A B C D E1]; subst; [|congruence|destruct a; discriminate]. cbn [append get_coef]. rewrite B1. reflexivity.
  - pose proof (numeral_chars _ _ H) as CH. assert (CC : chars coef_char (String d t) = true) by (eapply chars_imp; [apply numchar_coef|exact CH]). assert (NE : String d t <> "") by discriminate. pose proof (strtod_all_minus _ _ H NE) as S2. pose proof CH as CH'. cbn [chars] in CH'. apply andb_prop in CH'. destruct CH' as [CD _].
    assert (CC' : chars coef_char (String "-" (String d t)) = true) by exact CC. pose proof (span_app coef_char _ (String c u) CC' B3) as SP. cbn [append] in SP |- *. unfold get_coef. change (starts_name "-") with false. change (Ascii.eqb "-" "-") with true. change (Ascii.eqb "-" "+") with false. rewrite (numchar_start d CD). change (coef_char "-") with true. rewrite SP. cbn [andb]. replace (MAX_LENGTH <=? Z.of_nat (String.length (String "-" (String d t)))) with false by (unfold MAX_LENGTH; cbn in L |- *; lia). rewrite S2. reflexivity.
Qed.
Lemma get_species_minus x v z r : good_term x v z -> next r -> get_species (String "-" (term_text x ++ r)) = Some (tok x (- v) z, r).
Proof.
  intros (A & B & C & D & E) NX. unfold term_text, species_text. rewrite !sapp_assoc. unfold get_species. rewrite (get_coef_minus (k_num x) v (body_text (k_body x) ++ k_charge x ++ r)%string A B (body_begins _ _ C)). rewrite (get_token_ok _ _ _ _ C D NX). reflexivity.
Qed.
