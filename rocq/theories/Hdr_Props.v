(** C122: numbers of keywords, ranges and lists of numbers in PHREEQC input. *)
From Coq Require Import String Ascii List ZArith Bool Lia ZifyBool.
From Verif Require Import CNum_Model Inp_Model Elem_Spec Elem_Proofs Pfile_Spec Data_Proofs Hdr_Model Hdr_Spec.
Import ListNotations.
Local Open Scope string_scope.
Local Open Scope list_scope.
Local Open Scope Z_scope.

Lemma digit_facts c d : digit c = Some d -> isspace c = false /\ is_space c = false /\ Ascii.eqb c "-" = false /\ Ascii.eqb c "+" = false /\ Ascii.eqb c ";" = false.
Proof.
  intros H. destruct (digit_inv c d H) as (n & L & -> & _).
  do 10 (destruct n as [|n]; [repeat split; reflexivity|]). lia.
Qed.

Lemma int_of_id v : int32 v -> int_of v = v.
Proof.
  unfold int32, int_of, saturate, LONG_MIN, LONG_MAX. intros H.
  rewrite Z.min_r, Z.max_r by lia. rewrite Z.mod_small by lia. lia.
Qed.

Lemma numeral_pos s v : numeral s v -> 0 <= v.
Proof. induction 1; lia. Qed.

(** Texts made of digits only. *)
Fixpoint all_digits (s : string) : Prop :=
  match s with EmptyString => True | String c r => digit c <> None /\ all_digits r end.
Lemma all_digits_app a b : all_digits a -> all_digits b -> all_digits (a ++ b)%string.
Proof. induction a as [|c a IH]; [auto|]. cbn. intros [A B] C. auto. Qed.
Lemma digit_char d : (d <= 9)%nat -> digit (ascii_of_nat (48 + d)) <> None.
Proof. intros H. do 10 (destruct d as [|d]; [discriminate|]). lia. Qed.
Lemma numeral_all s v : numeral s v -> all_digits s.
Proof.
  induction 1 as [d H | s v d N IH H]; [cbn; split; [now apply digit_char | exact I]|].
  apply all_digits_app; [exact IH|]. cbn. split; [now apply digit_char | exact I].
Qed.
Lemma digits_no_space s : all_digits s -> no_space s.
Proof.
  induction s as [|c s IH]; [auto|]. cbn. intros [A B]. split; [|auto].
  destruct (digit c) as [d|] eqn:E; [|congruence]. apply (digit_facts c d E).
Qed.
Lemma no_space_app a b : no_space a -> no_space b -> no_space (a ++ b)%string.
Proof. induction a as [|c a IH]; [auto|]. cbn. intros [A B] C. auto. Qed.

Lemma scan_num s v rest : numeral s v -> stops rest -> scan_d (s ++ rest) = Some (int_of v, rest).
Proof.
  intros N R. pose proof (udigits_rest s v rest N R) as U. destruct (numeral_head s v N) as (c & r & d & -> & D).
  cbn [append] in *. destruct (digit_facts c d D) as (_ & A & B & C & _).
  unfold scan_d. cbn [skip_space]. rewrite A, B, C, U. reflexivity.
Qed.
Lemma scan_blank s : scan_d (String " " s) = scan_d s.
Proof. reflexivity. Qed.
Lemma scan_minus s v rest : numeral s v -> stops rest -> scan_d (String "-" (s ++ rest)) = Some (int_of (- v), rest).
Proof. intros N R. unfold scan_d. cbn [skip_space]. change (is_space "-") with false. cbn match. rewrite (udigits_rest s v rest N R). reflexivity. Qed.

Lemma swap_digits s r : all_digits s -> swap_dash (s ++ r) = option_map (append s) (swap_dash r).
Proof.
  induction s as [|c s IH]; [intros _; cbn [append]; destruct (swap_dash r); reflexivity|].
  cbn [all_digits append swap_dash]. intros [A B]. destruct (digit c) as [d|] eqn:E; [|congruence].
  destruct (digit_facts c d E) as (_ & _ & C & _). rewrite C, (IH B). destruct (swap_dash r); reflexivity.
Qed.
Lemma app_nil_s (s : string) : (s ++ "")%string = s.
Proof. induction s as [|c s IH]; [reflexivity|]. cbn [append]. now rewrite IH. Qed.
Lemma app_assoc_s (a b c : string) : ((a ++ b) ++ c)%string = (a ++ (b ++ c))%string.
Proof. induction a as [|x a IH]; [reflexivity|]. cbn [append]. now rewrite IH. Qed.

Definition edge (s : string) : Prop := match s with EmptyString => True | String c _ => isspace c = true end.
Lemma word_of_word w rest : no_space w -> edge rest -> word_of (w ++ rest) = (w, rest).
Proof.
  induction w as [|c w IH]; intros N E.
  - cbn [append]. destruct rest as [|c r]; [reflexivity|]. cbn in E. cbn [word_of]. rewrite E. reflexivity.
  - destruct N as [A B]. cbn [append word_of]. rewrite A, (IH B E). reflexivity.
Qed.
Lemma skip_word w rest : word w -> skip (w ++ rest) = (w ++ rest)%string.
Proof. intros [A B]. destruct w as [|c w]; [congruence|]. destruct B as [B _]. cbn [append skip]. now rewrite B. Qed.
Lemma copy_word w rest : word w -> edge rest -> copy_token (w ++ rest) = (w, rest).
Proof. intros W E. unfold copy_token. rewrite skip_word by assumption. apply word_of_word; [apply W | exact E]. Qed.
Lemma skip_blanks k s : skip (blanks k ++ s) = skip s.
Proof. induction k as [|k IH]; [reflexivity | exact IH]. Qed.
Lemma copy_blanks k s : copy_token (blanks k ++ s) = copy_token s.
Proof. unfold copy_token. now rewrite skip_blanks. Qed.
Lemma skip_describes d : describes d -> skip d = d.
Proof. destruct d as [|c d]; [reflexivity|]. cbn. intros ->. reflexivity. Qed.
Lemma tail_edge t d : tail t d -> edge t.
Proof. intros [k | k d' A B]; [destruct k; exact I || reflexivity | reflexivity]. Qed.
Lemma tail_skip t d : tail t d -> skip t = d.
Proof.
  intros [k | k d' A B]; [rewrite <- (app_nil_s (blanks k)), skip_blanks; reflexivity|].
  rewrite skip_blanks. now apply skip_describes.
Qed.
Lemma number_word s v : numeral s v -> word s.
Proof.
  intros N. split; [|apply digits_no_space; now apply (numeral_all s v)].
  destruct (numeral_head s v N) as (c & r & d & -> & _). discriminate.
Qed.

Lemma header_token w k token t d : word w -> word token -> tail t d ->
  read_header (w ++ blanks (S k) ++ token ++ t) =
  (if tt_digit token then
    let t := match token with
             | String c r => if Ascii.eqb c "-" then String "-" (swapped r) else swapped token
             | EmptyString => token
             end in
    let '(n, e) := match scan_d t with
                   | None => (1, 1)
                   | Some (n, u) => match scan_d u with None => (n, n) | Some (e, _) => (n, e) end
                   end in
    {| n_user := n; n_user_end := if e <? n then n else e; description := d |}
   else {| n_user := 1; n_user_end := 1; description := (token ++ t)%string |}).
Proof.
  intros W T L. unfold read_header. rewrite (copy_word w _ W) by reflexivity. rewrite copy_blanks, (copy_word token t T (tail_edge t d L)).
  rewrite (tail_skip t d L). destruct (tt_digit token); [reflexivity|]. f_equal. now apply skip_word.
Qed.

Lemma tt_numeral s v : numeral s v -> forall r, tt_digit (s ++ r) = true.
Proof. intros N r. destruct (numeral_head s v N) as (c & x & d & -> & D). cbn [append tt_digit]. rewrite D. reflexivity. Qed.

(** C122: a keyword with one number, perhaps with a minus sign, has that number as first and last, and the rest of the line, without
    leading blanks, as description. *)
Theorem C122_number : forall w k s v t d, word w -> numeral s v -> int32 v -> tail t d ->
  read_header (w ++ blanks (S k) ++ s ++ t) = {| n_user := v; n_user_end := v; description := d |} /\
  read_header (w ++ blanks (S k) ++ ("-" ++ s) ++ t) = {| n_user := - v; n_user_end := - v; description := d |}.
Proof.
  intros w k s v t d W N R L. pose proof (numeral_all s v N) as A.
  assert (S0 : swap_dash s = None) by (rewrite <- (app_nil_s s), swap_digits by assumption; reflexivity).
  assert (E0 : forall x, scan_d (x ++ "") = scan_d x) by (intros; now rewrite app_nil_s).
  split.
  - rewrite (header_token w k s t d W (number_word s v N) L). rewrite <- (app_nil_s s) at 1. rewrite (tt_numeral s v N).
    destruct (numeral_head s v N) as (c & x & y & E & D). destruct (digit_facts c y D) as (_ & _ & F & _).
    rewrite E. rewrite F. rewrite <- E. unfold swapped. rewrite S0.
    rewrite <- (app_nil_s s), (scan_num s v "" N Logic.I). cbn [scan_d skip_space]. rewrite (int_of_id v R), Z.ltb_irrefl. reflexivity.
  - assert (WM : word ("-" ++ s)).
    { split; [discriminate|]. cbn. split; [reflexivity|]. now apply digits_no_space. }
    rewrite (header_token w k ("-" ++ s) t d W WM L). change (tt_digit ("-" ++ s)) with true. cbn [append]. change (Ascii.eqb "-" "-") with true. cbn match.
    unfold swapped. rewrite S0. rewrite <- (app_nil_s s), (scan_minus s v "" N Logic.I). cbn [scan_d skip_space].
    rewrite int_of_id by (unfold int32 in *; pose proof (numeral_pos s v N); lia). rewrite Z.ltb_irrefl. reflexivity.
Qed.
Print Assumptions C122_number.

(** C122: a keyword with a range has its two numbers as first and last; a range that runs backwards is taken as its first number. *)
Theorem C122_range : forall w k s v s' u t d, word w -> numeral s v -> numeral s' u -> int32 v -> int32 u -> tail t d ->
  read_header (w ++ blanks (S k) ++ (s ++ "-" ++ s') ++ t) = {| n_user := v; n_user_end := Z.max v u; description := d |}.
Proof.
  intros w k s v s' u t d W N N' R R' L. pose proof (numeral_all s v N) as A. pose proof (numeral_all s' u N') as A'.
  assert (WD : word (s ++ "-" ++ s')).
  { split; [destruct (number_word s v N) as [B _]; destruct s; [congruence | discriminate]|].
    apply no_space_app; [now apply digits_no_space|]. cbn. split; [reflexivity | now apply digits_no_space]. }
  rewrite (header_token w k _ t d W WD L), (tt_numeral s v N).
  assert (SW : swapped (s ++ "-" ++ s') = (s ++ String " " s')%string) by (unfold swapped; rewrite swap_digits by assumption; reflexivity).
  destruct (numeral_head s v N) as (c & x & y & E & D). destruct (digit_facts c y D) as (_ & _ & F & _).
  assert (M : (match (s ++ "-" ++ s')%string with
               | String c r => if Ascii.eqb c "-" then String "-" (swapped r) else swapped (s ++ "-" ++ s')%string
               | EmptyString => (s ++ "-" ++ s')%string end) = (s ++ String " " s')%string).
  { rewrite <- SW. rewrite E. cbn [append]. rewrite F. reflexivity. }
  rewrite M. cbv zeta. rewrite (scan_num s v (String " " s') N) by reflexivity. rewrite scan_blank.
  rewrite <- (app_nil_s s'), (scan_num s' u "" N' Logic.I). rewrite (int_of_id v R), (int_of_id u R').
  f_equal. destruct (u <? v) eqn:B; lia.
Qed.
Print Assumptions C122_range.

(** C122 finding: a range written backwards, such as "SOLUTION 7-3", is accepted without a message and defines only its first
    number. *)
Theorem C122_backwards_refuted : forall w k s v s' u t d, word w -> numeral s v -> numeral s' u -> int32 v -> int32 u -> u < v -> tail t d ->
  read_header (w ++ blanks (S k) ++ (s ++ "-" ++ s') ++ t) = {| n_user := v; n_user_end := v; description := d |}.
Proof. intros w k s v s' u t d W N N' R R' L T. rewrite (C122_range w k s v s' u t d) by assumption. f_equal. lia. Qed.
Print Assumptions C122_backwards_refuted.

(** C122: a keyword without a number has number 1, and the rest of the line as description. *)
Theorem C122_no_number : forall w k c r t d, word w -> word (String c r) -> digit c = None -> c <> "."%char -> c <> "-"%char -> tail t d ->
  read_header (w ++ blanks (S k) ++ String c r ++ t) = {| n_user := 1; n_user_end := 1; description := (String c r ++ t)%string |} /\
  read_header w = {| n_user := 1; n_user_end := 1; description := "" |}.
Proof.
  intros w k c r t d W T D P M L.
  assert (TD : tt_digit (String c r) = false).
  { cbn [tt_digit]. rewrite D. destruct (Ascii.eqb c ".") eqn:E1; [apply Ascii.eqb_eq in E1; congruence|].
    destruct (Ascii.eqb c "-") eqn:E2; [apply Ascii.eqb_eq in E2; congruence|]. reflexivity. }
  split; [rewrite (header_token w k (String c r) t d W T L), TD; reflexivity|].
  unfold read_header. rewrite <- (app_nil_s w), (copy_word w "" W Logic.I). reflexivity.
Qed.
Print Assumptions C122_no_number.

(** C122: whatever the line, the last number is not below the first. *)
Theorem C122_ordered : forall line, n_user (read_header line) <= n_user_end (read_header line).
Proof.
  intros line. unfold read_header. destruct (copy_token line) as [w rest]. destruct (copy_token rest) as [token rest'].
  destruct (tt_digit token); [|cbn; lia].
  match goal with |- context [let '(n, e) := ?m in _] => destruct m as [n e] end.
  cbn [n_user n_user_end]. destruct (e <? n) eqn:E; lia.
Qed.
Print Assumptions C122_ordered.

(** C122 finding: a description that begins with a point, as in ".5 molar brine", loses its first word. *)
Theorem C122_point_refuted : forall w k r t d, word w -> no_space r -> tail t d ->
  read_header (w ++ blanks (S k) ++ String "." r ++ t) = {| n_user := 1; n_user_end := 1; description := d |}.
Proof.
  intros w k r t d W N L.
  assert (WD : word (String "." r)) by (split; [discriminate | cbn; auto]).
  rewrite (header_token w k (String "." r) t d W WD L). change (tt_digit (String "." r)) with true. cbv zeta.
  change (Ascii.eqb "." "-") with false. cbn match.
  assert (H : scan_d (swapped (String "." r)) = None).
  { unfold swapped. cbn [swap_dash]. change (Ascii.eqb "." "-") with false. cbn match.
    destruct (swap_dash r); reflexivity. }
  rewrite H. reflexivity.
Qed.
Print Assumptions C122_point_refuted.

Lemma swap_split s : forall x, swap_dash s = Some x -> exists a b, s = (a ++ "-" ++ b)%string.
Proof.
  induction s as [|c r IH]; intros x H; [discriminate|]. cbn [swap_dash] in H. destruct (Ascii.eqb c "-") eqn:E.
  - apply Ascii.eqb_eq in E. subst c. exists "", r. reflexivity.
  - destruct (swap_dash r) as [y|]; [|discriminate]. destruct (IH y eq_refl) as (a & b & ->). exists (String c a), b. reflexivity.
Qed.
Lemma is_space_isspace c : is_space c = isspace c.
Proof. destruct c as [[] [] [] [] [] [] [] []]; reflexivity. Qed.

(** C122 finding: letters that follow the number without a blank are dropped: "SOLUTION 3M acid" defines number 3 as "acid". *)
Theorem C122_letters_refuted : forall w k s v c r t d, word w -> numeral s v -> int32 v -> word (String c r) -> digit c = None -> c <> "-"%char ->
  (forall a b, r <> (a ++ "-" ++ b)%string) -> (c = "+"%char -> forall x y, digit x = Some y -> forall b, r <> String x b) -> tail t d ->
  read_header (w ++ blanks (S k) ++ (s ++ String c r) ++ t) = {| n_user := v; n_user_end := v; description := d |}.
Proof.
  intros w k s v c r t d W N R WC DC NC ND NP L.
  assert (SR : swap_dash r = None).
  { destruct (swap_dash r) as [x|] eqn:E; [|reflexivity]. destruct (swap_split r x E) as (a & b & X). exfalso. now apply (ND a b). }
  assert (SC : scan_d (String c r) = None).
  { unfold scan_d. destruct WC as [_ [WS _]]. cbn [skip_space].
    destruct (is_space c) eqn:Sp; [rewrite is_space_isspace in Sp; congruence|].
    destruct (Ascii.eqb c "-") eqn:E1; [apply Ascii.eqb_eq in E1; congruence|].
    destruct (Ascii.eqb c "+") eqn:E2; [|cbn [udigits]; now rewrite DC].
    apply Ascii.eqb_eq in E2. destruct r as [|x b]; [reflexivity|]. cbn [udigits].
    destruct (digit x) as [y|] eqn:Y; [exfalso; now apply (NP E2 x y Y b) | reflexivity]. }
  assert (WD : word (s ++ String c r)).
  { destruct (number_word s v N) as [B B']. split; [destruct s; [congruence | discriminate]|]. apply no_space_app; [exact B' | apply WC]. }
  rewrite (header_token w k _ t d W WD L), (tt_numeral s v N).
  assert (SW : swapped (s ++ String c r) = (s ++ String c r)%string).
  { unfold swapped. rewrite swap_digits by now apply (numeral_all s v). cbn [swap_dash].
    destruct (Ascii.eqb c "-") eqn:E; [apply Ascii.eqb_eq in E; congruence|]. rewrite SR. reflexivity. }
  destruct (numeral_head s v N) as (c0 & x & y & E & D). destruct (digit_facts c0 y D) as (_ & _ & F & _).
  assert (M : (match (s ++ String c r)%string with
               | String c1 r1 => if Ascii.eqb c1 "-" then String "-" (swapped r1) else swapped (s ++ String c r)%string
               | EmptyString => (s ++ String c r)%string end) = (s ++ String c r)%string).
  { rewrite <- SW at 2. rewrite E. cbn [append]. rewrite F. reflexivity. }
  rewrite M. cbv zeta. rewrite (scan_num s v (String c r) N) by exact DC. rewrite SC, (int_of_id v R), Z.ltb_irrefl. reflexivity.
Qed.
Print Assumptions C122_letters_refuted.

Lemma upward_in k : forall a x, In x (upward k a) <-> a <= x < a + Z.of_nat k.
Proof.
  induction k as [|k IH]; intros a x; cbn [upward In]; [lia|]. rewrite IH. lia.
Qed.
Lemma range_in a b x : In x (range a b) <-> a <= x <= b.
Proof. unfold range. rewrite upward_in. lia. Qed.

(** C122: an entity defined for a range of numbers exists under each number of the range, with the same content, and under no other
    number does anything change. *)
Theorem C122_copies : forall (E : Type) (store : Z -> option E) n e x k, n <= e ->
  define store n e x k = if (n <=? k) && (k <=? e) then Some x else store k.
Proof.
  intros E store n e x k NE. unfold define.
  assert (G : forall l st, (forall i, In i l -> n < i) -> st n = Some x ->
    let st' := fold_left (fun st i => fun k => if k =? i then st n else st k) l st in
    st' n = Some x /\ forall k, st' k = if existsb (Z.eqb k) l then Some x else st k).
  { induction l as [|i l IH]; intros st HI H0; [cbn; auto|]. cbn [fold_left existsb].
    assert (NI : (n =? i) = false) by (specialize (HI i (or_introl eq_refl)); lia).
    destruct (IH (fun k => if k =? i then st n else st k)) as [A B].
    - intros j J. apply HI. now right.
    - rewrite NI. exact H0.
    - split; [exact A|]. intros k0. rewrite B. destruct (existsb (Z.eqb k0) l); [now rewrite orb_true_r|].
      rewrite orb_false_r, H0. reflexivity. }
  destruct (G (range (n + 1) e) (fun k => if k =? n then Some x else store k)) as [_ B].
  - intros i H. apply range_in in H. lia.
  - now rewrite Z.eqb_refl.
  - rewrite B. destruct (existsb (Z.eqb k) (range (n + 1) e)) eqn:X.
    + apply existsb_exists in X. destruct X as (i & I1 & I2). apply range_in in I1. replace ((n <=? k) && (k <=? e)) with true by lia. reflexivity.
    + destruct (k =? n) eqn:KN; [replace ((n <=? k) && (k <=? e)) with true by lia; reflexivity|].
      assert (NIN : ~ (n + 1 <= k <= e)).
      { intros H. assert (Y : existsb (Z.eqb k) (range (n + 1) e) = true) by (apply existsb_exists; exists k; split; [now apply range_in | lia]). congruence. }
      replace ((n <=? k) && (k <=? e)) with false by lia. reflexivity.
Qed.
Print Assumptions C122_copies.

Fixpoint no_semi (s : string) : Prop := match s with EmptyString => True | String c r => Ascii.eqb c ";" = false /\ no_semi r end.
Lemma digits_no_semi s : all_digits s -> no_semi s.
Proof.
  induction s as [|c s IH]; [auto|]. cbn. intros [A B]. split; [|auto].
  destruct (digit c) as [d|] eqn:E; [|congruence]. apply (digit_facts c d E).
Qed.
Lemma no_semi_app a b : no_semi a -> no_semi b -> no_semi (a ++ b)%string.
Proof. induction a as [|c a IH]; [auto|]. cbn. intros [A B] C. auto. Qed.
Lemma word2_of_word w rest : no_space w -> no_semi w -> edge rest -> word2_of (w ++ rest) = (w, rest).
Proof.
  induction w as [|c w IH]; intros N M E.
  - cbn [append]. destruct rest as [|c r]; [reflexivity|]. cbn in E. cbn [word2_of]. rewrite E. reflexivity.
  - destruct N as [A B]. destruct M as [C D]. cbn [append word2_of]. change semicolon with ";"%char. rewrite A, C, (IH B D E). reflexivity.
Qed.

Lemma item_facts s l : item s l -> word s /\ no_semi s /\ exists v, (exists r, scan_d s = Some (v, r)) /\ token_ints true v s = (l, 0) /\ token_ints false v s = (l, 0).
Proof.
  intros [s0 v N P R | s0 v t u N N' P L R].
  - split; [apply (number_word s0 v N)|]. split; [apply digits_no_semi, (numeral_all s0 v N)|].
    exists v. split; [exists ""; rewrite <- (app_nil_s s0), (scan_num s0 v "" N Logic.I), (int_of_id v R); reflexivity|].
    unfold token_ints. rewrite <- (app_nil_s s0), swap_digits by (apply (numeral_all s0 v N)). cbn [swap_dash option_map].
    replace (v <=? 0) with false by lia. split; reflexivity.
  - pose proof (numeral_all s0 v N) as A. pose proof (numeral_all t u N') as A'.
    assert (RV : int32 v) by (unfold int32 in *; lia).
    split; [|split].
    + split; [destruct (number_word s0 v N) as [B _]; destruct s0; [congruence | discriminate]|].
      apply no_space_app; [now apply digits_no_space|]. cbn. split; [reflexivity | now apply digits_no_space].
    + apply no_semi_app; [now apply digits_no_semi|]. cbn. split; [reflexivity | now apply digits_no_semi].
    + exists v. split; [exists ("-" ++ t)%string; rewrite (scan_num s0 v _ N) by reflexivity; now rewrite (int_of_id v RV)|].
      unfold token_ints. rewrite swap_digits by assumption.
      change (option_map (append s0) (swap_dash ("-" ++ t))) with (Some (s0 ++ String " " t)%string). cbn match.
      rewrite (scan_num s0 v (String " " t) N) by reflexivity. rewrite scan_blank.
      rewrite <- (app_nil_s t), (scan_num t u "" N' Logic.I), (int_of_id v RV), (int_of_id u R).
      replace (u <? v) with false by lia. replace (u <=? 0) with false by lia. replace (v <=? 0) with false by lia. cbn [andb].
      replace (range v u) with (v :: range (v + 1) u); [split; reflexivity|].
      unfold range. replace (Z.to_nat (u - v + 1)) with (S (Z.to_nat (u - (v + 1) + 1))) by lia. reflexivity.
Qed.

Lemma length_app_s (a b : string) : String.length (a ++ b) = (String.length a + String.length b)%nat.
Proof. induction a as [|c a IH]; [reflexivity|]. cbn [append String.length]. now rewrite IH. Qed.

Lemma read_item k s l rest fuel pos : item s l -> edge rest ->
  read_ints (S fuel) pos (blanks k ++ s ++ rest) = let '(l', e', r) := read_ints fuel pos rest in (l ++ l', e', r).
Proof.
  intros I0 E. destruct (item_facts s l I0) as (W & M & v & (r & SC) & T1 & T2).
  cbn [read_ints]. unfold copy_token2. rewrite skip_blanks, (skip_word s rest W), (word2_of_word s rest (proj2 W) M E).
  destruct (s ++ rest)%string as [|c x] eqn:F; [destruct W as [W _]; destruct s; [congruence | discriminate]|].
  rewrite SC. destruct pos; [rewrite T1 | rewrite T2]; destruct (read_ints fuel _ rest) as [[l' e'] r']; reflexivity.
Qed.

Lemma read_items s l : items s l -> forall fuel pos, (String.length s < fuel)%nat -> read_ints fuel pos s = (l, 0, "").
Proof.
  induction 1 as [k | k s l I0 | k s l r m I0 R IH]; intros fuel pos F.
  - destruct fuel as [|fuel]; [lia|]. cbn [read_ints]. unfold copy_token2. rewrite <- (app_nil_s (blanks k)), skip_blanks. reflexivity.
  - destruct fuel as [|fuel]; [lia|]. rewrite <- (app_nil_s s), (read_item k s l "" fuel pos I0 Logic.I).
    destruct fuel as [|fuel]; [|cbn; now rewrite app_nil_r].
    rewrite length_app_s in F. destruct (item_facts s l I0) as ([W _] & _). destruct s; [congruence | cbn [String.length] in F; lia].
  - destruct fuel as [|fuel]; [lia|]. rewrite (read_item k s l (String " " r) fuel pos I0) by reflexivity.
    rewrite IH; [reflexivity|]. rewrite !length_app_s in F. destruct (item_facts s l I0) as ([W _] & _).
    destruct s; [congruence | cbn [String.length] in *; lia].
Qed.

(** C122: a list of numbers and ranges stands for the numbers in order, each range with all of its numbers. *)
Theorem C122_list : forall s l pos, items s l -> read_list pos s = (l, 0, "").
Proof. intros s l pos I0. unfold read_list. apply read_items; [exact I0 | lia]. Qed.
Print Assumptions C122_list.

Lemma digits_swap s : forall acc t, swap_dash s = Some t -> fst (digits acc t) = fst (digits acc s).
Proof.
  induction s as [|c r IH]; intros acc t H; [discriminate|]. cbn [swap_dash] in H.
  destruct (Ascii.eqb c "-") eqn:E.
  - injection H as <-. apply Ascii.eqb_eq in E. subst c. reflexivity.
  - destruct (swap_dash r) as [t'|] eqn:F; [|discriminate]. injection H as <-. cbn [digits]. destruct (digit c); [now apply IH | reflexivity].
Qed.
Lemma udigits_swap s t v e : swap_dash s = Some t -> udigits s = Some (v, e) -> exists e', udigits t = Some (v, e').
Proof.
  intros H U. destruct s as [|c r]; [discriminate|]. cbn [udigits] in U. destruct (digit c) as [d|] eqn:D; [|discriminate].
  cbn [swap_dash] in H. destruct (digit_facts c d D) as (_ & _ & F & _). rewrite F in H.
  destruct (swap_dash r) as [t'|] eqn:G; [|discriminate]. injection H as <-. cbn [udigits]. rewrite D.
  injection U as U. pose proof (digits_swap r d t' G) as X. rewrite U in X. cbn [fst] in X.
  destruct (digits d t') as [v' e']. cbn in X. subst v'. eauto.
Qed.
Lemma skip_swap s : forall t, swap_dash s = Some t -> (forall r, skip_space s <> String "-" r) -> swap_dash (skip_space s) = Some (skip_space t).
Proof.
  induction s as [|c r IH]; intros t H N; [discriminate|]. cbn [swap_dash] in H. cbn [skip_space] in *.
  destruct (Ascii.eqb c "-") eqn:E.
  - apply Ascii.eqb_eq in E. subst c. change (is_space "-") with false in *. exfalso. apply (N r). reflexivity.
  - destruct (swap_dash r) as [t'|] eqn:F; [|discriminate]. injection H as <-. cbn [skip_space]. destruct (is_space c) eqn:SP.
    + apply IH; [reflexivity | exact N].
    + cbn [swap_dash]. rewrite E, F. reflexivity.
Qed.
Lemma digits_nonneg s : forall acc, 0 <= acc -> 0 <= fst (digits acc s).
Proof.
  induction s as [|c r IH]; intros acc H; [exact H|]. cbn [digits]. destruct (digit c) as [d|] eqn:D; [|exact H].
  apply IH. destruct (digit_inv c d D) as (n & _ & _ & ->). lia.
Qed.
Lemma scan_swap s t v e : swap_dash s = Some t -> scan_d s = Some (v, e) ->
  (exists r, skip_space s = String "-" r) \/ exists e', scan_d t = Some (v, e').
Proof.
  intros H U. destruct (skip_space s) as [|c r] eqn:SK; [unfold scan_d in U; rewrite SK in U; discriminate|].
  destruct (Ascii.eqb c "-") eqn:E; [apply Ascii.eqb_eq in E; subst c; left; eauto|]. right.
  assert (SW : swap_dash (String c r) = Some (skip_space t)).
  { rewrite <- SK. apply skip_swap; [exact H|]. intros r0 X. rewrite SK in X. injection X as -> _. discriminate. }
  unfold scan_d in *. rewrite SK, E in U.
  pose proof SW as SW'. cbn [swap_dash] in SW'. rewrite E in SW'. destruct (swap_dash r) as [t'|] eqn:F; [|discriminate]. injection SW' as SW'.
  rewrite <- SW' in *. rewrite E. destruct (Ascii.eqb c "+") eqn:P.
  - destruct (udigits r) as [[v0 e0]|] eqn:UD; [|discriminate]. injection U as <- <-.
    destruct (udigits_swap r t' v0 e0 F UD) as [e' ->]. eauto.
  - destruct (udigits (String c r)) as [[v0 e0]|] eqn:UD; [|discriminate]. injection U as <- <-.
    assert (SW2 : swap_dash (String c r) = Some (String c t')) by (rewrite SW; now rewrite SW').
    destruct (udigits_swap (String c r) (String c t') v0 e0 SW2 UD) as [e' ->]. eauto.
Qed.


Lemma digits_app s rest : stops rest -> forall acc, fst (digits acc (s ++ rest)) = fst (digits acc s).
Proof.
  intros R. induction s as [|c r IH]; intros acc; cbn [append digits].
  - destruct rest as [|c r]; [reflexivity|]. cbn in R. cbn [digits]. rewrite R. reflexivity.
  - destruct (digit c); [apply IH | reflexivity].
Qed.
Lemma udigits_app s rest v e : stops rest -> udigits s = Some (v, e) -> exists e', udigits (s ++ rest) = Some (v, e').
Proof.
  intros R U. destruct s as [|c r]; [discriminate|]. cbn [append udigits] in *. destruct (digit c) as [d|]; [|discriminate].
  injection U as U. pose proof (digits_app r rest R d) as X. rewrite U in X. destruct (digits d (r ++ rest)) as [v' e']. cbn in X. subst. eauto.
Qed.
Lemma udigits_nonneg s v e : udigits s = Some (v, e) -> 0 <= v.
Proof.
  destruct s as [|c r]; [discriminate|]. cbn [udigits]. destruct (digit c) as [d|] eqn:D; [|discriminate]. intros H. injection H as H.
  pose proof (digits_nonneg r d) as X. rewrite H in X. apply X. destruct (digit_inv c d D) as (n & _ & _ & ->). lia.
Qed.

Lemma token_positive v token l e r : scan_d token = Some (v, r) -> token_ints true v token = (l, e) ->
  (forall q w e, skip_space token = String "-" q -> udigits q = Some (w, e) -> w <= 2147483648) ->
  0 <= e /\ (e = 0 -> Forall (fun x => 0 < x) l).
Proof.
  intros S0 T M. unfold token_ints in T. rewrite andb_true_r in T.
  destruct (swap_dash token) as [t|] eqn:D.
  - destruct (scan_swap token t v r D S0) as [[q Q] | [e' S1]].
    + assert (V : v <= 0).
      { unfold scan_d in S0. rewrite Q in S0. change (Ascii.eqb "-" "-") with true in S0. cbn match in S0.
        destruct (udigits q) as [[w e0]|] eqn:U; [|discriminate]. injection S0 as S0 _.
        specialize (M q w e0 Q U). pose proof (udigits_nonneg q w e0 U). rewrite <- S0. rewrite int_of_id; [lia|]. unfold int32. lia. }
      replace (v <=? 0) with true in T by lia.
      destruct (scan_d t) as [[v1 u]|]; [destruct (scan_d u) as [[v2 u2]|]; [destruct (v2 <? v1); [|destruct ((v2 <=? 0) && true)]|]|];
        injection T as _ <-; split; intros; lia.
    + rewrite S1 in T. destruct (scan_d e') as [[v2 u2]|].
      * destruct (v2 <? v); [injection T as _ <-; destruct (v <=? 0); lia|].
        destruct ((v2 <=? 0) && true); [injection T as _ <-; destruct (v <=? 0); lia|].
        injection T as <- <-. split; [destruct (v <=? 0); lia|]. intros H0.
        assert (0 < v) by (destruct (v <=? 0) eqn:Z0; lia).
        constructor; [assumption|]. apply Forall_forall. intros x X. apply range_in in X. lia.
      * injection T as _ <-; destruct (v <=? 0); lia.
  - injection T as <- <-. split; [destruct (v <=? 0); lia|]. intros H0. constructor; [destruct (v <=? 0) eqn:Z0; lia | constructor].
Qed.

Lemma skip_suffix s : exists a, s = (a ++ skip s)%string.
Proof.
  induction s as [|c r [a A]]; [exists ""; reflexivity|]. cbn [skip]. destruct (isspace c); [exists (String c a); cbn; now rewrite <- A | exists ""; reflexivity].
Qed.
Lemma skip_space_suffix s : exists a, s = (a ++ skip_space s)%string.
Proof.
  induction s as [|c r [a A]]; [exists ""; reflexivity|]. cbn [skip_space]. destruct (is_space c); [exists (String c a); cbn; now rewrite <- A | exists ""; reflexivity].
Qed.
Lemma space_no_digit c : isspace c || Ascii.eqb c ";" = true -> digit c = None.
Proof.
  intros H. destruct (digit c) as [d|] eqn:D; [|reflexivity]. destruct (digit_facts c d D) as (A & _ & _ & _ & B). rewrite A, B in H. discriminate.
Qed.
Lemma word2_parts s : (fst (word2_of s) ++ snd (word2_of s))%string = s /\ stops (snd (word2_of s)).
Proof.
  induction s as [|c r [A B]]; [split; [reflexivity | exact Logic.I]|]. cbn [word2_of]. change semicolon with ";"%char.
  destruct (isspace c || Ascii.eqb c ";") eqn:E; [split; [reflexivity | cbn; now apply space_no_digit]|].
  destruct (word2_of r) as [w t]. cbn [fst snd] in *. split; [cbn; now rewrite A | exact B].
Qed.

(** C122: in a list of which the numbers must be positive, no error means that every number of the list, given or within a range, is
    positive, provided that no number in the text is too large for the machine's integers. *)
Theorem C122_positive : forall s l rest, (forall a b v e, s = (a ++ b)%string -> udigits b = Some (v, e) -> v <= 2147483648) ->
  read_list true s = (l, 0, rest) -> Forall (fun x => 0 < x) l.
Proof.
  assert (G : forall fuel s l e rest, (forall a b v e, s = (a ++ b)%string -> udigits b = Some (v, e) -> v <= 2147483648) ->
    read_ints fuel true s = (l, e, rest) -> 0 <= e /\ (e = 0 -> Forall (fun x => 0 < x) l)).
  { induction fuel as [|fuel IH]; intros s l e rest M R; cbn [read_ints] in R; [injection R as <- <- _; split; [lia | constructor]|].
    destruct (copy_token2 s) as [token rest'] eqn:C. destruct (skip s) as [|c0 x] eqn:SK; [injection R as <- <- _; split; [lia | constructor]|].
    destruct (scan_d token) as [[v r]|] eqn:SC; [|injection R as <- <- _; split; [lia | constructor]].
    destruct (token_ints true v token) as [l1 e1] eqn:T. destruct (read_ints fuel true rest') as [[l2 e2] r2] eqn:RR. injection R as <- <- _.
    unfold copy_token2 in C. destruct (skip_suffix s) as [a A]. destruct (word2_parts (skip s)) as [P1 P2]. rewrite C in P1, P2. cbn [fst snd] in P1, P2.
    assert (M2 : forall a b v e, rest' = (a ++ b)%string -> udigits b = Some (v, e) -> v <= 2147483648).
    { intros a0 b v0 e0 EQ U. apply (M (a ++ token ++ a0)%string b v0 e0); [|exact U]. rewrite A, <- P1, EQ. now rewrite !app_assoc_s. }
    destruct (IH rest' l2 e2 r2 M2 RR) as [E2 F2].
    destruct (token_positive v token l1 e1 r SC T) as [E1 F1].
    { intros q w e0 Q U. destruct (skip_space_suffix token) as [b B]. rewrite Q in B.
      destruct (udigits_app q rest' w e0 P2 U) as [e' U']. apply (M (a ++ b ++ "-")%string (q ++ rest')%string w e'); [|exact U'].
      rewrite A, <- P1, B. rewrite !app_assoc_s. reflexivity. }
    split; [lia|]. intros E0. apply Forall_app. split; [apply F1 | apply F2]; lia. }
  intros s l rest M R. unfold read_list in R. destruct (G _ _ _ _ _ M R) as [_ F]. auto.
Qed.
Print Assumptions C122_positive.

(** C122 finding: a negative number alone in a list is always an error, also where negative numbers are allowed, since its sign is
    taken for the dash of a range. *)
Theorem C122_negative_refuted : forall s v k, numeral s v -> int32 v ->
  read_list false (blanks k ++ "-" ++ s) = ([- v], 1, "").
Proof.
  intros s v k N R. pose proof (numeral_all s v N) as A. unfold read_list. cbn [read_ints]. unfold copy_token2.
  assert (W : word ("-" ++ s)) by (split; [discriminate | cbn; split; [reflexivity | now apply digits_no_space]]).
  assert (M : no_semi ("-" ++ s)) by (cbn; split; [reflexivity | now apply digits_no_semi]).
  rewrite skip_blanks. rewrite <- (app_nil_s ("-" ++ s)). rewrite (skip_word _ "" W), (word2_of_word _ "" (proj2 W) M Logic.I). rewrite (app_nil_s ("-" ++ s)).
  cbn [append] in *. rewrite <- (app_nil_s s) at 1. rewrite (scan_minus s v "" N Logic.I).
  unfold token_ints. cbn [swap_dash]. change (Ascii.eqb "-" "-") with true. cbn match. rewrite scan_blank. rewrite <- (app_nil_s s) at 1.
  rewrite (scan_num s v "" N Logic.I). change (scan_d "") with (@None (Z * string)). cbn match. rewrite andb_false_r.
  rewrite int_of_id by (unfold int32 in *; pose proof (numeral_pos s v N); lia).
  destruct (String.length _) as [|n]; reflexivity.
Qed.
Print Assumptions C122_negative_refuted.

Example C122_header_example :
  read_header "SOLUTION 3-5  Rain at the gauge" = {| n_user := 3; n_user_end := 5; description := "Rain at the gauge" |} /\
  read_header "SOLUTION 7-3 x" = {| n_user := 7; n_user_end := 7; description := "x" |} /\
  read_header "SOLUTION 3M acid" = {| n_user := 3; n_user_end := 3; description := "acid" |} /\
  read_header "SOLUTION Rain" = {| n_user := 1; n_user_end := 1; description := "Rain" |}.
Proof. repeat split; reflexivity. Qed.
Example C122_list_example : read_list true "1 3-6 9" = ([1; 3; 4; 5; 6; 9], 0, "") /\ read_list true "2 0" = ([2; 0], 1, "").
Proof. split; reflexivity. Qed.
Example C122_copies_example : map (define (fun k => if k =? 9 then Some true else None) 3 5 false) [2; 3; 4; 5; 6; 9] = [None; Some false; Some false; Some false; None; Some true].
Proof. reflexivity. Qed.
