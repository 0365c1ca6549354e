(** Proofs about checkpoints. *)
From Coq Require Import String Ascii List ZArith QArith Qround Qabs Bool Lia ZifyBool Lqa.
From Verif Require Import CStr_Model CNum_Model Qx Dim_Model Elem_Model Elem_Spec Elem_Proofs Pfile_Model Pfile_Spec Pfile_Proofs Ctrl_Model
  Data_Spec Data_Proofs Ckpt_Model Ckpt_Spec.
Import ListNotations.
Local Open Scope string_scope.
Local Open Scope list_scope.
Local Open Scope Z_scope.

(** * Printing and reading numbers *)
Lemma chr_digit d : 0 <= d <= 9 -> exists k, (k <= 9)%nat /\ chr d = ascii_of_nat (48 + k) /\ Z.of_nat k = d.
Proof. intros H. exists (Z.to_nat d). repeat split; lia. Qed.
Lemma dec_from_numeral : forall fuel n, 0 <= n < 2 ^ Z.of_nat fuel -> (fuel <> 0)%nat -> numeral (dec_from fuel n) n.
Proof.
  induction fuel as [|fuel IH]; intros n H F; [lia|]. cbn [dec_from]. destruct (n <? 10) eqn:E.
  - destruct (chr_digit n ltac:(lia)) as (k & K & -> & <-). apply num_digit. exact K.
  - destruct (chr_digit (n mod 10)) as (k & K & -> & D); [pose proof (Z.mod_pos_bound n 10); lia|].
    replace n with (10 * (n / 10) + Z.of_nat k) at 2 by (rewrite D; symmetry; apply Z.div_mod; lia).
    apply num_more; [|exact K]. rewrite Nat2Z.inj_succ, Z.pow_succ_r in H by lia.
    apply IH; [split; [apply Z.div_pos; lia|apply Z.div_lt_upper_bound; lia]|]. intros ->. cbn in H. lia.
Qed.
Lemma dec_abs_numeral n : 0 <= n -> numeral (dec_abs n) n.
Proof.
  intros H. unfold dec_abs. apply dec_from_numeral; [|lia]. split; [exact H|]. rewrite Nat2Z.inj_succ, Z2Nat.id by apply Z.log2_nonneg.
  destruct (Z.eq_dec n 0) as [->|N]; [reflexivity|]. apply Z.log2_spec. lia.
Qed.
Lemma dec_int z : int_text (dec z) z.
Proof.
  unfold dec. destruct (z <? 0) eqn:E; [|constructor; apply dec_abs_numeral; lia].
  replace z with (- - z) at 2 by lia. apply it_minus, dec_abs_numeral. lia.
Qed.
Lemma dec_from_length : forall k fuel n, 0 <= n < 10 ^ Z.of_nat (S k) -> (String.length (dec_from fuel n) <= S k)%nat.
Proof.
  induction k as [|k IH]; intros fuel n H; destruct fuel as [|fuel]; cbn [dec_from]; try (cbn; lia).
  - destruct (n <? 10) eqn:E; [cbn; lia|cbn in H; lia].
  - destruct (n <? 10) eqn:E; [cbn; lia|]. rewrite len_app_s. cbn [String.length].
    assert (String.length (dec_from fuel (n / 10)) <= S k)%nat; [|lia]. apply IH.
    rewrite Nat2Z.inj_succ, Z.pow_succ_r in H by lia. split; [apply Z.div_pos; lia|apply Z.div_lt_upper_bound; lia].
Qed.
Lemma dec_abs_length k n : 0 <= n < 10 ^ Z.of_nat (S k) -> (String.length (dec_abs n) <= S k)%nat.
Proof. apply dec_from_length. Qed.
Lemma dec_length z : long_range z -> (String.length (dec z) <= 20)%nat.
Proof.
  unfold long_range, dec. intros H. destruct (z <? 0) eqn:E.
  - cbn [append String.length]. enough (String.length (dec_abs (- z)) <= 19)%nat by lia. apply (dec_abs_length 18).
    change (10 ^ Z.of_nat 19) with 10000000000000000000. lia.
  - enough (String.length (dec_abs z) <= 19)%nat by lia. apply (dec_abs_length 18). change (10 ^ Z.of_nat 19) with 10000000000000000000. lia.
Qed.
Lemma dec_free c z : digit c = None -> c <> "-"%char -> no_char c (dec z) = true.
Proof.
  intros D N. unfold dec. destruct (z <? 0) eqn:E; [|exact (numeral_nochar c _ z D (dec_abs_numeral z ltac:(lia)))].
  cbn [append no_char]. rewrite (numeral_nochar c _ (- z) D (dec_abs_numeral (- z) ltac:(lia))).
  rewrite (proj2 (Ascii.eqb_neq "-" c)) by congruence. reflexivity.
Qed.
Lemma saturate_id z : long_range z -> saturate z = z.
Proof. unfold long_range, saturate, LONG_MIN, LONG_MAX. lia. Qed.
Lemma read_dec z rest : long_range z -> stops rest -> fst (strtol (dec z ++ rest)) = z /\ strtol_erange (dec z ++ rest) = false /\ atol (dec z ++ rest) = z.
Proof.
  intros R S. pose proof (strtol_int 0 (dec z) z rest (dec_int z) S) as A. pose proof (erange_int 0 (dec z) z rest (dec_int z) S) as B. cbn [blanks append] in A, B.
  unfold atol. rewrite A, B, saturate_id by exact R. unfold long_range, LONG_MIN, LONG_MAX in *. repeat split; lia.
Qed.

Lemma pad_length : forall k n, String.length (pad k n) = k.
Proof. induction k as [|k IH]; intros n; [reflexivity|]. cbn [pad]. rewrite len_app_s, IH. cbn. lia. Qed.
Lemma pad_digits : forall k n acc rest, 0 <= n < 10 ^ Z.of_nat k -> digits acc (pad k n ++ rest) = digits (acc * 10 ^ Z.of_nat k + n) rest.
Proof.
  induction k as [|k IH]; intros n acc rest H.
  - cbn in H. cbn [pad append Z.of_nat Z.pow]. f_equal. lia.
  - rewrite Nat2Z.inj_succ, Z.pow_succ_r in * by lia. cbn [pad]. rewrite app_assoc_s, IH by (split; [apply Z.div_pos; lia|apply Z.div_lt_upper_bound; lia]).
    destruct (chr_digit (n mod 10)) as (j & K & -> & D); [pose proof (Z.mod_pos_bound n 10); lia|]. cbn [append digits]. rewrite digit_char by exact K. f_equal. rewrite D.
    pose proof (Z.div_mod n 10 ltac:(lia)). lia.
Qed.
Lemma nearest_close x : (Qabs (inject_Z (nearest x) - x) <= 1 # 2)%Q.
Proof.
  unfold nearest. pose proof (floor_bounds x) as [A B]. set (f := Qfloor x) in *. apply Qabs_Qle_condition.
  destruct (qlt (x - inject_Z f) (1 # 2)) eqn:E; [apply qlt_t in E; split; lra|apply qlt_f in E].
  destruct (qlt (1 # 2) (x - inject_Z f)) eqn:G; [apply qlt_t in G; rewrite inject_Z_plus; change (inject_Z 1) with 1%Q; split; lra|apply qlt_f in G].
  destruct (Z.even f); [|rewrite inject_Z_plus; change (inject_Z 1) with 1%Q]; split; lra.
Qed.
Lemma nearest_nonneg x : (0 <= x)%Q -> 0 <= nearest x.
Proof. intros H. assert (0 <= Qfloor x) by (apply floor_ge; exact H). unfold nearest. repeat destruct (qlt _ _); try destruct (Z.even _); lia. Qed.
Lemma udec_fixed i f : 0 <= i -> 0 <= f < 1000000 -> (udec (dec_abs i ++ "." ++ pad 6 f ++ nl) == inject_Z (i * 1000000 + f) / 1000000)%Q.
Proof.
  intros I F. unfold udec. destruct (numeral_digs _ _ (dec_abs_numeral i I)) as (l & D & _ & L).
  rewrite (digits_rest (dec_abs i) 0 l ("." ++ pad 6 f ++ nl)%string D) by reflexivity. rewrite <- L. cbn [append].
  rewrite (pad_digits 6 f 0 nl) by (cbn; lia). replace (0 * 10 ^ Z.of_nat 6 + f) with f by lia. change (digits f nl) with (f, nl).
  rewrite len_app_s, pad_length. change (6 + String.length nl - String.length nl)%nat with 6%nat. change (10 ^ Z.of_nat 6) with 1000000.
  rewrite inject_Z_plus, inject_Z_mult. change (inject_Z 1000000) with 1000000%Q. field.
Qed.
Lemma strtod_digit c s d : digit c = Some d -> strtod (String c s) = udec (String c s).
Proof.
  intros D. unfold strtod. assert (is_space c = false) as SP by (destruct (digit_inv c d D) as (n & Hn & -> & _); do 10 (destruct n as [|n]; [reflexivity|]); lia).
  cbn [skip_space]. rewrite SP. destruct c as [[] [] [] [] [] [] [] []]; try reflexivity; discriminate D.
Qed.
Lemma strtod_fixed x : (Qabs (strtod (fixed6 x ++ nl) - x) <= 1 # 2000000)%Q.
Proof.
  unfold fixed6. set (n := nearest (Qabs x * 1000000)).
  assert (N0 : 0 <= n) by (apply nearest_nonneg; pose proof (Qabs_nonneg x); lra).
  assert (C : (Qabs (inject_Z n - Qabs x * 1000000) <= 1 # 2)%Q) by apply nearest_close.
  assert (U : (udec (dec_abs (n / 1000000) ++ "." ++ pad 6 (n mod 1000000) ++ nl) == inject_Z n / 1000000)%Q).
  { rewrite udec_fixed by (try (apply Z.div_pos; lia); apply Z.mod_pos_bound; lia).
    replace (n / 1000000 * 1000000 + n mod 1000000) with n by (pose proof (Z.div_mod n 1000000); lia). reflexivity. }
  apply Qabs_Qle_condition in C. apply Qabs_Qle_condition. destruct (qlt x 0) eqn:E.
  - apply qlt_t in E. assert (A : (Qabs x == - x)%Q) by (apply Qabs_neg; lra). rewrite !app_assoc_s. unfold strtod. cbn [append skip_space].
    change (is_space "-") with false. cbn match. cbn [append] in U. rewrite U, A in *. set (m := inject_Z n) in *. change (m / 1000000)%Q with (m * (1 # 1000000))%Q. split; lra.
  - apply qlt_f in E. assert (A : (Qabs x == x)%Q) by (apply Qabs_pos; lra). rewrite !app_assoc_s.
    destruct (numeral_head _ _ (dec_abs_numeral (n / 1000000) ltac:(apply Z.div_pos; lia))) as (c & r & d & EQ & D).
    change ("" ++ ?t)%string with t. rewrite EQ in *. cbn [append] in *. rewrite (strtod_digit c _ d D), U, A in *.
    set (m := inject_Z n) in *. change (m / 1000000)%Q with (m * (1 # 1000000))%Q. split; lra.
Qed.
Lemma nearest_upper x : nearest x <= Qfloor x + 1.
Proof. unfold nearest. repeat destruct (qlt _ _); try destruct (Z.even _); lia. Qed.
Lemma fixed6_length x : (Qabs x < 1000000000)%Q -> (String.length (fixed6 x) <= 20)%nat.
Proof.
  intros H. unfold fixed6. set (n := nearest (Qabs x * 1000000)).
  assert (N0 : 0 <= n) by (apply nearest_nonneg; pose proof (Qabs_nonneg x); lra).
  assert (N1 : n < 10000000000000000).
  { pose proof (nearest_upper (Qabs x * 1000000)) as U. assert (Qfloor (Qabs x * 1000000) < 1000000000000000) by (apply floor_lt; change (inject_Z 1000000000000000) with 1000000000000000%Q; lra).
    unfold n. lia. }
  rewrite !len_app_s, pad_length. assert (String.length (dec_abs (n / 1000000)) <= 10)%nat.
  { apply (dec_abs_length 9). change (10 ^ Z.of_nat 10) with 10000000000. split; [apply Z.div_pos; lia|apply Z.div_lt_upper_bound; lia]. }
  cbn [String.length append]. destruct (qlt x 0); cbn [String.length]; lia.
Qed.

(** * Lines *)
Definition good (l : string) : Prop := ends_nl l = true /\ (String.length l < 256)%nat.
Definition plain_line (l : string) : Prop := good l /\ hashes l = false.
Lemma ends_nl_app : forall s, ends_nl (s ++ nl) = true.
Proof. induction s as [|c s IH]; [reflexivity|]. cbn [append ends_nl]. destruct (s ++ nl)%string eqn:E; [destruct s; discriminate|]. exact IH. Qed.
Lemma ends_nl_app2 s : ends_nl (s ++ " " ++ nl) = true.
Proof. change (" " ++ nl)%string with ((" " ++ nl))%string. rewrite <- app_assoc_s. apply ends_nl_app. Qed.
Lemma drop_last_app : forall s c, drop_last (s ++ String c "") = Some s.
Proof. induction s as [|x s IH]; intros c; [reflexivity|]. cbn [append drop_last]. destruct (s ++ String c "")%string eqn:E; [destruct s; discriminate|]. rewrite <- E, IH. reflexivity. Qed.
Lemma fgets_line num l r : ends_nl l = true -> (String.length l < num)%nat -> fgets_n num (mkStream (l :: r) false) = (Some l, mkStream r false).
Proof. intros E L. unfold fgets_n. cbn [lines eof]. rewrite (proj2 (Nat.ltb_lt _ _) L), E. reflexivity. Qed.
Lemma fgets_good l r : good l -> fgets_n 256 (mkStream (l :: r) false) = (Some l, mkStream r false).
Proof. intros [E L]. apply fgets_line; assumption. Qed.
Lemma fgets_end num : fgets_n num (mkStream [] false) = (None, mkStream [] true).
Proof. reflexivity. Qed.
Lemma meas_cons l r e : measure (mkStream (l :: r) e) = S (String.length l + measure (mkStream r e)).
Proof. reflexivity. Qed.
Lemma meas_app a b e : measure (mkStream (a ++ b) e) = (measure (mkStream a e) + measure (mkStream b e))%nat.
Proof. induction a as [|l a IH]; [reflexivity|]. rewrite <- app_comm_cons, !meas_cons, IH. lia. Qed.
Lemma meas_length ls e : (length ls <= measure (mkStream ls e))%nat.
Proof. induction ls as [|l ls IH]; [cbn; lia|]. rewrite meas_cons. cbn [length]. lia. Qed.
Lemma firstn_over {A} (a b : list A) h k : (length a < k)%nat -> firstn k (a ++ h :: b) = a ++ h :: firstn (k - length a - 1) b.
Proof.
  intros H. rewrite firstn_app. rewrite firstn_all2 by lia. replace (k - length a)%nat with (S (k - length a - 1)) at 1 by lia. reflexivity.
Qed.
Lemma firstn_under {A} (a b : list A) k : (k <= length a)%nat -> firstn k (a ++ b) = firstn k a.
Proof. intros H. rewrite firstn_app. replace (k - length a)%nat with 0%nat by lia. cbn [firstn]. apply app_nil_r. Qed.
Lemma firstn_past {A} (a b : list A) k : (length a <= k)%nat -> firstn k (a ++ b) = a ++ firstn (k - length a) b.
Proof. intros H. rewrite firstn_app, firstn_all2 by lia. reflexivity. Qed.
Lemma forall_firstn {A} (P : A -> Prop) l k : Forall P l -> Forall P (firstn k l).
Proof. intros H. rewrite <- (firstn_skipn k l), Forall_app in H. apply H. Qed.

Lemma header_hit : forall junk fuel h r, Forall plain_line junk -> good h -> hashes h = true -> (length junk < fuel)%nat ->
  to_header fuel (mkStream (junk ++ h :: r) false) = Ret (Some (mkStream r false)).
Proof.
  induction junk as [|l junk IH]; intros fuel h r F G H L; destruct fuel as [|fuel]; try (cbn in L; lia); cbn [app to_header].
  - rewrite fgets_good by exact G. rewrite H. reflexivity.
  - inversion F as [|? ? [Gl Hl] F']; subst. rewrite fgets_good by exact Gl. rewrite Hl. apply IH; try assumption. cbn in L. lia.
Qed.
Lemma header_miss : forall junk fuel, Forall plain_line junk -> (length junk < fuel)%nat -> to_header fuel (mkStream junk false) = Ret None.
Proof.
  induction junk as [|l junk IH]; intros fuel F L; destruct fuel as [|fuel]; try (cbn in L; lia); cbn [to_header].
  - reflexivity.
  - inversion F as [|? ? [Gl Hl] F']; subst. rewrite fgets_good by exact Gl. rewrite Hl. apply IH; try assumption. cbn in L. lia.
Qed.

(** * Storage *)
Lemma put_length {A} (l : list A) i x : (i < length l)%nat -> length (put l i x) = length l.
Proof. intros H. unfold put. rewrite app_length, firstn_length. cbn [length]. rewrite skipn_length. lia. Qed.
Lemma put_overlay {A} (x y : list A) j z : nth_error x j = Some z -> (j < length y)%nat -> put (firstn j x ++ skipn j y) j z = firstn (S j) x ++ skipn (S j) y.
Proof.
  intros N L. assert (LX : (j < length x)%nat) by (apply nth_error_Some; congruence). unfold put.
  assert (E : firstn (S j) x = firstn j x ++ [z]).
  { clear -N. revert x N. induction j as [|j IH]; intros [|a x] N; try discriminate; cbn in N; [injection N as ->; reflexivity|].
    rewrite firstn_cons. rewrite (IH x N). reflexivity. }
  rewrite E, <- app_assoc. cbn [app].
  rewrite firstn_app, firstn_firstn, Nat.min_id, firstn_length, Nat.min_l, Nat.sub_diag by lia. rewrite firstn_O, app_nil_r. f_equal. f_equal.
  rewrite skipn_app, firstn_length, Nat.min_l by lia. replace (S j - j)%nat with 1%nat by lia.
  rewrite (skipn_all2 (firstn j x)) by (rewrite firstn_length; lia). cbn [app].
  clear -L. revert y L. induction j as [|j IH]; intros [|a y] L; cbn in L; try lia; [reflexivity|]. cbn [skipn]. apply IH. lia.
Qed.
Lemma overlay_0 {V} (a b : @mem V) : overlay 0 a b = b.
Proof. destruct a, b; reflexivity. Qed.

Section Ckpt.
Context {V : Type}.
Variable show : Z -> V -> string.
Variable atof : Z -> string -> V.
Hypothesis printer : printer_ok show atof.

Lemma no_hash_dec z rest : hashes (dec z ++ rest) = false.
Proof.
  unfold hashes, dec. destruct (z <? 0) eqn:E; [reflexivity|].
  destruct (numeral_head _ _ (dec_abs_numeral z ltac:(lia))) as (c & r & d & -> & D). cbn [append prefix].
  destruct (ascii_dec "#" c) as [<-|]; [discriminate D|reflexivity].
Qed.
Lemma number_line_ok z : long_range z -> plain_line (dec z ++ " " ++ nl).
Proof.
  intros R. split; [split; [apply ends_nl_app2|]|apply no_hash_dec]. rewrite len_app_s. pose proof (dec_length z R). cbn. lia.
Qed.
Lemma long_of_words lo hi : int_range lo -> int_range hi ->
  long_range (lo mod 4294967296 + 4294967296 * hi) /\ signed32 (lo mod 4294967296 + 4294967296 * hi) = lo /\ (lo mod 4294967296 + 4294967296 * hi) / 4294967296 = hi.
Proof.
  unfold int_range, long_range, signed32. intros A B. pose proof (Z.mod_pos_bound lo 4294967296 ltac:(lia)) as M. split; [lia|]. split.
  - replace (lo mod 4294967296 + 4294967296 * hi + 2147483648) with (lo mod 4294967296 + 2147483648 + hi * 4294967296) by lia.
    rewrite Z.mod_add by lia. rewrite Z.add_mod_idemp_l by lia. rewrite Z.mod_small by lia. lia.
  - replace (lo mod 4294967296 + 4294967296 * hi) with (lo mod 4294967296 + hi * 4294967296) by lia. rewrite Z.div_add, Z.div_small by lia. lia.
Qed.
Lemma element (v w : @var V) j : storage_ok v -> same_storage v w -> (Z.of_nat j < v_size v) ->
  exists l, value_line show (v_type v) (v_mem v) j = Ret l /\ plain_line l /\
            store_line atof (v_type v) (overlay j (v_mem v) (v_mem w)) j l = Ret (overlay (S j) (v_mem v) (v_mem w)).
Proof.
  unfold storage_ok, same_storage, value_line, store_line. destruct (v_mem v) as [x|x|x]; destruct (v_mem w) as [y|y|y]; try contradiction.
  - intros (T & LX & F) LY J. rewrite T. cbn [Z.eqb]. change (1 =? 1) with true. cbn match. cbn [peek_long].
    destruct (nth_error x j) as [z|] eqn:N; [|apply nth_error_None in N; lia]. cbn [bind].
    assert (R : long_range z) by (rewrite Forall_forall in F; apply F; eapply nth_error_In; exact N).
    eexists. split; [reflexivity|]. split; [apply number_line_ok; exact R|]. cbn [overlay poke_long].
    rewrite (proj2 (proj2 (read_dec z (" " ++ nl) R eq_refl))).
    rewrite app_length, firstn_length, skipn_length, Nat.min_l by lia. rewrite (proj2 (Nat.ltb_lt _ _)) by lia. rewrite put_overlay by (try exact N; lia). reflexivity.
  - intros (T & LX & F) LY J. rewrite T. change (1 =? 1) with true. cbn match. cbn [peek_long].
    destruct (nth_error x (2 * j)) as [lo|] eqn:N; [|apply nth_error_None in N; lia].
    destruct (nth_error x (2 * j + 1)) as [hi|] eqn:N2; [|apply nth_error_None in N2; lia]. cbn [bind].
    assert (RL : int_range lo) by (rewrite Forall_forall in F; apply F; eapply nth_error_In; exact N).
    assert (RH : int_range hi) by (rewrite Forall_forall in F; apply F; eapply nth_error_In; exact N2).
    destruct (long_of_words lo hi RL RH) as (R & S1 & S2).
    eexists. split; [reflexivity|]. split; [apply number_line_ok; exact R|]. cbn [overlay poke_long].
    rewrite (proj2 (proj2 (read_dec _ (" " ++ nl) R eq_refl))). rewrite S1, S2.
    rewrite app_length, firstn_length, skipn_length, Nat.min_l by lia. rewrite (proj2 (Nat.ltb_lt _ _)) by lia.
    rewrite put_overlay by (try exact N; lia). replace (2 * j + 1)%nat with (S (2 * j)) in * by lia. rewrite put_overlay by (try exact N2; lia).
    replace (2 * S j)%nat with (S (S (2 * j))) by lia. reflexivity.
  - intros (T & LX) LY J. assert (E : (v_type v =? 1) = false) by lia. rewrite E. cbn [peek_real].
    destruct (nth_error x j) as [z|] eqn:N; [|apply nth_error_None in N; lia]. cbn [bind].
    destruct (printer (v_type v) z) as (P1 & P2 & P3 & P4). change newline with nl in *.
    eexists. split; [reflexivity|]. split; [split; [split; [apply ends_nl_app2|]|exact P3]|].
    { rewrite len_app_s. cbn. lia. }
    rewrite P4. cbn [overlay poke_real]. rewrite app_length, firstn_length, skipn_length, Nat.min_l by lia. rewrite (proj2 (Nat.ltb_lt _ _)) by lia.
    rewrite put_overlay by (try exact N; lia). reflexivity.
Qed.
Lemma same_storage_refl v : storage_ok v -> @same_storage V v v.
Proof. unfold storage_ok, same_storage. destruct (v_mem v); intros H; apply H. Qed.
Lemma values_saved (v : @var V) : storage_ok v -> forall n j, Z.of_nat (j + n) <= v_size v ->
  exists ls, value_lines show (v_type v) (v_mem v) n j = Ret ls /\ length ls = n /\ Forall plain_line ls /\
    forall w, same_storage v w -> forall k rest, exists f',
      read_values atof (v_type v) n j (overlay j (v_mem v) (v_mem w)) (mkStream (firstn k (ls ++ rest)) false)
        = Ret (Nat.leb n k, overlay (j + Nat.min k n) (v_mem v) (v_mem w), f') /\
      ((n <= k)%nat -> f' = mkStream (firstn (k - n) rest) false).
Proof.
  intros SV. induction n as [|n IH]; intros j J.
  - exists []. repeat split; [constructor|]. intros w SW k rest. cbn [read_values app]. rewrite Nat.min_0_r, Nat.add_0_r. eexists. split; [reflexivity|]. intros _. rewrite Nat.sub_0_r. reflexivity.
  - destruct (IH (S j) ltac:(lia)) as (ls & A & B & C & D).
    destruct (element v v j SV (same_storage_refl v SV) ltac:(lia)) as (l & E1 & E2 & _). exists (l :: ls).
    cbn [value_lines]. rewrite E1. cbn [bind]. rewrite A. cbn [bind]. repeat split; [cbn; lia|constructor; assumption|].
    intros w SW k rest. destruct (element v w j SV SW ltac:(lia)) as (l' & E1' & _ & E3). rewrite E1 in E1'. injection E1' as <-.
    destruct k as [|k]; cbn [firstn app read_values].
    + rewrite fgets_end. rewrite Nat.add_0_r. eexists. split; [reflexivity|lia].
    + rewrite fgets_good by apply E2. rewrite E3. cbn [bind]. destruct (D w SW k rest) as (f' & F1 & F2). exists f'.
      rewrite F1. cbn [Nat.leb]. split; [replace (j + Nat.min (S k) (S n))%nat with (S j + Nat.min k n)%nat by lia; reflexivity|]. intros L. cbn [Nat.sub]. apply F2. lia.
Qed.
Lemma nl_len : String.length nl = 1%nat. Proof. reflexivity. Qed.
Lemma names_read (ds ns : list string) : Forall (fun d => name_ok d) ns -> forall i k rest, (forall a d, nth_error ns a = Some d -> d <> "PRIVATE" -> nth_error ds (i + a) = Some d) ->
  exists f', read_names (length ns) i ds (mkStream (firstn k (map (fun d => (d ++ nl)%string) ns ++ rest)) false) = Ret (Nat.leb (length ns) k, f') /\
    ((length ns <= k)%nat -> f' = mkStream (firstn (k - length ns) rest) false).
Proof.
  induction 1 as [|d ns [N1 N2] F IH]; intros i k rest A.
  - cbn [length read_names map app]. eexists. split; [reflexivity|]. intros _. rewrite Nat.sub_0_r. reflexivity.
  - cbn [length map app read_names]. destruct k as [|k]; cbn [firstn].
    + rewrite fgets_end. eexists. split; [reflexivity|lia].
    + rewrite fgets_line by (try apply ends_nl_app; rewrite len_app_s, nl_len; lia). unfold nl at 1. rewrite drop_last_app.
      destruct (IH (S i) k rest) as (f' & F1 & F2). { intros a x H P. replace (S i + a)%nat with (i + S a)%nat by lia. apply A; assumption. }
      exists f'. split; [|intros L; cbn [Nat.sub]; apply F2; lia]. cbn [Nat.leb].
      destruct (String.eqb d "PRIVATE") eqn:E; [exact F1|]. apply String.eqb_neq in E.
      pose proof (A 0%nat d eq_refl E) as X. rewrite Nat.add_0_r in X. rewrite X, String.eqb_refl. exact F1.
Qed.

Lemma small_long n : 0 <= n <= 9223372036854775807 -> long_range n.
Proof. unfold long_range. lia. Qed.
Lemma name_plain d : name_ok d -> prefix "####" d = false -> plain_line (d ++ nl).
Proof.
  intros [A B] H. split; [split; [apply ends_nl_app|rewrite len_app_s, nl_len; lia]|]. unfold hashes, nl.
  rewrite prefix_sep by reflexivity. exact H.
Qed.
Definition dim_lines (v : @var V) : list string :=
  if v_private v then [("1" ++ nl)%string; ("PRIVATE" ++ nl)%string]
  else (dec (Z.of_nat (length (v_dims v))) ++ " " ++ nl)%string :: map (fun d => (d ++ nl)%string) (v_dims v).
Lemma known_3 ty : ty = 1 \/ ty = 2 \/ ty = 3 -> (ty =? 1) || (ty =? 2) || (ty =? 3) = true.
Proof. lia. Qed.
Lemma storage_type (v : @var V) : storage_ok v -> v_type v = 1 \/ v_type v = 2 \/ v_type v = 3.
Proof. unfold storage_ok. destruct (v_mem v); intuition. Qed.
Lemma block (v : @var V) : variable_ok v ->
  exists body, save_var show v = Ret (("####" ++ nl)%string :: (v_key v ++ nl)%string :: body) /\ Forall plain_line body /\
    forall w, same_declaration v w -> forall k rest, exists w' f' n,
      read_var atof w (mkStream (firstn k (body ++ rest)) false) = Ret (w', Nat.leb (length body) k, f') /\
      (n <= Z.to_nat (v_size w))%nat /\ taken n v w w' /\
      ((length body <= k)%nat -> n = Z.to_nat (v_size w) /\ f' = mkStream (firstn (k - length body) rest) false).
Proof.
  intros (K & SZ & SV & PUB).
  destruct (values_saved v SV (Z.to_nat (v_size v)) 0 ltac:(lia)) as (vs & V1 & V2 & V3 & V4).
  exists (dim_lines v ++ (dec (v_size v) ++ " " ++ nl)%string :: (dec (v_type v) ++ " " ++ nl)%string :: vs).
  pose proof (storage_type v SV) as TY.
  assert (RT : long_range (v_type v)) by (unfold long_range; lia).
  assert (RS : long_range (v_size v)) by (apply small_long; exact SZ).
  split.
  { unfold save_var, save_values, dim_lines. rewrite (known_3 _ TY), V1. destruct (v_private v); [reflexivity|].
    destruct (PUB eq_refl) as (A & B & C). rewrite A, Z.ltb_irrefl, Nat2Z.id, firstn_all. reflexivity. }
  split.
  { apply Forall_app. split.
    - unfold dim_lines. destruct (v_private v); [repeat constructor; cbn; lia|]. destruct (PUB eq_refl) as (A & B & C).
      constructor; [apply number_line_ok; unfold long_range; lia|]. apply Forall_map. eapply Forall_impl; [|exact C]. intros d [X Y]. apply name_plain; assumption.
    - repeat (constructor; [apply number_line_ok; assumption|]). exact V3. }
  intros w (D1 & D2 & D3 & D4 & D5 & D6) k rest.
  assert (HN : exists first names, dim_lines v = first :: map (fun d => (d ++ nl)%string) names /\ good first /\ atol first = Z.of_nat (length names) /\ (1 <= length names)%nat /\
     Forall (fun d => name_ok d) names /\ (v_private w = false -> Z.of_nat (length names) = v_ndimen w) /\
     (forall a d, nth_error names a = Some d -> d <> "PRIVATE" -> nth_error (v_dims w) a = Some d)).
  { unfold dim_lines. rewrite <- D4. destruct (v_private v) eqn:P.
    - exists ("1" ++ nl)%string, ["PRIVATE"]. split; [reflexivity|]. split; [split; [reflexivity|cbn; lia]|]. split; [reflexivity|]. split; [cbn; lia|].
      split; [constructor; [split; [apply free_nochar; reflexivity|cbn; lia]|constructor]|]. split; [discriminate|].
      intros [|[|a]] d H N; cbn in H; congruence.
    - destruct (PUB eq_refl) as (A & B & C). destruct (D6 eq_refl) as (E & G).
      exists (dec (Z.of_nat (length (v_dims v))) ++ " " ++ nl)%string, (v_dims v).
      assert (R : long_range (Z.of_nat (length (v_dims v)))) by (unfold long_range; lia).
      split; [reflexivity|]. split; [apply number_line_ok; exact R|]. split; [apply (proj2 (proj2 (read_dec _ (" " ++ nl) R eq_refl)))|]. split; [lia|].
      split; [eapply Forall_impl; [|exact C]; intros ? [? _]; assumption|]. split; [intros _; congruence|]. rewrite <- G. intros a d H _. exact H. }
  destruct HN as (first & names & EQ & GF & AF & LN & FN & PN & NN). rewrite EQ. clear EQ.
  set (sz := (dec (v_size v) ++ " " ++ nl)%string). set (tl := (dec (v_type v) ++ " " ++ nl)%string).
  assert (LB : length ((first :: map (fun d => (d ++ nl)%string) names) ++ sz :: tl :: vs) = (3 + length names + length vs)%nat)
    by (rewrite app_length, <- Nat.add_1_l; cbn [length]; rewrite map_length; lia).
  rewrite LB.
  assert (SZR : good sz /\ fst (strtol sz) = v_size v /\ strtol_erange sz = false).
  { split; [apply number_line_ok; exact RS|]. split; apply (read_dec (v_size v) (" " ++ nl) RS eq_refl). }
  assert (TLR : good tl /\ atol tl = v_type v).
  { split; [apply number_line_ok; exact RT|apply (read_dec (v_type v) (" " ++ nl) RT eq_refl)]. }
  clearbody sz tl.
  assert (KEEP : forall n', (v_private w = false -> n' = v_ndimen w) -> taken 0 v w (set_ndimen w n')).
  { intros n' H. unfold taken, set_ndimen. cbn [v_key v_dims v_size v_type v_private v_ndimen v_mem]. rewrite overlay_0. repeat split. exact H. }
  unfold read_var. destruct k as [|k]; cbn [firstn app].
  { rewrite fgets_end. exists w. eexists. exists 0%nat. split; [reflexivity|]. split; [lia|]. split; [|lia].
    unfold taken. rewrite overlay_0. repeat split. }
  rewrite fgets_good by exact GF. cbn zeta. cbn [v_ndimen set_ndimen]. rewrite AF.
  rewrite (proj2 (Z.eqb_neq (Z.of_nat (length names)) 0)) by lia. rewrite Nat2Z.id.
  set (w1 := set_ndimen w (Z.of_nat (length names))). change (v_dims w1) with (v_dims w). rewrite <- app_assoc.
  destruct (names_read (v_dims w) names FN 0 k ((sz :: tl :: vs) ++ rest) NN) as (f1 & N1 & N2). rewrite N1. cbn [bind]. clear N1.
  assert (K1 : taken 0 v w w1) by (apply (KEEP (Z.of_nat (length names))); exact PN).
  destruct (Nat.leb (length names) k) eqn:L1; [apply Nat.leb_le in L1|apply Nat.leb_gt in L1].
  2:{ exists w1, f1, 0%nat. rewrite (proj2 (Nat.leb_gt _ _)) by lia. split; [reflexivity|]. split; [lia|]. split; [exact K1|lia]. }
  rewrite (N2 L1). clear N2 f1. destruct (k - length names)%nat as [|m] eqn:M1; cbn [firstn app].
  { rewrite fgets_end. exists w1. eexists. exists 0%nat. rewrite (proj2 (Nat.leb_gt _ _)) by lia. split; [reflexivity|]. split; [lia|]. split; [exact K1|lia]. }
  destruct SZR as (S1 & S2 & S3). rewrite fgets_good by exact S1. cbn zeta. rewrite S3, S2. 
  change (v_size w1) with (v_size w). rewrite D2, Z.eqb_refl. cbn [negb].
  destruct m as [|m]; cbn [firstn].
  { rewrite fgets_end. exists w1. eexists. exists 0%nat. rewrite (proj2 (Nat.leb_gt _ _)) by lia. split; [reflexivity|]. split; [lia|]. split; [exact K1|lia]. }
  destruct TLR as (T1 & T2). rewrite fgets_good by exact T1. cbn zeta. rewrite T2. change (v_type w1) with (v_type w). rewrite <- D3, Z.eqb_refl.
  rewrite (proj2 (Z.eqb_neq (v_type v) 0)) by lia. cbn [negb]. rewrite (known_3 _ TY). change (v_mem w1) with (v_mem w).
  destruct (V4 w D5 m rest) as (f' & F1 & F2). rewrite overlay_0, D2 in F1. rewrite F1. cbn [bind].
  exists (set_mem w1 (overlay (0 + Nat.min m (Z.to_nat (v_size w))) (v_mem v) (v_mem w))), f', (Nat.min m (Z.to_nat (v_size w))).
  rewrite D2 in V2, F2. split.
  { f_equal. f_equal. f_equal. rewrite V2. destruct (Nat.leb (Z.to_nat (v_size w)) m) eqn:X; symmetry; [apply Nat.leb_le in X; apply Nat.leb_le|apply Nat.leb_gt in X; apply Nat.leb_gt]; lia. }
  split; [lia|]. split.
  { destruct K1 as (Q1 & Q2 & Q3 & Q4 & Q5 & Q6 & Q7). unfold taken. repeat split; assumption. }
  intros L. split; [lia|]. rewrite F2 by lia. do 2 f_equal. lia.
Qed.

Lemma names_of (v w : @var V) : variable_ok v -> v_private v = v_private w -> (v_private v = false -> v_ndimen v = v_ndimen w /\ v_dims v = v_dims w) ->
  exists first names, dim_lines v = first :: map (fun d => (d ++ nl)%string) names /\ good first /\ atol first = Z.of_nat (length names) /\ (1 <= length names)%nat /\
     Forall (fun d => name_ok d) names /\ (forall a d, nth_error names a = Some d -> d <> "PRIVATE" -> nth_error (v_dims w) a = Some d).
Proof.
  intros (K & SZ & SV & PUB) D4 D6. unfold dim_lines. destruct (v_private v) eqn:P.
  - exists ("1" ++ nl)%string, ["PRIVATE"]. split; [reflexivity|]. split; [split; [reflexivity|cbn; lia]|]. split; [reflexivity|]. split; [cbn; lia|].
    split; [constructor; [split; [apply free_nochar; reflexivity|cbn; lia]|constructor]|]. intros [|[|a]] d H N; cbn in H; congruence.
  - destruct (PUB eq_refl) as (A & B & C). destruct (D6 eq_refl) as (E & G).
    exists (dec (Z.of_nat (length (v_dims v))) ++ " " ++ nl)%string, (v_dims v).
    assert (R : long_range (Z.of_nat (length (v_dims v)))) by (unfold long_range; lia).
    split; [reflexivity|]. split; [apply number_line_ok; exact R|]. split; [apply (proj2 (proj2 (read_dec _ (" " ++ nl) R eq_refl)))|]. split; [lia|].
    split; [eapply Forall_impl; [|exact C]; intros ? [? _]; assumption|]. rewrite <- G. intros a d H _. exact H.
Qed.
Lemma block_differs (v w : @var V) rest : variable_ok v -> v_private v = v_private w -> (v_private v = false -> v_ndimen v = v_ndimen w /\ v_dims v = v_dims w) ->
  v_size v <> v_size w \/ v_type v <> v_type w ->
  exists body, save_var show v = Ret (("####" ++ nl)%string :: (v_key v ++ nl)%string :: body) /\
    exists w' f, read_var atof w (mkStream (body ++ rest) false) = Ret (w', false, f) /\ v_mem w' = v_mem w.
Proof.
  intros OK D4 D6 DF. destruct (names_of v w OK D4 D6) as (first & names & EQ & GF & AF & LN & FN & NN). destruct OK as (K & SZ & SV & PUB).
  destruct (values_saved v SV (Z.to_nat (v_size v)) 0 ltac:(lia)) as (vs & V1 & V2 & V3 & V4).
  exists (dim_lines v ++ (dec (v_size v) ++ " " ++ nl)%string :: (dec (v_type v) ++ " " ++ nl)%string :: vs).
  pose proof (storage_type v SV) as TY.
  assert (RT : long_range (v_type v)) by (unfold long_range; lia).
  assert (RS : long_range (v_size v)) by (apply small_long; exact SZ).
  split.
  { unfold save_var, save_values, dim_lines. rewrite (known_3 _ TY), V1. destruct (v_private v); [reflexivity|].
    destruct (PUB eq_refl) as (A & B & C). rewrite A, Z.ltb_irrefl, Nat2Z.id, firstn_all. reflexivity. }
  rewrite EQ. cbn [app]. unfold read_var. rewrite fgets_good by exact GF. cbn zeta. cbn [v_ndimen set_ndimen]. rewrite AF.
  rewrite (proj2 (Z.eqb_neq (Z.of_nat (length names)) 0)) by lia. rewrite Nat2Z.id.
  set (w1 := set_ndimen w (Z.of_nat (length names))). change (v_dims w1) with (v_dims w). rewrite <- app_assoc. cbn [app].
  set (tail := _ :: _ :: vs ++ rest).
  destruct (names_read (v_dims w) names FN 0 (length names + length tail)%nat tail NN) as (f1 & N1 & N2).
  rewrite firstn_all2 in N1 by (rewrite app_length, map_length; lia). rewrite N1. cbn [bind].
  rewrite (proj2 (Nat.leb_le (length names) (length names + length tail))) by lia. rewrite N2 by lia.
  rewrite firstn_all2 by lia. unfold tail. rewrite fgets_good by (apply number_line_ok; exact RS).
  destruct (read_dec (v_size v) (" " ++ nl) RS eq_refl) as (S1 & S2 & S3). cbn zeta. rewrite S1, S2. change (v_size w1) with (v_size w).
  destruct (v_size v =? v_size w) eqn:ES; cbn [negb]; [|eexists; eexists; split; reflexivity].
  rewrite fgets_good by (apply number_line_ok; exact RT). destruct (read_dec (v_type v) (" " ++ nl) RT eq_refl) as (T1 & T2 & T3). cbn zeta. rewrite T3.
  destruct (v_type v =? 0); [eexists; eexists; split; reflexivity|]. change (v_type w1) with (v_type w).
  destruct (v_type v =? v_type w) eqn:ET; cbn [negb]; [lia|eexists; eexists; split; reflexivity].
Qed.

(** * All variables *)
Lemma lookup_split (vs : list (@var V)) k w : lookup vs k = Some w -> exists a b, vs = a ++ w :: b /\ v_key w = k /\ Forall (fun x => v_key x <> k) a /\
  forall w', v_key w' = k -> update vs w' = a ++ w' :: b.
Proof.
  unfold lookup. induction vs as [|x vs IH]; [discriminate|]. cbn [find]. destruct (String.eqb (v_key x) k) eqn:E.
  - intros H. injection H as ->. apply String.eqb_eq in E. exists [], vs. repeat split; [exact E|constructor|]. intros w' K. cbn [update]. rewrite E, K, String.eqb_refl. reflexivity.
  - intros H. destruct (IH H) as (a & b & -> & K & F & U). exists (x :: a), b. apply String.eqb_neq in E. repeat split; [exact K|constructor; assumption|].
    intros w' K'. cbn [update app]. rewrite K'. rewrite (proj2 (String.eqb_neq _ _) E). f_equal. apply U. exact K'.
Qed.
Lemma lookup_none (vs : list (@var V)) k : lookup vs k = None -> forall x, In x vs -> v_key x <> k.
Proof. intros H x I E. pose proof (find_none _ _ H x I) as N. cbn in N. apply String.eqb_neq in N. contradiction. Qed.

Definition pairwise (whole : Prop) (saved : list (@var V)) (w w' : @var V) : Prop :=
  (forall v, In v saved -> v_key v = v_key w -> exists n, (n <= Z.to_nat (v_size w))%nat /\ (whole -> n = Z.to_nat (v_size w)) /\ taken n v w w') /\
  ((forall v, In v saved -> v_key v <> v_key w) -> w' = w).
Lemma pair_same whole saved vs : (forall v w, In v saved -> In w vs -> v_key v <> v_key w) -> Forall2 (pairwise whole saved) vs vs.
Proof.
  intros H. induction vs as [|w vs IH]; constructor.
  - split; [|reflexivity]. intros v I E. elim (H v w I (or_introl eq_refl) E).
  - apply IH. intros v x I J. apply H; [exact I|right; exact J].
Qed.
Lemma taken_0 (v w : @var V) : taken 0 v w w.
Proof. unfold taken. rewrite overlay_0. repeat split. Qed.
Lemma pair_none (whole : Prop) saved vs : ~ whole -> Forall2 (pairwise whole saved) vs vs.
Proof.
  intros H. induction vs as [|w vs IH]; constructor; [|exact IH]. split; [|reflexivity].
  intros v I E. exists 0%nat. split; [lia|]. split; [contradiction|apply taken_0].
Qed.
Lemma pair_weaken (p q : Prop) saved vs vs' : (q -> p) -> Forall2 (pairwise p saved) vs vs' -> Forall2 (pairwise q saved) vs vs'.
Proof.
  intros H F. induction F as [|w w' vs vs' [A B] F IH]; constructor; [|exact IH]. split; [|exact B].
  intros v I E. destruct (A v I E) as (n & N1 & N2 & N3). exists n. repeat split; try assumption; try apply N3. intros X. apply N2, H, X.
Qed.
Lemma pair_cons_other whole v0 saved vs vs' : (forall x, In x vs -> v_key x <> v_key v0) -> Forall2 (pairwise whole saved) vs vs' -> Forall2 (pairwise whole (v0 :: saved)) vs vs'.
Proof.
  intros H F. induction F as [|w w' vs vs' [A B] F IH]; constructor.
  - split.
    + intros v [<-|I] E; [elim (H w (or_introl eq_refl)); congruence|apply A; assumption].
    + intros N. apply B. intros v I. apply N. right. exact I.
  - apply IH. intros x I. apply H. right. exact I.
Qed.
Lemma blocks_read : forall saved, Forall variable_ok saved -> NoDup (map v_key saved) ->
  exists ls, save_all show saved = Ret ls /\
  forall junk vs k fuel, Forall plain_line junk -> NoDup (map v_key vs) -> (forall v w, In v saved -> In w vs -> v_key v = v_key w -> same_declaration v w) ->
    (measure (mkStream (firstn k (junk ++ ls)) false) < fuel)%nat ->
    exists vs' c, read_blocks atof fuel vs (mkStream (firstn k (junk ++ ls)) false) = Ret (vs', c) /\
      Forall2 (pairwise (length (junk ++ ls) <= k)%nat saved) vs vs' /\ ((length (junk ++ ls) <= k)%nat -> c = 0).
Proof.
  induction saved as [|v saved IH]; intros OK ND.
  - exists []. split; [reflexivity|]. intros junk vs k fuel J NV SH FU. rewrite app_nil_r in *. destruct fuel as [|fuel]; [lia|]. cbn [read_blocks eof].
    rewrite header_miss; [|apply forall_firstn; exact J|pose proof (meas_length (firstn k junk) false); lia]. cbn [bind].
    exists vs, 0. split; [reflexivity|]. split; [|reflexivity]. apply pair_same. intros ? ? [].
  - inversion OK as [|? ? OKv OKs]; subst. cbn [map] in ND. inversion ND as [|? ? NI ND']; subst. destruct (IH OKs ND') as (ls & LS & RD). clear IH.
    destruct (block v OKv) as (body & SB & PB & RB). cbn [save_all]. rewrite SB. cbn [bind]. rewrite LS. cbn [bind].
    eexists. split; [reflexivity|]. intros junk vs k fuel J NV SH FU. rewrite <- app_comm_cons, <- app_comm_cons in *.
    set (hd := ("####" ++ nl)%string) in *. set (key := (v_key v ++ nl)%string) in *.
    destruct fuel as [|fuel]; [lia|]. cbn [read_blocks eof].
    destruct (Nat.le_gt_cases k (length junk)) as [LE|GT].
    { rewrite firstn_under in * by exact LE.
      rewrite header_miss; [|apply forall_firstn; exact J|pose proof (meas_length (firstn k junk) false); lia]. cbn [bind].
      exists vs, 0. split; [reflexivity|]. split; [|reflexivity]. apply pair_none. rewrite app_length. cbn [length]. lia. }
    rewrite firstn_over in * by exact GT.
    rewrite header_hit; [|exact J|split; [reflexivity|cbn; lia]|reflexivity|pose proof (meas_length (junk ++ hd :: firstn (k - length junk - 1) (key :: body ++ ls)) false); rewrite app_length in *; lia].
    cbn [bind]. destruct (k - length junk - 1)%nat as [|k1] eqn:K1; cbn [firstn] in *.
    { rewrite fgets_end. exists vs, 1. split; [reflexivity|]. split; [|rewrite app_length; cbn [length]; lia]. apply pair_none. rewrite app_length. cbn [length]. lia. }
    destruct OKv as ((KF & KL) & OKv'). unfold key at 1. rewrite fgets_line by (try apply ends_nl_app; rewrite len_app_s, nl_len; lia).
    unfold nl at 1. rewrite drop_last_app.
    assert (LEN : (length (junk ++ hd :: key :: body ++ ls) <= k)%nat <-> (length (body ++ ls) <= k1)%nat) by (rewrite !app_length; cbn [length]; rewrite app_length; lia).
    rewrite meas_app, !meas_cons in FU.
    destruct (lookup vs (v_key v)) as [w|] eqn:LK.
    + destruct (lookup_split _ _ _ LK) as (a & b & EV & KW & FA & UP).
      assert (IW : In w vs) by (rewrite EV; apply in_or_app; right; left; reflexivity).
      destruct (RB w (SH v w (or_introl eq_refl) IW (eq_sym KW)) k1 ls) as (w' & f' & n & R1 & R2 & R3 & R4). rewrite R1. cbn [bind].
      assert (KW' : v_key w' = v_key v) by (destruct R3 as (-> & _); exact KW).
      rewrite EV, map_app in NV. cbn [map] in NV. apply NoDup_remove in NV. destruct NV as [NV1 NV2].
      assert (OTH : forall x, In x a \/ In x b -> v_key x <> v_key v).
      { intros x I E. apply NV2. rewrite KW, <- E. apply in_or_app. destruct I as [I|I]; [left|right]; apply in_map; exact I. }
      destruct (Nat.leb (length body) k1) eqn:LB; [apply Nat.leb_le in LB|apply Nat.leb_gt in LB].
      * destruct (R4 LB) as [-> ->].
        assert (NV' : NoDup (map v_key (update vs w'))).
        { rewrite (UP w' KW'), map_app. cbn [map]. apply NoDup_Add with (a := v_key w') (l := map v_key a ++ map v_key b); [apply Add_app|].
          split; [exact NV1|]. rewrite KW', <- KW. exact NV2. }
        destruct (RD [] (update vs w') (k1 - length body)%nat fuel) as (vs' & c & Q1 & Q2 & Q3).
        { constructor. } { exact NV'. }
        { rewrite (UP w' KW'). intros x y IX IY E. apply in_app_or in IY. destruct IY as [IY|[<-|IY]].
          - apply SH; [right; exact IX| |exact E]. rewrite EV. apply in_or_app. left. exact IY.
          - elim NI. rewrite <- KW', <- E. apply in_map. exact IX.
          - apply SH; [right; exact IX| |exact E]. rewrite EV. apply in_or_app. right. right. exact IY. }
        { cbn [app]. rewrite firstn_past, meas_app in FU by exact LB. lia. }
        cbn [app] in Q1, Q2, Q3. rewrite Q1. exists vs', c. split; [reflexivity|].
        assert (LEN2 : (length (junk ++ hd :: key :: body ++ ls) <= k)%nat -> (length ls <= k1 - length body)%nat).
        { rewrite LEN. rewrite app_length. lia. }
        split; [|intros H; apply Q3, LEN2, H].
        apply (pair_weaken _ _ _ _ _ LEN2) in Q2. rewrite (UP w' KW') in Q2. rewrite EV.
        apply Forall2_app_inv_l in Q2. destruct Q2 as (a' & m' & Qa & Qm & ->). inversion Qm as [|? w'' ? b' Qw Qb E1 E2]; subst m'. clear Qm.
        apply Forall2_app; [apply pair_cons_other; [intros u I; apply OTH; left; exact I|exact Qa]|].
        constructor; [|apply pair_cons_other; [intros u I; apply OTH; right; exact I|exact Qb]].
        destruct Qw as [_ Qw]. rewrite Qw by (intros u I E; apply NI; rewrite <- KW', <- E; apply in_map; exact I).
        split; [|intros HH; elim (HH v (or_introl eq_refl)); congruence].
        intros u [<-|I] E; [exists (Z.to_nat (v_size w)); split; [lia|]; split; [reflexivity|exact R3]|].
        elim NI. rewrite <- KW, <- E. apply in_map. exact I.
      * exists (update vs w'), 1. split; [reflexivity|].
        assert (NW : ~ (length (junk ++ hd :: key :: body ++ ls) <= k)%nat) by (rewrite LEN, app_length; lia).
        split; [|intros H; contradiction]. rewrite (UP w' KW'), EV.
        apply Forall2_app; [apply pair_none; exact NW|]. constructor; [|apply pair_none; exact NW].
        split; [|intros H; elim (H v (or_introl eq_refl)); congruence].
        intros x [<-|I] E; [exists n; split; [exact R2|]; split; [contradiction|exact R3]|]. elim NI. rewrite <- KW, <- E. apply in_map. exact I.
    + destruct (RD body vs k1 fuel) as (vs' & c & Q1 & Q2 & Q3); [exact PB|exact NV| |lia|].
      { intros x y IX IY E. apply SH; [right; exact IX|exact IY|exact E]. }
      rewrite Q1. exists vs', c. split; [reflexivity|]. split; [|intros H; apply Q3, LEN, H].
      apply pair_cons_other; [apply lookup_none; exact LK|]. eapply pair_weaken; [|exact Q2]. apply LEN.
Qed.
End Ckpt.

(** * Dimensions *)
Definition skipped (l : string) : Prop := plain_line l /\ prefix "** Variables **" l = false.
Definition varline : string := "** Variables **" ++ nl.
Lemma dim_hit : forall junk fuel h r, Forall skipped junk -> good h -> hashes h = true -> prefix "** Variables **" h = false -> (length junk < fuel)%nat ->
  to_dim fuel (mkStream (junk ++ h :: r) false) = Ret (AtHeader (mkStream r false)).
Proof.
  induction junk as [|l junk IH]; intros fuel h r F G H N L; destruct fuel as [|fuel]; try (cbn in L; lia); cbn [app to_dim].
  - rewrite fgets_good by exact G. rewrite N, H. reflexivity.
  - inversion F as [|? ? [[Gl Hl] Nl] F']; subst. rewrite fgets_good by exact Gl. rewrite Hl, Nl. apply IH; try assumption. cbn in L. lia.
Qed.
Lemma dim_vars : forall junk fuel r, Forall skipped junk -> (length junk < fuel)%nat -> to_dim fuel (mkStream (junk ++ varline :: r) false) = Ret (AtVariables (mkStream r false)).
Proof.
  induction junk as [|l junk IH]; intros fuel r F L; destruct fuel as [|fuel]; try (cbn in L; lia); cbn [app to_dim].
  - rewrite fgets_good by (split; [reflexivity|cbn; lia]). reflexivity.
  - inversion F as [|? ? [[Gl Hl] Nl] F']; subst. rewrite fgets_good by exact Gl. rewrite Hl, Nl. apply IH; try assumption. cbn in L. lia.
Qed.
Lemma dim_miss : forall junk fuel, Forall skipped junk -> (length junk < fuel)%nat -> to_dim fuel (mkStream junk false) = Ret Gone.
Proof.
  induction junk as [|l junk IH]; intros fuel F L; destruct fuel as [|fuel]; try (cbn in L; lia); cbn [to_dim].
  - reflexivity.
  - inversion F as [|? ? [[Gl Hl] Nl] F']; subst. rewrite fgets_good by exact Gl. rewrite Hl, Nl. apply IH; try assumption. cbn in L. lia.
Qed.
Lemma dims_read db rest : forall ds, Forall (fun d => name_ok (d_name d) /\ long_range (d_value d)) ds -> forall junk k fuel, Forall skipped junk ->
  (measure (mkStream (firstn k (junk ++ save_dims ds ++ varline :: rest)) false) < fuel)%nat ->
  exists r, read_dims fuel db (mkStream (firstn k (junk ++ save_dims ds ++ varline :: rest)) false) = Ret r /\
    (same_dimensions ds db -> (length junk + 3 * length ds < k)%nat -> r = inr (mkStream (firstn (k - (length junk + 3 * length ds + 1)) rest) false)) /\
    (forall f, r = inr f -> same_dimensions ds db /\ (length junk + 3 * length ds < k)%nat) /\
    ((length junk + 3 * length ds < k)%nat -> forall c, r = inl c -> c = 0).
Proof.
  induction 1 as [|d ds [[NF NL] LR] F IH]; intros junk k fuel J FU.
  - cbn [save_dims flat_map app length] in *. destruct fuel as [|fuel]; [lia|]. cbn [read_dims eof]. destruct (Nat.le_gt_cases k (length junk)) as [LE|GT].
    + rewrite firstn_under in * by exact LE. rewrite dim_miss; [|apply forall_firstn; exact J|pose proof (meas_length (firstn k junk) false); lia]. cbn [bind].
      eexists. split; [reflexivity|]. split; [lia|]. split; [discriminate|lia].
    + rewrite firstn_over in * by exact GT.
      rewrite dim_vars; [|exact J|pose proof (meas_length (junk ++ varline :: firstn (k - length junk - 1) rest) false); rewrite app_length in *; lia]. cbn [bind].
      eexists. split; [reflexivity|]. split.
      * intros _ _. do 3 f_equal. lia.
      * split; [|discriminate]. intros f H. split; [intros ? []|lia].
  - cbn [save_dims flat_map app length] in *. fold (save_dims ds) in *. destruct fuel as [|fuel]; [lia|]. cbn [read_dims eof].
    set (hd := ("####" ++ nl)%string) in *. destruct (Nat.le_gt_cases k (length junk)) as [LE|GT].
    { rewrite firstn_under in * by exact LE. rewrite dim_miss; [|apply forall_firstn; exact J|pose proof (meas_length (firstn k junk) false); lia]. cbn [bind].
      eexists. split; [reflexivity|]. split; [lia|]. split; [discriminate|lia]. }
    rewrite firstn_over in * by exact GT.
    rewrite dim_hit; [|exact J|split; [reflexivity|cbn; lia]|reflexivity|reflexivity|].
    2:{ pose proof (meas_length (junk ++ hd :: firstn (k - length junk - 1) ((d_name d ++ nl)%string :: (dec (d_value d) ++ nl)%string :: save_dims ds ++ varline :: rest)) false) as X.
        rewrite app_length in X. lia. }
    cbn [bind]. rewrite meas_app, meas_cons in FU. destruct (k - length junk - 1)%nat as [|k1] eqn:K1; cbn [firstn] in *.
    { rewrite fgets_end. eexists. split; [reflexivity|]. split; [lia|]. split; [discriminate|lia]. }
    rewrite fgets_line by (try apply ends_nl_app; rewrite len_app_s; cbn; lia). unfold nl at 1. rewrite drop_last_app.
    destruct (dim_addr db (d_name d)) as [e|] eqn:DA.
    2:{ eexists. split; [reflexivity|]. split; [|split; [discriminate|congruence]]. intros S _. destruct (S d (or_introl eq_refl)) as (e & E & _). congruence. }
    rewrite meas_cons in FU. destruct k1 as [|k2]; cbn [firstn] in *.
    { rewrite fgets_end. eexists. split; [reflexivity|]. split; [lia|]. split; [discriminate|lia]. }
    pose proof (dec_length (d_value d) LR) as DL.
    rewrite fgets_line by (try apply ends_nl_app; rewrite len_app_s; cbn; lia).
    destruct (read_dec (d_value d) nl LR eq_refl) as (R1 & R2 & _). rewrite R2, R1. rewrite meas_cons in FU.
    destruct (d_value e =? d_value d) eqn:EQ; [apply Z.eqb_eq in EQ|apply Z.eqb_neq in EQ].
    + destruct (IH [] k2 fuel (Forall_nil _)) as (r & Q1 & Q2 & Q3 & Q4); [cbn [app]; lia|]. cbn [app length] in *. exists r. split; [exact Q1|]. split.
      * intros S L. rewrite Q2; [do 3 f_equal; lia|intros x I; apply S; right; exact I|lia].
      * split; [|intros L; apply Q4; lia]. intros f H. destruct (Q3 f H) as [S L]. split; [|lia]. intros x [<-|I]; [exists e; split; assumption|apply S; exact I].
    + eexists. split; [reflexivity|]. split; [|split; [discriminate|congruence]]. intros S _. destruct (S d (or_introl eq_refl)) as (x & E & V). congruence.
Qed.

(** * The whole file *)
Lemma chop_title first rest : free_of "010" first -> (rest = "" \/ exists r, rest = (newline ++ r)%string) -> chop (first ++ rest) = first.
Proof.
  intros F R. apply free_nochar in F. induction first as [|c s IH].
  - destruct R as [->|[r ->]]; reflexivity.
  - rewrite no_char_cons in F. apply andb_prop in F. destruct F as [F1 F2]. cbn [append chop]. apply negb_true_iff in F1. change NL with "010"%char. rewrite F1. f_equal. apply IH. exact F2.
Qed.
Lemma from_app p s : from (String.length p) (p ++ s) = Ret s.
Proof.
  unfold from. rewrite len_app_s. rewrite (proj2 (Nat.leb_le _ _)) by lia. replace (String.length p + String.length s - String.length p)%nat with (String.length s) by lia.
  rewrite substring_rest. reflexivity.
Qed.
Lemma dims_length ds : length (save_dims ds) = (3 * length ds)%nat.
Proof. induction ds as [|d ds IH]; [reflexivity|]. cbn [save_dims flat_map app length]. fold (save_dims ds). rewrite IH. lia. Qed.
Section Whole.
Context {V : Type}.
Variable show : Z -> V -> string.
Variable atof : Z -> string -> V.
Hypothesis printer : printer_ok show atof.

(** Reading the first [k] lines of a saved file. *)
Lemma whole (st : @state V) : state_ok st -> exists file, save_vars show true st = Ret (Some file, 0) /\ (4 < length file)%nat /\
  forall st' k,
    (~ same_dimensions (s_dims st) (s_dims st') \/
     (NoDup (map v_key (s_vars st')) /\ forall v w, In v (s_vars st) -> In w (s_vars st') -> v_key v = v_key w -> same_declaration v w)) ->
    exists st'' c, read_vars atof (Some (firstn k file)) st' = Ret (st'', c) /\
      s_dims st'' = s_dims st' /\ s_now st'' = s_now st' /\
      s_nsteps st'' = (if Nat.ltb k 2 then s_nsteps st' else s_nsteps st) /\
      (if Nat.ltb k 4 then s_dt st'' = s_dt st' /\ s_dtnext st'' = s_dtnext st'
       else (Qabs (s_dt st'' - s_dt st) <= 1 # 2000000)%Q /\ s_dtnext st'' = s_dt st'') /\
      (~ same_dimensions (s_dims st) (s_dims st') -> s_vars st'' = s_vars st') /\
      (same_dimensions (s_dims st) (s_dims st') -> Forall2 (pairwise (length file <= k)%nat (s_vars st)) (s_vars st') (s_vars st'')) /\
      ((length file <= k)%nat -> c = 0).
Proof.
  intros ((first & more & EI & TF & TL & TM) & RN & QN & QD & DO & ND & VO).
  destruct (blocks_read show atof printer (s_vars st) VO ND) as (ls & LS & RD).
  set (l1 := (first ++ nl)%string). set (l2 := ("last nstep " ++ dec (s_nsteps st) ++ nl)%string).
  set (l3 := ("last julian time " ++ fixed6 (s_now st) ++ nl)%string). set (l4 := ("last delta time " ++ fixed6 (s_dt st) ++ nl)%string).
  set (l5 := ("** Dimensions **" ++ nl)%string).
  pose proof (dims_length (s_dims st)) as SD.
  exists (l1 :: l2 :: l3 :: l4 :: l5 :: save_dims (s_dims st) ++ varline :: ls). split.
  { unfold save_vars. cbn [negb]. rewrite LS. cbn [bind]. rewrite EI, (chop_title first more TF TM). reflexivity. }
  split; [cbn [length]; lia|]. intros st' k HS.
  assert (W1 : forall r, fgets_n 80 (mkStream (l1 :: r) false) = (Some l1, mkStream r false)).
  { intros r. apply fgets_line; [apply ends_nl_app|]. unfold l1. rewrite len_app_s, nl_len. lia. }
  assert (W2 : forall r, fgets_n 80 (mkStream (l2 :: r) false) = (Some l2, mkStream r false)).
  { intros r. pose proof (dec_length (s_nsteps st) RN). apply fgets_line; [unfold l2; rewrite <- app_assoc_s; apply ends_nl_app|]. unfold l2. rewrite !len_app_s, nl_len. cbn [String.length]. lia. }
  assert (W3 : forall r, fgets_n 80 (mkStream (l3 :: r) false) = (Some l3, mkStream r false)).
  { intros r. pose proof (fixed6_length (s_now st) QN). apply fgets_line; [unfold l3; rewrite <- app_assoc_s; apply ends_nl_app|]. unfold l3. rewrite !len_app_s, nl_len. cbn [String.length]. lia. }
  assert (W4 : forall r, fgets_n 80 (mkStream (l4 :: r) false) = (Some l4, mkStream r false)).
  { intros r. pose proof (fixed6_length (s_dt st) QD). apply fgets_line; [unfold l4; rewrite <- app_assoc_s; apply ends_nl_app|]. unfold l4. rewrite !len_app_s, nl_len. cbn [String.length]. lia. }
  assert (F2 : from 11 l2 = Ret (dec (s_nsteps st) ++ nl)%string) by (exact (from_app "last nstep " _)).
  assert (F4 : from 16 l4 = Ret (fixed6 (s_dt st) ++ nl)%string) by (exact (from_app "last delta time " _)).
  assert (SAME : forall (P : Prop), ~ P -> Forall2 (pairwise P (s_vars st)) (s_vars st') (s_vars st')) by (intros; apply pair_none; assumption).
  unfold read_vars. destruct k as [|[|[|[|k]]]]; cbn [firstn]; rewrite ?W1, ?fgets_end.
  { exists st', 0. cbn [s_dims s_now s_nsteps s_dt s_dtnext s_vars length]. repeat split. intros _. apply SAME. lia. }
  { eexists. exists 0. split; [reflexivity|]. cbn [s_dims s_now s_nsteps s_dt s_dtnext s_vars length]. repeat split. intros _. apply SAME. lia. }
  { rewrite W2, F2. cbn [bind]. rewrite fgets_end. eexists. exists 0. split; [reflexivity|]. cbn [s_dims s_now s_nsteps s_dt s_dtnext s_vars length].
    repeat split; [apply (read_dec _ nl RN eq_refl)|]. intros _. apply SAME. lia. }
  { rewrite W2, F2. cbn [bind]. rewrite W3, fgets_end. eexists. exists 0. split; [reflexivity|]. cbn [s_dims s_now s_nsteps s_dt s_dtnext s_vars length].
    repeat split; [apply (read_dec _ nl RN eq_refl)|]. intros _. apply SAME. lia. }
  rewrite W2, F2. cbn [bind]. rewrite W3, W4, F4. cbn [bind]. cbn [s_dims s_now s_nsteps s_dt s_dtnext s_vars s_info].
  rewrite (proj1 (read_dec _ nl RN eq_refl)).
  assert (J5 : Forall skipped [l5]) by (constructor; [repeat split; cbn; lia|constructor]).
  destruct (dims_read (s_dims st') ls (s_dims st) DO [l5] k (S (measure (mkStream (firstn k (l5 :: save_dims (s_dims st) ++ varline :: ls)) false))) J5) as (r & R1 & R2 & R3 & R4); [cbn [app]; lia|].
  cbn [app] in R1. rewrite R1. cbn [bind]. cbn [length] in R2, R3, R4.
  assert (LL : length (l1 :: l2 :: l3 :: l4 :: l5 :: save_dims (s_dims st) ++ varline :: ls) = (6 + 3 * length (s_dims st) + length ls)%nat) by (cbn [length]; rewrite app_length, SD; cbn [length]; lia).
  rewrite LL. destruct r as [c|f].
  - eexists. exists c. split; [reflexivity|]. cbn [s_dims s_now s_nsteps s_dt s_dtnext s_vars]. split; [reflexivity|]. split; [reflexivity|]. split; [reflexivity|].
    split; [split; [apply strtod_fixed|reflexivity]|]. split; [reflexivity|]. split; [|intros L; apply R4; [lia|reflexivity]].
    intros S. apply SAME. intros L. discriminate (R2 S ltac:(lia)).
  - destruct (R3 f eq_refl) as [SM L]. specialize (R2 SM L). injection R2 as ->. set (kk := (k - _)%nat) in *. assert (KK : kk = (k - (2 + 3 * length (s_dims st)))%nat) by (unfold kk; lia).
    destruct HS as [NS|[NV SH]]; [contradiction|].
    destruct (RD [] (s_vars st') kk (S (measure (mkStream (firstn kk ls) false))) (Forall_nil _) NV SH) as (vs' & c & Q1 & Q2 & Q3); [cbn [app]; lia|].
    cbn [app] in Q1, Q2, Q3. rewrite Q1. cbn [bind]. eexists. exists c. split; [reflexivity|]. cbn [s_dims s_now s_nsteps s_dt s_dtnext s_vars].
    split; [reflexivity|]. split; [reflexivity|]. split; [reflexivity|]. split; [split; [apply strtod_fixed|reflexivity]|]. split; [contradiction|].
    split; [intros _; eapply pair_weaken; [|exact Q2]; lia|]. intros X. apply Q3. lia.
Qed.
End Whole.

Lemma classic_dims a b : same_dimensions a b \/ ~ same_dimensions a b.
Proof.
  induction a as [|d a IH]; [left; intros ? []|]. destruct (dim_addr b (d_name d)) as [e|] eqn:E.
  - destruct (Z.eq_dec (d_value e) (d_value d)) as [X|X].
    + destruct IH as [Y|Y]; [left|right].
      * intros x [<-|I]; [exists e; split; assumption|apply Y; exact I].
      * intros Z. apply Y. intros x I. apply Z. right. exact I.
    + right. intros Z. destruct (Z d (or_introl eq_refl)) as (f & F & G). congruence.
  - right. intros Z. destruct (Z d (or_introl eq_refl)) as (f & F & G). congruence.
Qed.
