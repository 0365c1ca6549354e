From Coq Require Import String Ascii List ZArith Bool Lia ZifyBool.
From Verif Require Import CStr_Model Xchg_Model Xchg_Spec Xchg_Proofs Pget_Model Pget_Spec.
Import ListNotations.
Local Open Scope list_scope.
Local Open Scope nat_scope.

(** One copy, byte by byte. *)
Lemma memcpy_nth dst d src s n r : memcpy dst d src s n = Ret r -> forall p,
  nth_error r p = if Nat.leb d p && Nat.ltb p (d + n) then nth_error src (s + (p - d)) else nth_error dst p.
Proof.
  rewrite memcpy_eq. destruct (Nat.leb_spec (d + n) (length dst)) as [A|A]; cbn [andb]; [|discriminate].
  destruct (Nat.leb_spec (s + n) (length src)) as [B|B]; [|discriminate]. intros H. injection H as <-. intros p.
  destruct (Nat.leb_spec d p) as [C|C]; cbn [andb].
  - rewrite nth_error_app2 by (rewrite firstn_length; lia). rewrite firstn_length, Nat.min_l by lia.
    destruct (Nat.ltb_spec p (d + n)) as [D|D].
    + rewrite nth_error_app1 by (rewrite firstn_length, skipn_length; lia).
      assert (G : forall (l : list Z) a b k, k < b -> nth_error (firstn b (skipn a l)) k = nth_error l (a + k)).
      { intros l a b k K. assert (F : forall (m : list Z) b k, k < b -> nth_error (firstn b m) k = nth_error m k).
        { induction m as [|x m IH]; intros b' k' K'; [rewrite firstn_nil; reflexivity|]. destruct b' as [|b']; [lia|]. destruct k' as [|k']; [reflexivity|]. cbn. apply IH. lia. }
        rewrite F by exact K. clear F K b. revert l. induction a as [|a IHa]; intros l; [reflexivity|]. destruct l as [|x l]; [cbn; destruct k; reflexivity|]. cbn. apply IHa. }
      apply G. lia.
    + rewrite nth_error_app2 by (rewrite firstn_length, skipn_length; lia). rewrite firstn_length, skipn_length, Nat.min_l by lia.
      assert (G : forall (l : list Z) a k, nth_error (skipn a l) k = nth_error l (a + k)).
      { intros l a k. revert l. induction a as [|a IHa]; intros l; [reflexivity|]. destruct l as [|x l]; [cbn; destruct k; reflexivity|]. cbn. apply IHa. }
      rewrite G. f_equal. lia.
  - rewrite nth_error_app1 by (rewrite firstn_length; lia).
    assert (F : forall (m : list Z) b k, k < b -> nth_error (firstn b m) k = nth_error m k).
    { induction m as [|x m IH]; intros b' k' K'; [rewrite firstn_nil; reflexivity|]. destruct b' as [|b']; [lia|]. destruct k' as [|k']; [reflexivity|]. cbn. apply IH. lia. }
    apply F. exact C.
Qed.
(** The rows. *)
Lemma spread_length : forall k dst d step src s c r, spread k dst d step src s c = Ret r -> length r = length dst.
Proof.
  induction k as [|k IH]; intros dst d step src s c r H; cbn [spread] in H; [injection H as <-; reflexivity|].
  destruct (memcpy dst d src s c) as [m| |] eqn:E; cbn [bind] in H; try discriminate. rewrite (IH _ _ _ _ _ _ _ H). exact (memcpy_length _ _ _ _ _ _ E).
Qed.
Lemma spread_nth : forall k dst d step src s c r, c <= step -> spread k dst d step src s c = Ret r ->
  (forall j b, j < k -> b < c -> nth_error r (d + step * j + b) = nth_error src (s + c * j + b)) /\
  (forall p, (forall j b, j < k -> b < c -> p <> d + step * j + b) -> nth_error r p = nth_error dst p).
Proof.
  induction k as [|k IH]; intros dst d step src s c r L H; cbn [spread] in H.
  - injection H as <-. split; [intros; lia|reflexivity].
  - destruct (memcpy dst d src s c) as [m| |] eqn:E; cbn [bind] in H; try discriminate.
    destruct (IH _ _ _ _ _ _ _ L H) as [A B]. pose proof (memcpy_nth _ _ _ _ _ _ E) as N. split.
    + intros [|j] b J K.
      * rewrite B; [|intros j' b' J' K'; nia]. rewrite N, !Nat.mul_0_r, !Nat.add_0_r.
        rewrite (proj2 (Nat.leb_le d (d + b))), (proj2 (Nat.ltb_lt (d + b) (d + c))) by lia. cbn [andb]. f_equal. lia.
      * specialize (A j b ltac:(lia) K). replace (d + step * S j + b) with (d + step + step * j + b) by lia. replace (s + c * S j + b) with (s + c + c * j + b) by lia. exact A.
    + intros p P. rewrite B.
      * rewrite N. destruct (Nat.leb_spec d p) as [C|C]; cbn [andb]; [|reflexivity]. destruct (Nat.ltb_spec p (d + c)) as [D|D]; [|reflexivity].
        elim (P 0 (p - d)); [lia|lia|lia].
      * intros j b J K Q. apply (P (S j) b); [lia|exact K|]. lia.
Qed.
Lemma spread_ok : forall k dst d step src s c, d + step * (k - 1) + c <= length dst -> s + c * k <= length src -> c <= step -> exists r, spread k dst d step src s c = Ret r.
Proof.
  induction k as [|k IH]; intros dst d step src s c A B L; cbn [spread]; [eexists; reflexivity|].
  rewrite memcpy_eq. rewrite (proj2 (Nat.leb_le _ (length dst))) by nia. rewrite (proj2 (Nat.leb_le _ (length src))) by nia. cbn [andb bind].
  set (m := firstn d dst ++ _). assert (M : length m = length dst) by (unfold m; rewrite !app_length, !firstn_length, !skipn_length; nia).
  destruct k as [|k]; [eexists; reflexivity|]. apply IH; [rewrite M; cbn [Nat.sub] in *; nia|nia|exact L].
Qed.
Lemma spread_0 : forall k dst d step src s, d + step * (k - 1) <= length dst -> s <= length src -> spread k dst d step src s 0 = Ret dst.
Proof.
  induction k as [|k IH]; intros dst d step src s A B; cbn [spread]; [reflexivity|]. rewrite memcpy_eq, !Nat.add_0_r.
  rewrite (proj2 (Nat.leb_le _ (length dst))) by nia. rewrite (proj2 (Nat.leb_le _ (length src))) by nia. cbn [andb bind firstn app]. rewrite firstn_skipn.
  destruct k as [|k]; [reflexivity|]. apply IH; [cbn [Nat.sub] in *; nia|lia].
Qed.

(** The stride. *)
Lemma nrow_stride d1 d2 room : value d1 * value d2 <= room -> 1 <= value d1 -> 1 <= value d2 -> value d1 <= max d1 -> value d2 <= max d2 ->
  nrow d1 d2 (Z.of_nat room) = stride (value d1) (max d1) (value d2) (max d2) room.
Proof.
  intros S A B L M. unfold nrow, stride. set (x := value d1 * value d2) in *. set (y := max d1 * max d2) in *. assert (X : 1 <= x) by (subst x; nia).
  destruct (Nat.eqb_spec room x) as [E|E].
  - destruct ((if (Z.of_nat y =? Z.of_nat x)%Z then 1 else 0) =? Z.of_nat room)%Z; [reflexivity|]. destruct (Z.eqb_spec (Z.of_nat x) (Z.of_nat room)); [reflexivity|lia].
  - destruct (Z.eqb_spec (Z.of_nat y) (Z.of_nat x)) as [F|F].
    + destruct (Z.eqb_spec 1 (Z.of_nat room)) as [G|G]; [assert (room = x) by lia; contradiction|].
      destruct (Z.eqb_spec (Z.of_nat x) (Z.of_nat room)); [lia|]. destruct (Z.eqb_spec (Z.of_nat y) (Z.of_nat room)), (Nat.eqb_spec room y); try reflexivity; lia.
    + destruct (Z.eqb_spec 0 (Z.of_nat room)) as [G|G]; [lia|].
      destruct (Z.eqb_spec (Z.of_nat x) (Z.of_nat room)); [lia|]. destruct (Z.eqb_spec (Z.of_nat y) (Z.of_nat room)), (Nat.eqb_spec room y); try reflexivity; lia.
Qed.
Lemma stride_ge v1 m1 v2 m2 room : v1 <= m1 -> v1 <= stride v1 m1 v2 m2 room.
Proof. intros H. unfold stride. destruct (Nat.eqb _ _); [lia|]. destruct (Nat.eqb _ _); lia. Qed.
Lemma stride_fits v1 m1 v2 m2 room : v1 <= m1 -> v2 <= m2 -> v1 * v2 <= room -> 1 <= v2 -> stride v1 m1 v2 m2 room * (v2 - 1) + v1 <= room.
Proof.
  intros A B C D. unfold stride. destruct (Nat.eqb_spec room (v1 * v2)); [nia|]. destruct (Nat.eqb_spec room (m1 * m2)); nia.
Qed.
Lemma spread_delivered w v1 v2 str table old out : 1 <= w -> v1 <= str -> spread v2 old 0 (str * w) table 0 (v1 * w) = Ret out -> delivered w v1 v2 str table old out.
Proof.
  intros W L H. pose proof (spread_length _ _ _ _ _ _ _ _ H) as LEN. assert (LE : v1 * w <= str * w) by nia. destruct (spread_nth _ _ _ _ _ _ _ _ LE H) as [A B]. split; [exact LEN|split].
  - intros i j b I J K. specialize (A j (w * i + b) J ltac:(nia)). replace (w * (i + str * j) + b) with (0 + str * w * j + (w * i + b)) by lia.
    replace (w * (i + v1 * j) + b) with (0 + v1 * w * j + (w * i + b)) by lia. exact A.
  - intros p P. apply B. intros j b J K Q.
    pose proof (Nat.div_mod b w ltac:(lia)) as DM. pose proof (Nat.mod_upper_bound b w ltac:(lia)) as MB.
    apply (P (b / w) j (b mod w)); [apply Nat.div_lt_upper_bound; lia|exact J|exact MB|]. lia.
Qed.
Lemma csize_pos t : 1 <= csize t.
Proof. destruct t; cbn; lia. Qed.
Lemma get_table_pos p d1 d2 room ty out : p_dims p = [d1; d2] -> known_type ty = true -> p_size p = value d1 * value d2 -> p_size p <= room ->
  1 <= value d1 -> 1 <= value d2 -> value d1 <= max d1 -> value d2 <= max d2 ->
  p_size p * csize (p_type p) <= length (p_mem p) -> room * csize (p_type p) <= length out ->
  exists r, getparam (Some p) (Z.of_nat room) ty out = Ret (0%Z, r) /\
    delivered (csize (p_type p)) (value d1) (value d2) (stride (value d1) (max d1) (value d2) (max d2) room) (p_mem p) out r.
Proof.
  intros D T S R A B L M PM PO. unfold getparam. rewrite T. cbn [negb]. destruct (Z.gtb_spec (Z.of_nat (p_size p)) (Z.of_nat room)) as [K|_]; [lia|].
  unfold paramcopy. rewrite D. rewrite nrow_stride by (try assumption; lia). set (str := stride _ _ _ _ _). set (w := csize (p_type p)) in *.
  pose proof (stride_ge (value d1) (max d1) (value d2) (max d2) room L) as G. fold str in G.
  pose proof (stride_fits (value d1) (max d1) (value d2) (max d2) room L M ltac:(lia) B) as F. fold str in F.
  destruct (spread_ok (value d2) out 0 (str * w) (p_mem p) 0 (value d1 * w)) as [r H]; [nia|nia|nia|].
  rewrite H. cbn [bind]. exists r. split; [reflexivity|]. apply spread_delivered; [apply csize_pos|exact G|exact H].
Qed.
Lemma delivered_none w v1 v2 str table old : v1 * v2 = 0 -> delivered w v1 v2 str table old old.
Proof. intros Z. split; [reflexivity|split; [|reflexivity]]. intros i j b I J K. nia. Qed.
Lemma get_table p d1 d2 room ty out : p_dims p = [d1; d2] -> known_type ty = true -> p_size p = value d1 * value d2 -> p_size p <= room ->
  value d1 <= max d1 -> value d2 <= max d2 ->
  p_size p * csize (p_type p) <= length (p_mem p) -> room * csize (p_type p) <= length out ->
  exists r, getparam (Some p) (Z.of_nat room) ty out = Ret (0%Z, r) /\
    delivered (csize (p_type p)) (value d1) (value d2) (stride (value d1) (max d1) (value d2) (max d2) room) (p_mem p) out r.
Proof.
  intros D T S R L M PM PO. destruct (Nat.eq_dec (value d2) 0) as [Z2|Z2]; [|destruct (Nat.eq_dec (value d1) 0) as [Z1|Z1]].
  - exists out. split; [|apply delivered_none; nia]. unfold getparam. rewrite T. cbn [negb]. destruct (Z.gtb_spec (Z.of_nat (p_size p)) (Z.of_nat room)) as [K|_]; [lia|].
    unfold paramcopy. rewrite D, Z2. reflexivity.
  - exists out. split; [|apply delivered_none; nia]. unfold getparam. rewrite T. cbn [negb]. destruct (Z.gtb_spec (Z.of_nat (p_size p)) (Z.of_nat room)) as [K|_]; [lia|].
    unfold paramcopy. rewrite D. rewrite Z1 at 1. rewrite Nat.mul_0_l, spread_0; [reflexivity| |lia].
    assert (N : nrow d1 d2 (Z.of_nat room) = 0 \/ nrow d1 d2 (Z.of_nat room) = max d1 /\ max d1 * max d2 = room).
    { unfold nrow. rewrite Z1. destruct (_ =? Z.of_nat room)%Z; [left; reflexivity|]. destruct (_ =? Z.of_nat room)%Z; [left; reflexivity|].
      destruct (Z.eqb_spec (Z.of_nat (max d1 * max d2)) (Z.of_nat room)); [right; split; [reflexivity|lia]|left; reflexivity]. }
    pose proof (csize_pos (p_type p)) as W. destruct N as [-> | [-> N]]; [lia|]. set (w := csize (p_type p)) in *. apply Nat.le_trans with (room * w); [|exact PO].
    replace (room * w) with (max d1 * w * max d2) by lia. apply Nat.mul_le_mono_l. lia.
  - apply get_table_pos; try assumption; lia.
Qed.
Lemma get_list p d room ty out : p_dims p = [d] -> known_type ty = true -> p_size p <= room ->
  p_size p * csize (p_type p) <= length (p_mem p) -> room * csize (p_type p) <= length out ->
  getparam (Some p) (Z.of_nat room) ty out = Ret (0%Z, overwrite (p_size p * csize (p_type p)) (p_mem p) out).
Proof.
  intros D T R PM PO. unfold getparam. rewrite T. cbn [negb]. destruct (Z.gtb_spec (Z.of_nat (p_size p)) (Z.of_nat room)) as [K|_]; [lia|].
  unfold paramcopy. rewrite D, memcpy_flat. rewrite (proj2 (Nat.leb_le _ (length (p_mem p)))) by lia. rewrite (proj2 (Nat.leb_le _ (length out))) by nia. reflexivity.
Qed.
(** Update. *)
Lemma nrow_update d1 d2 : nrow d1 d2 (-1) = value d1.
Proof.
  unfold nrow. destruct (Z.eqb_spec (if (Z.of_nat (max d1 * max d2) =? Z.of_nat (value d1 * value d2))%Z then 1 else 0) (-1)); [reflexivity|].
  destruct (Z.eqb_spec (Z.of_nat (value d1 * value d2)) (-1)); [lia|]. destruct (Z.eqb_spec (Z.of_nat (max d1 * max d2)) (-1)); [lia|reflexivity].
Qed.
Lemma update_table p d1 d2 : p_dims p = [d1; d2] -> p_size p = value d1 * value d2 -> 1 <= value d2 -> p_size p * csize (p_type p) <= length (p_mem p) ->
  forall refs, Forall (fun r => p_size p * csize (p_type p) <= length r) refs ->
  exists refs', updateparam (Some p) refs = Ret refs' /\ Forall2 (fun old new => delivered (csize (p_type p)) (value d1) (value d2) (value d1) (p_mem p) old new) refs refs'.
Proof.
  intros D S B PM refs F. cbn [updateparam]. induction F as [|r refs R F IH]; [exists []; split; [reflexivity|constructor]|].
  destruct IH as [refs' [E G]]. cbn [refresh]. unfold paramcopy at 1. rewrite D, nrow_update. set (w := csize (p_type p)) in *.
  destruct (spread_ok (value d2) r 0 (value d1 * w) (p_mem p) 0 (value d1 * w)) as [r' H]; [nia|nia|lia|].
  rewrite H. cbn [bind]. rewrite E. cbn [bind]. exists (r' :: refs'). split; [reflexivity|]. constructor; [|exact G].
  apply spread_delivered; [apply csize_pos|lia|exact H].
Qed.

(** Integers. *)
Lemma to_bytes_length n v : length (to_bytes n v) = n.
Proof. revert v. induction n as [|n IH]; intros v; cbn; [reflexivity|]. rewrite IH. reflexivity. Qed.
Lemma number_to n v : number (to_bytes n v) = (v mod 256 ^ Z.of_nat n)%Z.
Proof.
  revert v. induction n as [|n IH]; intros v; cbn [to_bytes number]; [rewrite Z.mod_1_r; reflexivity|]. rewrite IH.
  replace (256 ^ Z.of_nat (S n))%Z with (256 * 256 ^ Z.of_nat n)%Z by (rewrite Nat2Z.inj_succ, Z.pow_succ_r by lia; reflexivity).
  rewrite Z.rem_mul_r by (try lia; apply Z.pow_pos_nonneg; lia). reflexivity.
Qed.
Definition flat (l : list Z) : bytes := flat_map (to_bytes 4) l.
Lemma flat_length l : length (flat l) = 4 * length l.
Proof. induction l as [|v l IH]; [reflexivity|]. unfold flat in *. cbn [flat_map length]. rewrite app_length, IH, to_bytes_length. lia. Qed.
Lemma put_ints : forall l pre mem, 4 * length l <= length mem -> length pre mod 4 = 0 ->
  put_all put_int (pre ++ mem) (length pre / 4) l = Ret (pre ++ flat l ++ skipn (4 * length l) mem).
Proof.
  induction l as [|v l IH]; intros pre mem L M; [reflexivity|]. cbn [put_all length] in *. unfold put_int.
  assert (Q : 4 * (length pre / 4) = length pre) by (pose proof (Nat.div_mod (length pre) 4 ltac:(lia)); lia). rewrite Q.
  rewrite memcpy_eq, to_bytes_length, app_length. rewrite (proj2 (Nat.leb_le _ _)) by lia. rewrite (proj2 (Nat.leb_le (0 + 4) 4)) by lia. cbn [andb bind].
  change (skipn 0 (to_bytes 4 v)) with (to_bytes 4 v). rewrite (firstn_all2 (to_bytes 4 v)) by (rewrite to_bytes_length; lia).
  rewrite firstn_app, firstn_all, Nat.sub_diag. rewrite firstn_O, app_nil_r. rewrite skipn_app, skipn_all2 by lia. cbn [app].
  replace (length pre + 4 - length pre) with 4 by lia.
  rewrite app_assoc. replace (S (length pre / 4)) with (length (pre ++ to_bytes 4 v) / 4).
  - rewrite IH.
    + f_equal. change (flat (v :: l)) with (to_bytes 4 v ++ flat l). rewrite skip_skip, <- !app_assoc. do 4 f_equal. lia.
    + rewrite skipn_length. lia.
    + rewrite app_length, to_bytes_length. rewrite <- Nat.add_mod_idemp_l, M by lia. reflexivity.
  - rewrite app_length, to_bytes_length. replace (length pre + 4) with (length pre + 1 * 4) by lia. rewrite Nat.div_add by lia. lia.
Qed.
Lemma flat_at : forall l k v rest, nth_error l k = Some v -> integer_at k (flat l ++ rest) = (v mod 2 ^ 32)%Z.
Proof.
  induction l as [|x l IH]; intros [|k] v rest H; try discriminate.
  - injection H as ->. unfold integer_at. change (flat (v :: l)) with (to_bytes 4 v ++ flat l). rewrite <- app_assoc.
    rewrite Nat.mul_0_r, skipn_O, firstn_app. rewrite (firstn_all2 (to_bytes 4 v)) by (rewrite to_bytes_length; lia).
    rewrite to_bytes_length, Nat.sub_diag, firstn_O, app_nil_r. apply (number_to 4).
  - cbn [nth_error] in H. rewrite <- (IH k v rest H). unfold integer_at. change (flat (x :: l)) with (to_bytes 4 x ++ flat l). rewrite <- app_assoc.
    replace (4 * S k) with (4 + 4 * k) by lia. rewrite <- skip_skip. rewrite (skipn_app 4), to_bytes_length, Nat.sub_diag, (skipn_all2 (to_bytes 4 x)) by (rewrite to_bytes_length; lia). reflexivity.
Qed.

Lemma window : forall n (a c : list Z) x y, (forall b, b < n -> nth_error a (x + b) = nth_error c (y + b)) -> firstn n (skipn x a) = firstn n (skipn y c).
Proof.
  assert (G : forall (l : list Z) a k, nth_error (skipn a l) k = nth_error l (a + k)).
  { intros l a k. revert l. induction a as [|a IHa]; intros l; [reflexivity|]. destruct l as [|z l]; [cbn; destruct k; reflexivity|]. cbn. apply IHa. }
  assert (F : forall n (a c : list Z), (forall b, b < n -> nth_error a b = nth_error c b) -> firstn n a = firstn n c).
  { induction n as [|n IH]; intros a c H; [reflexivity|]. destruct a as [|u a], c as [|v c]; [reflexivity| | |].
    - specialize (H 0 ltac:(lia)). discriminate.
    - specialize (H 0 ltac:(lia)). discriminate.
    - cbn. pose proof (H 0 ltac:(lia)) as K. injection K as ->. f_equal. apply IH. intros b B. apply (H (S b)). lia. }
  intros n a c x y H. apply F. intros b B. rewrite !G. apply H. exact B.
Qed.
Lemma delivered_integer v1 v2 str table old out i j : delivered 4 v1 v2 str table old out -> i < v1 -> j < v2 ->
  integer_at (i + str * j) out = integer_at (i + v1 * j) table.
Proof. intros [_ [D _]] I J. unfold integer_at. f_equal. apply window. intros b B. apply D; assumption. Qed.
Lemma put_ints_0 l mem : 4 * length l <= length mem -> put_all put_int mem 0 l = Ret (flat l ++ skipn (4 * length l) mem).
Proof. intros H. exact (put_ints l [] mem H eq_refl). Qed.
