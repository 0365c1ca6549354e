From Coq Require Import String Ascii List ZArith Bool Lia ZifyBool.
From Verif Require Import CStr_Model Xchg_Model Xchg_Spec.
Import ListNotations.
Local Open Scope string_scope.
Local Open Scope list_scope.

Lemma memcpy_eq dst d src s n : memcpy dst d src s n = if Nat.leb (d + n) (length dst) && Nat.leb (s + n) (length src)
  then Ret (firstn d dst ++ firstn n (skipn s src) ++ skipn (d + n) dst) else UB.
Proof. reflexivity. Qed.
Lemma over_length n src dst : n <= length src -> n <= length dst -> length (overwrite n src dst) = length dst.
Proof. intros A B. unfold overwrite. rewrite app_length, firstn_length, skipn_length. lia. Qed.
Lemma skip_skip {A} (a b : nat) (l : list A) : skipn a (skipn b l) = skipn (b + a) l.
Proof. revert l. induction b as [|b IH]; intros l; [reflexivity|]. destruct l as [|x l]; [rewrite !skipn_nil; reflexivity|]. cbn [skipn Nat.add]. apply IH. Qed.
Lemma firstn_plus {A} (a b : nat) (l : list A) : firstn (a + b) l = firstn a l ++ firstn b (skipn a l).
Proof. revert l. induction a as [|a IH]; intros l; [reflexivity|]. destruct l as [|x l]; [rewrite skipn_nil, !firstn_nil; reflexivity|]. cbn. rewrite IH. reflexivity. Qed.
(** A copy that continues an overwritten prefix. *)
Lemma over_step n c src dst : n + c <= length src -> n + c <= length dst ->
  memcpy (overwrite n src dst) n src n c = Ret (overwrite (n + c) src dst).
Proof.
  intros A B. rewrite memcpy_eq, over_length by lia. rewrite (proj2 (Nat.leb_le _ _) B), (proj2 (Nat.leb_le _ _) A). cbn [andb]. f_equal.
  unfold overwrite. rewrite firstn_app, firstn_firstn, Nat.min_id, firstn_length, Nat.min_l, Nat.sub_diag by lia. cbn [firstn]. rewrite app_nil_r.
  rewrite skipn_app, firstn_length, Nat.min_l by lia. rewrite (skipn_all2 (firstn n src)) by (rewrite firstn_length; lia).
  rewrite skip_skip. cbn [app]. replace (n + (n + c - n)) with (n + c) by lia. rewrite firstn_plus, app_assoc. reflexivity.
Qed.
Lemma rows_ok : forall k n c src dst, n + k * c <= length src -> n + k * c <= length dst ->
  rows k (overwrite n src dst) n src n c c = Ret (overwrite (n + k * c) src dst).
Proof.
  induction k as [|k IH]; intros n c src dst A B; cbn [rows]; [rewrite Nat.mul_0_l, Nat.add_0_r; reflexivity|].
  rewrite over_step by lia. cbn [bind]. rewrite IH by lia. f_equal. f_equal. lia.
Qed.
Lemma memcpy_length dst d src s n r : memcpy dst d src s n = Ret r -> length r = length dst.
Proof.
  rewrite memcpy_eq. destruct (Nat.leb (d + n) (length dst)) eqn:A; cbn [andb]; [|discriminate]. destruct (Nat.leb (s + n) (length src)) eqn:B; [|discriminate].
  intros H. injection H as <-. rewrite !app_length, !firstn_length, !skipn_length. lia.
Qed.
Lemma rows_ub : forall k dst d src s c step, 1 <= k -> (length dst < d + (k - 1) * step + c \/ length src < s + (k - 1) * step + c) ->
  rows k dst d src s c step = UB.
Proof.
  induction k as [|k IH]; intros dst d src s c step K H; [lia|]. cbn [rows]. destruct (memcpy dst d src s c) as [r| |] eqn:E; [|reflexivity|].
  - pose proof (memcpy_length _ _ _ _ _ _ E) as L. cbn [bind]. rewrite memcpy_eq in E. destruct k as [|k].
    + destruct (Nat.leb_spec (d + c) (length dst)); cbn [andb] in E; [|discriminate]. destruct (Nat.leb_spec (s + c) (length src)); [|discriminate]. lia.
    + apply IH; [lia|]. rewrite L. cbn [Nat.sub] in *. rewrite Nat.sub_0_r in *. lia.
  - rewrite memcpy_eq in E. destruct (_ && _); discriminate.
Qed.
Lemma over_0 src dst : overwrite 0 src dst = dst.
Proof. reflexivity. Qed.
Lemma rows_flat k c src dst : rows k dst 0 src 0 c c = if Nat.leb (k * c) (length src) && Nat.leb (k * c) (length dst) then Ret (overwrite (k * c) src dst) else UB.
Proof.
  destruct (Nat.leb_spec (k * c) (length src)) as [A|A]; cbn [andb].
  - destruct (Nat.leb_spec (k * c) (length dst)) as [B|B].
    + pose proof (rows_ok k 0 c src dst ltac:(lia) ltac:(lia)) as R. rewrite over_0 in R. exact R.
    + destruct k as [|k]; [cbn in B; lia|]. apply rows_ub; [lia|]. left. cbn [Nat.sub]. rewrite Nat.sub_0_r. lia.
  - destruct k as [|k]; [cbn in A; lia|]. apply rows_ub; [lia|]. right. cbn [Nat.sub]. rewrite Nat.sub_0_r. lia.
Qed.
Lemma memcpy_flat dst src n : memcpy dst 0 src 0 n = if Nat.leb n (length src) && Nat.leb n (length dst) then Ret (overwrite n src dst) else UB.
Proof. rewrite memcpy_eq. cbn [Nat.add firstn skipn app]. rewrite andb_comm. destruct (_ && _); reflexivity. Qed.

(** Number of bytes moved. *)
Definition moved (v : pubvar) (room : nat) : nat :=
  match v_dims v with
  | [_] => v_size v * csize (v_type v)
  | [d1; d2] => leading (value d1) (max d1) (value d2) room * value d2 * csize (v_type v)
  | _ => 0
  end.
Lemma put_n1 d1 d2 room : (if Nat.ltb room (max d1 * value d2) then value d1 else max d1) = leading (value d1) (max d1) (value d2) room.
Proof. unfold leading. destruct (Nat.ltb_spec room (max d1 * value d2)), (Nat.leb_spec (max d1 * value d2) room); try reflexivity; lia. Qed.
Lemma get_n1 d1 d2 room : value d1 <= max d1 -> value d1 * value d2 <= room -> value d2 <> 0 ->
  (let n1 := if negb (Nat.eqb (value d1 * value d2) room) then max d1 else value d1 in if Nat.ltb room (n1 * value d2) then value d1 else n1)
  = leading (value d1) (max d1) (value d2) room.
Proof.
  intros L S Z. cbn zeta. unfold leading. destruct (Nat.eqb_spec (value d1 * value d2) room) as [E|E]; cbn [negb].
  - destruct (Nat.ltb_spec room (value d1 * value d2)); [lia|]. destruct (Nat.leb_spec (max d1 * value d2) room); [|reflexivity]. nia.
  - destruct (Nat.ltb_spec room (max d1 * value d2)), (Nat.leb_spec (max d1 * value d2) room); try reflexivity; lia.
Qed.
Definition simple (v : pubvar) : Prop :=
  (exists d, v_dims v = [d]) \/ (exists d1 d2, v_dims v = [d1; d2] /\ v_type v <> TLong /\ value d1 <= max d1 /\ v_size v = value d1 * value d2).
Lemma type_same t : t <> TLong -> psize t = csize t.
Proof. destruct t; [intros H; elim H; reflexivity|reflexivity|reflexivity]. Qed.
Lemma put_ok name v room ty inp : simple v -> String.length name < 128 -> known_type ty = true -> v_size v <= room ->
  putvar name (Some v) room ty inp = if Nat.leb (moved v room) (length inp) && Nat.leb (moved v room) (length (v_mem v))
    then Ret (0%Z, Some (overwrite (moved v room) inp (v_mem v))) else UB.
Proof.
  intros SV N T R. unfold putvar. rewrite (proj2 (Nat.ltb_lt _ _) N), T. cbn [negb]. destruct (Nat.ltb_spec room (v_size v)) as [K|K]; [lia|].
  unfold moved. destruct SV as [[d E]|[d1 [d2 [E [TY [L S]]]]]]; rewrite E.
  - rewrite memcpy_flat. destruct (_ && _); reflexivity.
  - cbn zeta. rewrite put_n1, (type_same _ TY), rows_flat.
    replace (value d2 * (leading (value d1) (max d1) (value d2) room * csize (v_type v))) with (leading (value d1) (max d1) (value d2) room * value d2 * csize (v_type v)) by lia.
    destruct (_ && _); reflexivity.
Qed.
Lemma get_ok name v room ty out : simple v -> String.length name < 128 -> known_type ty = true -> v_size v <= room ->
  getvar name (Some v) room ty out = if Nat.leb (moved v room) (length (v_mem v)) && Nat.leb (moved v room) (length out)
    then Ret (0%Z, overwrite (moved v room) (v_mem v) out) else UB.
Proof.
  intros SV N T R. unfold getvar. rewrite (proj2 (Nat.ltb_lt _ _) N), T. cbn [negb]. destruct (Nat.ltb_spec room (v_size v)) as [K|K]; [lia|].
  unfold moved. destruct SV as [[d E]|[d1 [d2 [E [TY [L S]]]]]]; rewrite E.
  - rewrite memcpy_flat. destruct (_ && _); reflexivity.
  - destruct (Nat.eq_dec (value d2) 0) as [Z|Z]; [rewrite Z, !Nat.mul_0_r; reflexivity|].
    pose proof (get_n1 d1 d2 room L ltac:(lia) Z) as G. cbn zeta in G |- *. rewrite G, (type_same _ TY), rows_flat.
    replace (value d2 * (leading (value d1) (max d1) (value d2) room * csize (v_type v))) with (leading (value d1) (max d1) (value d2) room * value d2 * csize (v_type v)) by lia.
    destruct (_ && _); reflexivity.
Qed.
Lemma moved_room v room : simple v -> v_size v <= room -> moved v room <= room * csize (v_type v).
Proof.
  intros SV R. unfold moved. destruct SV as [[d E]|[d1 [d2 [E [TY [L S]]]]]]; rewrite E; apply Nat.mul_le_mono_r; [exact R|].
  unfold leading. destruct (Nat.leb_spec (max d1 * value d2) room); lia.
Qed.
Lemma over_over n a b c : n <= length a -> n <= length b -> overwrite n (overwrite n a b) c = overwrite n a c.
Proof.
  intros A B. unfold overwrite. f_equal. rewrite firstn_app, firstn_firstn, Nat.min_id, firstn_length, Nat.min_l, Nat.sub_diag by lia. cbn. apply app_nil_r.
Qed.
Lemma round v name name' room ty ty' inp out m r : simple v -> known_type ty = true -> known_type ty' = true ->
  putvar name (Some v) room ty inp = Ret (0%Z, Some m) -> v_size v <= room ->
  getvar name' (Some (with_mem v m)) room ty' out = Ret r -> r = (0%Z, overwrite (moved v room) inp out).
Proof.
  intros SV T T' P R G. assert (N : String.length name < 128) by (unfold putvar in P; destruct (Nat.ltb_spec (String.length name) 128); [assumption|discriminate]).
  assert (N' : String.length name' < 128) by (unfold getvar in G; destruct (Nat.ltb_spec (String.length name') 128); [assumption|discriminate]).
  rewrite (put_ok name v room ty inp SV N T R) in P. destruct (Nat.leb_spec (moved v room) (length inp)) as [A|A]; cbn [andb] in P; [|discriminate].
  destruct (Nat.leb_spec (moved v room) (length (v_mem v))) as [B|B]; [|discriminate]. injection P as <-.
  rewrite (get_ok name' (with_mem v _) room ty' out SV N' T' R) in G. change (moved (with_mem v _) room) with (moved v room) in G.
  destruct (_ && _); [|discriminate]. injection G as <-. cbn [with_mem v_mem]. rewrite over_over by assumption. reflexivity.
Qed.
Lemma element_over w n k src dst : n <= length src -> n <= length dst -> w * (k + 1) <= n -> element w k (overwrite n src dst) = element w k src.
Proof.
  intros A B C. unfold element, overwrite. rewrite skipn_app, firstn_app, skipn_length, firstn_length, Nat.min_l by lia.
  replace (w - (n - w * k)) with 0 by lia. cbn [firstn]. rewrite app_nil_r. rewrite skipn_firstn_comm, firstn_firstn. f_equal. lia.
Qed.
