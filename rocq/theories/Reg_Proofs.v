(** Proofs for C22. *)
From Coq Require Import String ZArith Bool List Lia ZifyBool.
From Verif Require Import SelOut_Model Inst_Model Inst_Proofs Reg_Model Reg_Spec.
Import ListNotations.
Local Open Scope Z_scope.
Local Opaque Z.pow.

Lemma p31 : 2 ^ 31 = 2147483648. Proof. reflexivity. Qed.
Lemma p32 : 2 ^ 32 = 4294967296. Proof. reflexivity. Qed.
Lemma p64 : 2 ^ 64 = 18446744073709551616. Proof. reflexivity. Qed.
Lemma to_int_ok n : 0 <= n < 2 ^ 31 -> to_int n = n.
Proof. intros H. unfold to_int. rewrite p31 in *. rewrite p32. rewrite Z.mod_small by lia. replace (n <? 2147483648) with true by lia. reflexivity. Qed.
Lemma to_size_ok n : 0 <= n < 2 ^ 64 -> to_size n = n.
Proof. intros H. apply Z.mod_small. exact H. Qed.
Lemma to_size_neg n : is_int n -> n < 0 -> to_size n = n + 2 ^ 64.
Proof. unfold is_int, to_size. intros H N. rewrite p31 in H. rewrite <- (Z_mod_plus_full n 1 (2 ^ 64)). rewrite Z.mul_1_l. apply Z.mod_small. rewrite p64. lia. Qed.

Definition keys {A} (m : list (Z * A)) : list Z := map fst m.
Lemma lookup_in {A} (m : list (Z * A)) k : lookup m k <> None <-> In k (keys m).
Proof.
  induction m as [|[n x] r IH]; cbn; [split; [congruence | intros []]|]. destruct (n =? k) eqn:E.
  - split; [intros _; left; lia | congruence].
  - rewrite IH. split; [right; assumption | intros [C|C]; [lia | exact C]].
Qed.
Lemma lookup_none {A} (m : list (Z * A)) k : ~ In k (keys m) -> lookup m k = None.
Proof. intros N. destruct (lookup m k) eqn:E; [|reflexivity]. exfalso. apply N. apply lookup_in. congruence. Qed.
Lemma lookup_insert {A} (m : list (Z * A)) k x j : ~ In k (keys m) -> lookup (insert m k x) j = if k =? j then Some x else lookup m j.
Proof.
  induction m as [|[n y] r IH]; intros N; cbn [insert lookup]; [reflexivity|]. cbn in N. destruct (n =? k) eqn:E; [exfalso; apply N; left; lia|].
  destruct (k <? n); cbn [lookup].
  - destruct (k =? j) eqn:J; reflexivity.
  - rewrite IH by (intros I; apply N; right; exact I). destruct (n =? j) eqn:F; [|reflexivity]. replace (k =? j) with false by lia. reflexivity.
Qed.
Lemma keys_insert {A} (m : list (Z * A)) k x j : In j (keys (insert m k x)) -> j = k \/ In j (keys m).
Proof.
  induction m as [|[n y] r IH]; cbn [insert]; [intros [<-|[]]; left; reflexivity|]. destruct (n =? k); [right; assumption|]. destruct (k <? n); cbn; [intuition|].
  intros [<-|I]; [right; left; reflexivity|]. destruct (IH I); auto.
Qed.
Lemma nodup_insert {A} (m : list (Z * A)) k x : ~ In k (keys m) -> NoDup (keys m) -> NoDup (keys (insert m k x)).
Proof.
  induction m as [|[n y] r IH]; intros N D; cbn [insert]; [repeat constructor; intros []|]. destruct (n =? k); [exact D|]. destruct (k <? n).
  - constructor; [exact N | exact D].
  - inversion D; subst. cbn. constructor.
    + intros I. apply keys_insert in I. destruct I as [->|I]; [apply N; left; reflexivity | contradiction].
    + apply IH; [intros I; apply N; right; exact I | assumption].
Qed.
Lemma keys_erase {A} (m : list (Z * A)) k j : In j (keys (erase m k)) -> In j (keys m).
Proof. induction m as [|[n y] r IH]; cbn; [auto|]. destruct (n =? k); cbn; intuition. Qed.
Lemma nodup_erase {A} (m : list (Z * A)) k : NoDup (keys m) -> NoDup (keys (erase m k)).
Proof.
  induction m as [|[n y] r IH]; intros D; cbn; [constructor|]. inversion D; subst. destruct (n =? k); [assumption|]. cbn. constructor; [|apply IH; assumption].
  intros I. apply keys_erase in I. contradiction.
Qed.
Lemma lookup_erase {A} (m : list (Z * A)) k j : NoDup (keys m) -> lookup (erase m k) j = if k =? j then None else lookup m j.
Proof.
  induction m as [|[n y] r IH]; intros D; cbn [erase lookup]; [destruct (k =? j); reflexivity|]. inversion D; subst.
  destruct (n =? k) eqn:E.
  - destruct (k =? j) eqn:F.
    + apply lookup_none. replace j with n by lia. assumption.
    + replace (n =? j) with false by lia. reflexivity.
  - cbn [lookup]. rewrite IH by assumption. destruct (n =? j) eqn:F; [|reflexivity]. replace (k =? j) with false by lia. reflexivity.
Qed.
Lemma keys_update {A} (m : list (Z * A)) k x : keys (update m k x) = keys m.
Proof. induction m as [|[n y] r IH]; [reflexivity|]. cbn [update]. destruct (n =? k); cbn; [reflexivity|]. f_equal. exact IH. Qed.
Lemma lookup_update {A} (m : list (Z * A)) k x j : lookup m k <> None -> lookup (update m k x) j = if k =? j then Some x else lookup m j.
Proof.
  induction m as [|[n y] r IH]; cbn [update lookup]; [congruence|]. destruct (n =? k) eqn:E; cbn [lookup].
  - intros _. destruct (k =? j) eqn:F; [replace (n =? j) with true by lia | replace (n =? j) with false by lia]; reflexivity.
  - intros N. rewrite (IH N). destruct (n =? j) eqn:F; [|reflexivity]. replace (k =? j) with false by lia. reflexivity.
Qed.

Definition fstep (c : call) (i count : Z) (st : option (kind * list op)) : option (kind * list op) := follow [c] i count st.
Lemma follow_snoc h c i : forall count st, follow (h ++ [c]) i count st = fstep c i (count + Z.of_nat (made h)) (follow h i count st).
Proof.
  induction h as [|d h IH]; intros count st; [cbn [app]; unfold made; cbn [filter List.length]; rewrite Z.add_0_r; reflexivity|].
  destruct d as [k b|j|j|j p]; cbn [app follow]; [destruct b|..]; rewrite IH; unfold made; cbn [filter List.length]; f_equal; lia.
Qed.
Lemma made_snoc h c : made (h ++ [c]) = (made h + match c with Create _ true => 1 | _ => 0 end)%nat.
Proof. unfold made. rewrite filter_app, app_length. destruct c as [k []| | |]; reflexivity. Qed.

Definition view (o : option (kind * list op)) : option (kind * inst) :=
  match o with Some (k, l) => Some (k, runs created l) | None => None end.
Record inv (h : list call) (r : registry) : Prop := {
  i_next : next r = Z.of_nat (made h);
  i_keys : forall k, In k (keys (live r)) -> 0 <= k < next r;
  i_nodup : NoDup (keys (live r));
  i_view : forall i, lookup (live r) i = view (object h i);
  i_high : forall i, i < 0 \/ next r <= i -> object h i = None }.
Lemma object_snoc h c i : object (h ++ [c]) i = fstep c i (Z.of_nat (made h)) (object h i).
Proof. unfold object. rewrite follow_snoc. rewrite Z.add_0_l. reflexivity. Qed.
Lemma get_ok h r id : inv h r -> few h -> is_int id -> get_instance r id = view (object h id).
Proof.
  intros J F I. unfold get_instance. unfold few in F. pose proof (i_next h r J) as N. destruct (Z_lt_le_dec id 0) as [L|L].
  - rewrite to_size_neg by assumption. rewrite (i_high h r J id) by (left; exact L). apply lookup_none. intros K. apply (i_keys h r J) in K. rewrite N in K.
    unfold is_int in I. rewrite p31 in *. rewrite p64 in K. lia.
  - rewrite to_size_ok by (unfold is_int in I; rewrite p31 in I; rewrite p64; lia). apply (i_view h r J).
Qed.
Lemma live_in h r id : inv h r -> few h -> is_int id -> object h id <> None -> 0 <= id < next r /\ to_size id = id /\ lookup (live r) id <> None.
Proof.
  intros J F I O. assert (B : 0 <= id < next r) by (destruct (Z_lt_le_dec id 0); [|destruct (Z_lt_le_dec id (next r))]; try lia; exfalso; apply O; apply (i_high h r J); lia).
  split; [exact B|]. split.
  - apply to_size_ok. unfold is_int in I. rewrite p31 in I. rewrite p64. lia.
  - rewrite (i_view h r J). destruct (object h id) as [[k l]|]; [discriminate | contradiction].
Qed.
Lemma few_pre h c : few (h ++ [c]) -> few h.
Proof. unfold few. rewrite made_snoc. lia. Qed.
Lemma erase_inv h r id c : inv h r -> few h -> is_int id -> object h id <> None ->
  (forall i, object (h ++ [c]) i = if id =? i then None else object h i) -> made (h ++ [c]) = made h ->
  inv (h ++ [c]) (mkR (erase (live r) (to_size id)) (next r)).
Proof.
  intros J F I O E M. destruct (live_in h r id J F I O) as (B & TS & L). rewrite TS. constructor; cbn [live next].
  - rewrite M. apply (i_next h r J).
  - intros k K. apply keys_erase in K. apply (i_keys h r J). exact K.
  - apply nodup_erase. apply (i_nodup h r J).
  - intros i. rewrite lookup_erase by apply (i_nodup h r J). rewrite E. destruct (id =? i); [reflexivity | apply (i_view h r J)].
  - intros i X. rewrite E. destruct (id =? i); [reflexivity | apply (i_high h r J); exact X].
Qed.
Lemma keep_inv h r c : inv h r -> (forall i, object (h ++ [c]) i = object h i) -> made (h ++ [c]) = made h -> inv (h ++ [c]) r.
Proof.
  intros J E M. constructor; rewrite ?M; try apply J; intros i; rewrite E; apply J.
Qed.
Lemma exec_inv h r c : inv h r -> few (h ++ [c]) -> int_ids c -> inv (h ++ [c]) (fst (exec r c)).
Proof.
  intros J F I. pose proof (few_pre h c F) as F0. destruct c as [k b|id|id|id p]; cbn [exec int_ids] in *.
  - unfold create. destruct b; cbn [fst].
    + assert (NK : ~ In (next r) (keys (live r))) by (intros K; apply (i_keys h r J) in K; lia).
      assert (NX : to_size (next r + 1) = next r + 1).
      { apply to_size_ok. rewrite (i_next h r J). unfold few in F. rewrite made_snoc in F. rewrite p31 in F. rewrite p64. lia. }
      rewrite NX. constructor; cbn [live next].
      * rewrite made_snoc, (i_next h r J). lia.
      * intros j K. apply keys_insert in K. destruct K as [->|K]; [rewrite (i_next h r J); lia | apply (i_keys h r J) in K; lia].
      * apply nodup_insert; [exact NK | apply (i_nodup h r J)].
      * intros i. rewrite lookup_insert by exact NK. rewrite object_snoc. cbn. rewrite <- (i_next h r J). destruct (next r =? i); [reflexivity | apply (i_view h r J)].
      * intros i X. rewrite object_snoc. cbn. rewrite <- (i_next h r J). replace (next r =? i) with false.
        -- apply (i_high h r J). lia.
        -- pose proof (i_next h r J). lia.
    + apply keep_inv; [exact J | intros i; rewrite object_snoc; reflexivity | rewrite made_snoc; lia].
  - unfold destroy. assert (M : made (h ++ [Destroy id]) = made h) by (rewrite made_snoc; lia).
    assert (E : forall i, object (h ++ [Destroy id]) i = if id =? i then None else object h i) by (intros i; rewrite object_snoc; reflexivity).
    rewrite (get_ok h r id J F0 I). destruct (object h id) as [[k l]|] eqn:O; cbn [view].
    + destruct (live_in h r id J F0 I ltac:(congruence)) as (B & _). replace (id >=? 0) with true by lia. cbn [fst].
      apply (erase_inv h r id (Destroy id)); try assumption. congruence.
    + assert (K : inv (h ++ [Destroy id]) r).
      { apply keep_inv; [exact J | | exact M]. intros i. rewrite E. destruct (id =? i) eqn:X; [replace i with id by lia; symmetry; exact O | reflexivity]. }
      destruct (id >=? 0); exact K.
  - unfold destroy_mms. assert (M : made (h ++ [DestroyMms id]) = made h) by (rewrite made_snoc; lia).
    assert (E : forall i, object (h ++ [DestroyMms id]) i = if id =? i then match object h i with Some (Mms, _) => None | _ => object h i end else object h i)
      by (intros i; rewrite object_snoc; reflexivity).
    rewrite (get_ok h r id J F0 I). destruct (object h id) as [[k l]|] eqn:O; cbn [view].
    + destruct (live_in h r id J F0 I ltac:(congruence)) as (B & _). replace (id >=? 0) with true by lia. destruct k; cbn [fst].
      * apply keep_inv; [exact J | | exact M]. intros i. rewrite E. destruct (id =? i) eqn:X; [replace i with id by lia; rewrite O; reflexivity | reflexivity].
      * apply (erase_inv h r id (DestroyMms id)); try assumption; [congruence|]. intros i. rewrite E. destruct (id =? i) eqn:X; [|reflexivity]. replace i with id by lia. rewrite O. reflexivity.
    + assert (K : inv (h ++ [DestroyMms id]) r).
      { apply keep_inv; [exact J | | exact M]. intros i. rewrite E. destruct (id =? i) eqn:X; [replace i with id by lia; rewrite O; reflexivity | reflexivity]. }
      destruct (id >=? 0); exact K.
  - unfold use. assert (M : made (h ++ [Use id p]) = made h) by (rewrite made_snoc; lia).
    assert (E : forall i, object (h ++ [Use id p]) i = if id =? i then match object h i with Some (k, l) => Some (k, l ++ [p]) | None => None end else object h i)
      by (intros i; rewrite object_snoc; reflexivity).
    rewrite (get_ok h r id J F0 I). destruct (object h id) as [[k l]|] eqn:O; cbn [view fst].
    + destruct (live_in h r id J F0 I ltac:(congruence)) as (B & TS & L). rewrite TS. constructor; cbn [live next].
      * rewrite M. apply (i_next h r J).
      * rewrite keys_update. apply (i_keys h r J).
      * rewrite keys_update. apply (i_nodup h r J).
      * intros i. rewrite lookup_update by exact L. rewrite E. destruct (id =? i) eqn:X; [|apply (i_view h r J)]. replace i with id by lia. rewrite O. cbn. rewrite runs_snoc. reflexivity.
      * intros i X. rewrite E. replace (id =? i) with false by lia. apply (i_high h r J). exact X.
    + apply keep_inv; [exact J | | exact M]. intros i. rewrite E. destruct (id =? i) eqn:X; [replace i with id by lia; rewrite O; reflexivity | reflexivity].
Qed.
Lemma execs_inv h : few h -> Forall int_ids h -> inv h (execs start h).
Proof.
  induction h as [|c h IH] using rev_ind; intros F I.
  - constructor; cbn; try reflexivity; [intros k [] | constructor].
  - apply Forall_app in I. destruct I as [I1 I2]. inversion I2; subst. unfold execs. rewrite fold_left_app. cbn [fold_left].
    apply exec_inv; [apply IH; [apply (few_pre h c F) | exact I1] | exact F | assumption].
Qed.
Lemma instances_ok h id : few h -> Forall int_ids h -> is_int id ->
  get_instance (execs start h) id = match object h id with Some (k, l) => Some (k, runs created l) | None => None end.
Proof. intros F I J. apply get_ok; [apply execs_inv; assumption | exact F | exact J]. Qed.
Lemma new_id h k : few (h ++ [Create k true]) -> Forall int_ids h ->
  snd (exec (execs start h) (Create k true)) = ACode (Z.of_nat (made h)).
Proof.
  intros F I. pose proof (execs_inv h (few_pre _ _ F) I) as J. cbn. rewrite (i_next _ _ J), to_int_ok; [reflexivity|]. unfold few in F. rewrite made_snoc in F. lia.
Qed.
(** The ids returned by the successful creations of a history. *)
Fixpoint ids (r : registry) (h : list call) : list answer :=
  match h with
  | [] => []
  | c :: t => match c with Create _ true => [snd (exec r c)] | _ => [] end ++ ids (fst (exec r c)) t
  end.
Lemma ids_snoc h c : forall r, ids r (h ++ [c]) = ids r h ++ match c with Create _ true => [snd (exec (execs r h) c)] | _ => [] end.
Proof.
  induction h as [|d h IH]; intros r; cbn [app ids]; [rewrite app_nil_r; reflexivity|]. rewrite IH, app_assoc. reflexivity.
Qed.
Lemma ids_ok h : few h -> Forall int_ids h -> ids start h = map (fun n => ACode (Z.of_nat n)) (seq 0 (made h)).
Proof.
  induction h as [|c h IH] using rev_ind; intros F I; [reflexivity|]. rewrite ids_snoc. apply Forall_app in I. destruct I as [I1 I2].
  rewrite IH by (try exact (few_pre h c F); exact I1). rewrite made_snoc. destruct c as [k []| | |]; rewrite ?Nat.add_0_r, ?app_nil_r; try reflexivity.
  rewrite (new_id h k F I1). rewrite seq_app, map_app. reflexivity.
Qed.
Lemma ids_distinct h : few h -> Forall int_ids h -> NoDup (ids start h).
Proof.
  intros F I. rewrite ids_ok by assumption. assert (G : forall a n, NoDup (map (fun n => ACode (Z.of_nat n)) (seq a n))).
  { intros a n. revert a. induction n as [|n IH]; intros a; cbn; [constructor|]. constructor; [|apply IH]. intros X. apply in_map_iff in X. destruct X as (m & E & IN).
    apply in_seq in IN. injection E as E. lia. }
  apply G.
Qed.
Lemma bad_ok h id p : few h -> Forall int_ids h -> is_int id -> object h id = None ->
  exec (execs start h) (Use id p) = (execs start h, ACode IPQ_BADINSTANCE) /\
  exec (execs start h) (Destroy id) = (execs start h, ACode IPQ_BADINSTANCE) /\
  exec (execs start h) (DestroyMms id) = (execs start h, ACode IPQ_BADINSTANCE).
Proof.
  intros F I J O. pose proof (instances_ok h id F I J) as G. rewrite O in G. cbn [exec]. unfold use, destroy, destroy_mms. rewrite G.
  destruct (id >=? 0); repeat split.
Qed.
Lemma good_ok h id p k l : few h -> Forall int_ids h -> is_int id -> object h id = Some (k, l) ->
  snd (exec (execs start h) (Use id p)) = AResult (snd (fst (step (runs created l) p))) /\
  snd (exec (execs start h) (Destroy id)) = ACode IPQ_OK /\
  snd (exec (execs start h) (DestroyMms id)) = ACode (match k with Mms => IPQ_OK | Plain => IPQ_BADINSTANCE end).
Proof.
  intros F I J O. pose proof (instances_ok h id F I J) as G. rewrite O in G. cbn [exec]. unfold use, destroy, destroy_mms. rewrite G.
  destruct (live_in h _ id (execs_inv h F I) F J ltac:(congruence)) as (B & _). replace (id >=? 0) with true by lia. destruct k; repeat split.
Qed.
Lemma others_ok h c id : few (h ++ [c]) -> Forall int_ids (h ++ [c]) -> is_int id ->
  (match c with Create _ _ => object h id <> None | Destroy j | DestroyMms j | Use j _ => j <> id end) ->
  get_instance (execs start (h ++ [c])) id = get_instance (execs start h) id.
Proof.
  intros F I J D. pose proof (few_pre h c F) as F0. assert (I0 : Forall int_ids h) by (apply Forall_app in I; apply I).
  rewrite !instances_ok by assumption. rewrite object_snoc. destruct c as [k b|j|j|j p]; cbn.
  - destruct b; [|reflexivity]. pose proof (execs_inv h F0 I0) as V. destruct (live_in h _ id V F0 J D) as (B & _). rewrite (i_next _ _ V) in B.
    replace (Z.of_nat (made h) =? id) with false by lia. reflexivity.
  - replace (j =? id) with false by lia. reflexivity.
  - replace (j =? id) with false by lia. reflexivity.
  - replace (j =? id) with false by lia. reflexivity.
Qed.
