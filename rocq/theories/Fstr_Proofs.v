From Coq Require Import Ascii List ZArith Bool Lia ZifyBool.
From Verif Require Import CStr_Model Fstr_Model Fstr_Spec.
Import ListNotations.
Local Open Scope Z_scope.

Lemma store_ok : forall (b : block) i c, (i < length b)%nat -> store b i c = Ret (firstn i b ++ c :: skipn (S i) b).
Proof.
  induction b as [|x b IH]; intros [|i] c H; cbn [length] in H; [lia|lia|reflexivity|].
  cbn [store]. rewrite IH by lia. reflexivity.
Qed.
Lemma store_ub : forall (b : block) i c, (length b <= i)%nat -> store b i c = UB.
Proof.
  induction b as [|x b IH]; intros [|i] c H; cbn [length] in H; try reflexivity; [lia|].
  cbn [store]. rewrite IH by lia. reflexivity.
Qed.
Lemma firstn_snoc_app {A} (l r : list A) : firstn (length l) (l ++ r) = l.
Proof. rewrite firstn_app, Nat.sub_diag, firstn_all. cbn. apply app_nil_r. Qed.
Lemma skipn_app_len {A} (l r : list A) : skipn (length l) (l ++ r) = r.
Proof. rewrite skipn_app, Nat.sub_diag, skipn_all. reflexivity. Qed.
(** Storing just after a prefix. *)
Lemma store_at (l r : block) x c : store (l ++ x :: r) (length l) c = Ret (l ++ c :: r).
Proof.
  rewrite store_ok by (rewrite app_length; cbn; lia). f_equal. rewrite firstn_snoc_app. do 2 f_equal.
  replace (S (length l)) with (length (l ++ [x])) by (rewrite app_length; cbn; lia).
  replace (l ++ x :: r) with ((l ++ [x]) ++ r) by (rewrite <- app_assoc; reflexivity). apply skipn_app_len.
Qed.
Lemma load_at (l r : block) x : load (l ++ x :: r) (length l) = Ret x.
Proof. unfold load. rewrite nth_error_app2, Nat.sub_diag by lia. reflexivity. Qed.
Lemma load_at' (l d r : block) x : length l = length d -> load (d ++ x :: r) (length l) = Ret x.
Proof. intros ->. apply load_at. Qed.

Lemma strlen_ok text junk : ~ In NUL text -> strlen (text ++ NUL :: junk) = Ret (length text).
Proof.
  induction text as [|c t IH]; intros H; [reflexivity|]. cbn [app strlen length]. destruct (Ascii.eqb_spec c NUL) as [E|E]; [elim H; left; exact E|].
  rewrite IH; [reflexivity|]. intros K. apply H. right. exact K.
Qed.
Lemma strlen_inv : forall b n, strlen b = Ret n -> exists text junk, b = text ++ NUL :: junk /\ ~ In NUL text /\ length text = n.
Proof.
  induction b as [|c b IH]; intros n H; cbn [strlen] in H; [discriminate|]. destruct (Ascii.eqb_spec c NUL) as [E|E].
  - injection H as <-. exists [], b. subst c. repeat split. intros [].
  - destruct (strlen b) as [m| |] eqn:S; cbn [bind] in H; try discriminate. injection H as <-. destruct (IH m eq_refl) as [t [j [-> [N L]]]].
    exists (c :: t), j. repeat split; [intros [K|K]; [exact (E K)|exact (N K)]|]. cbn. rewrite L. reflexivity.
Qed.
Lemma strlen_none b : ~ In NUL b -> strlen b = UB.
Proof.
  induction b as [|c b IH]; intros H; [reflexivity|]. cbn [strlen]. destruct (Ascii.eqb_spec c NUL) as [E|E]; [elim H; left; exact E|].
  rewrite IH; [reflexivity|]. intros K. apply H. right. exact K.
Qed.

(** The padding loop. *)
Lemma pad_ok : forall todo (l r : block), (todo <= length r)%nat -> pad_blanks (l ++ r) (length l) todo = Ret (l ++ repeat blank todo ++ skipn todo r).
Proof.
  induction todo as [|n IH]; intros l r H; [reflexivity|]. destruct r as [|x r]; cbn [length] in H; [lia|]. cbn [pad_blanks].
  rewrite store_at. cbn [bind]. specialize (IH (l ++ [blank]) r). rewrite app_length in IH. cbn [length] in IH. rewrite Nat.add_1_r in IH.
  rewrite <- app_assoc in IH. cbn [app] in IH. rewrite IH by lia. rewrite <- app_assoc. reflexivity.
Qed.
Lemma pad_ub : forall todo (b : block) i, (length b < i + todo)%nat -> (i <= length b)%nat -> pad_blanks b i todo = UB.
Proof.
  induction todo as [|n IH]; intros b i H K; [lia|]. cbn [pad_blanks]. destruct (Nat.eq_dec i (length b)) as [->|E]; [rewrite store_ub by lia; reflexivity|].
  rewrite store_ok by lia. cbn [bind]. apply IH; rewrite app_length, firstn_length; cbn [length]; rewrite skipn_length; lia.
Qed.
(** The copying loop on the rest of a C string. *)
Lemma copy_ok : forall todo (l r done text junk : block), length l = length done -> ~ In NUL text -> (todo <= length r)%nat ->
  copy_chars (l ++ r) (done ++ text ++ NUL :: junk) (length l) todo
  = Ret (l ++ firstn todo text ++ skipn (Nat.min todo (length text)) r, (length l + Nat.min todo (length text))%nat, (todo - length text)%nat).
Proof.
  induction todo as [|n IH]; intros l r d text junk L N H; [cbn [copy_chars firstn Nat.min skipn app]; rewrite Nat.add_0_r; reflexivity|].
  cbn [copy_chars]. destruct text as [|c t].
  - cbn [app]. rewrite (load_at' _ _ _ _ L). cbn [bind]. rewrite Ascii.eqb_refl. cbn. rewrite Nat.add_0_r. reflexivity.
  - cbn [app]. rewrite (load_at' _ _ _ _ L). cbn [bind]. destruct (Ascii.eqb_spec c NUL) as [E|E]; [elim N; left; exact E|].
    destruct r as [|x r]; cbn [length] in H; [lia|]. rewrite store_at. cbn [bind].
    specialize (IH (l ++ [c]) r (d ++ [c]) t junk). rewrite !app_length in IH. cbn [length] in IH. rewrite !Nat.add_1_r in IH.
    rewrite <- !app_assoc in IH. cbn [app] in IH. rewrite IH by (try lia; intros K; apply N; right; exact K).
    cbn [app firstn length]. rewrite <- Nat.succ_min_distr. cbn [skipn].
    replace (length l + S (Nat.min n (length t)))%nat with (S (length l) + Nat.min n (length t))%nat by lia. reflexivity.
Qed.
Lemma copy_ub : forall todo (b l src : block) , (length l <= length b)%nat -> (length b < length l + todo)%nat -> forall text junk done,
  length l = length done -> ~ In NUL text -> src = done ++ text ++ NUL :: junk ->
  match copy_chars b src (length l) todo with
  | Ret (b', i, rest) => length b' = length b /\ (i <= length b /\ length b < i + rest)%nat
  | UB => True | Exit => False end.
Proof.
  induction todo as [|n IH]; intros b l src H K text junk d L N ->; [lia|]. cbn [copy_chars]. destruct text as [|c t].
  - cbn [app]. rewrite (load_at' _ _ _ _ L). cbn [bind]. rewrite Ascii.eqb_refl. repeat split; lia.
  - cbn [app]. rewrite (load_at' _ _ _ _ L). cbn [bind]. destruct (Ascii.eqb_spec c NUL) as [E|E]; [elim N; left; exact E|].
    destruct (Nat.eq_dec (length l) (length b)) as [F|F]; [rewrite store_ub by lia; exact I|].
    rewrite store_ok by lia. cbn [bind]. set (b' := firstn (length l) b ++ c :: skipn (S (length l)) b).
    assert (B : length b' = length b) by (unfold b'; rewrite app_length, firstn_length; cbn [length]; rewrite skipn_length; lia).
    specialize (IH b' (l ++ [c]) (d ++ c :: t ++ NUL :: junk)). rewrite app_length in IH. cbn [length] in IH. rewrite B, Nat.add_1_r in IH.
    specialize (IH ltac:(lia) ltac:(lia) t junk (d ++ [c])). rewrite app_length in IH. cbn [length] in IH.
    specialize (IH ltac:(lia) ltac:(intros Z; apply N; right; exact Z)). rewrite <- app_assoc in IH. cbn [app] in IH. specialize (IH eq_refl).
    exact IH.
Qed.

Lemma assigned_eq n text : assigned n text = firstn n text ++ repeat blank (n - length text).
Proof.
  unfold assigned. rewrite firstn_app. f_equal. change " "%char with blank.
  assert (G : forall m k, (m <= k)%nat -> firstn m (repeat blank k) = repeat blank m).
  { induction m as [|m IH]; intros k H; [reflexivity|]. destruct k as [|k]; [lia|]. cbn. rewrite IH by lia. reflexivity. }
  apply G. lia.
Qed.
Lemma assigned_length n text : length (assigned n text) = n.
Proof. rewrite assigned_eq, app_length, firstn_length, repeat_length. lia. Qed.

Lemma copy_pad dest src text n : holds src text -> (n <= length dest)%nat ->
  exists b i rest, copy_chars dest src O n = Ret (b, i, rest) /\ pad_blanks b i rest = Ret (assigned n text ++ skipn n dest).
Proof.
  intros [N [junk ->]] H. pose proof (copy_ok n [] dest [] text junk eq_refl N H) as C. cbn [app length] in C. unfold NUL in C. rewrite C.
  do 3 eexists. split; [reflexivity|]. rewrite assigned_eq. cbn [Nat.add].
  set (m := Nat.min n (length text)). assert (F : length (firstn n text) = m) by (rewrite firstn_length; reflexivity).
  rewrite <- F at 2. rewrite pad_ok by (rewrite skipn_length; subst m; lia). rewrite <- app_assoc. do 3 f_equal.
  assert (SS : forall (a b : nat) (l : block), skipn a (skipn b l) = skipn (b + a) l).
  { intros a b. induction b as [|b IHb]; intros l; [reflexivity|]. destruct l as [|x l]; [rewrite !skipn_nil; reflexivity|]. cbn [skipn Nat.add]. apply IHb. }
  rewrite SS. f_equal. subst m. lia.
Qed.
Lemma pad_result dest src text n : holds src text ->
  padfstring dest src n = if (n <=? length dest)%nat then Ret (assigned n text ++ skipn n dest) else UB.
Proof.
  intros H. destruct (Nat.leb_spec n (length dest)) as [G|G]; unfold padfstring.
  - destruct (copy_pad dest src text n H G) as [b [i [r [C P]]]]. rewrite C. cbn [bind]. exact P.
  - destruct H as [N [junk ->]].
    pose proof (copy_ub n dest [] (text ++ NUL :: junk) ltac:(cbn; lia) ltac:(cbn; lia) text junk [] eq_refl N eq_refl) as C. cbn [length] in C. unfold NUL in C.
    destruct (copy_chars dest _ 0 n) as [[[b i] r]| |]; [|reflexivity|destruct C]. cbn [bind]. destruct C as [B [C D]]. apply pad_ub; lia.
Qed.
Lemma pad_len_result dest src text n : holds src text ->
  padfstring_len dest src n = if (Z.to_nat n <=? length dest)%nat then Ret (assigned (Z.to_nat n) text ++ skipn (Z.to_nat n) dest, Z.of_nat (length text)) else UB.
Proof.
  intros H. unfold padfstring_len. assert (L : strlen src = Ret (length text)) by (destruct H as [N [junk ->]]; apply strlen_ok; exact N).
  rewrite L. cbn [bind]. pose proof (pad_result dest src text (Z.to_nat n) H) as P. unfold padfstring in P.
  destruct (copy_chars dest src 0 (Z.to_nat n)) as [[[b i] r]| |]; cbn [bind] in P |- *.
  - rewrite P. destruct (Z.to_nat n <=? length dest)%nat; reflexivity.
  - destruct (Z.to_nat n <=? length dest)%nat; [discriminate|reflexivity].
  - destruct (Z.to_nat n <=? length dest)%nat; discriminate.
Qed.

(** Fortran to C. *)
Lemma isgraph_ok c : isgraph c = true <-> prints c.
Proof. unfold isgraph, prints. rewrite andb_true_iff, !Z.leb_le. reflexivity. Qed.
Lemma load_first (s : block) (i : nat) : (i < length s)%nat -> exists c, load s i = Ret c /\ firstn (S i) s = firstn i s ++ [c].
Proof.
  revert i. induction s as [|x s IH]; intros [|i] H; cbn [length] in H; [lia|lia|exists x; split; reflexivity|].
  destruct (IH i ltac:(lia)) as [c [A B]]. exists c. split; [exact A|]. cbn [firstn] in B |- *. rewrite B. reflexivity.
Qed.
Lemma memcpy_ok : forall n (l r : block), (n <= length r)%nat -> memcpy (l ++ r) (length l) n = Ret (firstn n r).
Proof.
  induction n as [|n IH]; intros l r H; [reflexivity|]. destruct r as [|x r]; cbn [length] in H; [lia|]. cbn [memcpy]. rewrite load_at. cbn [bind].
  specialize (IH (l ++ [x]) r). rewrite app_length in IH. cbn [length] in IH. rewrite Nat.add_1_r, <- app_assoc in IH. cbn [app] in IH.
  rewrite IH by lia. reflexivity.
Qed.
Lemma last_graph_ok (s : block) : forall k, (k <= length s)%nat -> exists j, last_graph s k = Ret j /\ (j <= k)%nat /\ without_trailing prints (firstn k s) (firstn j s).
Proof.
  induction k as [|k IH]; intros H; cbn [last_graph]; [exists O; repeat split; try lia; exists []; repeat split; [constructor|left; reflexivity]|].
  destruct (load_first s k ltac:(lia)) as [c [L F]]. rewrite L. cbn [bind]. destruct (isgraph c) eqn:G; cbn [negb].
  - exists (S k). repeat split; [lia|]. exists []. rewrite app_nil_r. repeat split; [constructor|]. right. exists (firstn k s), c. split; [exact F|]. apply isgraph_ok. exact G.
  - destruct (IH ltac:(lia)) as [j [E [J [r [A [B C]]]]]]. exists j. repeat split; [exact E|lia|]. exists (r ++ [c]). repeat split; [|apply Forall_app; split; [exact B|]|exact C].
    + rewrite F, A, <- app_assoc. reflexivity.
    + constructor; [|constructor]. intros K. apply isgraph_ok in K. congruence.
Qed.
Lemma f2c_ok (s : block) n : (n <= length s)%nat -> exists t, f2cstring s n = Ret (t ++ ["000"%char]) /\ without_trailing prints (firstn n s) t.
Proof.
  intros H. unfold f2cstring. destruct (last_graph_ok s n H) as [j [E [J W]]]. rewrite E. cbn [bind].
  pose proof (memcpy_ok j [] s ltac:(lia)) as M. cbn [app length] in M. rewrite M. cbn [bind]. exists (firstn j s). split; [reflexivity|exact W].
Qed.
Lemma trailing_unique p s t t' : without_trailing p s t -> without_trailing p s t' -> t = t'.
Proof.
  revert s t t'. assert (G : forall s t t' r r', s = t ++ r -> Forall (fun c => ~ p c) r -> (t = [] \/ exists u c, t = u ++ [c] /\ p c) ->
    s = t' ++ r' -> Forall (fun c => ~ p c) r' -> (length t' <= length t)%nat -> t = t').
  { intros s t t' r r' A F T A' F' L. assert (E : t = t' ++ firstn (length t - length t') r').
    { rewrite A in A'. apply (f_equal (firstn (length t))) in A'. rewrite firstn_snoc_app in A'. rewrite firstn_app in A'. rewrite (firstn_all2 t') in A' by lia. exact A'. }
    destruct (firstn (length t - length t') r') as [|y q] eqn:Q; [rewrite app_nil_r in E; exact E|]. exfalso.
    destruct T as [T|[u [c [T P]]]]; [rewrite T in E; destruct t'; discriminate|].
    assert (IN : In c (firstn (length t - length t') r')).
    { rewrite Q. rewrite T in E. assert (NE : y :: q <> []) by discriminate. destruct (exists_last NE) as [q' [z Z]]. rewrite Z in E |- *.
      rewrite app_assoc in E. apply app_inj_tail in E. destruct E as [_ ->]. apply in_or_app. right. left. reflexivity. }
    rewrite Forall_forall in F'. apply (F' c); [|exact P]. rewrite <- (firstn_skipn (length t - length t') r'). apply in_or_app. left. exact IN. }
  intros s t t' [r [A [F T]]] [r' [A' [F' T']]]. destruct (Nat.le_ge_cases (length t') (length t)) as [L|L]; [eapply G; eassumption|].
  symmetry. eapply G; eassumption.
Qed.
Lemma f2c_iff (s : block) n t : (n <= length s)%nat -> (f2cstring s n = Ret (t ++ ["000"%char]) <-> without_trailing prints (firstn n s) t).
Proof.
  intros H. destruct (f2c_ok s n H) as [u [E W]]. split.
  - intros K. rewrite E in K. injection K as K. apply app_inj_tail in K. destruct K as [<- _]. exact W.
  - intros K. rewrite E. rewrite (trailing_unique _ _ _ _ W K). reflexivity.
Qed.
Lemma blank_not : ~ prints " "%char.
Proof. unfold prints. cbn. lia. Qed.
Lemma round_trip dest src text n b t : holds src text -> padfstring dest src n = Ret b -> (length text <= n)%nat ->
  without_trailing prints text t -> f2cstring b n = Ret (t ++ ["000"%char]).
Proof.
  intros H P L [r [E [F T]]]. rewrite (pad_result _ _ _ _ H) in P. destruct (Nat.leb_spec n (length dest)) as [G|G]; [|discriminate]. injection P as <-.
  apply f2c_iff; [rewrite app_length, assigned_length; lia|]. rewrite firstn_app, assigned_length, Nat.sub_diag. cbn [firstn]. rewrite app_nil_r.
  rewrite firstn_all2 by (rewrite assigned_length; lia). rewrite assigned_eq, firstn_all2 by lia. exists (r ++ repeat blank (n - length text)).
  repeat split; [rewrite E at 1; rewrite <- app_assoc; reflexivity| |exact T]. apply Forall_app. split; [exact F|].
  apply Forall_forall. intros c IN. apply repeat_spec in IN. subst c. exact blank_not.
Qed.

Lemma trim_ok s : without_trailing (fun c => c <> " "%char) s (trim s).
Proof.
  induction s as [|c s [r [E [F T]]]]; [exists []; repeat split; [constructor|left; reflexivity]|]. cbn [trim].
  destruct (trim s) as [|y q] eqn:Q.
  - cbn [app] in E. destruct (Ascii.eqb_spec c blank) as [B|B].
    + exists (c :: r). repeat split; [rewrite E; reflexivity| |left; reflexivity]. constructor; [|exact F]. intros K. apply K. exact B.
    + exists r. repeat split; [rewrite E; reflexivity|exact F|]. right. exists [], c. split; [reflexivity|exact B].
  - exists r. repeat split; [rewrite E; reflexivity|exact F|]. right. destruct T as [T|[u [z [T P]]]]; [discriminate|]. exists (c :: u), z. rewrite T. split; [reflexivity|exact P].
Qed.
Lemma round_trip_trim dest src text b : holds src text -> padfstring dest src (length dest) = Ret b -> (length text <= length dest)%nat ->
  (text = [] \/ exists u c, text = u ++ [c] /\ c <> " "%char) -> to_c b = text ++ ["000"%char].
Proof.
  intros H P L T. rewrite (pad_result _ _ _ _ H), Nat.leb_refl, skipn_all, app_nil_r in P. injection P as <-. unfold to_c. f_equal.
  apply (trailing_unique (fun c => c <> " "%char) (assigned (length dest) text)); [apply trim_ok|]. rewrite assigned_eq, firstn_all2 by lia.
  exists (repeat blank (length dest - length text)). repeat split; [|exact T]. apply Forall_forall. intros c IN. apply repeat_spec in IN. subst c. intros K. apply K. reflexivity.
Qed.

(** Values. *)
Lemma value_text v text svalue : 
  (exists n, v = CLong n text /\ ~ In "000"%char text) \/ (exists x, v = CDouble x text /\ ~ In "000"%char text) \/ (exists b, v = CString b /\ holds b text) ->
  exists ty d, get_value v svalue = Ret (ty, d, assigned (length svalue) text, Z.min (Z.of_nat (length text)) (Z.of_nat (length svalue))).
Proof.
  assert (P : forall b, holds b text -> padfstring_len svalue b (Z.of_nat (length svalue)) = Ret (assigned (length svalue) text, Z.of_nat (length text))).
  { intros b H. rewrite (pad_len_result _ _ _ _ H), Nat2Z.id, Nat.leb_refl, skipn_all, app_nil_r. reflexivity. }
  assert (M : forall a b : Z, (if a <? b then a else b) = Z.min a b) by (intros a b; destruct (Z.ltb_spec a b); lia).
  intros [[n [-> N]]|[[x [-> N]]|[b [-> H]]]]; unfold get_value, get_value_F; cbn [bind].
  - rewrite P by (split; [exact N|exists []; reflexivity]). cbn [bind fst snd]. rewrite M. do 2 eexists. reflexivity.
  - rewrite P by (split; [exact N|exists []; reflexivity]). cbn [bind fst snd]. rewrite M. do 2 eexists. reflexivity.
  - rewrite P by exact H. cbn [bind fst snd]. rewrite M. do 2 eexists. reflexivity.
Qed.

(** strncpy *)
Lemma strncpy_nul : forall n (l r src : block), (n <= length r)%nat -> strncpy (l ++ r) src (length l) n true = Ret (l ++ repeat NUL n ++ skipn n r).
Proof.
  induction n as [|n IH]; intros l r src H; [reflexivity|]. destruct r as [|x r]; cbn [length] in H; [lia|]. cbn [strncpy]. rewrite store_at. cbn [bind].
  specialize (IH (l ++ [NUL]) r src). rewrite app_length in IH. cbn [length] in IH. rewrite Nat.add_1_r, <- app_assoc in IH. cbn [app] in IH.
  rewrite IH by lia. rewrite <- app_assoc. reflexivity.
Qed.
Lemma strncpy_ok : forall n (l r d text junk : block), length l = length d -> ~ In NUL text -> (n <= length r)%nat ->
  strncpy (l ++ r) (d ++ text ++ NUL :: junk) (length l) n false = Ret (l ++ firstn n (text ++ repeat NUL n) ++ skipn n r).
Proof.
  induction n as [|n IH]; intros l r d text junk L N H; [reflexivity|]. destruct r as [|x r]; cbn [length] in H; [lia|].
  cbn [strncpy]. destruct text as [|c t].
  - cbn [app]. rewrite (load_at' _ _ _ _ L). cbn [bind]. rewrite store_at. cbn [bind]. rewrite Ascii.eqb_refl.
    pose proof (strncpy_nul n (l ++ [NUL]) r (d ++ NUL :: junk)) as P. rewrite app_length in P. cbn [length] in P. rewrite Nat.add_1_r, <- app_assoc in P. cbn [app] in P.
    rewrite P by lia. rewrite <- app_assoc. cbn [app firstn repeat skipn]. rewrite firstn_all2 by (rewrite repeat_length; lia). reflexivity.
  - cbn [app]. rewrite (load_at' _ _ _ _ L). cbn [bind]. rewrite store_at. cbn [bind]. destruct (Ascii.eqb_spec c NUL) as [E|E]; [elim N; left; exact E|].
    specialize (IH (l ++ [c]) r (d ++ [c]) t junk). rewrite !app_length in IH. cbn [length] in IH. rewrite !Nat.add_1_r in IH.
    rewrite <- !app_assoc in IH. cbn [app] in IH. rewrite IH by (try lia; intros K; apply N; right; exact K).
    cbn [app firstn skipn]. do 3 f_equal. f_equal.
    rewrite !firstn_app. f_equal. assert (G : forall m k, (m <= k)%nat -> firstn m (repeat NUL k) = repeat NUL m).
    { induction m as [|m IHm]; intros k K; [reflexivity|]. destruct k as [|k]; [lia|]. cbn. rewrite IHm by lia. reflexivity. }
    rewrite !G by lia. reflexivity.
Qed.

(** Splitting a path. *)
Lemma last_split (c : ascii) l : ~ In c l \/ exists a b, l = a ++ c :: b /\ ~ In c b.
Proof.
  induction l as [|x l [IH|[a [b [-> N]]]]]; [left; intros []| |].
  - destruct (ascii_dec x c) as [->|E]; [right; exists [], l; split; [reflexivity|exact IH]|]. left. intros [K|K]; [exact (E K)|exact (IH K)].
  - right. exists (x :: a), b. split; [reflexivity|exact N].
Qed.
Lemma fm_skip : forall base (d post : block) dot, ~ In "/"%char base -> (dot <> O \/ ~ In "."%char base) ->
  find_marks (d ++ base ++ post) (length (d ++ base)) dot = find_marks (d ++ base ++ post) (length d) dot.
Proof.
  induction base as [|c base IH] using rev_ind; intros d post dot NS D; [rewrite app_nil_r; reflexivity|].
  replace (length (d ++ base ++ [c])) with (S (length (d ++ base))) by (rewrite !app_length; cbn; lia). cbn [find_marks].
  rewrite <- !app_assoc. cbn [app]. rewrite (app_assoc d base), load_at. cbn [bind].
  destruct (Ascii.eqb_spec c "/"%char) as [E|E]; [elim NS; apply in_or_app; right; left; exact E|].
  assert (Q : (if (c =? ".")%char && Nat.eqb dot 0 then length (d ++ base) else dot) = dot).
  { destruct (Ascii.eqb_spec c "."%char) as [F|F]; [|reflexivity]. destruct D as [D|D]; [|elim D; apply in_or_app; right; left; exact F].
    destruct (Nat.eqb_spec dot 0) as [G|G]; [elim (D G)|reflexivity]. }
  rewrite Q. rewrite <- app_assoc. apply (IH d (c :: post) dot).
  - intros K. apply NS. apply in_or_app. left. exact K.
  - destruct D as [D|D]; [left; exact D|right]. intros K. apply D. apply in_or_app. left. exact K.
Qed.
Lemma fm_char (d post : block) c dot : find_marks (d ++ c :: post) (S (length d)) dot =
  let dot := if Ascii.eqb c "."%char && Nat.eqb dot 0 then length d else dot in
  if Ascii.eqb c "/"%char then Ret (dot, Some (length d)) else find_marks (d ++ c :: post) (length d) dot.
Proof. cbn [find_marks]. rewrite load_at. reflexivity. Qed.
Lemma len_snoc (d : block) c : length (d ++ [c]) = S (length d).
Proof. rewrite app_length. cbn. lia. Qed.

Definition base_marks (d : block) : option nat := match d with [] => None | _ => Some (length d - 1)%nat end.
Lemma fm_end (d post : block) dot : (d = [] \/ exists d0, d = d0 ++ ["/"%char]) -> find_marks (d ++ post) (length d) dot = Ret (dot, base_marks d).
Proof.
  intros [->|[d0 ->]]; [reflexivity|]. rewrite <- app_assoc, len_snoc. cbn [app]. rewrite fm_char. cbn -[base_marks].
  unfold base_marks. rewrite len_snoc. destruct (d0 ++ ["/"%char]) eqn:E; [destruct d0; discriminate|]. repeat f_equal. lia.
Qed.
Lemma fm_nodot (d base post : block) : (d = [] \/ exists d0, d = d0 ++ ["/"%char]) -> ~ In "/"%char base -> ~ In "."%char base ->
  find_marks (d ++ base ++ post) (length (d ++ base)) O = Ret (O, base_marks d).
Proof. intros D NS N. rewrite fm_skip by (try exact NS; right; exact N). apply fm_end. exact D. Qed.
Lemma fm_dot (d nm e post : block) : (d = [] \/ exists d0, d = d0 ++ ["/"%char]) -> ~ In "/"%char (nm ++ "."%char :: e) -> ~ In "."%char e -> (d ++ nm <> [] \/ ~ In "."%char nm) ->
  find_marks (d ++ (nm ++ "."%char :: e) ++ post) (length (d ++ nm ++ "."%char :: e)) O = Ret (length (d ++ nm), base_marks d).
Proof.
  intros D NS N H. replace (d ++ (nm ++ "."%char :: e) ++ post) with ((d ++ nm ++ ["."%char]) ++ e ++ post) by (rewrite <- !app_assoc; reflexivity).
  replace (d ++ nm ++ "."%char :: e) with ((d ++ nm ++ ["."%char]) ++ e) by (rewrite <- !app_assoc; reflexivity).
  rewrite fm_skip by (try (right; exact N); intros K; apply NS; apply in_or_app; right; right; exact K).
  replace (length (d ++ nm ++ ["."%char])) with (S (length (d ++ nm))) by (rewrite !app_length; cbn; lia).
  replace ((d ++ nm ++ ["."%char]) ++ e ++ post) with ((d ++ nm) ++ "."%char :: (e ++ post)) by (rewrite <- !app_assoc; reflexivity).
  rewrite fm_char. change (Ascii.eqb "." ".") with true. change (Ascii.eqb "." "/") with false. cbn [andb Nat.eqb].
  rewrite <- app_assoc. rewrite fm_skip; [apply fm_end; exact D| |].
  - intros K. apply NS. apply in_or_app. left. exact K.
  - destruct H as [H|H]; [left|right; exact H]. destruct (d ++ nm); [elim H; reflexivity|discriminate].
Qed.

(** The trimmed path as a C string. *)
Lemma trailing_notin p c s t : without_trailing p s t -> ~ In c s -> ~ In c t.
Proof. intros [r [-> _]] H K. apply H. apply in_or_app. left. exact K. Qed.
Lemma holds_app text junk : ~ In NUL text -> holds (text ++ NUL :: junk) text.
Proof. intros N. split; [exact N|exists junk; reflexivity]. Qed.
Lemma strlen_ge (a b : block) : ~ In NUL a -> In NUL b -> exists l, strlen (a ++ b) = Ret l /\ (length a <= l)%nat.
Proof.
  intros N I. destruct (last_split NUL b) as [K|_]; [elim (K I)|]. assert (F : exists u v, b = u ++ NUL :: v /\ ~ In NUL u).
  { clear N a. induction b as [|c b IH]; [destruct I|]. destruct (ascii_dec c NUL) as [->|E]; [exists [], b; split; [reflexivity|intros []]|].
    destruct I as [I|I]; [elim (E I)|]. destruct (IH I) as [u [v [-> U]]]. exists (c :: u), v. split; [reflexivity|]. intros [K|K]; [exact (E K)|exact (U K)]. }
  destruct F as [u [v [-> U]]]. rewrite app_assoc, strlen_ok; [exists (length (a ++ u)); split; [reflexivity|rewrite app_length; lia]|].
  intros K. apply in_app_or in K. destruct K as [K|K]; [exact (N K)|exact (U K)].
Qed.
Lemma assigned_no n text : ~ In NUL text -> ~ In NUL (assigned n text).
Proof.
  intros N K. rewrite assigned_eq in K. apply in_app_or in K. destruct K as [K|K].
  - apply N. rewrite <- (firstn_skipn n text). apply in_or_app. left. exact K.
  - apply repeat_spec in K. discriminate.
Qed.
Record roomy (p : parts) (n : lens) : Prop := {
  r_drive : (drive_len n <= length (drive p))%nat; r_dir : (dir_len n <= length (dir p))%nat;
  r_name : (name_len n <= length (name p))%nat; r_ext : (ext_len n <= length (ext p))%nat }.
Definition after (n : nat) (b text : block) : block := assigned n text ++ skipn n b.
Lemma pad_after dest src text n : holds src text -> (n <= length dest)%nat -> padfstring dest src n = Ret (after n dest text).
Proof. intros H L. rewrite (pad_result _ _ _ _ H). destruct (Nat.leb_spec n (length dest)); [reflexivity|lia]. Qed.
Lemma holds_nil : holds [NUL] [].
Proof. split; [intros []|exists []; reflexivity]. Qed.
Lemma skip_cons (l r : block) x : skipn (S (length l)) (l ++ x :: r) = r.
Proof. replace (l ++ x :: r) with ((l ++ [x]) ++ r) by (rewrite <- app_assoc; reflexivity). rewrite <- (len_snoc l x). apply skipn_app_len. Qed.

Lemma parts_exist (t : block) : exists d nm e, path_parts t d nm e.
Proof.
  assert (G : forall d base : block, t = d ++ base -> (d = [] \/ exists d0, d = d0 ++ ["/"%char]) -> ~ In "/"%char base -> exists d nm e, path_parts t d nm e).
  { intros d base E D NS. destruct (last_split "."%char base) as [N|[nm [e [B N]]]].
    - exists d, base, []. repeat split; [rewrite app_nil_r; exact E|exact D|rewrite app_nil_r; exact NS|left; reflexivity|intros _; left; exact N].
    - destruct (list_eq_dec ascii_dec (d ++ nm) []) as [Z|Z].
      + apply app_eq_nil in Z. destruct Z as [-> ->]. exists [], base, []. repeat split; [rewrite app_nil_r; exact E|exact D|rewrite app_nil_r; exact NS|left; reflexivity|].
        intros _. right. split; [reflexivity|]. exists e. split; [exact B|exact N].
      + exists d, nm, ("."%char :: e). repeat split; [rewrite <- B; exact E|exact D|rewrite <- B; exact NS| |discriminate].
        right. exists e. repeat split; [exact N|exact Z]. }
  destruct (last_split "/"%char t) as [N|[a [b [E N]]]]; [apply (G [] t); [reflexivity|left; reflexivity|exact N]|].
  apply (G (a ++ ["/"%char]) b); [rewrite <- app_assoc; exact E|right; exists a; reflexivity|exact N].
Qed.

Lemma split_eq path p n t d nm e :
  roomy p n -> (path_len n <= length path)%nat -> ~ In NUL (firstn (path_len n) path) ->
  without_trailing prints (firstn (path_len n) path) t -> path_parts t d nm e -> (d <> [] \/ t = [] \/ name_len n = dir_len n) ->
  splitpath path p n = do l <- (match t with [] => Ret O | _ => strlen (after (dir_len n) (dir p) d) end);
                       Ret (mkParts (after (drive_len n) (drive p) []) (after (dir_len n) (dir p) d)
                                       (after (name_len n) (name p) nm) (after (ext_len n) (ext p) e), l).
Proof.
  intros R PL NN W [E [D [NS [X Y]]]] L. pose proof (trailing_notin _ _ _ _ W NN) as NT. unfold splitpath.
  rewrite (pad_after _ _ [] _ holds_nil (r_drive _ _ R)). cbn [bind]. rewrite (proj2 (f2c_iff _ _ t PL) W). cbn [bind].
  change (t ++ ["000"%char]) with (t ++ [NUL]).
  rewrite strlen_ok by exact NT. cbn [bind]. destruct (Nat.eqb_spec (length t) 0) as [T|T].
  { assert (t = []) by (destruct t; [reflexivity|discriminate]). clear T. symmetry in E. rewrite H in E. apply app_eq_nil in E. destruct E as [-> E]. apply app_eq_nil in E. destruct E as [-> ->].
    rewrite (pad_after _ _ [] _ holds_nil (r_ext _ _ R)). cbn [bind]. rewrite (pad_after _ _ [] _ holds_nil (r_name _ _ R)). cbn [bind].
    rewrite (pad_after _ _ [] _ holds_nil (r_dir _ _ R)). cbn [bind]. subst t. reflexivity. }
  assert (MT : match t with [] => Ret O | _ => strlen (after (dir_len n) (dir p) d) end = strlen (after (dir_len n) (dir p) d)) by (destruct t; [elim T; reflexivity|reflexivity]).
  rewrite MT. clear MT.
  assert (LL : d <> [] \/ name_len n = dir_len n) by (destruct L as [L|[L|L]]; [left; exact L|rewrite L in T; elim T; reflexivity|right; exact L]). clear L.
  assert (ND : ~ In NUL d) by (intros K; apply NT; rewrite E; apply in_or_app; left; exact K).
  assert (NM : ~ In NUL nm) by (intros K; apply NT; rewrite E; apply in_or_app; right; apply in_or_app; left; exact K).
  assert (NE : ~ In NUL e) by (intros K; apply NT; rewrite E; apply in_or_app; right; apply in_or_app; right; exact K).
  (* the marks *)
  assert (M : find_marks (t ++ [NUL]) (length t) 0 = Ret (match e with [] => 0 | _ => length (d ++ nm) end, base_marks d)%nat).
  { subst t. destruct X as [->|[e' [-> [Q U]]]].
    - rewrite app_nil_r in NS |- *. rewrite <- app_assoc. destruct (Y eq_refl) as [V|[V [m [V' V'']]]]; [apply fm_nodot; assumption|]. subst d nm.
      cbn [app]. apply (fm_dot [] [] m [NUL]); [left; reflexivity|exact NS|exact V''|right; intros []].
    - rewrite <- app_assoc. apply fm_dot; [exact D|exact NS|exact Q|left; exact U]. }
  rewrite M. cbn [bind fst snd]. clear M.
  (* the extension: the rest of the string is d ++ nm *)
  match goal with |- context [do r <- ?A; _] => assert (EX : exists junk, A = Ret (after (ext_len n) (ext p) e, (d ++ nm) ++ NUL :: junk)) end.
  { destruct X as [->|[e' [-> [Q U]]]].
    - cbn [Nat.eqb]. rewrite (pad_after _ _ [] _ holds_nil (r_ext _ _ R)). cbn [bind]. exists []. subst t. rewrite app_nil_r. reflexivity.
    - destruct (Nat.eqb_spec (length (d ++ nm)) 0) as [F|F]; [destruct (d ++ nm); [elim U; reflexivity|discriminate]|]. subst t.
      replace ((d ++ nm ++ "."%char :: e') ++ [NUL]) with ((d ++ nm) ++ "."%char :: (e' ++ [NUL])) by (rewrite <- !app_assoc; reflexivity).
      rewrite skipn_app_len. change ("."%char :: e' ++ [NUL]) with (("."%char :: e') ++ [NUL]) at 1. rewrite (pad_after _ _ ("."%char :: e') _ (holds_app ("."%char :: e') [] NE) (r_ext _ _ R)). cbn [bind].
      rewrite store_at. cbn [bind]. exists (e' ++ [NUL]). reflexivity. }
  destruct EX as [junk EX]. rewrite EX. cbn [bind]. clear EX.
  assert (NDM : ~ In NUL (d ++ nm)) by (intros K; apply in_app_or in K; destruct K as [K|K]; [exact (ND K)|exact (NM K)]).
  destruct D as [->|[d0 Ed]].
  - (* no directory *)
    destruct LL as [LL|LL]; [elim LL; reflexivity|]. cbn [base_marks app] in *. rewrite (pad_after _ _ nm _ (holds_app _ _ NDM) (r_name _ _ R)). cbn [bind].
    rewrite LL. rewrite (pad_after _ _ [] _ holds_nil (r_dir _ _ R)). reflexivity.
  - assert (BM : base_marks d = Some (length d0)) by (rewrite Ed; unfold base_marks; rewrite len_snoc; destruct (d0 ++ ["/"%char]) eqn:Q; [destruct d0; discriminate|f_equal; lia]).
    rewrite BM.
    assert (SD : S (length d0) = length d) by (rewrite Ed, len_snoc; reflexivity).
    destruct (Nat.eqb_spec (length d0) (length t - 1)) as [Q|Q]; cbn [negb].
    + assert (LT : length t = (length d + length (nm ++ e))%nat) by (rewrite E, app_length; reflexivity).
      assert (NE0 : nm ++ e = []) by (destruct (nm ++ e); [reflexivity|cbn [length] in LT; lia]). apply app_eq_nil in NE0. destruct NE0 as [-> ->].
      rewrite (pad_after _ _ [] _ holds_nil (r_name _ _ R)). cbn [bind fst snd]. rewrite app_nil_r.
      rewrite (pad_after _ _ d _ (holds_app _ _ ND) (r_dir _ _ R)). reflexivity.
    + rewrite SD. rewrite <- app_assoc. rewrite skipn_app_len. rewrite (pad_after _ _ nm _ (holds_app _ _ NM) (r_name _ _ R)). cbn [bind].
      assert (ST : exists j, store (d ++ nm ++ NUL :: junk) (length d) NUL = Ret (d ++ NUL :: j)) by (destruct nm as [|x nm']; cbn [app]; rewrite store_at; eexists; reflexivity).
      destruct ST as [j ST]. rewrite ST. cbn [bind fst snd]. rewrite (pad_after _ _ d _ (holds_app _ _ ND) (r_dir _ _ R)). reflexivity.
Qed.
Lemma after_no n (b text : block) : n = length b -> ~ In NUL text -> ~ In NUL (after n b text).
Proof. intros -> N. unfold after. rewrite skipn_all, app_nil_r. apply assigned_no. exact N. Qed.
Lemma split_ok path p n t d nm e :
  roomy p n -> (path_len n <= length path)%nat -> ~ In NUL (firstn (path_len n) path) ->
  without_trailing prints (firstn (path_len n) path) t -> path_parts t d nm e ->
  In NUL (skipn (dir_len n) (dir p)) -> (d <> [] \/ t = [] \/ name_len n = dir_len n) ->
  exists l, splitpath path p n = Ret (mkParts (after (drive_len n) (drive p) []) (after (dir_len n) (dir p) d)
                                       (after (name_len n) (name p) nm) (after (ext_len n) (ext p) e), l)
            /\ (t <> [] -> (dir_len n <= l)%nat).
Proof.
  intros R PL NN W P Z L. rewrite (split_eq path p n t d nm e R PL NN W P L). pose proof (trailing_notin _ _ _ _ W NN) as NT.
  assert (ND : ~ In NUL d) by (intros K; apply NT; destruct P as [-> _]; apply in_or_app; left; exact K).
  destruct t as [|c t]; [exists O; split; [reflexivity|intros K; elim K; reflexivity]|].
  destruct (strlen_ge (assigned (dir_len n) d) (skipn (dir_len n) (dir p)) (assigned_no _ _ ND) Z) as [l [SL B]]. rewrite assigned_length in B.
  unfold after at 1. rewrite SL. cbn [bind]. exists l. split; [reflexivity|intros _; exact B].
Qed.
Lemma split_over path p n t d nm e :
  roomy p n -> (path_len n <= length path)%nat -> ~ In NUL (firstn (path_len n) path) ->
  without_trailing prints (firstn (path_len n) path) t -> path_parts t d nm e -> dir_len n = length (dir p) -> t <> [] ->
  (d <> [] \/ name_len n = dir_len n) -> splitpath path p n = UB.
Proof.
  intros R PL NN W P Z T L. rewrite (split_eq path p n t d nm e R PL NN W P ltac:(tauto)). pose proof (trailing_notin _ _ _ _ W NN) as NT.
  assert (ND : ~ In NUL d) by (intros K; apply NT; destruct P as [-> _]; apply in_or_app; left; exact K).
  destruct t as [|c t]; [elim T; reflexivity|]. rewrite strlen_none; [reflexivity|]. apply after_no; assumption.
Qed.
Lemma last_unique (c : ascii) a b a' b' : a ++ c :: b = a' ++ c :: b' -> ~ In c b -> ~ In c b' -> a = a' /\ b = b'.
Proof.
  revert a'. induction a as [|x a IH]; intros [|y a'] E N N'; cbn [app] in E.
  - injection E as E. split; [reflexivity|exact E].
  - injection E as E1 E2. elim N. rewrite E2. apply in_or_app. right. left. reflexivity.
  - injection E as E1 E2. elim N'. rewrite <- E2. apply in_or_app. right. left. reflexivity.
  - injection E as E1 E2. destruct (IH a' E2 N N') as [-> ->]. subst y. split; reflexivity.
Qed.
Lemma parts_unique (t d nm e d' nm' e' : block) : path_parts t d nm e -> path_parts t d' nm' e' -> d = d' /\ nm = nm' /\ e = e'.
Proof.
  intros [E [D [S [X Y]]]] [E' [D' [S' [X' Y']]]].
  assert (A : d = d' /\ nm ++ e = nm' ++ e').
  { rewrite E in E'. clear E X Y X' Y'. destruct D as [->|[d0 ->]], D' as [->|[d1 ->]].
    - split; [reflexivity|exact E'].
    - elim S. cbn [app] in E'. rewrite E', <- app_assoc. apply in_or_app. right. left. reflexivity.
    - elim S'. cbn [app] in E'. rewrite <- E', <- app_assoc. apply in_or_app. right. left. reflexivity.
    - rewrite <- !app_assoc in E'. cbn [app] in E'. destruct (last_unique _ _ _ _ _ E' S S') as [-> ->]. split; reflexivity. }
  destruct A as [<- A]. clear E E' D D' S S'.
  assert (G : forall n1 x n2, n1 ++ "."%char :: x = n2 -> ~ In "."%char x -> d ++ n1 <> [] ->
      ~ (~ In "."%char n2 \/ (d = [] /\ exists n, n2 = "."%char :: n /\ ~ In "."%char n))).
  { intros n1 x n2 H N U [K|[K [n [K1 K2]]]].
    - apply K. rewrite <- H. apply in_or_app. right. left. reflexivity.
    - subst d n2. destruct (last_unique "."%char n1 x [] n K1 N K2) as [-> _]. apply U. reflexivity. }
  split; [reflexivity|]. destruct X as [->|[x [-> [N U]]]], X' as [->|[x' [-> [N' U']]]].
  - rewrite !app_nil_r in A. split; [exact A|reflexivity].
  - rewrite app_nil_r in A. elim (G nm' x' nm (eq_sym A) N' U' (Y eq_refl)).
  - rewrite app_nil_r in A. elim (G nm x nm' A N U (Y' eq_refl)).
  - destruct (last_unique _ _ _ _ _ A N N') as [-> ->]. split; reflexivity.
Qed.
