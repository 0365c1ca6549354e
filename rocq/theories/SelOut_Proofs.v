(** Proofs for C23. *)
From Coq Require Import String Ascii ZArith QArith Bool List Lia ZifyBool.
From Verif Require Import CStr_Model Sort_Model Sort_Proofs Map_Model Map_Proofs SelOut_Model SelOut_Spec.
Import ListNotations.
Local Open Scope string_scope.
Local Open Scope list_scope.

(** ** Histories without Clear *)
Definition clean (c : list event) : Prop := ~ In Clear c.
Definition H (c : list event) : list string := first_uses [] c.
Definition pend (c : list event) : list (string * val) := last (segments c) [].
Definition fin (c : list event) : list (list (string * val)) := removelast (segments c).
Definition R (c : list event) : list (list (string * val)) := drop_empty (fin c).

Definition mem (k : string) (l : list string) : bool := existsb (String.eqb k) l.
Lemma mem_in k l : mem k l = true <-> In k l.
Proof.
  unfold mem. rewrite existsb_exists. split.
  - intros (x & I & E). apply String.eqb_eq in E. subst. exact I.
  - intros I. exists k. split; [exact I | apply String.eqb_refl].
Qed.
Lemma mem_app k a b : mem k (a ++ b) = mem k a || mem k b.
Proof. unfold mem. apply existsb_app. Qed.
Lemma first_uses_push c k v : forall seen, first_uses seen (c ++ [Push k v]) =
  if mem k seen || mem k (first_uses seen c) then first_uses seen c else first_uses seen c ++ [k].
Proof.
  induction c as [|e c IH]; intros seen; cbn [app first_uses].
  - fold (mem k seen). destruct (mem k seen); reflexivity.
  - destruct e as [j x| |].
    + fold (mem j seen). destruct (mem j seen) eqn:M; [apply IH|]. rewrite IH. cbn [mem existsb].
      fold (mem k seen). fold (mem k (first_uses (j :: seen) c)). rewrite <- orb_assoc.
      destruct (String.eqb k j), (mem k seen), (mem k (first_uses (j :: seen) c)); cbn; reflexivity.
    + apply IH.
    + apply IH.
Qed.
Lemma H_push c k v : H (c ++ [Push k v]) = if mem k (H c) then H c else H c ++ [k].
Proof. unfold H. rewrite first_uses_push. reflexivity. Qed.
Lemma first_uses_other c e : (forall k v, e <> Push k v) -> forall seen, first_uses seen (c ++ [e]) = first_uses seen c.
Proof.
  intros N. induction c as [|d c IH]; intros seen; cbn [app first_uses].
  - destruct e as [k v| |]; [exfalso; apply (N k v); reflexivity | reflexivity | reflexivity].
  - destruct d as [j x| |]; rewrite ?IH; reflexivity.
Qed.
Lemma segments_ne c : segments c <> [].
Proof. induction c as [|[k v| |] c IH]; cbn; try discriminate; [|exact IH]. destruct (segments c); discriminate. Qed.
Lemma segments_split c : segments c = fin c ++ [pend c].
Proof. apply app_removelast_last. apply segments_ne. Qed.
Lemma segments_end c : segments (c ++ [End]) = segments c ++ [[]].
Proof.
  induction c as [|[k v| |] c IH]; cbn [app segments]; [reflexivity| | |exact IH].
  - rewrite IH. destruct (segments c) eqn:E; [destruct (segments_ne c E) | reflexivity].
  - rewrite IH. reflexivity.
Qed.
Lemma segments_push c k v : segments (c ++ [Push k v]) = fin c ++ [pend c ++ [(k, v)]].
Proof.
  unfold fin, pend. induction c as [|[j x| |] c IH]; cbn [app segments]; [reflexivity| | |exact IH].
  - rewrite IH. destruct (segments c) as [|s ss] eqn:E; [destruct (segments_ne c E)|]. destruct ss as [|s2 ss]; reflexivity.
  - rewrite IH. destruct (segments c) as [|s ss] eqn:E; [destruct (segments_ne c E) | reflexivity].
Qed.
Lemma fin_end c : fin (c ++ [End]) = fin c ++ [pend c].
Proof. unfold fin at 1. rewrite segments_end, removelast_last. apply segments_split. Qed.
Lemma pend_end c : pend (c ++ [End]) = [].
Proof. unfold pend. rewrite segments_end. apply last_last. Qed.
Lemma fin_push c k v : fin (c ++ [Push k v]) = fin c.
Proof. unfold fin at 1. rewrite segments_push. apply removelast_last. Qed.
Lemma pend_push c k v : pend (c ++ [Push k v]) = pend c ++ [(k, v)].
Proof. unfold pend at 1. rewrite segments_push. apply last_last. Qed.
Lemma R_push c k v : R (c ++ [Push k v]) = R c.
Proof. unfold R. rewrite fin_push. reflexivity. Qed.
Lemma drop_snoc {A} (l : list (list A)) s : drop_empty (l ++ [s]) =
  match drop_empty l with [] => drop_empty [s] | d => d ++ [s] end.
Proof. induction l as [|[|x r] l IH]; cbn [app drop_empty]; [reflexivity | exact IH | reflexivity]. Qed.
(** Every key written is a heading. *)
Lemma keys_in c : clean c -> forall s, In s (segments c) -> forall p, In p s -> In (fst p) (H c).
Proof.
  unfold clean. induction c as [|e c IH] using rev_ind; intros N s I p P.
  - cbn in I. destruct I as [<-|[]]. destruct P.
  - assert (N' : ~ In Clear c) by (intros X; apply N; apply in_or_app; left; exact X). destruct e as [k v| |].
    + rewrite H_push. rewrite segments_push in I. apply in_app_or in I.
      assert (G : In (fst p) (H c) \/ fst p = k).
      { destruct I as [I|[<-|[]]].
        - left. apply (IH N' s); [rewrite segments_split; apply in_or_app; left; exact I | exact P].
        - apply in_app_or in P. destruct P as [P|[<-|[]]]; [|right; reflexivity].
          left. apply (IH N' (pend c)); [rewrite segments_split; apply in_or_app; right; left; reflexivity | exact P]. }
      destruct (mem k (H c)) eqn:M.
      * destruct G as [G|G]; [exact G|]. rewrite G. apply mem_in. exact M.
      * apply in_or_app. destruct G as [G|G]; [left; exact G | right; left; symmetry; exact G].
    + unfold H. rewrite first_uses_other by discriminate. rewrite segments_end in I. apply in_app_or in I.
      destruct I as [I|[<-|[]]]; [apply (IH N' s I p P) | destruct P].
    + exfalso. apply N. apply in_or_app. right. left. reflexivity.
Qed.
Lemma no_heads c : clean c -> H c = [] -> pend c = [] /\ R c = [].
Proof.
  intros N E.
  assert (A : forall s, In s (segments c) -> s = []).
  { intros s I. destruct s as [|p s]; [reflexivity|]. exfalso. pose proof (keys_in c N _ I p ltac:(left; reflexivity)) as K.
    rewrite E in K. destruct K. }
  split; [apply A; rewrite segments_split; apply in_or_app; right; left; reflexivity|].
  unfold R. assert (B : forall s, In s (fin c) -> s = []) by (intros s I; apply A; rewrite segments_split; apply in_or_app; left; exact I).
  clear - B. induction (fin c) as [|s l IH]; [reflexivity|]. rewrite (B s) by (left; reflexivity). cbn. apply IH. intros x I. apply B. right. exact I.
Qed.
Lemma heads_written c : clean c -> H c <> [] -> R c = [] -> pend c <> [].
Proof.
  intros N NE E.
  assert (W : exists s p, In s (segments c) /\ In p s).
  { clear E. unfold clean in N. induction c as [|e c IH] using rev_ind; [contradiction NE; reflexivity|].
    assert (N' : ~ In Clear c) by (intros X; apply N; apply in_or_app; left; exact X). destruct e as [k v| |].
    - exists (pend c ++ [(k, v)]), (k, v). rewrite segments_push. split; apply in_or_app; right; left; reflexivity.
    - unfold H in NE. rewrite first_uses_other in NE by discriminate. destruct (IH N' NE) as (s & p & I & P). exists s, p.
      rewrite segments_end. split; [apply in_or_app; left; exact I | exact P].
    - exfalso. apply N. apply in_or_app. right. left. reflexivity. }
  destruct W as (s & p & I & P). rewrite segments_split in I. apply in_app_or in I. destruct I as [I|[->|[]]].
  - exfalso. unfold R in E. clear - E I P. induction (fin c) as [|x l IH]; [destruct I|]. cbn in E. destruct x as [|y x]; [|discriminate].
    destruct I as [<-|I]; [destruct P | apply IH; assumption].
  - intros C. rewrite C in P. destruct P.
Qed.
Lemma R_end c : clean c -> R (c ++ [End]) = if Nat.eqb (List.length (H c)) 0 then R c else R c ++ [pend c].
Proof.
  intros N. unfold R at 1. rewrite fin_end, drop_snoc. fold (R c). destruct (H c) as [|h r] eqn:E; cbn.
  - destruct (no_heads c N E) as [-> ->]. reflexivity.
  - destruct (R c) as [|x l] eqn:ER; [|reflexivity].
    assert (P : pend c <> []) by (apply heads_written; [exact N | rewrite E; discriminate | exact ER]).
    cbn. destruct (pend c); [contradiction | reflexivity].
Qed.
Lemma R_sub c s : In s (R c) -> In s (segments c).
Proof.
  intros I. rewrite segments_split. apply in_or_app. left. unfold R in I. induction (fin c) as [|x l IH]; [exact I|].
  cbn in I. destruct x; [right; apply IH; exact I | exact I].
Qed.

(** ** last_write *)
Definition wrote (row : list (string * val)) (k : string) : bool := existsb (fun p => String.eqb (fst p) k) row.
Lemma last_write_snoc row k v j : last_write (row ++ [(k, v)]) j = if String.eqb k j then v else last_write row j.
Proof.
  induction row as [|[n x] r IH]; cbn [app last_write].
  - cbn. rewrite andb_true_r. destruct (String.eqb k j); reflexivity.
  - rewrite IH, existsb_app. cbn. rewrite orb_false_r. destruct (String.eqb k j).
    + rewrite orb_true_r. cbn. rewrite andb_false_r. reflexivity.
    + rewrite orb_false_r. reflexivity.
Qed.
Lemma wrote_snoc row k v j : wrote (row ++ [(k, v)]) j = wrote row j || String.eqb k j.
Proof. unfold wrote. rewrite existsb_app. cbn. rewrite orb_false_r. reflexivity. Qed.
Lemma not_wrote row k : wrote row k = false -> last_write row k = VEmpty.
Proof.
  induction row as [|[n x] r IH]; [reflexivity|]. cbn. intros E. apply orb_false_iff in E. destruct E as [-> E]. cbn. apply IH. exact E.
Qed.
Lemma unused_key c k : clean c -> ~ In k (H c) -> (forall s, In s (segments c) -> wrote s k = false).
Proof.
  intros N NI s I. destruct (wrote s k) eqn:E; [|reflexivity]. exfalso. unfold wrote in E. apply existsb_exists in E.
  destruct E as (p & P & E). apply String.eqb_eq in E. apply NI. rewrite <- E. apply (keys_in c N s I p P).
Qed.

(** ** The invariant *)
Definition column (c : list event) (k : string) : list val :=
  map (fun r => last_write r k) (R c) ++ (if wrote (pend c) k then [last_write (pend c) k] else []).
Record inv (c : list event) (t : table) : Prop := {
  j_heads : headings t = H c;
  j_rows : nrow t = List.length (R c);
  j_nodup : NoDup (H c);
  j_map : forall k i, mfind (colmap t) k = Some i <-> nth_error (H c) i = Some k;
  j_len : List.length (colmap t) = List.length (H c);
  j_cols : cols t = map (column c) (H c) }.

Lemma mset_length {A} (m : smap A) k x : mfind m k = None -> List.length (mset m k x) = S (List.length m).
Proof.
  induction m as [|[n y] r IH]; cbn [mset mfind]; [reflexivity|]. destruct (String.eqb n k) eqn:E; [discriminate|]. intros N.
  destruct (String.compare k n) eqn:C; cbn; [|reflexivity | rewrite IH by exact N; reflexivity].
  apply scompare_eq in C. subst n. rewrite String.eqb_refl in E. discriminate.
Qed.
Lemma replace_map {A B} (f g : A -> B) l : NoDup l -> forall i k, nth_error l i = Some k ->
  (forall j, j <> k -> g j = f j) -> replace_nth (map f l) i (g k) = map g l.
Proof.
  induction 1 as [|a l NI N IH]; intros i k E D; [destruct i; discriminate|]. destruct i as [|i]; cbn in *.
  - injection E as ->. f_equal. apply map_ext_in. intros j I. symmetry. apply D. intros ->. contradiction.
  - rewrite (D a) by (intros ->; apply nth_error_In in E; contradiction). f_equal. apply IH; assumption.
Qed.
Lemma replace_last {A} (l : list A) x y : replace_nth (l ++ [x]) (List.length l) y = l ++ [y].
Proof. induction l as [|a l IH]; [reflexivity|]. cbn. rewrite IH. reflexivity. Qed.
Lemma replace_last' {A} (l : list A) x y n : n = List.length l -> replace_nth (l ++ [x]) n y = l ++ [y].
Proof. intros ->. apply replace_last. Qed.
Lemma column_length c k : List.length (column c k) = (List.length (R c) + (if wrote (pend c) k then 1 else 0))%nat.
Proof. unfold column. rewrite app_length, map_length. destruct (wrote (pend c) k); reflexivity. Qed.
Lemma column_push c k v j : column (c ++ [Push k v]) j =
  if String.eqb k j then map (fun r => last_write r j) (R c) ++ [v] else column c j.
Proof.
  unfold column. rewrite R_push, pend_push, wrote_snoc, last_write_snoc. destruct (String.eqb k j).
  - rewrite orb_true_r. reflexivity.
  - rewrite orb_false_r. reflexivity.
Qed.
Lemma repeat_map {A B} (x : B) (l : list A) : repeat x (List.length l) = map (fun _ => x) l.
Proof. induction l as [|a l IH]; [reflexivity|]. cbn. rewrite IH. reflexivity. Qed.
Lemma empties c k : clean c -> ~ In k (H c) -> map (fun r => last_write r k) (R c) = repeat VEmpty (List.length (R c)).
Proof.
  intros N NI. rewrite repeat_map. apply map_ext_in. intros s I. apply not_wrote. apply (unused_key c k N NI). apply R_sub. exact I.
Qed.

Lemma push_inv c t k v : clean c -> inv c t -> exists t', push t k v = Some t' /\ inv (c ++ [Push k v]) t'.
Proof.
  intros N J. unfold push. destruct (mfind (colmap t) k) as [i|] eqn:F.
  - pose proof F as F'. apply (j_map c t J) in F'. assert (M : mem k (H c) = true) by (apply mem_in; apply nth_error_In in F'; exact F').
    rewrite (j_cols c t J). rewrite nth_error_map, F'. cbn [option_map]. rewrite column_length, (j_rows c t J).
    assert (EQ : forall x, x = map (fun r => last_write r k) (R c) ++ [v] ->
      inv (c ++ [Push k v]) (mkT (List.length (R c)) (headings t) (replace_nth (map (column c) (H c)) i x) (colmap t))).
    { intros x ->. constructor; cbn [headings nrow colmap cols]; rewrite ?H_push, ?R_push, ?M.
      - apply (j_heads c t J).
      - reflexivity.
      - apply (j_nodup c t J).
      - apply (j_map c t J).
      - apply (j_len c t J).
      - replace (map (fun r => last_write r k) (R c) ++ [v]) with (column (c ++ [Push k v]) k) by (rewrite column_push, String.eqb_refl; reflexivity).
        apply replace_map; [apply (j_nodup c t J) | exact F'|]. intros j D. rewrite column_push.
        replace (String.eqb k j) with false by (symmetry; apply String.eqb_neq; congruence). reflexivity. }
    destruct (wrote (pend c) k) eqn:W.
    + replace (Nat.eqb _ _) with false by (symmetry; apply Nat.eqb_neq; lia).
      replace (Nat.ltb _ _) with true by (symmetry; apply Nat.ltb_lt; lia). eexists. split; [reflexivity|]. apply EQ.
      unfold column. rewrite W. apply replace_last'. rewrite map_length. reflexivity.
    + rewrite Nat.add_0_r, Nat.eqb_refl. eexists. split; [reflexivity|]. apply EQ. unfold column. rewrite W, app_nil_r. reflexivity.
  - assert (NI : ~ In k (H c)).
    { intros I. apply In_nth_error in I. destruct I as [i I]. apply (j_map c t J) in I. congruence. }
    assert (M : mem k (H c) = false) by (destruct (mem k (H c)) eqn:M; [apply mem_in in M; contradiction | reflexivity]).
    eexists. split; [reflexivity|]. constructor; cbn [headings nrow colmap cols]; rewrite ?H_push, ?R_push, ?M.
    + rewrite (j_heads c t J). reflexivity.
    + apply (j_rows c t J).
    + pose proof (j_nodup c t J) as ND. clear - ND NI. induction (H c) as [|a l IH]; cbn; [repeat constructor; auto|].
      inversion ND; subst. constructor.
      * intros I. apply in_app_or in I. destruct I as [I|[->|[]]]; [contradiction | apply NI; left; reflexivity].
      * apply IH; [intros I; apply NI; right; exact I | assumption].
    + intros j i. rewrite mfind_mset, (j_len c t J). destruct (String.eqb k j) eqn:E.
      * apply String.eqb_eq in E. subst j. split.
        -- intros [= <-]. rewrite nth_error_app2, Nat.sub_diag by lia. reflexivity.
        -- intros X. f_equal. destruct (Nat.lt_ge_cases i (List.length (H c))) as [L|L].
           ++ rewrite nth_error_app1 in X by exact L. apply nth_error_In in X. contradiction.
           ++ rewrite nth_error_app2 in X by exact L. destruct (i - List.length (H c))%nat eqn:D; [lia|]. cbn in X. destruct n; discriminate.
      * apply String.eqb_neq in E. rewrite (j_map c t J). split; intros X.
        -- rewrite nth_error_app1; [exact X|]. apply nth_error_Some. congruence.
        -- destruct (Nat.lt_ge_cases i (List.length (H c))) as [L|L]; [rewrite nth_error_app1 in X by exact L; exact X|].
           rewrite nth_error_app2 in X by exact L. destruct (i - List.length (H c))%nat as [|n]; cbn in X; [congruence | destruct n; discriminate].
    + rewrite mset_length by exact F. rewrite app_length, (j_len c t J). cbn. lia.
    + rewrite map_app. cbn [map]. rewrite (j_cols c t J). f_equal.
      * apply map_ext_in. intros j I. rewrite column_push. replace (String.eqb k j) with false; [reflexivity|].
        symmetry. apply String.eqb_neq. intros ->. contradiction.
      * f_equal. rewrite column_push, String.eqb_refl, (empties c k N NI), (j_rows c t J). f_equal.
        destruct (List.length (R c)); reflexivity.
Qed.
Lemma end_inv c t : clean c -> inv c t -> inv (c ++ [End]) (end_row t).
Proof.
  intros N J. unfold end_row, col_count. rewrite (j_heads c t J).
  assert (HE : H (c ++ [End]) = H c) by (apply first_uses_other; discriminate).
  pose proof (R_end c N) as RE. destruct (List.length (H c)) as [|n] eqn:L.
  - change (0 <? Z.of_nat 0)%Z with false. cbn [Nat.eqb] in RE. cbv iota.
    assert (PE : pend c = []) by (apply no_heads; [exact N | destruct (H c); [reflexivity | discriminate]]).
    constructor; rewrite ?HE, ?RE; try apply J. rewrite (j_cols c t J). apply List.map_ext. intros k.
    unfold column. rewrite RE, pend_end, PE. reflexivity.
  - cbn [Nat.eqb] in RE. replace (0 <? Z.of_nat (S n))%Z with true by lia.
    constructor; cbn [headings nrow colmap cols]; rewrite ?HE.
    + reflexivity.
    + rewrite RE, app_length, (j_rows c t J). cbn. lia.
    + apply (j_nodup c t J).
    + apply (j_map c t J).
    + apply (j_len c t J).
    + rewrite (j_cols c t J). rewrite <- L. rewrite <- (map_length (column c) (H c)) at 1 2. rewrite firstn_all, skipn_all, app_nil_r, map_map.
      apply List.map_ext. intros k. rewrite column_length, (j_rows c t J).
      assert (X : column (c ++ [End]) k = map (fun r => last_write r k) (R c) ++ [last_write (pend c) k]).
      { unfold column. rewrite RE, pend_end, map_app. cbn. rewrite app_nil_r. reflexivity. }
      rewrite X. unfold column. destruct (wrote (pend c) k) eqn:W.
      * replace (Nat.ltb _ _) with false by (symmetry; apply Nat.ltb_ge; lia). reflexivity.
      * replace (Nat.ltb _ _) with true by (symmetry; apply Nat.ltb_lt; lia). rewrite app_nil_r. unfold resize.
        rewrite firstn_all2 by (rewrite map_length; lia). rewrite map_length. replace (S (List.length (R c)) - List.length (R c))%nat with 1%nat by lia.
        rewrite (not_wrote _ _ W). reflexivity.
Qed.
Lemma empty_inv : inv [] empty.
Proof.
  constructor; try reflexivity; [constructor|]. intros k i. cbn. split; [discriminate|]. destruct i; discriminate.
Qed.
Lemma since_snoc h e : forall acc, since (h ++ [e]) acc = match e with Clear => [] | _ => since h acc ++ [e] end.
Proof.
  induction h as [|d h IH]; intros acc; cbn [app since].
  - destruct e; reflexivity.
  - destruct d; apply IH.
Qed.
Lemma recent_clean h : clean (recent h).
Proof.
  unfold clean, recent. induction h as [|e h IH] using rev_ind; [intros []|]. rewrite since_snoc.
  destruct e; [| |intros []]; intros I; apply in_app_or in I; destruct I as [I|[I|[]]]; (contradiction || discriminate).
Qed.
Lemma run_snoc h e : forall t, run t (h ++ [e]) = match run t h with Some t' => step t' e | None => None end.
Proof.
  induction h as [|d h IH]; intros t; cbn [app run]; [destruct (step t e); reflexivity|]. destruct (step t d); [apply IH | reflexivity].
Qed.
Lemma run_inv h : exists t, run empty h = Some t /\ inv (recent h) t.
Proof.
  induction h as [|e h IH] using rev_ind; [exists empty; split; [reflexivity | exact empty_inv]|]. destruct IH as (t & E & J).
  rewrite run_snoc, E. unfold recent. rewrite since_snoc. fold (recent h). destruct e as [k v| |]; cbn [step].
  - apply push_inv; [apply recent_clean | exact J].
  - eexists. split; [reflexivity|]. apply end_inv; [apply recent_clean | exact J].
  - eexists. split; [reflexivity | exact empty_inv].
Qed.

Local Open Scope Z_scope.
Lemma table_ok h : exists t, run empty h = Some t /\
  NoDup (heads h) /\ headings t = heads h /\
  col_count t = Z.of_nat (List.length (heads h)) /\
  row_count t = (if Nat.eqb (List.length (heads h)) 0 then 0 else 1 + Z.of_nat (List.length (rows h))) /\
  (forall c k, nth_error (heads h) c = Some k -> get t 0 (Z.of_nat c) = Some (VR_OK, VString k)) /\
  (forall r c row k, nth_error (rows h) r = Some row -> nth_error (heads h) c = Some k ->
     get t (Z.of_nat r + 1) (Z.of_nat c) = Some (VR_OK, last_write row k)) /\
  (forall r c, r < 0 \/ row_count t <= r -> get t r c = Some (VR_INVALIDROW, VError VR_INVALIDROW)) /\
  (forall r c, 0 <= r < row_count t -> c < 0 \/ col_count t <= c -> get t r c = Some (VR_INVALIDCOL, VError VR_INVALIDCOL)).
Proof.
  destruct (run_inv h) as (t & E & J). exists t. split; [exact E|].
  change (heads h) with (H (recent h)). change (rows h) with (R (recent h)).
  assert (CC : col_count t = Z.of_nat (List.length (H (recent h)))) by (unfold col_count; rewrite (j_heads _ _ J); reflexivity).
  assert (RC : row_count t = if Nat.eqb (List.length (H (recent h))) 0 then 0 else 1 + Z.of_nat (List.length (R (recent h)))).
  { unfold row_count. rewrite CC, (j_rows _ _ J). destruct (List.length (H (recent h))); [reflexivity|]. cbn [Nat.eqb].
    replace (0 <? Z.of_nat (S n)) with true by lia. lia. }
  split; [apply (j_nodup _ _ J)|]. split; [apply (j_heads _ _ J)|]. split; [exact CC|]. split; [exact RC|].
  assert (CIN : forall c k, nth_error (H (recent h)) c = Some k -> (c < List.length (H (recent h)))%nat).
  { intros c k X. apply nth_error_Some. congruence. }
  split; [|split; [|split]].
  - intros c k X. pose proof (CIN c k X) as L. unfold get. rewrite RC, CC. destruct (List.length (H (recent h))) as [|n] eqn:LH; [lia|]. cbn [Nat.eqb].
    replace ((0 >=? 1 + Z.of_nat (List.length (R (recent h)))) || (0 <? 0)) with false by lia.
    replace ((Z.of_nat c >=? Z.of_nat (S n)) || (Z.of_nat c <? 0)) with false by lia. cbn [negb Z.eqb].
    rewrite (j_heads _ _ J), Nat2Z.id, X. reflexivity.
  - intros r c row k XR X. pose proof (CIN c k X) as L. assert (LR : (r < List.length (R (recent h)))%nat) by (apply nth_error_Some; congruence).
    unfold get. rewrite RC, CC. destruct (List.length (H (recent h))) as [|n] eqn:LH; [lia|]. cbn [Nat.eqb].
    replace ((Z.of_nat r + 1 >=? 1 + Z.of_nat (List.length (R (recent h)))) || (Z.of_nat r + 1 <? 0)) with false by lia.
    replace ((Z.of_nat c >=? Z.of_nat (S n)) || (Z.of_nat c <? 0)) with false by lia.
    replace (Z.of_nat r + 1 =? 0) with false by lia. cbn [negb]. rewrite (j_cols _ _ J), Nat2Z.id, nth_error_map, X. cbn [option_map].
    replace (Z.to_nat (Z.of_nat r + 1 - 1)) with r by lia. unfold column. rewrite nth_error_app1 by (rewrite map_length; exact LR).
    rewrite nth_error_map, XR. reflexivity.
  - intros r c X. unfold get. replace ((r >=? row_count t) || (r <? 0)) with true by lia. reflexivity.
  - intros r c X Y. unfold get. replace ((r >=? row_count t) || (r <? 0)) with false by lia.
    replace ((c >=? col_count t) || (c <? 0)) with true by lia. reflexivity.
Qed.

(** ** Serialize and deserialize *)
Definition cells (row : list (string * val)) (ks : list string) : list val := map (last_write row) ks.
Lemma row_cells_ok (f : string -> list val) g r ks : (forall k, In k ks -> nth_error (f k) r = Some (g k)) ->
  row_cells (map f ks) r = Some (map g ks).
Proof.
  induction ks as [|k ks IH]; intros A; [reflexivity|]. cbn [map row_cells]. rewrite (A k) by (left; reflexivity).
  rewrite IH; [reflexivity|]. intros j I. apply A. right. exact I.
Qed.
Definition capp (a b : coded) : coded := mkC (types a ++ types b) (longs a ++ longs b) (doubles a ++ doubles b) (strings a ++ strings b).
Definition none : coded := mkC [] [] [] "".
Lemma sapp_assoc a b c : ((a ++ b) ++ c = a ++ (b ++ c))%string.
Proof. induction a as [|x a IH]; [reflexivity|]. cbn. rewrite IH. reflexivity. Qed.
Lemma sapp_nil a : (a ++ "" = a)%string.
Proof. induction a as [|x a IH]; [reflexivity|]. cbn. rewrite IH. reflexivity. Qed.
Lemma put_heading_app a b h : put_heading (capp a b) h = capp a (put_heading b h).
Proof. unfold put_heading, capp. cbn. rewrite <- !app_assoc, sapp_assoc. reflexivity. Qed.
Lemma put_cell_app a b v : put_cell (capp a b) v = capp a (put_cell b v).
Proof. unfold put_cell, capp. destruct v; cbn; rewrite <- ?app_assoc, ?sapp_assoc; reflexivity. Qed.
Lemma capp_none a : capp a none = a.
Proof. unfold capp, none. destruct a as [ty lo du st]. cbn. rewrite !app_nil_r, sapp_nil. reflexivity. Qed.
Lemma capp_assoc a b c : capp (capp a b) c = capp a (capp b c).
Proof. unfold capp. cbn. rewrite <- !app_assoc, sapp_assoc. reflexivity. Qed.
Lemma fold_heading_app a l : forall b, fold_left put_heading l (capp a b) = capp a (fold_left put_heading l b).
Proof. induction l as [|h l IH]; intros b; [reflexivity|]. cbn. rewrite put_heading_app. apply IH. Qed.
Lemma fold_cell_app a l : forall b, fold_left put_cell l (capp a b) = capp a (fold_left put_cell l b).
Proof. induction l as [|h l IH]; intros b; [reflexivity|]. cbn. rewrite put_cell_app. apply IH. Qed.
Lemma fold_heading_none a l : fold_left put_heading l a = capp a (fold_left put_heading l none).
Proof. rewrite <- (capp_none a) at 1. apply fold_heading_app. Qed.
Lemma fold_cell_none a l : fold_left put_cell l a = capp a (fold_left put_cell l none).
Proof. rewrite <- (capp_none a) at 1. apply fold_cell_app. Qed.
Lemma take_app h s : take (h ++ s) (slen h) = h.
Proof. unfold take, slen. rewrite Nat2Z.id. induction h as [|c h IH]; cbn; [destruct s; reflexivity|]. rewrite IH. reflexivity. Qed.
Lemma substring_all s : substring 0 (String.length s) s = s.
Proof. induction s as [|c s IH]; [reflexivity|]. cbn. rewrite IH. reflexivity. Qed.
Lemma drop_app h s : drop (h ++ s) (slen h) = s.
Proof.
  unfold drop, slen. rewrite Nat2Z.id. induction h as [|c h IH]; cbn [append String.length].
  - rewrite Nat.sub_0_r. apply substring_all.
  - exact IH.
Qed.
Lemma get_headings_ok hs : forall b, types b = types b ->
  get_headings (List.length hs) (capp (fold_left put_heading hs none) b) = Some (hs, b).
Proof.
  induction hs as [|h hs IH]; intros b _; [destruct b; reflexivity|]. cbn [List.length fold_left get_headings].
  rewrite fold_heading_none. set (F := fold_left put_heading hs none) in *.
  change (longs (capp (capp (put_heading none h) F) b)) with (slen h :: longs F ++ longs b).
  change (strings (capp (capp (put_heading none h) F) b)) with ((h ++ strings F) ++ strings b)%string.
  rewrite sapp_assoc, drop_app, take_app. cbv iota.
  match goal with |- context [get_headings _ ?x] => change x with (capp F b) end.
  rewrite (IH b eq_refl). reflexivity.
Qed.
Lemma get_cell_ok v b : get_cell (capp (put_cell none v) b) = Some (Some v, b).
Proof.
  destruct b as [ty lo du st]. destruct v as [|c|n|x|s]; unfold get_cell, put_cell, capp, none; cbn -[take drop slen]; try reflexivity.
  rewrite take_app, drop_app. reflexivity.
Qed.
Lemma get_columns_ok f hs : forall t b, get_columns t hs 1 (capp (fold_left put_cell (map f hs) none) b) =
  run t (map (fun k => Push k (f k)) hs).
Proof.
  induction hs as [|h hs IH]; intros t b; [reflexivity|]. cbn [map fold_left get_columns get_rows run step].
  rewrite fold_cell_none, capp_assoc, get_cell_ok. destruct (push t h (f h)); [apply IH | reflexivity].
Qed.
Lemma run_app h g : forall t, run t (h ++ g) = match run t h with Some t' => run t' g | None => None end.
Proof. induction h as [|e h IH]; intros t; [reflexivity|]. cbn. destruct (step t e); [apply IH | reflexivity]. Qed.

Definition replay (row : list (string * val)) (ks : list string) : list event := map (fun k => Push k (last_write row k)) ks ++ [End].
Lemma serialize_ok h t r row : run empty h = Some t -> nth_error (rows h) r = Some row ->
  exists a, serialize t r = Some a /\ forall t2, deserialize t2 a = run t2 (replay row (heads h)).
Proof.
  intros E X. destruct (run_inv h) as (t' & E' & J). rewrite E in E'. injection E' as <-.
  change (heads h) with (H (recent h)). change (rows h) with (R (recent h)) in X.
  unfold serialize. rewrite (j_heads _ _ J), (j_cols _ _ J). rewrite firstn_all2 by (rewrite map_length; lia).
  rewrite (row_cells_ok _ (last_write row)).
  2: { intros k I. unfold column. rewrite nth_error_app1 by (rewrite map_length; apply nth_error_Some; congruence). rewrite nth_error_map, X. reflexivity. }
  eexists. split; [reflexivity|]. intros t2. set (ks := H (recent h)).
  rewrite fold_cell_none, fold_heading_none. rewrite capp_assoc.
  set (T := capp (fold_left put_heading ks none) (fold_left put_cell (map (last_write row) ks) none)).
  unfold deserialize. cbn [longs capp types doubles strings app append].
  replace (mkC (types T) (longs T) (doubles T) (strings T)) with T by (destruct T; reflexivity).
  rewrite Nat2Z.id. unfold T. rewrite get_headings_ok by reflexivity.
  change (Z.to_nat 1) with 1%nat. pose proof (get_columns_ok (last_write row) ks t2 none) as G. rewrite capp_none in G. rewrite G.
  unfold replay. rewrite run_app. destruct (run t2 (map (fun k => Push k (last_write row k)) ks)); reflexivity.
Qed.
(** The replay writes the same headings and one row with the same cells. *)
Lemma since_pushes (f : string -> val) ks : forall acc, since (map (fun k => Push k (f k)) ks ++ [End]) acc = acc ++ map (fun k => Push k (f k)) ks ++ [End].
Proof. induction ks as [|k ks IH]; intros acc; [reflexivity|]. cbn [map app since]. rewrite IH, <- app_assoc. reflexivity. Qed.
Lemma pushes_heads (f : string -> val) ks : NoDup ks -> forall seen, (forall k, In k ks -> ~ In k seen) ->
  first_uses seen (map (fun k => Push k (f k)) ks ++ [End]) = ks.
Proof.
  induction 1 as [|k ks NI N IH]; intros seen D; [reflexivity|]. cbn [map app first_uses]. fold (mem k seen).
  destruct (mem k seen) eqn:M; [apply mem_in in M; exfalso; apply (D k); [left; reflexivity | exact M]|]. f_equal. apply IH.
  intros j I [->|S]; [contradiction | apply (D j); [right; exact I | exact S]].
Qed.
Lemma pushes_segments (f : string -> val) ks : segments (map (fun k => Push k (f k)) ks ++ [End]) = [map (fun k => (k, f k)) ks; []].
Proof. induction ks as [|k ks IH]; [reflexivity|]. cbn [map app segments]. rewrite IH. reflexivity. Qed.
Lemma last_write_map (f : string -> val) ks k : NoDup ks -> In k ks -> last_write (map (fun k => (k, f k)) ks) k = f k.
Proof.
  induction 1 as [|j ks NI N IH]; intros I; [destruct I|]. cbn [map last_write]. destruct I as [->|I].
  - rewrite String.eqb_refl. replace (existsb _ _) with false; [reflexivity|]. symmetry.
    clear - NI. induction ks as [|a l IH]; [reflexivity|]. cbn. apply orb_false_iff. split.
    + apply String.eqb_neq. intros ->. apply NI. left. reflexivity.
    + apply IH. intros I. apply NI. right. exact I.
  - replace (String.eqb j k) with false by (symmetry; apply String.eqb_neq; intros ->; contradiction). cbn. apply IH. exact I.
Qed.
Lemma row_copy h t r row : run empty h = Some t -> nth_error (rows h) r = Some row ->
  exists a t', serialize t r = Some a /\ deserialize empty a = Some t' /\
    row_count t' = 2 /\ col_count t' = col_count t /\
    (forall c, 0 <= c < col_count t -> get t' 0 c = get t 0 c) /\
    (forall c, 0 <= c < col_count t -> get t' 1 c = get t (Z.of_nat r + 1) c).
Proof.
  intros E X. destruct (serialize_ok h t r row E X) as (a & SA & D). destruct (table_ok h) as (t0 & E0 & ND & HD & CC & RC & G0 & G1 & _).
  rewrite E in E0. injection E0 as <-. set (g := replay row (heads h)). destruct (table_ok g) as (t' & E' & _ & HD' & CC' & RC' & G0' & G1' & _).
  exists a, t'. split; [exact SA|]. split; [rewrite D; exact E'|].
  assert (RG : recent g = g).
  { unfold g, recent, replay. rewrite (since_pushes (last_write row)). reflexivity. }
  assert (HG : heads g = heads h).
  { unfold heads at 1. rewrite RG. apply (pushes_heads (last_write row)); [exact ND | intros k _ []]. }
  assert (NE : heads h <> []).
  { intros C. change (H (recent h) = []) in C. destruct (no_heads _ (recent_clean h) C) as [_ Z]. change (rows h = []) in Z. rewrite Z in X. destruct r; discriminate. }
  assert (RW : rows g = [map (fun k => (k, last_write row k)) (heads h)]).
  { unfold rows. rewrite RG. unfold g, replay. rewrite (pushes_segments (last_write row)). cbn.
    destruct (heads h); [contradiction | reflexivity]. }
  rewrite HG in *. rewrite RW in *. split; [|split; [|split]].
  - rewrite RC'. destruct (heads h); [contradiction | reflexivity].
  - congruence.
  - intros c B. rewrite CC in B. destruct (nth_error (heads h) (Z.to_nat c)) as [k|] eqn:K; [|apply nth_error_None in K; lia].
    replace c with (Z.of_nat (Z.to_nat c)) by lia. rewrite (G0 _ k K), (G0' _ k K). reflexivity.
  - intros c B. rewrite CC in B. destruct (nth_error (heads h) (Z.to_nat c)) as [k|] eqn:K; [|apply nth_error_None in K; lia].
    replace c with (Z.of_nat (Z.to_nat c)) by lia. rewrite (G1 _ _ row k X K). pose proof (G1' 0%nat _ _ k eq_refl K) as G.
    change (Z.of_nat 0 + 1) with 1 in G. rewrite G. rewrite last_write_map; [reflexivity | exact ND | apply nth_error_In in K; exact K].
Qed.
(** ** The numeric copy *)
Lemma doublize_ok inactive h t : run empty h = Some t ->
  doublize inactive t = Some (Z.of_nat (List.length (rows h)), Z.of_nat (List.length (heads h)),
    flat_map (fun k => map (fun row => numeric inactive (last_write row k)) (rows h)) (heads h)).
Proof.
  intros E. destruct (run_inv h) as (t' & E' & J). rewrite E in E'. injection E' as <-.
  change (heads h) with (H (recent h)). change (rows h) with (R (recent h)). set (c := recent h) in *.
  unfold doublize. rewrite (j_heads _ _ J), (j_cols _ _ J), (j_rows _ _ J). rewrite map_length, Nat.leb_refl, andb_true_r.
  rewrite (firstn_all2 (n := List.length (H c))) by (rewrite map_length; lia).
  replace (forallb _ _) with true.
  2: { symmetry. apply forallb_forall. intros x I. apply in_map_iff in I. destruct I as (k & <- & _). rewrite column_length. apply Nat.leb_le. lia. }
  f_equal. f_equal. rewrite !flat_map_concat_map, map_map. f_equal. apply List.map_ext. intros k. unfold column.
  rewrite firstn_app, map_length, Nat.sub_diag, firstn_all2 by (rewrite map_length; lia). rewrite firstn_O, app_nil_r, map_map. reflexivity.
Qed.
