From Coq Require Import String Ascii List ZArith Bool Lia ZifyBool.
From Verif Require Import CStr_Model CNum_Model Elem_Model Elem_Spec Elem_Proofs Pfile_Model Pfile_Spec Pfile_Proofs Ctrl_Model Ctrl_Spec.
Import ListNotations.
Local Open Scope string_scope.
Local Open Scope list_scope.

(** Lines. *)
Lemma prefix_app p : forall s, prefix p (p ++ s)%string = true.
Proof. induction p as [|c p IH]; intros s; [destruct s; reflexivity|]. cbn [append prefix]. destruct (Ascii.ascii_dec c c); [apply IH|contradiction]. Qed.
Lemma prefix_split : forall p s, prefix p s = true -> exists r, s = (p ++ r)%string.
Proof.
  induction p as [|c p IH]; intros s H; [exists s; reflexivity|]. destruct s as [|x s]; [discriminate|]. cbn [prefix] in H. destruct (Ascii.ascii_dec c x) as [<-|]; [|discriminate].
  destruct (IH s H) as [r ->]. exists r. reflexivity.
Qed.
Lemma clean_tail c t : clean (String c t) -> t = "" \/ clean t.
Proof.
  intros [_ [N S]]. destruct t as [|x t]; [left; reflexivity|right]. split; [discriminate|]. split.
  - intros I. apply N. right. exact I.
  - intros a b E. apply (S (String c a) b). rewrite E. reflexivity.
Qed.
(** Text before the comment. *)
Lemma slash2 c x (s : string) : c <> "/"%char -> prefix "//" (String x (String c s)) = false.
Proof. intros N. cbn [prefix]. destruct (Ascii.ascii_dec "/" x); [|reflexivity]. destruct (Ascii.ascii_dec "/" c) as [E|]; [subst; contradiction|reflexivity]. Qed.
Lemma clean_prefix t s c : clean t -> c <> "/"%char -> prefix "//" (t ++ String c s)%string = false.
Proof.
  intros [NE [_ S]] N. destruct (prefix "//" (t ++ String c s)%string) eqn:P; [|reflexivity]. exfalso.
  destruct t as [|x [|y t]]; [contradiction| |].
  - cbn [append] in P. rewrite slash2 in P by exact N. discriminate.
  - cbn [append prefix] in P. destruct (Ascii.ascii_dec "/" x) as [<-|]; [|discriminate]. destruct (Ascii.ascii_dec "/" y) as [<-|]; [|discriminate]. apply (S "" t). reflexivity.
Qed.
Lemma before_none : forall t, t = "" \/ clean t -> before_slashes (t ++ newline)%string = None.
Proof.
  induction t as [|c t IH]; intros H; [reflexivity|]. destruct H as [H|H]; [discriminate|].
  pose proof (clean_prefix (String c t) "" "010" H ltac:(discriminate)) as P. change (String "010" "") with newline in P. cbn [append before_slashes]. cbn [append] in P. rewrite P.
  rewrite IH by (apply (clean_tail c t); exact H). reflexivity.
Qed.
Lemma before_some : forall t r, t = "" \/ clean t -> before_slashes (t ++ " " ++ "//" ++ r)%string = Some (t ++ " ")%string.
Proof.
  induction t as [|c t IH]; intros r H.
  - cbn [append before_slashes]. change (prefix "//" (String " " (String "/" (String "/" r)))) with false. cbv iota. cbn [before_slashes].
    change (prefix "//" (String "/" (String "/" r))) with (prefix "//" ("//" ++ r)%string). rewrite prefix_app. reflexivity.
  - destruct H as [H|H]; [discriminate|]. pose proof (clean_prefix (String c t) ("//" ++ r)%string " " H ltac:(discriminate)) as P.
    change ((String c t ++ " " ++ "//" ++ r)%string) with (String c (t ++ " " ++ "//" ++ r))%string. cbn [before_slashes].
    change (String c t ++ String " " ("//" ++ r))%string with (String c (t ++ " " ++ "//" ++ r))%string in P. rewrite P.
    rewrite IH by (apply (clean_tail c t); exact H). reflexivity.
Qed.
Lemma split_end : forall t c, split_last c (t ++ String c "")%string = Some (t, "").
Proof. induction t as [|x t IH]; intros c; cbn [append split_last]; [rewrite Ascii.eqb_refl; reflexivity|]. rewrite IH. reflexivity. Qed.
Definition closing (close : string) : Prop := close = newline \/ close = " ".
Lemma line_of_ended t l : line_of t l -> ended l.
Proof.
  intros [-> | [c [_ ->]]]; [exists t; reflexivity|]. exists (t ++ " " ++ "//" ++ c)%string. rewrite !app_assoc_s. reflexivity.
Qed.
Lemma noise_ended l : noise l -> ended l.
Proof. intros [-> | [c [_ ->]]]; [exists ""; reflexivity|]. exists ("//" ++ c)%string. rewrite !app_assoc_s. reflexivity. Qed.
Lemma fgets_line num l r : ended l -> String.length l < num -> fgets_n num (mkStream (l :: r) false) = (Some l, mkStream r false).
Proof. intros E L. unfold fgets_n. cbn [lines eof]. rewrite (proj2 (Nat.ltb_lt _ _) L), (ended_nl l E). reflexivity. Qed.
Lemma fgets_noise fuel num l r : noise l -> String.length l < num -> fgets_rc (S fuel) num (mkStream (l :: r) false) = fgets_rc fuel num (mkStream r false).
Proof.
  intros N L. cbn [fgets_rc]. rewrite fgets_line by (try apply noise_ended; assumption). destruct N as [-> | [c [_ ->]]]; [reflexivity|]. rewrite prefix_app. reflexivity.
Qed.
Lemma fgets_text fuel num t l r : clean t -> line_of t l -> String.length l < num ->
  exists close, closing close /\ fgets_rc (S fuel) num (mkStream (l :: r) false) = Ret (Some (t ++ close)%string, mkStream r false).
Proof.
  intros C H L. pose proof (line_of_ended t l H) as E. cbn [fgets_rc]. rewrite fgets_line by assumption.
  assert (LT : 0 < String.length t) by (destruct C as [NE _]; destruct t; [contradiction|cbn; lia]).
  assert (P : prefix "//" l = false).
  { destruct H as [-> | [c [_ ->]]]; [apply clean_prefix; [exact C|discriminate]|]. change (" " ++ "//" ++ c ++ newline)%string with (String " " ("//" ++ c ++ newline)). apply clean_prefix; [exact C|discriminate]. }
  assert (LL : Nat.leb (String.length l) 1 = false).
  { apply Nat.leb_gt. destruct H as [-> | [c [_ ->]]]; rewrite len_app_s; cbn [append String.length newline]; lia. }
  rewrite P, LL. destruct H as [-> | [c [_ ->]]].
  - exists newline. split; [left; reflexivity|]. rewrite before_none by (right; exact C). reflexivity.
  - exists " ". split; [right; reflexivity|]. rewrite before_some by (right; exact C). change " " with (String " " ""). rewrite split_end. reflexivity.
Qed.
Definition total (ls : list string) : nat := fold_right (fun l n => S (String.length l + n)) O ls.
Lemma total_len ls : length ls <= total ls.
Proof. induction ls as [|l ls IH]; cbn [length total fold_right]; [lia|]. change (fold_right _ O ls) with (total ls). lia. Qed.
Lemma total_app a b : total (a ++ b) = total a + total b.
Proof. induction a as [|l a IH]; [reflexivity|]. cbn [app total fold_right]. change (fold_right (fun l n => S (String.length l + n)) O (a ++ b)) with (total (a ++ b)). change (fold_right (fun l n => S (String.length l + n)) O a) with (total a). lia. Qed.
Lemma measure_total ls e : measure (mkStream ls e) = total ls.
Proof. reflexivity. Qed.
Lemma rc_group num t g : group num t g -> forall fuel r, length g <= fuel ->
  exists close, closing close /\ fgets_rc fuel num (mkStream (g ++ r) false) = Ret (Some (t ++ close)%string, mkStream r false).
Proof.
  intros [C [ns [l [-> [N [L F]]]]]]. induction N as [|x ns NX N IH]; intros fuel r LE; cbn [app length] in *.
  - destruct fuel as [|fuel]; [lia|]. apply fgets_text; [exact C|exact L|]. inversion F; assumption.
  - destruct fuel as [|fuel]; [lia|]. inversion F; subst. rewrite fgets_noise by assumption. apply IH; [assumption|lia].
Qed.
Lemma getline_group num t g r : group num t g -> exists close, closing close /\ getline num (mkStream (g ++ r) false) = Ret (Some (t ++ close)%string, mkStream r false).
Proof. intros G. apply rc_group; [exact G|]. rewrite measure_total, total_app. pose proof (total_len g). lia. Qed.
Lemma getline_noise num post : Forall noise post -> Forall (fun x => String.length x < num) post -> getline num (mkStream post false) = Ret (None, mkStream [] true).
Proof.
  intros N F. unfold getline. rewrite measure_total. assert (T : length post < S (total post)) by (pose proof (total_len post); lia). revert T. generalize (S (total post)). induction N as [|x ns NX N IH]; intros fuel T.
  - destruct fuel as [|fuel]; [lia|]. reflexivity.
  - cbn [length] in T. destruct fuel as [|fuel]; [lia|]. inversion F; subst. rewrite fgets_noise by assumption. apply IH; [assumption|lia].
Qed.

(** Conversions do not see what follows the text. *)
Lemma digits_end c : digit c = None -> forall s acc, fst (digits acc (s ++ String c "")%string) = fst (digits acc s).
Proof.
  intros D. induction s as [|x s IH]; intros acc; cbn [append digits]; [rewrite D; reflexivity|]. destruct (digit x); [apply IH|reflexivity].
Qed.
Lemma skip_space_end c : is_space c = true -> forall s, skip_space (s ++ String c "")%string = (if String.eqb (skip_space s) "" then "" else skip_space s ++ String c "")%string.
Proof.
  intros C. induction s as [|x s IH]; [cbn [append skip_space]; rewrite C; reflexivity|]. cbn [append skip_space]. destruct (is_space x); [exact IH|]. reflexivity.
Qed.
Lemma val_end c r : digit c = None -> val_of (udigits (r ++ String c "")%string) = val_of (udigits r).
Proof.
  intros D. destruct r as [|x r]; cbn [append udigits]; [rewrite D; reflexivity|]. destruct (digit x) as [v|]; [|reflexivity]. pose proof (digits_end c D r v) as H. unfold val_of.
  destruct (digits v (r ++ String c "")%string), (digits v r). exact H.
Qed.
Lemma atol_end c s : is_space c = true -> digit c = None -> atol (s ++ String c "")%string = atol s.
Proof.
  intros C D. assert (H : fst (strtol_raw (s ++ String c "")%string) = fst (strtol_raw s)).
  { rewrite !raw_val, (skip_space_end c C). destruct (skip_space s) as [|x r]; [reflexivity|]. change (String.eqb (String x r) "") with false. cbn [append].
    rewrite (val_end c r D). change (udigits (String x (r ++ String c ""))) with (udigits (String x r ++ String c "")%string). rewrite (val_end c _ D). reflexivity. }
  unfold atol, strtol. destruct (strtol_raw (s ++ String c "")%string) as [a b], (strtol_raw s) as [a' b']. cbn [fst] in *. congruence.
Qed.
Lemma atol_close s close : closing close -> atol (s ++ close)%string = atol s.
Proof. intros [-> | ->]; apply atol_end; reflexivity. Qed.
Lemma drop_close t close : closing close -> drop_last (t ++ close)%string = Some t.
Proof.
  intros C. assert (E : exists c, close = String c "") by (destruct C as [-> | ->]; eexists; reflexivity). destruct E as [c ->]. clear C.
  induction t as [|x t IH]; [reflexivity|]. cbn [append drop_last]. destruct (t ++ String c "")%string eqn:E; [destruct t; discriminate|]. rewrite IH. reflexivity.
Qed.
Lemma hashes_close t close : closing close -> hashes (t ++ close)%string = prefix "####" t.
Proof.
  intros C. unfold hashes. assert (E : exists c, close = String c "" /\ c <> "#"%char) by (destruct C as [-> | ->]; eexists; split; try reflexivity; discriminate). destruct E as [c [-> N]]. clear C.
  destruct t as [|a [|b [|d [|e t]]]]; cbn [append prefix];
    repeat match goal with |- context [Ascii.ascii_dec "#" ?x] => destruct (Ascii.ascii_dec "#" x) end; subst; try reflexivity; try contradiction. destruct t; reflexivity.
Qed.
Lemma nth_error_skip {A} : forall n (l : list A) k, nth_error (skipn n l) k = nth_error l (n + k).
Proof. induction n as [|n IH]; intros l k; [reflexivity|]. destruct l as [|x l]; [destruct k; reflexivity|]. apply IH. Qed.
Lemma nth_error_first {A} : forall n (l : list A) k, k < n -> nth_error (firstn n l) k = nth_error l k.
Proof. induction n as [|n IH]; intros l k H; [lia|]. destruct l as [|x l]; [reflexivity|]. destruct k as [|k]; [reflexivity|]. cbn [firstn nth_error]. apply IH. lia. Qed.

Section Conv.
Context {V : Type}.
Variable atof : string -> V.
Hypothesis atof_close : forall s close, closing close -> atof (s ++ close)%string = atof s.
Notation value := (@value V).
Notation cell := (@cell V).
Definition value_of (ty : Z) (t : string) : value :=
  if (ty =? 1)%Z then VLong (atol t) else if (ty =? 2)%Z then VFloat (atof t) else if (ty =? 3)%Z then VDouble (atof t) else VString t.
Lemma kind_of ty t : (1 <= ty <= 4)%Z -> kind (value_of ty t) = ty.
Proof. intros H. unfold value_of. destruct (Z.eqb_spec ty 1); [cbn; lia|]. destruct (Z.eqb_spec ty 2); [cbn; lia|]. destruct (Z.eqb_spec ty 3); cbn; lia. Qed.
Lemma width_pos ty : 1 <= width ty.
Proof. unfold width. destruct (ty =? 2)%Z; lia. Qed.
Lemma put_ok (mem : list cell) ty i v : S i * width ty <= length mem -> exists mem', put mem ty i v = Ret mem' /\ length mem' = length mem /\
  forall k, nth_error mem' k = if Nat.leb (i * width ty) k && Nat.ltb k (S i * width ty) then Some (Some (v, k - i * width ty)) else nth_error mem k.
Proof.
  intros H. unfold put. rewrite (proj2 (Nat.leb_le _ _) H). eexists. split; [reflexivity|]. remember (width ty) as w. assert (L1 : length (firstn (i * w) mem) = i * w) by (rewrite firstn_length; lia).
  split; [rewrite !app_length, map_length, seq_length, skipn_length, L1; lia|]. intros k.
  destruct (Nat.leb_spec (i * w) k) as [A|A]; cbn [andb].
  - rewrite nth_error_app2 by lia. rewrite L1. destruct (Nat.ltb_spec k (S i * w)) as [B|B].
    + rewrite nth_error_app1 by (rewrite map_length, seq_length; lia). rewrite nth_error_map. rewrite nth_error_nth' with (d := 0) by (rewrite seq_length; lia). rewrite seq_nth by lia. reflexivity.
    + rewrite nth_error_app2 by (rewrite map_length, seq_length; lia). rewrite map_length, seq_length. rewrite nth_error_skip. f_equal. lia.
  - rewrite nth_error_app1 by lia. apply nth_error_first. lia.
Qed.
Lemma get_of (mem : list cell) ty i v : kind v = ty -> nth_error mem (i * width ty) = Some (Some (v, 0)) -> get mem ty i = Some v.
Proof. intros K H. unfold get. rewrite H, K, Z.eqb_refl. reflexivity. Qed.
(** The values of a block. *)
Fixpoint puts (ty : Z) (i : nat) (mem : list cell) (vals : list string) : outcome (list cell) :=
  match vals with [] => Ret mem | t :: vals => do mem <- put mem ty i (value_of ty t); puts ty (S i) mem vals end.
Lemma values_eq ty : (1 <= ty <= 4)%Z -> forall vals gs, Forall2 (group 256) vals gs -> Forall (fun v => prefix "####" v = false) vals ->
  forall i (mem : list cell) line r, hashes line = false ->
  exists line', values atof (length vals) i ty mem line (mkStream (concat gs ++ r) false) = (do mem <- puts ty i mem vals; Ret (0%Z, mem, line', mkStream r false)) /\ hashes line' = false.
Proof.
  intros TY vals gs F. induction F as [|t g vals gs G F IH]; intros NH i mem line r HL; cbn [length].
  - exists line. split; [reflexivity|exact HL].
  - inversion NH as [|? ? N1 N2]; subst. cbn [values concat puts]. rewrite <- app_assoc. destruct (getline_group 256 t g (concat gs ++ r) G) as [close [C ->]]. cbn [bind].
    set (lv := (if (ty =? 3)%Z then _ else _)).
    assert (LV : exists l, lv = Ret (l, value_of ty t) /\ hashes l = false).
    { subst lv. unfold value_of. rewrite (atof_close t close C), (atol_close t close C), (drop_close t close C). pose proof (hashes_close t close C) as HC. rewrite N1 in HC.
      destruct (Z.eqb_spec ty 3) as [->|]; [eexists; split; [reflexivity|exact HC]|]. destruct (Z.eqb_spec ty 2) as [->|]; [eexists; split; [reflexivity|exact HC]|]. destruct (Z.eqb_spec ty 1) as [->|]; [eexists; split; [reflexivity|exact HC]|].
      eexists. split; [reflexivity|exact N1]. }
    destruct LV as [l [-> HL1]]. cbn [bind fst snd]. destruct (put mem ty i (value_of ty t)) as [mem1| |] eqn:P; cbn [bind]; [|exists line; split; [reflexivity|exact HL]..].
    apply IH; assumption.
Qed.
Lemma puts_ok ty : (1 <= ty <= 4)%Z -> forall vals i (mem : list cell), (i + length vals) * width ty <= length mem ->
  exists mem', puts ty i mem vals = Ret mem' /\ length mem' = length mem /\
    (forall j t, nth_error vals j = Some t -> get mem' ty (i + j) = Some (value_of ty t)) /\
    (forall k, k < i * width ty \/ (i + length vals) * width ty <= k -> nth_error mem' k = nth_error mem k).
Proof.
  intros TY. induction vals as [|t vals IH]; intros i mem LM; cbn [length puts] in *.
  - exists mem. split; [reflexivity|]. split; [reflexivity|]. split; [intros j t H; destruct j; discriminate|reflexivity].
  - destruct (put_ok mem ty i (value_of ty t)) as [mem1 [-> [L1 P1]]]; [pose proof (width_pos ty); nia|]. cbn [bind].
    destruct (IH (S i) mem1 ltac:(lia)) as [mem' [R [L' [G' K']]]]. exists mem'. split; [exact R|]. split; [lia|]. split.
    + intros j x H. destruct j as [|j].
      * cbn [nth_error] in H. injection H as <-. rewrite Nat.add_0_r. apply get_of; [apply kind_of; exact TY|]. pose proof (width_pos ty). rewrite K' by (left; nia). rewrite P1, Nat.leb_refl, Nat.sub_diag.
        destruct (Nat.ltb_spec (i * width ty) (S i * width ty)) as [_|B]; [reflexivity|nia].
      * replace (i + S j) with (S i + j) by lia. apply G'. exact H.
    + intros k H. pose proof (width_pos ty). rewrite K' by (destruct H; [left|right]; nia). rewrite P1.
      destruct (Nat.leb_spec (i * width ty) k), (Nat.ltb_spec k (S i * width ty)); cbn [andb]; try reflexivity. destruct H; nia.
Qed.
Lemma put_length (mem mem' : list cell) ty i v : put mem ty i v = Ret mem' -> length mem' = length mem.
Proof.
  unfold put. destruct (Nat.leb_spec (S i * width ty) (length mem)) as [L|L]; [|discriminate]. intros [= <-]. rewrite !app_length, map_length, seq_length, skipn_length, firstn_length. nia.
Qed.
Lemma puts_over ty : forall vals i (mem : list cell), length mem < (i + length vals) * width ty -> i * width ty <= length mem -> puts ty i mem vals = UB.
Proof.
  induction vals as [|t vals IH]; intros i mem H L; cbn [length puts] in *; [lia|]. destruct (put mem ty i (value_of ty t)) as [mem1| |] eqn:P; cbn [bind]; [|reflexivity|].
  - pose proof (put_length _ _ _ _ _ P) as PL. apply IH; [rewrite PL; lia|]. rewrite PL. unfold put in P. destruct (Nat.leb_spec (S i * width ty) (length mem)); [lia|discriminate].
  - unfold put in P. destruct (Nat.leb (S i * width ty) (length mem)); discriminate.
Qed.
(** Forward to the header. *)
Lemma seek_block h : prefix "####" h = true -> forall pre pgs, Forall2 (group 256) pre pgs -> Forall (fun t => prefix "####" t = false) pre -> forall g r line fuel, group 256 h g -> hashes line = false ->
  S (length pre) < fuel -> seek fuel line (mkStream (concat pgs ++ g ++ r) false) = Ret (Some (mkStream r false)).
Proof.
  intros HH pre pgs F. induction F as [|t x pre pgs X F IH]; intros NH g r line fuel G HL L; cbn [length] in L.
  - destruct fuel as [|[|fuel]]; [lia|lia|]. cbn [seek concat app]. rewrite HL. destruct (getline_group 256 h g r G) as [close [C ->]]. cbn [bind]. cbn [seek]. rewrite (hashes_close h close C), HH. reflexivity.
  - destruct fuel as [|fuel]; [lia|]. cbn [seek concat]. rewrite HL, <- app_assoc. destruct (getline_group 256 t x (concat pgs ++ g ++ r) X) as [close [C ->]]. cbn [bind]. inversion NH; subst.
    apply IH; [assumption|exact G| |lia]. rewrite (hashes_close t close C). assumption.
Qed.
Lemma seek_end post : Forall noise post -> Forall (fun x => String.length x < 256) post -> forall pre pgs, Forall2 (group 256) pre pgs -> Forall (fun t => prefix "####" t = false) pre -> forall line fuel, hashes line = false ->
  length pre < fuel -> seek fuel line (mkStream (concat pgs ++ post) false) = Ret None.
Proof.
  intros NP LP pre pgs F. induction F as [|t x pre pgs X F IH]; intros NH line fuel HL L; cbn [length] in L.
  - destruct fuel as [|fuel]; [lia|]. cbn [seek concat app]. rewrite HL, getline_noise by assumption. reflexivity.
  - destruct fuel as [|fuel]; [lia|]. cbn [seek concat]. rewrite HL, <- app_assoc. destruct (getline_group 256 t x (concat pgs ++ post) X) as [close [C ->]]. cbn [bind]. inversion NH; subst.
    apply IH; [assumption| |lia]. rewrite (hashes_close t close C). assumption.
Qed.
(** The data base. *)
Lemma addr_key (d : @db V) k c : control_addr d k = Some c -> c_key c = k.
Proof. intros H. apply find_some in H. destruct H as [_ H]. apply String.eqb_eq in H. exact H. Qed.
Lemma addr_update (d : @db V) c k : control_addr (update d c) k = if String.eqb (c_key c) k then match control_addr d k with Some _ => Some c | None => None end else control_addr d k.
Proof.
  induction d as [|q d IH]; cbn [update control_addr find]; [destruct (String.eqb (c_key c) k); reflexivity|].
  destruct (String.eqb_spec (c_key q) (c_key c)) as [E|E]; cbn [control_addr find].
  - rewrite E. destruct (String.eqb (c_key c) k); reflexivity.
  - fold (control_addr (update d c) k). fold (control_addr d k). destruct (String.eqb_spec (c_key q) k) as [F|F]; destruct (String.eqb_spec (c_key c) k) as [G|G]; [congruence|reflexivity| |].
    + rewrite IH. destruct (String.eqb_spec (c_key c) k); [reflexivity|contradiction].
    + rewrite IH. destruct (String.eqb_spec (c_key c) k); [contradiction|reflexivity].
Qed.
Lemma find_snoc {A} (f : A -> bool) l x : find f (l ++ [x]) = match find f l with Some y => Some y | None => if f x then Some x else None end.
Proof. induction l as [|a l IH]; cbn [app find]; [reflexivity|]. destruct (f a); [reflexivity|exact IH]. Qed.
Lemma addr_snoc (d : @db V) c k : control_addr (d ++ [c]) k = match control_addr d k with Some x => Some x | None => if String.eqb (c_key c) k then Some c else None end.
Proof. unfold control_addr. rewrite find_snoc. reflexivity. Qed.
Lemma last_cons key b bs : last_of key (b :: bs) = match last_of key bs with Some x => Some x | None => if String.eqb (b_key b) key then Some b else None end.
Proof. unfold last_of. cbn [rev]. rewrite find_snoc. reflexivity. Qed.
Definition agrees (d : @db V) (sig : string -> option (Z * Z)) : Prop := forall k c, control_addr d k = Some c ->
  sig k = Some (c_type c, c_size c) /\ (0 <= c_size c)%Z /\ Z.to_nat (c_size c) * width (c_type c) <= length (c_mem c).
Definition fits (d : @db V) (sig : string -> option (Z * Z)) (b : block) : Prop :=
  exists n, sig (b_key b) = Some (b_type b, n) /\ (Z.of_nat (length (b_vals b)) <= n)%Z /\ (control_addr d (b_key b) = None -> Z.of_nat (length (b_vals b)) = n).
Definition written (d d' : @db V) (sig : string -> option (Z * Z)) (bs : list block) : Prop := forall key,
  match last_of key bs with
  | None => control_addr d' key = control_addr d key
  | Some b => exists c, control_addr d' key = Some c /\ sig key = Some (c_type c, c_size c) /\ c_type c = b_type b /\
      forall i t, nth_error (b_vals b) i = Some t -> get (c_mem c) (b_type b) i = Some (value_of (b_type b) t)
  end.
Lemma groups_total n pre pgs r : Forall2 (group n) pre pgs -> length pre <= total (concat pgs ++ r).
Proof.
  intros F. rewrite total_app. pose proof (total_len (concat pgs)). assert (length pre <= length (concat pgs)); [|lia]. clear H r. induction F as [|t g pre pgs G F IH]; [cbn; lia|]. cbn [length concat]. rewrite app_length.
  destruct G as [_ [ns [l [-> _]]]]. rewrite app_length. cbn [length]. lia.
Qed.
Lemma numeral_Z s v : numeral s v -> (v < 2 ^ 63)%Z -> forall close, closing close -> atol (s ++ close)%string = v.
Proof. intros N L close C. rewrite (atol_close s close C). apply numeral_atol; [exact N|]. unfold LONG_MAX. lia. Qed.
Definition step (d : @db V) (b : block) : outcome (@db V) :=
  do d <- (match control_addr d (b_key b) with Some _ => Ret d | None => add_control d (b_key b) (b_type b) (Z.of_nat (length (b_vals b))) end);
  match control_addr d (b_key b) with
  | None => UB
  | Some c => do mem <- puts (b_type b) 0 (c_mem c) (b_vals b); Ret (update d (mkControl (c_key c) (c_size c) (c_type c) mem))
  end.
Fixpoint steps (d : @db V) (bs : list block) : outcome (@db V) := match bs with [] => Ret d | b :: bs => do d <- step d b; steps d bs end.
Lemma rounds_eq post : Forall noise post -> Forall (fun x => String.length x < 256) post ->
  forall bs bgs, Forall2 block_lines bs bgs -> forall fuel pre pgs (d : @db V) line, Forall2 (group 256) pre pgs -> Forall (fun t => prefix "####" t = false) pre ->
  hashes line = false -> length bs < fuel -> rounds atof fuel d line (mkStream (concat pgs ++ concat bgs ++ post) false) = (do d' <- steps d bs; Ret (0%Z, d')).
Proof.
  intros NP LP bs bgs F. induction F as [|b g bs bgs B F IH]; intros fuel pre pgs d line PG PN HL FL; cbn [length] in FL.
  - destruct fuel as [|fuel]; [lia|]. cbn [rounds eof concat app]. rewrite (seek_end post NP LP pre pgs PG PN line _ HL); [reflexivity|].
    rewrite measure_total. pose proof (groups_total 256 pre pgs post PG). lia.
  - destruct fuel as [|fuel]; [lia|]. destruct B as [key ty vals h nt tt g0 g1 g2 g3 gs HH G0 G1 N1 N2 G2 N3 TY G3 GS NH].
    cbn [rounds eof concat]. rewrite <- !app_assoc. rewrite (seek_block h HH pre pgs PG PN g0 _ line _ G0 HL).
    2:{ rewrite measure_total, total_app. pose proof (groups_total 256 pre pgs [] PG) as T. rewrite app_nil_r in T. rewrite total_app. destruct G0 as [_ [ns [l [-> _]]]]. rewrite total_app. cbn [total fold_right]. lia. }
    cbn [bind]. destruct (getline_group 50 key g1 (g2 ++ g3 ++ concat gs ++ concat bgs ++ post) G1) as [c1 [C1 ->]]. cbn [bind]. rewrite (drop_close key c1 C1).
    destruct (getline_group 256 nt g2 (g3 ++ concat gs ++ concat bgs ++ post) G2) as [c2 [C2 ->]]. cbn [bind]. rewrite (numeral_Z nt _ N1 N2 c2 C2). cbv zeta.
    destruct (Z.ltb_spec (Z.of_nat (length vals)) 0) as [X|_]; [lia|].
    destruct (getline_group 256 tt g3 (concat gs ++ concat bgs ++ post) G3) as [c3 [C3 ->]]. cbn [bind]. rewrite (numeral_Z tt _ N3 ltac:(lia) c3 C3).
    destruct (Z.eqb_spec ty 0) as [X|_]; [lia|].
    assert (HC : hashes (tt ++ c3)%string = false).
    { rewrite (hashes_close tt c3 C3). destruct (prefix "####" tt) eqn:P; [|reflexivity]. exfalso. destruct (prefix_split _ _ P) as [r ->]. pose proof (numeral_atol _ _ N3 ltac:(unfold LONG_MAX; lia)) as A. cbn in A. lia. }
    cbn [steps]. unfold step. cbn [b_key b_type b_vals].
    destruct (match control_addr d key with Some _ => Ret d | None => add_control d key ty (Z.of_nat (length vals)) end) as [d1| |]; cbn [bind]; [|reflexivity..].
    destruct (control_addr d1 key) as [c|]; [|reflexivity]. replace ((1 <=? ty) && (ty <=? 4))%Z with true by lia. rewrite Nat2Z.id.
    destruct (values_eq ty TY vals gs GS NH 0 (c_mem c) (tt ++ c3)%string (concat bgs ++ post) HC) as [line' [-> HL']].
    destruct (puts ty 0 (c_mem c) vals) as [mem| |]; cbn [bind]; [|reflexivity..]. change (0 =? 0)%Z with true. cbv iota.
    apply (IH fuel [] []); [constructor|constructor|exact HL'|lia].
Qed.
Lemma step_ok sig (d : @db V) b : agrees d sig -> fits d sig b -> (1 <= b_type b <= 4)%Z ->
  exists d' c, step d b = Ret d' /\ agrees d' sig /\ (forall k, control_addr d' k = if String.eqb (b_key b) k then Some c else control_addr d k) /\
    sig (b_key b) = Some (c_type c, c_size c) /\ c_type c = b_type b /\ forall i t, nth_error (b_vals b) i = Some t -> get (c_mem c) (b_type b) i = Some (value_of (b_type b) t).
Proof.
  intros AG [n [S1 [S2 S3]]] TY. destruct b as [key ty vals]. cbn [b_key b_type b_vals] in *. unfold step. cbn [b_key b_type b_vals].
  set (dd := match control_addr d key with Some _ => Ret d | None => add_control d key ty (Z.of_nat (length vals)) end).
  assert (D1 : exists d1 c, dd = Ret d1 /\ control_addr d1 key = Some c /\ agrees d1 sig /\ (forall k, k <> key -> control_addr d1 k = control_addr d k) /\ c_key c = key /\ c_type c = ty /\ c_size c = n /\ length vals * width ty <= length (c_mem c)).
  { subst dd. destruct (control_addr d key) as [c|] eqn:A.
    - exists d, c. destruct (AG key c A) as [K1 [K2 K3]]. rewrite S1 in K1. injection K1 as K1 K4. repeat (split; [first [reflexivity|assumption|apply (addr_key d key c A)|symmetry; assumption]|]).
      rewrite <- K1, <- K4 in K3. nia.
    - assert (E : n = Z.of_nat (length vals)) by (symmetry; apply S3; reflexivity). clear S3. unfold add_control. rewrite A. replace ((1 <=? ty) && (ty <=? 4))%Z with true by lia.
      exists (d ++ [mkControl key (Z.of_nat (length vals)) ty (repeat None (Z.to_nat (Z.of_nat (length vals)) * width ty))]), (mkControl key (Z.of_nat (length vals)) ty (repeat None (Z.to_nat (Z.of_nat (length vals)) * width ty))).
      split; [reflexivity|]. split; [rewrite addr_snoc, A; cbn [c_key]; rewrite String.eqb_refl; reflexivity|]. split.
      { intros k c K. rewrite addr_snoc in K. destruct (control_addr d k) as [c0|] eqn:A0; [injection K as <-; apply AG; exact A0|]. cbn [c_key] in K. destruct (String.eqb_spec key k) as [<-|]; [|discriminate]. injection K as <-.
        cbn [c_type c_size c_mem]. rewrite repeat_length. split; [rewrite S1, E; reflexivity|]. split; lia. }
      split; [intros k K; rewrite addr_snoc; cbn [c_key]; destruct (control_addr d k); [reflexivity|]; destruct (String.eqb_spec key k); [subst; contradiction|reflexivity]|].
      cbn [c_key c_type c_size c_mem]. rewrite repeat_length. repeat (split; [first [reflexivity|symmetry; assumption]|]). nia. }
  destruct D1 as [d1 [c [-> [A1 [AG1 [OTH [CK [CT [CS CM]]]]]]]]]. cbn [bind]. rewrite A1.
  destruct (puts_ok ty TY vals 0 (c_mem c) CM) as [mem' [-> [L' [GV _]]]]. cbn [bind].
  set (c' := mkControl (c_key c) (c_size c) (c_type c) mem'). set (d2 := update d1 c').
  assert (A2 : forall k, control_addr d2 k = if String.eqb key k then Some c' else control_addr d k).
  { intros k. unfold d2. rewrite addr_update. unfold c' at 1. cbn [c_key]. rewrite CK. destruct (String.eqb_spec key k) as [<-|NE]; [rewrite A1; reflexivity|apply OTH; congruence]. }
  exists d2, c'. split; [reflexivity|]. split.
  { intros k x K. rewrite A2 in K. destruct (String.eqb_spec key k) as [<-|NE]; [|apply AG; exact K]. injection K as <-. destruct (AG1 key c A1) as [K1 [K2 K3]]. cbn [c_type c_size c_mem c']. rewrite L'. split; [exact K1|]. split; assumption. }
  split; [exact A2|]. cbn [c_type c_size c_mem c']. split; [rewrite S1, CT, CS; reflexivity|]. split; [exact CT|]. intros i t I. exact (GV i t I).
Qed.
Lemma steps_ok sig : forall bs (d : @db V), agrees d sig -> Forall (fits d sig) bs -> Forall (fun b => 1 <= b_type b <= 4)%Z bs ->
  exists d', steps d bs = Ret d' /\ agrees d' sig /\ written d d' sig bs.
Proof.
  induction bs as [|b bs IH]; intros d AG FT TY; cbn [steps].
  - exists d. split; [reflexivity|]. split; [exact AG|]. intros key. reflexivity.
  - inversion FT as [|? ? F1 FT']; subst. inversion TY as [|? ? T1 TY']; subst. destruct (step_ok sig d b AG F1 T1) as [d2 [c [-> [AG2 [A2 [S2 [C2 G2]]]]]]]. cbn [bind].
    destruct (IH d2 AG2) as [d' [R [AG' W]]]; [|exact TY'|].
    { rewrite Forall_forall in *. intros x I. destruct (FT' x I) as [m [M1 [M2 M3]]]. exists m. split; [exact M1|]. split; [exact M2|]. rewrite A2. destruct (String.eqb (b_key b) (b_key x)); [discriminate|exact M3]. }
    exists d'. split; [exact R|]. split; [exact AG'|]. intros k. specialize (W k). rewrite last_cons. destruct (last_of k bs) as [x|]; [exact W|].
    rewrite W, A2. destruct (String.eqb_spec (b_key b) k) as [<-|NE]; [|reflexivity]. exists c. split; [reflexivity|]. split; [exact S2|]. split; [exact C2|exact G2].
Qed.
Lemma rounds_seek fuel (d : @db V) l1 f1 l2 f2 : eof f1 = false -> eof f2 = false -> seek (S (measure f1)) l1 f1 = seek (S (measure f2)) l2 f2 -> rounds atof (S fuel) d l1 f1 = rounds atof (S fuel) d l2 f2.
Proof. intros E1 E2 S. cbn [rounds]. rewrite E1, E2, S. reflexivity. Qed.
Lemma rc_eq bs ls (d : @db V) : file_of bs ls -> rc atof d (Some ls) = (do d' <- steps d bs; Ret (0%Z, d')).
Proof.
  intros [pre pgs bgs post PG PN BG NP LP NE]. unfold rc.
  assert (LB : length bs < S (measure (mkStream (concat pgs ++ concat bgs ++ post) false))).
  { rewrite measure_total, !total_app. assert (length bs <= total (concat bgs)); [|lia]. pose proof (total_len (concat bgs)). assert (length bs <= length (concat bgs)); [|lia].
    clear - BG. induction BG as [|b g bs bgs B BG IH]; [cbn; lia|]. cbn [length concat]. rewrite app_length. assert (1 <= length g); [|lia]. destruct B as [key ty vals h nt tt g0 g1 g2 g3 gs HH G0 G1 N1 N2 G2 N3 TY G3 GS NH].
    destruct G0 as [_ [ns [l [-> _]]]]. rewrite !app_length. cbn [length]. lia. }
  rewrite <- (rounds_eq post NP LP bs bgs BG (S (measure (mkStream (concat pgs ++ concat bgs ++ post) false))) pre pgs d "" PG PN eq_refl LB).
  destruct PG as [|t x pre pgs X PG].
  - destruct BG as [|b g bs bgs B BG]; [destruct NE; contradiction|]. cbn [concat app].
    destruct B as [key ty vals h nt tt g0 g1 g2 g3 gs HH G0 G1 N1 N2 G2 N3 TY G3 GS NH]. rewrite <- !app_assoc.
    destruct (getline_group 256 h g0 (g1 ++ g2 ++ g3 ++ concat gs ++ concat bgs ++ post) G0) as [close [C E]]. rewrite E. cbn [bind]. apply rounds_seek; [reflexivity|reflexivity|].
    cbn [seek]. rewrite (hashes_close h close C), HH. change (hashes "") with false. cbv iota. rewrite E. cbn [bind].
    rewrite measure_total, total_app. destruct G0 as [_ [ns [l [-> _]]]]. rewrite (total_app ns). cbn [total fold_right]. rewrite !Nat.add_succ_r, !Nat.add_succ_l. cbn [seek]. rewrite (hashes_close h close C), HH. reflexivity.
  - cbn [concat]. rewrite <- app_assoc. inversion PN as [|? ? PX PN']; subst. destruct (getline_group 256 t x (concat pgs ++ concat bgs ++ post) X) as [close [C E]]. rewrite E. cbn [bind]. apply rounds_seek; [reflexivity|reflexivity|].
    assert (HC : hashes (t ++ close)%string = false) by (rewrite (hashes_close t close C); exact PX).
    pose proof (groups_total 256 pre pgs [] PG) as T. rewrite app_nil_r in T.
    destruct BG as [|b g bs bgs B BG].
    + cbn [concat app]. rewrite (seek_end post NP LP pre pgs PG PN' _ _ HC) by (rewrite measure_total, total_app; lia).
      change (x ++ concat pgs ++ post) with (x ++ (concat pgs ++ post)). rewrite app_assoc. change (x ++ concat pgs) with (concat (x :: pgs)).
      rewrite (seek_end post NP LP (t :: pre) (x :: pgs) (Forall2_cons _ _ X PG) PN "" _ eq_refl); [reflexivity|]. rewrite measure_total. pose proof (groups_total 256 (t :: pre) (x :: pgs) post (Forall2_cons _ _ X PG)). lia.
    + cbn [concat]. destruct B as [key ty vals h nt tt g0 g1 g2 g3 gs HH G0 G1 N1 N2 G2 N3 TY G3 GS NH]. rewrite <- !app_assoc.
      assert (P0 : 1 <= total g0) by (destruct G0 as [_ [ns [l [-> _]]]]; rewrite total_app; cbn [total fold_right]; lia).
      rewrite (seek_block h HH pre pgs PG PN' g0 _ _ _ G0 HC) by (rewrite measure_total, !total_app; lia).
      rewrite (app_assoc x (concat pgs)). change (x ++ concat pgs) with (concat (x :: pgs)).
      rewrite (seek_block h HH (t :: pre) (x :: pgs) (Forall2_cons _ _ X PG) PN g0 _ "" _ G0 eq_refl); [reflexivity|].
      rewrite measure_total, !total_app. pose proof (groups_total 256 (t :: pre) (x :: pgs) [] (Forall2_cons _ _ X PG)) as T2. rewrite app_nil_r in T2. lia.
Qed.
Lemma file_types bs ls : file_of bs ls -> Forall (fun b => 1 <= b_type b <= 4)%Z bs.
Proof. intros [pre pgs bgs post PG PN BG NP LP NE]. clear - BG. induction BG as [|b g bs bgs B BG IH]; constructor; [destruct B; assumption|exact IH]. Qed.
End Conv.
