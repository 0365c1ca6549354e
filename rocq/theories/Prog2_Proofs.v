(** Lemmas for C76: DIM, READ and the skipping of text. *)
From Coq Require Import String Ascii List ZArith QArith Qround Qabs Bool Lia Lqa.
From Verif Require Import CStr_Model CNum_Model Qx Basic_Model Basic_Spec Basic_Proofs Basic2_Proofs Prog_Model Prog_Spec Prog_Proofs.
Import ListNotations.
Local Open Scope string_scope.
Local Open Scope list_scope.
Local Open Scope Z_scope.
Ltac bind H := eapply PB; [exact H|]; cbn beta.
Ltac bindc := eapply PB; [apply PC; reflexivity|]; cbn beta iota.

Section W.
Variables (w : world) (PR : list line).
Notation mm := (mm PR).
(** ** DIM and ERASE *)
Lemma last_item (K : P flow) m : eos (rest m) = true -> (do* e := eosP in do* _ := (if e then pret tt else need is_comma) in do* e := eosP in if e then pret Plain else K) m = Ok (Plain, m).
Proof. intros E. unfold pbind, eosP, pret. cbn [rbind fst snd]. rewrite E. cbn [rbind fst snd]. rewrite E. reflexivity. Qed.
Lemma after_change {B} g (k : unit -> P B) m : pbind (change g) k m = k tt (g m).
Proof. reflexivity. Qed.
Lemma do_bounds s : forall l js n i r h L c d, Forall2 (whole_in w s) l js -> l <> [] -> Forall (fun j => 0 <= j < LONG_MAX) js -> 0 <= i -> i + Z.of_nat (length l) <= 4 -> (length l <= n)%nat ->
  exists c', EVP (fun f => bounds w f n i) (mm (separated (map written l) ++ TRp :: r, h) s L c d) (Ok (map (fun j => j + 1) js, mm (r, h) s L c' d)).
Proof.
  induction l as [|e l IH]; intros js n i r h L c d H N F Hi Li Ln; [congruence|]. destruct n as [|n]; [cbn in Ln; lia|].
  inversion H as [|e0 j l0 js' He Hl]; subst. inversion F as [|? ? F1 F2]; subst. cbn beta in F1. cbn [length] in Li, Ln.
  assert (J1 : (j =? LONG_MAX) = false) by lia. assert (J2 : (j + 1 <? 1) || (maxdims <=? i) = false) by (unfold maxdims; lia).
  destruct l as [|e2 l].
  - inversion Hl; subst. cbn [map separated]. destruct (p_int w PR s e j (TRp :: r) h L c d He ltac:(reflexivity)) as (c1 & H1). exists c1.
    cbn [bounds]. bind H1. rewrite J1. cbn zeta. rewrite J2. apply PA. intros f. reflexivity.
  - change (separated (map written (e :: e2 :: l)) ++ TRp :: r) with ((written e ++ TComma :: separated (map written (e2 :: l))) ++ TRp :: r). rewrite <- app_assoc. cbn [app].
    destruct (p_int w PR s e j (TComma :: separated (map written (e2 :: l)) ++ TRp :: r) h L c d He ltac:(reflexivity)) as (c1 & H1).
    destruct (IH js' n (i + 1) r h L c1 d Hl ltac:(discriminate) F2 ltac:(lia) ltac:(cbn [length] in *; lia) ltac:(cbn [length] in *; lia)) as (c2 & H2). exists c2.
    cbn [bounds]. bind H1. rewrite J1. cbn zeta. rewrite J2.
    apply PS with (p' := fun f => pbind (bounds w f n (i + 1)) (fun l => pret (j + 1 :: l))) (m' := mm (separated (map written (e2 :: l)) ++ TRp :: r, h) s L c1 d); [reflexivity|].
    bind H2. apply PC. reflexivity.
Qed.
Lemma do_dim s x l js n r h L c d : dims (vs s x) = [] -> Forall2 (whole_in w s) l js -> (1 <= length l <= 4)%nat -> Forall (fun j => 0 <= j < LONG_MAX) js -> size (map (fun j => j + 1) js) <= LONG_MAX -> eos r = true ->
  exists c', EVP (fun f => dim_all w f (S n)) (mm (TVar x :: TLp :: separated (map written l) ++ TRp :: r, h) s L c d)
    (Ok (Plain, mm (r, h) (mkMem (fun y => if String.eqb y x then mkVar (map (fun j => j + 1) js) (fun k => if k =? scalar then cells (vs s x) scalar else if is_text x then VStr "" else VNum 0) else vs s y)
        (sv s) (tx s) (outp s) (feed s)) L c' d)).
Proof.
  intros D H Ll F Sz R. destruct (do_bounds s l js 6 0 r h L c d H ltac:(intros ->; cbn in Ll; lia) F ltac:(lia) ltac:(lia) ltac:(lia)) as (c1 & H1). exists c1.
  apply PS with (p' := fun f => pbind (bounds w f 6 0) (fun ds m => match dims (vars (base m) x) with
                        | _ :: _ => Ok (Unknown, m)
                        | [] =>
                            if LONG_MAX <? fold_right Z.mul 1 ds then Crash else
                            (pbind (change (fun m => with_base m (dimension (base m) x ds))) (fun _ =>
                             pbind eosP (fun e => pbind (if e then pret tt else need is_comma) (fun _ => pbind eosP (fun e => if e then pret Plain else dim_all w f n))))) m
                        end)) (m' := mm (separated (map written l) ++ TRp :: r, h) s L c d).
  { intros f. cbn [dim_all]. change (rest (mm (TVar x :: TLp :: separated (map written l) ++ TRp :: r, h) s L c d)) with (TVar x :: TLp :: separated (map written l) ++ TRp :: r).
    cbn [base Prog_Proofs.mm vars]. rewrite D. reflexivity. }
  bind H1. apply PA. intros f. cbn [base Prog_Proofs.mm vars]. rewrite D. unfold size in Sz. replace (LONG_MAX <? fold_right Z.mul 1 (map (fun j => j + 1) js)) with false by lia.
  rewrite after_change. apply last_item. exact R.
Qed.
Lemma do_erase s x n r h L c d : eos r = true ->
  exists c', EVP (fun f => erase_all (S n)) (mm (TVar x :: r, h) s L c d)
    (Ok (Plain, mm (r, h) (mkMem (fun y => if String.eqb y x then mkVar [] (fun _ => if is_text x then VStr "" else VNum 0) else vs s y) (sv s) (tx s) (outp s) (feed s)) L c' d)).
Proof.
  intros R. exists (set c x scalar). apply PA. intros _. cbn [erase_all]. change (rest (mm (TVar x :: r, h) s L c d)) with (TVar x :: r). cbn iota. rewrite after_change. apply last_item. exact R.
Qed.

(** ** READ *)
Inductive tail_data : list tok -> list value -> Prop :=
| td_more t l r l' : data_list t l -> eos r = true -> data_text r l' -> tail_data (TComma :: t ++ r) (l ++ l')
| td_text t l : match t with TComma :: _ => False | _ => True end -> data_text t l -> tail_data t l.
Definition offered (d : list tok * list line) (l : list value) : Prop :=
  match snd d with
  | [] => data_of PR l
  | _ :: later => exists a b, tail_data (fst d) a /\ data_of later b /\ l = a ++ b
  end.
Lemma constant_first c v r : constant c v -> eos (c ++ r) = false.
Proof. destruct 1; reflexivity. Qed.
Lemma list_first t l : data_list t l -> exists c v u l', constant c v /\ l = v :: l' /\ t = c ++ u /\
  ((u = [] /\ l' = []) \/ exists t', u = TComma :: t' /\ data_list t' l').
Proof.
  destruct 1 as [c v C|c v t l C H].
  - exists c, v, [], []. split; [exact C|]. split; [reflexivity|]. split; [symmetry; apply app_nil_r|]. left. auto.
  - exists c, v, (TComma :: t), l. split; [exact C|]. split; [reflexivity|]. split; [reflexivity|]. right. eauto.
Qed.
(** The first of some data, with what is offered behind it. *)
Lemma list_offer t l r l' h0 later b v rest0 : data_list t l -> eos r = true -> data_text r l' -> data_of later b -> (l ++ l') ++ b = v :: rest0 ->
  exists c u, t ++ r = c ++ u /\ constant c v /\ ends u /\ offered (u, h0 :: later) rest0.
Proof.
  intros D R T B E. destruct (list_first t l D) as (c & v' & u & l1 & C & -> & -> & Hu). cbn [app] in E. injection E as -> <-.
  exists c, (u ++ r). split; [symmetry; apply app_assoc|]. split; [exact C|]. destruct Hu as [[-> ->]|(t' & -> & D')].
  - cbn [app]. split; [apply eos_ends; exact R|]. exists l', b. split; [|split; [exact B|reflexivity]]. cbn [fst]. apply td_text; [|exact T]. destruct r as [|x r]; [exact I|]. destruct x; try discriminate; exact I.
  - cbn [app]. split; [reflexivity|]. exists (l1 ++ l'), b. split; [|split; [exact B|reflexivity]]. cbn [fst]. apply td_more; assumption.
Qed.
Lemma no_data_toks t : ~ In TData t -> data_toks t = None.
Proof.
  induction t as [|x t IH]; [reflexivity|]. intros N. cbn [data_toks]. replace (is_data x) with false by (destruct x; try reflexivity; exfalso; apply N; left; reflexivity). cbn. apply IH. intros I0. apply N. right. exact I0.
Qed.
Lemma data_toks_at pre t : ~ In TData pre -> eos t = false -> data_toks (pre ++ TData :: t) = Some t.
Proof.
  intros N E. induction pre as [|x pre IH]; cbn [app data_toks]. { cbn [is_data]. rewrite E. reflexivity. }
  replace (is_data x) with false by (destruct x; try reflexivity; exfalso; apply N; left; reflexivity). cbn. apply IH. intros I0. apply N. right. exact I0.
Qed.
Lemma data_list_first t l r : data_list t l -> eos (t ++ r) = false.
Proof. intros D. destruct (list_first t l D) as (c & v & u & l1 & C & _ & -> & _). rewrite <- app_assoc. apply (constant_first c v); exact C. Qed.
Lemma data_from_eq t h : data_from t h = match data_toks t with Some r => Some (r, h) | None => match h with [] => None | _ :: h' => match h' with [] => None | (_, u) :: _ => data_from u h' end end end.
Proof. destruct h; reflexivity. Qed.
Lemma find_datum : forall later t h0 a b v l, data_text t a -> data_of later b -> a ++ b = v :: l ->
  exists c u h, data_from t (h0 :: later) = Some (c ++ u, h) /\ constant c v /\ ends u /\ h <> [] /\ offered (u, h) l.
Proof.
  induction later as [|[n u0] later IH]; intros t h0 a b v l T B E; rewrite data_from_eq; destruct T as [t N|pre t0 l0 r l' N D R T'].
  1: cbn in B; subst b; discriminate.
  1,3: (rewrite data_toks_at by (try exact N; apply (data_list_first t0 l0); exact D);
        destruct (list_offer t0 l0 r l' h0 _ b v l D R T' B E) as (c & u & -> & C & U & O); exists c, u; eexists; split; [reflexivity|]; split; [exact C|]; split; [exact U|]; split; [discriminate|exact O]).
  rewrite no_data_toks by exact N. destruct B as (a2 & b2 & T2 & B2 & ->). exact (IH u0 (n, u0) a2 b2 v l T2 B2 E).
Qed.
Hypothesis no_comma : match PR with (_, TComma :: _) :: _ => False | _ => True end.
Lemma next_ok s L c d p v l : feed s = v :: l -> offered d (feed s) ->
  exists k u h, next_datum (mm p s L c d) = Ok (k ++ u, h) /\ constant k v /\ ends u /\ offered (u, h) l /\ h <> [].
Proof.
  intros E O. rewrite E in O. unfold next_datum. cbn [dhere dtoks Prog_Proofs.mm prog]. unfold offered in O. destruct d as [t [|h0 later]]; cbn [fst snd] in *.
  - destruct PR as [|[n t0] r] eqn:EP; [discriminate|]. destruct O as (a & b & T & B & E2). destruct (find_datum r t0 (n, t0) a b v l T B (eq_sym E2)) as (c0 & u & h & F & C & U & Nh & O). exists c0, u, h.
    split; [|repeat split; assumption]. cbn [rbind]. rewrite F. destruct t0 as [|x t0]; [reflexivity|]. destruct x; try reflexivity. destruct no_comma.
  - destruct O as (a & b & T & B & E2). cbn [rbind]. destruct T as [t l0 r l' D R T'|t l0 Nc T'].
    + destruct (list_offer t l0 r l' h0 later b v l D R T' B (eq_sym E2)) as (c0 & u & -> & C & U & O). exists c0, u, (h0 :: later). repeat split; try assumption. discriminate.
    + destruct (find_datum later t h0 l0 b v l T' B (eq_sym E2)) as (c0 & u & h & F & C & U & Nh & O). exists c0, u, h. split; [|repeat split; assumption]. rewrite F.
      destruct t as [|x t]; [reflexivity|]. destruct x; try reflexivity. destruct Nc.
Qed.
(** The value of a constant. *)
Lemma chain_stop n g sub v s : ends (toks s) -> chain (S g) (opn w n) sub v s = Ok (v, s).
Proof. intros E. cbn [chain]. destruct (ends_ok w 0 (toks s) E) as [_ H]. specialize (H n). destruct (toks s) as [|t r]; [reflexivity|]. rewrite H. reflexivity. Qed.
Lemma const_ev k v u V C SV TX f : constant k v -> ends u -> ev w (S (S (S (S (S (S (S (S (S f))))))))) LExpr (mkSt (k ++ u) V C SV TX) = Ok (v, mkSt u V C SV TX).
Proof.
  intros K E. assert (F : ev w (S (S (S f))) LFactor (mkSt (k ++ u) V C SV TX) = Ok (v, mkSt u V C SV TX)) by (destruct K; reflexivity).
  do 6 (match goal with |- ev w (S ?g) ?l ?s = _ => let n := (match l with LExpr => constr:(0%nat) | LAnd => constr:(1%nat) | LRel => constr:(2%nat) | LSum => constr:(3%nat) | LTerm => constr:(4%nat) | LUp => constr:(5%nat) end) in
    change l with (lv n); rewrite (ev_level w n g s) by lia; let m := eval cbn in (lv (S n)) in change (lv (S n)) with m; assert (X : ev w g m s = Ok (v, mkSt u V C SV TX)); [|rewrite X; cbn [rbind fst snd]; apply chain_stop; exact E] end).
  exact F.
Qed.
Lemma const_real k q u h s L c d f : constant k (VNum q) -> ends u -> (9 <= f)%nat -> realx w f (mm (k ++ u, h) s L c d) = Ok (q, mm (u, h) s L c d).
Proof.
  intros K U Lf. do 9 (destruct f as [|f]; [lia|]). clear Lf. unfold realx, on, realexpr, bindM, expr. change (base (mm (k ++ u, h) s L c d)) with (mkSt (k ++ u) (vs s) c (sv s) (tx s)).
  rewrite const_ev with (1 := K) (2 := U). reflexivity.
Qed.
Lemma const_str k x u h s L c d f : constant k (VStr x) -> ends u -> (9 <= f)%nat -> strx w f (mm (k ++ u, h) s L c d) = Ok (x, mm (u, h) s L c d).
Proof.
  intros K U Lf. do 9 (destruct f as [|f]; [lia|]). clear Lf. unfold strx, on, strexpr, bindM, expr. change (base (mm (k ++ u, h) s L c d)) with (mkSt (k ++ u) (vs s) c (sv s) (tx s)).
  rewrite const_ev with (1 := K) (2 := U). reflexivity.
Qed.
Lemma put_at x v p s L c d k : target (base (mm p s L c d)) x = k -> put_value x v (mm p s L c d) = Ok (tt, mm p (written_to s x k v) L c d).
Proof. intros T. unfold put_value, change. rewrite T. reflexivity. Qed.
Lemma target_text x k v p q s L c d : target (base (mm p (written_to s x k v) L c d)) x = target (base (mm q s L c d)) x.
Proof. unfold target. cbn [base Prog_Proofs.mm vars cur written_to vs]. rewrite String.eqb_refl. reflexivity. Qed.
Lemma do_read1 s t s' r h L c d : reads w s t s' -> offered d (feed s) -> match r with TLp :: _ => False | _ => True end ->
  exists c' d', EVP (fun f => read_one w f) (mm (written_lhs t ++ r, h) s L c d) (Ok (tt, mm (r, h) s' L c' d')) /\ offered d' (feed s').
Proof.
  intros H O R. destruct H as [s t x k v l Fe St Fi]. destruct (p_find w PR s t x k r h L c d St R) as (c1 & H1 & T1).
  destruct (next_ok s L c1 d (r, h) v l Fe O) as (k0 & u & hd & Nx & K & U & O' & _).
  exists c1, (u, hd). split; [|unfold emptied; destruct (is_text x); exact O']. unfold read_one. bind H1.
  set (s1 := mkMem (vs s) (sv s) (tx s) (outp s) l).
  exists 9%nat. intros f Lf. rewrite Nx. cbn [rbind]. change (to (mm (r, h) s L c1 d) (k0 ++ u)) with (mm (k0 ++ u, h) s1 L c1 d).
  assert (T2 : forall p q, target (base (mm p s1 L c1 q)) x = k) by (intros; exact T1). unfold emptied.
  destruct v as [q|y]; cbn in Fi; rewrite Fi; unfold pbind at 1.
  - unfold pbind at 1. rewrite const_real with (1 := K) (2 := U) by exact Lf. cbn [rbind fst snd]. rewrite put_at with (k := k) by apply T2. reflexivity.
  - unfold pbind at 1 2. rewrite put_at with (k := k) by apply T2. cbn [rbind fst snd]. rewrite const_str with (1 := K) (2 := U) by exact Lf. cbn [rbind fst snd].
    rewrite put_at with (k := k) by (rewrite target_text with (q := (u, h)); apply T2). reflexivity.
Qed.
Lemma do_read s l s' : reads_all w s l s' -> forall n r h L c d, l <> [] -> offered d (feed s) -> eos r = true -> (length l <= n)%nat ->
  exists c' d', EVP (fun f => read_all w f n) (mm (separated (map written_lhs l) ++ r, h) s L c d) (Ok (Plain, mm (r, h) s' L c' d')) /\ offered d' (feed s').
Proof.
  induction 1 as [s|s t l s1 s2 H1 H2 IH]; intros n r h L c d N O R Ln; [congruence|]. destruct n as [|n]; [cbn in Ln; lia|]. destruct l as [|t2 l].
  - inversion H2; subst. cbn [map separated]. destruct (do_read1 s t s2 r h L c d H1 O ltac:(destruct r as [|x r]; [exact I|]; destruct x; try discriminate; exact I)) as (c1 & d1 & E1 & O1). exists c1, d1. split; [|exact O1].
    cbn [read_all]. bind E1. apply PA. intros f. unfold pbind, eosP, pret. cbn [rbind fst snd]. change (rest (mm (r, h) s2 L c1 d1)) with r. rewrite R. cbn [rbind fst snd]. change (rest (mm (r, h) s2 L c1 d1)) with r. rewrite R. reflexivity.
  - change (separated (map written_lhs (t :: t2 :: l)) ++ r) with ((written_lhs t ++ TComma :: separated (map written_lhs (t2 :: l))) ++ r). rewrite <- app_assoc. cbn [app].
    destruct (do_read1 s t s1 (TComma :: separated (map written_lhs (t2 :: l)) ++ r) h L c d H1 O I) as (c1 & d1 & E1 & O1).
    destruct (IH n r h L c1 d1 ltac:(discriminate) O1 R ltac:(cbn in Ln |- *; lia)) as (c2 & d2 & E2 & O2). exists c2, d2. split; [|exact O2].
    cbn [read_all]. bind E1.
    apply PS with (p' := fun f => read_all w f n) (m' := mm (separated (map written_lhs (t2 :: l)) ++ r, h) s1 L c1 d1); [|exact E2].
    intros f. unfold pbind, eosP. cbn [rbind fst snd]. change (rest (mm (TComma :: separated (map written_lhs (t2 :: l)) ++ r, h) s1 L c1 d1)) with (TComma :: separated (map written_lhs (t2 :: l)) ++ r). cbn [eos].
    change (need is_comma (mm (TComma :: separated (map written_lhs (t2 :: l)) ++ r, h) s1 L c1 d1)) with (Ok (tt, mm (separated (map written_lhs (t2 :: l)) ++ r, h) s1 L c1 d1)). cbn [rbind fst snd].
    change (rest (mm (separated (map written_lhs (t2 :: l)) ++ r, h) s1 L c1 d1)) with (separated (map written_lhs (t2 :: l)) ++ r).
    replace (eos (separated (map written_lhs (t2 :: l)) ++ r)) with false by (destruct t2; destruct l; reflexivity). reflexivity.
Qed.
End W.
