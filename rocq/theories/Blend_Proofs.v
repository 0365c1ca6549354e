(** Proofs for C58 and C59. *)
From Coq Require Import String Ascii List ZArith QArith Bool Sorted Lia ZifyBool Lqa.
From Verif Require Import Qx CStr_Model Sort_Model Sort_Proofs Map_Model Map_Proofs Name_Model Name_Spec Name_Proofs CNum_Model Elem_Spec Elem_Proofs Pfile_Spec Data_Spec Data_Proofs
  Store_Model Store_Spec Store_Proofs Blend_Model Blend_Spec.
Import ListNotations.
Local Open Scope string_scope.
Local Open Scope list_scope.
Local Open Scope Q_scope.

(** ** Fractions *)
Lemma mix_add_ok m n f k : fraction (mix_add m n f) k == fraction m k + (if Z.eqb n k then f else 0).
Proof.
  unfold mix_add, fraction. destruct (zfind m n) as [g|] eqn:F; rewrite find_set, (Z.eqb_sym k n); destruct (Z.eqb_spec n k) as [->|]; rewrite ?F; try reflexivity; destruct (zfind m k); ring.
Qed.
Lemma mix_add_up m n f : keys_up m -> keys_up (mix_add m n f).
Proof. intros U. unfold mix_add. destruct (zfind m n); apply up_set, U. Qed.
Lemma mix_lines : forall lines m k, fraction (fold_left (fun m p => mix_add m (fst p) (snd p)) lines m) k == fraction m k + given lines k.
Proof.
  induction lines as [|[n f] lines IH]; intros m k; cbn [fold_left].
  - unfold given. cbn. ring.
  - rewrite IH. cbn [fst snd]. rewrite mix_add_ok. unfold given. cbn [filter fst]. destruct (Z.eqb n k); cbn [map snd qsum]; ring.
Qed.
Lemma mix_lines_up : forall lines m, keys_up m -> keys_up (fold_left (fun m p => mix_add m (fst p) (snd p)) lines m).
Proof. induction lines as [|p lines IH]; intros m U; [exact U|]. cbn [fold_left]. apply IH, mix_add_up, U. Qed.

(** ** Sums over parts *)
Lemma portion_nil {E} (g : E -> Q) : portion g [] = 0.
Proof. reflexivity. Qed.
Lemma portion_cons {E} (g : E -> Q) x f l : portion g ((x, f) :: l) = f * g x + portion g l.
Proof. reflexivity. Qed.
Lemma portion_app {E} (g : E -> Q) l1 l2 : portion g (l1 ++ l2) == portion g l1 + portion g l2.
Proof. induction l1 as [|[x f] l1 IH]; cbn [app]; rewrite ?portion_nil, ?portion_cons; [ring|]. rewrite IH. ring. Qed.
Lemma parts_in {E} (ents : zmap E) : forall mix x f, In (x, f) (parts ents mix) -> exists n, In (n, f) mix /\ zfind ents n = Some x.
Proof.
  induction mix as [|[n f] mix IH]; intros x g I; [destruct I|]. cbn [parts] in I. destruct (zfind ents n) as [y|] eqn:F.
  - destruct I as [I|I]; [injection I as -> ->; exists n; split; [left; reflexivity|exact F]|]. destruct (IH x g I) as (k & K1 & K2). exists k. split; [right; exact K1|exact K2].
  - destruct (IH x g I) as (k & K1 & K2). exists k. split; [right; exact K1|exact K2].
Qed.

(** ** Solutions *)
Lemma sol_add_sum g a b e c : additive g -> proper_solution a -> proper_solution b -> add_solution a b e = Some c -> g c == g a + e * g b /\ proper_solution c.
Proof.
  intros A PA PB. unfold add_solution. destruct (qeq e 0) eqn:E0.
  - intros E. injection E as <-. apply qeq_t in E0. split; [rewrite E0; ring|exact PA].
  - destruct (qeq (mass_water (sum a) + mass_water (sum b) * e) 0); [discriminate|]. intros E. injection E as <-. destruct (extensive_ok (totals a) (totals b) e PA PB) as (P1 & P2 & _).
    split; [|exact P1]. destruct A as [-> |[-> |[-> |[-> |[-> |[-> |[k ->]]]]]]]; cbn; try ring. apply P2.
Qed.
Lemma sol_add_mean g a b e c : averaged g -> add_solution a b e = Some c -> g c * water c == g a * water a + e * (water b * g b).
Proof.
  intros A. unfold add_solution, water. destruct (qeq e 0) eqn:E0.
  - intros E. injection E as <-. apply qeq_t in E0. rewrite E0. ring.
  - destruct (qeq (mass_water (sum a) + mass_water (sum b) * e) 0) eqn:N; [discriminate|]. apply qeq_f in N. intros E. injection E as <-.
    destruct A as [-> |[-> |[-> |[-> |[-> |[-> |[-> |[-> | ->]]]]]]]]; cbn; field; exact N.
Qed.
Definition mix_from (sols : zmap solution) (mix : mix_comps) (a : option solution) : option solution :=
  fold_left (fun a p => match a with None => None | Some a => match zfind sols (fst p) with None => Some a | Some b => add_solution a b (snd p) end end) mix a.
Lemma mix_from_none sols : forall mix, mix_from sols mix None = None.
Proof. induction mix as [|p mix IH]; [reflexivity|exact IH]. Qed.
Lemma mix_from_cons sols n f mix a : mix_from sols ((n, f) :: mix) (Some a) = match zfind sols n with None => mix_from sols mix (Some a) | Some b => mix_from sols mix (add_solution a b f) end.
Proof. unfold mix_from. cbn [fold_left fst snd]. destruct (zfind sols n); reflexivity. Qed.
Lemma mix_from_sum g sols : additive g -> (forall n s, zfind sols n = Some s -> proper_solution s) ->
  forall mix a c, proper_solution a -> mix_from sols mix (Some a) = Some c -> g c == g a + portion g (parts sols mix) /\ proper_solution c.
Proof.
  intros A P. induction mix as [|[n f] mix IH]; intros a c PA E.
  - injection E as <-. split; [cbn [parts]; rewrite portion_nil; ring|exact PA].
  - rewrite mix_from_cons in E. cbn [parts]. destruct (zfind sols n) as [b|] eqn:F; [|exact (IH a c PA E)].
    destruct (add_solution a b f) as [d|] eqn:D; [|rewrite mix_from_none in E; discriminate]. destruct (sol_add_sum g a b f d A PA (P n b F) D) as [S1 PD]. destruct (IH d c PD E) as [S2 PC].
    split; [rewrite S2, S1, portion_cons; ring|exact PC].
Qed.
Lemma mix_from_mean g sols : averaged g -> forall mix a c, mix_from sols mix (Some a) = Some c -> g c * water c == g a * water a + portion (fun s => water s * g s) (parts sols mix).
Proof.
  intros A. induction mix as [|[n f] mix IH]; intros a c E.
  - injection E as <-. cbn [parts]. rewrite portion_nil. ring.
  - rewrite mix_from_cons in E. cbn [parts]. destruct (zfind sols n) as [b|] eqn:F; [|exact (IH a c E)].
    destruct (add_solution a b f) as [d|] eqn:D; [|rewrite mix_from_none in E; discriminate]. rewrite (IH d c E), (sol_add_mean g a b f d A D), portion_cons. ring.
Qed.
Lemma mix_from_some sols : (forall n s, zfind sols n = Some s -> 0 < water s) -> forall mix a, 0 <= water a -> (forall n f, In (n, f) mix -> 0 <= f) -> exists c, mix_from sols mix (Some a) = Some c.
Proof.
  intros W. induction mix as [|[n f] mix IH]; intros a WA P.
  - exists a. reflexivity.
  - rewrite mix_from_cons. assert (P2 : forall k g, In (k, g) mix -> 0 <= g) by (intros k g I; apply (P k g); right; exact I). destruct (zfind sols n) as [b|] eqn:F; [|exact (IH a WA P2)].
    specialize (W n b F). pose proof (P n f (or_introl eq_refl)) as PF. unfold add_solution. destruct (qeq f 0) eqn:E0; [exact (IH a WA P2)|]. apply qeq_f in E0.
    assert (X : 0 < water b * f) by (assert (0 < f) by lra; nra). unfold water in *. rewrite (qeq_false (mass_water (sum a) + mass_water (sum b) * f) 0) by lra.
    apply IH; [|exact P2]. cbn. lra.
Qed.
Lemma zero_proper : proper_solution zero_solution.
Proof. constructor. Qed.
Lemma portion_le {E} (g h : E -> Q) : forall l, (forall x f, In (x, f) l -> f * g x <= f * h x) -> portion g l <= portion h l.
Proof.
  induction l as [|[x f] l IH]; intros H; rewrite ?portion_nil, ?portion_cons; [lra|]. specialize (IH (fun y k I => H y k (or_intror I))). specialize (H x f (or_introl eq_refl)). lra.
Qed.
Lemma portion_scale {E} (g : E -> Q) (k : Q) : forall l, portion (fun x => g x * k) l == portion g l * k.
Proof. induction l as [|[x f] l IH]; rewrite ?portion_nil, ?portion_cons; [ring|]. rewrite IH. ring. Qed.

(** ** Maps of components *)
Section MapFold.
Context {C : Type}.
Variables (g : C -> Q) (good : string -> C -> Prop) (upd : C -> C -> C) (new : C -> C) (e : Q).
Definition at_name (m : smap C) (k : string) : Q := match mfind m k with Some c => g c | None => 0 end.
Definition step_map (m : smap C) (p : string * C) : smap C := match mfind m (fst p) with Some x => mset m (fst p) (upd x (snd p)) | None => mset m (fst p) (new (snd p)) end.
Definition goods (m : smap C) : Prop := Forall (fun p => good (fst p) (snd p)) m.
Hypothesis HU : forall n x c, good n x -> good n c -> g (upd x c) == g x + e * g c /\ good n (upd x c).
Hypothesis HN : forall n c, good n c -> g (new c) == e * g c /\ good n (new c).
Lemma goods_find m k c : goods m -> mfind m k = Some c -> good k c.
Proof. intros G F. unfold goods in G. rewrite Forall_forall in G. exact (G (k, c) (mfind_in m k c F)). Qed.
Lemma goods_set m k c : goods m -> good k c -> goods (mset m k c).
Proof. intros G H. unfold goods in *. rewrite Forall_forall in *. intros p I. destruct (mset_in m k c p I) as [-> |I2]; [exact H|exact (G p I2)]. Qed.
Lemma step_map_ok : forall addee m, goods m -> goods addee ->
  goods (fold_left step_map addee m) /\ (sorted m -> sorted (fold_left step_map addee m)) /\
  forall k, at_name (fold_left step_map addee m) k == at_name m k + e * qsum (map (fun p => g (snd p)) (filter (fun p => String.eqb (fst p) k) addee)).
Proof.
  induction addee as [|[n c] addee IH]; intros m GM GA; cbn [fold_left].
  - split; [exact GM|]. split; [auto|]. intros k. cbn. ring.
  - inversion GA as [|? ? GC GA2]; subst. cbn [fst snd] in GC.
    assert (STEP : goods (step_map m (n, c)) /\ (sorted m -> sorted (step_map m (n, c))) /\ forall k, at_name (step_map m (n, c)) k == at_name m k + (if String.eqb n k then e * g c else 0)).
    { unfold step_map. cbn [fst snd]. destruct (mfind m n) as [x|] eqn:F.
      - destruct (HU n x c (goods_find m n x GM F) GC) as [E1 G1]. split; [apply goods_set; assumption|]. split; [intros SM; apply mset_sorted, SM|].
        intros k. unfold at_name. rewrite mfind_mset. destruct (String.eqb_spec n k) as [->|]; [rewrite F; exact E1|destruct (mfind m k); ring].
      - destruct (HN n c GC) as [E1 G1]. split; [apply goods_set; assumption|]. split; [intros SM; apply mset_sorted, SM|].
        intros k. unfold at_name. rewrite mfind_mset. destruct (String.eqb_spec n k) as [->|]; [rewrite F, E1; ring|destruct (mfind m k); ring]. }
    destruct STEP as (G1 & S1 & A1). destruct (IH (step_map m (n, c)) G1 GA2) as (G2 & S2 & A2).
    split; [exact G2|]. split; [auto|]. intros k. rewrite A2, A1. cbn [filter fst]. destruct (String.eqb n k); cbn [map snd qsum]; ring.
Qed.
Lemma at_filter : forall m k, sorted m -> qsum (map (fun p => g (snd p)) (filter (fun p => String.eqb (fst p) k) m)) == at_name m k.
Proof.
  induction m as [|[n c] m IH]; intros k SM; [reflexivity|]. destruct (sorted_inv _ _ SM) as [SM2 LT]. unfold at_name. cbn [filter fst mfind]. specialize (IH k SM2). destruct (String.eqb_spec n k) as [->|N]; [|exact IH].
  cbn [map snd qsum]. rewrite IH. unfold at_name. replace (mfind m k) with (@None C); [ring|]. symmetry. apply mfind_none. intros I. pose proof (sorted_nodup _ SM) as ND. cbn in ND. inversion ND; contradiction.
Qed.
End MapFold.
Section CompsOk.
Context {C : Type}.
Variables (key : C -> string) (cadd : C -> C -> Q -> C) (cmul : C -> Q -> C) (g : C -> Q) (good : C -> Prop).
Hypothesis HU : forall x c e, ~ e == 0 -> key x = key c -> good x -> good c -> g (cadd x c e) == g x + e * g c /\ good (cadd x c e) /\ key (cadd x c e) = key x.
Hypothesis HN : forall c e, good c -> g (cmul c e) == e * g c /\ good (cmul c e) /\ key (cmul c e) = key c.
Lemma of_cons k c l : of_name key g k (c :: l) == (if String.eqb (key c) k then g c else 0) + of_name key g k l.
Proof. unfold of_name. cbn [filter]. destruct (String.eqb (key c) k); cbn [map qsum]; ring. Qed.
Lemma merge_comp_ok e c : ~ e == 0 -> good c -> forall l, Forall good l ->
  Forall good (merge_comp key cadd cmul l c e) /\ forall k, of_name key g k (merge_comp key cadd cmul l c e) == of_name key g k l + (if String.eqb (key c) k then e * g c else 0).
Proof.
  intros E GC. induction l as [|x l IH]; intros GL; cbn [merge_comp].
  - destruct (HN c e GC) as (A & B & K). split; [constructor; [exact B|constructor]|]. intros k. rewrite of_cons, K. unfold of_name. cbn [filter map qsum]. destruct (String.eqb (key c) k); rewrite ?A; ring.
  - inversion GL as [|? ? GX GL2]; subst. destruct (String.eqb_spec (key x) (key c)) as [KX|KX].
    + destruct (HU x c e E KX GX GC) as (A & B & K). split; [constructor; assumption|]. intros k. rewrite !of_cons, K, KX. destruct (String.eqb (key c) k); rewrite ?A; ring.
    + destruct (IH GL2) as [G1 A1]. split; [constructor; assumption|]. intros k. rewrite !of_cons, A1. ring.
Qed.
Lemma add_comps_ok e l addee : Forall good l -> Forall good addee ->
  Forall good (add_comps key cadd cmul l addee e) /\ forall k, of_name key g k (add_comps key cadd cmul l addee e) == of_name key g k l + e * of_name key g k addee.
Proof.
  intros GL GA. unfold add_comps. destruct (qeq e 0) eqn:E0.
  - apply qeq_t in E0. split; [exact GL|]. intros k. rewrite E0. ring.
  - apply qeq_f in E0. revert l GL. induction GA as [|c addee GC GA IH]; intros l GL; cbn [fold_left].
    + split; [exact GL|]. intros k. unfold of_name at 3. cbn. ring.
    + destruct (merge_comp_ok e c E0 GC l GL) as [G1 A1]. destruct (IH _ G1) as [G2 A2]. split; [exact G2|]. intros k. rewrite A2, A1, (of_cons k c addee). destruct (String.eqb (key c) k); ring.
Qed.
(** Maps by name. *)
Definition named_good (n : string) (c : C) : Prop := key c = n /\ good c.
Lemma add_map_ok e (m addee : smap C) : sorted m -> sorted addee -> goods named_good m -> goods named_good addee ->
  sorted (add_map key cadd cmul m addee e) /\ goods named_good (add_map key cadd cmul m addee e) /\ forall k, at_name g (add_map key cadd cmul m addee e) k == at_name g m k + e * at_name g addee k.
Proof.
  intros SM SA GM GA. unfold add_map. destruct (qeq e 0) eqn:E0.
  - apply qeq_t in E0. split; [exact SM|]. split; [exact GM|]. intros k. rewrite E0. ring.
  - apply qeq_f in E0.
    assert (EQ : forall l (m : smap C), goods named_good l -> fold_left (fun m p => merge_map key cadd cmul m (snd p) e) l m = fold_left (step_map (fun x c => cadd x c e) (fun c => cmul c e)) l m).
    { clear. induction l as [|[n c] l IH]; intros m G; [reflexivity|]. inversion G as [|? ? [K _] G2]; subst. cbn [fst snd] in K. cbn [fold_left]. rewrite <- (IH _ G2). f_equal. unfold merge_map, step_map. cbn [fst snd]. rewrite K. reflexivity. }
    rewrite (EQ addee m GA).
    destruct (step_map_ok g named_good (fun x c => cadd x c e) (fun c => cmul c e) e) with (addee := addee) (m := m) as (G1 & S1 & A1); [| |exact GM|exact GA|].
    + intros n x c [K1 G1] [K2 G2]. destruct (HU x c e E0 ltac:(congruence) G1 G2) as (A & B & K). split; [exact A|]. split; [congruence|exact B].
    + intros n c [K1 G1]. destruct (HN c e G1) as (A & B & K). split; [exact A|]. split; [congruence|exact B].
    + split; [exact (S1 SM)|]. split; [exact G1|]. intros k. rewrite A1, (at_filter g addee k SA). reflexivity.
Qed.
Lemma of_at (m : smap C) k : sorted m -> goods named_good m -> of_name key g k (comps_of m) == at_name g m k.
Proof.
  intros SM GM. rewrite <- (at_filter g m k SM). unfold of_name, comps_of. clear SM. induction GM as [|[n c] m [K _] GM IH]; [reflexivity|]. cbn [fst snd] in K. cbn [map filter fst snd]. rewrite K.
  destruct (String.eqb n k); [|exact IH]. cbn [map qsum snd]. rewrite IH. reflexivity.
Qed.
End CompsOk.
Lemma mix_ok {E} (add : E -> E -> Q -> E) zero (inv : E -> Prop) (G : E -> Q) (entities : zmap E) :
  inv zero -> G zero == 0 -> (forall a b e, inv a -> inv b -> inv (add a b e) /\ G (add a b e) == G a + e * G b) -> (forall n x, zfind entities n = Some x -> inv x) ->
  forall mix, inv (mix_entities add zero entities mix) /\ G (mix_entities add zero entities mix) == portion G (parts entities mix).
Proof.
  intros IZ GZ ST IE mix. unfold mix_entities.
  assert (X : forall mix a, inv a -> inv (fold_left (fun a p => match zfind entities (fst p) with None => a | Some b => add a b (snd p) end) mix a) /\
    G (fold_left (fun a p => match zfind entities (fst p) with None => a | Some b => add a b (snd p) end) mix a) == G a + portion G (parts entities mix)).
  { clear mix. induction mix as [|[n f] mix IH]; intros a IA; cbn [fold_left parts fst snd].
    - split; [exact IA|]. rewrite portion_nil. ring.
    - destruct (zfind entities n) as [b|] eqn:F; [|exact (IH a IA)]. destruct (ST a b f IA (IE n b F)) as [I1 G1]. destruct (IH _ I1) as [I2 G2]. split; [exact I2|]. rewrite G2, G1, portion_cons. ring. }
  destruct (X mix zero IZ) as [X1 X2]. split; [exact X1|]. rewrite X2, GZ. ring.
Qed.

(** ** The kinds *)
Lemma add_all (m b : nd) e k : proper m -> proper b -> proper (add_extensive m b e) /\ amount (add_extensive m b e) k == amount m k + e * amount b k.
Proof. intros PM PB. destruct (extensive_ok m b e PM PB) as (A & B & _). split; [exact A|apply B]. Qed.
Lemma mul_all (m : nd) e k : proper m -> proper (Name_Model.multiply m e) /\ amount (Name_Model.multiply m e) k == e * amount m k.
Proof. intros PM. destruct (multiply_ok m e PM) as (A & B & _). split; [exact A|]. rewrite B. ring. Qed.
Lemma not_empty s : s <> "" -> String.eqb s "" = false.
Proof. intros N. apply String.eqb_neq. exact N. Qed.
Lemma goods_plain {C} (key : C -> string) (good : C -> Prop) m : proper_map key m -> Forall good (comps_of m) -> sorted m /\ goods (named_good key good) m.
Proof.
  intros [SM K] G. split; [exact SM|]. clear SM. unfold goods, comps_of in *. rewrite Forall_forall in *. intros [n c] I. split; [exact (K _ I)|]. apply G. apply in_map_iff. exists (n, c). split; [reflexivity|exact I].
Qed.
Lemma plain_goods {C} (key : C -> string) (good : C -> Prop) m : sorted m -> goods (named_good key good) m -> proper_map key m /\ Forall good (comps_of m).
Proof.
  intros SM G. unfold goods in G. split; [split; [exact SM|]|]; rewrite Forall_forall in *; unfold comps_of.
  - intros p I. exact (proj1 (G p I)).
  - intros c I. apply in_map_iff in I. destruct I as (p & <- & I). exact (proj2 (G p I)).
Qed.
(** Adding two maps, and two lists, of sound components. *)
Lemma both_maps {C} (key : C -> string) (cadd : C -> C -> Q -> C) (cmul : C -> Q -> C) (g : C -> Q) (good : C -> Prop)
  (HU : forall x c e, ~ e == 0 -> key x = key c -> good x -> good c -> g (cadd x c e) == g x + e * g c /\ good (cadd x c e) /\ key (cadd x c e) = key x)
  (HN : forall c e, good c -> g (cmul c e) == e * g c /\ good (cmul c e) /\ key (cmul c e) = key c) (a b : smap C) e :
  proper_map key a -> Forall good (comps_of a) -> proper_map key b -> Forall good (comps_of b) ->
  proper_map key (add_map key cadd cmul a b e) /\ Forall good (comps_of (add_map key cadd cmul a b e)) /\
  forall k, of_name key g k (comps_of (add_map key cadd cmul a b e)) == of_name key g k (comps_of a) + e * of_name key g k (comps_of b).
Proof.
  intros A1 A2 B1 B2. destruct (goods_plain key good a A1 A2) as [SA GA]. destruct (goods_plain key good b B1 B2) as [SB GB].
  destruct (add_map_ok key cadd cmul g good HU HN e a b SA SB GA GB) as (SR & GR & AR). destruct (plain_goods key good _ SR GR) as [R1 R2].
  split; [exact R1|]. split; [exact R2|]. intros k. rewrite (of_at key g good _ k SR GR), (of_at key g good a k SA GA), (of_at key g good b k SB GB). apply AR.
Qed.
Lemma pp_step formula g a b e : phase_quantity g -> plain_phases formula a -> plain_phases formula b ->
  plain_phases formula (pp_assemblage_add a b e) /\
  (forall k, of_name p_name g k (comps_of (pp_comps (pp_assemblage_add a b e))) == of_name p_name g k (comps_of (pp_comps a)) + e * of_name p_name g k (comps_of (pp_comps b))) /\
  forall k, amount (pp_elements (pp_assemblage_add a b e)) k == amount (pp_elements a) k + e * amount (pp_elements b) k.
Proof.
  intros GQ (A1 & A2 & A3) (B1 & B2 & B3).
  destruct (both_maps p_name pp_add pp_multiply g (fun c => p_name c <> "" /\ p_formula c = formula (p_name c))) with (a := pp_comps a) (b := pp_comps b) (e := e) as (R1 & R2 & R3); auto.
  - intros x c f F K [N1 F1] [N2 F2]. unfold pp_add. rewrite (not_empty _ N2). apply qeq_false in F. rewrite F. cbn [orb]. destruct (weights (p_moles x) (p_moles c * f)) as [w1 w2]. rewrite F1, F2, K, String.eqb_refl. cbn [negb].
    split; [|cbn; rewrite <- K; auto]. destruct GQ as [-> |[-> | ->]]; cbn; ring.
  - intros c f [N2 F2]. split; [|cbn; auto]. destruct GQ as [-> |[-> | ->]]; cbn; ring.
  - split; [split; [exact R1|split; [|exact R2]]|split; [exact R3|]]; cbn [pp_assemblage_add pp_elements]; [apply (add_all _ _ e "" A2 B2)|intros k; apply (add_all _ _ e k A2 B2)].
Qed.
Lemma of_name_map {C} (key : C -> string) (g : C -> Q) (h : C -> C) e k : (forall c, key (h c) = key c) -> (forall c, g (h c) == e * g c) -> forall l, of_name key g k (map h l) == e * of_name key g k l.
Proof. intros K G. induction l as [|c l IH]; [unfold of_name; cbn; ring|]. cbn [map]. rewrite !of_cons, K, IH. destruct (String.eqb (key c) k); rewrite ?G; ring. Qed.
Lemma all_true {C} (l : list C) : Forall (fun _ => True) l.
Proof. induction l; constructor; auto. Qed.
Lemma ss_step g j a b e : solid_quantity g -> plain_solids a -> plain_solids b ->
  plain_solids (ss_assemblage_add a b e) /\ forall k, in_solid g k j (ss_assemblage_add a b e) == in_solid g k j a + e * in_solid g k j b.
Proof.
  intros GQ (A1 & A2) (B1 & B2). unfold in_solid.
  destruct (both_maps ss_name ss_add ss_multiply (fun s => of_name (fun c => lower (c_name c)) g j (ss_comps s)) (fun s => ss_name s <> "")) with (a := a) (b := b) (e := e) as (R1 & R2 & R3); auto.
  - intros x c f F K N1 N2. unfold ss_add. rewrite (not_empty _ N2). pose proof F as F0. apply qeq_false in F. rewrite F. cbn [orb ss_comps ss_name].
    split; [|auto]. apply (add_comps_ok (fun c => lower (c_name c)) ss_comp_add ss_comp_multiply g (fun _ => True)); auto using all_true.
    + intros u v h H KK _ _. split; [|cbn; auto]. destruct GQ as [-> |[-> | ->]]; cbn; ring.
    + intros u h _. split; [|cbn; auto]. destruct GQ as [-> |[-> | ->]]; cbn; ring.
  - intros c f N. split; [|cbn; auto]. cbn [ss_multiply ss_comps]. apply of_name_map; [reflexivity|]. intros u. destruct GQ as [-> |[-> | ->]]; cbn; ring.
  - split; [split; assumption|exact R3].
Qed.
Lemma ex_step g a b e : exchange_quantity g -> plain_exchange a -> plain_exchange b ->
  plain_exchange (exchange_add a b e) /\ forall k, of_name e_formula g k (exchange_add a b e) == of_name e_formula g k a + e * of_name e_formula g k b.
Proof.
  intros GQ A B. apply (add_comps_ok e_formula ex_add ex_multiply g (fun c => e_formula c <> "" /\ proper (e_totals c))); auto.
  - intros x c f F K [N1 P1] [N2 P2]. unfold ex_add. rewrite (not_empty _ N2). apply qeq_false in F. rewrite F. cbn [orb].
    split; [|cbn [e_formula e_totals]; split; [split; [exact N1|apply (add_all _ _ f "" P1 P2)]|reflexivity]]. destruct GQ as [-> |[el ->]]; cbn [e_charge e_totals]; [ring|apply add_all; assumption].
  - intros c f [N P]. split; [|cbn [ex_multiply e_formula e_totals]; split; [split; [exact N|apply (mul_all _ f "" P)]|reflexivity]]. destruct GQ as [-> |[el ->]]; cbn [ex_multiply e_charge e_totals]; [ring|apply mul_all; assumption].
Qed.
Lemma su_step g a b e : site_quantity g -> plain_surface a -> plain_surface b ->
  Forall (fun c => u_formula c <> "" /\ proper (u_totals c)) (su_comps (surface_add a b e)) /\
  forall k, of_name u_formula g k (su_comps (surface_add a b e)) == of_name u_formula g k (su_comps a) + e * of_name u_formula g k (su_comps b).
Proof.
  intros GQ [A _] [B _]. apply (add_comps_ok u_formula su_add su_multiply g (fun c => u_formula c <> "" /\ proper (u_totals c))); auto.
  - intros x c f F K [N1 P1] [N2 P2]. unfold su_add. rewrite (not_empty _ N2). apply qeq_false in F. rewrite F. cbn [orb]. destruct (weights (u_moles x) (u_moles c * f)) as [w1 w2].
    split; [|cbn [u_formula u_totals]; split; [split; [exact N1|apply (add_all _ _ f "" P1 P2)]|reflexivity]]. destruct GQ as [-> |[-> |[el ->]]]; cbn [u_charge u_totals u_moles]; [ring|ring|apply add_all; assumption].
  - intros c f [N P]. split; [|cbn [su_multiply u_formula u_totals]; split; [split; [exact N|apply (mul_all _ f "" P)]|reflexivity]]. destruct GQ as [-> |[-> |[el ->]]]; cbn [su_multiply u_charge u_totals u_moles]; [ring|ring|apply mul_all; assumption].
Qed.
Lemma ch_step g a b e : layer_quantity g -> plain_surface a -> plain_surface b ->
  Forall (fun c => h_name c <> "" /\ proper (h_layer c)) (su_charges (surface_add a b e)) /\
  forall k, of_name h_name g k (su_charges (surface_add a b e)) == of_name h_name g k (su_charges a) + e * of_name h_name g k (su_charges b).
Proof.
  intros GQ [_ A] [_ B]. apply (add_comps_ok h_name ch_add ch_multiply g (fun c => h_name c <> "" /\ proper (h_layer c))); auto.
  - intros x c f F K [N1 P1] [N2 P2]. unfold ch_add. rewrite (not_empty _ N2), andb_false_r. apply qeq_false in F. rewrite F. cbn [orb]. destruct (weights (h_area x * h_grams x) (h_area c * h_grams c * f)) as [w1 w2].
    split; [|cbn [h_name h_layer]; split; [split; [exact N1|apply (add_all _ _ f "" P1 P2)]|reflexivity]]. destruct GQ as [-> |[-> |[-> |[el ->]]]]; cbn [h_grams h_balance h_water h_layer]; [ring|ring|ring|apply add_all; assumption].
  - intros c f [N P]. split; [|cbn [ch_multiply h_name h_layer]; split; [split; [exact N|apply (mul_all _ f "" P)]|reflexivity]]. destruct GQ as [-> |[-> |[-> |[el ->]]]]; cbn [ch_multiply h_grams h_balance h_water h_layer]; [ring|ring|ring|apply mul_all; assumption].
Qed.
Lemma ki_step g a b e : kinetic_quantity g -> plain_kinetics a -> plain_kinetics b ->
  plain_kinetics (kinetics_add a b e) /\ forall k, of_name k_rate g k (kinetics_add a b e) == of_name k_rate g k a + e * of_name k_rate g k b.
Proof.
  intros GQ A B. apply (add_comps_ok k_rate ki_add ki_multiply g (fun c => k_rate c <> "")); auto.
  - intros x c f F K N1 N2. unfold ki_add. rewrite (not_empty _ N2). apply qeq_false in F. rewrite F. cbn [orb]. split; [|cbn; auto]. destruct GQ as [-> |[-> | ->]]; cbn; ring.
  - intros c f N. split; [|cbn; auto]. destruct GQ as [-> |[-> | ->]]; cbn; ring.
Qed.

(** Gas phases. *)
Definition ga_good (n : string) (c : ga_comp) : Prop := g_name c = n /\ n <> "".
Lemma ga_fold g f l m : gas_quantity g -> Forall (fun c => g_name c <> "") l -> sorted m -> goods ga_good m ->
  let r := fold_left (fun m c => merge_map g_name ga_add ga_multiply m c f) l m in
  sorted r /\ goods ga_good r /\ forall k, at_name g r k == at_name g m k + f * of_name g_name g k l.
Proof.
  intros GQ GL SM GM. cbn zeta.
  assert (EQ : fold_left (fun m c => merge_map g_name ga_add ga_multiply m c f) l m = fold_left (step_map (fun x c => ga_add x c f) (fun c => ga_multiply c f)) (map (fun c => (g_name c, c)) l) m).
  { clear. revert m. induction l as [|c l IH]; intros m; [reflexivity|]. cbn [map fold_left]. rewrite IH. reflexivity. }
  rewrite EQ. destruct (step_map_ok g ga_good (fun x c => ga_add x c f) (fun c => ga_multiply c f) f) with (addee := map (fun c => (g_name c, c)) l) (m := m) as (R1 & R2 & R3).
  - intros n x c [K1 N] [K2 _]. unfold ga_add. rewrite K2, (not_empty _ N), orb_false_r. destruct (qeq f 0) eqn:F0.
    + apply qeq_t in F0. split; [rewrite F0; ring|split; assumption].
    + destruct (weights (g_moles x) (g_moles c * f)) as [w1 w2]. split; [destruct GQ as [-> | ->]; cbn; ring|split; [exact K1|exact N]].
  - intros n c [K N]. split; [destruct GQ as [-> | ->]; cbn; ring|split; [exact K|exact N]].
  - exact GM.
  - unfold goods. rewrite Forall_forall in *. intros p I. apply in_map_iff in I. destruct I as (c & <- & I). split; [reflexivity|exact (GL c I)].
  - split; [exact (R2 SM)|]. split; [exact R1|]. intros k. rewrite R3. apply Qplus_comp; [reflexivity|]. apply Qmult_comp; [reflexivity|]. clear. unfold of_name. induction l as [|c l IH]; [reflexivity|]. cbn [map filter fst]. destruct (String.eqb (g_name c) k); [cbn [map snd qsum]; rewrite IH; reflexivity|exact IH].
Qed.
Definition no_gas : gas := mkGas true 0 0 0 0 [].
Lemma gas_fold g t entities whole : gas_quantity g -> (forall n x, zfind entities n = Some x -> plain_gas t x) -> forall mix first h comps,
  (first = true -> h = no_gas) -> (first = false -> g_type h = t) -> sorted comps -> goods ga_good comps ->
  exists first2 h2 comps2, fold_left (gas_step entities whole) mix (first, h, comps, false) = (first2, h2, comps2, false) /\ sorted comps2 /\ goods ga_good comps2 /\
    (first = false \/ parts entities mix <> [] -> first2 = false) /\ (first2 = false -> g_type h2 = t) /\
    g_total h2 == g_total h + portion g_total (parts entities mix) /\ g_volume h2 == g_volume h + portion g_volume (parts entities mix) /\
    (0 < whole -> g_pressure h2 * whole == g_pressure h * whole + portion g_pressure (parts entities mix) /\ g_vm h2 * whole == g_vm h * whole + portion g_vm (parts entities mix)) /\
    forall k, at_name g comps2 k == at_name g comps k + portion (fun x => of_name g_name g k (g_comps x)) (parts entities mix).
Proof.
  intros GQ PE. induction mix as [|[n f] mix IH]; intros first h comps F1 F2 SC GC; cbn [fold_left parts].
  - exists first, h, comps. do 3 (split; [first [reflexivity|assumption]|]). split; [intros [N|N]; [exact N|elim N; reflexivity]|]. split; [exact F2|]. rewrite !portion_nil. split; [ring|]. split; [ring|]. split; [intros _; split; ring|intros k; rewrite portion_nil; ring].
  - unfold gas_step at 2. cbn [fst snd]. destruct (zfind entities n) as [b|] eqn:F; [|exact (IH first h comps F1 F2 SC GC)]. destruct (PE n b F) as [TB NB].
    destruct (ga_fold g f (g_comps b) comps GQ NB SC GC) as (S1 & G1 & A1).
    destruct first; [specialize (F1 eq_refl); subst h|specialize (F2 eq_refl); rewrite F2, TB, eqb_reflx; cbn [negb]];
      match goal with |- context [fold_left _ mix (false, ?hh, ?cc, false)] => destruct (IH false hh cc) as (f2 & h2 & c2 & R1 & R2 & R3 & R4 & R5 & R6 & R7 & R8 & R9); [discriminate|intros _; first [exact TB|reflexivity]|exact S1|exact G1|] end;
      exists f2, h2, c2; (do 3 (split; [assumption|])); (split; [intros _; apply R4; left; reflexivity|]);
      (split; [exact R5|]); rewrite !portion_cons; (split; [rewrite R6; cbn; ring|]); (split; [rewrite R7; cbn; ring|]); (split; [|intros k; rewrite portion_cons, R9, A1; ring]);
      intros W; destruct (R8 W) as [R81 R82]; assert (NW : ~ whole == 0) by lra; cbn [g_pressure g_vm] in R81, R82; rewrite (qlt_true 0 whole W) in R81, R82;
      (split; [rewrite R81; cbn [no_gas g_pressure]; field; exact NW|rewrite R82; cbn [no_gas g_vm]; field; exact NW]).
Qed.
Lemma of_at_gas g m k : sorted m -> goods ga_good m -> of_name g_name g k (map snd m) == at_name g m k.
Proof.
  intros SM GM. rewrite <- (at_filter g m k SM). unfold of_name. clear SM. induction GM as [|[n c] m [K _] GM IH]; [reflexivity|]. cbn [fst snd] in K. cbn [map filter fst snd]. rewrite K.
  destruct (String.eqb n k); [|exact IH]. cbn [map qsum snd]. rewrite IH. reflexivity.
Qed.

(** ** Isotopes *)
Lemma iso_step a b f2 e : sorted a -> sorted b -> sorted (add_isotopes a b f2 e) /\ forall k, at_name i_total (add_isotopes a b f2 e) k == at_name i_total a k + e * at_name i_total b k.
Proof.
  intros SA SB. unfold add_isotopes.
  destruct (step_map_ok i_total (fun _ _ => True) (fun i c => mkIso (i_total i + i_total c * e) (i_ratio i + i_ratio c * f2) (i_unc i + i_unc c * f2) (i_unc_defined i || i_unc_defined c))
    (fun c => mkIso (i_total c * e) (i_ratio c) (i_unc c) (i_unc_defined c)) e) with (addee := b) (m := a) as (_ & R2 & R3).
  - intros n x c _ _. split; [cbn; ring|exact Logic.I].
  - intros n c _. split; [cbn; ring|exact Logic.I].
  - apply all_true.
  - apply all_true.
  - split; [exact (R2 SA)|]. intros k. rewrite <- (at_filter i_total b k SB). apply R3.
Qed.
Lemma mix_from_iso sols k : (forall n s, zfind sols n = Some s -> proper_isotopes s) -> forall mix a c, proper_isotopes a -> mix_from sols mix (Some a) = Some c ->
  proper_isotopes c /\ isotope_total c k == isotope_total a k + portion (fun s => isotope_total s k) (parts sols mix).
Proof.
  intros PS. induction mix as [|[n f] mix IH]; intros a c PA E; cbn [parts].
  - injection E as <-. split; [exact PA|]. rewrite portion_nil. ring.
  - rewrite mix_from_cons in E. destruct (zfind sols n) as [b|] eqn:F; [|exact (IH a c PA E)]. destruct (add_solution a b f) as [d|] eqn:AD; [|rewrite mix_from_none in E; discriminate].
    assert (X : proper_isotopes d /\ isotope_total d k == isotope_total a k + f * isotope_total b k).
    { unfold add_solution in AD. destruct (qeq f 0) eqn:F0; [injection AD as <-; apply qeq_t in F0; split; [exact PA|rewrite F0; ring]|].
      destruct (qeq (mass_water (sum a) + mass_water (sum b) * f) 0); [discriminate|]. injection AD as <-. destruct (iso_step (isotopes a) (isotopes b) (mass_water (sum b) * f / (mass_water (sum a) + mass_water (sum b) * f)) f PA (PS n b F)) as [X1 X2].
      split; [exact X1|exact (X2 k)]. }
    destruct X as [X1 X2]. destruct (IH d c X1 E) as [Y1 Y2]. split; [exact Y1|]. rewrite Y2, X2, portion_cons. ring.
Qed.
