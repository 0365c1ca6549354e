(** C126: volumes of TSPROC. *)
From Coq Require Import List ZArith QArith Bool Lia Lqa.
From Verif Require Import Qx Vol_Model Vol_Spec.
Import ListNotations.
Local Open Scope Q_scope.

(** Area from [a] to the moment [t] under the line from [a] to [b]. *)
Definition piece (a b : sample) (t : Z) : Q :=
  let x := inject_Z (t - When a) in x * (flow a + (flow b - flow a) / inject_Z (When b - When a) * (1 # 2) * x).
Fixpoint area (p : sample) (l : list sample) (t : Z) : Q :=
  match l with
  | [] => 0
  | c :: r => if (t <=? When c)%Z then piece p c t else piece p c (When c) + area c r t
  end.

Lemma area_cons p c r t : area p (c :: r) t = if (t <=? When c)%Z then piece p c t else piece p c (When c) + area c r t.
Proof. reflexivity. Qed.

Lemma elapsed_when d1 s1 d2 s2 : elapsed d1 s1 d2 s2 == inject_Z (Moment d2 s2 - Moment d1 s1).
Proof.
  unfold elapsed, Moment. replace (86400 * d2 + s2 - (86400 * d1 + s1))%Z with ((d2 - d1) * 86400 + (s2 - s1))%Z by ring.
  rewrite inject_Z_plus, inject_Z_mult. reflexivity.
Qed.
Lemma reached_when s d sec : (0 <= secs s < 86400)%Z -> (0 <= sec < 86400)%Z -> reached s d sec = (Moment d sec <=? When s)%Z.
Proof.
  intros A B. unfold reached, When, Moment. destruct (Z.ltb_spec d (days s)); destruct (Z.eqb_spec (days s) d); destruct (Z.leb_spec sec (secs s)); cbn [orb andb];
    symmetry; first [apply Z.leb_le; lia | apply Z.leb_gt; lia].
Qed.
Lemma order_tail a l : In_order (a :: l) -> In_order l /\ (0 <= secs a < 86400)%Z.
Proof. destruct l as [|b l]; cbn; intuition. Qed.
Lemma order_later l : forall a x, In_order (a :: l) -> In x l -> (When a < When x)%Z.
Proof.
  induction l as [|b l IH]; intros a x O I; [destruct I|]. assert ((When a < When b)%Z) by (cbn in O; tauto).
  destruct I as [-> | I]; [assumption|]. pose proof (IH b x (proj1 (order_tail a _ O)) I). lia.
Qed.
Lemma inject_pos z : (0 < z)%Z -> 0 < inject_Z z.
Proof. intros H. change 0 with (inject_Z 0). now rewrite <- Zlt_Qlt. Qed.

Lemma piece_all a b : (When a < When b)%Z -> piece a b (When b) == (1 # 2) * (flow b + flow a) * inject_Z (When b - When a).
Proof.
  intros L. unfold piece. cbv zeta. assert (0 < inject_Z (When b - When a)) by (apply inject_pos; lia). set (x := inject_Z (When b - When a)) in *. clearbody x. field. lra.
Qed.

(** The first loop. *)
Lemma first_ok : forall l p d sec, In_order (p :: l) -> (0 <= sec < 86400)%Z -> (exists x, In x l /\ (Moment d sec <= When x)%Z) ->
  exists pre a b r, first_at p l d sec = Some (a, b, r) /\ p :: l = pre ++ a :: b :: r /\ (Moment d sec <= When b)%Z /\ (pre <> [] -> When a < Moment d sec)%Z.
Proof.
  induction l as [|c l IH]; intros p d sec O S0 (x & X & T); [destruct X|]. cbn [first_at]. pose proof (order_tail p _ O) as [O1 S1]. pose proof (order_tail c _ O1) as [O2 S2].
  rewrite reached_when by assumption. destruct (Z.leb_spec (Moment d sec) (When c)).
  - exists [], p, c, l. split; [reflexivity|]. split; [reflexivity|]. split; [assumption | intros N; now contradiction N].
  - destruct (IH c d sec O1 S0) as (pre & a & b & r & E & E2 & L & G).
    { destruct X as [-> | X]; [lia|]. exists x. now split. }
    exists (p :: pre), a, b, r. split; [exact E|]. split; [cbn [app]; now rewrite E2|]. split; [exact L|]. intros _. destruct pre as [|q pre]; [|apply G; discriminate].
    cbn in E2. injection E2 as -> _. lia.
Qed.
Lemma area_skip : forall pre p a b r t, In_order (pre ++ a :: b :: r) -> (pre <> [] -> When a < t)%Z -> forall l, pre ++ a :: b :: r = p :: l ->
  exists k, (forall u, (pre <> [] -> When a < u)%Z -> area p l u == k + area a (b :: r) u).
Proof.
  induction pre as [|q pre IH]; intros p a b r t O G l E; cbn [app] in E.
  - injection E as <- <-. exists 0. intros u _. ring.
  - injection E as <- <-. pose proof (order_tail _ _ O) as [O1 _]. destruct pre as [|q2 pre].
    + cbn [app]. exists (piece q a (When a)). intros u H. cbn [area]. specialize (H ltac:(discriminate)). destruct (Z.leb_spec u (When a)); [lia|]. reflexivity.
    + cbn [app] in *. specialize (G ltac:(discriminate)). destruct (IH q2 a b r t O1 (fun _ => G) _ eq_refl) as [k K]. exists (piece q q2 (When q2) + k). intros u H. specialize (H ltac:(discriminate)).
      rewrite (area_cons q q2). assert ((When q2 < When a)%Z) by (apply (order_later _ q2 a O1); apply in_or_app; right; now left).
      destruct (Z.leb_spec u (When q2)); [lia|]. rewrite (K u (fun _ => H)). ring.
Qed.

(** The second loop: what it found and the area it passed. *)
Lemma walk_ok : forall r p c d sec volm here, In_order (p :: c :: r) -> (0 <= sec < 86400)%Z -> (exists x, In x (c :: r) /\ (Moment d sec <= When x)%Z) -> (here = true -> volm == 0) ->
  exists h p' c' v, walk here p c r d sec volm = Some (h, p', c', v) /\ (When p' < When c')%Z /\
    (h = true -> here = true /\ p' = p /\ c' = c) /\
    (h = false -> area p (c :: r) (Moment d sec) == (if here then piece p c (When c) else - volm) + v + piece p' c' (Moment d sec)) /\
    (h = true -> area p (c :: r) (Moment d sec) = piece p c (Moment d sec)).
Proof.
  induction r as [|n r IH]; intros p c d sec volm here O S0 (x & X & T) V; cbn [walk area]; pose proof (order_tail p _ O) as [O1 S1]; pose proof (order_tail c _ O1) as [O2 S2];
    assert (PC : (When p < When c)%Z) by (apply (order_later _ p c O); now left); rewrite reached_when by assumption.
  - destruct X as [<- | []]. destruct (Z.leb_spec (Moment d sec) (When c)); [|lia]. exists here, p, c, volm. split; [reflexivity|]. split; [exact PC|].
    split; [intros ->; auto|]. split; [|reflexivity]. intros ->. ring.
  - destruct (Z.leb_spec (Moment d sec) (When c)) as [C | C].
    + exists here, p, c, volm. split; [reflexivity|]. split; [exact PC|]. split; [intros ->; auto|]. split; [|reflexivity]. intros ->. ring.
    + destruct (IH c n d sec (if here then volm else volm + (1 # 2) * (flow c + flow p) * elapsed (days p) (secs p) (days c) (secs c)) false O1 S0) as (h & p' & c' & v & E & L & H1 & H2 & H3).
      { destruct X as [<- | X]; [lia|]. exists x. now split. }
      { discriminate. }
      exists h, p', c', v. split; [exact E|]. split; [exact L|]. assert (h = false) as -> by (destruct h; [destruct (H1 eq_refl); discriminate | reflexivity]).
      split; [discriminate|]. split; [|discriminate]. intros _. cbn [area] in H2. specialize (H2 eq_refl). cbn beta iota in H2. rewrite H2. destruct here.
      * rewrite (V eq_refl). ring.
      * rewrite elapsed_when. fold (When c) (When p). rewrite (piece_all p c PC). ring.
Qed.

Lemma volume_area l p bd bs fd fs fac : In_order (p :: l) -> (0 <= bs < 86400)%Z -> Covered (p :: l) fd fs -> (When p < Moment fd fs)%Z -> (Moment bd bs < Moment fd fs)%Z ->
  exists v, volume (p :: l) bd bs fd fs fac = Volume v /\ v == (area p l (Moment fd fs) - area p l (Moment bd bs)) * fac / 86400.
Proof.
  intros O B0 [F0 (f1 & f2 & F1 & F2 & F3)] PF BF.
  assert (XF : exists x, In x l /\ (Moment fd fs <= When x)%Z) by (destruct F2 as [-> | F2]; [lia|]; exists f2; split; [exact F2 | lia]).
  destruct XF as (xf & XF1 & XF2).
  destruct (first_ok l p bd bs O B0) as (pre & a & b & r & E & E2 & LB & G). { exists xf. split; [exact XF1 | lia]. }
  assert (O2 : In_order (a :: b :: r)).
  { revert O. rewrite E2. clear. induction pre as [|q pre IH]; [auto|]. intros O. apply IH. now apply (order_tail q). }
  assert (AB : (When a < When b)%Z) by (apply (order_later _ a b O2); now left).
  assert (AT : (When a < Moment fd fs)%Z) by (destruct pre as [|q pre]; [cbn in E2; injection E2 as -> _; exact PF | specialize (G ltac:(discriminate)); lia]).
  destruct (area_skip pre p a b r (Moment bd bs) ltac:(rewrite <- E2; exact O) G l (eq_sym E2)) as [k K].
  destruct (walk_ok r a b fd fs 0 true O2 F0) as (h & p' & c' & v & W & L & H1 & H2 & H3).
  { (* the sample after the end lies in the rest *)
    assert (I : In xf (pre ++ a :: b :: r)) by (rewrite <- E2; now right). apply in_app_or in I. destruct I as [I | [-> | I]]; [| lia |exists xf; now split].
    exfalso. assert ((When xf < When a)%Z); [|lia]. clear - I O E2. revert O. rewrite E2. clear E2. induction pre as [|q pre IH]; [destruct I|].
    intros O. destruct I as [-> | I]; [apply (order_later _ xf a O); apply in_or_app; right; now left | apply IH; [exact I | now apply (order_tail q)]]. }
  { reflexivity. }
  unfold volume. rewrite E. cbv zeta.
  assert (PAB : 0 < inject_Z (When b - When a)) by (apply inject_pos; lia). assert (PPC : 0 < inject_Z (When c' - When p')) by (apply inject_pos; lia).
  pose proof (elapsed_when (days a) (secs a) (days b) (secs b)) as EL1. fold (When a) (When b) in EL1.
  pose proof (elapsed_when (days p') (secs p') (days c') (secs c')) as EL2. fold (When p') (When c') in EL2.
  rewrite (qle_false (elapsed (days a) (secs a) (days b) (secs b)) 0) by lra. rewrite W.
  destruct (qeq (elapsed (days p') (secs p') (days c') (secs c')) 0) eqn:EQ; [apply qeq_t in EQ; lra|].
  eexists. split; [reflexivity|]. rewrite (K (Moment fd fs)) by (intros N; specialize (G N); lia). rewrite (K (Moment bd bs)) by exact G.
  assert (AREAB : area a (b :: r) (Moment bd bs) = piece a b (Moment bd bs)) by (cbn [area]; destruct (Z.leb_spec (Moment bd bs) (When b)); [reflexivity | lia]). rewrite AREAB.
  rewrite !elapsed_when. fold (When a) (When b) (When p') (When c').
  (* the part before the first sample reached *)
  assert (VB : inject_Z (When b - Moment bd bs) * (flow b - (flow b - flow a) / inject_Z (When b - When a) * (1 # 2) * inject_Z (When b - Moment bd bs)) == piece a b (When b) - piece a b (Moment bd bs)).
  { assert (D : inject_Z (When b - Moment bd bs) == inject_Z (When b - When a) - inject_Z (Moment bd bs - When a)) by (unfold Z.sub; rewrite !inject_Z_plus, !inject_Z_opp; ring).
    rewrite D. unfold piece. cbv zeta. set (x := inject_Z (Moment bd bs - When a)). set (y := inject_Z (When b - When a)) in *. clearbody x y. field. lra. }
  rewrite VB. clear VB. pose proof (elapsed_when (days p') (secs p') fd fs) as EL3. fold (When p') in EL3. destruct h.
  - destruct (H1 eq_refl) as (_ & -> & ->). rewrite (H3 eq_refl), (piece_all a b AB). rewrite EL1, EL3. unfold piece. cbv zeta. field. lra.
  - rewrite (H2 eq_refl). rewrite EL2, EL3. cbv beta iota. change (piece p' c' (Moment fd fs)) with (inject_Z (Moment fd fs - When p') * (flow p' + (flow c' - flow p') / inject_Z (When c' - When p') * (1 # 2) * inject_Z (Moment fd fs - When p'))).
    field. lra.
Qed.

Lemma inject_sub x y : inject_Z (x - y) == inject_Z x - inject_Z y.
Proof. unfold Z.sub. rewrite inject_Z_plus, inject_Z_opp. reflexivity. Qed.
Lemma piece_line a b x y : (When a < When b)%Z -> piece a b y - piece a b x == (Line a b x + Line a b y) / 2 * inject_Z (y - x).
Proof.
  intros L. assert (P : 0 < inject_Z (When b - When a)) by (apply inject_pos; lia).
  assert (D : inject_Z (y - x) == inject_Z (y - When a) - inject_Z (x - When a)) by (rewrite !inject_sub; ring). rewrite D.
  unfold piece, Line. cbv zeta. set (u := inject_Z (x - When a)). set (w := inject_Z (y - When a)). set (z := inject_Z (When b - When a)) in *. clearbody u w z. field. lra.
Qed.
Lemma line_bounds a b t lo hi : (When a <= t <= When b)%Z -> (When a < When b)%Z -> lo <= flow a <= hi -> lo <= flow b <= hi -> lo <= Line a b t <= hi.
Proof.
  intros T L A B. assert (P : 0 < inject_Z (When b - When a)) by (apply inject_pos; lia). unfold Line.
  assert (U0 : 0 <= inject_Z (t - When a) / inject_Z (When b - When a)).
  { apply Qle_shift_div_l; [exact P|]. rewrite Qmult_0_l. change 0 with (inject_Z 0). rewrite <- Zle_Qle. lia. }
  assert (U1 : inject_Z (t - When a) / inject_Z (When b - When a) <= 1).
  { apply Qle_shift_div_r; [exact P|]. rewrite Qmult_1_l. rewrite <- Zle_Qle. lia. }
  assert (E : flow a + (flow b - flow a) * inject_Z (t - When a) / inject_Z (When b - When a) == flow a + (flow b - flow a) * (inject_Z (t - When a) / inject_Z (When b - When a))) by (unfold Qdiv; ring).
  rewrite E. set (u := inject_Z (t - When a) / inject_Z (When b - When a)) in *. clearbody u. split; nra.
Qed.
Lemma piece_bounds a b x y lo hi : (When a <= x)%Z -> (x <= y)%Z -> (y <= When b)%Z -> (When a < When b)%Z -> lo <= flow a <= hi -> lo <= flow b <= hi ->
  lo * inject_Z (y - x) <= piece a b y - piece a b x <= hi * inject_Z (y - x).
Proof.
  intros X XY Y L A B. rewrite (piece_line a b x y L). pose proof (line_bounds a b x lo hi ltac:(lia) L A B) as LX. pose proof (line_bounds a b y lo hi ltac:(lia) L A B) as LY.
  assert (H2 : (Line a b x + Line a b y) / 2 == (1 # 2) * (Line a b x + Line a b y)) by field. rewrite H2.
  assert (0 <= inject_Z (y - x)) by (change 0 with (inject_Z 0); rewrite <- Zle_Qle; lia). set (m := (1 # 2) * (Line a b x + Line a b y)) in *.
  assert (lo <= m <= hi) by (unfold m; lra). set (z := inject_Z (y - x)) in *. clearbody m z. split; nra.
Qed.
Lemma area_start p c r : (When p < When c)%Z -> area p (c :: r) (When p) == 0.
Proof. intros L. rewrite area_cons. destruct (Z.leb_spec (When p) (When c)); [|lia]. unfold piece. cbv zeta. rewrite Z.sub_diag. change (inject_Z 0) with 0. ring. Qed.
Lemma area_bounds : forall l p x y lo hi, In_order (p :: l) -> (When p <= x)%Z -> (x <= y)%Z -> (exists s, In s l /\ (y <= When s)%Z) -> Forall (fun s => lo <= flow s <= hi) (p :: l) ->
  lo * inject_Z (y - x) <= area p l y - area p l x <= hi * inject_Z (y - x).
Proof.
  induction l as [|c r IH]; intros p x y lo hi O X XY (s & I & Y) F; [destruct I|]. pose proof (order_tail p _ O) as [O1 _].
  assert (PC : (When p < When c)%Z) by (apply (order_later _ p c O); now left). inversion F as [|? ? Fp F1]. inversion F1 as [|? ? Fc F2]. subst. rewrite !area_cons.
  destruct (Z.leb_spec y (When c)) as [C | C].
  - destruct (Z.leb_spec x (When c)); [|lia]. now apply piece_bounds.
  - assert (RY : exists s, In s r /\ (y <= When s)%Z) by (destruct I as [<- | I]; [lia | exists s; now split]).
    destruct (Z.leb_spec x (When c)) as [C' | C'].
    + pose proof (piece_bounds p c x (When c) lo hi X C' ltac:(lia) PC Fp Fc) as PB. pose proof (IH c (When c) y lo hi O1 ltac:(lia) ltac:(lia) RY F1) as PI.
      destruct r as [|n r]; [destruct RY as (? & [] & _)|]. assert (CN : (When c < When n)%Z) by (apply (order_later _ c n O1); now left).
      pose proof (area_start c n r CN) as Z0. assert (D : inject_Z (y - x) == inject_Z (y - When c) + inject_Z (When c - x)) by (rewrite !inject_sub; ring). rewrite D. rewrite Z0 in PI.
      set (A1 := area c (n :: r) y) in *. clearbody A1. split; lra.
    + pose proof (IH c x y lo hi O1 ltac:(lia) XY RY F1) as PI. split; lra.
Qed.

Lemma covered_first p l d s : In_order (p :: l) -> Covered (p :: l) d s -> (0 <= s < 86400)%Z /\ (When p <= Moment d s)%Z.
Proof.
  intros O [S0 (a & b & A & _ & H & _)]. split; [exact S0|]. destruct A as [-> | A]; [exact H|]. pose proof (order_later _ p a O A). lia.
Qed.

(** C126: the volume of two periods that follow one another is the sum of their volumes. *)
Theorem C126_add : forall l fac bd bs md ms fd fs, In_order l -> Covered l bd bs -> Covered l md ms -> Covered l fd fs ->
  (Moment bd bs < Moment md ms < Moment fd fs)%Z ->
  exists v w x, volume l bd bs md ms fac = Volume v /\ volume l md ms fd fs fac = Volume w /\ volume l bd bs fd fs fac = Volume x /\ x == v + w.
Proof.
  intros [|p l] fac bd bs md ms fd fs O B M F T; [destruct B as (_ & a & _ & [] & _)|].
  destruct (covered_first p l _ _ O B) as [B0 B1]. destruct (covered_first p l _ _ O M) as [M0 M1].
  destruct (volume_area l p bd bs md ms fac O B0 M ltac:(lia) ltac:(lia)) as (v & V & V'). destruct (volume_area l p md ms fd fs fac O M0 F ltac:(lia) ltac:(lia)) as (w & W & W').
  destruct (volume_area l p bd bs fd fs fac O B0 F ltac:(lia) ltac:(lia)) as (x & X & X'). exists v, w, x. split; [exact V|]. split; [exact W|]. split; [exact X|].
  rewrite V', W', X'. field.
Qed.
Print Assumptions C126_add.

Lemma area_between pre : forall p l a b post, In_order (p :: l) -> p :: l = pre ++ a :: b :: post -> exists k, forall t, (When a <= t <= When b)%Z -> area p l t == k + piece a b t.
Proof.
  induction pre as [|q pre IH]; intros p l a b post O E.
  - cbn in E. injection E as -> ->. exists 0. intros t T. rewrite area_cons. destruct (Z.leb_spec t (When b)); [ring | lia].
  - destruct l as [|c l]; [destruct pre; discriminate|]. injection E as -> E. pose proof (order_tail q _ O) as [O1 _]. destruct (IH c l a b post O1 E) as [k K].
    assert (QC : (When q < When c)%Z) by (apply (order_later _ q c O); now left).
    assert (AB : In_order (a :: b :: post)) by (rewrite E in O1; clear - O1; induction pre as [|z pre IH]; [exact O1 | apply IH; now apply (order_tail z)]).
    assert (LAB : (When a < When b)%Z) by (apply (order_later _ a b AB); now left).
    assert (CA : c = a /\ l = b :: post \/ (When c < When a)%Z).
    { destruct pre as [|z pre]; [left; now injection E as -> ->|]. right. injection E as -> E. apply (order_later l z a O1). rewrite E. apply in_or_app. right. now left. }
    exists (piece q c (When c) + k). intros t T. rewrite area_cons. destruct (Z.leb_spec t (When c)) as [C | C]; [|rewrite (K t T); ring].
    destruct CA as [[-> ->] | CA]; [|lia]. assert (t = When a) by lia. subst t. rewrite <- Qplus_assoc, <- (K (When a) ltac:(lia)). rewrite (area_start a b post LAB). ring.
Qed.

(** C126: between two samples that follow one another the volume is the time times the mean of the flows at its ends, on the straight line from
    one sample to the other. *)
Theorem C126_line : forall pre a b post fac bd bs fd fs, In_order (pre ++ a :: b :: post) -> (0 <= bs < 86400)%Z -> (0 <= fs < 86400)%Z ->
  (When a <= Moment bd bs)%Z -> (Moment bd bs < Moment fd fs)%Z -> (Moment fd fs <= When b)%Z ->
  exists v, volume (pre ++ a :: b :: post) bd bs fd fs fac = Volume v /\
    v == (Line a b (Moment bd bs) + Line a b (Moment fd fs)) / 2 * inject_Z (Moment fd fs - Moment bd bs) * fac / 86400.
Proof.
  intros pre a b post fac bd bs fd fs O B0 F0 A T B. destruct (pre ++ a :: b :: post) as [|p l] eqn:E; [destruct pre; discriminate|].
  assert (IA : In a (p :: l)) by (rewrite <- E; apply in_or_app; right; now left). assert (IB : In b (p :: l)) by (rewrite <- E; apply in_or_app; right; right; now left).
  assert (F : Covered (p :: l) fd fs) by (split; [exact F0|]; exists a, b; split; [exact IA|]; split; [exact IB | lia]).
  assert (BC : Covered (p :: l) bd bs) by (split; [exact B0|]; exists a, b; split; [exact IA|]; split; [exact IB | lia]).
  destruct (covered_first p l _ _ O BC) as [_ B1]. destruct (volume_area l p bd bs fd fs fac O B0 F ltac:(lia) T) as (v & V & V'). exists v. split; [exact V|].
  destruct (area_between pre p l a b post O (eq_sym E)) as [k K]. rewrite V', (K (Moment fd fs)), (K (Moment bd bs)) by lia.
  assert (D : k + piece a b (Moment fd fs) - (k + piece a b (Moment bd bs)) == piece a b (Moment fd fs) - piece a b (Moment bd bs)) by ring.
  rewrite D, (piece_line a b) by lia. reflexivity.
Qed.
Print Assumptions C126_line.

(** C126: the volume is between the lowest and the highest flow, each times the time; of a flow that is not negative it is not negative, and of a
    constant flow it is the flow times the time. *)
Theorem C126_bounds : forall l fac bd bs fd fs lo hi, In_order l -> Covered l bd bs -> Covered l fd fs -> (Moment bd bs < Moment fd fs)%Z -> 0 <= fac ->
  Forall (fun s => lo <= flow s <= hi) l ->
  exists v, volume l bd bs fd fs fac = Volume v /\
    lo * (inject_Z (Moment fd fs - Moment bd bs) * fac / 86400) <= v <= hi * (inject_Z (Moment fd fs - Moment bd bs) * fac / 86400).
Proof.
  intros [|p l] fac bd bs fd fs lo hi O B F T P R; [destruct B as (_ & a & _ & [] & _)|]. destruct (covered_first p l _ _ O B) as [B0 B1].
  destruct (volume_area l p bd bs fd fs fac O B0 F ltac:(lia) T) as (v & V & V'). exists v. split; [exact V|]. rewrite V'.
  pose proof (area_bounds l p (Moment bd bs) (Moment fd fs) lo hi O B1 ltac:(lia)) as AB.
  destruct AB as [A1 A2]; [destruct F as (_ & a & b & _ & [-> | Ib] & H); [lia | exists b; split; [exact Ib | lia]] | exact R |].
  set (x := inject_Z (Moment fd fs - Moment bd bs)) in *. set (A0 := area p l (Moment fd fs) - area p l (Moment bd bs)) in *. clearbody A0 x.
  assert (E1 : A0 * fac / 86400 == (1 # 86400) * (A0 * fac)) by field. assert (E2 : x * fac / 86400 == (1 # 86400) * (x * fac)) by field. rewrite E1, E2.
  assert (lo * x * fac <= A0 * fac) by (apply Qmult_le_compat_r; assumption). assert (A0 * fac <= hi * x * fac) by (apply Qmult_le_compat_r; assumption).
  assert (E3 : forall y, y * ((1 # 86400) * (x * fac)) == (1 # 86400) * (y * x * fac)) by (intros; ring). rewrite !E3. split; lra.
Qed.
Print Assumptions C126_bounds.

(** C126 finding: a period that ends after the last sample has the volume -3.1e37, without an error; the periods made automatically for months
    and years end a second before midnight, whenever the last sample was. *)
Theorem C126_after_refuted : forall l fac bd bs fd fs, In_order l -> (0 <= bs < 86400)%Z -> (0 <= fs < 86400)%Z ->
  (exists s1 s2, In s1 l /\ In s2 l /\ When s1 < When s2 /\ Moment bd bs <= When s2)%Z -> Forall (fun s => When s < Moment fd fs)%Z l ->
  volume l bd bs fd fs fac = Volume (- inject_Z (31 * 10 ^ 36)).
Proof.
  intros [|p l] fac bd bs fd fs O B0 F0 (s1 & s2 & I1 & I2 & S12 & SB) A; [destruct I1|].
  assert (X : exists x, In x l /\ (Moment bd bs <= When x)%Z).
  { destruct I2 as [-> | I2]; [destruct I1 as [-> | I1]; [lia | pose proof (order_later _ s2 s1 O I1); lia] | exists s2; now split]. }
  destruct (first_ok l p bd bs O B0 X) as (pre & a & b & r & E & E2 & _). unfold volume. rewrite E. cbv zeta.
  assert (O2 : In_order (a :: b :: r)).
  { revert O. rewrite E2. clear. induction pre as [|q pre IH]; [auto|]. intros O. apply IH. now apply (order_tail q). }
  assert (A2 : Forall (fun s => When s < Moment fd fs)%Z (b :: r)).
  { rewrite E2 in A. apply Forall_app in A. destruct A as [_ A]. now inversion A. }
  assert (AB : (When a < When b)%Z) by (apply (order_later _ a b O2); now left). assert (PAB : 0 < inject_Z (When b - When a)) by (apply inject_pos; lia).
  pose proof (elapsed_when (days a) (secs a) (days b) (secs b)) as EL1. fold (When a) (When b) in EL1. rewrite (qle_false (elapsed (days a) (secs a) (days b) (secs b)) 0) by lra.
  assert (W : forall r p c volm here, In_order (c :: r) -> Forall (fun s => When s < Moment fd fs)%Z (c :: r) -> walk here p c r fd fs volm = None).
  { clear - F0. induction r as [|n r IH]; intros p c volm here O A; cbn [walk]; inversion A as [|? ? A1 A2]; subst; pose proof (order_tail c _ O) as [O1 S1]; rewrite reached_when by assumption;
      destruct (Z.leb_spec (Moment fd fs) (When c)); try lia; [reflexivity | now apply IH]. }
  rewrite W; [reflexivity | now apply (order_tail a) | exact A2].
Qed.
Print Assumptions C126_after_refuted.

(** C126 finding: a period that begins before the first sample is accepted; the line through the first two samples is drawn on backwards, and the
    volume under it, which may be negative, is added. *)
Theorem C126_before_refuted : forall p c l fac bd bs fd fs, In_order (p :: c :: l) -> (0 <= bs < 86400)%Z -> (Moment bd bs < When p)%Z ->
  Covered (p :: c :: l) fd fs -> (When p < Moment fd fs)%Z ->
  exists v w, volume (p :: c :: l) bd bs fd fs fac = Volume v /\ volume (p :: c :: l) (days p) (secs p) fd fs fac = Volume w /\
    v == w + (Line p c (Moment bd bs) + flow p) / 2 * inject_Z (When p - Moment bd bs) * fac / 86400.
Proof.
  intros p c l fac bd bs fd fs O B0 BP F PF. pose proof (order_tail p _ O) as [O1 S1]. assert (PC : (When p < When c)%Z) by (apply (order_later _ p c O); now left).
  destruct (volume_area (c :: l) p bd bs fd fs fac O B0 F PF ltac:(lia)) as (v & V & V'). destruct (volume_area (c :: l) p (days p) (secs p) fd fs fac O S1 F PF PF) as (w & W & W').
  exists v, w. split; [exact V|]. split; [exact W|]. rewrite V', W'. fold (When p). rewrite (area_start p c l PC).
  assert (AB : area p (c :: l) (Moment bd bs) == - (piece p c (When p) - piece p c (Moment bd bs))).
  { rewrite area_cons. destruct (Z.leb_spec (Moment bd bs) (When c)); [|lia]. assert (Z0 : piece p c (When p) == 0) by (unfold piece; cbv zeta; rewrite Z.sub_diag; change (inject_Z 0) with 0; ring). rewrite Z0. ring. }
  rewrite AB, (piece_line p c _ _ PC).
  assert (LP : Line p c (When p) == flow p) by (unfold Line; rewrite Z.sub_diag; change (inject_Z 0) with 0; unfold Qdiv; ring). rewrite LP. field.
Qed.
Print Assumptions C126_before_refuted.

Definition gauge : list sample := [Sample 10 43200 4; Sample 11 43200 6; Sample 12 0 2; Sample 14 0 5].
Example C126_example : In_order gauge /\ Covered gauge 11 0 /\ Covered gauge 13 0 /\
  match volume gauge 11 0 13 0 1 with Volume v => Qred v | Failed => 0 end = (15 # 2) /\ volume gauge 11 0 14 86399 1 = Volume (- inject_Z (31 * 10 ^ 36)) /\
  match volume gauge 9 0 11 0 1 with Volume v => Qred v | Failed => 0 end = 6.
Proof.
  split; [repeat split; cbn; lia|]. split; [split; [lia|]; exists (Sample 10 43200 4), (Sample 14 0 5); cbn; intuition lia|].
  split; [split; [lia|]; exists (Sample 10 43200 4), (Sample 14 0 5); cbn; intuition lia|]. repeat split; reflexivity.
Qed.
