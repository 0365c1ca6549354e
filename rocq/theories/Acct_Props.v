(** Theorems on the accounts of water, solutes and reactions (C87-C91). *)
From Coq Require Import ZArith QArith Qfield List Bool Lia Lqa ZifyBool.
From Verif Require Import Qx Soln_Model Acct_Model Acct_Spec Acct_Proofs Acct2_Proofs Acct3_Proofs
  Acct4_Proofs Acct5_Proofs.
Import ListNotations.
Local Open Scope Q_scope.

(** ** C87: the unsaturated zone and its two parts *)
(** After any run, every entry in the account of the unsaturated zone of a hillslope is the sum of
    the entries of its riparian and of its upland part. *)
Theorem C87_unsaturated : forall k l s,
  (forall i, Parts (uzg s i) (uzr s i) (uzu s i)) ->
  forall i, Parts (uzg (history k l s) i) (uzr (history k l s) i) (uzu (history k l s) i).
Proof. intros k l s H. exact (uz_history k l s H). Qed.
Print Assumptions C87_unsaturated.

(** One solute, no isotope, one entity; segments with 1, 2, 3, ... m3 of water. *)
Definition k1 : cfg :=
  {| nsol := 1; nrows := 2; ncols := 3; iso := fun _ => false; tly := fun _ => 1%Z; tlye := fun _ => 2%Z;
     mult := fun _ => 1; rip := fun ia _ => (ia <=? 2)%Z; vstream := inject_Z; qout := 4 |}.
Definition tb (i j : Z) : Q := if (i =? 1)%Z then 3 # 1000 else 1 # 2000.
(** Bin ia of hillslope 1 sends out 2 m3 and reacts. *)
Definition bin (ia : Z) : call :=
  {| indx := (10 + ia)%Z; totvol := 2; imetric := 3; conc := fun _ => 2 # 1000; apH := 7; tempc := 10;
     tally := tb; mrubnd := true; basbnd := false; restype := 5; react := true; is_ := 1%Z;
     ia_ := ia; ih_ := 0%Z |}.
Definition two_bins : list event :=
  [EPreset 11 6 0 4; EUpdate (bin 1); EPreset 13 9 0 7; EUpdate (bin 3)].
Example C87_case :
  (forall i, Parts (uzg nothing i) (uzr nothing i) (uzu nothing i)) /\
  mol (uzr (history k1 two_bins nothing) 1%Z) 1 5 == 12 /\
  mol (uzu (history k1 two_bins nothing) 1%Z) 1 5 == 21 /\
  mol (uzg (history k1 two_bins nothing) 1%Z) 1 5 == 33 /\
  vol (uzg (history k1 two_bins nothing) 1%Z) 3 == 4.
Proof.
  split; [| vm_compute; repeat split; reflexivity].
  intros i. unfold Parts, nothing, empty. cbn [uzg uzr uzu vol temp pH mol dlt ent efr].
  repeat (split; [intros; reflexivity |]). intros; reflexivity.
Qed.

(** ** C88: reactions of the basin *)
(** After any run with calls of the kinds that the main routine makes, the moles of a solute that
    reactions made in the basin, the moles that each entity made and the sums of the element
    fractions are those of the hillslopes plus those of the streams. *)
Theorem C88_reactions : forall k m l s,
  Forall (Proper m) l -> Adds_up m s -> Adds_up m (history k l s).
Proof. exact adds_up_history. Qed.
Print Assumptions C88_reactions.

(** The outlet, segment 1. *)
Definition last_call : call :=
  {| indx := 30%Z; totvol := 4; imetric := 3; conc := fun _ => 2 # 1000; apH := 7; tempc := 10;
     tally := tb; mrubnd := false; basbnd := true; restype := 99; react := true; is_ := 3%Z;
     ia_ := 0%Z; ih_ := 1%Z |}.
Example C88_case :
  Forall (Proper 2) (two_bins ++ [EUpdate last_call]) /\ Adds_up 2 nothing /\
  mol (bas (history k1 (two_bins ++ [EUpdate last_call]) nothing)) 1 4 == 15 /\
  mol (mru (history k1 (two_bins ++ [EUpdate last_call]) nothing) 1%Z) 1 4 == 11 /\
  mol (hyd (history k1 (two_bins ++ [EUpdate last_call]) nothing)) 1 4 == 4.
Proof.
  split.
  { repeat (apply Forall_cons || apply Forall_nil); cbn [Proper]; try exact Logic.I;
      (split; [cbn; tauto |]); (split; [intros _; cbn; lia | cbn; intros; try lia; discriminate]). }
  split.
  { unfold Adds_up, nothing, empty. cbn [bas mru hyd mol ent efr sum_to].
    split; [intros; reflexivity |]. split; intros; reflexivity. }
  vm_compute. repeat split; reflexivity.
Qed.

(** Moles that are left do not add up in the same way: the water that leaves the basin at the
    outlet is entered among the moles left in the streams, although it is not entered in their
    volume, and not among the moles left in the basin (phreeq_mms.F90, 10880 and 10899). *)
Theorem C88_outlet_refuted : exists k e s,
  restype e = 99%Z /\ ih_ e = 1%Z /\ react e = true /\ s = update_chem k nothing e /\
  0 < mol (hyd s) 1 5 /\ vol (hyd s) 5 == 0 /\ mol (bas s) 1 5 == 0.
Proof.
  exists k1, last_call, (update_chem k1 nothing last_call).
  repeat (split; [reflexivity |]). vm_compute. repeat split; reflexivity.
Qed.
Print Assumptions C88_outlet_refuted.

(** ** C89: a reservoir after a call *)
(** After a call with reactions, for a solute that is no isotope: the moles left are those in the
    solution before reaction plus those that reactions made; the moles left are those of the tally
    table; each entity has made what the tally table says; and the fraction that is reported times
    what all the entities made is what reactions made. *)
Theorem C89_final : forall k s e n,
  react e = true -> (1 <= n <= nsol k)%Z -> iso k n = false ->
  let r := reaction_volume k s e in
  let g := cc (update_chem k s e) (indx e) in
  mol g n 5%Z == mol g n 4%Z + conc e n * r * 1000 /\
  mol g n 5%Z == tally e (tly k n) 2%Z * r * 1000 /\
  (forall j, (3 <= j <= ncols k)%Z -> ent g n j == tally e (tlye k n) j * mult k j * r * 1000) /\
  (0 < made_by k g n -> efr g n * made_by k g n == mol g n 4%Z) /\
  (made_by k g n <= 0 -> efr g n == 0).
Proof.
  intros k s e n R N I. cbv zeta. pose proof (update_react k s e n R N) as U. cbv zeta in U.
  destruct U as (U5 & _ & U & _). destruct (U I) as (U4 & UE & sum & SE & EF).
  split; [rewrite U5, U4; ring |]. split; [rewrite U5; reflexivity |].
  split. { intros j J. rewrite UE by (unfold entities; now rewrite in_upto). reflexivity. }
  assert (MB : made_by k (cc (update_chem k s e) (indx e)) n == sum).
  { rewrite SE. unfold made_by. replace (map (ent (cc (update_chem k s e) (indx e)) n) (entities k))
      with (map (x_ent k e (reaction_volume k s e) n) (entities k)); [reflexivity |].
    apply map_ext_in. intros j J. symmetry. now apply UE. }
  split.
  - intros P. rewrite MB in *. rewrite EF, (qlt_true _ _ P), U4. field. intros C. rewrite C in P. lra.
  - intros P. rewrite MB in P. rewrite EF, (qlt_false _ _ P). reflexivity.
Qed.
Print Assumptions C89_final.

(** The moles of the entities and their change. *)
Theorem C89_entities : forall k s e j,
  react e = true -> (3 <= j <= ncols k)%Z -> imetric e <> 1%Z ->
  let g := cc (update_chem k s e) (indx e) in
  mass g j == tally e (nrows k + 1)%Z j /\ mass g j + mdf g j == mass (cc s (indx e)) j.
Proof.
  intros k s e j R J M. cbv zeta. unfold update_chem. cbv zeta. fold (early k s e). rewrite R.
  unfold book_change. set (r := reacting k e (early k s e)).
  set (s1 := fst (fold_left (book_reaction k e r) (solutes k) _)).
  destruct (change_at k e s1 (entities k) (nodup_upto _ _)) as (_ & C & _).
  cbv zeta in C. destruct (C j) as [C1 C2]; [unfold entities; rewrite in_upto; exact J |]. rewrite C1, C2.
  split; [reflexivity |].
  pose proof (reaction_fold k e r (solutes k) (book_final k e (moved s e) (early k s e), 0%Z)) as F.
  cbv zeta in F. destruct F as ((_ & _ & _ & F & _) & _).
  unfold s1. rewrite F. cbn [fst]. rewrite final_cc.
  pose proof (early_cc k s e (indx e)) as E. cbv zeta in E.
  destruct E as (_ & _ & _ & _ & E).
  assert (CM : column e <> 1%Z).
  { unfold column. destruct (imetric e =? 0)%Z; [discriminate |].
    destruct (imetric e =? -1)%Z; [discriminate | exact M]. }
  destruct (E CM) as [E1 _]. rewrite E1. ring.
Qed.
Print Assumptions C89_entities.

(** A call that is an input (0 or 2), or an output (3) of a reservoir of a hillslope, adds its
    volume of water and the moles in that volume to the entries of the reservoir, with or without
    reactions; no other reservoir changes. *)
Theorem C89_flow : forall k s e n c i,
  In (imetric e, c) [(0, 2); (2, 2); (3, 3)]%Z -> (imetric e = 3%Z -> restype e <> 99%Z) ->
  (1 <= n <= nsol k)%Z ->
  (vol (cc (update_chem k s e) (indx e)) c == vol (cc s (indx e)) c + totvol e /\
   mol (cc (update_chem k s e) (indx e)) n c ==
     mol (cc s (indx e)) n c + conc e n * totvol e * 1000) /\
  (i <> indx e -> (forall d, vol (cc (update_chem k s e) i) d == vol (cc s i) d) /\
                  forall d, mol (cc (update_chem k s e) i) n d == mol (cc s i) n d).
Proof.
  intros k s e n c i M S N.
  assert (C : column e = c /\ (c = 2 \/ c = 3)%Z /\ is_direct e = true).
  { cbn [In] in M. unfold is_direct, is_stream, column.
    destruct M as [M | [M | [M | []]]]; injection M as M1 M2; rewrite <- M1; cbn [Z.eqb Pos.eqb];
      split; auto; split; auto; rewrite ?orb_true_r; try reflexivity.
    symmetry in M1. specialize (S M1). apply Z.eqb_neq in S. now rewrite S. }
  destruct C as (C & C23 & D).
  assert (FL : is_flow e = true) by (unfold is_flow; rewrite C; lia).
  assert (E : forall j d, mol (cc (early k s e) j) n d =
    if ((j =? indx e) && (d =? c))%Z then mol (cc s j) n d + conc e n * totvol e * 1000 else mol (cc s j) n d).
  { intros j d. rewrite early_mol by exact N. unfold entered, moles. cbv zeta. rewrite D, C. reflexivity. }
  split; [split |].
  - rewrite update_vol, C, FL, !Z.eqb_refl. reflexivity.
  - destruct (react e) eqn:R.
    + pose proof (update_react k s e n R N) as U. cbv zeta in U. destruct U as (_ & _ & _ & U).
      rewrite U by lia. rewrite E, !Z.eqb_refl. reflexivity.
    + unfold update_chem. cbv zeta. fold (early k s e). rewrite R, E, !Z.eqb_refl. reflexivity.
  - intros NI. split; intros d.
    + rewrite update_vol. replace (i =? indx e)%Z with false by lia. reflexivity.
    + destruct (react e) eqn:R.
      * rewrite update_far by assumption. rewrite E. replace (i =? indx e)%Z with false by lia. reflexivity.
      * unfold update_chem. cbv zeta. fold (early k s e). rewrite R, E.
        replace (i =? indx e)%Z with false by lia. reflexivity.
Qed.
Print Assumptions C89_flow.

Example C89_case :
  let s := preset 11 6 0 4 nothing in
  let g := cc (update_chem k1 s (bin 1)) 11%Z in
  react (bin 1) = true /\ iso k1 1 = false /\ reaction_volume k1 s (bin 1) == 4 /\
  mol g 1 5 == 12 /\ mol g 1 4 == 4 /\ mol g 1 3 == 4 /\ vol g 3 == 2 /\ made_by k1 g 1 == 2 /\
  efr g 1 == 2 /\ mass g 3 == 1 # 2000.
Proof. vm_compute. repeat split; reflexivity. Qed.

(** With the results of a mix laid out as the headings say, the first isotope has its delta. *)
Theorem C89_delta : forall k s e n tot permil gl gs,
  react e = true -> (1 <= n <= nsol k)%Z -> iso k n = true -> rank k n = 1%Z ->
  conc e = punched (nsol k) tot permil gl gs ->
  dlt (cc (update_chem k s e) (indx e)) n 5%Z == permil 1%Z * reaction_volume k s e.
Proof.
  intros k s e n tot permil gl gs R N I RK C.
  pose proof (update_react k s e n R N) as U. cbv zeta in U. destruct U as (_ & U & _).
  destruct (U I) as [_ U5]. rewrite U5, RK, C. unfold punched.
  replace (nsol k + 1 <=? nsol k)%Z with false by lia.
  replace (nsol k + 1 - nsol k - 1)%Z with 0%Z by lia. reflexivity.
Qed.
Print Assumptions C89_delta.

(** The delta of the second isotope is never what the mix returned: the entry that is read is the
    logarithm of a fractionation factor of the first isotope (10856, with the layout of
    3783-3801). *)
Theorem C89_delta_refuted : forall k s e n tot permil gl gs,
  react e = true -> (1 <= n <= nsol k)%Z -> iso k n = true -> rank k n = 2%Z ->
  conc e = punched (nsol k) tot permil gl gs ->
  dlt (cc (update_chem k s e) (indx e)) n 5%Z == gl 1%Z * reaction_volume k s e.
Proof.
  intros k s e n tot permil gl gs R N I RK C.
  pose proof (update_react k s e n R N) as U. cbv zeta in U. destruct U as (_ & U & _).
  destruct (U I) as [_ U5]. rewrite U5, RK, C. unfold punched.
  replace (nsol k + 2 <=? nsol k)%Z with false by lia.
  replace (nsol k + 2 - nsol k - 1)%Z with 1%Z by lia. reflexivity.
Qed.
Print Assumptions C89_delta_refuted.

(** Two isotopes, D (-60 permil) and 18O (-8 permil). *)
Definition k2 : cfg :=
  {| nsol := 2; nrows := 2; ncols := 3; iso := fun _ => true; tly := fun _ => 1%Z; tlye := fun _ => 2%Z;
     mult := fun _ => 1; rip := fun _ _ => false; vstream := inject_Z; qout := 4 |}.
Definition rain : call :=
  {| indx := 11%Z; totvol := 2; imetric := 3;
     conc := punched 2 (fun _ => 0) (fun i => if (i =? 1)%Z then -60 else -8)
               (fun _ => 1 # 100) (fun _ => 2 # 100);
     apH := 7; tempc := 10; tally := tb; mrubnd := true; basbnd := false; restype := 1; react := true;
     is_ := 1%Z; ia_ := 0%Z; ih_ := 0%Z |}.
Example C89_delta_case :
  let g := cc (update_chem k2 (preset 11 6 0 4 nothing) rain) 11%Z in
  rank k2 1 = 1%Z /\ rank k2 2 = 2%Z /\ dlt g 1 5 == -240 /\ dlt g 2 5 == 4 # 100.
Proof. vm_compute. repeat split; reflexivity. Qed.

(** ** C90: from segment to segment *)
(** After a pass, the water that a segment received is what its hillslopes gave plus what the
    segment above passed on. *)
Theorem C90_water : forall k w s j,
  (1 <= nsol k)%Z -> (1 <= j < segs w)%Z -> (segs w < 100000000)%Z ->
  0 < vstream k j + (divert w (j + 1)%Z + loss w (j + 1)%Z) -> 0 <= hills w j ->
  vol (cc (stream_pass k w s) (row w j)) 2%Z ==
    vol (cc s (row w j)) 2%Z + vstream k j + hills w j.
Proof.
  intros k w s j N J S P H.
  destruct (pass_next k w 1 ltac:(lia) s j J S P) as [_ V]. rewrite V.
  unfold water_in. destruct (qlt 0 (hills w j)) eqn:E; [reflexivity |].
  apply qlt_f in E. lra.
Qed.
Print Assumptions C90_water.

(** The moles that a segment received are overstated: to the moles from its hillslopes and those
    that came with the water passed on (conc) are added the moles that the segment above lost to
    diversions and leakage and twice the moles that left it (10750, then 9228 again). *)
Theorem C90_moles_refuted : forall k w s j n,
  (1 <= n <= nsol k)%Z -> (1 <= j < segs w)%Z -> (segs w < 100000000)%Z ->
  0 < vstream k j -> 0 <= divert w (j + 1)%Z -> 0 <= loss w (j + 1)%Z -> 0 <= hills w j ->
  0 <= m_conc (routed w (j + 1)) n -> 0 < m_tally (routed w (j + 1)) (tly k n) 2%Z ->
  mol (cc s (row w (j + 1))) n 3%Z == 0 ->
  let got := mol (cc (stream_pass k w s) (row w j)) n 2%Z in
  let hills' := m_conc (hillmix w j) n * hills w j * 1000 in
  let passed := m_conc (routed w (j + 1)) n * vstream k j * 1000 in
  let lost := m_conc (routed w (j + 1)) n * (divert w (j + 1)%Z + loss w (j + 1)%Z) * 1000 in
  let left := m_tally (routed w (j + 1)) (tly k n) 2%Z * vstream k j * 1000 in
  got == hills' + passed + lost + left + left /\ hills' + passed < got.
Proof.
  intros k w s j n N J S V D L H C T Z0. cbv zeta.
  destruct (pass_next k w n N s j J S) as [M _].
  { unfold away. lra. }
  assert (E : mol (cc (stream_pass k w s) (row w j)) n 2%Z ==
     m_conc (hillmix w j) n * hills w j * 1000 + m_conc (routed w (j + 1)) n * vstream k j * 1000 +
     m_conc (routed w (j + 1)) n * (divert w (j + 1)%Z + loss w (j + 1)%Z) * 1000 +
     m_tally (routed w (j + 1)) (tly k n) 2%Z * vstream k j * 1000 +
     m_tally (routed w (j + 1)) (tly k n) 2%Z * vstream k j * 1000).
  { rewrite M, Z0. unfold R3, away, inflow.
    destruct (qlt 0 (hills w j)) eqn:Q; [ring |]. apply qlt_f in Q.
    assert (hills w j == 0) as -> by lra. ring. }
  split; [exact E |]. rewrite E.
  assert (A : 0 <= m_conc (routed w (j + 1)) n * (divert w (j + 1)%Z + loss w (j + 1)%Z))
    by (apply Qmult_le_0_compat; [exact C | lra]).
  assert (B : 0 < m_tally (routed w (j + 1)) (tly k n) 2%Z * vstream k j)
    by (apply Qmult_lt_0_compat; assumption).
  lra.
Qed.
Print Assumptions C90_moles_refuted.

(** The account of all streams after a pass: what left it is the diversions and leakages and the
    discharge at the outlet. *)
Theorem C90_streams : forall k w s,
  (2 <= segs w < 100000000)%Z ->
  (forall ih, (1 <= ih <= segs w)%Z ->
     0 < (if (ih =? 1)%Z then qout k else vstream k (ih - 1)%Z) + (divert w ih + loss w ih)) ->
  vol (hyd (stream_pass k w s)) 3%Z ==
    vol (hyd s) 3%Z + total (fun ih => divert w ih + loss w ih) 1 (segs w) + qout k.
Proof.
  intros k w s S P. destruct (hv_pass k w s S) as (_ & H & _); [| exact H].
  intros ih I. specialize (P ih I). unfold onward, away.
  destruct (Z.ltb_spec 1 ih).
  - replace (ih =? 1)%Z with false in P by lia. exact P.
  - replace (ih =? 1)%Z with true in P by lia. exact P.
Qed.
Print Assumptions C90_streams.

(** What entered and what is left are wrong: water passed from segment to segment is entered as
    received by the streams (9228), and the water left in the streams is not the sum over the
    segments but the diversions and leakages above the outlet plus the water in segment 1 (10814
    assigns instead of adding).  With three segments or more, no diversions and no leakage, and
    water in segment 2, both differ from the truth. *)
Theorem C90_streams_refuted : forall k w s,
  (3 <= segs w < 100000000)%Z -> (forall j, 0 < vstream k j) -> 0 < qout k ->
  (forall ih, divert w ih == 0 /\ loss w ih == 0) -> (forall ih, 0 <= hills w ih) ->
  vol (hyd s) 2%Z == 0 -> vol (hyd s) 3%Z == 0 ->
  total (hills w) 1 (segs w) < vol (hyd (stream_pass k w s)) 2%Z /\
  vol (hyd (stream_pass k w s)) 5%Z == vstream k 1%Z /\
  vol (hyd (stream_pass k w s)) 5%Z < total (vstream k) 1 (segs w - 1).
Proof.
  intros k w s Sg V Qo D H Z2 Z3.
  assert (AW : forall ih, away w ih == 0).
  { intros ih. unfold away. destruct (D ih) as [-> ->]. ring. }
  destruct (hv_pass k w s) as (A & _ & C); [unfold e8; lia | |].
  { intros ih I. rewrite AW. unfold onward. destruct (1 <? ih)%Z; [specialize (V (ih - 1)%Z) |]; lra. }
  assert (TW : total (water_in w) 1 (segs w) == total (hills w) 1 (segs w)).
  { unfold total. generalize (upto 1 (segs w)). intros l. induction l as [| i l IH]; [reflexivity |].
    cbn [map qsum]. rewrite IH. unfold water_in. specialize (H i).
    destruct (qlt 0 (hills w i)) eqn:E; [reflexivity |]. apply qlt_f in E.
    assert (hills w i == 0) as -> by lra. reflexivity. }
  assert (TA : total (away w) 2 (segs w) == 0).
  { unfold total. generalize (upto 2 (segs w)). intros l. induction l as [| i l IH]; [reflexivity |].
    cbn [map qsum]. rewrite IH, AW. ring. }
  assert (TP : forall l, 0 <= qsum (map (vstream k) l)).
  { induction l as [| i l IH]; cbn [map qsum]; [lra | specialize (V i); lra]. }
  assert (TV : vstream k 1%Z < total (vstream k) 1 (segs w - 1)).
  { unfold total. rewrite (upto_split 1 (segs w - 1) 1) by lia.
    rewrite (upto_split (1 + 1) (segs w - 1) 2) by lia.
    replace (upto 1 (1 - 1)) with (@nil Z) by reflexivity.
    replace (upto (1 + 1) (2 - 1)) with (@nil Z) by reflexivity. cbn [app map qsum].
    specialize (TP (upto (2 + 1) (segs w - 1))). pose proof (V 2%Z). lra. }
  split; [rewrite A, TW, Z2; pose proof (V 1%Z); lra |].
  split; [rewrite C, TA, Z3; ring |]. rewrite C, TA, Z3. lra.
Qed.
Print Assumptions C90_streams_refuted.

Definition mx : mixed := {| m_conc := fun _ => 2 # 1000; m_pH := 7; m_temp := 10; m_tally := tb |}.
Definition w3 : reach :=
  {| segs := 3; nmru := 2; nchem := 1; nac := 2; hillexp := fun _ _ => 1; divert := fun _ => 0;
     loss := fun _ => 0; hillmix := fun _ => mx; routed := fun _ => mx |}.
Example C90_case :
  let s := stream_pass k1 w3 nothing in
  hills w3 2 == 2 /\
  vol (cc s (row w3 2)) 2 == 4 /\ mol (cc s (row w3 2)) 1 2 == 20 /\
  vol (hyd s) 2 == 9 /\ vol (hyd s) 3 == 4 /\ vol (hyd s) 5 == 1 /\
  total (hills w3) 1 3 == 6 /\ total (vstream k1) 1 2 == 3.
Proof. vm_compute. repeat split; reflexivity. Qed.

(** ** C91: what is reported of an account *)
(** In any run in which the water that enters has temperatures between lo and hi, the mean
    temperature of the inflow that is reported for the basin, the streams, a hillslope or a part of
    an unsaturated zone lies between lo and hi. *)
Theorem C91_between : forall k l s lo hi last n,
  Forall (Mild lo hi) l ->
  let s' := history k l (new_step s) in
  let fair := fun g => 0 < vol g 2%Z ->
                lo <= r_t_in (report_of n last g) <= hi /\
                r_t_in (report_of n last g) * r_m3_in (report_of n last g) == temp g 2%Z in
  fair (bas s') /\ fair (hyd s') /\
  forall i, fair (mru s' i) /\ fair (uzg s' i) /\ fair (uzr s' i) /\ fair (uzu s' i).
Proof.
  intros k l s lo hi last n F. cbv zeta.
  pose proof (am_history lo hi k l F (new_step s) (am_step lo hi s)) as M.
  assert (G : forall g, Mean lo hi g -> 0 < vol g 2%Z ->
     lo <= r_t_in (report_of n last g) <= hi /\
     r_t_in (report_of n last g) * r_m3_in (report_of n last g) == temp g 2%Z).
  { intros g [A B] P. unfold report_of. cbv zeta. cbn [r_t_in r_m3_in]. unfold c_in, mean_in.
    rewrite (qlt_true _ _ P). split; [split |].
    - apply Qle_shift_div_l; assumption.
    - apply Qle_shift_div_r; assumption.
    - field. intros C. rewrite C in P. lra. }
  destruct M as (M1 & M2 & M3 & M4 & M5 & M6).
  split; [apply G, M1 |]. split; [apply G, M2 |]. intros i.
  split; [apply G, M3 |]. split; [apply G, M4 |]. split; [apply G, M5 | apply G, M6].
Qed.
Print Assumptions C91_between.

(** Two inputs into hillslope 1, at 10 and 20 degrees. *)
Definition shower (t v : Q) : event :=
  EUpdate {| indx := 3%Z; totvol := v; imetric := 2; conc := fun _ => 2 # 1000; apH := 7; tempc := t;
             tally := tb; mrubnd := true; basbnd := true; restype := 1; react := false; is_ := 1%Z;
             ia_ := 0%Z; ih_ := 0%Z |}.
Example C91_case :
  let l := [shower 10 1; shower 20 3] in
  Forall (Mild 10 20) l /\
  r_t_in (report_of 1 0 (mru (history k1 l (new_step nothing)) 1%Z)) == 35 # 2.
Proof.
  split; [| vm_compute; reflexivity].
  repeat (apply Forall_cons || apply Forall_nil); cbn [Mild shower]; intros _; cbn [totvol tempc]; lra.
Qed.

(** The outflow is not averaged like that: groundwater lost from a hillslope is added to the volume
    but not to the temperature (8784-8798), so a hillslope that loses nothing but groundwater
    reports an outflow at 0 degrees, whatever the temperature of the groundwater. *)
Theorem C91_out_refuted : forall k s i v t p cs n last,
  (0 < v) ->
  let g := mru (history k [EGround false i v t p cs] (new_step s)) i in
  r_m3_out (report_of n last g) == v /\
  exists x, r_t_out (report_of n last g) = Some x /\ x == 0.
Proof.
  intros k s i v t p cs n last V. cbv zeta. unfold history. cbn [fold_left act]. unfold ground. cbv zeta.
  cbn [mru on_bas on_mru]. rewrite upd_same.
  set (g := fold_left _ (solutes k) _).
  destruct (fold_mol_keeps c_out cs v (solutes k) (add_vol c_out v (mru (new_step s) i))) as [A B].
  fold g in A, B.
  assert (V3 : vol g 3%Z == v).
  { rewrite A. unfold c_out. cbn [vol add_vol set_vol]. rewrite upd_same.
    unfold new_step, fresh. cbn [mru vol Z.eqb Pos.eqb]. ring. }
  assert (T3 : temp g 3%Z == 0).
  { rewrite B. cbn [temp add_vol set_vol]. unfold new_step, fresh. cbn [mru temp]. reflexivity. }
  unfold report_of. cbv zeta. cbn [r_m3_out r_t_out]. unfold c_out.
  split; [exact V3 |]. unfold over.
  assert (NZ : Qeq_bool (vol g 3%Z) 0 = false) by (apply qeq_false; rewrite V3; lra).
  rewrite NZ. exists (temp g 3%Z / vol g 3%Z). split; [reflexivity |]. rewrite T3. reflexivity.
Qed.
Print Assumptions C91_out_refuted.

(** The final temperature of a hillslope is weighted with the wrong volumes: a reservoir that
    exports v m3 and keeps r m3 enters v times its temperature, and r in the volume (10684 and
    10826-10845).  A hillslope with one such reservoir reports the temperature times v / r. *)
Theorem C91_final_refuted : forall k e v0 ev r n last,
  imetric e = 3%Z -> react e = true -> restype e = 1%Z -> ih_ e = 0%Z -> 0 < r ->
  exists x,
    r_t_fin (report_of n last
      (mru (history k [EPreset (indx e) v0 ev r; EUpdate e] nothing) (is_ e))) = Some x /\
    x == tempc e * totvol e / r.
Proof.
  intros k e v0 ev r n last M R T I P. unfold history. cbn [fold_left act].
  assert (C : column e = 3%Z) by (unfold column; rewrite M; reflexivity).
  assert (ST : is_stream e = false) by (unfold is_stream; rewrite T; reflexivity).
  assert (UZ' : is_unsat e = false) by (unfold is_unsat, is_mru; rewrite T; reflexivity).
  set (s := preset (indx e) v0 ev r nothing).
  assert (KT : vol (mru (update_chem k s e) (is_ e)) 5%Z == r /\
               temp (mru (update_chem k s e) (is_ e)) 5%Z == tempc e * totvol e).
  { assert (MR : vol (cc s (indx e)) 5%Z = r) by (unfold s, preset; rewrite cc_same; reflexivity).
    destruct (mru_update k s e C R ST UZ') as [A B]. rewrite A, B, MR.
    unfold s, preset, nothing, empty. cbn [mru on_cc vol temp]. split; ring. }
  destruct KT as [KV KT]. unfold report_of. cbv zeta. cbn [r_t_fin]. unfold over, c_fin.
  assert (NZ : Qeq_bool (vol (mru (update_chem k s e) (is_ e)) 5%Z) 0 = false)
    by (apply qeq_false; rewrite KV; lra).
  rewrite NZ. eexists. split; [reflexivity |]. rewrite KV, KT. reflexivity.
Qed.
Print Assumptions C91_final_refuted.

Example C91_final_case :
  r_t_fin (report_of 1 0 (mru (history k1 [EPreset 14 9 0 4;
     EUpdate {| indx := 14%Z; totvol := 2; imetric := 3; conc := fun _ => 2 # 1000; apH := 7; tempc := 10;
                tally := tb; mrubnd := true; basbnd := false; restype := 1; react := true; is_ := 1%Z;
                ia_ := 0%Z; ih_ := 0%Z |}] nothing) 1%Z)) = Some (20 # 4).
Proof. vm_compute. reflexivity. Qed.

(** The final concentration of a step is the quotient of the moles of the step before by the volume
    of this step (9521 comes before 9525); the first report divides what the variable held before
    the run. *)
Theorem C91_stale_refuted : forall n last l g g' l',
  ~ vol g' 5%Z == 0 ->
  exists r r' x, nth_error (reports n last (l ++ g :: g' :: l')) (length l) = Some r /\
    nth_error (reports n last (l ++ g :: g' :: l')) (S (length l)) = Some r' /\
    r_M_fin r' = mol g' n 5%Z /\
    r_mML_fin r' = Some x /\ x * vol g' 5%Z == mol g n 5%Z /\ r_M_fin r = mol g n 5%Z.
Proof.
  intros n last l g g' l' H. revert last. induction l as [| a l IH]; intros last.
  - exists (report_of n last g), (report_of n (mol g n 5%Z) g'), (mol g n 5%Z / vol g' 5%Z).
    split; [reflexivity |]. split; [reflexivity |]. split; [reflexivity |].
    split. { unfold report_of. cbv zeta. cbn [r_mML_fin]. unfold over, c_fin. destruct (Qeq_bool (vol g' 5%Z) 0) eqn:E; [apply Qeq_bool_iff in E; contradiction | reflexivity]. }
    split; [field; exact H | reflexivity].
  - destruct (IH (r_M_fin (report_of n last a))) as (r & r' & x & A). exists r, r', x. exact A.
Qed.
Print Assumptions C91_stale_refuted.
Example C91_stale_case :
  map r_mML_fin (reports 1 0 [set_vol 5 2 (set_mol 1 5 10 empty); set_vol 5 4 (set_mol 1 5 8 empty)])
  = [Some (0 # 2); Some (10 # 4)].
Proof. vm_compute. reflexivity. Qed.

(** Variables chosen by the user: the same amount as moles or mass, per area and per volume. *)
Theorem C91_units : forall g n met conv area u1 u2 u3,
  (1 <= u1 <= 3)%Z -> (4 <= u2 <= 6)%Z -> (7 <= u3 <= 12)%Z -> 0 < area -> 0 < var_vol g met ->
  exists x y z, var_sol g n met u1 conv area = VQ x /\ var_sol g n met u2 conv area = VQ y /\
    var_sol g n met u3 conv area = VQ z /\
    x == (if (met =? 6)%Z then mol g n 5%Z - mol g n 1%Z else mol g n met) * conv /\
    y * area == x /\ z * var_vol g met * 1000 == x.
Proof.
  intros g n met conv area u1 u2 u3 U1 U2 U3 A V.
  assert (E1 : (Z.quot (u1 - 1) 3 + 1)%Z = 1%Z) by (rewrite Z.quot_small by lia; reflexivity).
  assert (E2 : (Z.quot (u2 - 1) 3 + 1)%Z = 2%Z).
  { rewrite Z.quot_div_nonneg by lia. replace (u2 - 1)%Z with (u2 - 4 + 1 * 3)%Z by lia.
    rewrite Z.div_add, Z.div_small by lia. reflexivity. }
  assert (E3 : (3 <= Z.quot (u3 - 1) 3 + 1 < 5)%Z).
  { rewrite Z.quot_div_nonneg by lia.
    assert (2 <= (u3 - 1) / 3 < 4)%Z; [| lia]. split; [apply Z.div_le_lower_bound; lia |].
    apply Z.div_lt_upper_bound; lia. }
  unfold var_sol. cbv zeta. rewrite E1, E2, (qlt_true _ _ A), (qlt_true _ _ V).
  replace (Z.quot (u3 - 1) 3 + 1 =? 1)%Z with false by lia.
  replace (Z.quot (u3 - 1) 3 + 1 =? 2)%Z with false by lia.
  replace (Z.quot (u3 - 1) 3 + 1 <? 5)%Z with true by lia. cbn [Z.eqb Pos.eqb].
  do 3 eexists. split; [reflexivity |]. split; [reflexivity |]. split; [reflexivity |].
  split; [unfold var_mol; reflexivity |].
  split; field; intros C; [rewrite C in A | rewrite C in V]; lra.
Qed.
Print Assumptions C91_units.

(** A variable for the net change (metric 6) reads the temperature and the pH beyond the end of
    their arrays (11084-11085), which have five elements. *)
Theorem C91_net_refuted : forall g, var_temp g 6 = VOut /\ var_pH g 6 = VOut.
Proof. intros g. split; reflexivity. Qed.
Print Assumptions C91_net_refuted.

(** The temperature of inputs in such a variable is not a temperature: after one input of v m3
    at t degrees into a reservoir the variable is t times v. *)
Theorem C91_vartemp_refuted : forall k s e,
  imetric e = 2%Z -> react e = false ->
  exists x, var_temp (cc (update_chem k (new_step s) e) (indx e)) 2 = VQ x /\ x == tempc e * totvol e.
Proof.
  intros k s e M R. unfold update_chem. cbv zeta. rewrite R.
  assert (C : column e = 2%Z) by (unfold column; rewrite M; reflexivity).
  match goal with |- context [book_mass k e ?x] => pose proof (mass_keep k e x (indx e)) as A end.
  cbv zeta in A. destruct A as (_ & A & _).
  pose proof (solute_fold_keep k e (moved (new_step s) e) (indx e) (solutes k) (book_water k e (new_step s), 0%Z)) as B.
  cbv zeta in B. destruct B as ((_ & B & _) & _). cbn [fst] in B.
  unfold var_temp, at5. cbn [Z.leb Z.compare Pos.compare Pos.compare_cont andb].
  eexists. split; [reflexivity |]. rewrite A, B. unfold book_water. cbv zeta. rewrite cc_into, cc_same.
  unfold moved, is_flow. rewrite C. cbn [Z.eqb Pos.eqb orb].
  cbn [temp add_pH set_pH add_temp set_temp add_vol set_vol]. rewrite upd_same.
  unfold new_step, fresh_cc, fresh. cbn [cc temp Z.eqb Pos.eqb]. ring.
Qed.
Print Assumptions C91_vartemp_refuted.
