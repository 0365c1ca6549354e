(** Proofs about packing. *)
From Coq Require Import String Ascii List ZArith QArith Bool Lia Sorting.Sorted.
From Verif Require Import CStr_Model Map_Model Pack_Model Pack_Spec.
Import ListNotations.
Local Open Scope string_scope.
Local Open Scope list_scope.
Local Open Scope Z_scope.

(** ** Dictionary *)
Lemma place_nth ws w n : place ws w = Some n -> nth_error ws n = Some w.
Proof. revert n. induction ws as [|x r IH]; intros n; cbn; [discriminate|]. destruct (String.eqb x w) eqn:E; [intros H; injection H as <-; apply String.eqb_eq in E; subst; reflexivity|]. destruct (place r w) as [m|]; [|discriminate]. intros H; injection H as <-. apply IH. reflexivity. Qed.
Lemma place_none ws w : place ws w = None <-> ~ In w ws.
Proof.
  induction ws as [|x r IH]; cbn; [split; [tauto|reflexivity]|]. destruct (String.eqb x w) eqn:E.
  - apply String.eqb_eq in E. split; [discriminate|]. intros H. elim H. left. exact E.
  - apply String.eqb_neq in E. destruct (place r w); [split; [discriminate|]; intros H; assert (X : ~ In w r) by tauto; apply IH in X; discriminate|]. split; [|reflexivity]. intros _ [X | X]; [contradiction|]. apply IH; [reflexivity|exact X].
Qed.
Lemma find_at ws w : exists x, snd (dict_find ws w) = ws ++ x /\ 0 <= fst (dict_find ws w) /\ nth_error (ws ++ x) (Z.to_nat (fst (dict_find ws w))) = Some w.
Proof.
  unfold dict_find. destruct (place ws w) as [n|] eqn:E; cbn [fst snd].
  - exists []. rewrite app_nil_r, Nat2Z.id. split; [reflexivity|]. split; [lia|apply place_nth; exact E].
  - exists [w]. rewrite Nat2Z.id. split; [reflexivity|]. split; [lia|]. rewrite nth_error_app2, Nat.sub_diag by lia. reflexivity.
Qed.

(** ** Writing and reading *)
(** [codes s d x]: what [s] appends is read back by [d] as [x], whatever is before and behind. *)
Definition codes {A} (s : buf -> buf) (d : rd A) (x : A) : Prop :=
  forall b, exists w i q, s b = mkBuf (words b ++ w) (ints b ++ i) (dbls b ++ q) /\
    forall w2 i2 q2, d (mkBuf (words b ++ w ++ w2) (ints b ++ i ++ i2) (dbls b ++ q ++ q2)) (length (ints b), length (dbls b)) = Ret (x, (length (ints b) + length i, length (dbls b) + length q)%nat).
Lemma codes_done {A} (x : A) : codes nothing (done x) x.
Proof. intros b. exists [], [], []. rewrite !app_nil_r. split; [destruct b; reflexivity|]. intros. unfold done. cbn. rewrite !Nat.add_0_r. reflexivity. Qed.
Lemma codes_then {A B} s t (m : rd A) (k : A -> rd B) x y : codes s m x -> codes t (k x) y -> codes (s ;; t) (andthen m k) y.
Proof.
  intros H1 H2 b. destruct (H1 b) as (w & i & q & E1 & R1). destruct (H2 (s b)) as (w' & i' & q' & E2 & R2). rewrite E1 in E2, R2. cbn [words ints dbls] in E2, R2.
  exists (w ++ w'), (i ++ i'), (q ++ q'). split; [unfold seq; rewrite E1, E2, !app_assoc; reflexivity|]. intros w2 i2 q2. unfold andthen. rewrite <- !app_assoc, R1. cbn [bind fst snd]. specialize (R2 w2 i2 q2). rewrite <- !app_assoc, !app_length in R2. rewrite R2, !app_length, !Nat.add_assoc. reflexivity.
Qed.
Lemma codes_map {A B} s (m : rd A) (f : A -> B) x : codes s m x -> codes s (get a <- m; done (f a)) (f x).
Proof. intros H b. destruct (H b) as (w & i & q & E & R). exists w, i, q. split; [exact E|]. intros. unfold andthen. rewrite R. reflexivity. Qed.
(** The last writer of a sequence. *)
Lemma codes_last {A B} s (m : rd A) (k : A -> rd B) x y : codes s m x -> k x = done y -> codes s (andthen m k) y.
Proof. intros H K b. destruct (H b) as (w & i & q & E & R). exists w, i, q. split; [exact E|]. intros. unfold andthen. rewrite R. cbn [bind fst snd]. rewrite K. reflexivity. Qed.
Lemma codes_i n : codes (push_i n) get_i n.
Proof. intros b. exists [], [n], []. rewrite !app_nil_r. split; [reflexivity|]. intros. unfold get_i. cbn [ints fst snd]. rewrite nth_error_app2, Nat.sub_diag by lia. cbn. rewrite !Nat.add_0_r. f_equal. f_equal. f_equal. lia. Qed.
Lemma codes_d x : codes (push_d x) get_d x.
Proof. intros b. exists [], [], [x]. rewrite !app_nil_r. split; [reflexivity|]. intros. unfold get_d. cbn [dbls fst snd]. rewrite nth_error_app2, Nat.sub_diag by lia. cbn. rewrite !Nat.add_0_r. f_equal. f_equal. f_equal. lia. Qed.
Lemma codes_flag f : codes (push_flag f) get_flag f.
Proof. unfold push_flag, get_flag. eapply codes_last; [apply codes_i|]. destruct f; reflexivity. Qed.
Lemma codes_word w : codes (push_word w) get_word w.
Proof.
  intros b. unfold push_word. destruct (find_at (words b) w) as (x & E & P & N). destruct (dict_find (words b) w) as [n ws]. cbn [fst snd] in *. subst ws. exists x, [n], []. split; [unfold push_i; cbn; rewrite app_nil_r; reflexivity|].
  intros. unfold get_word, andthen, get_i. cbn [ints fst snd]. rewrite nth_error_app2, Nat.sub_diag by lia. cbn [nth_error app bind fst snd]. unfold word_at. replace (n <? 0) with false by lia. cbn [words]. rewrite app_assoc, nth_error_app1 by (apply nth_error_Some; rewrite N; discriminate). rewrite N. cbn. rewrite !Nat.add_0_r. f_equal. f_equal. f_equal. lia.
Qed.
Lemma codes_times {A} (f : A -> buf -> buf) (m : rd A) (g : A -> A) l : Forall (fun x => codes (f x) m (g x)) l -> codes (push_all f l) (get_times (length l) m) (map g l).
Proof. induction 1 as [|x l H HL IH]; [apply codes_done|]. change (push_all f (x :: l)) with (f x ;; push_all f l). cbn [length get_times map]. eapply codes_then; [exact H|]. eapply codes_last; [exact IH|reflexivity]. Qed.
Lemma codes_list_to {A} (f : A -> buf -> buf) (m : rd A) (g : A -> A) l : Forall (fun x => codes (f x) m (g x)) l -> codes (push_size l ;; push_all f l) (get_list m) (map g l).
Proof. intros H. unfold get_list, push_size. eapply codes_then; [apply codes_i|]. rewrite Nat2Z.id. apply codes_times. exact H. Qed.
Lemma codes_list {A} (f : A -> buf -> buf) (m : rd A) l : Forall (fun x => codes (f x) m x) l -> codes (push_size l ;; push_all f l) (get_list m) l.
Proof. intros H. pose proof (codes_list_to f m (fun x => x) l H) as C. rewrite map_id in C. exact C. Qed.
(** Entries arriving in order go to the end. *)
Lemma insert_last {K A} (cmp : K -> K -> comparison) (opp : forall a b, cmp a b = Lt -> cmp b a = Gt) k (x : A) m : Forall (fun e => cmp (fst e) k = Lt) m -> insert cmp k x m = m ++ [(k, x)].
Proof. induction 1 as [|[n y] r H HL IH]; [reflexivity|]. cbn in *. rewrite (opp _ _ H), IH. reflexivity. Qed.
Lemma increasing_step {K A} (cmp : K -> K -> comparison) (acc : list (K * A)) e l : increasing cmp (acc ++ e :: l) -> Forall (fun a => cmp (fst a) (fst e) = Lt) acc.
Proof. unfold increasing. induction acc as [|a acc IH]; cbn [app]; intros H; [constructor|]. inversion H as [|? ? H1 H2]; subst. constructor; [|apply IH; exact H1]. rewrite Forall_app in H2. destruct H2 as [_ H2]. inversion H2; assumption. Qed.
Lemma codes_entries {K A} (cmp : K -> K -> comparison) (opp : forall a b, cmp a b = Lt -> cmp b a = Gt) (f : K * A -> buf -> buf) (m : rd (K * A)) l : forall acc,
  Forall (fun e => codes (f e) m e) l -> increasing cmp (acc ++ l) -> codes (push_all f l) (get_entries cmp (length l) m acc) (acc ++ l).
Proof.
  induction l as [|e l IH]; intros acc H I; [cbn; rewrite app_nil_r; apply codes_done|]. inversion H as [|? ? H1 H2]; subst. change (push_all f (e :: l)) with (f e ;; push_all f l). cbn [length get_entries]. eapply codes_then; [exact H1|].
  pose proof (increasing_step _ _ _ _ I) as S1. rewrite (insert_last cmp opp _ _ _ S1). replace (fst e, snd e) with e by (destruct e; reflexivity). replace (acc ++ e :: l) with ((acc ++ [e]) ++ l) in I |- * by (rewrite <- app_assoc; reflexivity). apply IH; assumption.
Qed.
Lemma codes_mapping {K A} (cmp : K -> K -> comparison) (opp : forall a b, cmp a b = Lt -> cmp b a = Gt) (f : K * A -> buf -> buf) (m : rd (K * A)) l :
  Forall (fun e => codes (f e) m e) l -> increasing cmp l -> codes (push_size l ;; push_all f l) (get_map cmp m) l.
Proof. intros H I. unfold get_map, push_size. eapply codes_then; [apply codes_i|]. rewrite Nat2Z.id. apply (codes_entries cmp opp f m l []); assumption. Qed.
Lemma string_opp a b : String.compare a b = Lt -> String.compare b a = Gt.
Proof. intros H. rewrite String.compare_antisym, H. reflexivity. Qed.
Lemma z_opp a b : Z.compare a b = Lt -> Z.compare b a = Gt.
Proof. intros H. rewrite Z.compare_antisym, H. reflexivity. Qed.
Lemma q_opp a b : Qcompare a b = Lt -> Qcompare b a = Gt.
Proof. unfold Qcompare. apply z_opp. Qed.
Lemma codes_nd_loop l : forall acc, increasing String.compare (acc ++ l) -> Forall (fun e => fst e <> "") l ->
  codes (push_all (fun e => push_word (fst e) ;; push_d (snd e)) l) (nd_loop (length l) acc) (acc ++ l).
Proof.
  induction l as [|[w x] l IH]; intros acc I N; [cbn; rewrite app_nil_r; apply codes_done|]. inversion N as [|? ? N1 N2]; subst.   assert (X : codes (push_word w ;; (push_d x ;; push_all (fun e => push_word (fst e) ;; push_d (snd e)) l)) (nd_loop (S (length l)) acc) (acc ++ (w, x) :: l)).
  { cbn [nd_loop]. eapply codes_then; [apply codes_word|]. cbn in N1. apply String.eqb_neq in N1. rewrite N1. eapply codes_then; [apply codes_d|].
    pose proof (increasing_step _ _ _ _ I) as S1. rewrite (insert_last String.compare string_opp _ _ _ S1). replace (acc ++ (w, x) :: l) with ((acc ++ [(w, x)]) ++ l) in I |- * by (rewrite <- app_assoc; reflexivity). apply IH; assumption. }
  exact X.
Qed.
Lemma codes_nd x : names_ok x -> codes (nd_ser x) nd_des x.
Proof. intros [I N]. unfold nd_ser, nd_des, push_size. eapply codes_then; [apply codes_i|]. rewrite Nat2Z.id. apply (codes_nd_loop x []); assumption. Qed.
Lemma codes_zm x : increasing Z.compare x -> codes (zm_ser x) zm_des x.
Proof.
  intros I. unfold zm_ser, zm_des. apply codes_mapping; [exact z_opp| |exact I]. apply Forall_forall. intros [k q] _. cbn [fst snd]. eapply codes_then; [apply codes_i|]. eapply codes_last; [apply codes_d|reflexivity].
Qed.
Lemma codes_dl l : codes (dl_ser l) dl_des l.
Proof. unfold dl_ser, dl_des. apply codes_list. apply Forall_forall. intros x _. apply codes_d. Qed.
Lemma seq_assoc f g h : forall b, ((f ;; g) ;; h) b = (f ;; (g ;; h)) b.
Proof. reflexivity. Qed.
(** Sequences of a size, its entries and the rest. *)
Lemma codes_assoc {A} f g h (d : rd A) x : codes ((f ;; g) ;; h) d x -> codes (f ;; (g ;; h)) d x.
Proof. exact (fun H => H). Qed.

Ltac prim := first [apply codes_i | apply codes_d | apply codes_flag | apply codes_word | apply codes_nd; assumption | apply codes_zm; assumption | apply codes_dl | eassumption].
Ltac fields := repeat first [eapply codes_last; [prim|reflexivity] | eapply codes_then; [prim|] ].

Lemma codes_iso x : codes (iso_ser x) iso_des x.
Proof. unfold iso_ser, iso_des. destruct x as [a b c d e f g h i]; cbn [iso_number iso_elt iso_name iso_total iso_ratio iso_unc iso_unc_defined iso_x iso_coef]. fields. Qed.
Definition sol_out (x : solution) : solution :=
  mkSol (renumbered "  " (sol_key x)) (sol_new x) (patm x) (potV x) (tc x) (ph x) (pe x) (mu x) (ah2o x) (total_h x) (total_o x) (cb x) (mass_water x) (density x)
        (viscosity x) 1 (soln_vol x) (alkalinity x) (sol_totals x) (activities x) (gammas x) (isotopes x) (species x) (log_gammas x) (log_molalities x).
Lemma codes_sol x : solution_ok x -> codes (sol_ser x) sol_des (sol_out x).
Proof.
  intros (A & B & C & D & E & F & G). unfold sol_ser, sol_des.
  assert (ISO : codes (push_size (isotopes x) ;; push_all (fun e => push_word (fst e) ;; iso_ser (snd e)) (isotopes x)) (get_map String.compare (get s <- get_word; get y <- iso_des; done (s, y))) (isotopes x)).
  { apply codes_mapping; [exact string_opp| |exact D]. apply Forall_forall. intros [s y] _. cbn [fst snd]. eapply codes_then; [apply codes_word|]. eapply codes_last; [apply codes_iso|reflexivity]. }
  do 20 (eapply codes_then; [prim|]). apply codes_assoc. fields.
Qed.
Lemma codes_ec x : names_ok (ec_totals x) -> codes (ec_ser x) ec_des x.
Proof. destruct x as [a b c d e f g h]. unfold ec_ser, ec_des. cbn [ec_formula ec_totals ec_la ec_cb ec_phase ec_prop ec_rate ec_z]. intros H. fields. Qed.
Definition ex_out (x : exchange) : exchange := mkExch (renumbered " " (ex_key x)) (ex_comps x) (ex_pitzer x) (ex_new x) (ex_equil x) (ex_n x) (ex_totals x).
Lemma codes_ex x : exchange_ok x -> codes (ex_ser x) ex_des (ex_out x).
Proof.
  intros [A B]. unfold ex_ser, ex_des. pose proof (codes_list ec_ser ec_des (ex_comps x) (Forall_impl _ codes_ec B)) as L. eapply codes_then; [prim|]. apply codes_assoc. fields.
Qed.
Lemma codes_gc x : codes (gc_ser x) gc_des x.
Proof. destruct x as [a b c d e f g]. unfold gc_ser, gc_des. cbn [gc_name gc_moles gc_pread gc_init gc_p gc_phi gc_f]. fields. Qed.
Definition gp_out (x : gas_phase) : gas_phase :=
  mkGas (renumbered " " (gp_key x)) (gp_volume_type x) (gp_total_p x) (gp_volume x) (gp_comps x) (gp_new x) (gp_equil x) (gp_n x) (gp_temp x) (gp_moles x) (gp_vm x) (gp_pr x) (gp_totals x).
Lemma codes_gp x : gas_ok x -> codes (gp_ser x) gp_des (gp_out x).
Proof.
  intros A. unfold gas_ok in A. unfold gp_ser, gp_des. assert (L : codes (push_size (gp_comps x) ;; push_all gc_ser (gp_comps x)) (get_list gc_des) (gp_comps x)) by (apply codes_list; apply Forall_forall; intros y _; apply codes_gc).
  do 4 (eapply codes_then; [prim|]). apply codes_assoc. do 8 (eapply codes_then; [prim|]). eapply codes_last; [prim|]. unfold gp_out. destruct (gp_volume_type x); reflexivity.
Qed.
Lemma codes_kc x : names_ok (kc_coef x) /\ names_ok (kc_reaction x) -> codes (kc_ser x) kc_des x.
Proof. destruct x as [a b c d e f g h i]. unfold kc_ser, kc_des. cbn [kc_rate kc_coef kc_tol kc_m kc_m0 kc_params kc_moles kc_init kc_reaction]. intros [A B]. fields. Qed.
Definition ki_out (x : kinetics) : kinetics :=
  mkKin (renumbered " " (ki_key x)) (ki_comps x) (ki_steps x) (ki_count x) (ki_equal x) (ki_divide x) (ki_rk x) (ki_bad x) (ki_cvode x) (ki_csteps x) (ki_corder x) (ki_totals x).
Lemma codes_ki x : kinetics_ok x -> codes (ki_ser x) ki_des (ki_out x).
Proof.
  intros [A B]. unfold ki_ser, ki_des. pose proof (codes_list kc_ser kc_des (ki_comps x) (Forall_impl _ codes_kc B)) as L. eapply codes_then; [prim|]. apply codes_assoc. fields.
Qed.
Lemma codes_pc x : names_ok (pc_totals x) -> codes (pc_ser x) pc_des x.
Proof. destruct x as [a b c d e f g h i j k]. unfold pc_ser, pc_des. cbn [pc_name pc_add pc_si pc_si_org pc_moles pc_delta pc_init pc_force pc_dissolve pc_precip pc_totals]. intros H. fields. Qed.
Definition pp_out (x : pp) : pp := mkPp (renumbered " " (pp_key x)) (pp_new x) (pp_comps x) (pp_elts x) (pp_totals x).
Lemma codes_pp x : pp_ok x -> codes (pp_ser x) pp_des (pp_out x).
Proof.
  intros (A & B & [C1 C2] & D). unfold pp_ser, pp_des.
  assert (L : codes (push_size (pp_comps x) ;; push_all (fun e => pc_ser (snd e)) (pp_comps x)) (get_map String.compare (get y <- pc_des; done (pc_name y, y))) (pp_comps x)).
  { apply codes_mapping; [exact string_opp| |exact C1]. rewrite Forall_forall in C2, D |- *. intros [k y] H. specialize (C2 _ H). specialize (D _ H). cbn [fst snd] in *. subst k. eapply codes_last; [apply codes_pc; exact D|reflexivity]. }
  do 2 (eapply codes_then; [prim|]). apply codes_assoc. fields.
Qed.
Lemma codes_sc x : codes (sc_ser x) sc_des x.
Proof. destruct x as [a b c d e f g h i j k]. unfold sc_ser, sc_des. cbn [sc_name sc_moles sc_initial sc_init sc_delta sc_x sc_lambda sc_logx sc_dn sc_dnc sc_dnb]. fields. Qed.
Lemma codes_ss x : names_ok (ss_totals x) -> codes (ss_ser x) ss_des x.
Proof.
  destruct x as [a b c d e f g h i j k l m n o p q]. unfold ss_ser, ss_des. cbn [ss_name ss_ag0 ss_ag1 ss_comps ss_a0 ss_a1 ss_misc ss_spin ss_tk ss_xb1 ss_xb2 ss_case ss_p ss_moles ss_dn ss_in ss_totals]. intros H.
  assert (L : codes (push_size d ;; push_all sc_ser d) (get_list sc_des) d) by (apply codes_list; apply Forall_forall; intros y _; apply codes_sc). do 3 (eapply codes_then; [prim|]). apply codes_assoc. fields.
Qed.
Definition sa_out (x : ssa) : ssa := mkSsa (renumbered " " (sa_key x)) (sa_sss x) (sa_new x) (sa_totals x).
Lemma codes_sa x : ssa_ok x -> codes (sa_ser x) sa_des (sa_out x).
Proof.
  intros (A & [C1 C2] & D). unfold sa_ser, sa_des.
  assert (L : codes (push_size (sa_sss x) ;; push_all (fun e => ss_ser (snd e)) (sa_sss x)) (get_map String.compare (get y <- ss_des; done (ss_name y, y))) (sa_sss x)).
  { apply codes_mapping; [exact string_opp| |exact C1]. rewrite Forall_forall in C2, D |- *. intros [k y] H. specialize (C2 _ H). specialize (D _ H). cbn [fst snd] in *. subst k. eapply codes_last; [apply codes_ss; exact D|reflexivity]. }
  eapply codes_then; [prim|]. apply codes_assoc. fields.
Qed.
Lemma codes_su x : names_ok (su_totals x) -> codes (su_ser x) su_des x.
Proof. destruct x as [a b c d e f g h i j k l]. unfold su_ser, su_des. cbn [su_formula su_z su_moles su_totals su_la su_charge su_cb su_phase su_prop su_rate su_dw su_master]. intros H. fields. Qed.
Lemma codes_sdl x : codes (sdl_ser x) sdl_des x.
Proof. destruct x as [a b c]. unfold sdl_ser, sdl_des. cbn [dl_g dl_dg dl_psi]. fields. Qed.
Definition ch_out (c : surf_charge) : surf_charge :=
  mkCh (ch_name c) (ch_area c) (ch_grams c) (ch_cb c) (ch_water c) (ch_visc c) (ch_free c) (ch_psi c) (ch_cap0 c) (ch_cap1 c) (ch_totals c) (ch_s0 c) (ch_s1 c) (ch_s2 c)
       (ch_sddl c) (ch_g c) [] (ch_species c).
Lemma codes_ch x : names_ok (ch_totals x) /\ increasing Qcompare (ch_g x) /\ increasing Z.compare (ch_species x) -> codes (ch_ser x) ch_des (ch_out x).
Proof.
  intros (A & B & C). unfold ch_ser, ch_des.
  assert (L : codes (push_size (ch_g x) ;; push_all (fun e => push_d (fst e) ;; sdl_ser (snd e)) (ch_g x)) (get_map Qcompare (get k <- get_d; get x <- sdl_des; done (k, x))) (ch_g x)).
  { apply codes_mapping; [exact q_opp| |exact B]. apply Forall_forall. intros [k y] _. cbn [fst snd]. eapply codes_then; [apply codes_d|]. eapply codes_last; [apply codes_sdl|reflexivity]. }
  do 15 (eapply codes_then; [prim|]). apply codes_assoc. fields.
Qed.
Definition sf_out (x : surface) : surface :=
  mkSurf (renumbered " " (sf_key x)) (sf_comps x) (map ch_out (sf_charges x)) (sf_new x) (sf_tidied x) (sf_type x) (sf_dl x) (sf_units x) (sf_counter x) (sf_thick x) (sf_debye x)
        (sf_visc x) false (sf_limit x) (sf_correct x) (sf_transport x) (sf_totals x) (sf_equil x) (sf_n x).
Lemma codes_sf x : surface_ok x -> codes (sf_ser x) sf_des (sf_out x).
Proof.
  intros (A & B & C). unfold sf_ser, sf_des. pose proof (codes_list su_ser su_des (sf_comps x) (Forall_impl _ codes_su B)) as L. pose proof (codes_list_to ch_ser ch_des ch_out (sf_charges x) (Forall_impl _ codes_ch C)) as L2.
  eapply codes_then; [prim|]. apply codes_assoc. eapply codes_then; [exact L|]. apply codes_assoc. eapply codes_then; [exact L2|]. fields.
Qed.
Definition st_out (x : steps) : steps := mkSteps (renumbered " " (st_key x)) (st_values x) (st_count x) (st_equal x).
Lemma codes_st x : codes (st_ser x) st_des (st_out x).
Proof. unfold st_ser, st_des. fields. Qed.
