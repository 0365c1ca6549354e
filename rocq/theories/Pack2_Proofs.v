(** Proofs about packing, continued: whole systems and dictionaries. *)
From Coq Require Import String Ascii List ZArith QArith Bool Lia Sorting.Sorted.
From Verif Require Import CStr_Model Map_Model Pack_Model Pack_Spec Pack_Proofs.
Import ListNotations.
Local Open Scope string_scope.
Local Open Scope list_scope.
Local Open Scope Z_scope.

(** ** Items *)
Record item := mkItem { it_code : Z; it_ser : buf -> buf; it_eff : system -> system }.
Definition good_item (t : item) : Prop := forall s, codes (it_ser t) (receive s (it_code t)) (it_eff t s).
Definition it_write (t : item) : buf -> buf := push_i (it_code t) ;; it_ser t.
Definition effects (l : list item) (s : system) : system := fold_left (fun s t => it_eff t s) l s.
Lemma unpack_items its : Forall good_item its -> forall b s, exists w i q, push_all it_write its b = mkBuf (words b ++ w) (ints b ++ i) (dbls b ++ q) /\ (length its <= length i)%nat /\
  forall fuel w2, (length its < fuel)%nat -> unpack fuel s (mkBuf (words b ++ w ++ w2) (ints b ++ i) (dbls b ++ q)) (length (ints b), length (dbls b)) = Ret (effects its s).
Proof.
  induction 1 as [|t its H HL IH]; intros b s.
  - exists [], [], []. rewrite !app_nil_r. split; [destruct b; reflexivity|]. split; [cbn; lia|]. intros [|fuel] w2 F; [cbn in F; lia|]. cbn [unpack fst ints]. rewrite Nat.ltb_irrefl. reflexivity.
  - destruct (H s (push_i (it_code t) b)) as (w & i & q & E & R). destruct (IH (it_write t b) (it_eff t s)) as (w' & i' & q' & E' & L' & R').
    assert (EW : it_write t b = mkBuf (words b ++ w) (ints b ++ it_code t :: i) (dbls b ++ q)). { unfold it_write, seq. rewrite E. cbn [push_i words ints dbls]. rewrite <- app_assoc. reflexivity. }
    rewrite EW in E', R'. cbn [words ints dbls] in E', R'.
    exists (w ++ w'), (it_code t :: i ++ i'), (q ++ q'). split; [|split].
    + change (push_all it_write (t :: its) b) with (push_all it_write its (it_write t b)). rewrite EW, E', <- !app_assoc. reflexivity.
    + cbn [length]. rewrite app_length. lia.
    + intros [|fuel] w2 F; [cbn in F; lia|]. cbn [unpack fst ints]. replace (Nat.ltb _ _) with true by (symmetry; apply Nat.ltb_lt; rewrite app_length; cbn; lia).
      unfold andthen at 1. unfold get_i at 1. cbn [ints fst snd]. rewrite nth_error_app2, Nat.sub_diag by lia. cbn [nth_error bind fst snd].
      specialize (R (w' ++ w2) i' q'). cbn [push_i words ints dbls] in R. rewrite app_length in R. cbn [length] in R. replace (length (ints b) + 1)%nat with (S (length (ints b))) in R by lia.
      rewrite <- !app_assoc in *. cbn [app] in R. rewrite R. cbn [bind fst snd]. specialize (R' fuel w2). rewrite <- !app_assoc, !app_length in R'. cbn [length app] in R'. replace (S (length (ints b)) + length i)%nat with (length (ints b) + S (length i))%nat by lia. rewrite R' by (cbn in F; lia). reflexivity.
Qed.
(** ** One number *)
Definition upd {A} (m : Z -> option A) (n : Z) (y : option A) : Z -> option A := match y with Some y => assign m n y | None => m end.
Definition opt_item {A} (code : Z) (ser : A -> buf -> buf) (eff : A -> system -> system) (x : option A) : list item := match x with Some x => [mkItem code (ser x) (eff x)] | None => [] end.
Definition e_sol x s := mkSys (assign (solutions s) (n_user (sol_key x)) (sol_out x)) (exchanges s) (gases s) (kinetic s) (pps s) (ssas s) (surfaces s) (temperatures s) (pressures s).
Definition e_ex x s := mkSys (solutions s) (assign (exchanges s) (n_user (ex_key x)) (ex_out x)) (gases s) (kinetic s) (pps s) (ssas s) (surfaces s) (temperatures s) (pressures s).
Definition e_gp x s := mkSys (solutions s) (exchanges s) (assign (gases s) (n_user (gp_key x)) (gp_out x)) (kinetic s) (pps s) (ssas s) (surfaces s) (temperatures s) (pressures s).
Definition e_ki x s := mkSys (solutions s) (exchanges s) (gases s) (assign (kinetic s) (n_user (ki_key x)) (ki_out x)) (pps s) (ssas s) (surfaces s) (temperatures s) (pressures s).
Definition e_pp x s := mkSys (solutions s) (exchanges s) (gases s) (kinetic s) (assign (pps s) (n_user (pp_key x)) (pp_out x)) (ssas s) (surfaces s) (temperatures s) (pressures s).
Definition e_sa x s := mkSys (solutions s) (exchanges s) (gases s) (kinetic s) (pps s) (assign (ssas s) (n_user (sa_key x)) (sa_out x)) (surfaces s) (temperatures s) (pressures s).
Definition e_sf x s := mkSys (solutions s) (exchanges s) (gases s) (kinetic s) (pps s) (ssas s) (assign (surfaces s) (n_user (sf_key x)) (sf_out x)) (temperatures s) (pressures s).
Definition e_t x s := mkSys (solutions s) (exchanges s) (gases s) (kinetic s) (pps s) (ssas s) (surfaces s) (assign (temperatures s) (n_user (st_key x)) (st_out x)) (pressures s).
Definition e_p x s := mkSys (solutions s) (exchanges s) (gases s) (kinetic s) (pps s) (ssas s) (surfaces s) (temperatures s) (assign (pressures s) (n_user (st_key x)) (st_out x)).
Definition when (f : bool) {A} (x : option A) : option A := if f then x else None.
Definition number_items (s : system) (t p : bool) (i : Z) : list item :=
  opt_item 0 sol_ser e_sol (solutions s i) ++ opt_item 1 ex_ser e_ex (exchanges s i) ++ opt_item 2 gp_ser e_gp (gases s i) ++ opt_item 3 ki_ser e_ki (kinetic s i) ++
  opt_item 4 pp_ser e_pp (pps s i) ++ opt_item 5 sa_ser e_sa (ssas s i) ++ opt_item 6 sf_ser e_sf (surfaces s i) ++ opt_item 7 st_ser e_t (when t (temperatures s i)) ++ opt_item 8 st_ser e_p (when p (pressures s i)).
Lemma push_all_app {A} (f : A -> buf -> buf) l m b : push_all f (l ++ m) b = push_all f m (push_all f l b).
Proof. revert b. induction l as [|x l IH]; intros b; [reflexivity|]. cbn [app]. change (push_all f (x :: l ++ m) b) with (push_all f (l ++ m) (f x b)). rewrite IH. reflexivity. Qed.
Lemma opt_write {A} code ser eff (x : option A) b : push_all it_write (opt_item code ser eff x) b = send code ser x b.
Proof. destruct x; reflexivity. Qed.
Lemma number_write s t p i b : send_number s t p i b = push_all it_write (number_items s t p i) b.
Proof. unfold number_items. rewrite !push_all_app, !opt_write. unfold send_number, seq. destruct t, p; reflexivity. Qed.
Lemma numbers_write s t p l : forall b, push_all (send_number s t p) l b = push_all it_write (flat_map (number_items s t p) l) b.
Proof. induction l as [|i l IH]; intros b; [reflexivity|]. change (push_all (send_number s t p) (i :: l) b) with (push_all (send_number s t p) l (send_number s t p i b)). cbn [flat_map]. rewrite push_all_app, IH, number_write. reflexivity. Qed.
Lemma good_opt {A} code ser eff (x : option A) : (forall y, x = Some y -> good_item (mkItem code (ser y) (eff y))) -> Forall good_item (opt_item code ser eff x).
Proof. destruct x; intros H; [constructor; [apply H; reflexivity|constructor]|constructor]. Qed.
Lemma number_good s t p i : system_ok s -> Forall good_item (number_items s t p i).
Proof.
  intros (A & B & C & D & E & F & G & H & K). unfold number_items. rewrite !Forall_app. repeat split; apply good_opt; intros y Y st; cbn [it_ser it_code it_eff receive].
  - destruct (A _ _ Y) as [_ O]. eapply codes_last; [apply codes_sol; exact O|reflexivity].
  - destruct (B _ _ Y) as [_ O]. eapply codes_last; [apply codes_ex; exact O|reflexivity].
  - destruct (C _ _ Y) as [_ O]. eapply codes_last; [apply codes_gp; exact O|reflexivity].
  - destruct (D _ _ Y) as [_ O]. eapply codes_last; [apply codes_ki; exact O|reflexivity].
  - destruct (E _ _ Y) as [_ O]. eapply codes_last; [apply codes_pp; exact O|reflexivity].
  - destruct (F _ _ Y) as [_ O]. eapply codes_last; [apply codes_sa; exact O|reflexivity].
  - destruct (G _ _ Y) as [_ O]. eapply codes_last; [apply codes_sf; exact O|reflexivity].
  - eapply codes_last; [apply codes_st|reflexivity].
  - eapply codes_last; [apply codes_st|reflexivity].
Qed.
Definition number_eff (src : system) (t p : bool) (i : Z) (s : system) : system :=
  mkSys (upd (solutions s) i (option_map sol_out (solutions src i))) (upd (exchanges s) i (option_map ex_out (exchanges src i))) (upd (gases s) i (option_map gp_out (gases src i)))
        (upd (kinetic s) i (option_map ki_out (kinetic src i))) (upd (pps s) i (option_map pp_out (pps src i))) (upd (ssas s) i (option_map sa_out (ssas src i)))
        (upd (surfaces s) i (option_map sf_out (surfaces src i))) (upd (temperatures s) i (option_map st_out (when t (temperatures src i)))) (upd (pressures s) i (option_map st_out (when p (pressures src i)))).
Lemma effects_app l m s : effects (l ++ m) s = effects m (effects l s).
Proof. unfold effects. apply fold_left_app. Qed.
Lemma opt_eff {A} code ser (eff : A -> system -> system) (x : option A) s : effects (opt_item code ser eff x) s = match x with Some y => eff y s | None => s end.
Proof. destruct x; reflexivity. Qed.
Lemma upd_some {A} (m : Z -> option A) i j y : i = j -> assign m i y = upd m j (Some y).
Proof. intros ->. reflexivity. Qed.
Lemma number_effects src t p i s : system_ok src -> effects (number_items src t p i) s = number_eff src t p i s.
Proof.
  intros (A & B & C & D & E & F & G & H & K). unfold number_items. rewrite !effects_app, !opt_eff.
  assert (T : forall x, when t (temperatures src i) = Some x -> n_user (st_key x) = i) by (intros x X; destruct t; [apply (H _ _ X)|discriminate]). assert (P : forall x, when p (pressures src i) = Some x -> n_user (st_key x) = i) by (intros x X; destruct p; [apply (K _ _ X)|discriminate]).
  assert (R1 : forall s, match solutions src i with Some y => e_sol y s | None => s end = mkSys (upd (solutions s) i (option_map sol_out (solutions src i))) (exchanges s) (gases s) (kinetic s) (pps s) (ssas s) (surfaces s) (temperatures s) (pressures s)).
  { intros s0. destruct (solutions src i) as [x|] eqn:X; [|destruct s0; reflexivity]. unfold e_sol. rewrite (proj1 (A _ _ X)). reflexivity. }
  assert (R2 : forall s, match exchanges src i with Some y => e_ex y s | None => s end = mkSys (solutions s) (upd (exchanges s) i (option_map ex_out (exchanges src i))) (gases s) (kinetic s) (pps s) (ssas s) (surfaces s) (temperatures s) (pressures s)).
  { intros s0. destruct (exchanges src i) as [x|] eqn:X; [|destruct s0; reflexivity]. unfold e_ex. rewrite (proj1 (B _ _ X)). reflexivity. }
  assert (R3 : forall s, match gases src i with Some y => e_gp y s | None => s end = mkSys (solutions s) (exchanges s) (upd (gases s) i (option_map gp_out (gases src i))) (kinetic s) (pps s) (ssas s) (surfaces s) (temperatures s) (pressures s)).
  { intros s0. destruct (gases src i) as [x|] eqn:X; [|destruct s0; reflexivity]. unfold e_gp. rewrite (proj1 (C _ _ X)). reflexivity. }
  assert (R4 : forall s, match kinetic src i with Some y => e_ki y s | None => s end = mkSys (solutions s) (exchanges s) (gases s) (upd (kinetic s) i (option_map ki_out (kinetic src i))) (pps s) (ssas s) (surfaces s) (temperatures s) (pressures s)).
  { intros s0. destruct (kinetic src i) as [x|] eqn:X; [|destruct s0; reflexivity]. unfold e_ki. rewrite (proj1 (D _ _ X)). reflexivity. }
  assert (R5 : forall s, match pps src i with Some y => e_pp y s | None => s end = mkSys (solutions s) (exchanges s) (gases s) (kinetic s) (upd (pps s) i (option_map pp_out (pps src i))) (ssas s) (surfaces s) (temperatures s) (pressures s)).
  { intros s0. destruct (pps src i) as [x|] eqn:X; [|destruct s0; reflexivity]. unfold e_pp. rewrite (proj1 (E _ _ X)). reflexivity. }
  assert (R6 : forall s, match ssas src i with Some y => e_sa y s | None => s end = mkSys (solutions s) (exchanges s) (gases s) (kinetic s) (pps s) (upd (ssas s) i (option_map sa_out (ssas src i))) (surfaces s) (temperatures s) (pressures s)).
  { intros s0. destruct (ssas src i) as [x|] eqn:X; [|destruct s0; reflexivity]. unfold e_sa. rewrite (proj1 (F _ _ X)). reflexivity. }
  assert (R7 : forall s, match surfaces src i with Some y => e_sf y s | None => s end = mkSys (solutions s) (exchanges s) (gases s) (kinetic s) (pps s) (ssas s) (upd (surfaces s) i (option_map sf_out (surfaces src i))) (temperatures s) (pressures s)).
  { intros s0. destruct (surfaces src i) as [x|] eqn:X; [|destruct s0; reflexivity]. unfold e_sf. rewrite (proj1 (G _ _ X)). reflexivity. }
  assert (R8 : forall s, match when t (temperatures src i) with Some y => e_t y s | None => s end = mkSys (solutions s) (exchanges s) (gases s) (kinetic s) (pps s) (ssas s) (surfaces s) (upd (temperatures s) i (option_map st_out (when t (temperatures src i)))) (pressures s)).
  { intros s0. destruct (when t (temperatures src i)) as [x|] eqn:X; [|destruct s0; reflexivity]. unfold e_t. rewrite (T _ eq_refl). reflexivity. }
  assert (R9 : forall s, match when p (pressures src i) with Some y => e_p y s | None => s end = mkSys (solutions s) (exchanges s) (gases s) (kinetic s) (pps s) (ssas s) (surfaces s) (temperatures s) (upd (pressures s) i (option_map st_out (when p (pressures src i))))).
  { intros s0. destruct (when p (pressures src i)) as [x|] eqn:X; [|destruct s0; reflexivity]. unfold e_p. rewrite (P _ eq_refl). reflexivity. }
  destruct s as [a b c d e f g h k]. rewrite R1; cbn [solutions exchanges gases kinetic pps ssas surfaces temperatures pressures]. rewrite R2; cbn [solutions exchanges gases kinetic pps ssas surfaces temperatures pressures]. rewrite R3; cbn [solutions exchanges gases kinetic pps ssas surfaces temperatures pressures]. rewrite R4; cbn [solutions exchanges gases kinetic pps ssas surfaces temperatures pressures]. rewrite R5; cbn [solutions exchanges gases kinetic pps ssas surfaces temperatures pressures]. rewrite R6; cbn [solutions exchanges gases kinetic pps ssas surfaces temperatures pressures]. rewrite R7; cbn [solutions exchanges gases kinetic pps ssas surfaces temperatures pressures]. rewrite R8; cbn [solutions exchanges gases kinetic pps ssas surfaces temperatures pressures]. rewrite R9; cbn [solutions exchanges gases kinetic pps ssas surfaces temperatures pressures]. reflexivity.
Qed.
(** ** All numbers *)
Lemma numbers_effects src t p l s : system_ok src -> effects (flat_map (number_items src t p) l) s = fold_left (fun s i => number_eff src t p i s) l s.
Proof. intros OK. revert s. induction l as [|i l IH]; intros s; [reflexivity|]. cbn [flat_map fold_left]. rewrite effects_app, number_effects by exact OK. apply IH. Qed.
Lemma upd_fold {A} (f : Z -> option A) l m n : fold_left (fun m i => upd m i (f i)) l m n = if existsb (Z.eqb n) l then match f n with Some y => Some y | None => m n end else m n.
Proof.
  revert m. induction l as [|i l IH]; intros m; [reflexivity|]. cbn [fold_left existsb]. rewrite IH. destruct (Z.eqb_spec n i) as [-> | N]; cbn [orb].
  - destruct (f i) as [y|] eqn:E; cbn [upd]; [|destruct (existsb (Z.eqb i) l); reflexivity]. unfold assign. rewrite Z.eqb_refl. destruct (existsb (Z.eqb i) l); reflexivity.
  - assert (X : upd m i (f i) n = m n). { destruct (f i); cbn [upd]; [|reflexivity]. unfold assign. apply Z.eqb_neq in N. rewrite N. reflexivity. } rewrite X. reflexivity.
Qed.
Lemma in_numbers first last n : existsb (Z.eqb n) (numbers first last) = (first <=? n) && (n <=? last).
Proof.
  apply eq_true_iff_eq. rewrite existsb_exists, andb_true_iff, !Z.leb_le. unfold numbers. split.
  - intros (x & H & E). apply Z.eqb_eq in E. subst x. apply in_map_iff in H. destruct H as (k & <- & H). apply in_seq in H. lia.
  - intros H. exists n. split; [|apply Z.eqb_refl]. apply in_map_iff. exists (Z.to_nat (n - first)). split; [lia|]. apply in_seq. lia.
Qed.
Lemma project {A} (pr : system -> Z -> option A) (f : Z -> option A) src t p l s : (forall i s, pr (number_eff src t p i s) = upd (pr s) i (f i)) ->
  pr (fold_left (fun s i => number_eff src t p i s) l s) = fold_left (fun m i => upd m i (f i)) l (pr s).
Proof. intros H. revert s. induction l as [|i l IH]; intros s; [reflexivity|]. cbn [fold_left]. rewrite IH, H. reflexivity. Qed.
Lemma moved_upd {A} (sent : A -> A -> Prop) (out : A -> A) (ok : forall x, sent x (out x)) first last (src : Z -> option A) old : moved sent first last src old (fold_left (fun m i => upd m i (option_map out (src i))) (numbers first last) old).
Proof.
  intros n. rewrite (upd_fold (fun i => option_map out (src i))), in_numbers. destruct ((first <=? n) && (n <=? last)); [|reflexivity]. destruct (src n) as [x|]; [exists (out x); split; [reflexivity|apply ok]|reflexivity].
Qed.
Lemma sent_sf x : sent_surface x (sf_out x).
Proof. unfold sent_surface. cbn [sf_charges sf_calc sf_out]. split; [reflexivity|]. induction (sf_charges x) as [|c l IH]; [constructor|]. constructor; [reflexivity|exact IH]. Qed.
Lemma round_trip src old first last t p : system_ok src -> last < INT_MAX -> exists b new, serialize src first last t p (mkBuf [] [] []) = Ret b /\ deserialize old b = Ret new /\ transferred first last t p src old new /\
  new = fold_left (fun s i => number_eff src t p i s) (numbers first last) old /\ forall w2, deserialize old (mkBuf (words b ++ w2) (ints b) (dbls b)) = Ret new.
Proof.
  intros OK L. unfold serialize. replace (last =? INT_MAX) with false by lia. rewrite andb_false_r. rewrite numbers_write.
  assert (GD : Forall good_item (flat_map (number_items src t p) (numbers first last))) by (apply Forall_flat_map; apply Forall_forall; intros i _; apply number_good; exact OK).
  destruct (unpack_items _ GD (mkBuf [] [] []) old) as (w & i & q & E & LE & R). cbn [words ints dbls app length] in E, R. rewrite E.
  exists (mkBuf w i q), (fold_left (fun s i => number_eff src t p i s) (numbers first last) old).
  assert (DS : forall w2, deserialize old (mkBuf (w ++ w2) i q) = Ret (fold_left (fun s i => number_eff src t p i s) (numbers first last) old)). { intros w2. unfold deserialize. cbn [ints]. rewrite R by lia. rewrite numbers_effects by exact OK. reflexivity. }
  split; [reflexivity|]. split; [specialize (DS []); rewrite app_nil_r in DS; exact DS|]. split; [|split; [reflexivity|exact DS]].
  unfold transferred.
  rewrite (project solutions (fun i => option_map sol_out (solutions src i))) by reflexivity. rewrite (project exchanges (fun i => option_map ex_out (exchanges src i))) by reflexivity. rewrite (project gases (fun i => option_map gp_out (gases src i))) by reflexivity.
  rewrite (project kinetic (fun i => option_map ki_out (kinetic src i))) by reflexivity. rewrite (project pps (fun i => option_map pp_out (pps src i))) by reflexivity. rewrite (project ssas (fun i => option_map sa_out (ssas src i))) by reflexivity.
  rewrite (project surfaces (fun i => option_map sf_out (surfaces src i))) by reflexivity. rewrite (project temperatures (fun i => option_map st_out (when t (temperatures src i)))) by reflexivity. rewrite (project pressures (fun i => option_map st_out (when p (pressures src i)))) by reflexivity.
  split; [apply moved_upd; reflexivity|]. split; [apply moved_upd; reflexivity|]. split; [apply moved_upd; reflexivity|]. split; [apply moved_upd; reflexivity|]. split; [apply moved_upd; reflexivity|]. split; [apply moved_upd; reflexivity|]. split; [apply moved_upd; apply sent_sf|].
  split; [destruct t; cbn [when]; apply (moved_upd sent_steps st_out (fun _ => eq_refl))|destruct p; cbn [when]; apply (moved_upd sent_steps st_out (fun _ => eq_refl))].
Qed.
(** ** Dictionaries as text *)
Lemma sapp_assoc_ (a b c : string) : ((a ++ b) ++ c)%string = (a ++ (b ++ c))%string.
Proof. induction a as [|x a IH]; [reflexivity|]. cbn. rewrite IH. reflexivity. Qed.
Lemma get_line_word w t : forall room, no_break w -> (String.length w <= room)%nat -> get_line room (w ++ String newline t) = Some (w, t).
Proof.
  induction w as [|c w IH]; intros room N L; [destruct room; reflexivity|]. destruct N as [N1 N2]. apply Ascii.eqb_neq in N1. destruct room as [|room]; [cbn in L; lia|]. cbn [append get_line]. replace (Ascii.eqb c newline) with false by (symmetry; exact N1). rewrite IH; [reflexivity|exact N2|cbn in L; lia].
Qed.
Lemma dict_text_len ws : (length ws <= String.length (dict_text ws))%nat.
Proof. induction ws as [|w ws IH]; [cbn; lia|]. cbn [dict_text fold_right length]. assert (X : forall a b, String.length (a ++ String newline b) = (String.length a + S (String.length b))%nat). { induction a as [|c a IHa]; intros b; [reflexivity|]. cbn [append String.length]. rewrite IHa. lia. } rewrite X. unfold dict_text in IH. lia. Qed.
Lemma dict_read_ok ws : forall acc fuel, Forall line_word ws -> NoDup (acc ++ ws) -> (length ws <= fuel)%nat -> dict_read fuel (dict_text ws) acc = acc ++ ws.
Proof.
  induction ws as [|w ws IH]; intros acc fuel L N F; [destruct fuel; cbn; rewrite app_nil_r; reflexivity|]. inversion L as [|? ? [L1 L2] L3]; subst. destruct fuel as [|fuel]; [cbn in F; lia|]. cbn [dict_text fold_right]. change (fold_right (fun w t => (w ++ String newline t)%string) "" ws) with (dict_text ws).
  assert (X : exists c u, (w ++ String newline (dict_text ws))%string = String c u) by (destruct w; eexists; eexists; reflexivity). destruct X as (c & u & X). cbn [dict_read]. rewrite X, <- X, get_line_word by assumption.
  assert (NI : ~ In w acc). { intros H. apply NoDup_remove_2 in N. apply N. apply in_or_app. left. exact H. } apply place_none in NI. unfold dict_find. rewrite NI. cbn [snd]. rewrite IH; [rewrite <- app_assoc; reflexivity|exact L3|rewrite <- app_assoc; exact N|cbn in F; lia].
Qed.
Lemma dictionary_ok ws : Forall line_word ws -> NoDup ws -> dictionary_of (dict_text ws) = ws.
Proof. intros L N. unfold dictionary_of. apply (dict_read_ok ws []); [exact L|exact N|apply dict_text_len]. Qed.
(** ** The words of a buffer are distinct *)
Definition tidy (s : buf -> buf) : Prop := forall b, NoDup (words b) -> NoDup (words (s b)).
Lemma find_nodup ws w : NoDup ws -> NoDup (snd (dict_find ws w)).
Proof. intros N. unfold dict_find. destruct (place ws w) eqn:E; [exact N|]. cbn [snd]. apply place_none in E. apply NoDup_rev in N. rewrite <- (rev_involutive (ws ++ [w])). apply NoDup_rev. rewrite rev_app_distr. cbn. constructor; [rewrite <- in_rev; exact E|exact N]. Qed.
Lemma tidy_i n : tidy (push_i n). Proof. intros b N. exact N. Qed.
Lemma tidy_d x : tidy (push_d x). Proof. intros b N. exact N. Qed.
Lemma tidy_flag f : tidy (push_flag f). Proof. intros b N. exact N. Qed.
Lemma tidy_size {A} (l : list A) : tidy (push_size l). Proof. intros b N. exact N. Qed.
Lemma tidy_none : tidy nothing. Proof. intros b N. exact N. Qed.
Lemma tidy_word w : tidy (push_word w).
Proof. intros b N. unfold push_word. pose proof (find_nodup (words b) w N) as X. destruct (dict_find (words b) w). exact X. Qed.
Lemma tidy_seq f g : tidy f -> tidy g -> tidy (f ;; g). Proof. intros F G b N. apply G, F, N. Qed.
Lemma tidy_all {A} (f : A -> buf -> buf) l : (forall x, tidy (f x)) -> tidy (push_all f l).
Proof. intros H. induction l as [|x l IH]; [exact tidy_none|]. change (push_all f (x :: l)) with (f x ;; push_all f l). apply tidy_seq; [apply H|exact IH]. Qed.
Ltac tidied := repeat match goal with
  | |- tidy (seq _ _) => apply tidy_seq | |- tidy (push_i _) => apply tidy_i | |- tidy (push_d _) => apply tidy_d | |- tidy (push_flag _) => apply tidy_flag
  | |- tidy (push_size _) => apply tidy_size | |- tidy (push_word _) => apply tidy_word | |- tidy nothing => apply tidy_none | |- tidy (push_all _ _) => apply tidy_all; intro
  end.
Lemma tidy_nd x : tidy (nd_ser x). Proof. unfold nd_ser. tidied. Qed.
Lemma tidy_zm x : tidy (zm_ser x). Proof. unfold zm_ser. tidied. Qed.
Lemma tidy_dl x : tidy (dl_ser x). Proof. unfold dl_ser. tidied. Qed.
Ltac tidied2 := repeat first [progress tidied | match goal with
  | |- tidy (nd_ser _) => apply tidy_nd | |- tidy (zm_ser _) => apply tidy_zm | |- tidy (dl_ser _) => apply tidy_dl end].
Lemma tidy_send {A} code ser (x : option A) : (forall y, tidy (ser y)) -> tidy (send code ser x).
Proof. intros H. destruct x; cbn [send]; [apply tidy_seq; [apply tidy_i|apply H]|apply tidy_none]. Qed.
Lemma tidy_number s t p i : tidy (send_number s t p i).
Proof.
  unfold send_number. repeat match goal with |- tidy (seq _ _) => apply tidy_seq end; try (match goal with |- tidy (send _ _ _) => apply tidy_send; intro end).
  - unfold sol_ser, iso_ser. tidied2.
  - unfold ex_ser, ec_ser. tidied2.
  - unfold gp_ser, gc_ser. tidied2.
  - unfold ki_ser, kc_ser. tidied2.
  - unfold pp_ser, pc_ser. tidied2.
  - unfold sa_ser, ss_ser, sc_ser. tidied2.
  - unfold sf_ser, su_ser, ch_ser, sdl_ser. tidied2.
  - destruct t; [apply tidy_send; intro; unfold st_ser; tidied2|apply tidy_none].
  - destruct p; [apply tidy_send; intro; unfold st_ser; tidied2|apply tidy_none].
Qed.
Lemma tidy_serialize s first last t p b b' : serialize s first last t p b = Ret b' -> NoDup (words b) -> NoDup (words b').
Proof. unfold serialize. destruct (_ && _); [discriminate|]. intros H N. injection H as <-. apply (tidy_all (send_number s t p) (numbers first last)); [apply tidy_number|exact N]. Qed.
(** ** Packing what was unpacked gives the same data *)
Lemma ser_ch_out c : ch_ser (ch_out c) = ch_ser c. Proof. reflexivity. Qed.
Lemma push_all_map {A} (f : A -> buf -> buf) (g : A -> A) l : (forall x, f (g x) = f x) -> push_all f (map g l) = push_all f l.
Proof. intros H. induction l as [|x l IH]; [reflexivity|]. cbn [map]. change (f (g x) ;; push_all f (map g l) = f x ;; push_all f l). rewrite H, IH. reflexivity. Qed.
Lemma ser_sf_out x : sf_ser (sf_out x) = sf_ser x.
Proof. unfold sf_ser. cbn [sf_out sf_key renumbered n_user sf_comps sf_charges sf_new sf_tidied sf_type sf_dl sf_units sf_counter sf_thick sf_debye sf_visc sf_limit sf_correct sf_transport sf_totals sf_equil sf_n]. unfold push_size. rewrite map_length, (push_all_map ch_ser ch_out _ ser_ch_out). reflexivity. Qed.
Lemma send_upd {A} code (ser : A -> buf -> buf) out (src : Z -> option A) first last old i : (forall x, ser (out x) = ser x) -> first <= i <= last -> (forall n, first <= n <= last -> old n = None) ->
  send code ser (fold_left (fun m k => upd m k (option_map out (src k))) (numbers first last) old i) = send code ser (src i).
Proof.
  intros H R N. rewrite (upd_fold (fun k => option_map out (src k))), in_numbers. replace ((first <=? i) && (i <=? last)) with true by lia. destruct (src i) as [x|]; cbn [option_map send]; [rewrite H; reflexivity|rewrite N by exact R; reflexivity].
Qed.
Lemma push_all_ext {A} (f g : A -> buf -> buf) l b : (forall x b, In x l -> f x b = g x b) -> push_all f l b = push_all g l b.
Proof. revert b. induction l as [|x l IH]; intros b H; [reflexivity|]. change (push_all f l (f x b) = push_all g l (g x b)). rewrite (H x b (or_introl eq_refl)). apply IH. intros y c Y. apply H. right. exact Y. Qed.
Lemma resend src old first last t p b : clear first last old -> serialize (fold_left (fun s i => number_eff src t p i s) (numbers first last) old) first last t p b = serialize src first last t p b.
Proof.
  intros C. unfold serialize. destruct (_ && _); [reflexivity|]. f_equal. apply push_all_ext. intros i c I. assert (R : first <= i <= last). { assert (X : existsb (Z.eqb i) (numbers first last) = true) by (apply existsb_exists; exists i; split; [exact I|apply Z.eqb_refl]). rewrite in_numbers in X. lia. }
  unfold send_number, seq.
  rewrite (project solutions (fun i => option_map sol_out (solutions src i))) by reflexivity. rewrite (project exchanges (fun i => option_map ex_out (exchanges src i))) by reflexivity. rewrite (project gases (fun i => option_map gp_out (gases src i))) by reflexivity.
  rewrite (project kinetic (fun i => option_map ki_out (kinetic src i))) by reflexivity. rewrite (project pps (fun i => option_map pp_out (pps src i))) by reflexivity. rewrite (project ssas (fun i => option_map sa_out (ssas src i))) by reflexivity.
  rewrite (project surfaces (fun i => option_map sf_out (surfaces src i))) by reflexivity. rewrite (project temperatures (fun i => option_map st_out (when t (temperatures src i)))) by reflexivity. rewrite (project pressures (fun i => option_map st_out (when p (pressures src i)))) by reflexivity.
  rewrite !send_upd; try reflexivity; try exact R; try apply ser_sf_out; try (intros n N; apply C; exact N).
  destruct t, p; cbn [when]; rewrite ?send_upd; try reflexivity; try exact R; try (intros n N; apply C; exact N).
Qed.

Lemma serialize_ok s first last t p b : last < INT_MAX -> serialize s first last t p b = Ret (push_all it_write (flat_map (number_items s t p) (numbers first last)) b).
Proof. intros L. unfold serialize. replace (last =? INT_MAX) with false by lia. rewrite andb_false_r, numbers_write. reflexivity. Qed.
Lemma round_trip_two src old first last t p src2 first2 last2 t2 p2 : system_ok src -> system_ok src2 -> last < INT_MAX -> last2 < INT_MAX ->
  exists b b2 mid new, serialize src first last t p (mkBuf [] [] []) = Ret b /\ serialize src2 first2 last2 t2 p2 b = Ret b2 /\ deserialize old b2 = Ret new /\ transferred first last t p src old mid /\ transferred first2 last2 t2 p2 src2 mid new.
Proof.
  intros OK OK2 L L2. destruct (round_trip src old first last t p OK L) as (b & mid & E & D & TR & EM & _). destruct (round_trip src2 mid first2 last2 t2 p2 OK2 L2) as (b3 & new & _ & _ & TR2 & EN & _).
  exists b. pose proof E as E1. rewrite (serialize_ok src) in E1 by exact L. assert (EB : push_all it_write (flat_map (number_items src t p) (numbers first last)) (mkBuf [] [] []) = b) by (injection E1; auto). clear E1.
  eexists _, mid, new. split; [exact E|]. split; [apply serialize_ok; exact L2|]. split; [|split; assumption].
  rewrite <- EB, <- push_all_app.
  assert (GD : Forall good_item (flat_map (number_items src t p) (numbers first last) ++ flat_map (number_items src2 t2 p2) (numbers first2 last2))). { apply Forall_app. split; apply Forall_flat_map; apply Forall_forall; intros i _; apply number_good; assumption. }
  destruct (unpack_items _ GD (mkBuf [] [] []) old) as (w & i & q & EQ & LE & R). cbn [words ints dbls app length] in EQ, R. rewrite EQ. unfold deserialize. cbn [ints]. specialize (R (S (length i)) [] ltac:(lia)). rewrite app_nil_r in R. rewrite R, effects_app, !numbers_effects by assumption. rewrite EN, EM. reflexivity.
Qed.
(** ** Words are only added *)
Definition extends (s : buf -> buf) : Prop := forall b, exists w, words (s b) = words b ++ w.
Lemma extends_none : extends nothing. Proof. intros b. exists []. rewrite app_nil_r. reflexivity. Qed.
Lemma extends_i n : extends (push_i n). Proof. intros b. exists []. rewrite app_nil_r. reflexivity. Qed.
Lemma extends_d n : extends (push_d n). Proof. intros b. exists []. rewrite app_nil_r. reflexivity. Qed.
Lemma extends_flag n : extends (push_flag n). Proof. intros b. exists []. rewrite app_nil_r. reflexivity. Qed.
Lemma extends_size {A} (l : list A) : extends (push_size l). Proof. intros b. exists []. rewrite app_nil_r. reflexivity. Qed.
Lemma extends_word w : extends (push_word w).
Proof. intros b. unfold push_word. destruct (find_at (words b) w) as (x & E & _). destruct (dict_find (words b) w). exists x. exact E. Qed.
Lemma extends_seq f g : extends f -> extends g -> extends (f ;; g).
Proof. intros F G b. unfold seq. destruct (F b) as [w E]. destruct (G (f b)) as [w' E']. exists (w ++ w'). rewrite E', E, app_assoc. reflexivity. Qed.
Lemma extends_all {A} (f : A -> buf -> buf) l : (forall x, extends (f x)) -> extends (push_all f l).
Proof. intros H. induction l as [|x l IH]; [exact extends_none|]. change (push_all f (x :: l)) with (f x ;; push_all f l). apply extends_seq; [apply H|exact IH]. Qed.
Ltac extended := repeat match goal with
  | |- extends (seq _ _) => apply extends_seq | |- extends (push_i _) => apply extends_i | |- extends (push_d _) => apply extends_d | |- extends (push_flag _) => apply extends_flag
  | |- extends (push_size _) => apply extends_size | |- extends (push_word _) => apply extends_word | |- extends nothing => apply extends_none | |- extends (push_all _ _) => apply extends_all; intro
  | |- extends (nd_ser _) => unfold nd_ser | |- extends (zm_ser _) => unfold zm_ser | |- extends (dl_ser _) => unfold dl_ser
  end.
Lemma extends_send {A} code ser (x : option A) : (forall y, extends (ser y)) -> extends (send code ser x).
Proof. intros H. destruct x; cbn [send]; [apply extends_seq; [apply extends_i|apply H]|apply extends_none]. Qed.
Lemma extends_number s t p i : extends (send_number s t p i).
Proof.
  unfold send_number. repeat match goal with |- extends (seq _ _) => apply extends_seq end; try (match goal with |- extends (send _ _ _) => apply extends_send; intro end).
  - unfold sol_ser, iso_ser. extended.
  - unfold ex_ser, ec_ser. extended.
  - unfold gp_ser, gc_ser. extended.
  - unfold ki_ser, kc_ser. extended.
  - unfold pp_ser, pc_ser. extended.
  - unfold sa_ser, ss_ser, sc_ser. extended.
  - unfold sf_ser, su_ser, ch_ser, sdl_ser. extended.
  - destruct t; [apply extends_send; intro; unfold st_ser; extended|apply extends_none].
  - destruct p; [apply extends_send; intro; unfold st_ser; extended|apply extends_none].
Qed.
