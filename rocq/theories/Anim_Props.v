(** Properties of the files of a run: C112 statistics variables, C113
    animation. *)
From Coq Require Import String Ascii ZArith Bool List Lia ZifyBool.
From Verif Require Import Anim_Model Anim_Spec Anim_Proofs.
Import ListNotations.
Local Open Scope string_scope.
Local Open Scope list_scope.

(** * C112 *)

Lemma names_point : forall full key, names full key -> before_point full = key.
Proof.
  intros full key (A & H). revert full A H. induction key as [|c key IH]; intros full A [-> | (r & ->)]; cbn; try reflexivity.
  - destruct (Ascii.eqb_spec c ".") as [-> | N]; [exfalso; apply (A "" key); reflexivity|].
    f_equal. apply IH; [|left; reflexivity]. intros a b E. apply (A (String c a) b). cbn. congruence.
  - destruct (Ascii.eqb_spec c ".") as [-> | N]; [exfalso; apply (A "" key); reflexivity|].
    f_equal. apply IH; [|right; exists r; reflexivity]. intros a b E. apply (A (String c a) b). cbn. congruence.
Qed.

(** The file of statistics variables: the number of variables, their names and
    elements, and then for each step a line with the step, the date and the
    values that the chosen elements have at that moment, in the order in which
    they were chosen. *)
Theorem C112_file : forall p count_of find place cs vars ms,
  Forall2 (fun c v => exists key, names (cname c) key /\ find key = Some v /\ vname v = key) cs vars ->
  statistics p count_of find place cs ms =
  Some (line [count_of (List.length cs)] ++ join (map (fun c => line [cname c; " "; celement c]) cs) ++
        join (map (fun m => line (count m :: " " :: date m :: " " ::
          flat_map (fun cv => written p (vtype (snd cv)) (values m (vname (snd cv)) (place (vname (snd cv)) (celement (fst cv)))))
                   (combine cs vars))) ms))%string.
Proof.
  intros p count_of find place cs vars ms F. unfold statistics.
  assert (C : create_vstats find place cs =
    Some (map (fun cv => (vname (snd cv), place (vname (snd cv)) (celement (fst cv)), vtype (snd cv))) (combine cs vars))).
  { induction F as [|c v cs vars (key & N & K & E) F IH]; [reflexivity|]. cbn [create_vstats combine map fst snd].
    rewrite (names_point _ _ N), K, IH, E. reflexivity. }
  rewrite C. f_equal.
  assert (H : stat_header count_of cs = (line [count_of (List.length cs)] ++ join (map (fun c => line [cname c; " "; celement c]) cs))%string).
  { unfold stat_header, line. cbn [join fold_right]. rewrite sapp_nil, sapp_assoc. f_equal. f_equal.
    generalize cs at 1 2. clear. induction cs as [|c cs IH]; [reflexivity|]. cbn [fold_right map]. rewrite IH. unfold join at 2.
    cbn [fold_right]. fold (join (map (fun c => line [cname c; " "; celement c]) cs)). rewrite !sapp_assoc. reflexivity. }
  rewrite H. rewrite <- sapp_assoc.
  generalize (line [count_of (List.length cs)] ++ join (map (fun c => line [cname c; " "; celement c]) cs))%string. clear.
  induction ms as [|m ms IH]; intros s; cbn [fold_left map]; [cbn; rewrite sapp_nil; reflexivity|].
  rewrite IH. unfold join at 2. cbn [fold_right]. rewrite <- sapp_assoc. f_equal. f_equal.
  unfold write_vstats, line. unfold join at 1. cbn [fold_right]. rewrite !sapp_assoc. do 4 f_equal. f_equal.
  generalize (combine cs vars). induction l as [|[c v] l IHl]; [reflexivity|]. cbn [map fold_right flat_map fst snd].
  rewrite IHl. rewrite fold_right_app || idtac. unfold one_stat.
  destruct (vtype v); cbn [written app fold_right]; rewrite ?sapp_assoc; reflexivity.
Qed.
Print Assumptions C112_file.

(** A variable that is not published ends the run. *)
Theorem C112_unknown : forall p count_of find place cs ms c key, In c cs -> names (cname c) key -> find key = None ->
  statistics p count_of find place cs ms = None.
Proof.
  intros p count_of find place cs ms c key I1 N F. unfold statistics.
  replace (create_vstats find place cs) with (@None (list entry)); [reflexivity|].
  induction cs as [|x cs IH]; [destruct I1|]. cbn [create_vstats]. destruct I1 as [-> | I1].
  - rewrite (names_point _ _ N), F. reflexivity.
  - rewrite <- (IH I1). destruct (find (before_point (cname x))); reflexivity.
Qed.
Print Assumptions C112_unknown.

(** * C113 *)

(** There is one animation file for each dimension that comes first in a chosen
    variable, and no two for the same. *)
Theorem C113_dimensions : forall vs, NoDup (ani_dims vs) /\ (forall d, In d (ani_dims vs) <-> exists v, In v vs /\ dim0 v = d).
Proof. intros vs. split; [apply dims_nodup | intros d; apply dims_in]. Qed.
Print Assumptions C113_dimensions.

(** With real variables each file has, for each step and each index, a row with
    the values at this index of all chosen variables of its dimension, in the
    order in which they were chosen. *)
Theorem C113_real : forall p size vs ms k d, Forall is_real vs -> nth_error (ani_dims vs) k = Some d ->
  animation p size vs ms k = file_text p d (size d) (having d vs) ms.
Proof.
  intros p size vs ms k d F E. apply animation_at; [|intros v I1 T|exact E].
  - eapply Forall_impl; [|exact F]. intros v [T | T] K; congruence.
  - rewrite Forall_forall in F. destruct (F v I1) as [K | K]; congruence.
Qed.
Print Assumptions C113_real.

(** So it is for integers too when all chosen variables have the same
    dimension. *)
Theorem C113_one_dimension : forall p size vs ms d, vs <> [] -> Forall is_number vs -> Forall (fun v => dim0 v = d) vs ->
  ani_dims vs = [d] /\ animation p size vs ms 0 = file_text p d (size d) vs ms.
Proof.
  intros p size vs ms d NE F D. rewrite Forall_forall in D.
  assert (A : ani_dims vs = [d]).
  { pose proof (dims_nodup vs) as N. pose proof (dims_in vs) as I1.
    destruct (ani_dims vs) as [|x [|y r]].
    - exfalso. destruct vs as [|v vs]; [congruence|]. destruct (proj2 (I1 (dim0 v))). exists v. split; [left|]; reflexivity.
    - destruct (proj1 (I1 x) (or_introl eq_refl)) as (v & V & <-). rewrite (D v V). reflexivity.
    - exfalso. destruct (proj1 (I1 x) (or_introl eq_refl)) as (v & V & X).
      destruct (proj1 (I1 y) (or_intror (or_introl eq_refl))) as (w & W & Y).
      rewrite (D v V) in X. rewrite (D w W) in Y. subst x y. inversion N. subst. cbn in *. tauto. }
  split; [exact A|].
  assert (H : having d vs = vs).
  { unfold having. clear - D. induction vs as [|v vs IH]; [reflexivity|]. cbn [filter].
    rewrite (D v (or_introl eq_refl)), String.eqb_refl, IH; [reflexivity|]. intros w W. apply D. right. exact W. }
  rewrite <- H at 2. apply animation_at; [exact F| |rewrite A; reflexivity].
  intros v V _. rewrite A. assert (FO : forall w, In w vs -> file_of [d] w = 0).
  { intros w W. unfold file_of. cbn. rewrite (D w W), String.eqb_refl. reflexivity. }
  rewrite (FO v V). destruct vs as [|w vs]; [congruence|]. exists w. split; [reflexivity | apply FO; left; reflexivity].
Qed.
Print Assumptions C113_one_dimension.

(** With two real variables of one dimension and then an integer of another,
    the integer is written to the file of the first dimension, after its rows;
    the file of its own dimension has rows without it. *)
Theorem C113_integer_refuted : forall p size u v w a b m, is_real u -> is_real v -> vtype w = Long ->
  dim0 u = a -> dim0 v = a -> dim0 w = b -> a <> b ->
  animation p size [u; v; w] [m] 1 =
    (file_header b [w] ++ join (map (fun j => line [stamp m; tab; index p (S j)]) (seq 0 (size b))))%string /\
  animation p size [u; v; w] [m] 0 =
    (file_text p a (size a) [u; v] [m] ++ join (map (fun j => tab ++ as_10ld p (values m (vname w) j)) (seq 0 (size b))))%string.
Proof.
  intros p size u v w a b m RU RV TW DU DV DW N.
  assert (AB : String.eqb a b = false) by (apply String.eqb_neq, N).
  assert (BA : String.eqb b a = false) by (apply String.eqb_neq; congruence).
  assert (AD : ani_dims [u; v; w] = [a; b]).
  { unfold ani_dims, known_dim. cbn [fold_left existsb]. rewrite DU, DV, DW. cbn [existsb app]. rewrite String.eqb_refl. cbn [orb existsb].
    rewrite BA. reflexivity. }
  assert (FA : forall x, dim0 x = a -> file_of [a; b] x = 0).
  { intros x D. unfold file_of. cbn. rewrite D, String.eqb_refl, AB. reflexivity. }
  assert (FB : forall x, dim0 x = b -> file_of [a; b] x = 1).
  { intros x D. unfold file_of. cbn. rewrite D, String.eqb_refl. reflexivity. }
  assert (H0 : headers [u; v; w] 0 = file_header a [u; v]).
  { rewrite (header_at _ 0 a) by (rewrite AD; reflexivity). unfold having. cbn [filter]. rewrite DU, DV, DW, String.eqb_refl, BA. reflexivity. }
  assert (H1 : headers [u; v; w] 1 = file_header b [w]).
  { rewrite (header_at _ 1 b) by (rewrite AD; reflexivity). unfold having. cbn [filter]. rewrite DU, DV, DW, String.eqb_refl, AB. reflexivity. }
  unfold animation. cbn [fold_left]. unfold one_step. rewrite AD. cbn [fold_left snd].
  (* the rows of the first dimension *)
  assert (RA : forall js fs k, fold_left (one_row p m [a; b] [u; v; w] 0 a) js fs k =
    (fs k ++ if Nat.eqb k 0 then join (map (row p m [u; v]) js) else "")%string).
  { induction js as [|j js IH]; intros fs k; cbn [fold_left]; [destruct (Nat.eqb k 0); cbn; rewrite sapp_nil; reflexivity|].
    rewrite IH. unfold one_row, one_value. cbn [fold_left]. rewrite DU, DV, DW, String.eqb_refl, BA, (FA u DU), (FA v DV).
    change (join (map (row p m [u; v]) (j :: js))) with (row p m [u; v] j ++ join (map (row p m [u; v]) js))%string.
    generalize (join (map (row p m [u; v]) js)) as rest. intros rest. unfold row. cbn [flat_map app]. unfold line, join. cbn [fold_right].
    destruct (Nat.eqb_spec k 0) as [-> | K].
    - destruct RU as [TU | TU], RV as [TV | TV]; rewrite TU, TV; rewrite !print_same; cbn [shown]; rewrite ?sapp_assoc, ?sapp_nil; reflexivity.
    - destruct RU as [TU | TU], RV as [TV | TV]; rewrite TU, TV; rewrite !print_other by assumption; reflexivity. }
  assert (RB : forall js fs, fold_left (one_row p m [a; b] [u; v; w] 1 b) js fs 1 =
      (fs 1 ++ join (map (fun j => line [stamp m; tab; index p (S j)]) js))%string /\
    fold_left (one_row p m [a; b] [u; v; w] 1 b) js fs 0 =
      (fs 0 ++ join (map (fun j => tab ++ as_10ld p (values m (vname w) j))%string js))%string).
  { induction js as [|j js IH]; intros fs; cbn [fold_left]; [cbn; rewrite !sapp_nil; split; reflexivity|].
    destruct (IH (one_row p m [a; b] [u; v; w] 1 b fs j)) as (I1 & I0). rewrite I1, I0. clear IH I1 I0.
    unfold one_row, one_value. cbn [fold_left]. rewrite DU, DV, DW, String.eqb_refl, AB, TW. cbn [nth_error]. rewrite (FA v DV).
    cbn [map]. unfold line, join. cbn [fold_right]. split.
    - rewrite print_same, print_other by discriminate. rewrite print_same, !sapp_assoc. cbn [String.append]. rewrite ?sapp_nil. reflexivity.
    - rewrite print_other by discriminate. rewrite print_same, print_other by discriminate. rewrite !sapp_assoc. reflexivity. }
  destruct (RB (seq 0 (size b)) (fold_left (one_row p m [a; b] [u; v; w] 0 a) (seq 0 (size a)) (headers [u; v; w]))) as (B1 & B0).
  rewrite B1, B0, !RA, H0, H1. cbn [Nat.eqb]. rewrite sapp_nil. split; [reflexivity|].
  unfold file_text. cbn [map].
  assert (J1 : forall s, join [s] = s) by (intros s; unfold join; cbn [fold_right]; apply sapp_nil).
  rewrite J1, !sapp_assoc. reflexivity.
Qed.
Print Assumptions C113_integer_refuted.

Definition some_printers : printers :=
  mkPrint (fun _ => "f") (fun _ => "lf") (fun _ => "ld") (fun _ => "1.000e+00") (fun _ => "1.000000e+00") (fun _ => "         7")
          (fun n => if Nat.eqb n 1 then "         1" else "         2").
Definition some_vars : list pubvar := [mkVar "tmin" Float "nmru"; mkVar "tmax" Float "nmru"; mkVar "q" Long "nsub"].
Example C113_case :
  is_real (mkVar "tmin" Float "nmru") /\
  animation some_printers (fun _ => 2) some_vars [mkMoment "1" "2020 1 1 0 0 0" "2020-01-01:00:00:00" (fun _ _ => 0%Z)] 1 =
  (file_header "nsub" [mkVar "q" Long "nsub"] ++ "2020-01-01:00:00:00" ++ tab ++ "         1" ++ newline ++
   "2020-01-01:00:00:00" ++ tab ++ "         2" ++ newline)%string /\
  statistics some_printers (fun _ => "1") (fun k => if String.eqb k "tmin" then Some (mkVar "tmin" Float "nmru") else None) (fun _ _ => 3)
    [mkChosen "tmin.temp" "4"] [mkMoment "1" "2020 1 1 0 0 0" "" (fun _ _ => 0%Z)] =
  Some ("1" ++ newline ++ "tmin.temp 4" ++ newline ++ "1 2020 1 1 0 0 0 f " ++ newline)%string.
Proof. split; [left; reflexivity|]. split; vm_compute; reflexivity. Qed.
