From Coq Require Import String Ascii List ZArith Bool Lia ZifyBool.
From Verif Require Import CStr_Model CNum_Model Elem_Model Elem_Proofs Ctrl_Model Ctrl_Spec Ctrl_Proofs Args_Model Args_Spec.
Import ListNotations.
Local Open Scope string_scope.
Local Open Scope list_scope.

Lemma skip2_app x f : String.length x = 2 -> skip2 (x ++ f)%string = f.
Proof.
  intros L. destruct x as [|a [|b [|c x]]]; try discriminate. unfold skip2. cbn [append String.length]. rewrite !Nat.sub_succ, Nat.sub_0_r. cbn [substring].
  induction f as [|c f IH]; [reflexivity|]. cbn [String.length substring]. rewrite IH. reflexivity.
Qed.
(** What one item does. *)
Definition switch_on (k : switch) (s : settings) : settings :=
  match k with Batch => set_batch s | Esp => set_esp s | Rosenbrock => set_rosenbrock s | Print => set_print s | Por => set_por s | Rtg => set_rtg s end.
Definition effect (i : item) (s : settings) : settings :=
  match i with
  | Switch k => switch_on k s | Control f => set_cont s f | Environment f => set_env s f | Set_ n v => set_pair s n v | File f => set_cont s f
  | Debug n => set_cont (set_debug s (atoi n)) n
  end.
Lemma parse_file f r s : is_file f -> parse (f :: r) s = parse r (set_cont s f).
Proof.
  intros [D F]. unfold option_starts in F. repeat match goal with H : Forall _ (_ :: _) |- _ => apply Forall_cons_iff in H; destruct H as [?H H] end.
  cbn [parse]. destruct (String.eqb_spec f "-debug"); [contradiction|]. repeat match goal with H : prefix _ f = false |- _ => rewrite H; clear H end. reflexivity.
Qed.
Lemma parse_set n v r s : parse ("-set" :: n :: v :: r) s = if Nat.ltb (length (set_pairs s)) 100 then parse r (set_pair s n v) else UB.
Proof.
  cbn [parse]. change (String.eqb "-set" "-debug") with false. cbv iota. change (prefix "-C" "-set") with false. change (prefix "-E" "-set") with false. change (prefix "-batch" "-set") with false. change (prefix "-esp" "-set") with false. change (prefix "-rosenbrock" "-set") with false. change (prefix "-print" "-set") with false. change (prefix "-por" "-set") with false. change (prefix "-rtg" "-set") with false. change (prefix "-set" "-set") with true. cbv iota. reflexivity.
Qed.
Lemma parse_item i r s : good i -> length (set_pairs s) < 100 -> parse (arguments i ++ r) s = parse r (effect i s).
Proof.
  intros G L. destruct i as [k|f|f|n v|f|n]; cbn [arguments app effect good] in *.
  - destruct k; reflexivity.
  - cbn [parse]. destruct (String.eqb_spec ("-C" ++ f) "-debug") as [E|_]; [discriminate|]. rewrite prefix_app, skip2_app by reflexivity. reflexivity.
  - cbn [parse]. destruct (String.eqb_spec ("-E" ++ f) "-debug") as [E|_]; [discriminate|]. change (prefix "-C" ("-E" ++ f)%string) with false. cbv iota. rewrite prefix_app, skip2_app by reflexivity. reflexivity.
  - rewrite parse_set. rewrite (proj2 (Nat.ltb_lt _ _) L). reflexivity.
  - apply parse_file. exact G.
  - change (parse ("-debug" :: n :: r) s) with (parse (n :: r) (set_debug s (atoi n))). apply parse_file. exact G.
Qed.
Lemma pairs_effect i s : set_pairs (effect i s) = set_pairs s ++ pairs_of [i].
Proof. destruct i as [[]|f|f|n v|f|n]; cbn; rewrite ?app_nil_r; reflexivity. Qed.
Lemma pairs_cons i l : pairs_of (i :: l) = pairs_of [i] ++ pairs_of l.
Proof. destruct i; reflexivity. Qed.
Lemma parse_items : forall l s, Forall good l -> length (set_pairs s) + length (pairs_of l) <= 100 -> parse (flat_map arguments l) s = Ret (fold_left (fun s i => effect i s) l s).
Proof.
  induction l as [|i l IH]; intros s G L; [reflexivity|]. inversion G; subst. cbn [flat_map fold_left]. rewrite pairs_cons, app_length in L.
  destruct (Nat.ltb_spec (length (set_pairs s)) 100) as [S|S].
  - rewrite parse_item by assumption. apply IH; [assumption|]. rewrite pairs_effect, app_length. lia.
  - assert (Z : pairs_of [i] = []) by (destruct (pairs_of [i]); [reflexivity|cbn [length] in L; lia]).
    assert (P : parse (arguments i ++ flat_map arguments l) s = parse (flat_map arguments l) (effect i s)).
    { destruct i as [k|f|f|n v|f|n]; try discriminate.
      - destruct k; reflexivity.
      - cbn [arguments app parse]. destruct (String.eqb_spec ("-C" ++ f) "-debug") as [E|_]; [discriminate|]. rewrite prefix_app, skip2_app by reflexivity. reflexivity.
      - cbn [arguments app parse]. destruct (String.eqb_spec ("-E" ++ f) "-debug") as [E|_]; [discriminate|]. change (prefix "-C" ("-E" ++ f)%string) with false. cbv iota. rewrite prefix_app, skip2_app by reflexivity. reflexivity.
      - apply parse_file. assumption.
      - change (parse (arguments (Debug n) ++ flat_map arguments l) s) with (parse (n :: flat_map arguments l) (set_debug s (atoi n))). apply parse_file. assumption. }
    rewrite P. apply IH; [assumption|]. rewrite pairs_effect, Z, app_nil_r. lia.
Qed.
(** The fields after all items. *)
Lemma all_pairs : forall l s, set_pairs (fold_left (fun s i => effect i s) l s) = set_pairs s ++ pairs_of l.
Proof. induction l as [|i l IH]; intros s; cbn [fold_left]; [rewrite app_nil_r; reflexivity|]. rewrite IH, pairs_effect, <- app_assoc, <- pairs_cons. reflexivity. Qed.
Lemma all_control : forall l s, Forall no_debug l -> cont_file (fold_left (fun s i => effect i s) l s) = control_of (cont_file s) l.
Proof. induction l as [|i l IH]; intros s N; [reflexivity|]. inversion N; subst. cbn [fold_left]. rewrite IH by assumption. destruct i as [[]|f|f|n v|f|n]; try reflexivity. contradiction. Qed.
Lemma all_environment : forall l s, env_file (fold_left (fun s i => effect i s) l s) = environment_of (env_file s) l.
Proof. induction l as [|i l IH]; intros s; [reflexivity|]. cbn [fold_left]. rewrite IH. destruct i as [[]|f|f|n v|f|n]; reflexivity. Qed.
Definition state (k : switch) (s : settings) : bool :=
  match k with Batch => batch s | Esp => esp s | Rosenbrock => rosenbrock s | Print => print_mode s | Por => period_of_record s | Rtg => runtime_graph s end.
Lemma all_switch k : forall l s, state k (fold_left (fun s i => effect i s) l s) = true <-> state k s = true \/ In (Switch k) l.
Proof.
  induction l as [|i l IH]; intros s; cbn [fold_left In]; [tauto|]. rewrite IH.
  assert (E : state k (effect i s) = true <-> state k s = true \/ i = Switch k).
  { destruct i as [j|f|f|n v|f|n]; [|split; [intros H; left; destruct k; exact H|intros [H|H]; [destruct k; exact H|discriminate]]..].
    destruct j, k; cbn; split; try (intros H; right; reflexivity); try (intros H; left; exact H); try reflexivity; try (intros [H|H]; [exact H|discriminate]). }
  rewrite E. tauto.
Qed.
Lemma all_debug : forall l s, Forall no_debug l -> debug (fold_left (fun s i => effect i s) l s) = debug s.
Proof. induction l as [|i l IH]; intros s N; [reflexivity|]. inversion N; subst. cbn [fold_left]. rewrite IH by assumption. destruct i as [[]|f|f|n v|f|n]; try reflexivity. contradiction. Qed.
(** Values separated by commas. *)
Lemma comma_word : forall t cur s, ~ In ","%char (list_ascii_of_string t) -> strtok_from is_comma cur (t ++ s) = strtok_from is_comma (cur ++ t) s.
Proof.
  induction t as [|c t IH]; intros cur s H; cbn [append]; [rewrite app_nil_s; reflexivity|]. cbn [strtok_from]. unfold is_comma at 1. cbn [list_ascii_of_string] in H.
  destruct (Ascii.eqb_spec c ",") as [->|_]; [destruct H; left; reflexivity|]. rewrite IH by (intros I; apply H; right; exact I). rewrite app_assoc_s. reflexivity.
Qed.
Lemma comma_tokens s ts : comma_list s ts -> strtok is_comma s = ts.
Proof.
  unfold strtok. induction 1 as [t [N I]|t s ts [N I] C IH].
  - rewrite <- (app_nil_s t) at 1. rewrite comma_word by exact I. cbn [append strtok_from]. destruct (String.eqb_spec t ""); [contradiction|reflexivity].
  - rewrite comma_word by exact I. cbn [append strtok_from]. change (is_comma ",") with true. cbv iota. destruct (String.eqb_spec t ""); [contradiction|]. rewrite IH. reflexivity.
Qed.
Section Over.
Context {V : Type}.
Variable atof : string -> V.
Lemma set_puts ty : (1 <= ty <= 4)%Z -> forall ts j mem, set_values atof ty mem j ts = puts atof ty j mem ts.
Proof.
  intros TY. assert (E : (ty = 1 \/ ty = 2 \/ ty = 3 \/ ty = 4)%Z) by lia. induction ts as [|t ts IH]; intros j mem; [reflexivity|]. cbn [set_values puts].
  destruct E as [-> | [-> | [-> | ->]]]; cbv [value_of Z.eqb Pos.eqb]; match goal with |- bind ?m _ = _ => destruct m end; cbn [bind]; (apply IH || reflexivity).
Qed.
End Over.
