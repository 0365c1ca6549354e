(** Transfer of reactants (C72) and of their dictionary (C73). *)
From Coq Require Import String Ascii List ZArith QArith Bool Lia Sorting.Sorted.
From Verif Require Import CStr_Model Pack_Model Pack_Spec Pack_Proofs Pack2_Proofs.
Import ListNotations.
Local Open Scope string_scope.
Local Open Scope list_scope.
Local Open Scope Z_scope.

Definition empty : buf := mkBuf [] [] [].
(** ** C72 *)
(** Whatever is stored under the numbers of a range arrives in the other instance; nothing else there changes. *)
Theorem C72_transfer : forall src old first last t p, system_ok src -> last < 2147483647 ->
  exists b new, serialize src first last t p empty = Ret b /\ deserialize old b = Ret new /\ transferred first last t p src old new.
Proof. intros src old first last t p OK L. destruct (round_trip src old first last t p OK L) as (b & new & E & D & T & _). exists b, new. auto. Qed.
(** Several ranges, of several instances, packed one after another arrive in that order. *)
Theorem C72_ranges : forall src old first last t p src2 first2 last2 t2 p2, system_ok src -> system_ok src2 -> last < 2147483647 -> last2 < 2147483647 ->
  exists b b2 mid new, serialize src first last t p empty = Ret b /\ serialize src2 first2 last2 t2 p2 b = Ret b2 /\ deserialize old b2 = Ret new /\
    transferred first last t p src old mid /\ transferred first2 last2 t2 p2 src2 mid new.
Proof. intros. apply round_trip_two; assumption. Qed.
(** Packing what arrived gives the very same data. *)
Theorem C72_again : forall src old first last t p b new, system_ok src -> last < 2147483647 -> clear first last old ->
  serialize src first last t p empty = Ret b -> deserialize old b = Ret new -> serialize new first last t p empty = Ret b.
Proof.
  intros src old first last t p b new OK L C E D. destruct (round_trip src old first last t p OK L) as (b' & new' & E' & D' & _ & N & _). fold empty in E'. rewrite E in E'. injection E' as <-. rewrite D in D'. injection D' as <-. rewrite N, resend by exact C. exact E.
Qed.
(** A type that is not known ends the program. *)
Theorem C72_unknown : forall s code ints dbls ws, (code < 0 \/ 8 < code) -> deserialize s (mkBuf ws (code :: ints) dbls) = Exit.
Proof.
  intros s code il dl ws H. unfold deserialize, unpack. cbn [Pack_Model.ints length fst Nat.ltb Nat.leb]. unfold andthen, get_i. cbn [Pack_Model.ints nth_error fst snd bind].
  assert (X : receive s code = fun _ _ => Exit). { destruct code as [|c|c]; [lia| |reflexivity]. do 4 (destruct c as [c|c|]; try reflexivity; try lia). } rewrite X. reflexivity.
Qed.
Definition ex_key1 : numkey := mkKey 1 3 "river".
Definition ex_solution (v : Q) : solution :=
  mkSol ex_key1 false 1 0 25 7 4 0 1 111 55 0 1 1 1 v 1 0 [("Ca", 1 # 1000); ("Cl", 2 # 1000)] [("Ca+2", -(3) # 1)] [] [("13C", mkIso 13 "C" "13C" 1 0 0 true 0 0)] [(3, 1 # 2); (8, 1%Q)] [] [].
Definition ex_charge (m : list (Q * Q)) : surf_charge := mkCh "Hfo" 600 1 0 0 1 0 0 1 5 [("Na", 1 # 5)] 0 0 0 0 [(-(1) # 1, mkDl 1 2 3); (1 # 1, mkDl 4 5 6)] m [(4, 1 # 4)].
Definition ex_surface (f : bool) (m : list (Q * Q)) : surface :=
  mkSurf ex_key1 [mkSuc "HfoOH" 0 1 [("Hfo", 1%Q)] 0 "Hfo" 0 "" 0 "" 0 "Hfo"] [ex_charge m] true true 1 2 0 false 1 0 1 f 0 false false [("Hfo", 1%Q)] true 1.
Definition ex_pp : pp := mkPp ex_key1 true [("Calcite", mkPc "Calcite" "" 0 0 1 0 1 false false true [("C", 1%Q); ("Ca", 1%Q)]); ("Gypsum", mkPc "Gypsum" "" 0 0 2 0 2 false true false [])] [("Ca", 3%Q)] [].
Definition ex_steps : steps := mkSteps ex_key1 [25; 30; 35]%Q 3 true.
Definition no_system : system := mkSys (fun _ => None) (fun _ => None) (fun _ => None) (fun _ => None) (fun _ => None) (fun _ => None) (fun _ => None) (fun _ => None) (fun _ => None).
Definition at1 {A} (x : A) : Z -> option A := fun n => if n =? 1 then Some x else None.
Definition ex_system (v : Q) (f : bool) : system :=
  mkSys (at1 (ex_solution v)) (fun _ => None) (fun _ => None) (fun _ => None) (at1 ex_pp) (fun _ => None) (at1 (ex_surface f [])) (at1 ex_steps) (fun _ => None).
Lemma own_at1 {A} key (ok : A -> Prop) x : n_user (key x) = 1 -> ok x -> own_number key ok (at1 x).
Proof. intros K O n y. unfold at1. destruct (Z.eqb_spec n 1) as [-> | N]; [|discriminate]. intros H. injection H as <-. auto. Qed.
Lemma own_none {A} key (ok : A -> Prop) : own_number key ok (fun _ => None).
Proof. intros n y H. discriminate. Qed.
Lemma ex_names a b (x y : Q) : String.compare a b = Lt -> a <> "" -> b <> "" -> names_ok [(a, x); (b, y)].
Proof. intros H A B. split; [repeat constructor; exact H|repeat constructor; assumption]. Qed.
Lemma ex_name a (x : Q) : a <> "" -> names_ok [(a, x)].
Proof. intros A. split; repeat constructor; exact A. Qed.
Lemma ex_noname : names_ok []. Proof. split; constructor. Qed.
Lemma ex_ok v f : system_ok (ex_system v f).
Proof.
  unfold system_ok, ex_system. cbn [solutions exchanges gases kinetic pps ssas surfaces temperatures pressures].
  split; [apply own_at1; [reflexivity|]|]. { unfold solution_ok. cbn [ex_solution sol_totals activities gammas isotopes species log_gammas log_molalities]. split; [apply ex_names; [reflexivity|discriminate|discriminate]|]. split; [apply ex_name; discriminate|]. split; [exact ex_noname|]. repeat split; repeat constructor. }
  split; [apply own_none|]. split; [apply own_none|]. split; [apply own_none|]. split; [apply own_at1; [reflexivity|]|]. { unfold pp_ok. cbn [ex_pp pp_elts pp_totals pp_comps]. split; [apply ex_name; discriminate|]. split; [exact ex_noname|]. split; [split; repeat constructor|]. constructor; [apply ex_names; [reflexivity|discriminate|discriminate]|]. constructor; [exact ex_noname|constructor]. }
  split; [apply own_none|]. split; [apply own_at1; [reflexivity|]|]. { unfold surface_ok. cbn [ex_surface sf_totals sf_comps sf_charges]. split; [apply ex_name; discriminate|]. split; [constructor; [apply ex_name; discriminate|constructor]|]. constructor; [|constructor]. cbn [ex_charge ch_totals ch_g ch_species]. split; [apply ex_name; discriminate|]. split; repeat constructor. }
  split; [apply own_at1; [reflexivity|exact I]|apply own_none].
Qed.
Example C72_example : system_ok (ex_system 1 false) /\ clear 0 5 no_system /\
  match serialize (ex_system 1 false) 0 5 true true empty with
  | Ret b => Pack_Model.ints b <> [] /\ In "Calcite" (words b) /\
             match deserialize no_system b with Ret new => option_map description (option_map sol_key (solutions new 1)) = Some "  " /\ option_map st_values (temperatures new 1) = Some [25; 30; 35]%Q /\ solutions new 2 = None | _ => False end
  | _ => False end.
Proof. split; [apply ex_ok|]. split; [intros n _; repeat split|]. vm_compute. split; [discriminate|]. split; [intuition|]. repeat split. Qed.
(** The viscosity of pure water at the solution's temperature, the flag that asks for the viscosity of the diffuse layer and its map of
    charges are not sent (Solution.cxx:1597-1613, Surface.cxx:752-763, SurfaceCharge.cxx:496-533): the first arrives as 1, the
    second as false, the third empty. *)
Theorem C72_lost_refuted : forall v f m, exists b y b' y',
  serialize (ex_system v f) 1 1 false false empty = Ret b /\ (exists new, deserialize no_system b = Ret new /\ solutions new 1 = Some y) /\ viscos_0 y = 1%Q /\
  serialize (mkSys (fun _ => None) (fun _ => None) (fun _ => None) (fun _ => None) (fun _ => None) (fun _ => None) (at1 (ex_surface f m)) (fun _ => None) (fun _ => None)) 1 1 false false empty = Ret b' /\
  (exists new, deserialize no_system b' = Ret new /\ surfaces new 1 = Some y') /\ sf_calc y' = false /\ map ch_mcd (sf_charges y') = [[]].
Proof.
  intros v f m. eexists _, _, _, _. split; [vm_compute; reflexivity|]. split; [eexists; split; [vm_compute; reflexivity|vm_compute; reflexivity]|]. split; [reflexivity|]. split; [vm_compute; reflexivity|].
  split; [eexists; split; [vm_compute; reflexivity|vm_compute; reflexivity]|]. split; reflexivity.
Qed.
Definition ex_nameless : exchange := mkExch ex_key1 [] true false true 2 [("", 5); ("X", 7)]%Q.
(** An amount without a name is written, but when read it is skipped without its number (NameDouble.cxx:529-535): the amount after it
    gets that number, and everything that follows is out of step. *)
Theorem C72_nameless_refuted : exists b new y, serialize (mkSys (fun _ => None) (at1 ex_nameless) (fun _ => None) (fun _ => None) (fun _ => None) (fun _ => None) (fun _ => None) (fun _ => None) (fun _ => None)) 1 1 false false empty = Ret b /\
  deserialize no_system b = Ret new /\ exchanges new 1 = Some y /\ ex_totals y = [("X", 5)]%Q.
Proof. eexists _, _, _. split; [vm_compute; reflexivity|]. split; [vm_compute; reflexivity|]. split; vm_compute; reflexivity. Qed.
(** Packing up to the largest int is undefined: the loop variable overflows after the last number (Serializer.cxx:30). *)
Theorem C72_largest_refuted : forall s first t p b, first <= 2147483647 -> serialize s first 2147483647 t p b = UB.
Proof. intros s first t p b H. unfold serialize. replace (first <=? 2147483647) with true by lia. reflexivity. Qed.
Print Assumptions C72_transfer.
Print Assumptions C72_ranges.
Print Assumptions C72_again.
Print Assumptions C72_unknown.
Print Assumptions C72_lost_refuted.
Print Assumptions C72_nameless_refuted.
Print Assumptions C72_largest_refuted.

(** ** C73 *)
(** Every word of the packed data is listed once, and a word keeps its number when more words are added. *)
Theorem C73_distinct : forall s first last t p b b', serialize s first last t p b = Ret b' -> NoDup (words b) -> NoDup (words b') /\ exists w, words b' = words b ++ w.
Proof.
  intros s first last t p b b' E N. split; [eapply tidy_serialize; eassumption|]. unfold serialize in E. destruct ((first <=? last) && (last =? INT_MAX)); [discriminate|]. injection E as <-. apply extends_all. intros i. apply extends_number.
Qed.
(** A word is found under the number it was given; a new word gets the next number. *)
Theorem C73_find : forall ws w n ws', dict_find ws w = (n, ws') -> nth_error ws' (Z.to_nat n) = Some w /\ 0 <= n /\ (In w ws -> ws' = ws) /\ (~ In w ws -> ws' = ws ++ [w] /\ n = Z.of_nat (length ws)).
Proof.
  intros ws w n ws' E. destruct (find_at ws w) as (x & A & B & C). rewrite E in A, B, C. cbn [fst snd] in *. split; [rewrite A; exact C|]. split; [exact B|]. unfold dict_find in E. destruct (place ws w) as [k|] eqn:P.
  - injection E as <- <-. split; [reflexivity|]. intros N. apply place_none in N. congruence.
  - injection E as <- <-. apply place_none in P. split; [intros H; contradiction|auto].
Qed.
(** A dictionary rebuilt from its text is the same, if no word has a line break or more than 255 characters; the data then arrive as with
    the original. *)
Theorem C73_text : forall src old first last t p, system_ok src -> last < 2147483647 -> forall b, serialize src first last t p empty = Ret b -> Forall line_word (words b) ->
  dictionary_of (dict_text (words b)) = words b /\ exists new, deserialize old (mkBuf (dictionary_of (dict_text (words b))) (Pack_Model.ints b) (dbls b)) = Ret new /\ transferred first last t p src old new.
Proof.
  intros src old first last t p OK L b E W. assert (N : NoDup (words b)) by (eapply tidy_serialize; [exact E|constructor]). pose proof (dictionary_ok _ W N) as D. split; [exact D|]. rewrite D. destruct (round_trip src old first last t p OK L) as (b' & new & E' & D' & T & _). unfold empty in E. rewrite E in E'. injection E' as <-. exists new. destruct b; auto.
Qed.
Definition ex_long : string := fold_right (fun _ s => String "a" s) "" (List.seq 0 256).
(** A word of 256 characters and all words after it are lost when the dictionary is rebuilt from its text (Dictionary.cpp:17-22). *)
Theorem C73_long_refuted : forall ws, dictionary_of (dict_text ("Ca" :: ex_long :: ws)) = ["Ca"].
Proof.
  intros ws. unfold dictionary_of. assert (X : forall n, dict_read (S (S n)) (dict_text ("Ca" :: ex_long :: ws)) [] = ["Ca"]). { intros n. remember (dict_text ws) as u eqn:U. change (dict_text ("Ca" :: ex_long :: ws)) with ("Ca" ++ String newline (ex_long ++ String newline (dict_text ws)))%string. rewrite <- U. vm_compute. reflexivity. }
  exact (X _).
Qed.
Example C73_example : exists b, serialize (ex_system 1 false) 1 1 true false empty = Ret b /\ Forall line_word (words b) /\ (5 <= length (words b))%nat.
Proof. eexists. split; [vm_compute; reflexivity|]. split; [|cbn; lia]. cbn [words]. repeat (constructor; [split; [repeat split; discriminate|cbn; lia]|]); constructor. Qed.
Print Assumptions C73_distinct.
Print Assumptions C73_find.
Print Assumptions C73_text.
Print Assumptions C73_long_refuted.
