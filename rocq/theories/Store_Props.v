(** COPY, DELETE and DUMP blocks and lists of numbers (C54-C57). *)
From Coq Require Import String Ascii List ZArith QArith Bool Lia ZifyBool Sorted.
From Verif Require Import CStr_Model CNum_Model Elem_Spec Elem_Proofs Pfile_Spec Data_Spec Data_Proofs Store_Model Store_Spec Store_Proofs.
Import ListNotations.
Local Open Scope string_scope.
Local Open Scope list_scope.
Local Open Scope Z_scope.

Ltac num := match goal with |- numeral ?s _ => let l := eval vm_compute in (digs s) in match l with Some ?l => exact (digs_numeral l s eq_refl ltac:(discriminate)) end end.

(** ** C54 *)
(** Every copy of a COPY block is carried out, in turn, and changes nothing but its targets. *)
Theorem C54_copy : forall (B : Type) (cs : kind -> list instr) (s : store B),
  (forall k, keys_up (s k)) -> (forall k n a e, In (n, a, e) (cs k) -> an_int n /\ target_range a e) ->
  exists s', copy_entities copy_order cs s = Some s' /\ forall k, keys_up (s' k) /\ copied_all (cs k) (zfind (s k)) (zfind (s' k)).
Proof.
  intros B cs s U H. destruct (copy_entities_ok copy_order cs s copy_order_nodup) as (s' & E & P).
  - intros k. destruct (copy_kind_ok (cs k) (s k) (U k) (H k)) as (m & E & _). exists m. exact E.
  - exists s'. split; [exact E|]. intros k. destruct (copy_kind_ok (cs k) (s k) (U k) (H k)) as (m & E1 & U1 & C1). destruct (P k) as [P1 _]. rewrite (P1 (copy_kinds_all k)) in E1. injection E1 as <-. auto.
Qed.
Print Assumptions C54_copy.

(** A COPY line with a source and a target or a range of targets is read as it is written. *)
Theorem C54_read : forall w src tgt n a e cs, w <> COther -> int_text src n -> an_int n ->
  (int_text tgt a /\ an_int a /\ e = a \/ exists ta te, tgt = (ta ++ "-" ++ te)%string /\ int_text ta a /\ int_text te e /\ an_int a /\ an_int e) ->
  exists cs', read_copy w src tgt cs = Ret (Some cs') /\
    forall k, (w = CCell \/ w = CKind k -> cs' k = cs k ++ [(n, a, e)]) /\ (w <> CCell -> w <> CKind k -> cs' k = cs k).
Proof.
  intros w src tgt n a e cs W SR IN T. destruct (read_copy_ok w src tgt n a e cs W SR IN T) as (cs' & E & P). exists cs'. split; [exact E|]. intros k. rewrite P. unfold added. split.
  - intros [-> | ->]; [reflexivity|]. destruct (kind_eqb_spec k k); [reflexivity|congruence].
  - intros N1 N2. destruct w as [k'| |]; [|congruence|reflexivity]. destruct (kind_eqb_spec k k') as [->|]; [congruence|reflexivity].
Qed.
Print Assumptions C54_read.
(** A block for an unknown kind, or whose numbers do not begin like numbers, is refused. *)
Theorem C54_refused : forall w src tgt cs, is_number src = false -> read_copy w src tgt cs = Ret None.
Proof. intros w src tgt cs H. unfold read_copy. rewrite H. reflexivity. Qed.
Print Assumptions C54_refused.

(** Defining a reactant for a range of numbers gives each of them the same contents. *)
Theorem C54_range : forall (B : Type) (m : zmap (entity B)) i j, keys_up m -> keys_up (rxn_copies m i j) /\ copied i i j (zfind m) (zfind (rxn_copies m i j)).
Proof. intros B m i j U. exact (copies_ok m i j U). Qed.
Print Assumptions C54_range.

(** The next free number is above every number in use. *)
Theorem C54_next : forall (B : Type) (m : zmap (entity B)), keys_up m ->
  (forall k, next_user_number m <= k -> zfind m k = None) /\ (m <> [] -> zfind m (next_user_number m - 1) <> None).
Proof.
  intros B m U. split; [exact (next_unused m U)|]. intros NE. unfold next_user_number. pose proof (last_key_max m U) as L. destruct (last_key m) as [l|]; [|congruence]. destruct L as [_ L].
  replace (l + 1 - 1) with l by lia. clear -L. induction m as [|[n x] m IH]; [elim L|]. cbn [zfind]. destruct (Z.eqb_spec n l); [discriminate|]. apply IH. destruct L; [contradiction|assumption].
Qed.
Print Assumptions C54_next.

(** A copy whose last target is -1, such as "COPY solution 1 -3--1", never ends. *)
Theorem C54_endless_refuted : forall (B : Type) (m : zmap (entity B)) n a x, zfind m n = Some x -> copy_one m (n, a, -1) = None.
Proof. intros B m n a x F. unfold copy_one. rewrite F. reflexivity. Qed.
Print Assumptions C54_endless_refuted.
(** A copy to a range from a negative to a non-negative number, such as "COPY solution 1 -3-5", copies nothing. *)
Theorem C54_negative_refuted : forall (B : Type) (m : zmap (entity B)) n a e, an_int a -> an_int e -> a < 0 -> 0 <= e -> copy_one m (n, a, e) = Some m.
Proof.
  intros B m n a e A E LA LE. unfold copy_one. destruct (zfind m n); [|reflexivity]. destruct (Z.eqb_spec e (-1)); [lia|]. rewrite (size_neg a LA A), (size_pos e LE E).
  replace (Z.to_nat _) with O by (unfold an_int in *; lia). reflexivity.
Qed.
Print Assumptions C54_negative_refuted.
(** A copy to a range that ends below -1 and begins at zero or above, such as "COPY solution 1 5--3", overwrites the
    reactants of every other number an int can hold. *)
Theorem C54_overwrites_refuted : forall (B : Type) (m : zmap (entity B)) n a e x, keys_up m -> an_int n -> an_int a -> an_int e -> 0 <= a -> e < -1 -> zfind m n = Some x ->
  exists m', copy_one m (n, a, e) = Some m' /\ forall k, an_int k -> k <> n -> zfind m' k = Some (numbered k x).
Proof.
  intros B m n a e x U IN IA IE A E F. unfold copy_one. rewrite F. destruct (Z.eqb_spec e (-1)); [lia|]. eexists. split; [reflexivity|]. intros k IK NK.
  destruct (copy_fold n (zrange (size_of a) (Z.to_nat (size_of e - size_of a + 1))) m x F U) as (_ & I1 & _). unfold copy_loop in I1. apply I1. rewrite (size_pos a A IA), (size_neg e ltac:(lia) IE).
  pose proof (Z.mod_pos_bound (k - a) (2 ^ 32) ltac:(lia)) as MB. pose proof (Z.div_mod (k - a) (2 ^ 32) ltac:(lia)) as DM.
  exists (a + (k - a) mod 2 ^ 32). rewrite in_zrange. unfold an_int in *. split; [lia|].
  assert (IO : int_of (a + (k - a) mod 2 ^ 32) = k) by (apply int_of_congr with (q := - ((k - a) / 2 ^ 32)); unfold an_int; lia).
  split; [|exact IO]. intros EQ. destruct (Z.ltb_spec n 0) as [L|L].
  - rewrite (size_neg n L IN) in EQ. lia.
  - rewrite (size_pos n L IN) in EQ. rewrite EQ in IO. rewrite (int_of_congr n n 0) in IO; unfold an_int; lia.
Qed.
Print Assumptions C54_overwrites_refuted.
(** A source that is only a sign or a point passes as a number and an unset variable is used. *)
Theorem C54_unset_refuted : forall w src tgt cs, src = "-" \/ src = "." -> read_copy w src tgt cs = UB.
Proof. intros w src tgt cs [-> | ->]; reflexivity. Qed.
Print Assumptions C54_unset_refuted.

Definition st0 : store nat := fun k => match k with
  | Solution => [(-2, mkEntity (-2) (-2) 9%nat); (1, mkEntity 1 3 7%nat); (5, mkEntity 5 5 8%nat)]
  | Exchange => [(1, mkEntity 1 1 4%nat)] | _ => [] end.
Lemma st0_up : forall k, keys_up (st0 k).
Proof. intros []; cbn; repeat (constructor; [|repeat (constructor; try lia)]); constructor. Qed.
Example C54_ex :
  (exists cs, read_copy (CKind Solution) "1" "4-6" (fun _ => []) = Ret (Some cs) /\ cs Solution = [(1, 4, 6)] /\ cs Exchange = []) /\
  target_range 4 6 /\
  (exists s, copy_entities copy_order (fun k => match k with Solution => [(1, 4, 6)] | _ => [] end) st0 = Some s /\
     map fst (s Solution) = [-2; 1; 4; 5; 6] /\ option_map (@body nat) (zfind (s Solution) 5) = Some 7%nat /\ s Exchange = st0 Exchange).
Proof.
  split; [eexists; split; [reflexivity|split; reflexivity]|]. split; [unfold target_range, an_int; lia|].
  eexists. split; [vm_compute; reflexivity|]. split; [reflexivity|]. split; reflexivity.
Qed.

(** ** C55 *)
(** A number or a range adds exactly the numbers it names. *)
Theorem C55_listing : forall it t a b, StronglySorted Z.lt (numbers it) -> listing t a b ->
  exists it', augment it t = Ret it' /\ defined it' = true /\ StronglySorted Z.lt (numbers it') /\ forall x, In x (numbers it') <-> between a b x \/ In x (numbers it).
Proof. intros it t a b OK L. destruct (augment_listing it t a b L OK) as (it' & E & D & OK' & _ & P). exists it'. auto. Qed.
Print Assumptions C55_listing.
(** So does a row of them, in a DELETE block and in a DUMP block. *)
Theorem C55_row : forall it toks, StronglySorted Z.lt (numbers it) -> all_listings toks ->
  exists it', read_tokens it toks = Ret it' /\ dump_tokens it toks = Ret it' /\ defined it' = true /\ forall x, In x (numbers it') <-> listed toks x \/ In x (numbers it).
Proof.
  intros it toks OK AL. destruct (tokens_ok read_tokens toks (fun _ => eq_refl) ltac:(intros i t l E; cbn [read_tokens]; rewrite E; reflexivity) it AL OK) as (it' & E & D & _ & _ & _ & P).
  exists it'. split; [exact E|]. split; [|split; [exact D|exact P]]. rewrite <- E. clear -AL. revert it. induction AL as [|t l (a & b & L) AL IH]; intros it; [reflexivity|].
  cbn [read_tokens dump_tokens]. rewrite (is_number_listing t a b L). destruct (augment it t); [apply IH|reflexivity|reflexivity].
Qed.
Print Assumptions C55_row.
(** A range that ends with the largest int overflows its counter. *)
Theorem C55_largest_refuted : forall it ta a, int_text ta a -> an_int a -> a <> 2147483647 -> augment it (ta ++ "-" ++ "2147483647") = UB.
Proof.
  intros it ta a TA IA NA. assert (TB : int_text "2147483647" 2147483647) by (apply it_plain; num).
  unfold augment. rewrite (text_not_empty ta a _ TA), (respell_range ta _ a 2147483647 TA TB).
  pose proof (scan_int 0 ta a (" " ++ "2147483647")%string TA eq_refl IA) as SC. cbn [blanks] in SC. change ("" ++ ta ++ " " ++ "2147483647")%string with (ta ++ " " ++ "2147483647")%string in SC. rewrite SC.
  replace (scan (" " ++ "2147483647")) with (Some (2147483647, "")) by reflexivity. destruct (Z.eqb_spec a 2147483647); [congruence|]. unfold an_int in IA. destruct (Z.eqb_spec (Z.max a 2147483647) INT_MAX) as [_|X]; [reflexivity|]. unfold INT_MAX in X. lia.
Qed.
Print Assumptions C55_largest_refuted.
(** What follows a range in the same word is ignored; "&" stands for the sign of a number. *)
Theorem C55_ignored_refuted : exists it, augment no_item "1-2-9" = Ret it /\ ~ In 9 (numbers it) /\ augment no_item "1-2" = Ret it.
Proof. eexists. split; [reflexivity|]. split; [vm_compute; intuition discriminate|reflexivity]. Qed.
Print Assumptions C55_ignored_refuted.
(** A number that does not fit an int adds nothing, but the kind counts as named. *)
Theorem C55_too_large_refuted : forall it, augment it "99999999999" = Ret (mkItem true (numbers it)).
Proof. reflexivity. Qed.
Print Assumptions C55_too_large_refuted.
Example C55_ex : listing "3-6" 3 6 /\ listing "-5--2" (-5) (-2) /\ augment (mkItem true [4; 9]) "3-6" = Ret (mkItem true [3; 4; 5; 6; 9]) /\ augment no_item "-2--5" = Ret (mkItem true [-5; -4; -3; -2]).
Proof.
  split; [apply (li_range "3" "6" 3 6); try (unfold an_int; lia); apply it_plain; num|].
  split; [apply (li_range "-5" "-2" (-5) (-2)); try (unfold an_int; lia); [apply (it_minus "5" 5)|apply (it_minus "2" 2)]; num|].
  split; reflexivity.
Qed.

(** ** C56 *)
(** A DELETE block of number lists removes exactly the reactants it names and leaves nothing selected. *)
Theorem C56_listed : forall (B : Type) (b : binlist) ls (s : store B), unselected b -> delete_list ls -> (forall k, keys_up (s k)) ->
  exists b', read_delete b ls = Ret (b', true) /\ let (s', b'') := delete_entities b' s in
    unselected b'' /\ forall k, keys_up (s' k) /\ forall x, (delete_names ls k x -> zfind (s' k) x = None) /\ (~ delete_names ls k x -> zfind (s' k) x = zfind (s k) x).
Proof.
  intros B b ls s U D UP. destruct (read_delete_ok ls b D U) as (b' & E & SB & P). exists b'. split; [exact E|]. destruct (delete_ok b' s SB UP) as [UN R]. destruct (delete_entities b' s) as [s' b'']. cbn [fst snd] in *.
  split; [exact UN|]. intros k. destruct (R k) as [R0 R1]. split; [exact R0|]. intros x. destruct (R1 x) as [R2 R3]. rewrite P in R2, R3. auto.
Qed.
Print Assumptions C56_listed.
(** "-all" and "-cells" without numbers remove everything. *)
Theorem C56_all : forall (B : Type) (b : binlist) ls (s : store B), ls = [(Some OAll, [])] \/ ls = [(Some OCells, [])] ->
  exists b', read_delete b ls = Ret (b', true) /\ unselected (snd (delete_entities b' s)) /\ forall k, fst (delete_entities b' s) k = [].
Proof.
  intros B b ls s [-> | ->]; (eexists; split; [reflexivity|]); (split; [intros k; reflexivity|intros k; reflexivity]).
Qed.
Print Assumptions C56_all.
(** A kind without numbers removes all reactants of the kind and no others. *)
Theorem C56_bare : forall (B : Type) (b : binlist) k (s : store B), unselected b ->
  exists b', read_delete b [(Some (OKind k), [])] = Ret (b', true) /\ unselected (snd (delete_entities b' s)) /\
    fst (delete_entities b' s) k = [] /\ forall k', k' <> k -> fst (delete_entities b' s) k' = s k'.
Proof.
  intros B b k s U. eexists. split; [reflexivity|].
  set (b' := if defined _ then _ else _). assert (IT : forall k', items b' k' = if kind_eqb k' k then mkItem true [] else no_item).
  { intros k'. unfold b'. cbn [cell defined set_item no_item items]. destruct (kind_eqb k' k); [|apply U]. rewrite U. reflexivity. }
  unfold delete_entities. assert (EX : existsb (fun k => defined (items b' k)) kinds = true).
  { apply existsb_exists. exists k. split; [apply kinds_all|]. rewrite IT. destruct (kind_eqb_spec k k); [reflexivity|congruence]. }
  rewrite EX. cbn [fst snd]. split; [intros k'; reflexivity|]. unfold delete_kind. split.
  - rewrite IT. destruct (kind_eqb_spec k k); [reflexivity|congruence].
  - intros k' N. rewrite IT. destruct (kind_eqb_spec k' k); [congruence|reflexivity].
Qed.
Print Assumptions C56_bare.
(** A block is carried out once: with nothing selected nothing is removed. *)
Theorem C56_once : forall (B : Type) (b : binlist) (s : store B), unselected b -> delete_entities b s = (s, b).
Proof.
  intros B b s U. unfold delete_entities. destruct (existsb (fun k => defined (items b k)) kinds) eqn:EX; [|reflexivity]. apply existsb_exists in EX. destruct EX as (k & _ & D). rewrite U in D. discriminate.
Qed.
Print Assumptions C56_once.
(** A number after "-all" (or after the bare kind) narrows the choice instead of adding to it: only that number goes. *)
Theorem C56_narrowed_refuted : forall (B : Type) (b : binlist) (s : store B), unselected b ->
  exists b', read_delete b [(Some OAll, []); (Some (OKind Solution), ["3"])] = Ret (b', true) /\ forall x, x <> 3 -> keys_up (s Solution) -> zfind (fst (delete_entities b' s) Solution) x = zfind (s Solution) x.
Proof.
  intros B b s U. eexists. split; [reflexivity|]. intros x N UP. cbn. rewrite (find_erase (s Solution) 3 x UP). destruct (Z.eqb_spec x 3); [contradiction|reflexivity].
Qed.
Print Assumptions C56_narrowed_refuted.
(** A number that does not fit an int, or a lone point, removes every reactant of the kind. *)
Theorem C56_too_large_refuted : forall (B : Type) (b : binlist) (s : store B) t, unselected b -> t = "99999999999" \/ t = "." ->
  exists b', read_delete b [(Some (OKind Solution), [t])] = Ret (b', true) /\ fst (delete_entities b' s) Solution = [].
Proof.
  intros B b s t U T. unfold read_delete. cbn [delete_lines read_tokens].
  assert (E : is_number t = true /\ forall it, augment it t = Ret (mkItem true (numbers it))) by (destruct T as [-> | ->]; split; reflexivity).
  destruct E as [-> E]. cbn [items]. rewrite E, U. cbn [bind numbers no_item delete_lines read_tokens set_item cell defined]. eexists. split; [reflexivity|]. reflexivity.
Qed.
Print Assumptions C56_too_large_refuted.
(** A block that ends in an unknown option is reported as wrong; what comes before is still removed. *)
Theorem C56_half_refuted : forall (B : Type) (b : binlist) (s : store B), unselected b ->
  exists b', read_delete b [(Some (OKind Solution), []); (Some OUnknown, ["9"])] = Ret (b', false) /\ fst (delete_entities b' s) Solution = [].
Proof. intros B b s U. eexists. split; [reflexivity|]. unfold delete_entities, delete_kind. cbn. rewrite U. reflexivity. Qed.
Print Assumptions C56_half_refuted.
Definition lines0 : list (line_of option_of_delete) := [(Some (OKind Solution), ["1"; "4-6"]); (Some OCells, ["-2"])].
Example C56_ex : unselected no_bin /\ delete_list lines0 /\ delete_names lines0 Solution 5 /\ ~ delete_names lines0 Exchange 1 /\
  exists b', read_delete no_bin lines0 = Ret (b', true) /\ fst (delete_entities b' st0) Solution = [] /\ fst (delete_entities b' st0) Exchange = st0 Exchange.
Proof.
  assert (L1 : listing "1" 1 1) by (apply li_one; [apply it_plain; num|unfold an_int; lia]).
  assert (L2 : listing "4-6" 4 6) by (apply (li_range "4" "6" 4 6); try (unfold an_int; lia); apply it_plain; num).
  assert (L3 : listing "-2" (-2) (-2)) by (apply li_one; [apply (it_minus "2" 2); num|unfold an_int; lia]).
  split; [intros k; reflexivity|]. split.
  { unfold delete_list. cbn [with_options lines0]. constructor; [|constructor; [|constructor]]; cbn [fst snd].
    - split; [right; eexists; reflexivity|]. split; [discriminate|]. constructor; [eexists; eexists; exact L1|]. constructor; [eexists; eexists; exact L2|constructor].
    - split; [left; reflexivity|]. split; [discriminate|]. constructor; [eexists; eexists; exact L3|constructor]. }
  split. { exists ["1"; "4-6"]. split; [right; left; reflexivity|]. exists "4-6", 4, 6. split; [right; left; reflexivity|]. split; [exact L2|unfold between; lia]. }
  split.
  { intros (toks & [[T|[T|[]]]|[T|[T|[]]]] & t & a & b & I1 & L & BT); try discriminate. injection T as <-. destruct I1 as [<-|[]]. pose proof (listing_unique _ _ _ _ _ L L3). unfold between in BT. lia. }
  eexists. split; [vm_compute; reflexivity|]. split; vm_compute; reflexivity.
Qed.

(** ** C57 *)
(** A DUMP block of number lists writes exactly the reactants it names, once, whatever was chosen before. *)
Theorem C57_listed : forall (B : Type) (b : binlist) ls (s : store B) chosen, ls <> [] -> dump_list ls -> (forall k, keys_up (s k)) -> own_numbers s ->
  (forall k x, chosen k x = true <-> dump_names ls k x) ->
  exists b', read_dump b ls = Ret (b', true) /\ let (out, st) := dump_entities (true, b') s in
    out = written chosen s /\ forall s2 : store B, fst (dump_entities st s2) = [].
Proof.
  intros B b ls s chosen NE D UP OWN CH. destruct (read_dump_ok ls b NE D) as (b' & E & SB & P). exists b'. split; [exact E|]. cbn [dump_entities fst snd]. split; [|reflexivity].
  unfold dump_ostream, written. change dump_order with kinds. apply flat_map_ext. intros k.
  rewrite (dump_kind_ok (s k) (items b' k) (chosen k) (SB k) (UP k) (OWN k)) by (intros x; rewrite P; apply CH). rewrite map_map. reflexivity.
Qed.
Print Assumptions C57_listed.
(** "-all" writes everything whose number is not negative. *)
Theorem C57_all : forall (B : Type) (b : binlist) (s : store B), own_numbers s ->
  exists b', read_dump b [(Some DAll, [])] = Ret (b', true) /\ fst (dump_entities (true, b') s) = written (fun _ _ => true) s.
Proof.
  intros B b s OWN. eexists. split; [reflexivity|]. cbn [dump_entities fst snd]. unfold dump_ostream, written. change dump_order with kinds. apply flat_map_ext. intros k. cbn [items set_all]. unfold dump_kind. cbn [defined numbers].
  rewrite map_map. f_equal. apply filter_ext_in. intros x X. pose proof (OWN k) as O. rewrite Forall_forall in O. rewrite (O x X). cbn. apply andb_diag.
Qed.
Print Assumptions C57_all.
(** "-cells" without numbers, which removes everything in a DELETE block, writes nothing in a DUMP block. *)
Theorem C57_cells_refuted : forall (B : Type) (b : binlist) (s : store B),
  exists b', read_dump b [(Some DCells, [])] = Ret (b', true) /\ fst (dump_entities (true, b') s) = [].
Proof. intros B b s. eexists. split; reflexivity. Qed.
Print Assumptions C57_cells_refuted.
(** A block with only "-file" or "-append" repeats the choice of the block before. *)
Theorem C57_repeated_refuted : forall (B : Type) (b : binlist) (s : store B) o toks, o = DFile \/ o = DAppend ->
  read_dump b [(Some o, toks)] = Ret (b, true) /\ fst (dump_entities (true, b) s) = dump_ostream b s.
Proof. intros B b s o toks [-> | ->]; split; reflexivity. Qed.
Print Assumptions C57_repeated_refuted.
Definition lines1 : list (line_of option_of_dump) := [(Some (DKind Solution), ["4-6"; "1"]); (None, ["-2"])].
Example C57_ex : dump_list lines1 /\ own_numbers st0 /\ dump_names lines1 Solution (-2) /\
  exists b', read_dump no_bin lines1 = Ret (b', true) /\ map (fun x => n_user (snd x)) (fst (dump_entities (true, b') st0)) = [1; 5].
Proof.
  assert (L1 : listing "1" 1 1) by (apply li_one; [apply it_plain; num|unfold an_int; lia]).
  assert (L2 : listing "4-6" 4 6) by (apply (li_range "4" "6" 4 6); try (unfold an_int; lia); apply it_plain; num).
  assert (L3 : listing "-2" (-2) (-2)) by (apply li_one; [apply (it_minus "2" 2); num|unfold an_int; lia]).
  split.
  { unfold dump_list. cbn [with_options lines1]. constructor; [|constructor; [|constructor]]; cbn [fst snd]; (split; [right; eexists; reflexivity|]; split; [discriminate|]).
    - constructor; [eexists; eexists; exact L2|]. constructor; [eexists; eexists; exact L1|constructor].
    - constructor; [eexists; eexists; exact L3|constructor]. }
  split; [intros []; cbn; repeat constructor|].
  split; [exists ["-2"]; split; [right; right; left; reflexivity|]; exists "-2", (-2), (-2); split; [left; reflexivity|]; split; [exact L3|unfold between; lia]|].
  eexists. split; [vm_compute; reflexivity|]. vm_compute. reflexivity.
Qed.
