(** Property C12. *)
From Coq Require Import String Ascii List ZArith Bool Lia.
From Verif Require Import CStr_Model CNum_Model Elem_Model Elem_Spec Elem_Proofs.
Import ListNotations.
Local Open Scope string_scope.
Local Open Scope list_scope.
Local Open Scope Z_scope.

(** Checking an index text of a known variable: a well-formed list of numbers below 2^31 is accepted (0) exactly
    when it has one number in range for each dimension; whatever is accepted starts with such a list, has no '('
    anywhere, and after the list there is nothing or a ')' and anything. *)
Theorem C12_check : forall a s r, check_indices (Some a) s = Ret r ->
  (forall idx, index_list s idx -> Forall (fun v => v < 2147483648) idx -> (r = 0 <-> in_range idx (a_dims a))) /\
  (r = 0 -> ~ In "("%char (list_ascii_of_string s) /\
            exists body idx, index_list body idx /\ (s = body \/ exists rest, s = (body ++ ")" ++ rest)%string) /\
                             (Forall (fun v => v < 2147483648) idx -> in_range idx (a_dims a))).
Proof.
  intros a s r C. destruct (check_ok a s r C) as [A B]. split.
  - intros idx I S. apply B; [rewrite (strip_plain s idx I); exact I|exact S].
  - intros R. destruct (A R) as [idx I]. pose proof (proj1 (strip_ok s idx) I) as [P [body [Q T]]]. split; [apply no_char_in; exact P|].
    exists body, idx. split; [exact Q|]. split; [exact T|]. intros S. apply (B idx I S). exact R.
Qed.
Print Assumptions C12_check.
(** The check has a result for every text of fewer than 80 characters with short words; an unknown name gives 1. *)
Theorem C12_check_defined : forall a s, (String.length s < 80)%nat -> short_words s ->
  (exists r, check_indices (Some a) s = Ret r) /\ check_indices None s = Ret 1.
Proof. intros a s L W. split; [|reflexivity]. apply check_defined; [exact L|]. apply short_pieces. exact W. Qed.
Print Assumptions C12_check_defined.
(** The codes for a well-formed list: 2 for a wrong number of indices, else that of the first index out of range. *)
Theorem C12_codes : forall a s r idx, check_indices (Some a) s = Ret r -> index_list s idx -> Forall (fun v => v < 2147483648) idx ->
  r = if Nat.eqb (length (a_dims a)) (length idx) then verdict idx (a_dims a) else 2.
Proof. exact check_codes. Qed.
Print Assumptions C12_codes.
(** The address of a well-formed index text is the column-major position times the size of an element. *)
Theorem C12_address : forall is_param find key elem a idx,
  (String.length key < 80)%nat -> ~ In " "%char (list_ascii_of_string key) -> ~ In "."%char (list_ascii_of_string key) -> find key = Some a ->
  (String.length elem < 80)%nat -> short_words elem -> index_list elem idx -> Forall (fun v => v < 2 ^ 63) idx ->
  (length idx <= length (a_dims a))%nat -> 1 <= a_type a <= 3 ->
  get_elem_address is_param find key elem = Ret (Some (position idx (a_dims a) * width (a_type a))).
Proof.
  intros is_param find key elem a idx K B D F E W I S L T. apply address_ok; try assumption.
  - apply no_char_in. exact B.
  - apply no_char_in. exact D.
  - apply short_pieces. exact W.
  - rewrite (strip_plain elem idx I). exact I.
  - eapply Forall_impl; [|exact S]. intros v V. cbn in V. unfold LONG_MAX. change (2 ^ 63) with 9223372036854775808 in V. lia.
  - lia.
Qed.
Print Assumptions C12_address.
(** Positions of in-range indices are inside the variable, different for different indices, and every place of
    the variable is the position of some index. *)
Theorem C12_inside : forall idx dims, in_range idx dims -> 0 <= position idx dims < total dims.
Proof. exact position_range. Qed.
Print Assumptions C12_inside.
Theorem C12_injective : forall idx idx' dims, in_range idx dims -> in_range idx' dims -> position idx dims = position idx' dims -> idx = idx'.
Proof. exact position_inj. Qed.
Print Assumptions C12_injective.
Theorem C12_onto : forall dims k, Forall (fun d => 1 <= d) dims -> 0 <= k < total dims -> exists idx, in_range idx dims /\ position idx dims = k.
Proof. exact position_onto. Qed.
Print Assumptions C12_onto.
(** So: two accepted index texts of the same array that lead to the same address are the same element. *)
Theorem C12_distinct : forall is_param find key a s s' idx idx' p,
  (String.length key < 80)%nat -> ~ In " "%char (list_ascii_of_string key) -> ~ In "."%char (list_ascii_of_string key) -> find key = Some a -> 1 <= a_type a <= 3 ->
  (String.length s < 80)%nat -> short_words s -> (String.length s' < 80)%nat -> short_words s' ->
  index_list s idx -> index_list s' idx' -> Forall (fun v => v < 2147483648) idx -> Forall (fun v => v < 2147483648) idx' ->
  check_indices (find key) s = Ret 0 -> check_indices (find key) s' = Ret 0 ->
  get_elem_address is_param find key s = Ret p -> get_elem_address is_param find key s' = Ret p ->
  idx = idx' /\ exists n, p = Some n /\ 0 <= n /\ n + width (a_type a) <= total (a_dims a) * width (a_type a).
Proof.
  intros ip find key a s s' idx idx' p K B D F T L W L' W' I I' S S' C C' A A'. rewrite F in C, C'.
  pose proof (proj1 (proj1 (C12_check a s 0 C) idx I S) eq_refl) as R. pose proof (proj1 (proj1 (C12_check a s' 0 C') idx' I' S') eq_refl) as R'.
  assert (BIG : forall l : list Z, Forall (fun v => v < 2147483648) l -> Forall (fun v => v < 2 ^ 63) l).
  { intros l H. eapply Forall_impl; [|exact H]. intros v V. cbn beta in *. change (2 ^ 63) with 9223372036854775808. lia. }
  pose proof (length_f2 _ _ _ R) as N. pose proof (length_f2 _ _ _ R') as N'.
  rewrite (C12_address ip find key s a idx K B D F L W I (BIG _ S)) in A by lia. rewrite (C12_address ip find key s' a idx' K B D F L' W' I' (BIG _ S')) in A' by lia.
  rewrite <- A in A'. injection A' as A'. injection A as <-.
  assert (P : 0 < width (a_type a)) by (unfold width; destruct (a_type a =? 2); lia).
  split; [apply (position_inj idx idx' (a_dims a) R R'); nia|]. exists (position idx (a_dims a) * width (a_type a)). split; [reflexivity|].
  pose proof (position_range _ _ R). split; nia.
Qed.
Print Assumptions C12_distinct.

(** What the program's own comment promises, "(2)" for element 2, is refused, and its address lies before the variable. *)
Theorem C12_parens_refuted : exists a, check_indices (Some a) "2" = Ret 0 /\ check_indices (Some a) "(2)" = Ret 3 /\
  get_elem_address true (fun _ => Some a) "p" "(2)" = Ret (Some (-8)).
Proof. exists (mkArr 3 [5]). repeat split. Qed.
Print Assumptions C12_parens_refuted.
(** A number of 2^32 + 1 is accepted as index 1, and its address is far outside. *)
Theorem C12_overflow_refuted : exists a, check_indices (Some a) "4294967297" = Ret 0 /\ total (a_dims a) = 5 /\
  get_elem_address true (fun _ => Some a) "p" "4294967297" = Ret (Some (4294967296 * 8)).
Proof. exists (mkArr 3 [5]). repeat split. Qed.
Print Assumptions C12_overflow_refuted.
(** A leading blank in the name is ignored for parameters but not for variables. *)
Theorem C12_blank_refuted : exists find a, find "q"%string = Some a /\
  get_elem_address true find " q" "1" = Ret (Some 0) /\ get_elem_address false find " q" "1" = Ret None.
Proof. exists (fun k => if String.eqb k "q" then Some (mkArr 3 [5]) else None), (mkArr 3 [5]). repeat split. Qed.
Print Assumptions C12_blank_refuted.

(** Concrete case: element (4,1,3) of a 5 by 2 by 3 array of floats. *)
Example C12_ex_list : index_list "4,1,03" [4; 1; 3].
Proof.
  apply (il_more "4" 4 "1,03"); [apply (num_digit 4); lia|]. apply (il_more "1" 1 "03"); [apply (num_digit 1); lia|].
  apply il_one. apply (num_more "0" 0 3); [apply (num_digit 0); lia|lia].
Qed.
Example C12_ex_short : short_words "4,1,03".
Proof.
  intros a b c E _. apply (f_equal String.length) in E. rewrite !len_app_s in E. cbn in E. lia.
Qed.
Example C12_ex : check_indices (Some (mkArr 2 [5; 2; 3])) "4,1,03" = Ret 0 /\ in_range [4; 1; 3] [5; 2; 3]
  /\ get_elem_address false (fun _ => Some (mkArr 2 [5; 2; 3])) "v" "4,1,03" = Ret (Some 92).
Proof. repeat split. repeat constructor; lia. Qed.
