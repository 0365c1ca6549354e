(** Properties C34 and C35. *)
From Coq Require Import String Ascii ZArith QArith Bool List Sorted.
From Verif Require Import Qx Map_Model Name_Model Name_Spec Name_Proofs.
Import ListNotations.
Local Open Scope string_scope.
Local Open Scope list_scope.

(** ** C34 *)
(** Adding [f] times a composition adds [f] times the amount of every name; all other names keep
    their amounts, and no name appears from nowhere. *)
Theorem C34_add_extensive m addee f : proper m -> proper addee ->
  proper (add_extensive m addee f) /\
  (forall k, amount (add_extensive m addee f) k == amount m k + f * amount addee k)%Q /\
  (forall k, ~ f == 0 -> present (add_extensive m addee f) k <-> present m k \/ present addee k) /\
  (f == 0 -> add_extensive m addee f = m).
Proof. exact (extensive_ok m addee f). Qed.
(** So totals of elements add in the same way. *)
Theorem C34_totals_add m addee f e : proper m -> proper addee ->
  (total_element (add_extensive m addee f) e == total_element m e + f * total_element addee e)%Q.
Proof. exact (totals_add m addee f e). Qed.
(** Adding an amount to one name. *)
Theorem C34_add m k t : proper m ->
  proper (add m k t) /\ (amount (add m k t) k == amount m k + t)%Q /\ present (add m k t) k /\
  (forall j, j <> k -> mfind (add m k t) j = mfind m j).
Proof. exact (add_ok m k t). Qed.
(** Scaling scales every amount and keeps the names. *)
Theorem C34_multiply m f : proper m ->
  proper (multiply m f) /\ (forall k, amount (multiply m f) k == amount m k * f)%Q /\
  (forall k, present (multiply m f) k <-> present m k).
Proof. exact (multiply_ok m f). Qed.
(** A scaled copy: for element moles only positive results are kept, otherwise everything. *)
Theorem C34_scaled moles m f : proper m ->
  proper (scaled moles m f) /\
  forall k, mfind (scaled moles m f) k =
    match mfind m k with
    | Some x => if moles && negb (qlt 0 (x * f)%Q) then None else Some (x * f)%Q
    | None => None
    end.
Proof. exact (scaled_ok moles m f). Qed.
(** A list of names and coefficients: repeated names are summed. *)
Theorem C34_from_coefs l :
  proper (from_coefs l) /\ (forall k, amount (from_coefs l) k == coef_sum l k)%Q /\
  (forall k, present (from_coefs l) k <-> exists x, In (Some k, x) l).
Proof. exact (from_coefs_ok l). Qed.
(** The total of an element is the sum over the element and its redox states. *)
Theorem C34_total m e s : all_named m -> has_paren e = false -> element_sum e m s -> (total_element m e == s)%Q.
Proof. exact (total_ok m e s). Qed.
(** Removing the redox states: each element but hydrogen, oxygen and charge gets its total, and the
    names of the result are the elements of the entries. *)
Theorem C34_simplify m : proper m -> all_named m ->
  proper (simplify_redox m) /\
  forall e, has_paren e = false -> e <> "H" -> e <> "O" -> e <> "Charge" ->
    (present (simplify_redox m) e <-> exists n, present m n /\ state_of n e) /\
    (amount (simplify_redox m) e == total_element m e)%Q.
Proof. exact (simplify_ok m). Qed.
Theorem C34_simplify_skips m : proper m -> all_named m ->
  ~ present (simplify_redox m) "H" /\ ~ present (simplify_redox m) "O" /\ ~ present (simplify_redox m) "Charge".
Proof. exact (simplify_skips m). Qed.
(** Merging totals: each given total replaces the total and the redox states of its element, and
    nothing else is touched. *)
Theorem C34_merge_totals m source : proper m -> proper source ->
  (forall n, present source n -> has_paren n = false) ->
  proper (merge_redox m source) /\
  forall k, mfind (merge_redox m source) k =
    match mfind source k with
    | Some x => Some x
    | None => if existsb (fun p => String.prefix (fst p ++ "(") k) source then None else mfind m k
    end.
Proof. exact (merge_totals m source). Qed.
(** Merging a redox state stores it and keeps every other name except the one spelled like the
    element without its last letter.  Missing for the property: it is the total of the element that
    should go. *)
Theorem C34_merge_state_partial m e v x : proper m -> e <> "" -> has_paren e = false ->
  let n := (e ++ "(" ++ v)%string in
  mfind (merge_redox m [(n, x)]) n = Some x /\
  forall k, k <> n -> mfind (merge_redox m [(n, x)]) k = if String.eqb k (but_last e) then None else mfind m k.
Proof. exact (merge_state m e v x). Qed.
(** Refuted: merging ferrous iron deletes fluoride and keeps the iron total, so iron counts twice. *)
Theorem C34_merge_state_refuted : exists m source,
  proper m /\ proper source /\ source = [("Fe(2)", 1%Q)] /\
  present m "F" /\ ~ present (merge_redox m source) "F" /\
  mfind (merge_redox m source) "Fe" = mfind m "Fe" /\ present m "Fe" /\
  (total_element (merge_redox m source) "Fe" == total_element m "Fe" + 1)%Q.
Proof. exact merge_bug. Qed.
(** Weighted sum of properties of the solution. *)
Theorem C34_intensive m addee f1 f2 : proper m -> proper addee ->
  proper (add_intensive m addee f1 f2) /\
  forall k, present addee k ->
    (amount (add_intensive m addee f1 f2) k == f1 * amount m k + f2 * amount addee k)%Q.
Proof. exact (intensive_ok m addee f1 f2). Qed.
(** Refuted for names the second composition does not have: they keep their full value. *)
Theorem C34_intensive_refuted : exists m addee f1 f2 k, proper m /\ proper addee /\
  ~ (amount (add_intensive m addee f1 f2) k == f1 * amount m k + f2 * amount addee k)%Q.
Proof. exact intensive_bug. Qed.

Definition ex_m : nd := [("Ca", 2%Q); ("Fe(2)", 1%Q); ("Fe(3)", 3%Q); ("H(1)", 5%Q); ("S(6)", 4%Q)].
Example C34_ex_proper : proper ex_m.
Proof. unfold proper, ex_m. repeat (constructor; try reflexivity). Qed.
Example C34_ex_named : all_named ex_m.
Proof.
  assert (P : forall e v, has_paren e = false -> plain (e ++ "(" ++ v ++ ")")%string -> v <> "" -> e <> "" ->
    state_of (e ++ "(" ++ v ++ ")")%string e).
  { intros e v A B C D. split; [exact A|]. split; [exact B|]. right. exists v. auto. }
  intros p [<-|[<-|[<-|[<-|[<-|[]]]]]]; cbn [fst].
  - exists "Ca". split; [reflexivity|]. split; [cbv; repeat split; repeat constructor|]. left. reflexivity.
  - exists "Fe". apply (P "Fe" "2"); try discriminate; [reflexivity|]. cbv. repeat split; repeat constructor.
  - exists "Fe". apply (P "Fe" "3"); try discriminate; [reflexivity|]. cbv. repeat split; repeat constructor.
  - exists "H". apply (P "H" "1"); try discriminate; [reflexivity|]. cbv. repeat split; repeat constructor.
  - exists "S". apply (P "S" "6"); try discriminate; [reflexivity|]. cbv. repeat split; repeat constructor.
Qed.
Example C34_ex_simplify : simplify_redox ex_m = [("Ca", 2%Q); ("Fe", 4%Q); ("S", 4%Q)].
Proof. reflexivity. Qed.
Example C34_ex_merge : merge_redox ex_m [("Fe", 7%Q)] = [("Ca", 2%Q); ("Fe", 7%Q); ("H(1)", 5%Q); ("S(6)", 4%Q)].
Proof. reflexivity. Qed.

(** ** C35 *)
(** After any sequence of words the numbers are dense from zero and the word list inverts them. *)
Theorem C35_numbers l :
  NoDup (words (after l)) /\ oss (after l) = words (after l) /\
  (forall w, In w (words (after l)) <-> In w l) /\
  (forall w i, mfind (numbers (after l)) w = Some i <->
     (0 <= i)%Z /\ nth_error (words (after l)) (Z.to_nat i) = Some w).
Proof. exact (numbers_ok l). Qed.
(** A word asked for again gets the number it had, whatever came in between. *)
Theorem C35_stable l w l' :
  let (d, n) := find_word (after l) w in
  d = after (l ++ [w]) /\ find_word (after (l ++ [w] ++ l')) w = (after (l ++ [w] ++ l'), n) /\
  (exists more, words (after (l ++ [w] ++ l')) = words d ++ more).
Proof. exact (stable l w l'). Qed.
(** The text of the dictionary recreates it, when no word has a line end or more than 255
    characters. *)
Theorem C35_text l : (forall w, In w l -> ~ In newline (list_ascii_of_string w) /\ (String.length w <= 255)%nat) ->
  dictionary_of (text (oss (after l))) = after l.
Proof. exact (text_ok l). Qed.
(** Refuted for long words: the rest of the text is lost. *)
Theorem C35_long_word_refuted : exists l,
  words (dictionary_of (text (oss (after l)))) <> words (after l).
Proof. exact long_word. Qed.
(** What was serialized at some place of the two vectors comes back from that place, with the
    dictionary used or any later one; the positions end up just behind. *)
Theorem C35_round_trip l m ints doubles : proper m -> ~ present m "" ->
  exists ids,
    serialize (after l) m ints doubles = (after (l ++ map fst m), ints ++ ids, doubles ++ map snd m) /\
    List.length ids = S (List.length m) /\
    forall later ints' doubles',
      deserialize (after (l ++ map fst m ++ later)) (ints ++ ids ++ ints') (doubles ++ map snd m ++ doubles')
        (Z.of_nat (List.length ints)) (Z.of_nat (List.length doubles))
      = Some (m, Z.of_nat (List.length ints + List.length ids), Z.of_nat (List.length doubles + List.length m)).
Proof. exact (round_trip l m ints doubles). Qed.
(** Refuted for an entry without a name: the following amounts are shifted. *)
Theorem C35_empty_name_refuted : exists m d ints doubles m' ii dd, proper m /\
  serialize empty_dictionary m [] [] = (d, ints, doubles) /\
  deserialize d ints doubles 0 0 = Some (m', ii, dd) /\ mfind m' "Ca" <> mfind m "Ca".
Proof. exact empty_name. Qed.
Example C35_ex :
  serialize (after ["S"; "Ca"]) [("Ca", 2%Q); ("Fe", 3%Q)] [7%Z] [1%Q] =
    (after ["S"; "Ca"; "Fe"], [7; 2; 1; 2]%Z, [1; 2; 3]%Q).
Proof. reflexivity. Qed.

Print Assumptions C34_add_extensive.
Print Assumptions C34_totals_add.
Print Assumptions C34_add.
Print Assumptions C34_multiply.
Print Assumptions C34_scaled.
Print Assumptions C34_from_coefs.
Print Assumptions C34_total.
Print Assumptions C34_simplify.
Print Assumptions C34_simplify_skips.
Print Assumptions C34_merge_totals.
Print Assumptions C34_merge_state_partial.
Print Assumptions C34_merge_state_refuted.
Print Assumptions C34_intensive.
Print Assumptions C34_intensive_refuted.
Print Assumptions C35_numbers.
Print Assumptions C35_stable.
Print Assumptions C35_text.
Print Assumptions C35_long_word_refuted.
Print Assumptions C35_round_trip.
Print Assumptions C35_empty_name_refuted.
