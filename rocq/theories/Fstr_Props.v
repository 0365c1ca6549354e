(** Properties C27 and C52. *)
From Coq Require Import String Ascii List ZArith Bool Lia.
From Verif Require Import CStr_Model Fstr_Model Fstr_Spec Fstr_Proofs.
Import ListNotations.
Local Open Scope string_scope.
Local Open Scope list_scope.
Local Open Scope Z_scope.

(** C27.  Copying a C string to a Fortran variable of [n] characters: the variable gets the text cut or
    blank padded and the memory after it is untouched; with less room than [n] the copy is an overrun. *)
Theorem C27_copy : forall dest src text n, holds src text ->
  ((n <= length dest)%nat -> padfstring dest src n = Ret (assigned n text ++ skipn n dest)) /\
  ((length dest < n)%nat -> padfstring dest src n = UB).
Proof.
  intros dest src text n H. rewrite (pad_result _ _ _ _ H). destruct (Nat.leb_spec n (length dest)) as [G|G].
  - split; [reflexivity|lia].
  - split; [lia|reflexivity].
Qed.
Print Assumptions C27_copy.

(** The module version does the same and also reports the length of the whole text, cut or not. *)
Theorem C27_copy_length : forall dest src text n, holds src text -> 0 <= n <= Z.of_nat (length dest) ->
  padfstring_len dest src n = Ret (assigned (Z.to_nat n) text ++ skipn (Z.to_nat n) dest, Z.of_nat (length text)).
Proof.
  intros dest src text n H L. rewrite (pad_len_result _ _ _ _ H). destruct (Nat.leb_spec (Z.to_nat n) (length dest)) as [G|G]; [reflexivity|lia].
Qed.
Print Assumptions C27_copy_length.

(** Converting a Fortran variable removes exactly the trailing characters that do not print. *)
Theorem C27_convert : forall s n t, (n <= length s)%nat ->
  (f2cstring s n = Ret (t ++ ["000"%char]) <-> without_trailing prints (firstn n s) t).
Proof. exact f2c_iff. Qed.
Print Assumptions C27_convert.
Theorem C27_convert_total : forall s n, (n <= length s)%nat ->
  exists t, f2cstring s n = Ret (t ++ ["000"%char]) /\ without_trailing prints (firstn n s) t.
Proof. exact f2c_ok. Qed.
Print Assumptions C27_convert_total.
(** The module version removes exactly the trailing blanks. *)
Theorem C27_trim : forall s, exists t, to_c s = t ++ ["000"%char] /\ without_trailing (fun c => c <> " "%char) s t.
Proof. intros s. exists (trim s). split; [reflexivity|exact (trim_ok s)]. Qed.
Print Assumptions C27_trim.

(** Round trips: there and back again gives the text without its trailing non-printing characters ... *)
Theorem C27_round_trip : forall dest src text n b t, holds src text -> padfstring dest src n = Ret b ->
  (length text <= n)%nat -> without_trailing prints text t -> f2cstring b n = Ret (t ++ ["000"%char]).
Proof. exact round_trip. Qed.
Print Assumptions C27_round_trip.
(** ... in the module version only trailing blanks are lost. *)
Theorem C27_round_trip_module : forall dest src text b, holds src text -> padfstring dest src (length dest) = Ret b ->
  (length text <= length dest)%nat -> (text = [] \/ exists u c, text = u ++ [c] /\ c <> " "%char) -> to_c b = text ++ ["000"%char].
Proof. exact round_trip_trim. Qed.
Print Assumptions C27_round_trip_module.
(** Without the module a text that fits and does not end in a blank can still change: a last character
    above code 126 is dropped. *)
Definition cafe : block := ["c"; "a"; "f"; "233"]%char.
Theorem C27_round_trip_refuted : exists dest src text n b, holds src text /\ padfstring dest src n = Ret b /\ (length text <= n)%nat /\
  (exists u c, text = u ++ [c] /\ c <> " "%char /\ (127 < Z.of_nat (nat_of_ascii c))) /\ f2cstring b n <> Ret (text ++ ["000"%char]).
Proof.
  exists (repeat "x"%char 6), (cafe ++ ["000"%char]), cafe, 6%nat. eexists. split; [|split; [vm_compute; reflexivity|split; [vm_compute; lia|split]]].
  - split; [|exists []; reflexivity]. intros K. cbn in K. repeat destruct K as [K|K]; try discriminate; exact K.
  - exists ["c"; "a"; "f"]%char, "233"%char. split; [reflexivity|split; [discriminate|reflexivity]].
  - vm_compute. discriminate.
Qed.
Print Assumptions C27_round_trip_refuted.

(** A value of the selected output: the text fills the whole Fortran variable and the reported length is the
    part of it that fits. *)
Theorem C27_value : forall v text svalue,
  (exists n, v = CLong n text /\ ~ In "000"%char text) \/ (exists x, v = CDouble x text /\ ~ In "000"%char text) \/ (exists b, v = CString b /\ holds b text) ->
  exists ty d, get_value v svalue = Ret (ty, d, assigned (length svalue) text, Z.min (Z.of_nat (length text)) (Z.of_nat (length svalue))).
Proof. exact value_text. Qed.
Print Assumptions C27_value.
(** The number delivered with it; an empty or erroneous cell leaves number and text alone. *)
Theorem C27_value_kind : forall v svalue r, get_value v svalue = Ret r ->
  match v with
  | CLong n _ => fst (fst r) = (3, Some n)
  | CDouble x _ => fst (fst r) = (3, Some x)
  | CString _ => fst (fst r) = (4, None)
  | CEmpty => fst r = (0, None, svalue)
  | CError => fst r = (1, None, svalue)
  end.
Proof.
  intros v svalue r. unfold get_value. destruct v; cbn [get_value_F bind].
  - intros H. injection H as <-. reflexivity.
  - intros H. injection H as <-. reflexivity.
  - destruct (padfstring_len _ _ _) as [q| |]; cbn [bind]; intros H; try discriminate. injection H as <-. reflexivity.
  - destruct (padfstring_len _ _ _) as [q| |]; cbn [bind]; intros H; try discriminate. injection H as <-. reflexivity.
  - destruct (padfstring_len _ _ _) as [q| |]; cbn [bind]; intros H; try discriminate. injection H as <-. reflexivity.
Qed.
Print Assumptions C27_value_kind.
(** The C++ method fills exactly the given length, with NUL after the text. *)
Theorem C27_value2 : forall b text svalue n, holds b text -> (n <= length svalue)%nat ->
  get_value2 (CString b) svalue n = Ret (firstn n (text ++ repeat "000"%char n) ++ skipn n svalue).
Proof. intros b text svalue n [N [junk ->]] L. exact (strncpy_ok n [] svalue [] text junk eq_refl N L). Qed.
Print Assumptions C27_value2.
(** So a text as long as the variable or longer is left without a terminator. *)
Theorem C27_value2_unterminated : forall b text svalue n r, holds b text -> (n <= length svalue)%nat -> (n <= length text)%nat ->
  get_value2 (CString b) svalue n = Ret r -> ~ In "000"%char (firstn n r).
Proof.
  intros b text svalue n r H L G E. rewrite (C27_value2 _ _ _ _ H L) in E. injection E as <-. destruct H as [N _].
  rewrite firstn_app, firstn_length, app_length, repeat_length, Nat.min_l, Nat.sub_diag by lia. cbn [firstn]. rewrite app_nil_r.
  rewrite firstn_firstn, Nat.min_id, firstn_app. replace (n - length text)%nat with O by lia. cbn [firstn]. rewrite app_nil_r.
  intros K. apply N. rewrite <- (firstn_skipn n text). apply in_or_app. left. exact K.
Qed.
Print Assumptions C27_value2_unterminated.

(** C52.  Splitting a path that has a directory (or when the name and directory variables have the same
    length): every variable gets its part of the trimmed path, cut or blank padded, and nothing else is
    written.  Partial: without a directory and with different lengths it is false, see below; and the
    directory variable must be followed by a NUL somewhere in memory. *)
Theorem C52_split_partial : forall path p n t d nm e,
  (drive_len n <= length (drive p))%nat -> (dir_len n <= length (dir p))%nat -> (name_len n <= length (name p))%nat ->
  (ext_len n <= length (ext p))%nat -> (path_len n <= length path)%nat ->
  ~ In "000"%char (firstn (path_len n) path) -> without_trailing prints (firstn (path_len n) path) t -> path_parts t d nm e ->
  In "000"%char (skipn (dir_len n) (dir p)) -> (d <> [] \/ t = [] \/ name_len n = dir_len n) ->
  exists l, splitpath path p n =
    Ret (mkParts (assigned (drive_len n) [] ++ skipn (drive_len n) (drive p)) (assigned (dir_len n) d ++ skipn (dir_len n) (dir p))
                 (assigned (name_len n) nm ++ skipn (name_len n) (name p)) (assigned (ext_len n) e ++ skipn (ext_len n) (ext p)), l)
    /\ (t <> [] -> (dir_len n <= l)%nat).
Proof. intros path p n t d nm e A B C D F G H I J K. apply (split_ok path p n t d nm e); try assumption. constructor; assumption. Qed.
Print Assumptions C52_split_partial.
(** Every path has its parts, and only one way of cutting it. *)
Theorem C52_parts : forall t, exists d nm e, path_parts t d nm e.
Proof. exact parts_exist. Qed.
Print Assumptions C52_parts.
Theorem C52_parts_unique : forall t d nm e d' nm' e', path_parts t d nm e -> path_parts t d' nm' e' -> d = d' /\ nm = nm' /\ e = e'.
Proof. exact parts_unique. Qed.
Print Assumptions C52_parts_unique.

Definition text (s : String.string) : block := String.list_ascii_of_string s.
(** Without a directory, a directory variable shorter than the name variable is overrun. *)
Theorem C52_overrun_refuted : exists path p n, (dir_len n <= length (dir p))%nat /\ (name_len n <= length (name p))%nat /\
  exists q l, splitpath path p n = Ret (q, l) /\ skipn (dir_len n) (dir q) <> skipn (dir_len n) (dir p).
Proof.
  exists (text "a.txt"), (mkParts [] (text "xxyyyy" ++ ["000"%char]) (text "......") (text "....")), (mkLens 5 0 2 6 4).
  split; [cbn; lia|]. split; [cbn; lia|]. do 2 eexists. split; [vm_compute; reflexivity|]. vm_compute. discriminate.
Qed.
Print Assumptions C52_overrun_refuted.
(** The result is computed by looking for a NUL in the blank padded directory variable: whatever the path
    with a directory, the code reads past a variable that is exactly as long as announced. *)
Theorem C52_result_refuted : forall path p n t d nm e,
  (drive_len n <= length (drive p))%nat -> dir_len n = length (dir p) -> (name_len n <= length (name p))%nat ->
  (ext_len n <= length (ext p))%nat -> (path_len n <= length path)%nat ->
  ~ In "000"%char (firstn (path_len n) path) -> without_trailing prints (firstn (path_len n) path) t -> path_parts t d nm e ->
  d <> [] -> splitpath path p n = UB.
Proof.
  intros path p n t d nm e A B C D F G H I J. apply (split_over path p n t d nm e); try assumption.
  - constructor; try assumption. rewrite B. apply le_n.
  - destruct I as [-> _]. intros K. apply app_eq_nil in K. destruct K as [K _]. exact (J K).
  - left. exact J.
Qed.
Print Assumptions C52_result_refuted.

(** Concrete cases. *)
Example C27_ex_holds : holds (text "Ca 2" ++ "000"%char :: text "junk") (text "Ca 2") /\ without_trailing prints (text "Ca 2") (text "Ca 2").
Proof.
  split; [split; [intros K; cbn in K; repeat destruct K as [K|K]; try discriminate; exact K|exists (text "junk"); reflexivity]|].
  exists []. repeat split; [constructor|]. right. exists (text "Ca "), "2"%char. split; [reflexivity|]. unfold prints. cbn. lia.
Qed.
Example C27_ex : padfstring (text "0123456789") (text "Ca 2" ++ ["000"%char]) 6 = Ret (text "Ca 2  6789")
  /\ padfstring (text "0123456789") (text "Ca 2" ++ ["000"%char]) 3 = Ret (text "Ca 3456789")
  /\ f2cstring (text "Ca 2  6789") 6 = Ret (text "Ca 2" ++ ["000"%char]).
Proof. repeat split. Qed.
Example C52_ex_parts : path_parts (text "in/data.v1.txt") (text "in/") (text "data.v1") (text ".txt").
Proof.
  split; [reflexivity|]. split; [right; exists (text "in"); reflexivity|]. split.
  - intros K; cbn in K; repeat destruct K as [K|K]; try discriminate; exact K.
  - split; [right; exists (text "txt"); repeat split; [|discriminate]|discriminate].
    intros K; cbn in K; repeat destruct K as [K|K]; try discriminate; exact K.
Qed.
Example C52_ex : splitpath (text "in/data.v1.txt   ") (mkParts (text "c") (text "++++|" ++ ["000"%char]) (text "++++++++|") (text "++++++|")) (mkLens 17 1 4 8 6)
  = Ret (mkParts (text " ") (text "in/ |" ++ ["000"%char]) (text "data.v1 |") (text ".txt  |"), 5%nat).
Proof. reflexivity. Qed.
