(** What a control file looks like, independent of the code. *)
From Coq Require Import String Ascii List ZArith Bool.
From Verif Require Import Elem_Spec Pfile_Spec.
Import ListNotations.
Local Open Scope string_scope.
Local Open Scope list_scope.

(** A text on a line: not empty, no newline, no "//". *)
Definition clean (t : string) : Prop := t <> "" /\ free_of "010" t /\ forall a b, t <> (a ++ "//" ++ b)%string.
(** A line with this text, with or without a comment after a blank. *)
Definition line_of (t l : string) : Prop := l = (t ++ newline)%string \/ exists c, free_of "010" c /\ l = (t ++ " " ++ "//" ++ c ++ newline)%string.
(** Blank lines and comment lines. *)
Definition noise (l : string) : Prop := l = newline \/ exists c, free_of "010" c /\ l = ("//" ++ c ++ newline)%string.
(** A text after any number of blank and comment lines, all shorter than [limit]. *)
Definition group (limit : nat) (t : string) (ls : list string) : Prop :=
  clean t /\ exists ns l, ls = ns ++ [l] /\ Forall noise ns /\ line_of t l /\ Forall (fun x => String.length x < limit) ls.
(** A block: header, name, number of values, type, values. *)
Record block := mkBlock { b_key : string; b_type : Z; b_vals : list string }.
Inductive block_lines : block -> list string -> Prop :=
| block_of key ty vals h n t g0 g1 g2 g3 gs : prefix "####" h = true -> group 256 h g0 -> group 50 key g1 ->
    numeral n (Z.of_nat (List.length vals)) -> (Z.of_nat (List.length vals) < 2 ^ 63)%Z -> group 256 n g2 ->
    numeral t ty -> (1 <= ty <= 4)%Z -> group 256 t g3 ->
    Forall2 (group 256) vals gs -> Forall (fun v => prefix "####" v = false) vals ->
    block_lines (mkBlock key ty vals) (g0 ++ g1 ++ g2 ++ g3 ++ concat gs).
(** A file: some lines before the first header, the blocks, noise at the end. *)
Inductive file_of (bs : list block) : list string -> Prop :=
| file_lines pre pgs bgs post : Forall2 (group 256) pre pgs -> Forall (fun t => prefix "####" t = false) pre ->
    Forall2 block_lines bs bgs -> Forall noise post -> Forall (fun x => String.length x < 256) post -> (pre <> [] \/ bs <> []) ->
    file_of bs (concat pgs ++ concat bgs ++ post).
(** The last block of a name. *)
Definition last_of (key : string) (bs : list block) : option block := find (fun b => String.eqb (b_key b) key) (rev bs).
