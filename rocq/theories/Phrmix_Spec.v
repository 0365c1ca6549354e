(** What the properties on the mixing call and on copies say, apart from the
    model. *)
From Coq Require Import String Ascii ZArith QArith Bool List.
From Verif Require Import Mix_Model SelOut_Model Phrmix_Model.
Import ListNotations.
Local Open Scope string_scope.
Local Open Scope list_scope.
Local Open Scope Z_scope.

(** A row of selected output: pH, temperature, and the other columns. *)
Record row := mkRow { at_ph : val; at_temp : val; others : list val }.
(** The row under its headings. *)
Definition cells (k1 k2 : string) (ks : list string) (r : row) : list (string * val) :=
  (k1, at_ph r) :: (k2, at_temp r) :: combine ks (others r).

(** The number in a cell, or the marker where there is none. *)
Definition number_or (v : val) : Q :=
  match v with VLong n => inject_Z n | VDouble x => x | _ => marker end.

(** The lines of one simulation: END is the last, and only the last. *)
Definition one_sim (a : list line) : Prop := exists b, a = b ++ [END] /\ ~ In END b.

(** No blank in a text. *)
Fixpoint no_blank (s : string) : Prop :=
  match s with "" => True | String c r => c <> " "%char /\ no_blank r end.

(** Copying one after the other. *)
Definition copied {A} (m : Z -> option A) (p : Z * Z) : Z -> option A :=
  match m (fst p) with
  | Some v => fun j => if j =? snd p then Some v else m j
  | None => m
  end.
