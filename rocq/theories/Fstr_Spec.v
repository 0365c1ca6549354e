(** What the Fortran boundary promises, independent of the code. *)
From Coq Require Import Ascii List ZArith Bool.
Import ListNotations.
Local Open Scope Z_scope.

(** The value of a Fortran variable of [n] characters assigned from a text: cut or padded with blanks. *)
Definition assigned (n : nat) (text : list ascii) : list ascii := firstn n (text ++ repeat " "%char n).
(** A block that starts with the C string [text]. *)
Definition holds (b text : list ascii) : Prop :=
  ~ In "000"%char text /\ exists junk, b = text ++ "000"%char :: junk.
(** Printing characters: codes 33 to 126. *)
Definition prints (c : ascii) : Prop := 33 <= Z.of_nat (nat_of_ascii c) <= 126.
(** [t] is [s] without its trailing characters that do not satisfy [p]. *)
Definition without_trailing (p : ascii -> Prop) (s t : list ascii) : Prop :=
  exists r, s = t ++ r /\ Forall (fun c => ~ p c) r /\ (t = [] \/ exists u c, t = u ++ [c] /\ p c).

(** The parts of a file name: directory up to the last '/', name, and extension from the last '.' (which
    must not be the very first character of the path). *)
Definition path_parts (path dir name ext : list ascii) : Prop :=
  path = dir ++ name ++ ext
  /\ (dir = [] \/ exists d, dir = d ++ ["/"%char]) /\ ~ In "/"%char (name ++ ext)
  /\ (ext = [] \/ exists e, ext = "."%char :: e /\ ~ In "."%char e /\ dir ++ name <> [])
  /\ (ext = [] -> ~ In "."%char name \/ (dir = [] /\ exists n, name = "."%char :: n /\ ~ In "."%char n)).
