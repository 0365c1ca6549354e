(** What an exchange of a variable should do, independent of the code. *)
From Coq Require Import List ZArith Bool.
Import ListNotations.

(** The first [n] bytes of [dst] replaced by those of [src]. *)
Definition overwrite (n : nat) (src dst : list Z) : list Z := firstn n src ++ skipn n dst.
(** Leading dimension of a table: the maximum when a table of maximal rows fits the caller's array, else the
    current value. *)
Definition leading (value max n2 room : nat) : nat := if Nat.leb (max * n2) room then max else value.
(** Element [k] of [w] bytes. *)
Definition element (w k : nat) (b : list Z) : list Z := firstn w (skipn (w * k) b).
