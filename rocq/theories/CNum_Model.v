(** C library number parsing used by the framework: [strtol] with base 10 and [strrchr]. *)
From Coq Require Import String Ascii List ZArith Bool NArith.
From Verif Require Import CStr_Model.
Local Open Scope string_scope.
Local Open Scope Z_scope.

Definition LONG_MAX : Z := 9223372036854775807.
Definition LONG_MIN : Z := -9223372036854775808.

Definition is_space (c : ascii) : bool :=
  let n := N_of_ascii c in ((9 <=? n)%N && (n <=? 13)%N || (n =? 32)%N)%bool.
Definition digit (c : ascii) : option Z :=
  let n := N_of_ascii c in
  if ((48 <=? n)%N && (n <=? 57)%N)%bool then Some (Z.of_N n - 48) else None.

Fixpoint skip_space (s : string) : string :=
  match s with String c r => if is_space c then skip_space r else s | _ => s end.

(** Longest run of digits: value and rest. *)
Fixpoint digits (acc : Z) (s : string) : Z * string :=
  match s with
  | String c r => match digit c with Some d => digits (10 * acc + d) r | None => (acc, s) end
  | EmptyString => (acc, s)
  end.

(** Unsigned part: [None] when there is no digit. *)
Definition udigits (s : string) : option (Z * string) :=
  match s with
  | String c r => match digit c with Some d => Some (digits d r) | None => None end
  | EmptyString => None
  end.

(** [strtol(s, &end, 10)]: value before saturation, and what [end] points to; without any
    digit the value is 0 and [end = s]. *)
Definition strtol_raw (s : string) : Z * string :=
  match skip_space s with
  | String "-" r => match udigits r with Some (v, e) => (- v, e) | None => (0, s) end
  | String "+" r => match udigits r with Some (v, e) => (v, e) | None => (0, s) end
  | r => match udigits r with Some (v, e) => (v, e) | None => (0, s) end
  end.
Definition saturate (v : Z) : Z := Z.max LONG_MIN (Z.min LONG_MAX v).
Definition strtol (s : string) : Z * string := let (v, e) := strtol_raw s in (saturate v, e).
(** errno = ERANGE. *)
Definition strtol_erange (s : string) : bool :=
  let (v, _) := strtol_raw s in ((v <? LONG_MIN) || (LONG_MAX <? v))%bool.
(** [atol]/[atoi] as [strtol] without error report. *)
Definition atol (s : string) : Z := fst (strtol s).

(** [strrchr(s, c)]: text before and after the last [c]. *)
Fixpoint split_last (c : ascii) (s : string) : option (string * string) :=
  match s with
  | EmptyString => None
  | String a r =>
      match split_last c r with
      | Some (x, y) => Some (String a x, y)
      | None => if Ascii.eqb a c then Some ("", r) else None
      end
  end.
