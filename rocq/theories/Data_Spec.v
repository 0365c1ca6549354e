(** What a data file says, and what a run over data files should do with it. *)
From Coq Require Import String Ascii List ZArith QArith Bool Sorted.
From Verif Require Import Calendar_Model Elem_Spec Pfile_Spec.
Import ListNotations.
Local Open Scope string_scope.
Local Open Scope list_scope.
Local Open Scope Z_scope.

(** The text of an integer. *)
Inductive int_text : string -> Z -> Prop :=
| it_plain s v : numeral s v -> int_text s v
| it_minus s v : numeral s v -> int_text ("-" ++ s) (- v).
(** What may follow a number. *)
Definition after (rest : string) : Prop := rest = "" \/ exists r, rest = (" " ++ r)%string \/ rest = (newline ++ r)%string.
(** A data line: year, month, day, hour, minute and second with blanks between them, then the columns. *)
Inductive stamped : string -> Z -> Z -> Z -> Z -> Z -> Z -> string -> Prop :=
| st_intro k0 k1 k2 k3 k4 k5 ty tm td th ti ts y m d h mi s rest :
    int_text ty y -> int_text tm m -> int_text td d -> int_text th h -> int_text ti mi -> int_text ts s -> after rest ->
    stamped (blanks k0 ++ ty ++ blanks (S k1) ++ tm ++ blanks (S k2) ++ td ++ blanks (S k3) ++ th ++
             blanks (S k4) ++ ti ++ blanks (S k5) ++ ts ++ rest) y m d h mi s rest.
(** The number reader: an integer text after blanks is read as that integer. *)
Definition reads_integers (strtod : string -> Q * string * bool) : Prop :=
  forall k t v rest, int_text t v -> after rest -> -2147483648 <= v <= 2147483647 ->
    strtod (blanks k ++ t ++ rest)%string = (inject_Z v, rest, false).
Definition fields_ok (y m d h mi s : Z) : Prop :=
  1800 <= y <= 2100 /\ 1 <= m <= 12 /\ 1 <= d <= 31 /\ 0 <= h <= 24 /\ 0 <= mi <= 59 /\ 0 <= s <= 59.
(** The day number (C01) and the instant in days. *)
Definition day_number (y m d : Z) : Z := match julday (mkdate y m d) with Some j => j | None => 0 end.
Definition instant (y m d h mi s : Z) : Q :=
  (inject_Z (day_number y m d) + (inject_Z h / 24 + inject_Z mi / 1440 + inject_Z s / 86400))%Q.

Section Run.
Context {V : Type}.
(** Reading [n] values of a type from a text: the values and the rest. *)
Inductive reads (conv : Z -> string -> V * string * bool) (ty : Z) : nat -> string -> list V -> string -> Prop :=
| rd_nil p : reads conv ty 0 p [] p
| rd_cons n p v p1 vs p2 : conv ty p = (v, p1, false) -> reads conv ty n p1 vs p2 -> reads conv ty (S n) p (v :: vs) p2.
(** The columns of a record, for variables of the given types and sizes. *)
Inductive delivers (conv : Z -> string -> V * string * bool) : list (Z * nat) -> string -> list (list V) -> Prop :=
| dl_nil p : delivers conv [] p []
| dl_cons ty n l p vs p1 vss : reads conv ty n p vs p1 -> delivers conv l p1 vss -> delivers conv ((ty, n) :: l) p (vs :: vss).

(** A record: its line, the fields and the values it says. *)
Record rec := mkRec { r_line : string; r_year : Z; r_month : Z; r_day : Z; r_hour : Z; r_min : Z; r_sec : Z; r_vals : list (list V) }.
Definition good conv (layout : list (Z * nat)) (r : rec) : Prop :=
  exists rest, stamped (r_line r) (r_year r) (r_month r) (r_day r) (r_hour r) (r_min r) (r_sec r) rest /\
    fields_ok (r_year r) (r_month r) (r_day r) (r_hour r) (r_min r) (r_sec r) /\ delivers conv layout rest (r_vals r).
Definition moment (r : rec) : Q := instant (r_year r) (r_month r) (r_day r) (r_hour r) (r_min r) (r_sec r).
Definition day (r : rec) : Z := day_number (r_year r) (r_month r) (r_day r).

(** All records of all files in the order in which they should be used, each with the number of its file. *)
Definition merged := list (nat * rec).
Definition records_of (i : nat) (M : merged) : list rec := map snd (filter (fun x => Nat.eqb (fst x) i) M).
(** Times increase, and different files have no day in common. *)
Definition precedes (a b : nat * rec) : Prop :=
  (moment (snd a) < moment (snd b))%Q /\ (fst a <> fst b -> day (snd a) < day (snd b)).
Definition in_order (M : merged) : Prop := StronglySorted precedes M.

(** The text of file [i]: a header, a "####" line, the records, and either nothing more or an empty line; an empty line
    must not end the file before the start of the run. *)
Definition file_text (start : Q) (rs : list rec) (text : list string) : Prop :=
  exists head hash tail, text = head ++ hash :: map r_line rs ++ tail /\
    Forall (fun l => prefix "####" l = false) head /\ prefix "####" hash = true /\ rs <> [] /\
    (tail = [] \/ ((exists e more, tail = (newline ++ e)%string :: more) /\ exists r, In r rs /\ (start <= moment r)%Q)).

(** The records until the last one of the first file (numbered 0). *)
Fixpoint until_first_ends (M : merged) : merged :=
  match M with [] => [] | x :: M => if existsb (fun y => Nat.eqb (fst y) 0) (x :: M) then x :: until_first_ends M else [] end.
Definition within (start stop : Q) (r : rec) : bool := Qle_bool start (moment r) && Qle_bool (moment r) stop.
Definition executed (start stop : Q) (M : merged) : list rec := filter (within start stop) (map snd (until_first_ends M)).
(** Why the run ends: 1 a record after the end of the run, 2 no more data. *)
Definition ends_with (stop : Q) (M : merged) : Z :=
  if existsb (fun x => negb (Qle_bool (moment (snd x)) stop)) (until_first_ends M) then 1 else 2.
(** The lengths of the steps: the time since the record before. *)
Fixpoint lengths (prev : Q) (rs : list rec) : list Q :=
  match rs with [] => [] | r :: rs => (moment r - prev)%Q :: lengths (moment r) rs end.
End Run.

(** * The header of a data file *)
Definition word (s : string) : Prop := s <> "" /\ free_of " " s /\ free_of "009" s.
(** A comment, an empty line, or a variable with the number of its columns. *)
Inductive head_item := Remark (text : string) | Empty | Entry (name : string) (count : nat).
Inductive head_line : head_item -> string -> Prop :=
| hl_remark t : head_line (Remark t) ("//" ++ t)
| hl_empty : head_line Empty newline
| hl_entry name t n k j rest : word name -> prefix "//" name = false -> prefix "####" name = false -> numeral t (Z.of_nat n) -> (Z.of_nat n < 9223372036854775807)%Z -> after rest ->
    head_line (Entry name n) (blanks k ++ name ++ blanks (S j) ++ t ++ rest).
Definition entries (h : list head_item) : list (string * nat) := flat_map (fun i => match i with Entry n c => [(n, c)] | _ => [] end) h.
