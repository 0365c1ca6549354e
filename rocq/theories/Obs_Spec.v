(** Words of the chemdat file and its records, for properties C100-C102. *)
From Coq Require Import String Ascii ZArith QArith Bool List.
From Verif Require Import Qx Obs_Model.
Import ListNotations.
Local Open Scope string_scope.
Local Open Scope list_scope.
Local Open Scope Z_scope.

(** A word: not empty, without blanks. *)
Fixpoint no_blanks (s : string) : Prop :=
  match s with "" => True | String c r => c <> " "%char /\ no_blanks r end.
Definition word (n : nat) (s : string) : Prop := s <> "" /\ no_blanks s /\ (String.length s <= n)%nat.

(** Words with one blank between them. *)
Fixpoint sentence (l : list string) : string :=
  match l with
  | [] => ""
  | [w] => w
  | w :: r => (w ++ String " " (sentence r))%string
  end.
(** Species and unit of each column, as words of the header. *)
Definition column_words (cols : list (string * string)) : list string := flat_map (fun p => [fst p; snd p]) cols.
Definition header (cols : list (string * string)) : string := sentence ("tempc" :: "pH" :: column_words cols).

(** The species table as read from its file: name, mg and meq per mole. *)
Definition table (l : list (string * Q * Q)) : list species :=
  map (fun e => mkSp (fit 20 (fst (fst e))) (snd (fst e)) (snd e)) l.
(** The first row (from 1) with a name. *)
Definition row_of (l : list (string * Q * Q)) (s : string) (k : Z) : Prop :=
  exists a mg meq b, l = a ++ (s, mg, meq) :: b /\ ~ In s (map (fun e => fst (fst e)) a) /\ k = Z.of_nat (length a) + 1.

(** The units, in the order of their codes. *)
Definition units : list string := ["mg/L"; "meq/L"; "uconc1"; "uconc2"; "uconc3"; "mmol/L"; "mol/L"; "permil"].

(** [v] is the last column (from 1) with the species, 0 if there is none. *)
Definition last_column (cols : list (Z * Z)) (phq v : Z) : Prop :=
  (v = 0 /\ ~ In phq (map fst cols)) \/
  (exists a c b, cols = a ++ c :: b /\ fst c = phq /\ ~ In phq (map fst b) /\ v = Z.of_nat (length a) + 1).

(** One sample of a record: temperature, pH and a value for each column. *)
Record sample := mkSam { s_temp : Q; s_ph : Q; s_vals : list Q }.
Definition numbers (s : sample) : list Q := s_temp s :: s_ph s :: s_vals s.
(** A record: its date and samples, as a line. *)
Definition record := (list Q * list sample)%type.
Definition values (r : record) : list Q := flat_map numbers (snd r).
Definition line_of (r : record) : list token := map Some (fst r ++ values r).
Definition well_formed (ncols nrows : nat) (r : record) : Prop :=
  length (fst r) = 6%nat /\ length (snd r) = nrows /\ forall s, In s (snd r) -> length (s_vals s) = ncols.
Definition same_date (a b : list Q) : Prop := Forall2 Qeq a b.

(** What a unit means: moles per litre for [x] of it. *)
Definition in_moles (mg meq : Q) (conv : list Q) (unit : Z) (x : Q) (y : Q) : Prop :=
  ((x < 0)%Q /\ y = x) \/
  ((0 <= x)%Q /\ ((unit = 1 /\ (y * mg == x)%Q) \/ (unit = 2 /\ (y * meq == x)%Q) \/
     (exists k f, unit = 3 + Z.of_nat k /\ nth_error conv k = Some f /\ (k < 3)%nat /\ (y * f == x)%Q) \/
     (unit = 6 /\ (y * 1000 == x)%Q) \/ ((unit = 7 \/ unit = 8) /\ y = x))).

(** A source with the sample's temperature, pH and its values in moles, for the
    solutes that have a column, and zero for the others. *)
Definition reads (u : setup) (s : sample) (w : water) : Prop :=
  temp w = s_temp s /\ ph w = s_ph s /\
  Forall2 (fun v y => (v = 0 /\ y = Some 0%Q) \/
    (1 <= v /\ exists x c e z, nth_error (s_vals s) (Z.to_nat (v - 1)) = Some x /\ nth_error (columns u) (Z.to_nat (v - 1)) = Some c /\
       nth_error (tbl u) (Z.to_nat (fst c - 1)) = Some e /\ y = Some z /\ in_moles (mg e) (meq e) (conv u) (snd c) x z)) (valid u) (conc w).

(** What obsc_init and the parameter file ensure, with factors that are not zero. *)
Definition good_setup (u : setup) : Prop :=
  (forall v, In v (valid u) -> 0 <= v <= Z.of_nat (length (columns u))) /\
  (forall c, In c (columns u) -> 1 <= snd c <= 8 /\ exists e, nth_error (tbl u) (Z.to_nat (fst c - 1)) = Some e /\ ~ (mg e == 0)%Q /\ (snd c = 2 -> ~ (meq e == 0)%Q)) /\
  length (conv u) = 3%nat /\ forall f, In f (conv u) -> ~ (f == 0)%Q.
