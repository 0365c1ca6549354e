(** What a checkpoint should preserve. *)
From Coq Require Import String Ascii List ZArith QArith Qabs Bool.
From Verif Require Import CStr_Model Dim_Model Pfile_Spec Ckpt_Model.
Import ListNotations.
Local Open Scope string_scope.
Local Open Scope list_scope.
Local Open Scope Z_scope.

Definition long_range (z : Z) : Prop := -9223372036854775808 <= z <= 9223372036854775807.
Definition int_range (z : Z) : Prop := -2147483648 <= z <= 2147483647.
(** Names that fit a line of the file. *)
Definition name_ok (s : string) : Prop := free_of "010" s /\ (String.length s < 49)%nat.

Section Spec.
Context {V : Type}.
(** printf and atof of reals: the text is one short line, and reading it gives the value printed. *)
Definition printer_ok (show : Z -> V -> string) (atof : Z -> string -> V) : Prop :=
  forall ty x, free_of "010" (show ty x) /\ (String.length (show ty x) < 250)%nat /\ prefix "####" (show ty x ++ " " ++ newline)%string = false /\
               atof ty (show ty x ++ " " ++ newline)%string = x.
(** The storage holds the elements of the variable. *)
Definition storage_ok (v : @var V) : Prop :=
  match v_mem v with
  | Longs l => v_type v = 1 /\ v_size v <= Z.of_nat (List.length l) /\ Forall long_range l
  | Ints l => v_type v = 1 /\ 2 * v_size v <= Z.of_nat (List.length l) /\ Forall int_range l
  | Reals l => (v_type v = 2 \/ v_type v = 3) /\ v_size v <= Z.of_nat (List.length l)
  end.
(** A declared variable: one to three dimensions, or private. *)
Definition variable_ok (v : @var V) : Prop :=
  name_ok (v_key v) /\ 0 <= v_size v <= 9223372036854775807 /\ storage_ok v /\
  (v_private v = false -> v_ndimen v = Z.of_nat (List.length (v_dims v)) /\ (1 <= List.length (v_dims v) <= 3)%nat /\
                          Forall (fun d => name_ok d /\ prefix "####" d = false) (v_dims v)).
(** The title is the first line of the description of the run. *)
Definition title_ok (info : string) : Prop :=
  exists first rest, info = (first ++ rest)%string /\ free_of "010" first /\ (String.length first < 79)%nat /\ (rest = "" \/ exists r, rest = (newline ++ r)%string).
Definition state_ok (st : @state V) : Prop :=
  title_ok (s_info st) /\ long_range (s_nsteps st) /\ (Qabs (s_now st) < 1000000000)%Q /\ (Qabs (s_dt st) < 1000000000)%Q /\
  Forall (fun d => name_ok (d_name d) /\ long_range (d_value d)) (s_dims st) /\
  NoDup (map v_key (s_vars st)) /\ Forall variable_ok (s_vars st).

(** The same variable as declared in another run: same dimensions, size, type and kind of storage. *)
Definition same_storage (v w : @var V) : Prop :=
  match v_mem v, v_mem w with
  | Longs _, Longs l => v_size v <= Z.of_nat (List.length l)
  | Ints _, Ints l => 2 * v_size v <= Z.of_nat (List.length l)
  | Reals _, Reals l => v_size v <= Z.of_nat (List.length l)
  | _, _ => False
  end.
Definition same_declaration (v w : @var V) : Prop :=
  v_key v = v_key w /\ v_size v = v_size w /\ v_type v = v_type w /\ v_private v = v_private w /\ same_storage v w /\
  (v_private v = false -> v_ndimen v = v_ndimen w /\ v_dims v = v_dims w).
Definition same_dimensions (a b : dimdb) : Prop :=
  forall d, In d a -> exists e, dim_addr b (d_name d) = Some e /\ d_value e = d_value d.

(** The first [n] elements of [a], and behind them what [b] holds. *)
Definition overlay (n : nat) (a b : @mem V) : @mem V :=
  match a, b with
  | Longs x, Longs y => Longs (firstn n x ++ skipn n y)
  | Ints x, Ints y => Ints (firstn (2 * n) x ++ skipn (2 * n) y)
  | Reals x, Reals y => Reals (firstn n x ++ skipn n y)
  | _, _ => b
  end.
(** [w'] is [w] with its first [n] elements taken from [v]; nothing else of its declaration differs (the number of
    dimensions of a private variable is never set). *)
Definition taken (n : nat) (v w w' : @var V) : Prop :=
  v_key w' = v_key w /\ v_dims w' = v_dims w /\ v_size w' = v_size w /\ v_type w' = v_type w /\ v_private w' = v_private w /\
  (v_private w = false -> v_ndimen w' = v_ndimen w) /\ v_mem w' = overlay n (v_mem v) (v_mem w).
(** Every variable that was saved has its elements back, every other variable is as before. *)
Definition all_restored (saved before after : list (@var V)) : Prop :=
  Forall2 (fun w w' => (forall v, In v saved -> v_key v = v_key w -> taken (Z.to_nat (v_size w)) v w w') /\
                       ((forall v, In v saved -> v_key v <> v_key w) -> w' = w)) before after.
(** Every element is the one saved or the one before. *)
Definition partly_restored (saved before after : list (@var V)) : Prop :=
  Forall2 (fun w w' => (forall v, In v saved -> v_key v = v_key w -> exists n, (n <= Z.to_nat (v_size w))%nat /\ taken n v w w') /\
                       ((forall v, In v saved -> v_key v <> v_key w) -> w' = w)) before after.
(** The contents of the variables. *)
Definition contents (vs : list (@var V)) : list (string * mem) := map (fun v => (v_key v, v_mem v)) vs.
End Spec.
