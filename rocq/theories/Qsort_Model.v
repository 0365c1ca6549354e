(** Order of numbers in TSPROC, tsproc-trunk/tsproc-master/src/tsp_utilities.F90: quick_sort 2575-2668, median 2672-2707,
    quantile_scalar 2709-2747, quantile_vector 2749-2788.  Numbers are exact rationals; positions count from 0 here and from 1 in the
    code; [None] stands for a read outside the array or a loop that does not end. *)
From Coq Require Import List ZArith QArith Bool Arith.
From Verif Require Import Qx.
Import ListNotations.
Local Open Scope Q_scope.

(** 2583-2586: [list] and [order] together, element by element *)
Notation item := (Q * nat)%type.
Fixpoint assign (l : list item) (i : nat) (x : item) : list item :=
  match l, i with [], _ => [] | _ :: r, O => x :: r | y :: r, S k => y :: assign r k x end.
(** 2633-2634 and 2659-2660 *)
Definition swap (l : list item) (i j : nat) : option (list item) :=
  match nth_error l i, nth_error l j with
  | Some x, Some y => Some (assign (assign l i y) j x)
  | _, _ => None
  end.

(** 2620-2623: from position [i] on *)
Fixpoint scan_up (fuel : nat) (l : list item) (reference : Q) (i : nat) : option nat :=
  match fuel with
  | O => None
  | S f => match nth_error l i with
           | None => None
           | Some x => if qle reference (fst x) then Some i else scan_up f l reference (S i)
           end
  end.
(** 2625-2628: from the position before [j] downwards *)
Fixpoint scan_down (l : list item) (reference : Q) (j : nat) : option nat :=
  match j with
  | O => None
  | S k => match nth_error l k with
           | None => None
           | Some x => if qle (fst x) reference then Some k else scan_down l reference k
           end
  end.
(** 2618-2640; [i] is the next position to look at from the left, [j] the one after the next from the right *)
Fixpoint partition (fuel : nat) (l : list item) (reference : Q) (i j : nat) : option (list item * nat * nat) :=
  match fuel with
  | O => None
  | S f =>
      match scan_up (length l) l reference i, scan_down l reference j with
      | Some i, Some j =>
          if (i <? j)%nat then match swap l i j with Some l => partition f l reference (S i) j | None => None end
          else if (i =? j)%nat then Some (l, S i, j)
          else Some (l, i, j)
      | _, _ => None
      end
  end.

(** 2656-2663, inner loop: [n] positions from [j] on *)
Fixpoint inner (l : list item) (i j n : nat) : option (list item) :=
  match n with
  | O => Some l
  | S m => match nth_error l i, nth_error l j with
           | Some x, Some y =>
               if qlt (fst y) (fst x) then match swap l i j with Some l => inner l i (S j) m | None => None end
               else inner l i (S j) m
           | _, _ => None
           end
  end.
(** 2648-2664: [n] positions from [i] on, the last before [right] *)
Fixpoint interchange (l : list item) (i right n : nat) : option (list item) :=
  match n with
  | O => Some l
  | S m => match inner l i (S i) (right - i) with Some l => interchange l (S i) right m | None => None end
  end.

(** 2596-2646 *)
Fixpoint quick (fuel : nat) (l : list item) (left_end right_end : nat) : option (list item) :=
  match fuel with
  | O => None
  | S f =>
      if (right_end <? left_end + 6)%nat then interchange l left_end right_end (right_end - left_end)
      else match nth_error l (Nat.div (left_end + right_end) 2) with
           | None => None
           | Some x =>
               match partition (S (length l)) l (fst x) left_end (S right_end) with
               | None => None
               | Some (l, i, j) =>
                   match (if (left_end <? j)%nat then quick f l left_end j else Some l) with
                   | None => None
                   | Some l => if (i <? right_end)%nat then quick f l i right_end else Some l
                   end
               end
           end
  end.
(** 2588-2592: the order given out counts from 1.  With no numbers nothing is done. *)
Definition quick_sort (data : list Q) : option (list item) :=
  match data with
  | [] => Some []
  | _ => quick (S (length data)) (combine data (seq 1 (length data))) 0 (length data - 1)
  end.
Definition sorted_values (data : list Q) : option (list Q) := option_map (map fst) (quick_sort data).

(** 2672-2707; no value for no data *)
Definition median (data : list Q) : option Q :=
  let ns := length data in
  let h := Nat.div ns 2 in
  if (1 <? ns)%nat then
    match sorted_values data with
    | None => None
    | Some s =>
        if Nat.odd ns then nth_error s h
        else match nth_error s (h - 1), nth_error s h with Some x, Some y => Some ((x + y) / 2) | _, _ => None end
    end
  else nth_error data 0.

(** 2731-2745 and 2771-2782: [real_index] is the position looked for, from 1 *)
Definition at_index (s : list Q) (real_index : Q) : option Q :=
  let n := length s in
  let k := Nat.max (Z.to_nat (trunc real_index)) 1 in
  let fractional := real_index - inject_Z (Z.of_nat k) in
  if (k <? n)%nat then
    match nth_error s (k - 1), nth_error s k with Some x, Some y => Some (x + (y - x) * fractional) | _, _ => None end
  else nth_error s (n - 1).
Definition quantile_scalar (q : Q) (data : list Q) : option Q :=
  match sorted_values data with
  | None => None
  | Some [] => Some 0
  | Some s => at_index s (q * inject_Z (Z.of_nat (length s)))
  end.
Definition quantile_vector (q : Q) (data : list Q) : option Q :=
  match sorted_values data with
  | None => None
  | Some [] => Some 0
  | Some s => at_index s (q * inject_Z (Z.of_nat (length s + 1)))
  end.
