(** Solution numbering of webmod.d/src/phreeq_mms.F90: SOLNNUM 10330-10359, ISOLN 10365-10438,
    CHECKFRACS 10461-10499, CHEMFLAG 10501-10515, FILL_ENT 10441-10459 and the row assignment
    loop 4111-4231.
    INTEGER is Z (no overflow: every number below is under 6e8).  ISOLN cuts digits with default
    REALs; every value cut is an integer below 2^24 and every quotient is at least 1e-5 away from
    the next integer or equal to one, so the truncated quotient is Z.quot here. *)
From Coq Require Import QArith Qabs ZArith List Bool.
From Verif Require Import Qx.
Import ListNotations.
Local Open Scope Z_scope.

Definition e8 : Z := 100000000.
Definition e6 : Z := 1000000.
Definition e3 : Z := 1000.

(** SOLNNUM, 10330-10359.  The argument STAT is not used by the code. *)
Definition solnnum (time res_id chemdat mru nac hydro : Z) : Z :=
  let itime := time * e8 in                                              (* 10335 *)
  if (res_id <? 0) || (99 <? res_id) then -99                            (* 10336-10339 *)
  else if res_id =? 99 then itime + 3 * e8 + hydro                       (* 10340-10341 *)
  else if res_id =? 0 then if chemdat =? 0 then 1 else e3 + chemdat      (* 10344-10346 *)
  else if res_id <=? 14 then
    let s := itime + e8 + res_id * e6 + mru * e3 in                      (* 10347-10348 *)
    if res_id =? 5 then s + nac * 10 else s                              (* 10353 *)
  else -99.                                                              (* 10349-10351 *)

Record decoded := { d_row : Z; d_res : Z; d_chem : Z; d_mru : Z; d_nac : Z; d_hydro : Z }.

(** The three ways ISOLN cuts a hillslope number, e.g. 10400-10404, 10405-10410, 10411-10415. *)
Definition cut_low (nchemdat nmru nac icut : Z) : decoded :=
  let ires := Z.quot icut e6 in
  let imru := Z.quot (icut - ires * e6) e3 in
  {| d_row := 1 + nchemdat + nac * nmru + (ires - 3) * nmru + imru;
     d_res := ires; d_chem := -99; d_mru := imru; d_nac := -99; d_hydro := -99 |}.
Definition cut_uz (nchemdat nmru nac icut : Z) : decoded :=
  let ires := Z.quot icut e6 in
  let imru := Z.quot (icut - ires * e6) e3 in
  let inac := Z.quot (icut - ires * e6 - imru * e3) 10 in
  {| d_row := 1 + nchemdat + nmru * 4 + (imru - 1) * nac + inac;
     d_res := ires; d_chem := -99; d_mru := imru; d_nac := inac; d_hydro := -99 |}.
Definition cut_surf (nchemdat nmru nac icut : Z) : decoded :=
  let ires := Z.quot icut e6 in
  let imru := Z.quot (icut - ires * e6) e3 in
  {| d_row := 1 + nchemdat + (ires - 1) * nmru + imru;
     d_res := ires; d_chem := -99; d_mru := imru; d_nac := -99; d_hydro := -99 |}.
Definition cut_hydro (nchemdat nmru nac ihydro : Z) : decoded :=
  {| d_row := 1 + nchemdat + nmru * (nac + 12) + ihydro + 1;
     d_res := 99; d_chem := -99; d_mru := -99; d_nac := -99; d_hydro := ihydro |}.

(** ISOLN, 10365-10438.  The argument NHYDRO is not used by the code. *)
Definition isoln (nchemdat nmru nac soln : Z) : decoded :=
  if (soln <? 1) || (6 * e8 <=? soln) then                               (* 10381-10384 *)
    {| d_row := 0; d_res := -99; d_chem := -99; d_mru := -99; d_nac := -99; d_hydro := -99 |}
  else if soln =? 1 then                                                 (* 10385-10386 *)
    {| d_row := 1; d_res := -99; d_chem := -99; d_mru := -99; d_nac := -99; d_hydro := -99 |}
  else if soln <? e6 then                                                (* 10387-10390 *)
    {| d_row := soln - 999; d_res := 0; d_chem := soln - 999 - 1;
       d_mru := -99; d_nac := -99; d_hydro := -99 |}
  else if 4 * e8 <=? soln then cut_hydro nchemdat nmru nac (soln - 4 * e8) (* 10395-10398 *)
  else if 3 * e8 <=? soln then cut_hydro nchemdat nmru nac (soln - 3 * e8) (* 10399-10402 *)
  else if 206000000 <=? soln then cut_low nchemdat nmru nac (soln - 2 * e8)
  else if 205000000 <=? soln then cut_uz nchemdat nmru nac (soln - 2 * e8)
  else if 2 * e8 <? soln then cut_surf nchemdat nmru nac (soln - 2 * e8)
  else if 106000000 <=? soln then cut_low nchemdat nmru nac (soln - e8)
  else if 105000000 <=? soln then cut_uz nchemdat nmru nac (soln - e8)
  else cut_surf nchemdat nmru nac (soln - e8).

(** DO i = a, a+n-1. *)
Fixpoint count_from (a : Z) (n : nat) : list Z :=
  match n with O => [] | S n' => a :: count_from (a + 1) n' end.
Definition upto (a b : Z) : list Z := count_from a (Z.to_nat (b - a + 1)).

(** The column DEST(1..NPHRSOLNS) filled by 4111-4231 (row NPHRSOLNS is the position); [nacsc]
    gives the number of bins of each hillslope.  The rows of the first pass (i = 0) are also
    saved in I_CAN, I_SNOW, ..., I_HYD. *)
Definition assign_time (nmru segs : Z) (nacsc : Z -> Z) (i : Z) : list Z :=
  flat_map (fun j => map (fun k => solnnum i j 0 k 0 0) (upto 1 nmru)) (upto 1 4)     (* 4152-4173 *)
  ++ flat_map (fun k => map (fun l => solnnum i 5 0 k l 0) (upto 1 (nacsc k))) (upto 1 nmru) (* 4174-4185 *)
  ++ flat_map (fun j => map (fun k => solnnum i j 0 k 0 0) (upto 1 nmru)) (upto 7 14) (* 4186-4214 *)
  ++ map (fun j => solnnum i 99 0 0 0 j) (upto 0 segs).                               (* 4222-4230 *)
Definition assign_rows (nchemdat nmru segs : Z) (nacsc : Z -> Z) : list Z :=
  [1]                                                                                 (* 4112 *)
  ++ map (fun i => solnnum 0 0 i 0 0 0) (upto 1 nchemdat)                             (* 4128-4137 *)
  ++ assign_time nmru segs nacsc 0 ++ assign_time nmru segs nacsc 1.                  (* 4151-4231 *)

(** CHEMFLAG, 10501-10515: [lut] is CHVAR_LUT, rows (row index, solution number). *)
Definition chemflag (index soln : Z) (lut : list (Z * Z)) : list (Z * Z) * Z :=
  (map (fun e => if snd e =? soln then (index, snd e) else e) lut,
   if existsb (fun e => snd e =? soln) lut then 1 else 0).

(** The calls of CHEMFLAG made while rows are assigned (4135-4228): row [r], then [r+1], ... *)
Fixpoint flag_rows (r : Z) (rows : list Z) (lut : list (Z * Z)) : list (Z * Z) * list Z :=
  match rows with
  | [] => (lut, [])
  | s :: t => let '(lut1, f) := chemflag r s lut in
              let '(lut2, fs) := flag_rows (r + 1) t lut1 in (lut2, f :: fs)
  end.

(** CHECKFRACS, 10461-10499: the DO 10 loop over (solution, fraction), with the two flags and the
    running sum; the answer is 0 (accepted) or 1.  DOUBLE PRECISION is an exact rational. *)
Local Open Scope Q_scope.
Fixpoint check_loop (et snow : bool) (sum : Q) (l : list (Z * Q)) : list Q * Q :=
  match l with
  | [] => ([], sum)
  | (s, f) :: t =>
      if qlt f 0 then
        let et' := et || (s =? 1)%Z in                                         (* 10477 *)
        let snow' := snow || (s =? 2)%Z || (Z.quot s e6 =? 102)%Z in           (* 10478-10479 *)
        let f' := if negb et' && negb snow' then 0 else f in                   (* 10481-10488 *)
        let '(fs, sum') := check_loop et' snow' (sum + f') t in (f' :: fs, sum')
      else
        let '(fs, sum') := check_loop et snow (sum + f) t in (f :: fs, sum')
  end.
Definition checkfracs (l : list (Z * Q)) : list Q * Z :=
  let '(fs, sum) := check_loop false false 0 l in
  (fs, if qlt (1 # 1000) (Qabs (1 - sum)) then 1%Z else 0%Z).                  (* 10491-10496 *)
