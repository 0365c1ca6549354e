(** Exponential Green-Ampt infiltration, webmod.d/src/topmod_chem.F EXPINF 3134-3256.
    REAL and DOUBLE PRECISION are exact rationals; EXP and DLOG are arguments; a division by
    zero gives the (unused) value 0. *)
From Coq Require Import QArith Qabs ZArith List Bool.
From Verif Require Import Qx.
Local Open Scope Q_scope.

Record soil := { xk0 : Q; hf : Q; dth : Q; szm : Q }.
Definition cd (p : soil) : Q := hf p * dth p.                       (* 3160 *)
Definition szf (p : soil) : Q := 1 / szm p.                         (* 3161 *)
Definition tol : Q := 1 # 1000.                                     (* 3159 *)

(** R2 = -XKF*SZF*(CD+f)/(1-EXP(SZF*f)); 3172, 3182, 3186. *)
Definition capacity (expf : Q -> Q) (p : soil) (f : Q) : Q :=
  - xk0 p * szf p * (cd p + f) / (1 - expf (szf p * f)).

(** The DO 9 loop, 3185-3196: [k] turns left. *)
Fixpoint bisect (expf : Q -> Q) (p : soil) (rint : Q) (k : nat) (f1 f2 f : Q) : Q :=
  match k with
  | O => f
  | S k' =>
      if qlt rint (capacity expf p f) then
        let f' := (f2 + f) * (1 # 2) in
        if qlt (Qabs (f' - f)) tol then f' else bisect expf p rint k' f f2 f'
      else
        let f' := (f1 + f) * (1 # 2) in
        if qlt (Qabs (f' - f)) tol then f' else bisect expf p rint k' f1 f f'
  end.

(** The DO 12 / DO 13 loops, 3208-3212 and 3226-3230: sum of x**J/(J*J!) for J = j.. . *)
Fixpoint series (x : Q) (k : nat) (j : Z) (fac pw acc : Q) : Q :=
  match k with
  | O => acc
  | S k' => let fac' := fac * inject_Z j in
            let pw' := pw * x in
            series x k' (j + 1)%Z fac' pw' (acc + pw' / (inject_Z j * fac'))
  end.

(** The DO 14 loop, 3220-3237: Newton-Raphson for F. *)
Fixpoint newton (expf logf : Q -> Q) (p : soil) (it : Z) (dt tp const : Q) (k : nat) (f : Q) : Q :=
  match k with
  | O => f
  | S k' =>
      let fc := f + cd p in
      let sum := series (fc * szf p) 10 1 1 1 0 in
      let func := - (logf fc - (logf fc + sum) / expf (szf p * cd p) - const) / (xk0 p * szf p)
                  - (inject_Z it * dt - tp) in
      let dfunc := (expf (szf p * f) - 1) / (xk0 p * szf p * fc) in
      let df := - func / dfunc in
      let f' := f + df in
      if qle (Qabs df) tol then f' else newton expf logf p it dt tp const k' f'
  end.

(** Variables kept by the caller: IROF, CUMF, CONST, TP; and the result DF. *)
Record inf_state := { irof : bool; cumf : Q; const : Q; tp : Q }.

(** Labels 15 and 20, 3239-3255. *)
Definition finish (rint dt : Q) (s : inf_state) (f : Q) : inf_state * Q :=
  if qlt f (cumf s + rint * dt) then
    ({| irof := irof s; cumf := f; const := const s; tp := tp s |}, f - cumf s)
  else ({| irof := false; cumf := cumf s + rint * dt; const := const s; tp := tp s |}, rint * dt).
Definition no_ponding (rint dt : Q) (s : inf_state) : inf_state * Q :=
  ({| irof := false; cumf := cumf s + rint * dt; const := const s; tp := tp s |}, rint * dt).

(** Label 10, 3217-3238. *)
Definition excess (expf logf : Q -> Q) (p : soil) (it : Z) (rint dt : Q) (s : inf_state)
    (f : Q) : inf_state * Q :=
  finish rint dt s (newton expf logf p it dt (tp s) (const s) 40 f).

(** Label 8, 3205-3216. *)
Definition ponded (expf logf : Q -> Q) (p : soil) (it : Z) (rint dt : Q) (s : inf_state)
    (tp' f : Q) : inf_state * Q :=
  let fc := f + cd p in
  let c0 := series (fc * szf p) 10 1 1 1 0 in
  let c := logf fc - (logf fc + c0) / expf (szf p * cd p) in
  excess expf logf p it rint dt
    {| irof := true; cumf := cumf s; const := c; tp := tp' |}
    (f + (1 # 2) * rint * (inject_Z it * dt - tp')).

(** Label 7, 3180-3201. *)
Definition test_ponding (expf logf : Q -> Q) (p : soil) (it : Z) (rint dt : Q) (s : inf_state)
    (f1 : Q) : inf_state * Q :=
  let f2 := cumf s + dt * rint in
  if qeq f2 0 then no_ponding rint dt s
  else
    let r2 := capacity expf p f2 in
    if qlt rint r2 then no_ponding rint dt s
    else
      let f := bisect expf p rint 20 f1 f2 (cumf s + r2 * dt) in
      let tp' := inject_Z (it - 1) * dt + (f - cumf s) / rint in
      if qlt (inject_Z it * dt) tp' then
        no_ponding rint dt {| irof := irof s; cumf := cumf s; const := const s; tp := tp' |}
      else ponded expf logf p it rint dt s tp' f.

(** EXPINF, 3134-3256.  Result: the caller's variables and DF. *)
Definition expinf (expf logf : Q -> Q) (p : soil) (it : Z) (rint dt : Q) (s : inf_state)
  : inf_state * Q :=
  if irof s then excess expf logf p it rint dt s (cumf s)              (* 3165 *)
  else if qeq (cumf s) 0 then test_ponding expf logf p it rint dt s 0  (* 3168 *)
  else if qlt (capacity expf p (cumf s)) rint then                     (* 3173-3178 *)
    ponded expf logf p it rint dt s ((inject_Z it - 1) * dt) (cumf s)
  else test_ponding expf logf p it rint dt s (cumf s).

(** A sequence of steps with intensities [rs], step numbers from [it]. Result: final state
    and the infiltration of each step. *)
Fixpoint inf_run (expf logf : Q -> Q) (p : soil) (dt : Q) (it : Z) (rs : list Q) (s : inf_state)
  : inf_state * list Q :=
  match rs with
  | nil => (s, nil)
  | cons r rs' =>
      let '(s', df) := expinf expf logf p it r dt s in
      let '(s'', dfs) := inf_run expf logf p dt (it + 1)%Z rs' s' in
      (s'', cons df dfs)
  end.
