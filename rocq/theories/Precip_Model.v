(** Deposition: webmod.d/src/precip_web.F pptrun 288-455 and webmod.d/src/irrig_web.F irrrun
    311-638.  REAL is exact rationals, a division by zero is 0 (the theorems exclude it).
    Not modelled: getvar and putvar calls, prints, dpreal, the warning 597-610 of irrrun and the
    commented-out storm and form_data branches. *)
From Coq Require Import QArith ZArith Bool List.
From Verif Require Import Qx.
Import ListNotations.
Local Open Scope Q_scope.

(** tmax_c(i), tmin_c(i), tmax_allsnow_c, tmax_allrain_c(mo), adjmix_rain(mo). *)
Record weather := { tmax : Q; tmin : Q; allsnow : Q; allrain : Q; adjmix : Q }.
(** mru_rain, mru_snow, prmx, pptmix and newsnow of one MRU. *)
Record split := { rain : Q; snow : Q; prmx : Q; pptmix : bool; newsnow : Z }.

(** precip_web.F 406-407 and irrig_web.F 540-541. *)
Definition rain_part (w : weather) : Q := (tmax w - allsnow w) / (tmax w - tmin w) * adjmix w.

(** pptrun, body of DO 1000, 332-450: mru_ppt (which is also mru_dep) and the split. *)
Definition ppt_mru (w : weather) (rain_adj snow_adj ppt : Q) : Q * split :=
  if qeq ppt 0 then
    (ppt, {| rain := 0; snow := 0; prmx := - (1 # 10); pptmix := false; newsnow := 0 |})
  else if qle (tmax w) (allsnow w) then
    let s := ppt * snow_adj in
    (s, {| rain := 0; snow := s; prmx := if qlt 0 s then 0 else - (1 # 10); pptmix := false; newsnow := 1 |})
  else if qlt (allsnow w) (tmin w) || qle (allrain w) (tmax w) then
    let r := ppt * rain_adj in
    (r, {| rain := r; snow := 0; prmx := if qlt 0 r then 1 else - (1 # 10); pptmix := false; newsnow := 0 |})
  else
    let p := rain_part w in
    if qlt 1 p then
      (ppt * rain_adj, {| rain := ppt * rain_adj; snow := 0; prmx := 1; pptmix := false; newsnow := 0 |})
    else
      let s := (1 - p) * ppt * snow_adj in
      let r := p * ppt * rain_adj in
      (r + s, {| rain := r; snow := s; prmx := r / (r + s); pptmix := true; newsnow := 1 |}).

(** irrig_web.F 51-52 declares newsnow as real and prmx as integer, the other way round than precip_web.F 31-34; getvar and putvar copy the four
    bytes of each.  So 0 and 1 in prmx are read elsewhere as a real with these bits, and 1.0 in newsnow as an integer. *)
Definition as_real (n : Z) : Q := inject_Z n * (1 # 2 ^ 149).
Definition one_bits : Z := 1065353216.

(** irrrun 519-570: the split of the whole deposition; [old] is what the precipitation module set.  540-541 assigns the rain part to the integer
    prmx, which drops its fraction. *)
Definition irr_split (w : weather) (dep : Q) (old : split) : split :=
  if qle (tmax w) (allsnow w) then
    {| rain := 0; snow := dep; prmx := if qlt 0 dep then as_real 0 else prmx old; pptmix := false; newsnow := one_bits |}
  else if qlt (allsnow w) (tmin w) || qle (allrain w) (tmax w) then
    {| rain := dep; snow := 0; prmx := if qlt 0 dep then as_real 1 else prmx old; pptmix := false; newsnow := newsnow old |}
  else
    let p := trunc (rain_part w) in
    if (1 <? p)%Z then {| rain := dep; snow := 0; prmx := as_real 1; pptmix := false; newsnow := newsnow old |}
    else
      let s := inject_Z (1 - p) * dep in
      let r := inject_Z p * dep in
      {| rain := r; snow := s; prmx := as_real (trunc (r / (r + s))); pptmix := true; newsnow := one_bits |}.

(** What irrrun knows of one MRU: parameters, the precipitation module's results, its own
    arrays irrig_sat_next and irrig_hyd_next, and what irrig_sat_mru(i) and irrig_hyd_mru(i) happen to hold. *)
Record mru := {
  m_weather : weather; m_ppt : Q; m_dep : Q; m_split : split;
  sched_ext : Z; sched_int : Z; int_src : Z; int_init : Q;
  sat_next : Q; hyd_next : Q; sat_was : Q; hyd_was : Q;
  area : Q; area_frac : Q }.

(** 406-430: irrig_sat_next and irrig_hyd_next of the first step. *)
Definition first_next (nint : Z) (m : mru) : Q * Q :=
  if (nint =? 0)%Z then (0, 0)
  else if (1 <=? sched_int m)%Z then
    if (int_src m =? 0)%Z then (int_init m, 0) else (0, int_init m)
  else (sat_next m, hyd_next m).
(** 418-420 and 466-468: irrig_hyd_seg(isrc) += depth * inch2m * mru_area * a_million. *)
Definition inch2m : Q := 254 # 10000.
Definition hyd_volume (m : mru) (depth : Q) : Q := depth * inch2m * area m * 1000000.
Definition first_seg (nint : Z) (m : mru) (seg : Z) : Q :=
  if (nint =? 0)%Z then 0
  else if (1 <=? sched_int m)%Z && negb (int_src m =? 0)%Z && (int_src m =? seg)%Z
  then hyd_volume m (int_init m) else 0.

Record mru_out := {
  ext : Q; sat : Q; hyd : Q;                       (* inches from each source *)
  frac_ext : Q; frac_sat : Q; frac_hyd : Q;
  dep : Q;                                         (* local variable dep *)
  out_dep : Q; out_split : split }.

(** 438-452: irrig_ext_mru; [None] is the refused negative schedule. *)
Definition ext_mru (next_ : Z) (irrig_ext : Z -> Q) (m : mru) : option Q :=
  if (next_ =? 0)%Z then Some 0
  else if (sched_ext m =? 0)%Z then Some 0
  else if (0 <? sched_ext m)%Z then Some (irrig_ext (sched_ext m)) else None.
(** 453-484: irrig_sat_mru and irrig_hyd_mru. *)
Definition int_mru (nint : Z) (nexts : Q * Q) (m : mru) : option (Q * Q) :=
  if (nint =? 0)%Z then Some (sat_was m, hyd_was m)
  else if (sched_int m =? 0)%Z then Some (0, 0)
  else if (0 <? sched_int m)%Z then
    if (int_src m =? 0)%Z then Some (fst nexts, 0)
    else if (0 <? int_src m)%Z then Some (0, snd nexts) else None
  else None.
(** 466-468. *)
Definition seg_part (nint : Z) (m : mru) (o : mru_out) (seg : Z) : Q :=
  if negb (nint =? 0)%Z && (0 <? sched_int m)%Z && (0 <? int_src m)%Z && (int_src m =? seg)%Z
  then hyd_volume m (hyd o) else 0.

(** Body of DO 1000, 432-592. *)
Definition irr_mru (next_ nint : Z) (irrig_ext : Z -> Q) (nexts : Q * Q) (m : mru) : option mru_out :=
  match ext_mru next_ irrig_ext m, int_mru nint nexts m with
  | Some e, Some (s, h) =>
      let d := m_ppt m + e + s + h in
      Some (if qeq d 0 then
        {| ext := e; sat := s; hyd := h; frac_ext := 0; frac_sat := 0; frac_hyd := 0; dep := d;
           out_dep := m_dep m; out_split := m_split m |}
      else
        let sp := irr_split (m_weather m) d (m_split m) in
        {| ext := e; sat := s; hyd := h;
           frac_ext := if (next_ =? 0)%Z then 0 else e / d;
           frac_sat := if (nint =? 0)%Z then 0 else s / d;
           frac_hyd := if (nint =? 0)%Z then 0 else h / d;
           dep := d; out_dep := rain sp + snow sp; out_split := sp |})
  | _, _ => None
  end.

Record irr_out := {
  outs : list mru_out;
  hyd_seg : Z -> Q;                                (* irrig_hyd_seg *)
  basin_dep : Q; basin_ext : Q; basin_sat : Q; basin_hyd : Q }.

(** DO 1000 over all MRUs; basin sums are only increased when there is deposition, 582-588. *)
Fixpoint irr_loop (next_ nint : Z) (irrig_ext : Z -> Q) (first : bool) (ms : list mru) : option irr_out :=
  match ms with
  | [] => Some {| outs := []; hyd_seg := fun _ => 0; basin_dep := 0; basin_ext := 0; basin_sat := 0; basin_hyd := 0 |}
  | m :: r =>
      let nexts := if first then first_next nint m else (sat_next m, hyd_next m) in
      match irr_mru next_ nint irrig_ext nexts m, irr_loop next_ nint irrig_ext first r with
      | Some o, Some t =>
          let add (total x : Q) := if qeq (dep o) 0 then total else total + x * area_frac m in
          Some {| outs := o :: outs t;
             hyd_seg := fun seg => hyd_seg t seg + seg_part nint m o seg
                                   + (if first then first_seg nint m seg else 0);
             basin_dep := add (basin_dep t) (out_dep o); basin_ext := add (basin_ext t) (ext o);
             basin_sat := add (basin_sat t) (sat o); basin_hyd := add (basin_hyd t) (hyd o) |}
      | _, _ => None
      end
  end.
(** irrrun; the order of the additions is not kept (exact sums). *)
Definition irrrun := irr_loop.

(** Several steps.  irrig_sat_next and irrig_hyd_next are allocated by this module (54, 60, 240); the statements that would copy the arrays of
    the same names from the modules that decide on the next irrigation are commented out (317-318, 352-356). *)
Definition with_next (n : Q * Q) (m : mru) : mru :=
  {| m_weather := m_weather m; m_ppt := m_ppt m; m_dep := m_dep m; m_split := m_split m; sched_ext := sched_ext m; sched_int := sched_int m; int_src := int_src m; int_init := int_init m;
     sat_next := fst n; hyd_next := snd n; sat_was := sat_was m; hyd_was := hyd_was m; area := area m; area_frac := area_frac m |}.
Fixpoint irr_days (next_ nint : Z) (first : bool) (nexts : list (Q * Q)) (days : list ((Z -> Q) * list mru)) : option (list irr_out) :=
  match days with
  | [] => Some []
  | (irrig_ext, ms) :: r =>
      let ms := map (fun x => with_next (fst x) (snd x)) (combine nexts ms) in
      match irrrun next_ nint irrig_ext first ms with
      | Some o => match irr_days next_ nint false (if first then map (first_next nint) ms else nexts) r with Some os => Some (o :: os) | None => None end
      | None => None
      end
  end.
