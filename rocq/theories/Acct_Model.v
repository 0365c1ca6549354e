(** Accounting of water and solutes in webmod.d/src/phreeq_mms.F90: the type GEOCHEM 316-330, the
    columns 546-551, the layout of the vector returned by a mix 3756-3806 and 3846, the start of a
    time step 6391-6604, the loop over the stream segments 9070-9268, the reports of the composite
    reservoirs 9366-9395 and 9485-9530, UPDATE_CHEM 10608-10972 and CHEM2VAR 10980-11087.
    Reals are exact rationals.  Arrays are functions on their index (no bounds).  Writing to the
    debug file (10638-10652, 10960-10966), the ch_outlet_ variables (9051-9069, 9241-9260) and the
    fractionation of isotopes are left out.  What PHREEQC computes for a mix is an argument. *)
From Coq Require Import ZArith QArith List Bool.
From Verif Require Import Qx Soln_Model.
Import ListNotations.
Local Open Scope Z_scope.
Local Open Scope Q_scope.

(** 546-551; ET is the same column as rxn. *)
Definition c_init : Z := 1%Z.
Definition c_in : Z := 2%Z.
Definition c_out : Z := 3%Z.
Definition c_rxn : Z := 4%Z.
Definition c_fin : Z := 5%Z.

(** One reservoir, 316-330: volumes, temperatures and pH by column; moles and deltas by solute and
    column; moles made by each entity, by solute and tally column; fraction of the element; moles
    of each entity and their change. *)
Record geo := { vol : Z -> Q; temp : Z -> Q; pH : Z -> Q; mol : Z -> Z -> Q; dlt : Z -> Z -> Q;
                ent : Z -> Z -> Q; efr : Z -> Q; mass : Z -> Q; mdf : Z -> Q }.

Definition upd {A} (f : Z -> A) (k : Z) (x : A) : Z -> A := fun i => if (i =? k)%Z then x else f i.
Definition upd2 (f : Z -> Z -> Q) (n c : Z) (x : Q) : Z -> Z -> Q :=
  fun i k => if (i =? n)%Z && (k =? c)%Z then x else f i k.

(** Assignments to one element of a reservoir. *)
Definition set_vol (c : Z) (x : Q) (g : geo) : geo :=
  Build_geo (upd (vol g) c x) (temp g) (pH g) (mol g) (dlt g) (ent g) (efr g) (mass g) (mdf g).
Definition set_temp (c : Z) (x : Q) (g : geo) : geo :=
  Build_geo (vol g) (upd (temp g) c x) (pH g) (mol g) (dlt g) (ent g) (efr g) (mass g) (mdf g).
Definition set_pH (c : Z) (x : Q) (g : geo) : geo :=
  Build_geo (vol g) (temp g) (upd (pH g) c x) (mol g) (dlt g) (ent g) (efr g) (mass g) (mdf g).
Definition set_mol (n c : Z) (x : Q) (g : geo) : geo :=
  Build_geo (vol g) (temp g) (pH g) (upd2 (mol g) n c x) (dlt g) (ent g) (efr g) (mass g) (mdf g).
Definition set_dlt (n c : Z) (x : Q) (g : geo) : geo :=
  Build_geo (vol g) (temp g) (pH g) (mol g) (upd2 (dlt g) n c x) (ent g) (efr g) (mass g) (mdf g).
Definition set_ent (n j : Z) (x : Q) (g : geo) : geo :=
  Build_geo (vol g) (temp g) (pH g) (mol g) (dlt g) (upd2 (ent g) n j x) (efr g) (mass g) (mdf g).
Definition set_efr (n : Z) (x : Q) (g : geo) : geo :=
  Build_geo (vol g) (temp g) (pH g) (mol g) (dlt g) (ent g) (upd (efr g) n x) (mass g) (mdf g).
Definition set_mass (j : Z) (x : Q) (g : geo) : geo :=
  Build_geo (vol g) (temp g) (pH g) (mol g) (dlt g) (ent g) (efr g) (upd (mass g) j x) (mdf g).
Definition set_mdf (j : Z) (x : Q) (g : geo) : geo :=
  Build_geo (vol g) (temp g) (pH g) (mol g) (dlt g) (ent g) (efr g) (mass g) (upd (mdf g) j x).

(** The statements of the form x = x + y. *)
Definition add_vol (c : Z) (x : Q) (g : geo) : geo := set_vol c (vol g c + x) g.
Definition add_temp (c : Z) (x : Q) (g : geo) : geo := set_temp c (temp g c + x) g.
Definition add_pH (c : Z) (x : Q) (g : geo) : geo := set_pH c (pH g c + x) g.
Definition add_mol (n c : Z) (x : Q) (g : geo) : geo := set_mol n c (mol g n c + x) g.
Definition add_dlt (n c : Z) (x : Q) (g : geo) : geo := set_dlt n c (dlt g n c + x) g.
Definition add_ent (n j : Z) (x : Q) (g : geo) : geo := set_ent n j (ent g n j + x) g.
Definition add_efr (n : Z) (x : Q) (g : geo) : geo := set_efr n (efr g n + x) g.

(** c_chem, c_chem_basin, c_chem_hyd, c_chem_mru, c_chem_uzgen, c_chem_uzrip and c_chem_uzup,
    331-342. *)
Record acct := { cc : Z -> geo; bas : geo; hyd : geo; mru : Z -> geo;
                 uzg : Z -> geo; uzr : Z -> geo; uzu : Z -> geo }.

Definition on_cc (i : Z) (f : geo -> geo) (s : acct) : acct :=
  Build_acct (upd (cc s) i (f (cc s i))) (bas s) (hyd s) (mru s) (uzg s) (uzr s) (uzu s).
Definition on_bas (f : geo -> geo) (s : acct) : acct :=
  Build_acct (cc s) (f (bas s)) (hyd s) (mru s) (uzg s) (uzr s) (uzu s).
Definition on_hyd (f : geo -> geo) (s : acct) : acct :=
  Build_acct (cc s) (bas s) (f (hyd s)) (mru s) (uzg s) (uzr s) (uzu s).
Definition on_mru (i : Z) (f : geo -> geo) (s : acct) : acct :=
  Build_acct (cc s) (bas s) (hyd s) (upd (mru s) i (f (mru s i))) (uzg s) (uzr s) (uzu s).
(** The unsaturated zone of a hillslope and, within it, its riparian or upland part, e.g.
    10705-10718. *)
Definition on_uz (rip : bool) (i : Z) (f : geo -> geo) (s : acct) : acct :=
  if rip
  then Build_acct (cc s) (bas s) (hyd s) (mru s) (upd (uzg s) i (f (uzg s i)))
         (upd (uzr s) i (f (uzr s i))) (uzu s)
  else Build_acct (cc s) (bas s) (hyd s) (mru s) (upd (uzg s) i (f (uzg s i)))
         (uzr s) (upd (uzu s) i (f (uzu s i))).

(** What stays the same in a run and, for a step, in the volumes: numbers of solutes, tally rows
    and columns; which solutes are isotopes; the tally rows of a solute and of its element; the
    sign of a column; riparian(ia,is); vmix_stream; basin_qsim_cm*1e4*basin_area. *)
Record cfg := { nsol : Z; nrows : Z; ncols : Z; iso : Z -> bool; tly : Z -> Z; tlye : Z -> Z;
                mult : Z -> Q; rip : Z -> Z -> bool; vstream : Z -> Q; qout : Q }.

(** The arguments of UPDATE_CHEM and the module variables is, ia and ih that it reads. *)
Record call := { indx : Z; totvol : Q; imetric : Z; conc : Z -> Q; apH : Q; tempc : Q;
                 tally : Z -> Z -> Q; mrubnd : bool; basbnd : bool; restype : Z; react : bool;
                 is_ : Z; ia_ : Z; ih_ : Z }.

(** The blocks that add the same quantities to the composites, e.g. 10695-10723. *)
Definition into (k : cfg) (e : call) (b m u h : bool) (f : geo -> geo) (s : acct) : acct :=
  let s := if b then on_bas f s else s in
  let s := if m then on_mru (is_ e) f s else s in
  let s := if u then on_uz (rip k (ia_ e) (is_ e)) (is_ e) f s else s in
  if h then on_hyd f s else s.

(** 10657-10666 *)
Definition is_mru (e : call) : bool := ((0 <? restype e) && (restype e <? 10))%Z.
Definition is_unsat (e : call) : bool := is_mru e && (restype e =? 5)%Z.
Definition is_stream (e : call) : bool := (restype e =? 99)%Z.
(** 10673-10675 *)
Definition column (e : call) : Z :=
  if (imetric e =? 0)%Z then 2%Z else if (imetric e =? -1)%Z then 5%Z else imetric e.
Definition is_flow (e : call) : bool := ((column e =? 3) || (column e =? 2))%Z.
(** 10677, 10682-10686 *)
Definition moved (s : acct) (e : call) : Q :=
  if is_flow e then totvol e
  else if (column e =? 1)%Z then totvol e
  else vol (cc s (indx e)) c_fin.
(** The test on 10719 and 10788. *)
Definition to_hyd (e : call) : bool := ((ih_ e =? 1)%Z || (is_stream e && negb (react e))).

(** 10676-10723 *)
Definition book_water (k : cfg) (e : call) (s : acct) : acct :=
  let v := moved s e in
  let c := column e in
  let s := on_cc (indx e)
             (fun g => if is_flow e
                       then add_pH c (apH e * v) (add_temp c (tempc e * v) (add_vol c v g))
                       else set_pH c (apH e) (set_temp c (tempc e) g)) s in
  into k e (basbnd e) (mrubnd e) (is_unsat e) (to_hyd e)
    (fun g => add_pH c (v * apH e) (add_temp c (v * tempc e) (add_vol c v g))) s.

(** 10729: an input, or an output of something else than a stream. *)
Definition is_direct (e : call) : bool :=
  (negb (is_stream e) && (column e =? 3)%Z) || (column e =? 2)%Z.
(** 10730, 10735, 10741, 10747 *)
Definition moles (k : cfg) (e : call) (v : Q) (n : Z) : Q :=
  if is_direct e then conc e n * totvol e * 1000
  else if negb (is_stream e) then tally e (tly k n) 2%Z * v * 1000
  else if negb (react e) then conc e n * totvol e * 1000
  else tally e (tly k n) 2%Z * v * 1000.

(** The body of loop 10, 10727-10792; the counter of isotopes is carried along. *)
Definition book_solute (k : cfg) (e : call) (v : Q) (w : acct * Z) (n : Z) : acct * Z :=
  let '(s, nis) := w in
  let c := column e in
  let x := moles k e v n in
  let s := on_cc (indx e)
             (fun g => if is_direct e then add_mol n c x g
                       else if negb (is_stream e) then set_mol n c x g
                       else add_mol n c x g) s in                             (* 10731-10748 *)
  let s := if negb (is_direct e) && is_stream e && react e && (c =? 3)%Z      (* 10749-10752 *)
           then on_cc (indx e - 1)
                  (fun g => set_mol n c_init x
                              (set_mol n c_in (mol (cc s (indx e)) n c + x) g)) s
           else s in
  let nis := if iso k n then (nis + 1)%Z else nis in
  let d := conc e (nsol k + nis)%Z in
  let s := if iso k n                                                         (* 10755-10764 *)
           then let s := on_cc (indx e) (add_dlt n c (d * v)) s in
                if is_stream e && react e
                then on_cc (indx e - 1) (fun g => set_dlt n c_init d (set_dlt n c_in (d * v) g)) s
                else s
           else s in
  (into k e (basbnd e) (mrubnd e) (is_unsat e) (to_hyd e)                     (* 10769-10791 *)
     (fun g => let g := add_mol n c x g in
               if iso k n then add_dlt n c (v * d) g else g) s, nis).

Definition solutes (k : cfg) : list Z := upto 1 (nsol k).
Definition entities (k : cfg) : list Z := upto 3 (ncols k).

(** 10796-10800 *)
Definition book_mass (k : cfg) (e : call) (s : acct) : acct :=
  if (column e =? 1)%Z
  then fold_left (fun s j => on_cc (indx e) (set_mass j (tally e (nrows k + 1)%Z j)) s) (entities k) s
  else s.

(** The volume that reacts, 10806-10819. *)
Definition reacting (k : cfg) (e : call) (s : acct) : Q :=
  if is_stream e then if (1 <? ih_ e)%Z then vstream k (ih_ e - 1)%Z else qout k
  else vol (cc s (indx e)) c_fin.

(** 10806-10845; v is the volume of 10677-10686, used for the temperature and pH. *)
Definition book_final (k : cfg) (e : call) (v : Q) (s : acct) : acct :=
  let r := reacting k e s in
  let evap := vol (cc s (indx e)) c_rxn in
  let plus := fun g => add_pH c_fin (v * apH e)
                         (add_temp c_fin (v * tempc e) (add_vol c_fin r g)) in
  let s := on_bas (add_vol c_rxn evap) s in
  if is_stream e
  then if (1 <? ih_ e)%Z
       then on_hyd (fun g => add_pH c_fin (v * apH e)
                               (add_temp c_fin (v * tempc e)
                                  (set_vol c_fin (vol g (column e) + r) g)))
              (on_bas plus s)
       else s
  else into k e false true (is_unsat e) false (add_vol c_rxn evap)
         (into k e true true (is_unsat e) false plus s).

(** One entity of one solute, 10909-10928; the sum of what the entities made is carried along. *)
Definition book_entity (k : cfg) (e : call) (r : Q) (n : Z) (w : acct * Q) (j : Z) : acct * Q :=
  let '(s, sum) := w in
  let x := tally e (tlye k n) j * mult k j * r * 1000 in
  (into k e true (is_mru e) (is_unsat e) (is_stream e) (add_ent n j x)
     (on_cc (indx e) (set_ent n j x) s), sum + x).

(** The body of loop 20, 10846-10949. *)
Definition book_reaction (k : cfg) (e : call) (r : Q) (w : acct * Z) (n : Z) : acct * Z :=
  let '(s, nis) := w in
  let made := tally e (tly k n) 2%Z * r * 1000 in                             (* 10850 *)
  let s := on_cc (indx e) (set_mol n c_fin made) s in
  let nis := if iso k n then (nis + 1)%Z else nis in
  let d := conc e (nsol k + nis)%Z * r in
  let diff := if iso k n then mol (cc s (indx e)) n c_rxn
              else made - conc e n * r * 1000 in                              (* 10853, 10874 *)
  let s := if iso k n
           then into k e true (is_mru e) (is_unsat e) (is_stream e) (add_dlt n c_fin d)
                  (on_cc (indx e) (set_dlt n c_fin d) s)                      (* 10857-10871 *)
           else on_cc (indx e) (set_mol n c_rxn diff) s in
  let s := on_bas (add_mol n c_rxn diff) s in                                 (* 10879 *)
  let s := if negb (ih_ e =? 1)%Z then on_bas (add_mol n c_fin made) s else s in
  let s := into k e false (is_mru e) (is_unsat e) (is_stream e)
             (fun g => add_mol n c_fin made (add_mol n c_rxn diff g)) s in    (* 10883-10901 *)
  let '(s, sum) := if iso k n then (s, 0)
                   else fold_left (book_entity k e r n) (entities k) (s, 0) in
  let ef := if qlt 0 sum then diff / sum else 0 in                            (* 10930-10934 *)
  (into k e true (is_mru e) (is_unsat e) (is_stream e) (add_efr n (ef * r))
     (on_cc (indx e) (set_efr n ef) s), nis).

(** 10954-10957 *)
Definition book_change (k : cfg) (e : call) (s : acct) : acct :=
  fold_left (fun s j => let x := tally e (nrows k + 1)%Z j in
                        on_cc (indx e) (fun g => set_mass j x (set_mdf j (mass g j - x) g)) s)
    (entities k) s.

(** UPDATE_CHEM, 10608-10972 *)
Definition update_chem (k : cfg) (s : acct) (e : call) : acct :=
  let v := moved s e in
  let s := book_water k e s in
  let s := fst (fold_left (book_solute k e v) (solutes k) (s, 0%Z)) in
  let s := book_mass k e s in
  if react e
  then let r := reacting k e s in
       let s := book_final k e v s in
       let s := fst (fold_left (book_reaction k e r) (solutes k) (s, 0%Z)) in
       book_change k e s
  else s.

(** The start of a time step for a composite, 6391-6484: the final column becomes the initial one,
    the others are zero.  The loops run over the solutes in use; here over every index. *)
Definition fresh (g : geo) : geo :=
  Build_geo (fun c => if (c =? 1)%Z then vol g 5%Z else 0)
            (fun c => if (c =? 1)%Z then temp g 5%Z else 0)
            (fun c => if (c =? 1)%Z then pH g 5%Z else 0)
            (fun n c => if (c =? 1)%Z then mol g n 5%Z else 0)
            (fun n c => if (c =? 1)%Z then dlt g n 5%Z else 0)
            (fun _ _ => 0) (fun _ => 0) (mass g) (mdf g).
(** The same for a reservoir, 6578-6604: what the entities made and their moles are kept. *)
Definition fresh_cc (g : geo) : geo :=
  let f := fresh g in
  Build_geo (vol f) (temp f) (pH f) (mol f) (dlt f) (ent g) (efr g) (mass g) (mdf g).
Definition new_step (s : acct) : acct :=
  Build_acct (fun i => fresh_cc (cc s i)) (fresh (bas s)) (fresh (hyd s)) (fun i => fresh (mru s i))
    (fun i => fresh (uzg s i)) (fun i => fresh (uzr s i)) (fun i => fresh (uzu s i)).

(** Water written directly by the main routine into a reservoir before UPDATE_CHEM, e.g.
    8010-8012 and 9079. *)
Definition preset (i : Z) (v0 evap v5 : Q) (s : acct) : acct :=
  on_cc i (fun g => set_vol c_fin v5 (set_vol c_rxn evap (set_vol c_init v0 g))) s.

(** Groundwater that enters a hillslope, 7106-7127 (b true), and groundwater lost, 8784-8798
    (b false: no temperature and pH). *)
Definition ground (k : cfg) (b : bool) (i : Z) (v t p : Q) (cs : Z -> Q) (s : acct) : acct :=
  let c := if b then c_in else c_out in
  let f := fun g =>
    let g := add_vol c v g in
    let g := if b then add_pH c (p * v) (add_temp c (t * v) g) else g in
    fold_left (fun g n => add_mol n c (cs n * v * 1000) g) (solutes k) g in
  on_bas f (on_mru i f s).

(** Evaporated isotopes: the entries that FRACTIONATE writes, 11213-11214 and 11272-11277. *)
Definition evaporate (k : cfg) (i : Z) (v : Q) (permil : Z -> Q) (tl : Z -> Z -> Q) (s : acct)
  : acct :=
  fold_left (fun s n => if iso k n
                        then on_cc i (add_mol n c_rxn (- (tl (tly k n) 2%Z * v * 1000)))
                               (on_bas (add_dlt n c_rxn (permil n * v))
                                  (on_cc i (add_dlt n c_rxn (permil n * v)) s))
                        else s) (solutes k) s.

(** Everything that changes the accounts in a run. *)
Inductive event :=
| EUpdate (e : call)
| EStep
| EPreset (i : Z) (v0 evap v5 : Q)
| EGround (b : bool) (i : Z) (v t p : Q) (cs : Z -> Q)
| EEvap (i : Z) (v : Q) (permil : Z -> Q) (tl : Z -> Z -> Q).
Definition act (k : cfg) (s : acct) (ev : event) : acct :=
  match ev with
  | EUpdate e => update_chem k s e
  | EStep => new_step s
  | EPreset i v0 evap v5 => preset i v0 evap v5 s
  | EGround b i v t p cs => ground k b i v t p cs s
  | EEvap i v permil tl => evaporate k i v permil tl s
  end.
Definition history (k : cfg) (l : list event) (s : acct) : acct := fold_left (act k) l s.

(** What a mix returns, as laid out by the headings of 3756-3801: the totals of the solutes, then
    for each isotope its delta and two logarithms of fractionation factors. *)
Definition punched (ns : Z) (totals : Z -> Q) (permil log_gl log_gs : Z -> Q) (i : Z) : Q :=
  if (i <=? ns)%Z then totals i
  else let j := ((i - ns - 1) / 3)%Z in
       match ((i - ns - 1) mod 3)%Z with
       | 0%Z => permil (j + 1)%Z
       | 1%Z => log_gl (j + 1)%Z
       | _ => log_gs (j + 1)%Z
       end.

(** One result of a mix: concentrations, pH, temperature and tally table. *)
Record mixed := { m_conc : Z -> Q; m_pH : Q; m_temp : Q; m_tally : Z -> Z -> Q }.

(** What the loop over the segments reads: numbers of segments, hillslopes, observed solutions and
    topographic bins; water from hillslope is to segment ih; diversions and losses; the mix of the
    water from the hillslopes and the mix that is routed. *)
Record reach := { segs : Z; nmru : Z; nchem : Z; nac : Z; hillexp : Z -> Z -> Q; divert : Z -> Q;
                  loss : Z -> Q; hillmix : Z -> mixed; routed : Z -> mixed }.
Definition row (w : reach) (ih : Z) : Z :=
  d_row (isoln (nchem w) (nmru w) (nac w) (solnnum 0 99 0 0 0 ih)).
Definition hills (w : reach) (ih : Z) : Q :=
  fold_left (fun a i => a + hillexp w ih i) (upto 1 (nmru w)) 0.               (* 9082-9085 *)
Definition call_of (w : reach) (ih i : Z) (v : Q) (im : Z) (m : mixed) (b r : bool) : call :=
  {| indx := i; totvol := v; imetric := im; conc := m_conc m; apH := m_pH m; tempc := m_temp m;
     tally := m_tally m; mrubnd := false; basbnd := b;
     restype := d_res (isoln (nchem w) (nmru w) (nac w) (solnnum 0 99 0 0 0 ih));
     react := r; is_ := (nmru w + 1)%Z; ia_ := 0%Z; ih_ := ih |}.

(** One segment, 9072-9266. *)
Definition segment (k : cfg) (w : reach) (s : acct) (ih : Z) : acct :=
  let away := divert w ih + loss w ih in
  let full := (if (1 <? ih)%Z then vstream k (ih - 1)%Z else qout k) + away in (* 9072-9076 *)
  let i := row w ih in
  let s := on_cc i (set_vol c_fin (vstream k ih)) s in                        (* 9079 *)
  let h := hills w ih in
  let s := if qlt 0 h
           then update_chem k s (call_of w ih i h 2 (hillmix w ih) false false) (* 9123 *)
           else s in
  if qlt 0 full
  then let m := routed w ih in
       let s := update_chem k s (call_of w ih i away 3 m true false) in       (* 9192 *)
       let out := full - away in                                              (* 9215 *)
       if (1 <? ih)%Z
       then let s := update_chem k s (call_of w ih i out 3 m false true) in   (* 9220 *)
            update_chem k s (call_of w ih (row w (ih - 1)) out 2 m false false) (* 9226-9229 *)
       else update_chem k s (call_of w ih i out 3 m true true)                (* 9235 *)
  else s.

(** Loop 20, from the farthest segment to the outlet, 9070-9268. *)
Definition stream_pass (k : cfg) (w : reach) (s : acct) : acct :=
  fold_left (segment k w) (rev (upto 1 (segs w))) s.

(** The report of a composite, 9366-9395 for water and 9485-9530 for one solute: a quotient is
    taken without a test except for inputs; None is a division by zero.  The final concentration
    (9521) is computed from the moles left by the last report, before they are assigned (9525). *)
Definition over (x v : Q) : option Q := if Qeq_bool v 0 then None else Some (x / v).
Definition mean_in (x v : Q) : Q := if qlt 0 v then x / v else 0.
Record report := { r_m3_in : Q; r_t_in : Q; r_m3_out : Q; r_t_out : option Q; r_m3_fin : Q;
                   r_t_fin : option Q; r_M_in : Q; r_M_out : Q; r_M_rxn : Q; r_M_fin : Q;
                   r_mML_in : Q; r_mML_out : option Q; r_mML_fin : option Q }.
Definition report_of (n : Z) (last_fin : Q) (g : geo) : report :=
  let vin := vol g c_in in
  {| r_m3_in := vin; r_t_in := mean_in (temp g c_in) vin;
     r_m3_out := vol g c_out; r_t_out := over (temp g c_out) (vol g c_out);
     r_m3_fin := vol g c_fin; r_t_fin := over (temp g c_fin) (vol g c_fin);
     r_M_in := if qlt 0 vin then mol g n c_in else 0;
     r_M_out := mol g n c_out; r_M_rxn := mol g n c_rxn; r_M_fin := mol g n c_fin;
     r_mML_in := if qlt 0 vin then mol g n c_in / vin else 0;
     r_mML_out := over (mol g n c_out) (vol g c_out);
     r_mML_fin := over last_fin (vol g c_fin) |}.
(** A run of reports: each sees the final moles of the one before. *)
Fixpoint reports (n : Z) (last_fin : Q) (l : list geo) : list report :=
  match l with
  | [] => []
  | g :: l => let r := report_of n last_fin g in r :: reports n (r_M_fin r) l
  end.

(** CHEM2VAR, 11005-11087, for one variable and one solute: the reservoir, the metric (6 is net),
    the unit, the factor of the solute and the area. *)
Inductive value := VQ (x : Q) | VDiv0 | VOut | VNone.
Definition at5 (f : Z -> Q) (c : Z) : value :=
  if (1 <=? c)%Z && (c <=? 5)%Z then VQ (f c) else VOut.                      (* vol(5), 318-321 *)
Definition var_vol (g : geo) (met : Z) : Q :=
  if (met =? 6)%Z then vol g c_fin - vol g c_init else vol g met.
Definition var_mol (g : geo) (n met : Z) : Q :=
  if (met =? 6)%Z then mol g n c_fin - mol g n c_init else mol g n met.
Definition var_sol (g : geo) (n met unit : Z) (conv area : Q) : value :=
  let t := (Z.quot (unit - 1) 3 + 1)%Z in                                     (* 11009 *)
  let v := var_vol g met in
  let m := var_mol g n met in
  if (t =? 1)%Z then VQ (m * conv)
  else if (t =? 2)%Z then if qlt 0 area then VQ (m * conv / area) else VQ 0
  else if (t <? 5)%Z then if qlt 0 v then VQ (m * conv / v / 1000) else VQ 0
  else if (unit =? 13)%Z
       then if (met <=? 5)%Z then if Qeq_bool v 0 then VDiv0 else VQ (dlt g n met / v) else VOut
       else VNone.
Definition var_temp (g : geo) (met : Z) : value := at5 (temp g) met.          (* 11084 *)
Definition var_pH (g : geo) (met : Z) : value := at5 (pH g) met.              (* 11085 *)
