(** Isotopes of evaporated water, humidity:
    webmod.d/src/phreeq_mms.F90 fractionate 11147-11283,
    wetbulb 11323-11417, satvp 11420-11455, and in phreeqmms_run 6743-6749
    (relative humidity of a unit) and 6797-6801 (temperature of precipitation).

    Reals are rationals; a power is an argument. An isotope of the list comes
    with what the last mix gave for it (conc(nsolute+3*i-2), -1 and -0: delta,
    log alpha of liquid and of ice) and with its largest diffusive fractionation.
    The mix of solution 1 at the end (11258) is an argument: the moles in a
    kilogram of the evaporated water. *)
From Coq Require Import String ZArith QArith Qabs Bool List.
Import ListNotations.
Local Open Scope string_scope.
Local Open Scope list_scope.
Local Open Scope Z_scope.

(** * fractionate *)

Record isotope := mkIso { iname : string; delta : Q; log_liquid : Q; log_ice : Q; largest : Q }.

Inductive phase := Snow | Water | Transp.

(** The lines for PHREEQC. *)
Inductive input := Solution1 | Delta (name : string) (permil : Q) | Temp (t : Q) | Ph7.

Definition almost_one : Q := 9999 # 10000.
Definition ln_10 : Q := 230258509299405 # 100000000000000.

(** 11184-11192: the fraction that evaporates. *)
Definition evap_frac (ph : phase) (evap vol : Q) : Q :=
  let f := match ph with Transp => 1%Q | _ => (evap / vol)%Q end in
  if Qle_bool (1 # 10000) (Qabs (1 - f)) then f else 1%Q.

(** 11196-11209: the deltas of what evaporates and of the rest, permil. *)
Definition deltas (pw : Q -> Q -> Q) (ph : phase) (f ison isoth isofac rh : Q) (x : isotope) : Q * Q :=
  let d0 := (delta x / 1000)%Q in
  if negb (Qle_bool almost_one f) && match ph with Transp => false | _ => true end then
    let log_a := match ph with Snow => log_ice x | _ => log_liquid x end in
    let eq := (ln_10 * log_a)%Q in
    let diff := ((1 - rh) * ison * isoth * largest x)%Q in
    let rest := ((d0 + 1) * pw (1 - f) (isofac * (eq + diff)) - 1)%Q in
    (((d0 - rest * (1 - f)) / f * 1000)%Q, (rest * 1000)%Q)
  else ((d0 * 1000)%Q, (d0 * 1000)%Q).

(** 11195-11239; the lines are in the order of the calls, and the amounts
    (permil times volume) that are recorded go with them. [false]: another
    isotope, 11232-11235. *)
Fixpoint each_isotope (pw : Q -> Q -> Q) (ph : phase) (f ison isoth isofac rh evap : Q) (xs : list isotope)
  : list input * list Q * bool :=
  match xs with
  | [] => ([], [], true)
  | x :: r =>
    let e := fst (deltas pw ph f ison isoth isofac rh x) in
    if String.eqb (iname x) "D" || String.eqb (iname x) "[18O]" then
      let '(ls, rs, ok) := each_isotope pw ph f ison isoth isofac rh evap r in
      (Delta (iname x) e :: ls, (e * evap)%Q :: rs, ok)
    else ([], [(e * evap)%Q], false)
  end.

(** fractionate: result, lines, recorded deltas, and the change of the moles of
    each isotope in the reservoir (11272-11277); [moles] of an isotope in a
    kilogram of solution 1 after [lines] were run. *)
Definition fractionate (pw : Q -> Q -> Q) (moles : list input -> string -> Q) (ph : phase)
    (evap vol ison isoth isofac rh temp : Q) (xs : list isotope) : Z * list input * list Q * list (string * Q) :=
  let '(ls, rs, ok) := each_isotope pw ph (evap_frac ph evap vol) ison isoth isofac rh evap xs in
  if ok then
    let lines := Solution1 :: ls ++ [Temp temp; Ph7] in
    (0, lines, rs, map (fun x => (iname x, (- (moles lines (iname x) * evap * 1000))%Q)) xs)
  else (1, Solution1 :: ls, rs, []).

(** * Humidity *)

(** The polynomials, by their coefficients (11334-11365), lowest first. *)
Definition water_es : list Q :=
  [6107799961 # 1000000000; 4436518521 # 10000000000; 1428945805 # 100000000000; 2650648471 # 10000000000000;
   3031240396 # 1000000000000000; 2034080948 # 100000000000000000; 6136820929 # 100000000000000000000].
Definition ice_es : list Q :=
  [6109177956 # 1000000000; 503469897 # 1000000000; 1886013408 # 100000000000; 4176223716 # 10000000000000;
   5824720280 # 1000000000000000; 4838803174 # 100000000000000000; 1838826904 # 10000000000000000000].
Definition water_s : list Q :=
  [4438099984 # 10000000000; 2857002636 # 100000000000; 7938054040 # 10000000000000; 1215215065 # 100000000000000;
   1036561403 # 10000000000000000; 3532421810 # 10000000000000000000; - 7090244804 # 10000000000000000000000].
Definition ice_s : list Q :=
  [5030305237 # 10000000000; 3773255020 # 100000000000; 1267995369 # 1000000000000; 2477563108 # 100000000000000;
   3005693132 # 10000000000000000; 2158542548 # 1000000000000000000; 7131097725 # 1000000000000000000000].
Definition poly (cs : list Q) (t : Q) : Q := fold_right (fun c r => c + t * r)%Q 0%Q cs.

Definition es (t : Q) : Q := (poly (if Qle_bool t 0 then ice_es else water_es) t / 10)%Q.
Definition slope (t : Q) : Q := (poly (if Qle_bool t 0 then ice_s else water_s) t / 10)%Q.
Definition satvp (t : Q) : Q := es t.

(** 6743-6749: from the station's relative humidity, or from specific humidity. *)
Definition humidity_station (rh station_t t : Q) : Q := (rh * satvp station_t / satvp t)%Q.
Definition humidity_specific (kpa q t : Q) : Q := (kpa * q / ((622 # 1000) + (378 # 1000) * q) / satvp t)%Q.

(** 11385, 11402: the psychrometric constant. *)
Definition gamma (pres t : Q) : Q := (pres * (66 # 100000) * (1 + (115 # 100000) * t))%Q.

(** 11393-11412: turns of the loop; [None]: not finished after [n] turns. *)
Fixpoint wet_turns (n : nat) (pres ta emeas tw etemp : Q) : option Q :=
  match n with
  | O => None
  | S n =>
    let e := es tw in
    let s := slope tw in
    let g := gamma pres tw in
    let tw := (tw - (e - etemp) / (s + g))%Q in
    let etemp := (emeas + (ta - tw) * g)%Q in
    let emod := (e - g * (ta - tw))%Q in
    if Qle_bool (Qabs ((emod - emeas) / (s + g))) (1 # 10000) then Some tw else wet_turns n pres ta emeas tw etemp
  end.
(** wetbulb; relative humidity in percent. *)
Definition wetbulb (n : nat) (pres ta rh : Q) : option Q :=
  let emeas := (es ta * rh / 100)%Q in
  let g := gamma pres ta in
  let tw := (ta - (es ta - emeas) / (slope ta + g))%Q in
  wet_turns n pres ta emeas tw (emeas + (ta - tw) * g)%Q.

(** 6797-6801: the temperature of precipitation, with the unit's humidity at its
    mean temperature and its largest temperature. *)
Definition precipitation_temp (n : nat) (pres tmax rh : Q) : option Q :=
  match wetbulb n pres tmax (rh * 100) with
  | Some t => Some (if Qle_bool 0 t then t else 0%Q)
  | None => None
  end.
