(** Packing of reactants into words, ints and doubles, and unpacking: Serializer.cxx, Dictionary.cpp and the members Serialize and
    Deserialize of the reactants and their parts, all in IPhreeqcMMS/IPhreeqc/src/phreeqcpp.  A double is an exact rational.  Sizes
    are assumed to fit an int, as they do in memory.  A std::map is the list of its entries in iteration order.  Reading behind the
    end of a vector is undefined. *)
From Coq Require Import String Ascii List ZArith QArith Bool.
From Verif Require Import CStr_Model Map_Model.
Import ListNotations.
Local Open Scope string_scope.
Local Open Scope list_scope.
Local Open Scope Z_scope.

(** ** Dictionary, Dictionary.cpp:28-41.  dictionary_map takes a word to its place in words: only Find writes either. *)
Fixpoint place (ws : list string) (w : string) : option nat :=
  match ws with [] => None | x :: r => if String.eqb x w then Some O else match place r w with Some n => Some (S n) | None => None end end.
Definition dict_find (ws : list string) (w : string) : Z * list string :=
  match place ws w with Some n => (Z.of_nat n, ws) | None => (Z.of_nat (length ws), ws ++ [w]) end.
(** dictionary_oss, 39. *)
Definition newline : ascii := ascii_of_nat 10.
Definition dict_text (ws : list string) : string := fold_right (fun w t => (w ++ String newline t)%string) "" ws.
(** istream::getline with room for 255 characters, 18: the line and the rest; [None]: the stream fails. *)
Fixpoint get_line (room : nat) (s : string) : option (string * string) :=
  match s with
  | EmptyString => Some ("", "")
  | String c r =>
      if Ascii.eqb c newline then Some ("", r)
      else match room with
           | O => None
           | S room => match get_line room r with Some (l, u) => Some (String c l, u) | None => None end
           end
  end.
(** The constructor from a text, 15-23; at the end of the text getline fails because nothing is left. *)
Fixpoint dict_read (fuel : nat) (s : string) (ws : list string) : list string :=
  match fuel, s with
  | S fuel, String _ _ => match get_line 255 s with Some (l, u) => dict_read fuel u (snd (dict_find ws l)) | None => ws end
  | _, _ => ws
  end.
Definition dictionary_of (s : string) : list string := dict_read (String.length s) s [].

(** ** Buffers *)
Record buf := mkBuf { words : list string; ints : list Z; dbls : list Q }.
Definition push_i (n : Z) (b : buf) : buf := mkBuf (words b) (ints b ++ [n]) (dbls b).
Definition push_d (x : Q) (b : buf) : buf := mkBuf (words b) (ints b) (dbls b ++ [x]).
Definition push_flag (f : bool) : buf -> buf := push_i (if f then 1 else 0).
Definition push_word (w : string) (b : buf) : buf :=
  let '(n, ws) := dict_find (words b) w in push_i n (mkBuf ws (ints b) (dbls b)).
Definition seq (f g : buf -> buf) (b : buf) : buf := g (f b).
Notation "f ;; g" := (seq f g) (at level 60, right associativity).
Definition nothing (b : buf) : buf := b.
Definition push_all {A} (f : A -> buf -> buf) (l : list A) : buf -> buf := fold_right (fun x k => f x ;; k) nothing l.
Definition push_size {A} (l : list A) : buf -> buf := push_i (Z.of_nat (length l)).
(** Readers: the places ii and dd. *)
Definition rd (A : Type) : Type := buf -> nat * nat -> outcome (A * (nat * nat)).
Definition done {A} (x : A) : rd A := fun _ p => Ret (x, p).
Definition andthen {A B} (m : rd A) (k : A -> rd B) : rd B := fun b p => do r <- m b p; k (fst r) b (snd r).
Notation "'get' x <- m ; k" := (andthen m (fun x => k)) (at level 200, x pattern, m at level 100, k at level 200, right associativity).
Definition get_i : rd Z := fun b p => match nth_error (ints b) (fst p) with Some n => Ret (n, (S (fst p), snd p)) | None => UB end.
Definition get_d : rd Q := fun b p => match nth_error (dbls b) (snd p) with Some x => Ret (x, (fst p, S (snd p))) | None => UB end.
Definition get_flag : rd bool := get n <- get_i; done (negb (n =? 0)).
Definition word_at (n : Z) : rd string := fun b p => if n <? 0 then UB else match nth_error (words b) (Z.to_nat n) with Some w => Ret (w, p) | None => UB end.
Definition get_word : rd string := get n <- get_i; word_at n.
(** for (i = 0; i < n; i++) push_back(...). *)
Fixpoint get_times {A} (n : nat) (m : rd A) : rd (list A) := match n with O => done [] | S n => get x <- m; get l <- get_times n m; done (x :: l) end.
Definition get_list {A} (m : rd A) : rd (list A) := get n <- get_i; get_times (Z.to_nat n) m.
(** operator[] and an assignment. *)
Fixpoint insert {K A} (cmp : K -> K -> comparison) (k : K) (x : A) (m : list (K * A)) : list (K * A) :=
  match m with
  | [] => [(k, x)]
  | (n, y) :: r => match cmp k n with Eq => (n, x) :: r | Lt => (k, x) :: (n, y) :: r | Gt => (n, y) :: insert cmp k x r end
  end.
(** clear, then for (i = 0; i < n; i++) map[k] = x. *)
Fixpoint get_entries {K A} (cmp : K -> K -> comparison) (n : nat) (m : rd (K * A)) (acc : list (K * A)) : rd (list (K * A)) :=
  match n with O => done acc | S n => get e <- m; get_entries cmp n m (insert cmp (fst e) (snd e) acc) end.
Definition get_map {K A} (cmp : K -> K -> comparison) (m : rd (K * A)) : rd (list (K * A)) := get n <- get_i; get_entries cmp (Z.to_nat n) m [].

(** ** cxxNameDouble, NameDouble.cxx:510-537 *)
Definition nd := list (string * Q).
Definition nd_ser (x : nd) : buf -> buf := push_size x ;; push_all (fun e => push_word (fst e) ;; push_d (snd e)) x.
(** An empty name is skipped, and its double is not taken. *)
Fixpoint nd_loop (n : nat) (acc : nd) : rd nd :=
  match n with
  | O => done acc
  | S n => get w <- get_word;
           if String.eqb w "" then nd_loop n acc else get x <- get_d; nd_loop n (insert String.compare w x acc)
  end.
Definition nd_des : rd nd := get n <- get_i; nd_loop (Z.to_nat n) [].
(** std::map<int, double>, Solution.cxx:1641-1674, 1730-1759. *)
Definition zmap := list (Z * Q).
Definition zm_ser (x : zmap) : buf -> buf := push_size x ;; push_all (fun e => push_i (fst e) ;; push_d (snd e)) x.
Definition zm_des : rd zmap := get_map Z.compare (get k <- get_i; get x <- get_d; done (k, x)).
Definition dl_ser (l : list Q) : buf -> buf := push_size l ;; push_all push_d l.
Definition dl_des : rd (list Q) := get_list get_d.

(** ** Solutions *)
(** SolutionIsotope.cxx:296-321. *)
Record isotope := mkIso { iso_number : Q; iso_elt : string; iso_name : string; iso_total : Q; iso_ratio : Q; iso_unc : Q; iso_unc_defined : bool; iso_x : Q; iso_coef : Q }.
Definition iso_ser (x : isotope) : buf -> buf :=
  push_d (iso_number x) ;; push_word (iso_elt x) ;; push_word (iso_name x) ;; push_d (iso_total x) ;; push_d (iso_ratio x) ;; push_d (iso_unc x) ;;
  push_flag (iso_unc_defined x) ;; push_d (iso_x x) ;; push_d (iso_coef x).
Definition iso_des : rd isotope :=
  get a <- get_d; get b <- get_word; get c <- get_word; get d <- get_d; get e <- get_d; get f <- get_d; get g <- get_flag; get h <- get_d; get i <- get_d;
  done (mkIso a b c d e f g h i).
(** Number, last number and description (cxxNumKeyword). *)
Record numkey := mkKey { n_user : Z; n_user_end : Z; description : string }.
(** Solution.cxx:1587-1760, Solution.h; initial_data is not sent, and is empty after unpacking. *)
Record solution := mkSol {
  sol_key : numkey; sol_new : bool; patm : Q; potV : Q; tc : Q; ph : Q; pe : Q; mu : Q; ah2o : Q; total_h : Q; total_o : Q; cb : Q; mass_water : Q; density : Q;
  viscosity : Q; viscos_0 : Q; soln_vol : Q; alkalinity : Q; sol_totals : nd; activities : nd; gammas : nd; isotopes : list (string * isotope);
  species : zmap; log_gammas : zmap; log_molalities : zmap }.
Definition sol_ser (x : solution) : buf -> buf :=
  push_i (n_user (sol_key x)) ;; push_flag (sol_new x) ;; push_d (patm x) ;; push_d (potV x) ;; push_d (tc x) ;; push_d (ph x) ;; push_d (pe x) ;; push_d (mu x) ;;
  push_d (ah2o x) ;; push_d (total_h x) ;; push_d (total_o x) ;; push_d (cb x) ;; push_d (mass_water x) ;; push_d (density x) ;; push_d (viscosity x) ;;
  push_d (soln_vol x) ;; push_d (alkalinity x) ;; nd_ser (sol_totals x) ;; nd_ser (activities x) ;; nd_ser (gammas x) ;;
  push_size (isotopes x) ;; push_all (fun e => push_word (fst e) ;; iso_ser (snd e)) (isotopes x) ;;
  zm_ser (species x) ;; zm_ser (log_gammas x) ;; zm_ser (log_molalities x).
Definition sol_des : rd solution :=
  get n <- get_i; get nw <- get_flag; get a <- get_d; get b <- get_d; get c <- get_d; get d <- get_d; get e <- get_d; get f <- get_d; get g <- get_d; get h <- get_d;
  get i <- get_d; get j <- get_d; get k <- get_d; get l <- get_d; get m <- get_d; get o <- get_d; get p <- get_d;
  get t <- nd_des; get u <- nd_des; get v <- nd_des;
  get w <- get_map String.compare (get s <- get_word; get y <- iso_des; done (s, y));
  get x <- zm_des; get y <- zm_des; get z <- zm_des;
  done (mkSol (mkKey n n "  ") nw a b c d e f g h i j k l m 1 o p t u v w x y z).

(** ** Exchangers *)
(** ExchComp.cxx:358-384. *)
Record exch_comp := mkExc { ec_formula : string; ec_totals : nd; ec_la : Q; ec_cb : Q; ec_phase : string; ec_prop : Q; ec_rate : string; ec_z : Q }.
Definition ec_ser (x : exch_comp) : buf -> buf :=
  push_word (ec_formula x) ;; nd_ser (ec_totals x) ;; push_d (ec_la x) ;; push_d (ec_cb x) ;; push_word (ec_phase x) ;; push_d (ec_prop x) ;; push_word (ec_rate x) ;; push_d (ec_z x).
Definition ec_des : rd exch_comp :=
  get a <- get_word; get b <- nd_des; get c <- get_d; get d <- get_d; get e <- get_word; get f <- get_d; get g <- get_word; get h <- get_d; done (mkExc a b c d e f g h).
(** Exchange.cxx:412-456. *)
Record exchange := mkExch { ex_key : numkey; ex_comps : list exch_comp; ex_pitzer : bool; ex_new : bool; ex_equil : bool; ex_n : Z; ex_totals : nd }.
Definition ex_ser (x : exchange) : buf -> buf :=
  push_i (n_user (ex_key x)) ;; push_size (ex_comps x) ;; push_all ec_ser (ex_comps x) ;; push_flag (ex_pitzer x) ;; push_flag (ex_new x) ;; push_flag (ex_equil x) ;;
  push_i (ex_n x) ;; nd_ser (ex_totals x).
Definition ex_des : rd exchange :=
  get n <- get_i; get c <- get_list ec_des; get p <- get_flag; get w <- get_flag; get q <- get_flag; get s <- get_i; get t <- nd_des;
  done (mkExch (mkKey n n " ") c p w q s t).

(** ** Gases *)
(** GasComp.cxx:230-253. *)
Record gas_comp := mkGc { gc_name : string; gc_moles : Q; gc_pread : Q; gc_init : Q; gc_p : Q; gc_phi : Q; gc_f : Q }.
Definition gc_ser (x : gas_comp) : buf -> buf :=
  push_word (gc_name x) ;; push_d (gc_moles x) ;; push_d (gc_pread x) ;; push_d (gc_init x) ;; push_d (gc_p x) ;; push_d (gc_phi x) ;; push_d (gc_f x).
Definition gc_des : rd gas_comp :=
  get a <- get_word; get b <- get_d; get c <- get_d; get d <- get_d; get e <- get_d; get f <- get_d; get g <- get_d; done (mkGc a b c d e f g).
(** GasPhase.cxx:590-641; the type is pressure or volume. *)
Record gas_phase := mkGas { gp_key : numkey; gp_volume_type : bool; gp_total_p : Q; gp_volume : Q; gp_comps : list gas_comp; gp_new : bool; gp_equil : bool; gp_n : Z;
                            gp_temp : Q; gp_moles : Q; gp_vm : Q; gp_pr : bool; gp_totals : nd }.
Definition gp_ser (x : gas_phase) : buf -> buf :=
  push_i (n_user (gp_key x)) ;; push_i (if gp_volume_type x then 1 else 0) ;; push_d (gp_total_p x) ;; push_d (gp_volume x) ;; push_size (gp_comps x) ;;
  push_all gc_ser (gp_comps x) ;; push_flag (gp_new x) ;; push_flag (gp_equil x) ;; push_i (gp_n x) ;; push_d (gp_temp x) ;; push_d (gp_moles x) ;; push_d (gp_vm x) ;;
  push_flag (gp_pr x) ;; nd_ser (gp_totals x).
Definition gp_des : rd gas_phase :=
  get n <- get_i; get ty <- get_i; get a <- get_d; get b <- get_d; get c <- get_list gc_des; get d <- get_flag; get e <- get_flag; get f <- get_i;
  get g <- get_d; get h <- get_d; get i <- get_d; get j <- get_flag; get t <- nd_des;
  done (mkGas (mkKey n n " ") (negb (ty =? 0)) a b c d e f g h i j t).

(** ** Kinetics *)
(** KineticsComp.cxx:273-308; c_params is not used. *)
Record kin_comp := mkKc { kc_rate : string; kc_coef : nd; kc_tol : Q; kc_m : Q; kc_m0 : Q; kc_params : list Q; kc_moles : Q; kc_init : Q; kc_reaction : nd }.
Definition kc_ser (x : kin_comp) : buf -> buf :=
  push_word (kc_rate x) ;; nd_ser (kc_coef x) ;; push_d (kc_tol x) ;; push_d (kc_m x) ;; push_d (kc_m0 x) ;; dl_ser (kc_params x) ;; push_d (kc_moles x) ;;
  push_d (kc_init x) ;; nd_ser (kc_reaction x).
Definition kc_des : rd kin_comp :=
  get a <- get_word; get b <- nd_des; get c <- get_d; get d <- get_d; get e <- get_d; get f <- dl_des; get g <- get_d; get h <- get_d; get i <- nd_des; done (mkKc a b c d e f g h i).
(** cxxKinetics.cxx:543-600. *)
Record kinetics := mkKin { ki_key : numkey; ki_comps : list kin_comp; ki_steps : list Q; ki_count : Z; ki_equal : bool; ki_divide : Q; ki_rk : Z; ki_bad : Z; ki_cvode : bool;
                           ki_csteps : Z; ki_corder : Z; ki_totals : nd }.
Definition ki_ser (x : kinetics) : buf -> buf :=
  push_i (n_user (ki_key x)) ;; push_size (ki_comps x) ;; push_all kc_ser (ki_comps x) ;; dl_ser (ki_steps x) ;; push_i (ki_count x) ;; push_flag (ki_equal x) ;;
  push_d (ki_divide x) ;; push_i (ki_rk x) ;; push_i (ki_bad x) ;; push_flag (ki_cvode x) ;; push_i (ki_csteps x) ;; push_i (ki_corder x) ;; nd_ser (ki_totals x).
Definition ki_des : rd kinetics :=
  get n <- get_i; get a <- get_list kc_des; get b <- dl_des; get c <- get_i; get d <- get_flag; get e <- get_d; get f <- get_i; get g <- get_i; get h <- get_flag;
  get i <- get_i; get j <- get_i; get t <- nd_des; done (mkKin (mkKey n n " ") a b c d e f g h i j t).

(** ** Pure phases *)
(** PPassemblageComp.cxx:394-425. *)
Record pp_comp := mkPc { pc_name : string; pc_add : string; pc_si : Q; pc_si_org : Q; pc_moles : Q; pc_delta : Q; pc_init : Q; pc_force : bool; pc_dissolve : bool; pc_precip : bool; pc_totals : nd }.
Definition pc_ser (x : pp_comp) : buf -> buf :=
  push_word (pc_name x) ;; push_word (pc_add x) ;; push_d (pc_si x) ;; push_d (pc_si_org x) ;; push_d (pc_moles x) ;; push_d (pc_delta x) ;; push_d (pc_init x) ;;
  push_flag (pc_force x) ;; push_flag (pc_dissolve x) ;; push_flag (pc_precip x) ;; nd_ser (pc_totals x).
Definition pc_des : rd pp_comp :=
  get a <- get_word; get b <- get_word; get c <- get_d; get d <- get_d; get e <- get_d; get f <- get_d; get g <- get_d; get h <- get_flag; get i <- get_flag; get j <- get_flag;
  get t <- nd_des; done (mkPc a b c d e f g h i j t).
(** PPassemblage.cxx:326-369: the key of a component is not sent; unpacking takes its name. *)
Record pp := mkPp { pp_key : numkey; pp_new : bool; pp_comps : list (string * pp_comp); pp_elts : nd; pp_totals : nd }.
Definition pp_ser (x : pp) : buf -> buf :=
  push_i (n_user (pp_key x)) ;; push_flag (pp_new x) ;; push_size (pp_comps x) ;; push_all (fun e => pc_ser (snd e)) (pp_comps x) ;; nd_ser (pp_elts x) ;; nd_ser (pp_totals x).
Definition pp_des : rd pp :=
  get n <- get_i; get w <- get_flag; get c <- get_map String.compare (get y <- pc_des; done (pc_name y, y)); get e <- nd_des; get t <- nd_des;
  done (mkPp (mkKey n n " ") w c e t).

(** ** Solid solutions *)
(** SScomp.cxx:246-283. *)
Record ss_comp := mkSc { sc_name : string; sc_moles : Q; sc_initial : Q; sc_init : Q; sc_delta : Q; sc_x : Q; sc_lambda : Q; sc_logx : Q; sc_dn : Q; sc_dnc : Q; sc_dnb : Q }.
Definition sc_ser (x : ss_comp) : buf -> buf :=
  push_word (sc_name x) ;; push_d (sc_moles x) ;; push_d (sc_initial x) ;; push_d (sc_init x) ;; push_d (sc_delta x) ;; push_d (sc_x x) ;; push_d (sc_lambda x) ;;
  push_d (sc_logx x) ;; push_d (sc_dn x) ;; push_d (sc_dnc x) ;; push_d (sc_dnb x).
Definition sc_des : rd ss_comp :=
  get a <- get_word; get b <- get_d; get c <- get_d; get d <- get_d; get e <- get_d; get f <- get_d; get g <- get_d; get h <- get_d; get i <- get_d; get j <- get_d; get k <- get_d;
  done (mkSc a b c d e f g h i j k).
(** SS.cxx:512-588. *)
Record ss := mkSs { ss_name : string; ss_ag0 : Q; ss_ag1 : Q; ss_comps : list ss_comp; ss_a0 : Q; ss_a1 : Q; ss_misc : bool; ss_spin : bool; ss_tk : Q; ss_xb1 : Q; ss_xb2 : Q;
                    ss_case : Z; ss_p : list Q; ss_moles : Q; ss_dn : Q; ss_in : bool; ss_totals : nd }.
Definition ss_ser (x : ss) : buf -> buf :=
  push_word (ss_name x) ;; push_d (ss_ag0 x) ;; push_d (ss_ag1 x) ;; push_size (ss_comps x) ;; push_all sc_ser (ss_comps x) ;; push_d (ss_a0 x) ;; push_d (ss_a1 x) ;;
  push_flag (ss_misc x) ;; push_flag (ss_spin x) ;; push_d (ss_tk x) ;; push_d (ss_xb1 x) ;; push_d (ss_xb2 x) ;; push_i (ss_case x) ;; dl_ser (ss_p x) ;;
  push_d (ss_moles x) ;; push_d (ss_dn x) ;; push_flag (ss_in x) ;; nd_ser (ss_totals x).
Definition ss_des : rd ss :=
  get a <- get_word; get b <- get_d; get c <- get_d; get d <- get_list sc_des; get e <- get_d; get f <- get_d; get g <- get_flag; get h <- get_flag; get i <- get_d; get j <- get_d;
  get k <- get_d; get l <- get_i; get m <- dl_des; get n <- get_d; get o <- get_d; get p <- get_flag; get t <- nd_des; done (mkSs a b c d e f g h i j k l m n o p t).
(** SSassemblage.cxx:267-306: keys are not sent either. *)
Record ssa := mkSsa { sa_key : numkey; sa_sss : list (string * ss); sa_new : bool; sa_totals : nd }.
Definition sa_ser (x : ssa) : buf -> buf :=
  push_i (n_user (sa_key x)) ;; push_size (sa_sss x) ;; push_all (fun e => ss_ser (snd e)) (sa_sss x) ;; push_flag (sa_new x) ;; nd_ser (sa_totals x).
Definition sa_des : rd ssa :=
  get n <- get_i; get c <- get_map String.compare (get y <- ss_des; done (ss_name y, y)); get w <- get_flag; get t <- nd_des; done (mkSsa (mkKey n n " ") c w t).

(** ** Surfaces *)
(** SurfaceComp.cxx:459-491. *)
Record surf_comp := mkSuc { su_formula : string; su_z : Q; su_moles : Q; su_totals : nd; su_la : Q; su_charge : string; su_cb : Q; su_phase : string; su_prop : Q; su_rate : string;
                            su_dw : Q; su_master : string }.
Definition su_ser (x : surf_comp) : buf -> buf :=
  push_word (su_formula x) ;; push_d (su_z x) ;; push_d (su_moles x) ;; nd_ser (su_totals x) ;; push_d (su_la x) ;; push_word (su_charge x) ;; push_d (su_cb x) ;;
  push_word (su_phase x) ;; push_d (su_prop x) ;; push_word (su_rate x) ;; push_d (su_dw x) ;; push_word (su_master x).
Definition su_des : rd surf_comp :=
  get a <- get_word; get b <- get_d; get c <- get_d; get d <- nd_des; get e <- get_d; get f <- get_word; get g <- get_d; get h <- get_word; get i <- get_d; get j <- get_word;
  get k <- get_d; get l <- get_word; done (mkSuc a b c d e f g h i j k l).
(** cxxSurfDL, SurfaceCharge.cxx:578-595. *)
Record surf_dl := mkDl { dl_g : Q; dl_dg : Q; dl_psi : Q }.
Definition sdl_ser (x : surf_dl) : buf -> buf := push_d (dl_g x) ;; push_d (dl_dg x) ;; push_d (dl_psi x).
Definition sdl_des : rd surf_dl := get a <- get_d; get b <- get_d; get c <- get_d; done (mkDl a b c).
(** SurfaceCharge.cxx:495-577; z_gMCD_map is not sent, and is empty after unpacking. *)
Record surf_charge := mkCh { ch_name : string; ch_area : Q; ch_grams : Q; ch_cb : Q; ch_water : Q; ch_visc : Q; ch_free : Q; ch_psi : Q; ch_cap0 : Q; ch_cap1 : Q; ch_totals : nd;
                             ch_s0 : Q; ch_s1 : Q; ch_s2 : Q; ch_sddl : Q; ch_g : list (Q * surf_dl); ch_mcd : list (Q * Q); ch_species : zmap }.
Definition ch_ser (x : surf_charge) : buf -> buf :=
  push_word (ch_name x) ;; push_d (ch_area x) ;; push_d (ch_grams x) ;; push_d (ch_cb x) ;; push_d (ch_water x) ;; push_d (ch_psi x) ;; push_d (ch_cap0 x) ;; push_d (ch_cap1 x) ;;
  nd_ser (ch_totals x) ;; push_d (ch_s0 x) ;; push_d (ch_s1 x) ;; push_d (ch_s2 x) ;; push_d (ch_sddl x) ;; push_d (ch_free x) ;; push_d (ch_visc x) ;;
  push_size (ch_g x) ;; push_all (fun e => push_d (fst e) ;; sdl_ser (snd e)) (ch_g x) ;; zm_ser (ch_species x).
Definition ch_des : rd surf_charge :=
  get a <- get_word; get b <- get_d; get c <- get_d; get d <- get_d; get e <- get_d; get f <- get_d; get g <- get_d; get h <- get_d; get i <- nd_des; get j <- get_d; get k <- get_d;
  get l <- get_d; get m <- get_d; get n <- get_d; get o <- get_d; get p <- get_map Qcompare (get k <- get_d; get x <- sdl_des; done (k, x)); get q <- zm_des;
  done (mkCh a b c d e o n f g h i j k l m p [] q).
(** Surface.cxx:727-811; calc_DDL_viscosity is not sent, and is false after unpacking. *)
Record surface := mkSurf { sf_key : numkey; sf_comps : list surf_comp; sf_charges : list surf_charge; sf_new : bool; sf_tidied : bool; sf_type : Z; sf_dl : Z; sf_units : Z;
                           sf_counter : bool; sf_thick : Q; sf_debye : Q; sf_visc : Q; sf_calc : bool; sf_limit : Q; sf_correct : bool; sf_transport : bool; sf_totals : nd;
                           sf_equil : bool; sf_n : Z }.
Definition sf_ser (x : surface) : buf -> buf :=
  push_i (n_user (sf_key x)) ;; push_size (sf_comps x) ;; push_all su_ser (sf_comps x) ;; push_size (sf_charges x) ;; push_all ch_ser (sf_charges x) ;;
  push_flag (sf_new x) ;; push_flag (sf_tidied x) ;; push_i (sf_type x) ;; push_i (sf_dl x) ;; push_i (sf_units x) ;; push_flag (sf_counter x) ;; push_d (sf_thick x) ;;
  push_d (sf_debye x) ;; push_d (sf_visc x) ;; push_d (sf_limit x) ;; push_flag (sf_correct x) ;; push_flag (sf_transport x) ;; nd_ser (sf_totals x) ;; push_flag (sf_equil x) ;; push_i (sf_n x).
Definition sf_des : rd surface :=
  get n <- get_i; get a <- get_list su_des; get b <- get_list ch_des; get c <- get_flag; get d <- get_flag; get e <- get_i; get f <- get_i; get g <- get_i; get h <- get_flag;
  get i <- get_d; get j <- get_d; get k <- get_d; get l <- get_d; get m <- get_flag; get o <- get_flag; get t <- nd_des; get p <- get_flag; get q <- get_i;
  done (mkSurf (mkKey n n " ") a b c d e f g h i j k false l m o t p q).

(** ** Temperatures and pressures, Temperature.cxx:384-419, Pressure.cxx:376-411 *)
Record steps := mkSteps { st_key : numkey; st_values : list Q; st_count : Z; st_equal : bool }.
Definition st_ser (x : steps) : buf -> buf := push_i (n_user (st_key x)) ;; dl_ser (st_values x) ;; push_i (st_count x) ;; push_flag (st_equal x).
Definition st_des : rd steps := get n <- get_i; get l <- dl_des; get c <- get_i; get e <- get_flag; done (mkSteps (mkKey n n " ") l c e).

(** ** The reactants of an instance: a std::map is a partial function of the number *)
Record system := mkSys { solutions : Z -> option solution; exchanges : Z -> option exchange; gases : Z -> option gas_phase; kinetic : Z -> option kinetics; pps : Z -> option pp;
                         ssas : Z -> option ssa; surfaces : Z -> option surface; temperatures : Z -> option steps; pressures : Z -> option steps }.
Definition send {A} (code : Z) (ser : A -> buf -> buf) (x : option A) : buf -> buf := match x with Some x => push_i code ;; ser x | None => nothing end.
(** Body of the loop, Serializer.cxx:32-110. *)
Definition send_number (s : system) (with_t with_p : bool) (i : Z) : buf -> buf :=
  send 0 sol_ser (solutions s i) ;; send 1 ex_ser (exchanges s i) ;; send 2 gp_ser (gases s i) ;; send 3 ki_ser (kinetic s i) ;; send 4 pp_ser (pps s i) ;;
  send 5 sa_ser (ssas s i) ;; send 6 sf_ser (surfaces s i) ;; (if with_t then send 7 st_ser (temperatures s i) else nothing) ;; (if with_p then send 8 st_ser (pressures s i) else nothing).
Definition numbers (first last : Z) : list Z := map (fun k => first + Z.of_nat k) (List.seq 0 (Z.to_nat (last - first + 1))).
Definition INT_MAX : Z := 2147483647.
(** Serializer::Serialize, 28-114: the loop variable overflows if the last number is the largest int. *)
Definition serialize (s : system) (first last : Z) (with_t with_p : bool) (b : buf) : outcome buf :=
  if (first <=? last) && (last =? INT_MAX) then UB else Ret (push_all (send_number s with_t with_p) (numbers first last) b).
Definition assign {A} (m : Z -> option A) (n : Z) (x : A) : Z -> option A := fun k => if k =? n then Some x else m k.
(** Serializer::Deserialize, 117-215; an unknown type ends the program. *)
Definition receive (s : system) (code : Z) : rd system :=
  match code with
  | 0 => get x <- sol_des; done (mkSys (assign (solutions s) (n_user (sol_key x)) x) (exchanges s) (gases s) (kinetic s) (pps s) (ssas s) (surfaces s) (temperatures s) (pressures s))
  | 1 => get x <- ex_des; done (mkSys (solutions s) (assign (exchanges s) (n_user (ex_key x)) x) (gases s) (kinetic s) (pps s) (ssas s) (surfaces s) (temperatures s) (pressures s))
  | 2 => get x <- gp_des; done (mkSys (solutions s) (exchanges s) (assign (gases s) (n_user (gp_key x)) x) (kinetic s) (pps s) (ssas s) (surfaces s) (temperatures s) (pressures s))
  | 3 => get x <- ki_des; done (mkSys (solutions s) (exchanges s) (gases s) (assign (kinetic s) (n_user (ki_key x)) x) (pps s) (ssas s) (surfaces s) (temperatures s) (pressures s))
  | 4 => get x <- pp_des; done (mkSys (solutions s) (exchanges s) (gases s) (kinetic s) (assign (pps s) (n_user (pp_key x)) x) (ssas s) (surfaces s) (temperatures s) (pressures s))
  | 5 => get x <- sa_des; done (mkSys (solutions s) (exchanges s) (gases s) (kinetic s) (pps s) (assign (ssas s) (n_user (sa_key x)) x) (surfaces s) (temperatures s) (pressures s))
  | 6 => get x <- sf_des; done (mkSys (solutions s) (exchanges s) (gases s) (kinetic s) (pps s) (ssas s) (assign (surfaces s) (n_user (sf_key x)) x) (temperatures s) (pressures s))
  | 7 => get x <- st_des; done (mkSys (solutions s) (exchanges s) (gases s) (kinetic s) (pps s) (ssas s) (surfaces s) (assign (temperatures s) (n_user (st_key x)) x) (pressures s))
  | 8 => get x <- st_des; done (mkSys (solutions s) (exchanges s) (gases s) (kinetic s) (pps s) (ssas s) (surfaces s) (temperatures s) (assign (pressures s) (n_user (st_key x)) x))
  | _ => fun _ _ => Exit
  end.
Fixpoint unpack (fuel : nat) (s : system) (b : buf) (p : nat * nat) : outcome system :=
  match fuel with
  | O => Ret s
  | S fuel => if Nat.ltb (fst p) (length (ints b)) then do r <- (get code <- get_i; receive s code) b p; unpack fuel (fst r) b (snd r) else Ret s
  end.
Definition deserialize (s : system) (b : buf) : outcome system := unpack (S (length (ints b))) s b (O, O).
