# Formal model of usgs-coupled/webmod in Rocq (Coq 8.16.1)

## 1. Layout

For each component `X` there are up to four files under `rocq/theories/`:

* `X_Model.v`  - executable Gallina definitions, one per function of the code, each
  with a comment citing file and lines in `/repo` and saying what is simplified.
  No proofs.
* `X_Spec.v`   - the small independent specification (what the English claim means),
  written without the model's helpers.
* `X_Proofs.v` - lemmas.
* `X_Props.v`  - only the property theorems (`Cnn_...`), each closed by
  `exact lemma`, with `Print Assumptions` underneath, and an `Example` that a concrete
  non-trivial case meets the hypotheses.

A theorem with suffix `_partial` proves less than the English property (the missing
part is named beside it).  A theorem with suffix `_refuted` shows by a concrete witness
that the code violates (part of) the English property: these are findings about the
code, listed in section 5.

## 2. Modelling conventions

* C `int`/Fortran `INTEGER` are `Z` unless the property is about wrap-around.
* `float`, `double`, `REAL` are exact rationals `Q`.  The theorems are therefore about
  the real-number algorithm, not about rounding.  Transcendental functions (exp, sin,
  powers) are arguments of the model (section variables, closed), with the only facts
  used stated as hypotheses of the theorem.
* C strings are Coq `string`; `strcmp` is lexicographic order on character codes.
* Undefined behaviour (out-of-bounds access, use of uninitialised storage, NULL
  dereference) is a distinct outcome of the model, never a default value.
* `exit(1)` is a distinct outcome.
* Files are lists of lines or lists of records, as said at each definition.

## 3. Plan per property

| id | modelled | proof |
|----|----------|-------|
| C01 | `julday` in integer arithmetic (floors of 365.25*y and 30.6001*m as integer divisions) | successor theorem over the historical calendar, then monotonicity by induction |
| C02 | `isleap`, `dayofweek` | equivalence with C01 |
| C03 | `julian`, `djulian` reference-date selection | corollary of C01 |
| C04 | `decldim`, `declfix`, `sort_dims`, `dim_addr`, `getdim` | invariant over histories; `declfix` expected refuted |
| C05 | `declvar`, `sort_vars`, `var_addr` | refinement to a finite map for histories without refused declarations; refutation with a refused one |
| C06 | `declparam`, `param_addr`, `sort_params` | invariant over histories |
| C07 | `str_to_vals` on token lists | equality with a cyclic-expansion specification |
| C08 | `load_param` | iff characterisation |
| C09 | `resize_param`, `reset_dim` | coordinate-wise characterisation for all ranks |
| C10 | `getparam`, `paramcopy` | element-wise characterisation; integer width refutation |
| C11 | `getvar`, `putvar` | round trip under equal strides; refutations otherwise |
| C12 | `GetElemAddress`, `CheckIndices` | injectivity, range |
| C13 | `READ_param_values`, writer | characterisation; round trip refuted |
| C14 | `rc`, `fgets_rc`, `add_control`, `control_array` | safety under size condition; overflow refuted otherwise |
| C15 | `parse_args` | characterisation; `-debug` refuted |
| C16 | `read_line` over record lists | invariants over runs |
| C17 | `FILE_with_next_ts` | minimality; loss of records refuted |
| C18 | `EXTRACT_time` | iff; seconds check refuted |
| C19 | `save_vars`, `read_vars` on the lines of the file, with `%ld` and `%f` printers and readers | round trip, cut files, refusals |
| C20 | `BATCH_run` with module outcomes as oracle | trace characterisation |
| C21 | `ALLOC_list`, `ADD_to_list`, `RESIZE_list` | refinement to list append |
| C22 | instance registry | history invariants |
| C23 | `CSelectedOutput` | refinement to an abstract table |
| C24 | accumulate/run state machine | refinement to pending-script semantics |
| C25 | load/run/unload state machine with outcome oracles | invariants over histories |
| C26 | line splitting | round trip |
| C27 | `padfstring`, `f2cstring` | characterisation, round trip |
| C28 | selected-output switches | file switch proved, string switch expected refuted |
| C29 | variant heap | ownership invariant over histories |
| C30, C31 | `PreMixCallback` as a script generator | script characterisation, factor product, water balance |
| C32 | `Melt_pack` | mass balance over Q |
| C33 | `store_tally_table` | write-set characterisation; boundary refuted |
| C34 | `cxxNameDouble` operations | element-wise characterisation; `merge_redox` refuted |
| C35 | `Dictionary`, `Serialize`/`Deserialize` | round trip |
| C36 | `call_modules` | trace characterisation; precipitation selection refuted |
| C37 | `top2crun`, `top2cinit` | sum over assignments |
| C38 | `routecrun` channel part | conservation; loss refuted |
| C39 | histogram of `routecinit` | telescoping sum, monotone interpolation |
| C40 | `iorun` flags and decoders | inverse on all flags |
| C41 | `intercept` | conservation over Q |
| C42 | rain and snow in `pptrun` and `irrrun`, with the types the variables are declared with, over several steps | conservation over Q; induction over steps |
| C43 | `my_newunit` | history invariant |
| C44 | `solnnum`, `isoln` | decode of encode, injectivity, row disjointness |
| C45 | `checkfracs` | characterisation; sticky flag refuted |
| C46-C48, C50 | `HEATWATR`, `ROUTE`, `AESNOW`, `MELTFACT` | balance and range over Q |
| C49 | `EXPINF` with the transcendental parts as oracle | bound for every oracle |
| C51 | the whole snow routine of one interval and its time loop | conservation and range invariant by induction over intervals |
| C52 | `splitpathpp` on memory blocks | exact contents; overrun refuted |
| C53 | `read_datainfo`, `readvar`, `row` | header and delivery characterisation |
| C54 | `read_copy`, `copy_entities`, `Rxn_copy`, `Rxn_copies`, `Rxn_next_user_number` with size_t counters | fold lemma over the loop; wrap-around refuted for all such ranges |
| C55 | `Augment` on texts, token rows | set characterisation; refutations |
| C56 | `StorageBinList::Read`, `TransferAll`, `delete_entities` | induction over the lines of a block; frame for all other reactants |
| C57 | `dumper::Read`, `dump_entities`, `dump_ostream`, `Rxn_dump_raw` | merge of two ordered lists; refutations |
| C58 | `cxxSolution(… cxxMix …)`, `add`, `multiply`, `Add_isotopes`, `cxxMix::Add` | induction over the mixture; sums additive, means times water additive, range from both; refutations |
| C59 | `add` and `multiply` of the six kinds of assemblage and their components, `cxxGasPhase(… cxxMix …)` | one lemma for component lists, one for maps by name, one for mixtures; instances per kind; refutations |
| C60 | `topminit` (stores), `topmrun` (whole step of a unit, final balance) | balance of each stage of a bin, sum over bins, induction over steps; refutations |
| C61 | same | ranges of each stage; invariant by induction over steps; refutation |
| C62 | same, `uz_depth`, `uz_infil`, `uz2sat` and the other local flows | position by position through both loops; invariant over steps |
| C63 | `topmrun` (saturated areas, base flow, tile drains, limits on pumping) | case analysis; induction over bins; refutations |
| C64 | `get_elts_in_species`, `get_elt`, `get_num` | grammar in the specification with its own count; induction over formulas and over texts; refutations |
| C65 | `elt_list_combine`, `trxn_add`, `trxn_combine`, `trxn_multiply`, `trxn_swap` | any sorted rearrangement; induction over lists; refutations |
| C66 | `get_charge` (with `strtol` base 0 and printing) | round trip of digits; case analysis; refutations |
| C67 | `parse_eq`, `check_eqn`, `get_species`, `get_coef`, `get_token`, `replace`, `squeeze_white` | equations built from terms and blanks; induction over the sides; refutations |
| C68 | `webrinit` (volumes), `webrrun` per unit | algebra of one step with the loss as an explicit term; induction over days; refutations |
| C69 | as C68 | invariants by induction over days |
| C70 | `webrrun` for basin and streams | sums over units and segments; induction over days; refutation for every run with diversions |
| C71 | as C68 with the hillslope model of C60 | the hillslope theorems supply the hypotheses of C68; induction over days |
| C72 | `Serializer`, and `Serialize`/`Deserialize` of all reactants, into the three arrays of words, ints and doubles | a writer and its reader agree on any arrays that follow (one lemma per class), then induction over the numbers |
| C73 | `Dictionary` with its text read by `istream::getline` into 256 characters | induction over the words |
| C74 | the tokens and `factor` … `expr` with an explicit recursion depth; exp, log and the chemical functions as arguments | a tree of the formula with its written form; the evaluator reaches the tree's value by induction over the tree, termination by the number of tokens |
| C75 | `findvar` with its subscripts | mixed-radix numbers: the cell determines the subscripts and lies below the product of the bounds |
| C76 | a machine with the rest of the line, the lines, the stack of loops and calls, the data pointer and the memory; the statements and `exec` one by one, and the scans for NEXT, WEND and ELSE | a tree of statements with its possible spellings over lines (`spelled`) and a big-step meaning (`does`); by induction over the meaning the machine goes from the start of any spelling to its end with the memory of the meaning and an unchanged stack |
| C77 | `enter`, `renum`, `logical_line` | induction over the lines; the renumbered reference and its line by the position in the program |
| C78 | PUT, GET, LET of the machine's meaning | keys are injective (decimal numbers, commas); memory after the statement |
| C79 | GOTO, ON of the machine | steps of the machine from any state at such a statement |
| C80 | obsrun conversions, t1run corrections over dated steps, basin means | induction over steps whose dates follow (C01 calendar): the kept correction is that of the current month |
| C81 | arrays of reaction temperatures, shift, fraction of the oldest day | invariant: the array is the latest part of the history padded with zeros; sum = weighted sum over the window |
| C82 | petinit, petrun: switch, check flag, sum | induction over days between the first days of the two months; start by evaluation over the 12 x 12 x 12 months |
| C83 | petrun: daily value, pan, Hamon, lday | induction over steps of a day and over days |
| C84 | csolrun: Nper, Lsv, Cnt, Sper, Kck, Lp(5), table lookup, Lday; julian day of the solar year from Calendar | invariant: the place is a function of the day and of the leap year; transitions by evaluation over the 365 + 366 days, dates by induction |
| C85 | csolrun 523-546; x**crad_exp is an argument with its bounds as hypotheses | case analysis over limits, nonlinear arithmetic |
| C86 | stinit hour angles (trigonometric functions are arguments) | the hours are the sum of three overlaps of intervals; cases by linear arithmetic |
| C87 | update_chem, new step, groundwater, evaporation as events on seven accounts | invariant over event lists: every statement adds the same amount to the whole and to one part |
| C88 | same | invariant over event lists, sums over hillslopes |
| C89 | update_chem on one reservoir; layout of what a mix returns | loops over solutes and entities, one index at a time |
| C90 | loop over the stream segments, with solution numbers and rows of Soln | frame lemmas per segment, split of the descending loop at a segment |
| C91 | reports of accounts and chem2var | invariant (bounds on weighted sums) over event lists; case analysis |
| C92 | read_reaction_steps, add_reaction | token lists, sums over steps by induction |
| C93 | -steps of read_kinetics, Current_step | token lists, sums over steps by induction |
| C94 | Temperature_for_step, Pressure_for_step | linear arithmetic over Q for every step |
| C95 | reactions, copy_use, saver; a step's chemistry is an argument | invariant over the loop of steps |
| C96 | advection, set_advection (sources), Rxn_copy; a cell's chemistry is an argument | invariant over the cells of a shift, induction over shifts, refinement to a relation between columns |
| C97 | frequency and cell flags of read_advection, output of advection | induction over lists and shifts |
| C98 | phr_mix over RunMixF (Mix) and the table of selected output (SelOut); one simulation's chemistry is an argument | cutting of the script into simulations, refinement of the reads to the rows punched |
| C99 | phr_multicopy with the text of the line and its words | induction over the pairs, lemmas on the digits of numbers |
| C100 | parsechemobs, phreeq_id, unit_id, LENGTH, PARSE and the checks of obsc_init on character variables | induction over the words of the header |
| C101 | obsc_run: reading of records, search for the first day, conversion and distribution | induction over records and steps, refinement to samples |
| C102 | loop over the sources of phreeqmms_run | arithmetic over all indices |
| C103 | getc, get_logical_line and get_line of PHRQ_io with a stack of input texts | induction over a derivation of the lines a text stands for |
| C104 | check_key, copy_token and the test for options of get_line | case analysis on the first word |
| C105 | find_option, get_option, replace with the size of the buffer | induction over the names, lemmas on strings |
| C106 | read_debug, get_true_false on the answers of get_option | induction over the lines of a block |
| C107 | set_and_run_wrapper, with the calculation as an argument | induction over the attempts, refinement to a list of planned settings |
| C108 | the same, and the loop of initial_solutions | the same induction; case analysis on turns |
| C109 | check_units on a string, with replace and squeeze_white | the cuts commute with appending what follows; case analysis on the finite list of names |
| C110 | check_units and the part of read_solution that sets the units | case analysis on standard units |
| C111 | convert_units over exact rationals; formula weights are arguments | induction over the elements, algebra of the mass balance |
| C112 | create_vstats, write_vstats and the header, over strings | induction over choices and moments |
| C113 | the animation part of single_run_pre_init and single_run_post_run, files as appended strings | invariant of each file under print, induction over dimensions, rows, variables and moments |
| C114 | fractionate of webmod over exact rationals; the power is an argument, PHREEQC's moles an oracle | induction over isotopes, algebra of the balance |
| C115 | satvp, wetbulb and the humidity of a unit over exact rationals | sums of squares for the polynomial of ice, induction over coefficients and over turns |
| C116 | init_mix with one diffusion coefficient, over any number of cells | factors as a list by induction over cells; the largest sum bounds each; the number of mixes is above 3/2 of it |
| C117 | boundary solutions, loop of mixes with solution -2, shifts, order of mixes and shifts | the loop equals a simultaneous mix (induction); telescoping sum; range invariant over steps |
| C118 | init_heat_mix, heat_mix | as C116 and C117 for temperatures |
| C119 | MELTRATE and the temperatures of the four periods (model of C46-C51) | case analysis; a separate specification of the energy budget |
| C120 | topmrun of one unit (model of C60-C63) | sums over classes by induction; laws without division in a separate specification |
| C121 | sumbinit, sumbrun of web_sum.F: accumulators, ends of periods, lines; not the text of lines | induction over the steps of a period; what is printed plus what is held is the tally of the run; telescoping balance |
| C122 | read_number_description, read_list_ints_range and the copies for a range | induction over texts; a grammar of lines and lists in a separate specification |
| C123 | leap, julian_day, gregorian_date, newdate, numdays, numsecs, day_of_year, num_days_in_year, water_year_and_day of tsp_utilities.F90 | closed form by centuries and years from March; induction over days; the calendar in a separate specification |
| C124 | usgs_hysep (interval), FIXED, SLIDE, LOCMIN of wsc_additions.F90 | induction over days and minima; lowest flows and minima in a separate specification; powers and logarithms are arguments |
| C125 | quick_sort with partition, interchange_sort, median, quantile_scalar, quantile_vector of tsp_utilities.F90 | invariant of the partition with sentinels, induction on the size of the part; arrangement in a separate specification |
| C126 | volume_interp_s of tsp_command_processors.F90 | area under the lines, induction over samples; additivity, one interval and bounds as specification |
| C127 | time_interp_s without EXTRAP and DIRECTION, loop of time_base | invariant of the place to start from, induction over times; reading between samples in a separate specification |
| C128 | make_date_list of tsp_utilities.F90 | periods characterised by days of the calendar of C123; order by induction over months; counting in a separate specification |

## 4. Trusted base

* The kernel of Coq 8.16.1, including `vm_compute`.  No plugin, no native compilation, no
  kernel check switched off, no library besides Coq's standard library.
* No axioms: see section 6.
* The reading of the C, C++ and Fortran sources by hand.  Nothing is extracted and nothing is
  run: the model is correct as far as each definition says what the cited lines do.
* The conventions of section 2, in particular: reals are exact, integers do not overflow
  unless the definition says so, memory allocation succeeds unless it is an argument, and one
  thread runs.
* What stands outside of the code is an argument of the model over which the theorems
  quantify: the behaviour of the process modules (Run), of the geochemical engine (Inst, Mix),
  exp/sin/log/powers (Snow, Infil), conversion of real number texts (Pfile, Ctrl, Data, Ckpt),
  what uninitialised memory holds (junk arguments).

### What is modelled

The head comment of every `X_Model.v` names the files and functions, and every definition
the lines.  In short:

| part of the code | model files |
|---|---|
| mmf_c calendar: julday.c, julconvert.c, timing.c, dmy.c | Calendar |
| mmf_c registries: decldim.c, declvar.c, declparam.c, load_param.c, str_to_vals.c, sort_*.c, dim_addr.c, var_addr.c, param_addr.c, alloc/build_lists.c | Dim, Var, Param, Sort, List |
| mmf_c data exchange: getvar.c, putvar.c, getparam.c, get_elem_add.c, reset_dim.c | Xchg, Pget, Elem, Resize |
| mmf_c files: read_params.c (values), save_params.c (parameters), read_control.c, control_*.c, read_line.c, read_datainfo.c, readvar.c, save_vars.c, read_vars.c | Pfile, Ctrl, Data, Ckpt |
| mmf_c command line and life cycle: parse_args.c, mmf.c, batch_run.c | Args, Run |
| webmod.d modules: call_modules_webmod.F, io.F (clock), intcp_prms.F, nwsmelt_topg.F, precip_web.F, irrig_web.F (deposition), top2clark.F, route_clark.F, topmod_chem.F (EXPINF), phreeq_mms.F90 (numbering, checkfracs), my_newunit.F | Run, Clock, Canopy, Snow, Precip, Route, Infil, Soln, Unit |
| IPhreeqcMMS: fortran.cpp, IPhreeqcMMS.cpp, IPhreeqcMMSLib.cpp | Mix, Reg |
| IPhreeqc: IPhreeqc.cpp, IPhreeqcLib.cpp, CSelectedOutput.cpp, Var.c, CVar.hxx, fwrap.cpp, IPhreeqc_interface_F.cpp, pp_sys.cpp | Inst, Reg, SelOut, Variant, Fstr |
| phreeqcpp: NameDouble.cxx, Dictionary.cpp, tally.cpp (table transfer) | Name, Tally |
| phreeqcpp: StorageBinList.cpp, dumper.cpp (Read), ReadClass.cxx (dump, delete), Phreeqc.h (Rxn_ templates), read.cpp (read_copy), mainsubs.cpp (copy_entities) | Store |
| phreeqcpp: Solution.cxx (mixing, add, multiply, isotopes), PPassemblage(Comp).cxx, SSassemblage.cxx, SS.cxx, SScomp.cxx, Exchange.cxx, ExchComp.cxx, Surface.cxx, SurfaceComp.cxx, SurfaceCharge.cxx, cxxKinetics.cxx, KineticsComp.cxx, GasPhase.cxx, GasComp.cxx (add, multiply, mixing), cxxMix.h | Blend |
| webmod.d: topmod_chem.F (topminit: stores and areas; topmrun) | Hill |
| phreeqcpp: parse.cpp (all but get_secondary and get_secondary_in_species), utilities.cpp (equal, get_token, islegit, replace, squeeze_white), structures.cpp (elt_list_combine, trxn_add, trxn_combine, trxn_multiply, trxn_swap) | Chem |
| webmod.d: webmod_res.F (volumes: webrinit 1405-1640, webrrun; not the reports) | Resv |
| phreeqcpp: Serializer.cxx, Dictionary.cpp, and Serialize/Deserialize of NameDouble, Solution, SolutionIsotope, ExchComp, Exchange, GasComp, GasPhase, KineticsComp, cxxKinetics, PPassemblageComp, PPassemblage, SScomp, SS, SSassemblage, SurfaceComp, SurfaceCharge, Surface, Temperature, Pressure | Pack |
| phreeqcpp: PBasic.cpp (parse 569-901, factor … expr 1876-5298 without the chemical functions' own code) | Basic |
| phreeqcpp: PBasic.cpp (statements 5299-6797, exec 6798-7040, lines and renumbering; not the file statements, LIST, NEW, LOAD, PLOT_XY, GRAPH_*) | Prog |
| phreeqcpp: PBasic.cpp (text of programs: parseinput 1707-1765, loop of basic_compile 80-130) | Lex |
| webmod.d: obs_webmod.F obsrun 385-417, temp_1sta_prms.F t1init, t1run, potet_hamon_prms.F petinit, petrun | Temp |
| webmod.d: ccsolrad_web.F csolinit, csolrun, soltab_prms.F stinit (hours of sun) | Sun |
| webmod.d: phreeq_mms.F90 update_chem, accounts at the start of a step, loop over the stream segments 9070-9268, reports 9366-9530, chem2var 11005-11087 | Acct |
| IPhreeqc: read.cpp read_reaction_steps, -steps of read_kinetics; step.cpp add_reaction; Temperature.cxx, Pressure.cxx levels; cxxKinetics.cxx Current_step; mainsubs.cpp reactions, copy_use, saver | Steps |
| IPhreeqc: advection.cpp advection; kinetics.cpp set_advection (sources); read.cpp read_advection (frequency and flags) | Advec |
| IPhreeqcMMS: phr_mix.F90, phr_multicopy.f90; IPhreeqc.cpp RunAccumulated (order of simulations and errors); ReadClass.cxx read_copy (numbers) | Phrmix |
| webmod.d: obs_chem.F parsechemobs, phreeq_id, unit_id, LENGTH, PARSE, obsc_init (header), obsc_run; phreeq_mms.F90 loop 482 of phreeqmms_run | Obs |
| IPhreeqc: PHRQ_io.cpp getc, get_line, get_logical_line, check_key; Parser.cxx copy_token, Parser.h trim; input.cpp get_line; read.cpp find_option, get_option; utilities.cpp copy_token, replace; Keywords.cpp Keyword_search | Inp |
| IPhreeqc: read.cpp read_debug, get_true_false; kinetics.cpp set_and_run_wrapper (settings and attempts); mainsubs.cpp loop of initial_solutions (settings) | Retry |
| IPhreeqc: read.cpp check_units, read_solution (units); prep.cpp convert_units; utilities.cpp replace; Utils.cxx squeeze_white | Units |
| mmf_c/src: batch_run_functions.c single_run_pre_init (files), single_run_post_run; create_vstats.c; write_vstats.c | Anim |
| webmod.d/src: phreeq_mms.F90 fractionate, satvp, wetbulb, relative humidity and temperature of precipitation | Iso |
| IPhreeqc/src/phreeqcpp/transport.cpp transport (no stagnant zones, no reactions), init_mix (one diffusion coefficient), init_heat_mix, heat_mix | Trans |
| webmod.d/src: web_sum.F sumbinit, sumbrun | Summ |
| IPhreeqc/src/phreeqcpp: NumKeyword.cxx read_number_description, read.cpp read_list_ints_range, copies for a range | Hdr |
| tsproc-trunk/tsproc-master/src/tsp_utilities.F90: dates | Tsdate |
| tsproc-trunk/tsproc-master/src/wsc_additions.F90: base flow | Hysep |
| tsproc-trunk/tsproc-master/src/tsp_utilities.F90: order | Qsort |
| tsproc-trunk/tsproc-master/src/tsp_command_processors.F90: volumes | Vol |
| tsproc-trunk/tsproc-master/src: tsp_command_processors.F90 time_interp_s, tsp_time_series_processors.F90 time_base | Tbase |
| tsproc-trunk/tsproc-master/src/tsp_utilities.F90: make_date_list | Dlist |

### What is not modelled

* The numerical engine of PHREEQC (equilibrium solver, kinetics, transport) and its parser.
* The process equations of webmod.d other than those named above: topmod (saturated zone,
  unsaturated zone, evapotranspiration), potential evapotranspiration, solar radiation tables,
  temperature distribution, summaries, chemistry observations.
* The graphical interface, statistics and printing of mmf_c, and the ESP and Rosenbrock modes.
* Floating-point rounding, except where a theorem speaks about printed digits (C19, C30).
* Concurrency, failure of malloc (except C29), file system errors other than a missing or
  cut file.

## 5. Findings

### With a theorem

Each of these theorems exhibits an input (or shows for all inputs of a kind) on which the code
does not do what the property promises.

* `C02_weekday_of_date_refuted`: the weekday of a date is not a function of the date: from noon on, the day number with its time of day is reported as the next weekday.
* `C03_fractional_spring_refuted`: The fractional day-of-year query stops the program for the spring clock.
* `C03_year_one_refuted`: for dates of year 1 the code uses an uninitialised reference day number, and the fractional query stops the program for the spring clock that the integer query accepts.
* `C04_declfix_refused_refuted`: a refused fixed declaration does change the registry.
* `C04_declfix_refuted`: the program's own first fixed declaration ('five', 5, 5) leaves 'five' not fixed and marks 'one' as fixed.
* `C05_illegal_type_refuted`: an illegal type name is not refused cleanly, an unset local is read.
* `C05_refused_declaration_refuted`: C05, refuted for a refused incorrect declaration: after 'b' has been declared and a declaration of 'a' with an undeclared dimension has been refused with code 1, looking up any name greater than 'b' reads an uninitialised key.
* `C06_illegal_type_refuted`: an illegal type name is reported as success.
* `C06_refused_stays_refuted`: a refused declaration (default out of range) leaves the parameter registered with the refused values, and a later correct declaration of the same name reports success without replacing them.
* `C06_undeclared_dimension_refuted`: a declaration with an undeclared dimension is not refused cleanly but dereferences NULL (declparam.c:465).
* `C07_empty_refuted`: a string without tokens leaves the array uninitialised (and undefined), and a token of 128 or more characters overruns the token buffer.
* `C07_malformed_refuted`: tokens that are not numbers are not refused (the end pointer of the conversion is not checked): "abc" and "2*" are read as zeros.
* `C09_descriptions_refuted`: The descriptions of the values stay where they are when the values move.
* `C09_from_zero_refuted`: Growing from zero reads before the array.
* `C09_to_zero_refuted`: Shrinking to zero leaves one cell that was never written, instead of a value.
* `C09_twice_refuted`: A dimension used twice: growing a 2 by 2 table to 3 by 3 reads outside of the old array.
* `C100_blanks_refuted`: A second blank before a species or a unit becomes part of it: the run stops with the message that the species or the unit is not known.
* `C100_constant_refuted`: With a constant chemistry of precipitation the file is not read at all, even if external sources or samples are to be taken from it.
* `C100_many_refuted`: More than a hundred columns are written beyond the arrays for them.
* `C100_no_unit_refuted`: A last species without a unit is only reported: the unit is taken from a variable that was never set, and the run goes on.
* `C100_solute_refuted`: A solute that the table of species does not have is used as row -99 of it before the message for it can be given.
* `C101_constant_refuted`: With chem_ext = 0 the external sources take temperature and pH from the rows of the samples, and from outside the array if there are fewer samples.
* `C101_field_refuted`: A field that is no number is not reported: from there on the values of the step before are used again.
* `C101_short_refuted`: A record with too few numbers is not reported either: the numbers missing are taken from the next line, and that line is passed over.
* `C102_constant_refuted`: With constant external sources, as many of the samples as there are such sources are made solutions instead of being recorded.
* `C103_remark_refuted`: A # after a backslash starts a remark that does not reach to the end of the line: what follows a semicolon in it is read as input.
* `C105_ambiguous_refuted`: A word that begins two names is not reported: it is taken for the first.
* `C105_overrun_refuted`: A long line with an abbreviated option: when the line leaves one place in the buffer, the buffer is not made larger for the line, and writing out the name goes past its end.
* `C106_silent_refuted`: An option without a number, or with a word in its place, is not reported: the block is accepted and the old value stays.
* `C106_unset_refuted`: -convergence_tolerance without a number is not reported either, and then the tolerance is whatever was in memory: neither the old value nor a given one.
* `C107_count_refuted`: Attempts that are left out count as tries: with small steps and two tries there is one attempt.
* `C107_none_refuted`: A limit on tries that is zero or negative makes no attempt at all: the run is stopped as if all had failed.
* `C107_pitzer_refuted`: With the activity models of Pitzer and SIT diagonal scaling is switched on for the first attempt only: all the later ones but 4 and 5 have what the user set, and those two the opposite.
* `C108_density_refuted`: When the density has to be found, the setting of diagonal scaling is lost: the second turn takes for it what the first had switched on. It is then on for the rest of the run.
* `C108_fixed_volume_refuted`: -numerical_fixed_volume of KNOBS holds for one calculation: the first that ends without stopping the run switches it off.
* `C108_none_refuted`: With no try allowed, the models of Pitzer and SIT leave diagonal scaling on.
* `C108_thrown_refuted`: A calculation that is broken off inside an attempt leaves the settings of that attempt, and the runs that follow use them: after the fourth the tolerance is ten times what the user set.
* `C109_longer_refuted`: Units that only begin like one are not refused: mg/lb (per pound) is taken for mg/l, and ug/kgsoil for micrograms per kilogram of solution.
* `C10_cube_refuted`: Of a parameter of three dimensions only the first layer arrives, with success reported.
* `C10_default_refuted`: Declared defaults of integer parameters are stored as longs; only the first one arrives.
* `C10_update_refuted`: An array of maximal shape is therefore filled with another layout by the update than by the fetch.
* `C110_default_refuted`: Units without an own one are those of the solution, and those are not checked: a solution in equivalents gives every element in equivalents, which is refused when it is written with the element.
* `C111_default_refuted`: An element in the equivalents of its solution gets as many moles: with calcium in meq/l there is twice as much of it as was meant.
* `C111_equivalents_refuted`: Alkalinity in equivalents per kilogram of solution is left out of the mass of the solution: there is then no mass of solution, made up of the water and the solute, that has the concentration.
* `C111_negative_refuted`: A negative concentration is not reported: the element is just missing.
* `C113_integer_refuted`: With two real variables of one dimension and then an integer of another, the integer is written to the file of the first dimension, after its rows; the file of its own dimension has rows without it.
* `C114_saturated_refuted`: In air that is more than saturated the diffusive part changes its sign: with no equilibrium fractionation, the evaporated water is the heavier one (the largest diffusive fractionation is negative).
* `C115_cold_refuted`: Far below freezing the polynomial for ice turns: colder air holds more.
* `C115_freezing_refuted`: The two polynomials do not meet: air just above freezing holds less vapour than air at freezing.
* `C115_limit_refuted`: Above freezing, a unit that is colder than a saturated station has a relative humidity above one: nothing limits it.
* `C115_mixed_refuted`: Rain and snow get the wet bulb of the largest temperature with the humidity at the mean one, so of air with more vapour than there is (or less, below a colder maximum).
* `C117_leftover_refuted`: With flow, a cell without dispersivity is given a mean dispersivity that is left over from another pair of cells, so what one cell gives is not what the other gets: a tracer that moves into the second of three cells becomes 7/30 more than it was.
* `C118_small_refuted`: Temperatures that differ from that of solution 0 by no more than a degree never even out, whatever the conductivity and the time step.
* `C11_cube_refuted`: With three dimensions success is reported although nothing is transferred.
* `C11_integer_table_refuted`: Integer tables: with arrays of 4-byte integers every table of two columns or more is accessed out of bounds.
* `C11_long_table_refuted`: With arrays of longs only half of an integer table is transferred.
* `C11_storage_refuted`: The storage of the variable is overrun when it holds just the variable and the caller has room for maximal rows.
* `C120_wet_soil_refuted`: More water in the root zone does not mean more evapotranspiration at the edge of saturation, and much more in winter: within one percent of field capacity the share of the vegetation is left out (topmod_chem.F 2508-2514), so a unit without any vegetation, which otherwise loses nothing to the air from its soil, loses the full demand when its soil is wet.
* `C121_first_step_refuted`: C121 finding: the reported error of the water balance of the first step is zero whatever the step did: an error there never shows, in the totals of the first day, month and year or in those of the run.
* `C121_frequency_refuted`: C121 finding: a print frequency above 31 is not refused: all lines but that of the run are printed, whether or not the frequency contains the 1 that stands for it.
* `C121_no_output_refuted`: C121 finding: only the averages of the input are guarded. A month, year or run without evaporation, without outflow or with a dry outlet divides by a volume of zero when its line is printed.
* `C122_backwards_refuted`: C122 finding: a range written backwards, such as "SOLUTION 7-3", is accepted without a message and defines only its first number.
* `C122_letters_refuted`: C122 finding: letters that follow the number without a blank are dropped: "SOLUTION 3M acid" defines number 3 as "acid".
* `C122_negative_refuted`: C122 finding: a negative number alone in a list is always an error, also where negative numbers are allowed, since its sign is taken for the dash of a range.
* `C122_point_refuted`: C122 finding: a description that begins with a point, as in ".5 molar brine", loses its first word.
* `C124_fixed_refuted`: C124 finding: by fixed intervals, a record that begins with a missing day is written to a constant of the program, one of less than eleven days is read before its beginning, and one of less than one interval uses a variable without a value.
* `C124_missing_refuted`: C124 finding: one missing day makes the base flow of every day within half the interval negative, although these days have flows.
* `C124_no_minimum_refuted`: C124 finding: without a local minimum the base flow of every day is -999.
* `C124_rising_refuted`: C124 finding: in a record that rises throughout there is no local minimum, and the base flow of every day is -999.
* `C124_short_local_refuted`: C124 finding: a record shorter than the interval has no base flow at all by local minima.
* `C124_short_refuted`: C124 finding: when the record after its first missing days is not longer than half the interval, the sliding interval reads beyond the end of the record.
* `C124_tail_refuted`: C124 finding: by fixed intervals, a missing day among the last eleven makes the base flow of the last day zero, whatever its flow.
* `C125_alone_refuted`: C125 finding: a quantile found alone is not the one found among several. For one half of an even count it is the lower of the two numbers in the middle.
* `C125_below_refuted`: C125 finding: for a share below one part in the count plus one, as of a flow nearly always exceeded in a short record, the quantile is below all the numbers: the line through the lowest two is drawn on below them.
* `C126_after_refuted`: C126 finding: a period that ends after the last sample has the volume -3.1e37, without an error; the periods made automatically for months and years end a second before midnight, whenever the last sample was.
* `C126_before_refuted`: C126 finding: a period that begins before the first sample is accepted; the line through the first two samples is drawn on backwards, and the volume under it, which may be negative, is added.
* `C128_january_refuted`: C128 finding: a year with 350 samples or more but none in January has a period from the day number 2147483647 on, which does not begin before its end.
* `C128_samples_refuted`: C128 finding: samples are counted, not days: 25 samples of one day are taken for a month, with a period of that day.
* `C12_blank_refuted`: A leading blank in the name is ignored for parameters but not for variables.
* `C12_overflow_refuted`: A number of 2^32 + 1 is accepted as index 1, and its address is far outside.
* `C12_parens_refuted`: What the program's own comment promises, "(2)" for element 2, is refused, and its address lies before the variable.
* `C13_blank_line_refuted`: A blank line among the values is taken as a value 0.
* `C13_note_refuted`: A note before the first value is written before the table of notes.
* `C13_notes_refuted`: Of two note lines on a value only the last is kept.
* `C13_round_trip_refuted`: What the program writes it cannot read: after every value there is a blank, so that the newline is taken as another value.
* `C13_undeclared_refuted`: A file that ends with a parameter nobody declared is closed twice.
* `C14_glued_refuted`: A comment glued to the text is looked for before the line.
* `C14_integer_refuted`: control_integer delivers the lowest byte only.
* `C14_last_line_refuted`: A last text without newline loses its last character.
* `C14_long_comment_refuted`: The 50th and later characters of a comment before a name are taken as the name.
* `C14_negative_refuted`: A negative index is not refused.
* `C14_overflow_refuted`: More values than the storage of a declared variable has room for are written outside of it.
* `C14_two_blanks_refuted`: Two blanks before the comment of a name make another name of it.
* `C15_debug_refuted`: The argument of -debug is taken as the control file as well, unless another one follows.
* `C15_many_refuted`: More than 100 -set are written outside of the tables.
* `C15_override_refuted`: More values than the variable has room for are written outside of it.
* `C15_truncated_refuted`: Options without their arguments are read beyond the end.
* `C15_unknown_refuted`: An option the program does not know is taken as the control file.
* `C16_count_refuted`: The counter after an error: the record that found the next one bad is counted but not executed.
* `C16_empty_line_refuted`: An empty line that ends the file before the start of the window is an error; later it is the end of the file.
* `C16_length_refuted`: A second record at the same time is a step of a whole day.
* `C16_order_refuted`: The order of the steps: a file that goes back before the start of the window afterwards runs backwards unnoticed.
* `C17_crash_refuted`: After the first file has ended, a record of another file on its last day makes the reader use a closed file.
* `C17_first_file_refuted`: The end of the first file ends the run, although others have records inside the window.
* `C17_same_day_refuted`: Two files with the same day: the earlier record is dropped.
* `C18_calendar_refuted`: Nor are days that the month does not have.
* `C18_seconds_refuted`: Seconds above 59 are not refused, however large.
* `C19_cut_number_refuted`: A checkpoint cut off inside a number restores a value that nobody stored.
* `C19_cut_unnoticed_refuted`: A checkpoint cut off between two variables is taken for a whole one.
* `C19_integers_refuted`: Integers of a Fortran module have four bytes each, but are saved as longs: the writer leaves the storage.
* `C19_long_name_refuted`: A variable whose name has 49 characters or more is silently not restored.
* `C19_long_title_refuted`: A title of 79 characters or more: its end is read as the step count.
* `C19_mismatch_refuted`: An error at one variable leaves the variables before it replaced.
* `C19_more_dimensions_refuted`: A variable with one dimension here and two in the file: the reader leaves the array of dimensions.
* `C19_no_dimension_refuted`: A variable without dimensions is written, but cannot be read back.
* `C19_refused_steps_refuted`: A refused checkpoint has already replaced the step count and the step length.
* `C19_step_length_refuted`: The step length does not come back exactly: a step of an hour is a twenty-fourth of a day.
* `C20_data_error_refuted`: a data error (a record that goes back in time: code 100) ends the run as success.
* `C20_declare_failure_refuted`: a failing declare phase does not prevent the later phases.
* `C20_exit_status_refuted`: the exit status does not tell success from failure.
* `C24_crash_refuted`: A run ended by a foreign exception does not end the script.
* `C24_repeat_refuted`: "Since the previous run" fails when no line was accumulated in between: the old script runs again.
* `C25_failed_load_refuted`: After a load whose test run failed - the load returns an error - runs are still executed.
* `C25_switches_refuted`: A foreign exception during loading leaves the file switches off.
* `C26_load_refuted`: A failed load has an error text but no error lines.
* `C26_stale_refuted`: Accumulating a line, or reading a cell, empties the error text but keeps the lines.
* `C26_stopped_refuted`: A stopped run has output text but no output lines.
* `C27_round_trip_refuted`: Trailing characters above 127 are removed by the conversion to C as if they were blanks.
* `C28_string_refuted`: So output switched on for number 2 is lost when number 1 is current.
* `C29_own_refuted`: assigning a variant its own characters reads a released buffer.
* `C29_self_refuted`: a variant assigned to itself becomes empty.
* `C30_exact_dilution_refuted`: it is not exactly the mixture, because six digits are printed.
* `C30_failure_ignored_refuted`: a failed preparation does not stop the run: what was accumulated before is run.
* `C30_fill_factor_refuted`: a fill factor of zero or less is only reported; with zero the engine is sent an infinite factor after the first mix has been done.
* `C31_second_negative_refuted`: with another negative entry the factor is that of the last negative solution and is used for all of them.
* `C33_elements_refuted`: two redox states of one element in a formula: only the last one is counted.
* `C33_negative_refuted`: negative dimensions are accepted (signed and unsigned are compared).
* `C33_one_short_refuted`: with one row missing the array is accepted, the row of moles overwrites the next column and runs past the end.
* `C34_intensive_refuted`: Refuted for names the second composition does not have: they keep their full value.
* `C34_merge_state_refuted`: merging ferrous iron deletes fluoride and keeps the iron total, so iron counts twice.
* `C35_empty_name_refuted`: Refuted for an entry without a name: the following amounts are shifted.
* `C35_long_word_refuted`: Refuted for long words: the rest of the text is lost.
* `C36_empty_mode_refuted`: an empty mode is meant to be DAILY; it is NUL padded and so unknown.
* `C36_precip_refuted`: whatever precipitation module is configured, precip_web is the one called, and the climate distribution stays 1; an invalid name is kept although a reset is announced.
* `C36_unknown_mode_refuted`: an unknown mode is not refused. The declare phase reports success, and the run then initializes and runs all modules, none of which was declared.
* `C38_diversion_refuted`: The volume taken from the stream is not the volume the hillslopes will receive: the depth is looked up with the segment number instead of the schedule number, and capped by the pump.
* `C38_loss_refuted`: The loss to the aquifer is reported but the water stays in the channel.
* `C38_stuck_refuted`: Initial diversion water may be put into a segment beyond the length of its channel; it then stays there for ever.
* `C39_repeated_distance_refuted`: Two points at the same farthest distance: the last ordinate misses area, so water is lost.
* `C40_skipped_january_refuted`: A run whose data skip 1 January keeps last year's February: the month is closed on 28 February of a leap year.
* `C41_grass_refuted`: It also fails for grass (cover type 1): when rain falls on a snow pack the water stored on the canopy is set to zero and is lost.
* `C41_leaf_fall_refuted`: The full balance fails at leaf fall: on the first step after the transpiration period the stored water is weighted with the smaller winter cover and the difference appears neither as evaporation nor as net precipitation.
* `C42_first_step_refuted`: ... but on the first step it is counted twice: once when the amounts for the first day are set, and once when they are applied. irrig_web.F:418-420, 466-468.
* `C42_flags_refuted`: The flag for new snow that is left after this step is 1065353216, the bits of 1.0, and the rain part of a day of rain is less than 1e-44: irrig_web.F 51-52 declares the two variables with each other's type.
* `C42_mixed_refuted`: On a day of rain and snow everything becomes snow: the rain part is assigned to prmx, which irrig_web.F 52 declares as an integer, and its fraction is dropped. irrig_web.F:540-568.
* `C42_schedule_refuted`: The schedules of internal irrigation have no effect: on every day a hillslope receives the amount given for the first day. The arrays with the amounts decided for the next step belong to the modules that decide, and are not copied (irrig_web.F:317-318, 352-356, 240).
* `C42_uninitialised_refuted`: Without internal irrigation in the simulation, whatever memory holds is deposited.
* `C44_assignment_refuted`: Without that restriction the loop and the decoder disagree: two hillslopes, the first with one bin fewer. The saturated zone of hillslope 1 is initialised on another row than the one every later step uses, and the decoder's row holds a different reservoir.
* `C45_kept_refuted`: After a negative fraction of evaporation or of a snow ionic pulse, every negative fraction of the same mix is left as it is.
* `C45_zeroing_refuted`: The exception is real: after a negative evaporation fraction, a negative fraction of any other reservoir is left in the mix and accepted.
* `C46_holding_capacity_refuted`: C46, the holding-capacity part over a whole interval is false: sublimation shrinks the pack while a pack with a heat deficit keeps its liquid water, so a pack that starts within its holding capacity ends above it.
* `C47_one_lag_refuted`: C47 fails with a lag array of one element, which is the declared default of the dimension nexlag (call_modules_webmod.F 404): whenever the excess is lagged the routine accesses an element outside the array.
* `C51_ground_melt_refuted`: C51, the daily ground melt is not applied at a fixed rate: with partial snow cover every interval multiplies the remaining intervals' ground melt by the cover fraction.
* `C52_overrun_refuted`: Without a directory, a directory variable shorter than the name variable is overrun.
* `C52_result_refuted`: The result is computed by looking for a NUL in the blank padded directory variable: whatever the path with a directory, the code reads past a variable that is exactly as long as announced.
* `C53_several_refuted`: With several files the variables are those of the last header, whatever the others say.
* `C53_title_refuted`: A first line of 80 characters or more is cut, and its rest is read as a variable.
* `C54_endless_refuted`: A copy whose last target is -1, such as "COPY solution 1 -3--1", never ends.
* `C54_negative_refuted`: A copy to a range from a negative to a non-negative number, such as "COPY solution 1 -3-5", copies nothing.
* `C54_overwrites_refuted`: A copy to a range that ends below -1 and begins at zero or above, such as "COPY solution 1 5--3", overwrites the reactants of every other number an int can hold.
* `C54_unset_refuted`: A source that is only a sign or a point passes as a number and an unset variable is used.
* `C55_ignored_refuted`: What follows a range in the same word is ignored; "&" stands for the sign of a number.
* `C55_largest_refuted`: A range that ends with the largest int overflows its counter.
* `C55_too_large_refuted`: A number that does not fit an int adds nothing, but the kind counts as named.
* `C56_half_refuted`: A block that ends in an unknown option is reported as wrong; what comes before is still removed.
* `C56_narrowed_refuted`: A number after "-all" (or after the bare kind) narrows the choice instead of adding to it: only that number goes.
* `C56_too_large_refuted`: A number that does not fit an int, or a lone point, removes every reactant of the kind.
* `C57_cells_refuted`: "-cells" without numbers, which removes everything in a DELETE block, writes nothing in a DUMP block.
* `C57_repeated_refuted`: A block with only "-file" or "-append" repeats the choice of the block before.
* `C58_cancel_refuted`: When the water cancels (or there is none) the weights divide by zero.
* `C58_multiply_zero_refuted`: Scaling by zero leaves the solution as it is.
* `C58_ratio_refuted`: The isotope ratios of a mixture are not averages: the ratio of the first solution is kept whole and that of the second is added with its weight, so mixing equal halves of two waters with the same ratio r gives 1.5 r.
* `C58_species_refuted`: A species that only the later solution has keeps its whole concentration in the mixture instead of being diluted.
* `C59_area_refuted`: The area of a mixed surface (area per gram times grams) is not conserved: the area per gram is weighted by area, not by mass, so 1 g of 1 m2/g and 1 g of 3 m2/g become 2 g of 2.5 m2/g, 5 m2 instead of 4.
* `C59_formula_refuted`: Phases with the same name but different add formulas: the amount in the later assemblage is lost (an error is counted, but the mixture is made).
* `C59_gas_types_refuted`: Gas phases of different types: the mixture is left without any component, although its total of moles counts the first.
* `C59_init_moles_refuted`: A component of a solid solution that only the later assemblage has keeps its whole starting amount (init_moles), while its other amounts are scaled.
* `C60_dropped_refuted`: Drainable water of less than 1e-7 m that would stay in a bin is set to 0 without being added to any flow (topmod_chem.F 2494).
* `C60_irrigation_refuted`: Water pumped from the ground for irrigation is left out of the balance the program prints at the end of a run: the figure, which should be 0, is at least the amount pumped (topmod_chem.F 2997-2999 against 2779-2781).
* `C61_theta_refuted`: An initial soil moisture below the wilting point is not rejected: only s_theta_0 > s_theta_fc is checked (topmod_chem.F 1902), although the comment at line 96 asks for wp < theta < fc. Evapotranspiration is then negative: the model creates water.
* `C63_base_floor_refuted`: Base flow is never below 1e-5 m in a unit with tile drains, also where it was found to be zero (topmod_chem.F 2777 against 2731): the water table goes on falling.
* `C63_base_parabolic_refuted`: With parabolic decay it does not: beyond the largest deficit SZM, which pumping can reach, base flow grows with the deficit, because the square is taken of a negative number (topmod_chem.F 2721-2722).
* `C63_drain_cap_refuted`: A tile drain can take more than the water above it: the check against draining below the drain is skipped when the water table of the step before was at or below the drain, because the recharge is added and then taken off again (topmod_chem.F 2756-2760).
* `C63_drain_jump_refuted`: With a time step of other than one hour the flow of the tile drains jumps when the water table reaches the top of the drained zone: the rate is multiplied by the length of the step there and not below it (topmod_chem.F 2744, 2746).
* `C64_hydrate_in_group_refuted`: A hydrate inside parentheses with a subscript is rejected: the part behind the colon also consumes the closing parenthesis and then meets the number (parse.cpp:643-668).
* `C64_open_bracket_refuted`: A text that ends with an opening bracket makes get_elt read behind its end (parse.cpp:506-517).
* `C64_point_refuted`: A lone decimal point counts as the number zero: the element disappears without a message (parse.cpp:953-981).
* `C64_two_colons_refuted`: With two hydrate parts the second is multiplied by both numbers: the parser reads everything behind the first colon as one formula (parse.cpp:643-668), so A:2B:3C counts six C.
* `C65_first_constant_refuted`: The first reaction that is added is not multiplied: its tokens are, its constants are not (structures.cpp:2019-2023).
* `C65_short_combine_refuted`: Combining a reaction of fewer than two tokens declares two: whatever the vector holds in the second place becomes part of the reaction, or, in a vector of one, memory behind it (structures.cpp:2124, 2171).
* `C65_small_dropped_refuted`: A sum of at most 1e-5 is dropped: a reaction that needs that species no longer mentions it (structures.cpp:2131-2132).
* `C65_swap_overrun_refuted`: Solving for a species when the vector holds no more than the tokens writes one element behind its end (structures.cpp:2399-2401).
* `C66_junk_refuted`: Characters behind a fraction are ignored: +2.5+ is a charge of 2.5 and its text keeps the extra sign (parse.cpp:337-362).
* `C66_octal_refuted`: A leading zero makes the number octal (strtol with base 0, parse.cpp:328): +010 is a charge of 8, and +08 is refused.
* `C66_overflow_refuted`: A charge beyond an int changes its value and even its sign: +4294967295 is read as -1 and written as "+" (parse.cpp:328).
* `C67_empty_left_refuted`: An equation without a species on the left is read, and checked from the first species on the right.
* `C67_second_state_refuted`: Only the first "(s)" goes: with a second one, the remaining text is not a formula any more and the equation is refused (utilities.cpp:682-722).
* `C67_state_refuted`: A sulfur atom in parentheses is taken for the state of a solid: Fe(S)2, defined by an equation, is recorded as Fe2, two iron atoms and no sulfur (parse.cpp:128-135, utilities.cpp:682-722).
* `C68_division_refuted`: When such throughfall is all that reaches the ground and some of it bypasses the soil, the share of the bypass is a division by zero (webmod_res.F 2894-2898; the comment there takes v_surfdep2 to be positive).
* `C68_dropped_refuted`: Throughfall of less than a litre is dropped from the canopy's outflow (webmod_res.F 2627-2628), so the reservoirs no longer add up to the total of the unit.
* `C70_diverted_refuted`: Water diverted from a stream or lost from it is taken from the volume of the basin but not from the segments: the statements that did that are commented out (webmod_res.F 3439-3451). The same water is counted as diverted and flows on to the outlet.
* `C70_start_refuted`: Initial volumes of the segments: the depths of [q] are over the whole basin (route_clark.F 651 adds Q0DT * chan_area_frac), but each is multiplied with the area of its channel (webmod_res.F 1619-1624). With two channels water is missing from the start.
* `C72_largest_refuted`: Packing up to the largest int is undefined: the loop variable overflows after the last number (Serializer.cxx:30).
* `C72_lost_refuted`: The viscosity of pure water at the solution's temperature, the flag that asks for the viscosity of the diffuse layer and its map of charges are not sent (Solution.cxx:1597-1613, Surface.cxx:752-763, SurfaceCharge.cxx:496-533): the first arrives as 1, the second as false, the third empty.
* `C72_nameless_refuted`: An amount without a name is written, but when read it is skipped without its number (NameDouble.cxx:529-535): the amount after it gets that number, and everything that follows is out of step.
* `C73_long_refuted`: A word of 256 characters and all words after it are lost when the dictionary is rebuilt from its text (Dictionary.cpp:17-22).
* `C74_mid_refuted`: MID$ with a start behind the end of the text throws an exception that nothing catches.
* `C74_mod_refuted`: MOD adds 1e-14 to the dividend: a multiple of the divisor leaves 1e-14, not zero, and so never compares equal to zero.
* `C74_names_refuted`: Names that agree in their first twenty characters are the same variable, without a message. PBasic.cpp:720-740 (toklength, 24).
* `C74_sign_refuted`: A minus binds tighter than a power: -a^k with an even k is the positive power, not the negative of it.
* `C74_trim_refuted`: INSTR, TRIM, LTRIM and RTRIM take a factor where the manual shows a string: a sum of texts is a syntax error there.
* `C74_val_refuted`: Such an evaluation has no result, for any number of nested calls.
* `C74_zero_refuted`: Zero to any power is zero, also to the power zero (where C and PHREEQC's own arithmetic give one) and to negative powers.
* `C75_nested_refuted`: The count of the subscripts at a first use stops at a comma of an inner array: a(b(1,2),3) makes [a] an array of one dimension and then fails, although both arrays could be made.
* `C76_element_refuted`: A loop over an element of an array counts in whichever element of the array was used last: with [for a(1)=1 to 2], where the body uses a(5) after a(1), the body runs three times and a(1) is 1 in each of them. PBasic.cpp:6300-6344 ([*l_loop->vp->UU.U0.val], the pointer that findvar moves, 2050-2110).
* `C76_skip_refuted`: A loop that is to be skipped ends at the NEXT of a loop inside it if that loop has the same variable and its NEXT has no name: the rest is executed, and here the second NEXT is an error. PBasic.cpp:6245-6287.
* `C77_dangling_refuted`: RENUM keeps the number of a jump to a line that does not exist, so that the jump may name one of the renumbered lines afterwards: 10 goto 20; 15 end, which is an error, becomes 10 goto 20; 20 end, which ends.
* `C77_quote_refuted`: A semicolon inside a quoted text cuts the line in the same way: the line [10 print "a;b"] becomes the lines [10 print "a] and [b"]. PBasic.cpp:393-425.
* `C78_far_refuted`: PUT keeps a subscript in an int and GET in a long: a value put at 2147483648 or beyond is not found there. PBasic.cpp:5589-5620 (int j), 2740-2780.
* `C79_gosub_refuted`: ON ... GOSUB with a number that selects nothing goes on to the next statement too, but leaves a record of a call behind: a NEXT or a WEND of a loop around it fails, and the next RETURN goes back to this place. PBasic.cpp:6643-6683 (the record is pushed before the list is looked at).
* `C80_hourly_refuted`: Finding: with steps shorter than a day the temperature that is read is not used in the other unit. With data in degrees Fahrenheit (temp_units = 0) tsta_temp_c is the mean of the day's highest and lowest temperature whatever tsta_temp_f is, so all hourly temperatures of hillslopes are those of the day; with data in degrees Celsius the same holds for tsta_temp_f.
* `C80_order_refuted`: Finding: nothing keeps a hillslope's highest temperature of the day at or above its lowest: with the two lapse rates (or adjustments) different it is below on every day whose range at the station is less than the difference of the two corrections.
* `C81_start_refuted`: Finding: until the run is as long as the window, days before it count as 0 degrees C: at a constant temperature t the reaction temperature of step n is t * n / days, not t, so that with a window of a year the soil warms up from freezing during the first year of every run.
* `C82_late_refuted`: Finding: if the sum has not exceeded the index by the first day of the last month, that day does not end the wait: temperatures are added on, whatever the dates, and transpiration begins out of season and stays on until the first day of the last month of the next year.
* `C82_same_month_refuted`: Finding: with the same first and last month transpiration, once on, never ends.
* `C84_december_refuted`: Finding: in a run that starts on 21 December the end of the year's last period is never met: the potential radiation of the n-th day after is extrapolated from the line of the days from 3 to 21 December, for at least a year, so that after a year it is off by 20 times the change of those 18 days.
* `C84_leap_december_refuted`: Finding: if that 21 December is in a leap year the extrapolation goes on for four years, as the place waits for a 366th day.
* `C85_dark_refuted`: Finding: on days on which the sun does not reach the first hillslope no hillslope has a radiation: all are divided by zero.
* `C85_first_refuted`: Finding: the first hillslope stands for level ground (horad = Drad(1)): its radiation is the observed one divided by the cosine of its slope, whatever its own potential radiation, that is whatever its aspect; that of all others is relative to it.
* `C88_outlet_refuted`: Moles that are left do not add up in the same way: the water that leaves the basin at the outlet is entered among the moles left in the streams, although it is not entered in their volume, and not among the moles left in the basin (phreeq_mms.F90, 10880 and 10899).
* `C89_delta_refuted`: The delta of the second isotope is never what the mix returned: the entry that is read is the logarithm of a fractionation factor of the first isotope (10856, with the layout of 3783-3801).
* `C90_moles_refuted`: The moles that a segment received are overstated: to the moles from its hillslopes and those that came with the water passed on (conc) are added the moles that the segment above lost to diversions and leakage and twice the moles that left it (10750, then 9228 again).
* `C90_streams_refuted`: What entered and what is left are wrong: water passed from segment to segment is entered as received by the streams (9228), and the water left in the streams is not the sum over the segments but the diversions and leakages above the outlet plus the water in segment 1 (10814 assigns instead of adding). With three segments or more, no diversions and no leakage, and water in segment 2, both differ from the truth.
* `C91_final_refuted`: The final temperature of a hillslope is weighted with the wrong volumes: a reservoir that exports v m3 and keeps r m3 enters v times its temperature, and r in the volume (10684 and 10826-10845). A hillslope with one such reservoir reports the temperature times v / r.
* `C91_net_refuted`: A variable for the net change (metric 6) reads the temperature and the pH beyond the end of their arrays (11084-11085), which have five elements.
* `C91_out_refuted`: The outflow is not averaged like that: groundwater lost from a hillslope is added to the volume but not to the temperature (8784-8798), so a hillslope that loses nothing but groundwater reports an outflow at 0 degrees, whatever the temperature of the groundwater.
* `C91_stale_refuted`: The final concentration of a step is the quotient of the moles of the step before by the volume of this step (9521 comes before 9525); the first report divides what the variable held before the run.
* `C91_vartemp_refuted`: The temperature of inputs in such a variable is not a temperature: after one input of v m3 at t degrees into a reservoir the variable is t times v.
* `C92_after_equal_refuted`: Amounts on a line after "v in n steps" are read without a message and then never used.
* `C92_two_units_refuted`: REACTION keeps one unit for all its amounts: with amounts on two lines in two units, the unit of the second line is applied to the amounts of the first, without a message ("1 mol" and then "1 mmol" adds 1 mmol in the first step).
* `C93_no_count_refuted`: KINETICS "-steps v in" with no number, or with 0: no message, and with INCREMENTAL_REACTIONS every step then lasts no time at all, while without it every step lasts v.
* `C93_unit_lost_refuted`: KINETICS "-steps v day in n steps": the word "steps" after the number of increments is taken as the unit of time, in place of the one given, and stands for seconds, so the total is v seconds. The same for every unit, every number and every word that does not start with i, m, h, d or y.
* `C96_mix_refuted`: The cells that the MIX of a cell names do not all have the same state: in one shift, a MIX that names the cell just before finds its solution from before its reaction of this shift, and a MIX that names the cell before that one finds it after. Here cell 2 mixes cell 1 and cell 3 mixes cell 1 as well, with the same reaction, and they get different solutions.
* `C96_no_cells_refuted`: With no cells, ADVECTION does not leave solution 0 alone: at each shift solution -2, which an earlier reaction left there, is put in the place of solution 0.
* `C98_columns_refuted`: One more numeric column of selected output than the array has elements (two for pH and temperature, one for each solute, three for each isotope) is written beyond its end.
* `C98_failed_reaction_refuted`: A reaction that fails is not reported: phr_mix puts the codes of reading the table over the result of RunMixF, and the one row of the mixture is taken for the answer to a request without reactants. For every request with reactants and every number of errors, phr_mix answers 0 and gives the mixture before the reaction; webmod goes on with it.
* `C98_temperature_refuted`: phr_mix clears its argument for the temperature before it hands it on: a REACTION_TEMPERATURE that a request names is set to -987654336 degrees, whatever temperature the caller gives.
* `C99_missing_refuted`: A source that does not exist is no error: the target keeps what it had.
* `C99_ten_digits_refuted`: Ten digits are allowed for a number, and both numbers are printed without a blank between them: a target of ten digits runs into the source, the line has one number, and neither this pair nor a later one is copied.

### Without a theorem of their own

Seen while modelling; each is visible in the cited model definition.

* Routing: the depth of the next internal irrigation is looked up with the segment number
  (route_clark.F 882), the volume is not capped (893); the last segment's maximal loss is zero
  when the segment count is an integer (710-712); with no routing ordinates AR(1) is undefined.
* Run: the default `model_mode` is itself unknown to the dispatcher; `precip_module` is read and
  ignored because the branches 91-99 are swapped.
* Mix: the fill factor is only reported when it is not positive.
* SelOut: an end of row before any column is not counted.
* Inst: output files are truncated before the database check; `get_sel_out_string_on` ignores its
  argument; reading a cell clears the error text but not its lines.
* Reg: ids wrap after 2^31 creations; an exception in the constructor after registration would
  leave a dangling entry.
* Variant: `VarInit` over a string leaks it.
* Elem: text after the closing parenthesis is ignored; names of 80 and indices of 20 characters
  overrun their buffers.
* Pget: a type mismatch between declaration and request is not noticed.
* Ctrl: `control_var_size` of an unknown name is 1; the type of an existing variable is not compared
  with the type in the file; `control_string_` pads with NUL instead of blanks.
* Args: `-set` with more values than the variable has overruns it.
* Data: errors while the merge reads ahead are only printed; a duplicate variable in the header
  gets no values of its own.
* Ckpt: the last julian time is written and never read; a variable missing from the file is not
  noticed.

### Meaning of seeded/LOG.jsonl

Each line is one edit of the model in a scratch copy.  `theorems_failed` are the theorems whose
proof chain no longer compiles after the edit, found by admitting every lemma that breaks and
printing the assumptions of each theorem.  Edits that leave the behaviour unchanged, or repair
a finding, are marked as such in `claim`; they are there to see that the theorems do not depend
on the wording of the model.

## 6. Assumptions report

`Print Assumptions` follows every property theorem in the `*_Props.v` files.  For all 826
theorems it prints `Closed under the global context`: no axiom of the standard library is used.

* C01: `C01_julday_anchor`, `C01_julday_counts_days`, `C01_julday_injective`, `C01_julday_order`
* C02: `C02_isleap_01`, `C02_isleap_rule`, `C02_isleap_year_length`, `C02_weekday_advances`, `C02_weekday_anchor`, `C02_weekday_of_date_refuted`
* C03: `C03_day_of_year`, `C03_fractional_day_of_year`, `C03_fractional_spring_refuted`, `C03_year_one_refuted`
* C04: `C04_codes`, `C04_declfix_partial`, `C04_declfix_refused_refuted`, `C04_declfix_refuted`, `C04_getdim`, `C04_refused_unchanged`, `C04_sorted`
* C05: `C05_codes_partial`, `C05_illegal_type_refuted`, `C05_lookup_partial`, `C05_refused_declaration_refuted`
* C06: `C06_illegal_type_refuted`, `C06_refused_stays_refuted`, `C06_registry`, `C06_undeclared_dimension_refuted`
* C07: `C07_empty_refuted`, `C07_expansion`, `C07_malformed_refuted`, `C07_refused`
* C08: `C08_bounds`, `C08_success`
* C09: `C09_descriptions_refuted`, `C09_from_zero_refuted`, `C09_history`, `C09_kept`, `C09_names`, `C09_new`, `C09_to_zero_refuted`, `C09_twice_refuted`, `C09_values`, `C09_variables`
* C100: `C100_blanks_refuted`, `C100_columns`, `C100_constant_refuted`, `C100_many_refuted`, `C100_no_unit_refuted`, `C100_solute_refuted`, `C100_unknown`
* C101: `C101_constant_refuted`, `C101_field_refuted`, `C101_in_step`, `C101_pure`, `C101_short_refuted`, `C101_values`
* C102: `C102_constant_refuted`, `C102_sources`
* C103: `C103_dos`, `C103_lines`, `C103_no_file`, `C103_remark_refuted`, `C103_return`, `C103_two_backslashes`
* C104: `C104_keyword`, `C104_option`
* C105: `C105_abbreviation`, `C105_ambiguous_refuted`, `C105_data`, `C105_overrun_refuted`, `C105_unknown`, `C105_value`, `C105_whole`
* C106: `C106_bad`, `C106_last`, `C106_no`, `C106_silent_refuted`, `C106_unknown`, `C106_unset_refuted`
* C107: `C107_attempts`, `C107_count_refuted`, `C107_give_up`, `C107_none_refuted`, `C107_pitzer_refuted`, `C107_success`
* C108: `C108_density_refuted`, `C108_fixed_volume_refuted`, `C108_initial`, `C108_none_refuted`, `C108_recovers`, `C108_settings`, `C108_thrown_refuted`
* C109: `C109_longer_refuted`, `C109_parts`, `C109_refused`, `C109_spelling`, `C109_standard`
* C10: `C10_cube_refuted`, `C10_default_refuted`, `C10_integer_table`, `C10_integers`, `C10_list`, `C10_refused`, `C10_table`, `C10_update`, `C10_update_refuted`
* C110: `C110_compatible`, `C110_default_refuted`
* C111: `C111_default_refuted`, `C111_equivalents_refuted`, `C111_isotopes`, `C111_iterated`, `C111_negative_refuted`, `C111_reported`, `C111_solution`, `C111_water`
* C112: `C112_file`, `C112_unknown`
* C113: `C113_dimensions`, `C113_integer_refuted`, `C113_one_dimension`, `C113_real`
* C114: `C114_lighter`, `C114_moles`, `C114_other`, `C114_rayleigh`, `C114_saturated_refuted`, `C114_unchanged`
* C115: `C115_cold_refuted`, `C115_freezing_refuted`, `C115_increasing`, `C115_limit_refuted`, `C115_mixed_refuted`, `C115_positive`, `C115_precipitation`, `C115_saturated`, `C115_slope`, `C115_vapour`, `C115_wet_bulb`
* C116: `C116_balanced`, `C116_fractions`, `C116_lengths`, `C116_none`, `C116_value`
* C117: `C117_balance`, `C117_closed`, `C117_diffusion`, `C117_flux`, `C117_leftover_refuted`, `C117_mix`, `C117_piston`, `C117_range`, `C117_shift`, `C117_start`
* C118: `C118_closed`, `C118_range`, `C118_small_refuted`, `C118_sum`, `C118_takes_place`, `C118_value`
* C119: `C119_cold`, `C119_deficit`, `C119_deficit_sign`, `C119_dry`, `C119_index`, `C119_period_values`, `C119_periods`, `C119_rain`, `C119_sublimation`, `C119_warmer`
* C11: `C11_cube_refuted`, `C11_element`, `C11_integer_table_refuted`, `C11_list`, `C11_long_table_refuted`, `C11_put`, `C11_refused`, `C11_safe`, `C11_storage_refuted`, `C11_table`
* C120: `C120_base`, `C120_capacities`, `C120_direct`, `C120_index`, `C120_leakage`, `C120_macropores`, `C120_mean_deficit`, `C120_stream`, `C120_transpiration`, `C120_wet_soil_refuted`, `C120_wilted`
* C121: `C121_balance`, `C121_daily_steps`, `C121_error`, `C121_error_shows`, `C121_extremes`, `C121_first_step_refuted`, `C121_frequency_refuted`, `C121_lines_add_up`, `C121_means`, `C121_no_input`, `C121_no_output_refuted`, `C121_objectives`, `C121_run_error`, `C121_run_line`, `C121_switches`, `C121_totals`, `C121_water_only`, `C121_watts`, `C121_weighted`
* C122: `C122_backwards_refuted`, `C122_copies`, `C122_letters_refuted`, `C122_list`, `C122_negative_refuted`, `C122_no_number`, `C122_number`, `C122_ordered`, `C122_point_refuted`, `C122_positive`, `C122_range`
* C123: `C123_days`, `C123_numbers`, `C123_order`, `C123_seconds`, `C123_water_year`, `C123_years`
* C124: `C124_between`, `C124_ends`, `C124_fixed`, `C124_fixed_refuted`, `C124_interval`, `C124_local`, `C124_missing_refuted`, `C124_no_minimum_refuted`, `C124_one_minimum`, `C124_rising_refuted`, `C124_short_local_refuted`, `C124_short_refuted`, `C124_sliding`, `C124_sliding_within`, `C124_tail_refuted`
* C125: `C125_alone_refuted`, `C125_below_refuted`, `C125_half`, `C125_median`, `C125_monotone`, `C125_quantile`, `C125_sort`
* C126: `C126_add`, `C126_after_refuted`, `C126_before_refuted`, `C126_bounds`, `C126_line`
* C127: `C127_one`, `C127_time_base`, `C127_within`
* C128: `C128_annual`, `C128_january_refuted`, `C128_monthly`, `C128_order`, `C128_samples_refuted`
* C12: `C12_address`, `C12_blank_refuted`, `C12_check`, `C12_check_defined`, `C12_codes`, `C12_distinct`, `C12_injective`, `C12_inside`, `C12_onto`, `C12_overflow_refuted`, `C12_parens_refuted`
* C13: `C13_blank_line_refuted`, `C13_file`, `C13_integer_value`, `C13_integers`, `C13_note_refuted`, `C13_notes_refuted`, `C13_round_trip_refuted`, `C13_undeclared_refuted`, `C13_values`
* C14: `C14_comments`, `C14_declare`, `C14_file`, `C14_glued_refuted`, `C14_integer_refuted`, `C14_last_line_refuted`, `C14_long_comment_refuted`, `C14_lookup`, `C14_missing`, `C14_negative_refuted`, `C14_overflow_refuted`, `C14_string`, `C14_two_blanks_refuted`
* C15: `C15_debug_refuted`, `C15_many_refuted`, `C15_model_name`, `C15_override`, `C15_override_refuted`, `C15_settings`, `C15_truncated_refuted`, `C15_unknown_refuted`
* C16: `C16_count_refuted`, `C16_empty_line_refuted`, `C16_length_refuted`, `C16_order_refuted`, `C16_restart`, `C16_run`, `C16_steps`, `C16_window`
* C17: `C17_all_used`, `C17_crash_refuted`, `C17_first_file_refuted`, `C17_merge`, `C17_same_day_refuted`
* C18: `C18_accepted`, `C18_calendar_refuted`, `C18_refused`, `C18_seconds_refuted`, `C18_stops`
* C19: `C19_cut`, `C19_cut_number_refuted`, `C19_cut_unnoticed_refuted`, `C19_integers_refuted`, `C19_long_name_refuted`, `C19_long_title_refuted`, `C19_mismatch_refuted`, `C19_more_dimensions_refuted`, `C19_no_dimension_refuted`, `C19_other_declaration`, `C19_refused`, `C19_refused_steps_refuted`, `C19_round_trip`, `C19_step_length_refuted`
* C20: `C20_accepted`, `C20_counts`, `C20_data_error_refuted`, `C20_declare_failure_refuted`, `C20_exit_status_refuted`, `C20_life`, `C20_no_preparation`, `C20_success`
* C21: `C21_growable`
* C22: `C22_bad_id`, `C22_fresh`, `C22_good_id`, `C22_independent`, `C22_instances`
* C23: `C23_append`, `C23_numeric`, `C23_row_copy`, `C23_table`
* C24: `C24_crash_refuted`, `C24_discarded`, `C24_fresh`, `C24_repeat_refuted`, `C24_script`
* C25: `C25_executed`, `C25_failed_load_refuted`, `C25_load`, `C25_refused`, `C25_switches_refuted`
* C26: `C26_errors`, `C26_line`, `C26_load_refuted`, `C26_lookup`, `C26_output`, `C26_split`, `C26_stale_refuted`, `C26_stopped_refuted`
* C27: `C27_convert`, `C27_convert_total`, `C27_copy`, `C27_copy_length`, `C27_round_trip`, `C27_round_trip_module`, `C27_round_trip_refuted`, `C27_trim`, `C27_value`, `C27_value2`, `C27_value2_unterminated`, `C27_value_kind`
* C28: `C28_file`, `C28_string_current`, `C28_string_partial`, `C28_string_refuted`
* C29: `C29_copy`, `C29_own_refuted`, `C29_released`, `C29_self_refuted`, `C29_values`
* C30: `C30_conservative`, `C30_exact_dilution_refuted`, `C30_failure_ignored_refuted`, `C30_fill_factor_refuted`, `C30_net_dilution`, `C30_reactive`, `C30_settings`, `C30_settings_complete`
* C31: `C31_remaining`, `C31_removed`, `C31_second_negative_refuted`
* C32: `C32_conserved`, `C32_defined`, `C32_fractions`, `C32_isotopes`, `C32_per_kg`, `C32_split`
* C33: `C33_array`, `C33_cleared`, `C33_elements`, `C33_elements_refuted`, `C33_headings`, `C33_negative_refuted`, `C33_once`, `C33_one_short_refuted`, `C33_refused`
* C34: `C34_add`, `C34_add_extensive`, `C34_from_coefs`, `C34_intensive`, `C34_intensive_refuted`, `C34_merge_state_partial`, `C34_merge_state_refuted`, `C34_merge_totals`, `C34_multiply`, `C34_scaled`, `C34_simplify`, `C34_simplify_skips`, `C34_total`, `C34_totals_add`
* C35: `C35_empty_name_refuted`, `C35_long_word_refuted`, `C35_numbers`, `C35_round_trip`, `C35_stable`, `C35_text`
* C36: `C36_declare`, `C36_each_once`, `C36_empty_mode_refuted`, `C36_modes`, `C36_name_mode`, `C36_phase`, `C36_precip_refuted`, `C36_unknown_declares_nothing`, `C36_unknown_mode_refuted`
* C37: `C37_areas`, `C37_volume`
* C38: `C38_applied`, `C38_balance`, `C38_balance_run`, `C38_bounds`, `C38_diversion_refuted`, `C38_empties`, `C38_gallons`, `C38_loss_refuted`, `C38_stuck_refuted`, `C38_unit_response`
* C39: `C39_filled`, `C39_histogram`, `C39_length`, `C39_repeated_distance_refuted`
* C40: `C40_codes`, `C40_flags`, `C40_last_step`, `C40_round_trip`, `C40_skipped_january_refuted`
* C41: `C41_grass_refuted`, `C41_intercept`, `C41_leaf_fall_refuted`, `C41_run`, `C41_step_partial`
* C42: `C42_deposition`, `C42_first_step_refuted`, `C42_flags_refuted`, `C42_mixed_refuted`, `C42_precipitation`, `C42_refusal`, `C42_schedule_refuted`, `C42_segments`, `C42_sources`, `C42_uninitialised_refuted`, `C42_unmixed`
* C43: `C43_fresh_unit`
* C44: `C44_assignment_partial`, `C44_assignment_refuted`, `C44_decode`, `C44_distinct_rows`, `C44_own_number`, `C44_rows`, `C44_tracking`
* C45: `C45_kept_refuted`, `C45_mix`, `C45_zeroing_refuted`
* C46: `C46_heat_water`, `C46_holding_capacity_refuted`
* C47: `C47_one_lag_refuted`, `C47_route`
* C48: `C48_cover`
* C49: `C49_all`, `C49_constant`, `C49_infiltration`, `C49_infiltration_run`, `C49_newton`, `C49_onset`, `C49_series`, `C49_time`
* C50: `C50_melt_factor`, `C50_north`, `C50_south`
* C51: `C51_ground_melt_refuted`, `C51_snow_balance`, `C51_snow_interval`
* C52: `C52_overrun_refuted`, `C52_parts`, `C52_parts_unique`, `C52_result_refuted`, `C52_split_partial`
* C53: `C53_absent`, `C53_delivered`, `C53_header`, `C53_names`, `C53_several_refuted`, `C53_title_refuted`, `C53_undeclared`
* C54: `C54_copy`, `C54_endless_refuted`, `C54_negative_refuted`, `C54_next`, `C54_overwrites_refuted`, `C54_range`, `C54_read`, `C54_refused`, `C54_unset_refuted`
* C55: `C55_ignored_refuted`, `C55_largest_refuted`, `C55_listing`, `C55_row`, `C55_too_large_refuted`
* C56: `C56_all`, `C56_bare`, `C56_half_refuted`, `C56_listed`, `C56_narrowed_refuted`, `C56_once`, `C56_too_large_refuted`
* C57: `C57_all`, `C57_cells_refuted`, `C57_listed`, `C57_repeated_refuted`
* C58: `C58_averages`, `C58_cancel_refuted`, `C58_case`, `C58_defined`, `C58_isotopes`, `C58_lines`, `C58_means`, `C58_multiply`, `C58_multiply_mix`, `C58_multiply_zero_refuted`, `C58_range`, `C58_ratio_refuted`, `C58_species_refuted`, `C58_sums`
* C59: `C59_area_refuted`, `C59_exchange`, `C59_formula_refuted`, `C59_gas`, `C59_gas_types_refuted`, `C59_init_moles_refuted`, `C59_kinetics`, `C59_phases`, `C59_related`, `C59_related_surface`, `C59_solid_solutions`, `C59_surface`
* C60: `C60_basin`, `C60_dropped_refuted`, `C60_irrigation_refuted`, `C60_never_stops`, `C60_run`, `C60_step`, `C60_surface`
* C61: `C61_no_excess`, `C61_ranges`, `C61_step`, `C61_theta_refuted`
* C62: `C62_bin`, `C62_depth`, `C62_table`
* C63: `C63_areas`, `C63_base`, `C63_base_floor_refuted`, `C63_base_parabolic_refuted`, `C63_classes`, `C63_drain`, `C63_drain_cap_refuted`, `C63_drain_jump_refuted`, `C63_pumping`
* C64: `C64_any_text`, `C64_formula`, `C64_hydrate_in_group_refuted`, `C64_open_bracket_refuted`, `C64_point_refuted`, `C64_two_colons_refuted`
* C65: `C65_add`, `C65_combine`, `C65_elements`, `C65_first_constant_refuted`, `C65_multiply`, `C65_short_combine_refuted`, `C65_small_dropped_refuted`, `C65_swap`, `C65_swap_missing`, `C65_swap_overrun_refuted`
* C66: `C66_canonical`, `C66_fraction`, `C66_idempotent`, `C66_junk_refuted`, `C66_no_sign`, `C66_number`, `C66_octal_refuted`, `C66_overflow_refuted`, `C66_signs`
* C67: `C67_association`, `C67_characters`, `C67_dissociation`, `C67_elements`, `C67_empty_left_refuted`, `C67_second_state_refuted`, `C67_species`, `C67_state_refuted`
* C68: `C68_division_refuted`, `C68_dropped_refuted`, `C68_flows`, `C68_fluxes`, `C68_run`, `C68_sources`, `C68_step`
* C69: `C69_canopy`, `C69_run`, `C69_snow`, `C69_start`
* C70: `C70_balance`, `C70_closed`, `C70_diverted_refuted`, `C70_start_one`, `C70_start_refuted`
* C71: `C71_joint`, `C71_outflow`, `C71_saturated`
* C72: `C72_again`, `C72_largest_refuted`, `C72_lost_refuted`, `C72_nameless_refuted`, `C72_ranges`, `C72_transfer`, `C72_unknown`
* C73: `C73_distinct`, `C73_find`, `C73_long_refuted`, `C73_text`
* C74: `C74_asc`, `C74_chr_asc`, `C74_ends`, `C74_instr`, `C74_meaning`, `C74_mid`, `C74_mid_refuted`, `C74_mod_refuted`, `C74_names_refuted`, `C74_open_text`, `C74_power`, `C74_remark`, `C74_sign_refuted`, `C74_tokens`, `C74_trim`, `C74_trim_refuted`, `C74_unique`, `C74_val`, `C74_val_refuted`, `C74_zero_refuted`
* C75: `C75_element`, `C75_first`, `C75_nested_refuted`, `C75_places`
* C76: `C76_element_refuted`, `C76_equals`, `C76_on`, `C76_rerun`, `C76_run`, `C76_save_text`, `C76_skip_refuted`, `C76_statement_end`, `C76_then`, `C76_unique`
* C77: `C77_blank_lines`, `C77_compile`, `C77_dangling_refuted`, `C77_enter`, `C77_found`, `C77_quote_refuted`, `C77_renum`, `C77_renum_list`, `C77_renum_words`, `C77_split`, `C77_typed`
* C78: `C78_far_refuted`, `C78_let`, `C78_put`
* C79: `C79_gosub_refuted`, `C79_goto`, `C79_next`, `C79_next_alone`, `C79_on`, `C79_on_list`, `C79_restore`, `C79_return`
* C80: `C80_basin`, `C80_every_step`, `C80_height`, `C80_hourly_refuted`, `C80_lapse`, `C80_order_refuted`, `C80_units`
* C81: `C81_average`, `C81_bounds`, `C81_start_refuted`, `C81_statistic`
* C82: `C82_closing`, `C82_late_refuted`, `C82_opening`, `C82_same_month_refuted`, `C82_start`
* C83: `C83_daily`, `C83_day`, `C83_hamon`, `C83_nonneg`, `C83_pan`
* C84: `C84_bounds`, `C84_curve`, `C84_december_refuted`, `C84_knots`, `C84_leap_december_refuted`
* C85: `C85_dark_refuted`, `C85_estimated`, `C85_first_refuted`, `C85_hillslopes`, `C85_observed`, `C85_range`
* C86: `C86_bounds`, `C86_half_day`, `C86_hours`, `C86_level`
* C87: `C87_booked`, `C87_unsaturated`
* C88: `C88_outlet_refuted`, `C88_reactions`
* C89: `C89_delta`, `C89_delta_refuted`, `C89_entities`, `C89_final`, `C89_flow`, `C89_flow_delta`
* C90: `C90_hillslopes`, `C90_moles_refuted`, `C90_streams`, `C90_streams_refuted`, `C90_water`
* C91: `C91_between`, `C91_final_refuted`, `C91_net_refuted`, `C91_out_refuted`, `C91_stale_refuted`, `C91_units`, `C91_vartemp_refuted`, `C91_volume`
* C92: `C92_after_equal_refuted`, `C92_default`, `C92_equal`, `C92_list`, `C92_prefixes`, `C92_two_units_refuted`, `C92_units`
* C93: `C93_empty`, `C93_equal`, `C93_list`, `C93_no_count_refuted`, `C93_several`, `C93_unit_lost_refuted`, `C93_units`
* C94: `C94_equal`, `C94_list`, `C94_single`
* C95: `C95_apart`, `C95_chained`, `C95_count`, `C95_guard`, `C95_kinetics`, `C95_saved`, `C95_untouched`
* C96: `C96_balance`, `C96_conveyor`, `C96_guard`, `C96_mix_refuted`, `C96_no_cells_refuted`, `C96_shifts`
* C97: `C97_cells`, `C97_lines`, `C97_out_of_range`
* C98: `C98_columns_refuted`, `C98_failed_reaction_refuted`, `C98_failure`, `C98_mixture`, `C98_reacted`, `C98_script`, `C98_settings`, `C98_temperature_refuted`
* C99: `C99_all`, `C99_in_turn`, `C99_missing_refuted`, `C99_stops`, `C99_ten_digits_refuted`
