{"id": "C01", "title": "Julian day numbers count days", "statement": "For every date of the historical calendar (Julian calendar up to 4 October 1582, Gregorian from 15 October 1582, no year zero) the Julian day number computed for the following calendar day is exactly one larger, 1 January 2000 has number 2451545, and hence different dates get different numbers in chronological order. A year-zero date is rejected.", "quantifier": "all valid calendar dates, positive and negative years without bound", "why_tests_cant": "The formula mixes floors of decimal multipliers, a month shift, a century correction and a calendar switch; a test samples some dates while every model time step relies on all of them.", "anchors": ["mmf_c/src/julday.c:julday"]}
{"id": "C02", "title": "Leap years and weekdays", "statement": "The leap-year query answers true exactly for years divisible by 4 and not by 100, or divisible by 400, and agrees with the number of Julian days between consecutive 1 Januaries for all Gregorian years; the weekday query advances by one modulo seven from each day to the next.", "quantifier": "all years after 1582 and all days", "why_tests_cant": "Century exceptions occur rarely; agreement between two independent pieces of calendar code has to hold for every year.", "anchors": ["mmf_c/src/julconvert.c:isleap", "mmf_c/src/julconvert.c:dayofweek", "mmf_c/src/julday.c:julday"]}
{"id": "C03", "title": "Day-of-year clocks", "statement": "The day-of-year reported for the calendar clock is the position of the date in its year (1 on 1 January), for the water-year clock the position counted from 1 October, for the solar clock from 22 December, for the spring clock from 21 March; each grows by one per day and restarts at 1 exactly at the clock's first day.", "quantifier": "all valid Gregorian dates and all clocks", "why_tests_cant": "Reference year selection depends on month/day comparisons at the year edge; correctness is needed for every date.", "anchors": ["mmf_c/src/timing.c:julian", "mmf_c/src/timing.c:djulian", "mmf_c/src/julday.c:julday"]}
{"id": "C04", "title": "Dimension registry", "statement": "After any sequence of dimension declarations, querying a dimension returns the value given by the first successful declaration of that name and -1 for names never successfully declared; a duplicate, a negative size or a size above the maximum is refused with a nonzero code and changes nothing; the registry stays sorted without duplicates. Declaring a fixed dimension makes that dimension, and no other, fixed.", "quantifier": "all histories of declarations and queries", "why_tests_cant": "The outcome depends on the order of names in the whole history because the list is re-sorted after each declaration.", "anchors": ["mmf_c/src/decldim.c:decldim", "mmf_c/src/decldim.c:declfix", "mmf_c/src/dim_addr.c:dim_addr", "mmf_c/src/getdim.c:getdim", "mmf_c/src/sort_dims.c:sort_dims"]}
{"id": "C05", "title": "Variable registry lookup", "statement": "After any sequence of variable declarations each declared variable is found by its full key with its own descriptor and no other key is found, whatever the declaration order; a declaration that is refused leaves every other variable findable.", "quantifier": "all histories of variable declarations, all lookup keys", "why_tests_cant": "Lookup is a hand-written binary search over a table re-sorted by bubble sort; its correctness depends on the table size, the order and the position of the key.", "anchors": ["mmf_c/src/declvar.c:declvar", "mmf_c/src/sort_vars.c:sort_vars", "mmf_c/src/var_addr.c:var_addr"]}
{"id": "C06", "title": "Parameter registry and default values", "statement": "After any sequence of parameter declarations each successfully declared parameter is found by its key with the size given by the product of its dimensions and with all its values initialised inside its declared bounds; redeclaring a parameter keeps the first definition; a refused declaration does not disturb other parameters.", "quantifier": "all histories of parameter declarations", "why_tests_cant": "The registry counter is advanced before validation and the table re-sorted afterwards, so effects appear only for particular histories.", "anchors": ["mmf_c/src/declparam.c:declparam", "mmf_c/src/param_addr.c:param_addr", "mmf_c/src/sort_params.c:sort_params", "mmf_c/src/load_param.c:load_param"]}
{"id": "C07", "title": "Expansion of default-value strings", "statement": "A value string such as '2*1.5, 3' is expanded to exactly the requested number of values: the listed values with their repeat counts, truncated at the requested size or repeated cyclically from the beginning when too short; malformed tokens are refused.", "quantifier": "all token lists and all requested sizes", "why_tests_cant": "The combination of repeat counts, truncation and cyclic fill has unboundedly many cases.", "anchors": ["mmf_c/src/str_to_vals.c:str_to_vals"]}
{"id": "C08", "title": "Parameter bounds are enforced", "statement": "Initialising a parameter succeeds exactly when, element by element, minimum <= default <= maximum; on success every element equals the default; a bounded parameter takes its limits from its bounding dimension.", "quantifier": "all sizes and all minimum, maximum and default vectors", "why_tests_cant": "Every element must satisfy the bounds, for all sizes.", "anchors": ["mmf_c/src/load_param.c:load_param"]}
{"id": "C09", "title": "Resizing a dimension keeps parameter values", "statement": "When a dimension changes from n to m, each parameter using it keeps the value at every coordinate tuple that existed before, and each new coordinate takes the value of the last old coordinate along that dimension; the new size is the product of the new dimension values.", "quantifier": "all parameter ranks, all positions of the changed dimension, all sizes", "why_tests_cant": "The copy is expressed by frames and blocks over a flat array; index arithmetic has to be right for every shape.", "anchors": ["mmf_c/src/reset_dim.c:reset_dim", "mmf_c/src/reset_dim.c:resize_param"]}
{"id": "C10", "title": "Parameter delivery to modules", "statement": "Fetching a parameter delivers element (i,j) to position i + stride*j of the caller's array, where stride is the declared maximum of the first dimension when the caller's array has maximal shape and the current value otherwise, never writes outside the caller's array, and refuses a request whose array is too small without writing anything. Integer parameters are delivered with the values read from file.", "quantifier": "all shapes, strides, contents and element types", "why_tests_cant": "Errors show only for particular combinations of current and maximal dimensions.", "anchors": ["mmf_c/src/getparam.c:getparam", "mmf_c/src/getparam.c:paramcopy", "mmf_c/src/read_params.c:READ_param_values"]}
{"id": "C11", "title": "Variable exchange round trip", "statement": "A module that stores a variable and another module that fetches it with the same array shape gets back the same values at the same positions, and no memory outside the variable and the caller's array is touched.", "quantifier": "all variable ranks, shapes, types and contents", "why_tests_cant": "putvar and getvar use different stride rules; agreement must hold for all dimension combinations.", "anchors": ["mmf_c/src/getvar.c:getvar", "mmf_c/src/putvar.c:putvar"]}
{"id": "C12", "title": "Element addressing", "statement": "Asking for element (i1,i2,...) of a variable yields the column-major position, different in-range index tuples give different positions, all inside the variable, and index checking accepts exactly the strings with the right number of decimal indices between 1 and the dimension value.", "quantifier": "all index strings, ranks and dimension values", "why_tests_cant": "Injectivity and bounds are statements about all pairs of index tuples.", "anchors": ["mmf_c/src/get_elem_add.c:GetElemAddress", "mmf_c/src/get_elem_add.c:CheckIndices"]}
{"id": "C13", "title": "Parameter file values", "statement": "Reading the values of a parameter from a file stores exactly the listed values in order (with repeat counts expanded) when their number equals the parameter size, and reports an error otherwise; a parameter file written by the program is read back with the same values.", "quantifier": "all value lists, sizes and line layouts", "why_tests_cant": "Token/line layout and repeat counts give unboundedly many files; the round trip is a statement about all contents.", "anchors": ["mmf_c/src/read_params.c:READ_param_values", "mmf_c/src/save_params.c:save_params"]}
{"id": "C14", "title": "Control file", "statement": "Reading a control file sets each listed control variable to the listed values and never writes outside the storage of a control variable; looking up a control variable returns the stored element or stops with a message; comments and blank lines do not change the result.", "quantifier": "all control files and histories of control declarations", "why_tests_cant": "Memory safety depends on the relation between declared sizes and sizes in an arbitrary file.", "anchors": ["mmf_c/src/read_control.c:rc", "mmf_c/src/read_control.c:fgets_rc", "mmf_c/src/decl_control.c:add_control", "mmf_c/src/control_array.c:control_array", "mmf_c/src/control_addr.c:control_addr"]}
{"id": "C15", "title": "Command line", "statement": "The control file is the last argument that is neither an option nor the argument of an option (default 'control'), options set their own setting only, and every -set pair is recorded with its value.", "quantifier": "all argument vectors", "why_tests_cant": "Option/argument interactions range over all argument lists.", "anchors": ["mmf_c/src/parse_args.c:parse_args"]}
{"id": "C16", "title": "Time stepping stays inside the simulation window", "statement": "The run reads data records in order; every executed step has a time inside [start,end], steps are in nondecreasing time order, the step counter equals the number of executed steps, the step length is the difference between consecutive record times, and records after the end stop the run.", "quantifier": "all data files, all start/end times", "why_tests_cant": "A statement about all record sequences and all windows.", "anchors": ["mmf_c/src/read_line.c:read_line"]}
{"id": "C17", "title": "Merging several data files", "statement": "With several data files each step uses a file whose next record has the smallest time among all files that still have records, and each record of each file is used exactly once.", "quantifier": "all sets of data files", "why_tests_cant": "A statement about all interleavings of record times.", "anchors": ["mmf_c/src/read_line.c:FILE_with_next_ts"]}
{"id": "C18", "title": "Validation of record times", "statement": "A data record whose year, month, day, hour, minute or second is out of range is refused; a record with all fields in range is accepted with exactly those fields.", "quantifier": "all field values", "why_tests_cant": "Ranges over all integers for six fields.", "anchors": ["mmf_c/src/read_line.c:EXTRACT_time"]}
{"id": "C19", "title": "Checkpoint and restart", "statement": "Writing the state of all variables to a checkpoint and reading it back into the same set of declared variables restores every variable, the step count and the time step; a checkpoint with different dimensions is refused and leaves all variables unchanged.", "quantifier": "all variable sets and contents", "why_tests_cant": "Round trip over all states.", "anchors": ["mmf_c/src/save_vars.c:save_vars", "mmf_c/src/read_vars.c:read_vars"]}
{"id": "C20", "title": "Model run life cycle", "statement": "In a batch run every module's initialize phase is executed exactly once before any run phase, the run phase is executed once per accepted data record in order, cleanup is executed exactly once at the end, and a failing phase prevents all later steps.", "quantifier": "all record sequences and all module outcomes", "why_tests_cant": "Ranges over all lengths and failure points.", "anchors": ["mmf_c/src/batch_run.c:BATCH_run", "mmf_c/src/call_modules.c:call_modules"]}
{"id": "C21", "title": "Growable lists", "statement": "Appending items to a list never loses or reorders earlier items and never writes beyond the allocated space, for any number of items and any initial capacity.", "quantifier": "all append sequences and initial capacities", "why_tests_cant": "Reallocation happens at capacity multiples; the claim is for every length.", "anchors": ["mmf_c/src/build_lists.c:ALLOC_list", "mmf_c/src/build_lists.c:ADD_to_list", "mmf_c/src/build_lists.c:RESIZE_list"]}
{"id": "C22", "title": "Geochemistry instances", "statement": "Creating an instance returns an id different from every id returned before, even after destruction of instances; an id is valid exactly from its creation until its destruction; an operation with an invalid id returns the bad-instance code and changes no instance; operations on one instance do not change another.", "quantifier": "all histories of create, destroy and use", "why_tests_cant": "Ranges over all histories.", "anchors": ["IPhreeqcMMS/IPhreeqc/src/IPhreeqc.cpp:IPhreeqc::IPhreeqc", "IPhreeqcMMS/IPhreeqc/src/IPhreeqcLib.cpp:GetInstance", "IPhreeqcMMS/IPhreeqc/src/IPhreeqcLib.cpp:DestroyIPhreeqc", "IPhreeqcMMS/src/IPhreeqcMMSLib.cpp:CreateIPhreeqcMMS"]}
{"id": "C23", "title": "Selected-output table", "statement": "After any sequence of cell writes and end-of-row calls, the selected-output table is rectangular: row 0 holds the headings in order of first use, cell (r,c) is the last value written for that heading in row r or empty, the row and column counts agree with what was written, and out-of-range requests return the specific error code.", "quantifier": "all sequences of writes and row ends, all queried positions", "why_tests_cant": "Columns may be created at any row; padding must be right for every history.", "anchors": ["IPhreeqcMMS/IPhreeqc/src/CSelectedOutput.cpp:CSelectedOutput::PushBack", "IPhreeqcMMS/IPhreeqc/src/CSelectedOutput.cpp:CSelectedOutput::EndRow", "IPhreeqcMMS/IPhreeqc/src/CSelectedOutput.cpp:CSelectedOutput::Get"]}
{"id": "C24", "title": "Accumulated input", "statement": "The text run by a run-accumulated call is exactly the concatenation, in order, of the lines accumulated since the previous run or clear, each followed by a newline; after a run the next accumulated line starts a new script; running a string or a file discards accumulated lines.", "quantifier": "all histories of accumulate, clear and run calls, including runs that fail", "why_tests_cant": "Lazy clearing by a flag makes the result depend on the history.", "anchors": ["IPhreeqcMMS/IPhreeqc/src/IPhreeqc.cpp:IPhreeqc::AccumulateLine", "IPhreeqcMMS/IPhreeqc/src/IPhreeqc.cpp:IPhreeqc::ClearAccumulatedLines", "IPhreeqcMMS/IPhreeqc/src/IPhreeqc.cpp:IPhreeqc::RunAccumulated", "IPhreeqcMMS/IPhreeqc/src/IPhreeqc.cpp:IPhreeqc::RunString", "IPhreeqcMMS/IPhreeqc/src/IPhreeqc.cpp:IPhreeqc::RunFile"]}
{"id": "C25", "title": "Database loading state", "statement": "A run is executed only when the last database load succeeded; otherwise the run reports an error and produces no output; loading a database leaves the user's output, log and error file switches as they were, whether or not loading succeeds.", "quantifier": "all histories of load, run and switch calls", "why_tests_cant": "Exceptions during loading give many paths through the save/restore code.", "anchors": ["IPhreeqcMMS/IPhreeqc/src/IPhreeqc.cpp:IPhreeqc::LoadDatabase", "IPhreeqcMMS/IPhreeqc/src/IPhreeqc.cpp:IPhreeqc::check_database", "IPhreeqcMMS/IPhreeqc/src/IPhreeqc.cpp:IPhreeqc::UnLoadDatabase"]}
{"id": "C26", "title": "Line access to captured text", "statement": "For any captured error, warning, output or log text, the line count equals the number of lines of the text, line n for 0 <= n < count is the n-th line, any other n gives the empty string, and joining the lines gives back the text.", "quantifier": "all texts and all indices", "why_tests_cant": "Ranges over all texts.", "anchors": ["IPhreeqcMMS/IPhreeqc/src/IPhreeqc.cpp:IPhreeqc::update_errors", "IPhreeqcMMS/IPhreeqc/src/IPhreeqc.cpp:IPhreeqc::GetErrorStringLine"]}
{"id": "C27", "title": "Strings across the Fortran boundary", "statement": "A C string copied to a Fortran character variable occupies at most its length, is blank padded and never overruns; converting a Fortran string to C removes exactly the trailing non-printing characters; a string without trailing blanks that fits survives the round trip.", "quantifier": "all strings and all buffer lengths", "why_tests_cant": "Ranges over all strings and lengths; off-by-one truncation is rare.", "anchors": ["IPhreeqcMMS/IPhreeqc/src/fwrap.cpp:padfstring", "IPhreeqcMMS/IPhreeqc/src/fwrap.cpp:f2cstring", "IPhreeqcMMS/IPhreeqc/src/IPhreeqc_interface_F.cpp:padfstring"]}
{"id": "C28", "title": "Selected-output switches are per user number", "statement": "Whether selected output of user number n is captured as a string depends only on the switch set for n, independent of the currently selected user number.", "quantifier": "all user numbers and switch histories", "why_tests_cant": "Depends on combinations of current number and switch states.", "anchors": ["IPhreeqcMMS/IPhreeqc/src/IPhreeqc.cpp:IPhreeqc::get_sel_out_string_on", "IPhreeqcMMS/IPhreeqc/src/IPhreeqc.cpp:IPhreeqc::get_sel_out_file_on", "IPhreeqcMMS/IPhreeqc/src/IPhreeqc.cpp:IPhreeqc::SetCurrentSelectedOutputUserNumber"]}
{"id": "C29", "title": "Value variants are copied deeply", "statement": "Copying a variant gives an equal value in independent storage: later changes to or clearing of either copy leave the other unchanged, every string buffer is released exactly once, and copying from an error or empty variant keeps its kind.", "quantifier": "all sequences of assign, copy and clear on any number of variants", "why_tests_cant": "Ownership errors depend on the whole operation history.", "anchors": ["IPhreeqcMMS/IPhreeqc/src/Var.c:VarCopy", "IPhreeqcMMS/IPhreeqc/src/Var.c:VarClear", "IPhreeqcMMS/IPhreeqc/src/CVar.hxx:CVar"]}
{"id": "C30", "title": "Mixing script", "statement": "For a mix request the script sent to the geochemical engine contains one MIX entry per given solution with its fraction (scaled only for evaporation), saves the mixture under the reaction index, copies it to the conservative index, and, when any reactant is requested, performs scale-up, reaction with each existing reactant and scale-down with reciprocal factors, so the net dilution is one.", "quantifier": "all lists of solutions and fractions, all reactant selections", "why_tests_cant": "Ranges over all subsets of reactants and all list lengths.", "anchors": ["IPhreeqcMMS/src/IPhreeqcMMS.cpp:IPhreeqcMMS::PreMixCallback", "IPhreeqcMMS/src/IPhreeqcMMS.cpp:IPhreeqcMMS::PostMixCallback"]}
{"id": "C31", "title": "Evaporation conserves water in the mix", "statement": "When a mix removes pure water (negative fraction of solution 1), the removed fraction is rescaled so that the mass of water removed equals the requested fraction of the average water mass of the mixed solutions.", "quantifier": "all water masses and fractions", "why_tests_cant": "Depends on real arithmetic over all inputs.", "anchors": ["IPhreeqcMMS/src/IPhreeqcMMS.cpp:IPhreeqcMMS::PreMixCallback"]}
{"id": "C32", "title": "Ionic pulse and isotope split of snowmelt", "statement": "Splitting a snowpack into melt and remaining pack conserves each solute and each isotope: the mole amounts in melt and pack add up to the amounts in the original pack, and the two fractions are nonnegative and add up to one.", "quantifier": "all melt fractions strictly between 0 and 1, all ionic pulse factors and compositions", "why_tests_cant": "Real arithmetic for all inputs.", "anchors": ["IPhreeqcMMS/src/IPhreeqcMMS.cpp:IPhreeqcMMS::Melt_pack"]}
{"id": "C33", "title": "Reaction table transfer", "statement": "Storing the reaction table in the caller's array writes each table cell at its column-major position exactly once, keeps all positions distinct and inside the caller's array, reports initial-to-final differences divided by the fill factor, and refuses arrays that are too small.", "quantifier": "all table sizes and caller dimensions", "why_tests_cant": "The boundary case where table rows equal the caller's rows is one in many.", "anchors": ["IPhreeqcMMS/IPhreeqc/src/phreeqcpp/tally.cpp:store_tally_table", "IPhreeqcMMS/IPhreeqc/src/phreeqcpp/tally.cpp:diff_tally_table"]}
{"id": "C34", "title": "Element totals bookkeeping", "statement": "Adding a multiple of one composition to another adds that multiple for every element and leaves other elements unchanged; scaling scales each; the total of an element equals the sum over its redox states; merging a redox state replaces the element total and does not touch other elements.", "quantifier": "all compositions and factors", "why_tests_cant": "Name prefix handling can confuse elements (F and Fe) only for particular pairs.", "anchors": ["IPhreeqcMMS/IPhreeqc/src/phreeqcpp/NameDouble.cxx:add_extensive", "IPhreeqcMMS/IPhreeqc/src/phreeqcpp/NameDouble.cxx:merge_redox", "IPhreeqcMMS/IPhreeqc/src/phreeqcpp/NameDouble.cxx:Get_total_element", "IPhreeqcMMS/IPhreeqc/src/phreeqcpp/NameDouble.cxx:Simplify_redox"]}
{"id": "C35", "title": "Dictionary-coded serialization", "statement": "Every word gets one stable number, numbers are dense from zero, the word list maps numbers back, and a composition serialized with a dictionary deserializes to the same composition.", "quantifier": "all word sequences and compositions", "why_tests_cant": "Round trip over all contents.", "anchors": ["IPhreeqcMMS/IPhreeqc/src/phreeqcpp/Dictionary.cpp:Dictionary::Find", "IPhreeqcMMS/IPhreeqc/src/phreeqcpp/NameDouble.cxx:Serialize", "IPhreeqcMMS/IPhreeqc/src/phreeqcpp/NameDouble.cxx:Deserialize"]}
{"id": "C36", "title": "Module sequencing", "statement": "In every phase the process modules are executed in the fixed published order, each at most once, and the first module reporting failure stops the phase with its failure reported; an unknown model mode is refused; the configured precipitation module is the one used.", "quantifier": "all module outcomes and all configuration strings", "why_tests_cant": "Failure position is arbitrary.", "anchors": ["webmod.d/src/call_modules_webmod.F:call_modules"]}
{"id": "C37", "title": "Hillslope outflow reaches the channels", "statement": "The water volume delivered to all channels in a time step equals the sum over all hillslopes of outflow depth times area, and the channel areas add up to the hillslope areas.", "quantifier": "all numbers of hillslopes and channels, all assignments and depths", "why_tests_cant": "Sum over arbitrary assignments.", "anchors": ["webmod.d/src/top2clark.F:top2crun", "webmod.d/src/top2clark.F:top2cinit"]}
{"id": "C38", "title": "Channel routing conserves water", "statement": "In each time step the water leaving the basin plus diversions and channel losses plus the change of water stored in the channel segments equals the water entering; over any number of steps without loss, every unit of inflow leaves after at most the number of segments of steps.", "quantifier": "all inflow series, all histograms, all numbers of steps", "why_tests_cant": "Conservation over every series and every length.", "anchors": ["webmod.d/src/route_clark.F:routecrun"]}
{"id": "C39", "title": "Channel time-area histogram", "statement": "The routing ordinates of each channel are nonnegative and add up to the channel's area fraction, for every channel geometry with increasing distances and area fractions ending at one.", "quantifier": "all geometries", "why_tests_cant": "Interpolation over arbitrary breakpoints.", "anchors": ["webmod.d/src/route_clark.F:routecinit"]}
{"id": "C40", "title": "End-of-period flags", "statement": "The combined end-of-period code carries the five flags (storm, day, month, year, run) so that the consumers decode exactly the flags the clock set; month and year ends imply day end.", "quantifier": "all flag combinations and all dates", "why_tests_cant": "Encoder and decoders live in different modules.", "anchors": ["webmod.d/src/io.F:iorun", "webmod.d/src/route_clark.F:routecrun"]}
{"id": "C41", "title": "Canopy interception conserves water", "statement": "Interception splits precipitation so that net precipitation plus the cover-weighted increase in canopy storage equals precipitation; storage stays between zero and capacity; net precipitation is nonnegative.", "quantifier": "all precipitation, capacity, cover and storage values in range", "why_tests_cant": "Real arithmetic for all inputs.", "anchors": ["webmod.d/src/intcp_prms.F:intercept", "webmod.d/src/intcp_prms.F:intrun"]}
{"id": "C42", "title": "Rain and snow partition", "statement": "Each deposition is split into rain and snow that add up to the total, in the proportions that the temperatures of the day give; the rain fraction is between zero and one; each source's contribution is a fraction of the total and these add up to one; each day a hillslope receives the irrigation that its schedule asks for.", "quantifier": "all temperatures, thresholds and depths, and all sequences of days", "why_tests_cant": "Threshold combinations over reals.", "anchors": ["webmod.d/src/irrig_web.F:irrrun"]}
{"id": "C43", "title": "File unit allocation", "statement": "A newly requested file unit is never one that is open and is different from every unit handed out before.", "quantifier": "all histories of requests and opens", "why_tests_cant": "Ranges over all histories.", "anchors": ["webmod.d/src/my_newunit.F:my_newunit"]}
{"id": "C44", "title": "Solution numbering", "statement": "Every reservoir (type, hillslope, topographic bin, time level), stream segment and chemical source gets its own solution number; decoding a number gives back the reservoir, and the table row assigned to different reservoirs is different while start and end of step share a row.", "quantifier": "all model dimensions within the number format and all reservoirs", "why_tests_cant": "Decimal field packing collides only beyond certain sizes.", "anchors": ["webmod.d/src/phreeq_mms.F90:solnnum", "webmod.d/src/phreeq_mms.F90:isoln"]}
{"id": "C45", "title": "Mixing fractions are checked", "statement": "A mix is accepted only if its fractions, after zeroing negative ones that are not evaporation or snow ionic pulse, add up to one within 0.001; fractions that are not negative are never changed.", "quantifier": "all lists of solutions and fractions", "why_tests_cant": "Position of the exempt entries in the list matters.", "anchors": ["webmod.d/src/phreeq_mms.F90:checkfracs"]}
{"id": "C46", "title": "Snowpack heat and water balance", "statement": "Melt and rain entering the pack are fully accounted: frozen water plus liquid water plus excess after the step equals frozen plus liquid before plus melt plus rain; the heat deficit stays between zero and one third of the frozen water; liquid water stays within its holding capacity.", "quantifier": "all pack states and inputs", "why_tests_cant": "Real arithmetic with many branches.", "anchors": ["webmod.d/src/nwsmelt_topg.F:HEATWATR"]}
{"id": "C47", "title": "Snowpack outflow routing conserves water", "statement": "Lagging and attenuating excess water through the snow cover conserves it: outflow plus stored plus lagged water after the step equals excess plus stored plus lagged before.", "quantifier": "all states, inputs and time steps", "why_tests_cant": "Real arithmetic with transcendental lag functions.", "anchors": ["webmod.d/src/nwsmelt_topg.F:ROUTE"]}
{"id": "C48", "title": "Snow cover fraction", "statement": "The areal extent of snow cover is always between 0.05 and 1, is 1 when the water content is at its seasonal maximum, and is found with an in-range position of the depletion curve.", "quantifier": "all pack states and depletion curves", "why_tests_cant": "Array index computed from reals.", "anchors": ["webmod.d/src/nwsmelt_topg.F:AESNOW"]}
{"id": "C49", "title": "Infiltration never exceeds supply", "statement": "The infiltration depth computed for a step never exceeds rainfall intensity times step length, and cumulative infiltration grows by exactly the infiltration of the step. Rain weaker than the capacity of the soil at both ends of the step goes in altogether; else ponding begins within the step, at the depth where the capacity falls below the rain, and from then on the depth is the one of Newton's method for the time since ponding.", "quantifier": "all soils, intensities and iteration behaviours", "why_tests_cant": "Involves iterative solution; the claim must hold whatever the iteration does.", "anchors": ["webmod.d/src/topmod_chem.F:EXPINF"]}
{"id": "C50", "title": "Melt factor range", "statement": "The seasonal melt factor stays between its configured minimum and maximum for each day of the year and each latitude.", "quantifier": "all days, latitudes and limits", "why_tests_cant": "Continuous function of several inputs.", "anchors": ["webmod.d/src/nwsmelt_topg.F:MELTFACT"]}
{"id": "C51", "title": "Snowpack water balance", "statement": "Over any number of days and whatever the temperatures, precipitation equals melt-water outflow plus rain on bare soil plus sublimation plus the change of all water held in the pack (frozen, liquid, stored and lagged); all of these stay nonnegative and no array is accessed out of range; ground melt is applied at its configured daily rate.", "quantifier": "all weather sequences, parameters in range and pack states", "why_tests_cant": "The interval code has a dozen branches that end the pack or continue it; a lost or doubled term shows only for particular combinations of pack state and weather.", "anchors": ["webmod.d/src/nwsmelt_topg.F:nwsmrun"]}
{"id": "C52", "title": "Splitting a file name", "statement": "Splitting a path gives the directory up to and including the last slash, the name, and the extension from its last dot; each is stored in its own Fortran variable, cut or blank padded, and nothing else is written.", "quantifier": "all paths and all lengths of the four variables", "why_tests_cant": "Ranges over all strings and combinations of variable lengths; an overrun is silent.", "anchors": ["IPhreeqcMMS/IPhreeqc/src/pp_sys.cpp:splitpathpp"]}
{"id": "C53", "title": "Columns of a data file reach the right variables", "statement": "The header of a data file decides which variables are read: each header line names a declared variable and its number of columns, an undeclared variable is refused, and at every step a module that asks for one of these variables gets exactly the values of its columns of the current record; a request for a variable that is not in the file, or with another size, is an error.", "quantifier": "all headers, all variables, all records", "why_tests_cant": "Ranges over all headers and column layouts.", "anchors": ["mmf_c/src/read_datainfo.c:read_datainfo", "mmf_c/src/readvar.c:readvar", "mmf_c/src/read_line.c:read_line"]}
{"id": "C54", "title": "Copying reactants", "statement": "A COPY block gives each target number a copy of the source reactant with the target's number, for each kind it names, one instruction after the other, and changes no other reactant; defining a reactant for a range gives every number of the range the same contents; the next free number is above all numbers in use.", "quantifier": "all stores of reactants, all instructions and number texts", "why_tests_cant": "Ranges over all contents of the stores and all ranges, including negative ones.", "anchors": ["IPhreeqcMMS/IPhreeqc/src/phreeqcpp/read.cpp:read_copy", "IPhreeqcMMS/IPhreeqc/src/phreeqcpp/mainsubs.cpp:copy_entities", "IPhreeqcMMS/IPhreeqc/src/phreeqcpp/Phreeqc.h:Rxn_copies", "IPhreeqcMMS/IPhreeqc/src/phreeqcpp/Phreeqc.h:Rxn_copy", "IPhreeqcMMS/IPhreeqc/src/phreeqcpp/Phreeqc.h:Rxn_next_user_number"]}
{"id": "C55", "title": "Lists of reactant numbers", "statement": "A row of numbers and ranges (such as 1 3-5 -2--1) in a DELETE or DUMP block names exactly the numbers written and those between the ends of the ranges, in whatever order the ends are given.", "quantifier": "all rows of number texts", "why_tests_cant": "Ranges over all number texts.", "anchors": ["IPhreeqcMMS/IPhreeqc/src/phreeqcpp/StorageBinList.cpp:Augment", "IPhreeqcMMS/IPhreeqc/src/phreeqcpp/common/Parser.cxx:token_type"]}
{"id": "C56", "title": "Deleting reactants", "statement": "A DELETE block removes exactly the reactants it names (numbers of a kind, numbers of all kinds, a whole kind, or everything), leaves all others as they were, and has no effect on later simulations.", "quantifier": "all stores and all blocks", "why_tests_cant": "Ranges over all stores and all combinations of options and number lists.", "anchors": ["IPhreeqcMMS/IPhreeqc/src/phreeqcpp/StorageBinList.cpp:Read", "IPhreeqcMMS/IPhreeqc/src/phreeqcpp/ReadClass.cxx:delete_entities"]}
{"id": "C57", "title": "Dumping reactants", "statement": "A DUMP block writes exactly the reactants it names that have nonnegative numbers, kind by kind and in increasing order, once, whatever an earlier block chose.", "quantifier": "all stores and all blocks", "why_tests_cant": "Ranges over all stores, blocks and earlier blocks.", "anchors": ["IPhreeqcMMS/IPhreeqc/src/phreeqcpp/dumper.cpp:Read", "IPhreeqcMMS/IPhreeqc/src/phreeqcpp/ReadClass.cxx:dump_entities", "IPhreeqcMMS/IPhreeqc/src/phreeqcpp/ReadClass.cxx:dump_ostream", "IPhreeqcMMS/IPhreeqc/src/phreeqcpp/Phreeqc.h:Rxn_dump_raw"]}
{"id": "C58", "title": "Mixing solutions", "statement": "A mixture of solutions contains, for every element and for hydrogen, oxygen, charge, water, volume, alkalinity and isotope totals, exactly the sum of fraction times amount over the solutions named; fractions given twice for one number add up; temperature, pH, pe, density and pressure are water-weighted averages that stay within the range of the solutions mixed; scaling a solution scales its amounts only.", "quantifier": "all sets of solutions and all mixtures", "why_tests_cant": "Ranges over any number of solutions, fractions and element lists.", "anchors": ["IPhreeqcMMS/IPhreeqc/src/phreeqcpp/Solution.cxx:cxxSolution (constructor from cxxMix)", "IPhreeqcMMS/IPhreeqc/src/phreeqcpp/Solution.cxx:add", "IPhreeqcMMS/IPhreeqc/src/phreeqcpp/Solution.cxx:multiply", "IPhreeqcMMS/IPhreeqc/src/phreeqcpp/Solution.cxx:Add_isotopes", "IPhreeqcMMS/IPhreeqc/src/phreeqcpp/cxxMix.h:Add"]}
{"id": "C59", "title": "Mixing assemblages", "statement": "Mixing phase assemblages, solid solutions, exchangers, surfaces, kinetic reactants or gas phases conserves matter: for every component and element the amount in the mixture is the sum of fraction times amount over the parts, whatever the order in which components are listed in each part.", "quantifier": "all sets of assemblages of the six kinds and all mixtures", "why_tests_cant": "Ranges over any number of assemblages, components and fractions.", "anchors": ["IPhreeqcMMS/IPhreeqc/src/phreeqcpp/PPassemblage.cxx:add", "IPhreeqcMMS/IPhreeqc/src/phreeqcpp/SSassemblage.cxx:add", "IPhreeqcMMS/IPhreeqc/src/phreeqcpp/SS.cxx:add", "IPhreeqcMMS/IPhreeqc/src/phreeqcpp/Exchange.cxx:add", "IPhreeqcMMS/IPhreeqc/src/phreeqcpp/Surface.cxx:add", "IPhreeqcMMS/IPhreeqc/src/phreeqcpp/SurfaceCharge.cxx:add", "IPhreeqcMMS/IPhreeqc/src/phreeqcpp/cxxKinetics.cxx:add", "IPhreeqcMMS/IPhreeqc/src/phreeqcpp/GasPhase.cxx:cxxGasPhase (constructor from cxxMix)"]}
{"id": "C60", "title": "Water balance of a hillslope", "statement": "In every time step the water held by a model response unit (root zone, unsaturated and saturated zone) changes by exactly what comes in (rain, melt, irrigation, ground water) less what goes out (evapotranspiration, stream flow, deep loss, pumping), and the balance printed at the end of a run of any length shows it; the same holds for the basin.", "quantifier": "all parameters, initial states and sequences of weather", "why_tests_cant": "Ranges over all histories of weather and all soils; a small error per step adds up.", "anchors": ["webmod.d/src/topmod_chem.F:topmrun", "webmod.d/src/topmod_chem.F:topminit"]}
{"id": "C61", "title": "Stores and flows of a hillslope stay in range", "statement": "In a run of any length the root zone deficit stays between zero and its maximum, drainable water is never negative, no flow is negative, and evapotranspiration never exceeds the demand.", "quantifier": "all parameters in range, initial states in range and sequences of weather", "why_tests_cant": "Ranges over all histories.", "anchors": ["webmod.d/src/topmod_chem.F:topmrun", "webmod.d/src/topmod_chem.F:topminit"]}
{"id": "C62", "title": "Books of each topographic bin", "statement": "For every topographic bin the water above the water table reported after a step is that reported before plus infiltration and wetting less evapotranspiration, drainage, direct flow and the water taken over by the rising water table, in every step of a run; the chemistry relies on these numbers.", "quantifier": "all bins, parameters, states and sequences of weather", "why_tests_cant": "Ranges over all histories and all positions of the water table.", "anchors": ["webmod.d/src/topmod_chem.F:topmrun"]}
{"id": "C63", "title": "Contributing areas, base flow, drains and pumping", "statement": "Contributing areas are fractions of the unit; base flow falls as the ground dries; tile drains flow only when the water table is above them, at no more than their capacity and never below their level, and continuously with the water table; pumping takes no more than asked for and no more than the capacity of the well.", "quantifier": "all parameters, water tables and recharge", "why_tests_cant": "Ranges over all real numbers.", "anchors": ["webmod.d/src/topmod_chem.F:topmrun"]}
{"id": "C64", "title": "Reading chemical formulas", "statement": "Every well-formed formula (elements, bracketed names, groups, hydrates, subscripts, charge) is accepted and every element is counted exactly as the formula says; a text that is not a formula is refused; no text makes the reader fail.", "quantifier": "all texts, and all formulas of any length and nesting", "why_tests_cant": "Ranges over an infinite language with nesting; tests check single formulas.", "anchors": ["IPhreeqcMMS/IPhreeqc/src/phreeqcpp/parse.cpp:get_elts_in_species", "IPhreeqcMMS/IPhreeqc/src/phreeqcpp/parse.cpp:get_elt", "IPhreeqcMMS/IPhreeqc/src/phreeqcpp/parse.cpp:get_num"]}
{"id": "C65", "title": "Combining elements and reactions", "statement": "Combining a list of elements or the species of a reaction keeps every sum: each name once, with the sum of its amounts; adding a multiple of a reaction adds that multiple of its species and constants; solving for a species scales all of it by the same factor.", "quantifier": "all lists of elements, all reactions and factors, and every order the sort leaves equal keys in", "why_tests_cant": "Ranges over all lists and reactions of any length.", "anchors": ["IPhreeqcMMS/IPhreeqc/src/phreeqcpp/structures.cpp:elt_list_combine", "IPhreeqcMMS/IPhreeqc/src/phreeqcpp/structures.cpp:trxn_add", "IPhreeqcMMS/IPhreeqc/src/phreeqcpp/structures.cpp:trxn_combine", "IPhreeqcMMS/IPhreeqc/src/phreeqcpp/structures.cpp:trxn_multiply", "IPhreeqcMMS/IPhreeqc/src/phreeqcpp/structures.cpp:trxn_swap"]}
{"id": "C66", "title": "Reading charges", "statement": "A charge written as a run of signs or a sign and a number has that value, and every charge has one canonical text, so that species written in different ways are the same species; reading the canonical text again changes nothing; anything else is refused.", "quantifier": "all charge texts", "why_tests_cant": "Ranges over all texts and numbers.", "anchors": ["IPhreeqcMMS/IPhreeqc/src/phreeqcpp/parse.cpp:get_charge"]}
{"id": "C67", "title": "Reading and checking chemical equations", "statement": "Any equation written as sums of species on both sides, with any spacing, is read as written, and it is accepted exactly when every element and the charge balance; the elements recorded for the species it defines are those of its formula.", "quantifier": "all equations with any number of species, coefficients and spacing", "why_tests_cant": "Ranges over all equations; a test balances a few.", "anchors": ["IPhreeqcMMS/IPhreeqc/src/phreeqcpp/parse.cpp:parse_eq", "IPhreeqcMMS/IPhreeqc/src/phreeqcpp/parse.cpp:check_eqn", "IPhreeqcMMS/IPhreeqc/src/phreeqcpp/parse.cpp:get_species", "IPhreeqcMMS/IPhreeqc/src/phreeqcpp/parse.cpp:get_coef", "IPhreeqcMMS/IPhreeqc/src/phreeqcpp/utilities.cpp:get_token"]}
{"id": "C68", "title": "Water balance of the mixing reservoirs of a unit", "statement": "In every step, and over a run of any length from the initial volumes, the volumes of the canopy, snowpack, O-horizon, unsaturated-zone, direct-flow and saturated reservoirs of a model response unit add up to the volume reported for the unit: its initial volume plus precipitation, irrigation and ground-water inflow, less evaporation, losses, pumping and what runs to the stream. Each source of water is divided among the reservoirs without loss or double counting, and evaporation and hillslope outflow equal the flows of the canopy, snow and hillslope modules.", "quantifier": "all units (areas, cover densities, bins), initial volumes, day sequences whose fluxes from the other modules fit together, leaves on or off", "why_tests_cant": "The balance must hold for every sequence of fluxes, including days with leaf fall, snow, bypass and run-off in any combination.", "anchors": ["webmod.d/src/webmod_res.F: webrinit, webrrun"]}
{"id": "C69", "title": "Identities of the reservoir volumes", "statement": "The composite reservoirs start with the depths that the parameters give. After any number of days the composite unsaturated reservoirs equal the sum of their bins and split into riparian and upland bins; the O-horizon holds its initial water plus, when leaves are off, that of the leaves; direct-flow and drain reservoirs keep their initial volume and the hillslope reservoir is empty; the canopy holds the water of its leaves plus intercepted less evaporated water; the snow reservoir equals the water equivalent of the snow module.", "quantifier": "all units, day sequences, leaf changes and initial states", "why_tests_cant": "An invariant over unbounded histories.", "anchors": ["webmod.d/src/webmod_res.F: webrinit, webrrun"]}
{"id": "C70", "title": "Water balance of the basin", "statement": "The volume reported for the basin is the sum of the volumes of its units and of the stream segments at the start and after every step, whatever is diverted from streams or leaks from them; every unit's outflow reaches the segments of its channel.", "quantifier": "all sets of units, channels, segments, diversions, leaks and run lengths", "why_tests_cant": "An invariant over unbounded histories and any number of units and segments.", "anchors": ["webmod.d/src/webmod_res.F: webrinit, webrrun", "webmod.d/src/route_clark.F: q, chan_loss"]}
{"id": "C71", "title": "Reservoirs and hillslope model agree", "statement": "When reservoirs and hillslope model run side by side from their initial states, the fluxes that the hillslope model reports fit the reservoir balance in every step, and the volume in the reservoir of each topographic bin is the depth of water that the hillslope model reports for that bin times its area, but for the 1e-7 m a step that the hillslope model drops from the unsaturated zone.", "quantifier": "all parameters in range, weather, time steps and run lengths", "why_tests_cant": "Agreement of two models over every history.", "anchors": ["webmod.d/src/webmod_res.F: webrrun", "webmod.d/src/topmod_chem.F: topmrun"]}
{"id": "C72", "title": "Reactants arrive as they were sent", "statement": "When the reactants stored under a range of numbers (solutions, exchangers, gas phases, kinetics, phase and solid-solution assemblages, surfaces, and on request temperatures and pressures) are packed and unpacked into another instance, every one of them arrives there with all its quantities, under its number, and nothing else in that instance changes; several packed ranges arrive in their order; packing what arrived gives the same data; an unknown kind of data ends the program.", "quantifier": "all systems of reactants with named amounts, all ranges of numbers, all states of the receiving instance", "why_tests_cant": "A writer and a reader of two dozen classes have to agree field by field for every content, with one common index into three arrays.", "anchors": ["IPhreeqcMMS/IPhreeqc/src/phreeqcpp/Serializer.cxx: Serialize, Deserialize", "IPhreeqcMMS/IPhreeqc/src/phreeqcpp/Dictionary.cpp: Find", "IPhreeqcMMS/IPhreeqc/src/phreeqcpp/Solution.cxx: Serialize, Deserialize", "IPhreeqcMMS/IPhreeqc/src/phreeqcpp/Surface.cxx: Serialize, Deserialize", "IPhreeqcMMS/IPhreeqc/src/phreeqcpp/NameDouble.cxx: Serialize, Deserialize"]}
{"id": "C73", "title": "The dictionary of packed data survives as text", "statement": "The dictionary of packed data lists every word once, under a number that never changes; rebuilt from its text it is the same dictionary, and the data unpack as with the original.", "quantifier": "all packed systems whose words have no line break", "why_tests_cant": "Numbers given while packing have to mean the same words after any further packing and after a trip through text.", "anchors": ["IPhreeqcMMS/IPhreeqc/src/phreeqcpp/Dictionary.cpp: Dictionary, Find, GetDictionaryOss", "IPhreeqcMMS/IPhreeqc/src/phreeqcpp/Serializer.cxx: Deserialize"]}
{"id": "C74", "title": "Expressions of BASIC programs mean what they say", "statement": "A formula in a BASIC program (USER_PUNCH, USER_PRINT, RATES) is evaluated with the usual order of operations: parentheses, then functions and signs, powers, products, sums, comparisons, AND, OR; operations of equal rank go from left to right; the value is that of the formula's tree, evaluation stops right behind the formula, and it ends for every input.", "quantifier": "all formulas, all values of the variables, all token sequences (termination)", "why_tests_cant": "The tree of a formula has unbounded depth and the evaluation rewrites the interpreter's state; only an induction over all formulas shows that no combination is grouped wrongly.", "anchors": ["IPhreeqcMMS/IPhreeqc/src/phreeqcpp/PBasic.cpp: parse, factor, upexpr, term, sexpr, relexpr, andexpr, expr"]}
{"id": "C75", "title": "Array elements of BASIC programs are kept apart", "statement": "Different subscripts of a BASIC array stand for different elements, all of them inside the array's storage; a subscript out of bounds ends the program with an error; the first use of an array makes subscripts from 0 to 10 with all elements zero or empty.", "quantifier": "all numbers of dimensions, all bounds, all subscripts", "why_tests_cant": "The cell is computed from any number of dimensions and any bounds.", "anchors": ["IPhreeqcMMS/IPhreeqc/src/phreeqcpp/PBasic.cpp: findvar, skipparen"]}
{"id": "C76", "title": "A structured BASIC program ends and does what its statements say", "statement": "A program (RATES, USER_PUNCH, ...) written with assignments, DIM, ERASE, PRINT, PUNCH, SAVE, PUT, READ/DATA/RESTORE, IF/THEN/ELSE, FOR/NEXT, WHILE/WEND, GOSUB/RETURN and ON ... GOSUB, whose meaning by the usual rules is defined, ends when run, and leaves exactly the variables, saved values and output which that meaning gives; how the program is laid out on lines, and how deep loops and branches are nested, makes no difference.", "quantifier": "every program of these statements, every nesting, layout on lines, data and start values, and every behaviour of the functions for exp, log and chemical quantities", "why_tests_cant": "a test runs a few programs; loops are found again by scanning tokens, with counters and a record stack, and an error shows only for some nesting", "anchors": ["IPhreeqcMMS/IPhreeqc/src/phreeqcpp/PBasic.cpp:exec", "IPhreeqcMMS/IPhreeqc/src/phreeqcpp/PBasic.cpp:cmdfor", "IPhreeqcMMS/IPhreeqc/src/phreeqcpp/PBasic.cpp:cmdnext", "IPhreeqcMMS/IPhreeqc/src/phreeqcpp/PBasic.cpp:cmdwhile", "IPhreeqcMMS/IPhreeqc/src/phreeqcpp/PBasic.cpp:cmdwend", "IPhreeqcMMS/IPhreeqc/src/phreeqcpp/PBasic.cpp:cmdif", "IPhreeqcMMS/IPhreeqc/src/phreeqcpp/PBasic.cpp:cmdelse", "IPhreeqcMMS/IPhreeqc/src/phreeqcpp/PBasic.cpp:cmdgosub", "IPhreeqcMMS/IPhreeqc/src/phreeqcpp/PBasic.cpp:cmdreturn", "IPhreeqcMMS/IPhreeqc/src/phreeqcpp/PBasic.cpp:cmdread", "IPhreeqcMMS/IPhreeqc/src/phreeqcpp/PBasic.cpp:cmddim", "IPhreeqcMMS/IPhreeqc/src/phreeqcpp/PBasic.cpp:skiploop"]}
{"id": "C77", "title": "Lines of a BASIC program are kept by number", "statement": "However lines are typed, the program has them in ascending order, one for each number, with the text typed last; a number without text removes its line. RENUM numbers the lines evenly in the same order, and every number behind GOTO, GOSUB, THEN, ELSE, RUN, RESTORE or in an ON list names the same line afterwards. Lines are cut at line ends and semicolons.", "quantifier": "every sequence of typed lines, every program, first number and increment", "why_tests_cant": "insertion, replacement and renumbering must agree for every order of entry and every reference", "anchors": ["IPhreeqcMMS/IPhreeqc/src/phreeqcpp/PBasic.cpp:parseinput", "IPhreeqcMMS/IPhreeqc/src/phreeqcpp/PBasic.cpp:cmdrenum", "IPhreeqcMMS/IPhreeqc/src/phreeqcpp/PBasic.cpp:findline", "IPhreeqcMMS/IPhreeqc/src/phreeqcpp/PBasic.cpp:basic_compile"]}
{"id": "C78", "title": "What a BASIC program stores is what it reads back", "statement": "After PUT(v, i, j, ...) GET(i, j, ...) gives v, and GET of any other list of numbers what it gave before; after an assignment the variable or element has the value and no other variable, element, saved value or output has changed.", "quantifier": "every expression, list of subscripts and earlier contents", "why_tests_cant": "keys are texts made from the subscripts; that no two lists share a key is a statement about all lists", "anchors": ["IPhreeqcMMS/IPhreeqc/src/phreeqcpp/PBasic.cpp:cmdput", "IPhreeqcMMS/IPhreeqc/src/phreeqcpp/PBasic.cpp:factor", "IPhreeqcMMS/IPhreeqc/src/phreeqcpp/PBasic.cpp:cmdlet"]}
{"id": "C79", "title": "Jumps of a BASIC program go to the line they name", "statement": "GOTO n continues with the line of number n, ON e GOTO with the line at place e of the list, and with the next statement if the list has no such place; variables, output, data position and open loops and calls are not touched. ON e GOSUB without such a place likewise leaves everything as it was.", "quantifier": "every program, state, list and value", "why_tests_cant": "the cases are determined by positions in lists of any length and by the state of the stack of loops", "anchors": ["IPhreeqcMMS/IPhreeqc/src/phreeqcpp/PBasic.cpp:cmdgoto", "IPhreeqcMMS/IPhreeqc/src/phreeqcpp/PBasic.cpp:cmdon", "IPhreeqcMMS/IPhreeqc/src/phreeqcpp/PBasic.cpp:cmdgosub"]}
{"id": "C80", "title": "Temperatures of hillslopes follow the station, the month's lapse rates and the adjustments", "statement": "A hillslope's highest, lowest and mean air temperature of every step are its station's, less the current month's lapse rate times the height above the station, plus the hillslope's adjustment, in both units; whether the data are in degrees C or F makes no difference; the basin's temperature lies between the lowest and the highest of the hillslopes; the highest is not below the lowest. Refuted: with steps below a day the temperature read in one unit is not carried to the other; highest below lowest is possible.", "quantifier": "all data, lapse rates, heights, adjustments, start dates, numbers of steps per day and lengths of runs", "why_tests_cant": "Corrections are kept from step to step and renewed on the first of a month: only induction over dates shows that no step uses another month's.", "anchors": ["webmod.d/src/obs_webmod.F obsrun", "webmod.d/src/temp_1sta_prms.F t1init, t1run"]}
{"id": "C81", "title": "Reaction temperatures are running means", "statement": "The temperature at which reactions of a horizon are computed is the mean over the last n days (n a real, the oldest day counted by its fraction) of the chosen daily temperature, plus the adjustment, and so lies between the extremes of the window. Refuted: days before the start of the run count as 0 degrees.", "quantifier": "all window lengths from 1, adjustments, statistics, temperatures and lengths of runs", "why_tests_cant": "The shifted array of old temperatures has to be related to the whole history of the run.", "anchors": ["webmod.d/src/temp_1sta_prms.F t1init, t1run"]}
{"id": "C82", "title": "Transpiration follows the season", "statement": "Transpiration begins after the first day of the plant's first month once the sum of highest temperatures above zero exceeds its index, ends on the first day of the last month, is off until the next season, every year; at the start of a run the state is that of the date. Refuted: a season whose index is not reached in time starts later, out of season.", "quantifier": "all plants, dates, temperatures and numbers of years", "why_tests_cant": "The switch, the check flag and the sum depend on the whole history.", "anchors": ["webmod.d/src/potet_hamon_prms.F petinit, petrun"]}
{"id": "C83", "title": "Potential evaporation of a day", "statement": "Potential evaporation is the pan's, unless missing, or Hamon's; it is not negative; the values of a day's steps add up to the day's value, fixed by its first step; with daily steps every step has its own value.", "quantifier": "all data, coefficients, step lengths and runs", "why_tests_cant": "The value kept from the first step of a day has to be right for all later steps and all dates.", "anchors": ["webmod.d/src/potet_hamon_prms.F petrun"]}
{"id": "C84", "title": "Potential radiation follows one curve over the year", "statement": "The potential radiation and the hours of sun of a hillslope on every day of a run are those of a fixed curve of the day of the solar year, piecewise linear between the table's days, whatever the start date, the number of steps per day and the leap years in between; so they stay within the table's extremes. Refuted for runs that start on 21 December: extrapolated for a year, or four if the year is a leap year.", "quantifier": "all tables, start dates, numbers of steps per day and lengths of runs", "why_tests_cant": "The place in the table is kept in counters from day to day: only induction over dates shows that it never drifts.", "anchors": ["webmod.d/src/ccsolrad_web.F csolinit, csolrun"]}
{"id": "C85", "title": "Radiation on hillslopes is observed or estimated from cloud cover", "statement": "An observed radiation is used if it is within limits; otherwise the potential radiation of level ground is reduced by a part within limits and by the factor for rain of the season; a wider range of temperature never gives less; hillslopes get radiation in the ratio of their potential radiation per area. Refuted: the first hillslope stands for level ground; if the sun does not reach it, no hillslope has a radiation.", "quantifier": "all observations, temperatures, parameters and tables", "why_tests_cant": "Bounds and monotony over all reals of several limits in a row.", "anchors": ["webmod.d/src/ccsolrad_web.F csolrun"]}
{"id": "C86", "title": "Hours of sun on a slope", "statement": "The hours of sun on a slope are exactly the time in which the sun is above both the level horizon and the slope's own, and so not negative and not more than on level ground.", "quantifier": "all half days and shifts of noon that slopes can have", "why_tests_cant": "Six cases of overlapping intervals with wrap-around; tests meet few of them.", "anchors": ["webmod.d/src/soltab_prms.F stinit"]}
{"id": "C87", "title": "Unsaturated zone and its parts", "statement": "After any sequence of steps, every entry in the account of the unsaturated zone of a hillslope (water, temperature, pH, moles, isotopes, what each entity made) is the sum of the entries for its riparian and for its upland part.", "quantifier": "all runs: any calls, any tally tables, any number of solutes, entities and steps", "why_tests_cant": "The accounts are kept in some forty places; a test sees one run.", "anchors": ["webmod.d/src/phreeq_mms.F90 update_chem", "webmod.d/src/phreeq_mms.F90 fractionate"]}
{"id": "C88", "title": "Reactions of the basin are those of its parts", "statement": "After any run, the moles of a solute made by reactions in the basin, and the moles each entity made, are the sum over the hillslopes and the streams; moles left over add up in the same way.", "quantifier": "all runs of calls of the kinds the main routine makes, any number of hillslopes", "why_tests_cant": "Sums over unboundedly many calls.", "anchors": ["webmod.d/src/phreeq_mms.F90 update_chem", "webmod.d/src/phreeq_mms.F90 phreeqmms_run"]}
{"id": "C89", "title": "A reservoir after one call", "statement": "After reactions, the moles left in a reservoir are those before reaction plus those made; they are those of the tally table; the fraction reported for a solute times what the entities made is what was made; flows add their volume and the moles in it and change no other reservoir; each isotope keeps its own delta.", "quantifier": "all states, calls, volumes, concentrations and tally tables", "why_tests_cant": "Arbitrary real inputs.", "anchors": ["webmod.d/src/phreeq_mms.F90 update_chem", "webmod.d/src/phreeq_mms.F90 phreeqmms_init"]}
{"id": "C90", "title": "Water and solutes passed from segment to segment", "statement": "In a pass over the stream segments, what a segment receives is what its hillslopes give plus what the segment above passes on, in water and in moles; the account of all streams receives what the hillslopes give, loses what is diverted, leaks or leaves at the outlet, and keeps what is in the segments.", "quantifier": "any number of segments, any flows, diversions, losses and concentrations", "why_tests_cant": "Any number of segments; effects of one segment on the next.", "anchors": ["webmod.d/src/phreeq_mms.F90 phreeqmms_run", "webmod.d/src/phreeq_mms.F90 update_chem"]}
{"id": "C91", "title": "What is reported of an account", "statement": "The mean temperature reported for inflow, outflow and what is left lies between those of the waters involved; the final concentration reported is the final amount divided by the final volume; amounts reported in moles or mass, per area and per volume agree.", "quantifier": "all runs, waters, units and metrics", "why_tests_cant": "Weighted means over unboundedly many flows.", "anchors": ["webmod.d/src/phreeq_mms.F90 phreeqmms_run", "webmod.d/src/phreeq_mms.F90 chem2var"]}
{"id": "C92", "title": "Amounts of REACTION in steps", "statement": "A REACTION line 'v unit in n steps' adds k/n of v by step k, in one go or incrementally; a list of amounts gives step k its k-th amount, the last one for further steps; units scale all amounts; without an amount one mole is added.", "quantifier": "all lines of amounts, units, counts and steps", "why_tests_cant": "The amounts of all steps for all schedules.", "anchors": ["IPhreeqcMMS/IPhreeqc/src/phreeqcpp/read.cpp read_reaction_steps", "IPhreeqcMMS/IPhreeqc/src/phreeqcpp/step.cpp add_reaction", "IPhreeqcMMS/IPhreeqc/src/phreeqcpp/Reaction.cxx"]}
{"id": "C93", "title": "Times of KINETICS in steps", "statement": "KINETICS '-steps T unit in n' integrates k/n of T by step k, in either mode; a list of times gives step k its own; the unit given applies to all times.", "quantifier": "all step lines, units, counts and steps", "why_tests_cant": "The times of all steps for all schedules.", "anchors": ["IPhreeqcMMS/IPhreeqc/src/phreeqcpp/read.cpp read_kinetics", "IPhreeqcMMS/IPhreeqc/src/phreeqcpp/cxxKinetics.cxx Current_step"]}
{"id": "C94", "title": "Temperatures and pressures of the steps", "statement": "REACTION_TEMPERATURE or _PRESSURE with two levels in n increments starts at the first, ends at the second, rises evenly between and never leaves that range; a list gives step k its k-th level or the last.", "quantifier": "all levels, counts and steps", "why_tests_cant": "Must hold for every step of every schedule.", "anchors": ["IPhreeqcMMS/IPhreeqc/src/phreeqcpp/Temperature.cxx Temperature_for_step", "IPhreeqcMMS/IPhreeqc/src/phreeqcpp/Pressure.cxx Pressure_for_step"]}
{"id": "C95", "title": "A batch reaction does its steps", "statement": "A batch reaction runs as many steps as the longest schedule in use; without INCREMENTAL_REACTIONS each starts from the entities as defined, with it from the result of the step before; entities the user defined are unchanged except those SAVE names and the kinetics in use, and SAVE stores the result of the last step in every number of its range.", "quantifier": "all entities in use, schedules, save ranges, reaction results", "why_tests_cant": "Histories of unbounded length and every set of entities.", "anchors": ["IPhreeqcMMS/IPhreeqc/src/phreeqcpp/mainsubs.cpp reactions", "IPhreeqcMMS/IPhreeqc/src/phreeqcpp/mainsubs.cpp saver", "IPhreeqcMMS/IPhreeqc/src/phreeqcpp/mainsubs.cpp copy_use"]}
{"id": "C96", "title": "ADVECTION moves the column", "statement": "Each shift gives every cell the solution of the cell before it, cell 1 solution 0, and lets it react once with what the cell holds; nothing outside the column changes; what the reactions keep changes only by inflow from solution 0 and outflow of the last cell; a column with missing solutions, or kinetics without a time step, is refused.", "quantifier": "all columns, reactions and numbers of shifts", "why_tests_cant": "Histories of unbounded length, columns of any length.", "anchors": ["IPhreeqcMMS/IPhreeqc/src/phreeqcpp/advection.cpp advection", "IPhreeqcMMS/IPhreeqc/src/phreeqcpp/kinetics.cpp set_advection"]}
{"id": "C97", "title": "Output of ADVECTION", "statement": "The lines written are those of the cells asked for, all cells when none are named, at the shifts that are multiples of the frequency, and no others.", "quantifier": "all lists of cells, frequencies, columns and numbers of shifts", "why_tests_cant": "Must hold for all shifts and cells.", "anchors": ["IPhreeqcMMS/IPhreeqc/src/phreeqcpp/read.cpp read_advection", "IPhreeqcMMS/IPhreeqc/src/phreeqcpp/advection.cpp advection"]}
{"id": "C98", "title": "The answer of a mixing call", "statement": "A mixing call of webmod answers 0 only if its mixture and its reaction succeeded, and then gives the pH, temperature and concentrations of the mixture and the pH after the reaction; the temperature given by the caller is the one of the reaction; it never writes outside its arrays.", "quantifier": "all requests, all results of the chemistry, all columns of selected output", "why_tests_cant": "The answer must be right for every outcome of every simulation of the call.", "anchors": ["IPhreeqcMMS/src/phr_mix.F90 phr_mix", "IPhreeqcMMS/src/fortran.cpp RunMixF", "IPhreeqcMMS/IPhreeqc/src/IPhreeqc.cpp RunAccumulated"]}
{"id": "C99", "title": "Copies of entities", "statement": "A copying call copies each pair of numbers in turn, passes over pairs with a negative number, answers 0 only if all were copied and stops at the first error.", "quantifier": "all lists of pairs, all stores of entities", "why_tests_cant": "Lists of any length and numbers of any size.", "anchors": ["IPhreeqcMMS/src/phr_multicopy.f90 phr_multicopy", "IPhreeqcMMS/IPhreeqc/src/phreeqcpp/ReadClass.cxx read_copy"]}
{"id": "C100", "title": "The header of the file of chemical observations", "statement": "Species and units of the file's columns are read in order and each solute takes the last column of its species; a header that does not begin with tempc and pH, an unknown species or an unknown unit stops the run, and nothing outside the tables is read.", "quantifier": "all headers, tables of species and lists of solutes", "why_tests_cant": "Every header text of every length.", "anchors": ["webmod.d/src/obs_chem.F obsc_init", "webmod.d/src/obs_chem.F parsechemobs", "webmod.d/src/obs_chem.F unit_id"]}
{"id": "C101", "title": "Chemical observations of a step", "statement": "Every step uses the record of its own date, or the run ends; precipitation, external sources and samples get the temperature, the pH and the concentrations of their part of the record, converted to moles by the unit of the column; values that are missing or unreadable are not replaced by others.", "quantifier": "all files, dates, units and numbers of sources", "why_tests_cant": "Histories of any length over every file.", "anchors": ["webmod.d/src/obs_chem.F obsc_run"]}
{"id": "C102", "title": "Solutions and samples of a step", "statement": "Precipitation and each external source of the file become solutions and each sample is recorded, each at its own place.", "quantifier": "all numbers of sources and samples and both switches", "why_tests_cant": "Every combination of numbers and switches.", "anchors": ["webmod.d/src/phreeq_mms.F90 phreeqmms_run"]}
{"id": "C103", "title": "Lines of input", "statement": "A reader of input gets the lines that a text stands for, in order: newlines and semicolons end lines, a backslash at the end of a line joins it to the next, remarks and blank lines are dropped, DOS line ends make no difference, and the lines of an included file stand where it is asked for, at any depth.", "quantifier": "all texts, remarks, joins, and trees of included files", "why_tests_cant": "Every text and every nesting of files.", "anchors": ["IPhreeqcMMS/IPhreeqc/src/phreeqcpp/PhreeqcKeywords/Keywords.cpp Keyword_search", "IPhreeqcMMS/IPhreeqc/src/phreeqcpp/common/PHRQ_io.cpp get_line", "IPhreeqcMMS/IPhreeqc/src/phreeqcpp/common/PHRQ_io.cpp get_logical_line"]}
{"id": "C104", "title": "Keywords, options and data", "statement": "A line is a keyword when its first word is the name of a keyword whatever its capitals; otherwise it is an option when its first word is a minus and a letter; otherwise it is data.", "quantifier": "all lines and all sets of keywords", "why_tests_cant": "Every line.", "anchors": ["IPhreeqcMMS/IPhreeqc/src/phreeqcpp/common/PHRQ_io.cpp check_key", "IPhreeqcMMS/IPhreeqc/src/phreeqcpp/common/PHRQ_io.cpp get_line"]}
{"id": "C105", "title": "Names of options", "statement": "After a minus an option may be abbreviated, capitals make no difference, and an abbreviation that fits several options is reported; without the minus the whole name is needed. The text after the option is passed on unchanged.", "quantifier": "all lists of names, words, texts and sizes of the line buffer", "why_tests_cant": "Every abbreviation and every length of line, up to the end of the buffer.", "anchors": ["IPhreeqcMMS/IPhreeqc/src/phreeqcpp/read.cpp get_option", "IPhreeqcMMS/IPhreeqc/src/phreeqcpp/read.cpp find_option", "IPhreeqcMMS/IPhreeqc/src/phreeqcpp/utilities.cpp replace"]}
{"id": "C106", "title": "Values of KNOBS", "statement": "Each setting has after a KNOBS block the last value the block gives for it, or its old value if the block gives none; unknown input and missing numbers are errors.", "quantifier": "all blocks, names, abbreviations and values", "why_tests_cant": "Every sequence of lines.", "anchors": ["IPhreeqcMMS/IPhreeqc/src/phreeqcpp/read.cpp read_debug", "IPhreeqcMMS/IPhreeqc/src/phreeqcpp/read.cpp get_true_false"]}
{"id": "C107", "title": "Repeated attempts at a calculation", "statement": "A calculation that does not converge is tried again with other settings, in a fixed order and up to the limit on tries; each attempt starts from the same phases, solid solutions and kinetics; the run is stopped only after all attempts have failed.", "quantifier": "all settings, limits, models and all behaviours of the calculation", "why_tests_cant": "Every sequence of failures and every effect of a failed attempt.", "anchors": ["IPhreeqcMMS/IPhreeqc/src/phreeqcpp/kinetics.cpp set_and_run_wrapper"]}
{"id": "C108", "title": "Settings after a calculation", "statement": "However many attempts a calculation needs and however it ends, the convergence settings afterwards are those of the user.", "quantifier": "all settings, limits, models and all behaviours of the calculation", "why_tests_cant": "Every sequence of failures and every way to end.", "anchors": ["IPhreeqcMMS/IPhreeqc/src/phreeqcpp/kinetics.cpp set_and_run_wrapper", "IPhreeqcMMS/IPhreeqc/src/phreeqcpp/mainsubs.cpp initial_solutions"]}
{"id": "C109", "title": "How units are written", "statement": "Units of concentration can be written in upper or lower case, with or without blanks, and with the long or short names of their parts (milligrams/liter, mg/L, mmoles/kg solution and so on); every such spelling is understood as the same standard unit. A text that is not a unit is refused.", "quantifier": "all spellings in a list of prefixes, amounts and denominators, all blanks and cases, and all texts that are not units", "why_tests_cant": "Combinations of names, cases and blanks.", "anchors": ["IPhreeqcMMS/IPhreeqc/src/phreeqcpp/read.cpp check_units", "IPhreeqcMMS/IPhreeqc/src/phreeqcpp/utilities.cpp replace", "IPhreeqcMMS/IPhreeqc/src/phreeqcpp/common/Utils.cxx squeeze_white"]}
{"id": "C110", "title": "Which units go together", "statement": "The units of an element are accepted only if they have the denominator of the units of its solution, and equivalents only for alkalinity.", "quantifier": "all units of the solution and of the element", "why_tests_cant": "All pairs of units.", "anchors": ["IPhreeqcMMS/IPhreeqc/src/phreeqcpp/read.cpp check_units, read_solution"]}
{"id": "C111", "title": "Amounts in a solution", "statement": "From concentrations in a mixture of units the moles of every element are computed such that the solution, made up of its water and its solutes, has each of the given concentrations; if there can be no such solution, or if a formula weight is unknown, this is reported.", "quantifier": "all lists of elements, units, concentrations, densities and formula weights", "why_tests_cant": "All mixtures of units and all concentrations.", "anchors": ["IPhreeqcMMS/IPhreeqc/src/phreeqcpp/prep.cpp convert_units"]}
{"id": "C112", "title": "File of statistics variables", "statement": "The file of statistics variables has the number of variables, their names and elements as chosen, and for each step of the run one line with the step, the date and the values that the chosen elements have at that moment, in the order chosen; a variable that is not published stops the run.", "quantifier": "all lists of chosen variables, all histories of values", "why_tests_cant": "Every run and every choice.", "anchors": ["mmf_c/src/write_vstats.c write_vstats", "mmf_c/src/create_vstats.c create_vstats", "mmf_c/src/batch_run_functions.c single_run_pre_init, single_run_post_run"]}
{"id": "C113", "title": "Animation files", "statement": "There is one animation file for each dimension of the chosen variables; for each step and each index it has a row with the date, the index and the values, at this index, of all chosen variables of that dimension, in the order chosen and under their names.", "quantifier": "all lists of chosen variables, all sizes of dimensions, all histories of values", "why_tests_cant": "Every run and every choice.", "anchors": ["mmf_c/src/batch_run_functions.c single_run_pre_init, single_run_post_run"]}
{"id": "C114", "title": "Isotopes in evaporation", "statement": "Water that evaporates or sublimates takes with it, of each isotope, the amount that leaves a rest after the law of Rayleigh for the given fractionation; none is made or lost, the vapour is not heavier than the water, transpiration and complete evaporation change nothing, and unknown isotopes are refused.", "quantifier": "all volumes, isotopes, temperatures and humidities", "why_tests_cant": "Every step of every unit.", "anchors": ["webmod.d/src/phreeq_mms.F90 fractionate"]}
{"id": "C115", "title": "Humidity and wet bulb", "statement": "The relative humidity of a unit is that of air with the vapour measured at the station, at the unit's temperature; saturated vapour pressure is positive and grows with temperature; the wet bulb balances the vapour, and in saturated air is the temperature of the air.", "quantifier": "all temperatures, pressures and humidities", "why_tests_cant": "Every day of every unit.", "anchors": ["webmod.d/src/phreeq_mms.F90 satvp, wetbulb, phr_mms run (humidity, temperature of precipitation)"]}
{"id": "C116", "title": "Mixing factors of a column", "statement": "For every column of cells with positive lengths, dispersivities that are not negative, any flow direction and any boundary conditions, the mixing of TRANSPORT gives each cell non-negative parts of its neighbours and keeps more than a third of its own solution; all mixes of a time step together exchange between two cells what dispersion (harmonic mean of dispersivities) and diffusion over the distance of their middles do, and at the ends only with a constant solution; there is no mixing only without flow and diffusion. Cells of the same length exchange equal parts; without flow the parts are as the lengths are.", "quantifier": "all columns: number of cells, lengths, dispersivities, flow direction, boundary conditions, diffusion coefficient, time step", "why_tests_cant": "the factors depend on all lengths and dispersivities at once and the number of mixes on the largest of them; a test sees some columns", "anchors": ["IPhreeqcMMS/IPhreeqc/src/phreeqcpp/transport.cpp init_mix", "IPhreeqcMMS/IPhreeqc/src/phreeqcpp/transport.cpp transport"]}
{"id": "C117", "title": "A tracer in TRANSPORT", "statement": "For every column, every number of steps and every set of solutions: in a mix all cells change at once from what they had before; with flow each cell gets the solution of the cell before it; without dispersion and diffusion the solutions move as they are; a conservative tracer stays between the smallest and the largest value given; it is conserved: without flow and constant ends the sum of the cells stays, with flow a step brings in the solution at one end and takes out that of the last cell. TRANSPORT starts only if all cells and the end of inflow have a solution.", "quantifier": "all columns, numbers of steps and solutions", "why_tests_cant": "conservation and bounds must hold after any number of steps and for any column; a test follows a few columns for a few steps", "anchors": ["IPhreeqcMMS/IPhreeqc/src/phreeqcpp/transport.cpp transport", "IPhreeqcMMS/IPhreeqc/src/phreeqcpp/transport.cpp init_mix"]}
{"id": "C118", "title": "Heat in TRANSPORT", "statement": "For every column, conductivity and temperatures: heat is exchanged between cells as conduction over the distance of their middles does, temperatures stay between the lowest and the highest, their sum changes only through constant ends, and any difference of temperatures evens out.", "quantifier": "all columns, conductivities, time steps and temperatures", "why_tests_cant": "ranges over all columns and temperatures", "anchors": ["IPhreeqcMMS/IPhreeqc/src/phreeqcpp/transport.cpp init_heat_mix", "IPhreeqcMMS/IPhreeqc/src/phreeqcpp/transport.cpp heat_mix"]}
{"id": "C119", "title": "Snowmelt of a period", "statement": "In a period with little or no rain the snow melts by the melt factor for each degree above the base temperature; in rain it melts by the energy of long-wave exchange, condensation, sensible heat and the rain, never negative. No snow melts in dry air below the base temperature, warmer air never melts less, the heat deficit grows only in air colder than the snow, the temperature of the snow moves towards that of the air without overshooting, and sublimation happens by day in dry periods only. The four temperatures of a day follow from its extremes and yesterday's maximum.", "quantifier": "all temperatures, rains, parameters of snow and periods of the day", "why_tests_cant": "the rates are functions of seven real inputs and eight parameters; a test samples a few", "anchors": ["webmod.d/src/nwsmelt_topg.F MELTRATE", "webmod.d/src/nwsmelt_topg.F nwsmrun (temperatures of the periods)"]}
{"id": "C120", "title": "Laws of flow on a hillslope", "statement": "In each step base flow follows the law chosen for the unit (exponential, parabolic or linear) from the mean deficit; leakage to deep ground water follows from the height of the water table; water from the soil divides between recharge and direct flow, and rain between soil and macropores, in the given proportions; the deficits of the classes of topographic index have the mean deficit of the unit as their mean and are smaller where the index is larger; evapotranspiration falls in proportion to the deficit of the root zone and is shared by the vegetation.", "quantifier": "all units, classes, weather, states and steps", "why_tests_cant": "ranges over all parameters and states of a hillslope", "anchors": ["webmod.d/src/topmod_chem.F topmrun", "webmod.d/src/topmod_chem.F topminit"]}
{"id": "C121", "title": "Summaries by day, month, year and run", "statement": "Each line of a summary reports exactly the steps of its day, month, year or run: sums are the sums over those steps, every step counted once and none of an earlier period; radiation and discharge are means over the steps, temperatures extremes of them, and temperature, pH and isotopes of a water averages by volume within the range of the steps. The lines of the days of a finished run add up to the line of the run, as do those of months and years. The reported error of the water balance is what came in less what went out less the change in storage. The print frequency selects the lines.", "quantifier": "all runs, steps, ends of periods, print frequencies and values", "why_tests_cant": "ranges over runs of any length, divided into periods in any way", "anchors": ["webmod.d/src/web_sum.F sumbrun", "webmod.d/src/web_sum.F sumbinit"]}
{"id": "C122", "title": "Numbers of keywords, ranges and lists of numbers", "statement": "A keyword line with a number defines the entity of that number, one with a range defines every number of the range with the same content and changes no other, and one without a number defines number 1; the rest of the line is the description. The last number is never below the first. A list of numbers and ranges stands for exactly its numbers in order, and where numbers must be positive, a list read without error has positive numbers only.", "quantifier": "all keyword lines, numbers, ranges, descriptions and lists", "why_tests_cant": "ranges over all texts, with numbers and ranges of any size", "anchors": ["IPhreeqcMMS/IPhreeqc/src/phreeqcpp/NumKeyword.cxx read_number_description", "IPhreeqcMMS/IPhreeqc/src/phreeqcpp/read.cpp read_list_ints_range", "IPhreeqcMMS/IPhreeqc/src/phreeqcpp/read.cpp read_mix"]}
{"id": "C123", "title": "Dates of TSPROC", "statement": "For every date of the Gregorian calendar from the year 1 on: the number of days between two dates is the number of steps from one day to the next, negative backwards; the date any number of days later or earlier is found; the date is found again from its day number, and the order of dates is that of their numbers. Leap years, the length of a year, the day of the year and the day of the water year are those of the calendar, and a day of the water year has the same number in leap and in other years.", "quantifier": "all dates and numbers of days", "why_tests_cant": "ranges over all dates of an unbounded calendar", "anchors": ["tsproc-trunk/tsproc-master/src/tsp_utilities.F90 julian_day", "tsproc-trunk/tsproc-master/src/tsp_utilities.F90 gregorian_date", "tsproc-trunk/tsproc-master/src/tsp_utilities.F90 newdate", "tsproc-trunk/tsproc-master/src/tsp_utilities.F90 numdays", "tsproc-trunk/tsproc-master/src/tsp_utilities.F90 water_year_and_day"]}
{"id": "C124", "title": "Base flow of TSPROC", "statement": "The interval for the separation of base flow is odd, from 3 to 11 days, and grows with the drainage area. By sliding intervals the base flow of a day is the lowest flow within half the interval of it, by fixed intervals the lowest flow of its interval, the last one cut at the end of the record. By local minima it follows a straight line of logarithms from each minimum to the next, is the flow of the minimum on the day of the minimum, and is never above the flow. Base flow of a record without missing values is neither negative nor above the flow.", "quantifier": "all records of flow, intervals and drainage areas", "why_tests_cant": "ranges over all records of any length and all positions of minima and missing days; unit tests use a few records", "anchors": ["tsproc-trunk/tsproc-master/src/wsc_additions.F90 usgs_hysep", "tsproc-trunk/tsproc-master/src/wsc_additions.F90 FIXED", "tsproc-trunk/tsproc-master/src/wsc_additions.F90 SLIDE", "tsproc-trunk/tsproc-master/src/wsc_additions.F90 LOCMIN"]}
{"id": "C125", "title": "Sorting, medians and quantiles of TSPROC", "statement": "Any numbers are sorted from the lowest to the highest, and the order given out tells for each where it was. The median is the middle number or the mean of the two in the middle: half of the numbers are not above it and half not below. A quantile lies on the straight line between neighbouring numbers, from the lowest to the highest, grows with its share, and for one half is the median.", "quantifier": "all lists of numbers and all shares", "why_tests_cant": "ranges over all lists of any length, order and ties, and all shares; unit tests use a few lists", "anchors": ["tsproc-trunk/tsproc-master/src/tsp_utilities.F90 quick_sort", "tsproc-trunk/tsproc-master/src/tsp_utilities.F90 median", "tsproc-trunk/tsproc-master/src/tsp_utilities.F90 quantile_scalar", "tsproc-trunk/tsproc-master/src/tsp_utilities.F90 quantile_vector"]}
{"id": "C126", "title": "Volumes of TSPROC", "statement": "Volumes are those under the straight lines through the samples of flow: the volume of two periods that follow one another is the sum of theirs, between two samples it is the time times the mean of the flows at the ends of the period, and it is never below the lowest or above the highest flow times the time. Periods outside of the record have no volume and are refused.", "quantifier": "all series of samples, periods and factors", "why_tests_cant": "ranges over all positions of the period among any number of samples at any spacing; unit tests use a few series", "anchors": ["tsproc-trunk/tsproc-master/src/tsp_command_processors.F90 volume_interp_s"]}
{"id": "C127", "title": "Interpolation of time series in TSPROC", "statement": "Brought to the times of another series, a series has at each of these the value of its sample taken then, or the value on the straight line between its samples before and after; a value between samples is missing when one of them is. New values are between the lowest and the highest of the old ones. The search going on from the last place found never changes a value.", "quantifier": "all series, and all times within the record that do not go back", "why_tests_cant": "ranges over any number of samples and times and all their positions to each other; unit tests use a few series", "anchors": ["tsproc-trunk/tsproc-master/src/tsp_command_processors.F90 time_interp_s", "tsproc-trunk/tsproc-master/src/tsp_time_series_processors.F90 time_base"]}
{"id": "C128", "title": "Periods made from a series in TSPROC", "statement": "By months, there is one period for each month with 25 samples or more and no other, from the first to the last day with a sample in that month; the periods come in order and do not overlap. By years, there is a period for each year with 350 samples or more, from its first day with a sample in January to its last in December.", "quantifier": "all series of day numbers that do not go back, of any length", "why_tests_cant": "ranges over all records with any gaps over any number of years; unit tests use a few records", "anchors": ["tsproc-trunk/tsproc-master/src/tsp_utilities.F90 make_date_list"]}
