# Formal model of 3D-ICE in Rocq (Coq 8.16.1)

## Approach

The C code is modelled function by function as executable Gallina.

* Real-valued quantities (`double`) are modelled by exact rationals `Q`; every finite
  double is a rational, but *rounding is not modelled*.  Theorems about real values are
  therefore about the formulas the code evaluates, not about rounding errors.
* `uint32_t` quantities are modelled by `Z`/`N`/`nat`; where wrap-around can matter the
  `mod 2^32` is explicit and theorems carry the bound the parser enforces.
* Undefined behaviour (out-of-bounds, division by zero, NULL dereference) is an explicit
  outcome wherever the property is about it.
* External facts (kernel read/write schedules, OpenMP scheduling, the linear solver) are
  universally quantified: schedules are arbitrary lists, the solver is any vector that
  satisfies the linear system.

## Plan per property (see MANIFEST.json for status and theorem names)

| id | model | proof |
|----|-------|-------|
| C01-C03 | circular buffer with Start/End/Size/Capacity and memory list; explicit UB | invariant + refinement to `list` |
| C04-C06 | heap of nodes with prev/next pointers | separation-free invariant "forward/backward chain", refinement to `list` |
| C07-C08 | word buffer with capacity and length | invariant; C08 refuted by witness, true part proved |
| C09-C10 | byte streams, arbitrary schedule of partial reads / EINTR | induction over the schedule |
| C11-C12 | dimension arithmetic | `nia`, induction over columns |
| C13-C15 | align_to_grid, CSC fill, multiply | search-loop induction, telescoping sums |
| C16-C18 | floorplans with queues | refinement to per-element lists; C18 refuted |
| C19-C22 | simulation state machine with abstract solver | induction on call sequences; C22 refuted + partial |
| C23-C24 | stack element list, offsets, layer typing | induction on the stack |
| C25-C33 | matrix assembly columns as emitted by the code | sums over grid, case analysis; linear-algebra lemmas over `Q` |
| C34-C37 | temperature queries | folds; C35/C36 refuted + partial |
| C38 | OpenMP regions as interleaved steps of threads on the linked lists of C04 | invariant: global + local lists + pending work = sequential result up to permutation |
| C39 | add_solid_column_non_uniform on the connection list | the sorted list of keys is unique; the diagonal is a sum over the list |
| C40, C42 | rectangles over `Q` with the EPSILON comparisons | case analysis on relative positions; tilings by rows and columns |
| C41 | update_number_of_cells, get_cell_position | refinement to a declarative grid (NuSpec.v), layer by layer |
| C43-C45 | parser semantic actions | decimal arithmetic, list induction |
| C46-C48 | server loop, message encodings | induction over requests, codec round-trip |
| C49 | spreader index maps | `nia` |
| C50 | emulator loop | trace semantics induction |
| C51 | end of the parsing, thermal_data_build, power_grid_fill | bridge from parser results to the invariants of C16-C33, then their theorems |
| C52 | get_source_layer_offset, the generate functions of inspection_point.c | layout of the stack (C16) gives the layer of each element; the printed values are those of that layer |
| C53 | conductance, capacity and convective functions, fill_system_matrix | closed formulas (series of half-cell resistances) written in CoeffSpec.v, compared with every coefficient through the link lists of C25-C27 |
| C54 | get_cell_temperature | offset arithmetic of C11; counterexample by computation for columns outside the grid |
| C55 | update_coolant_flow_rate, update_channel_sources | histories with three kinds of calls, invariant of C23/C33 preserved by a change of flow |
| C56 | the same regions | every pair of cells of the key layers is examined once; C40 decides it |
| C57 | the same matrix against a heat network (NuMatrixSpec.v, NuLinkSpec.v) | sums over the table of entries; series of half cells; column sums |
| C58 | power_grid_build/fill, update_source_vector, fill_system_vector on the non-uniform grid (NuSource.v) against shares of elements (NuSourceSpec.v) | induction on layers and elements, pointer walks against the numbering of C41 |
| C59 | pluggable_heatsink, emulate_step, emulate_steady on the non-uniform grid (NuEmulate.v), balance of heat (NuRunSpec.v) | invariant over the steps, column sums of C57, shares of C58; solver exact; refuted for a board: its heat arrives at a constant rate and never leaves |
| C60 | solids on the non-uniform grid: matrix of NuMatrix.v, steps of NuEmulate.v (NuSolidSpec.v) | M-matrix comparison where every cell leads to a positive row sum (capacity or air); induction over steps; connections from C56 for every schedule |
| C61 | update_coolant_flow_rate on the non-uniform grid (NuFlow.v; NuCool.v for examples) | the vectors are refilled in place (same sizes); positions of the inlet heat by induction over layers; the weaker invariant `alive` survives changes, and a slot boundary renews the sources; false mid-slot: C61_refuted, C61_overflow |
| C62 | insert_power_values on the non-uniform grid (NuInsert.v) and histories of steps, insertions and flow rate changes | the insertion deals the values layer by layer and commutes with the removal of used values; invariant over histories: `alive` with all values ever given as ghost state, and the sources of the current slot |
| C63 | number of spreader cells of the non-uniform grid against NRows*NColumns of the sink (NuSource.nu_caps, NuEmulate.nu_spreader_offset) | counting over the grid of C41; overflow of arr_set_all for every spreader with a border; false: C63_overflow, C63_refuted |
| C64 | output instructions on the non-uniform grid (NuInspect.v) against the cells that contain the point or cover the rectangle (NuReadSpec.v) | the grid of C41, the ranges of elements of C41_ranges, the tilings of C42; outlet as C36; false: C64_second_rectangle_refuted, C64_far_side_refuted |
| C65 | grid mapping, the step of the FMI wrapper, its composition with emulate_step (`GridMap.v`) | `C65_fragments`, `C65_fragments_outside`, `C65_reciprocal`, `C65_covered`, `C65_mirrored`: intersections of intervals, sums over two grids exchanged; `C65_flows`, `C65_series`, `C65_direction`; `C65_called`, `C65_energy`: composed with C28. The FMU is a parameter. |
| C66 | `IceWrapper.cpp` (`IceClient.v`) against the server of C46-C48 | `C66_powers`, `C66_values`: proved for every server state by the words of the reply; `C66_map_shifted`, `C66_maps_mixed`, `C66_map_refuted`: what getMap writes; `C66_tflp_returns_lengths`; `C66_sync_never` |
| C67 | two histories of the simulation of C18-C22 that differ in their queues (`TwinProofs.v`) | `C67_schedule`: induction on the two interleavings, with the simulation relation "equal but for the contents of the queues" and the values consumed so far; `C67_remote`: the conversation of C46 against emulate_slot |
| C68 | `print_thermal_map_3D` to the last character, the loop of the emulator with T3D points on the non-uniform grid (`Vtk.v`) | `C68_file`: an independent reader of VTK legacy files (words, numerals, decimals) applied to the text, by induction on the cells; `C68_name`: numerals are read back and are injective; `C68_run`, `C68_final`, `C68_defined`: induction on the steps of C59; `_refuted`: dots in directories, two points in one file, buffer overflows, null stream |
| C69 | headers, rows, maps and axis files of the emulator character by character (`OutText.v`) | an independent reader (lines, comments, words, decimals, blocks: `OutTextSpec.v`) applied to the text; `C69_run`, `C69_interrupted`, `C69_steady`: simulation between the emulator that writes texts and the one that writes lines (C50), then induction on the rows; `C69_nu_map`: induction on the cells; `_refuted`: times of steps below 1 ms, power maps below half a milliwatt per cell, long names |
| C70 | floorplan scanner (regular expressions, start conditions), grammar, actions and printing, character by character (`Flex.v`, `FlpText.v`) | syntax as lexemes and gaps, independent of the scanner (`FlpTextSpec.v`); `C70_reads`: longest match of each rule on each lexeme (matching relation equivalent to derivatives, shapes of what any rule can match); `C70_accepted`: induction on the text; `C70_elements`: with C13/C15/C45; `C70_star_comment`: parity of the stars; printing: decimals read back (C68) and the same scanner lemmas |
| C71 | stack description scanner and grammar (`StkScan.v`, `StkText.v`) | lexemes of every section written independently (`StkTextSpec.v`); `C71_grammar`: soundness by inversion of each rule, completeness with the sets of tokens that can follow; `C71_reads`: scanner lemmas parametric in the marks, keywords and rules (`ScanProofs.v`), naturality of the syntax in numerals, names and paths; `C71_accepted`: induction on the text; stray characters: no rule matches |
| C72 | layout files: scanner, grammar, actions (`LayText.v`) | grammar soundness and completeness as C71; the actions by induction over the layouts with the invariant that the rectangles done are clear of each other; product of signed gaps below -EPSILON iff they intersect; the material of a cell: first layout that holds its middle, unique because the others are side by side |
| C73 | semantic actions of stack description files (`StkLoad.v`) | each action is proved equivalent to a clause of the relation `means`, lists by induction with the names declared so far as invariant; `sane` (values in the files) implies `usable` (C51), the floorplan of the layer grid being that of the full grid; energy and equilibrium by C51 |
| C74 | printing functions of stack descriptions (`StkSave.v`) | the lexemes of each printed section by a symbolic run of the scanner model (closed literals by computation, names, paths and numbers by the lemmas of C70/C71); refutations through the grammar theorem C71_grammar |
| C75 | init, copy, clone, destroy, free of all description structures and `list_template.c` over a heap of blocks (`Own.v`); contents without addresses and owned blocks in `OwnSpec.v` | separation-logic triples over permutations of lists of blocks, one lemma per type (`OwnKinds.v`), induction over histories (`OwnHist.v`) |
| C76 | init, build, fill, destroy of the thermal grid, the power grid, the system matrix and the thermal data, factorization and its repetition, over the heap of `Own.v` with malloc calls that may fail, and the memory effects of the SuperLU calls (`Life.v`); owned blocks in `LifeSpec.v` | triples as in C75, one failure branch after the other (`LifeProofs.v`) |
| C77 | the C++ and Python template sinks as plugins of `Emulate.v`, the loader of Python scripts for any script, first word, module, path and name of an FMU, the file given to dlopen (`SinkTemplate.v`) | the balance and maximum-principle lemmas of C28 to C31 applied to the equation of a step with the template sink, induction over histories (`PropSinkTemplate.v`); strings by induction |
| C78 | the comparison programs over files of lines of words, with what fscanf makes of a word (`Compare.v`) | induction over the lines (`PropCompare.v`); the largest difference as a fold |
| C79 | the layer division tool: blocks of the file, neglect, phases, variances (`Division.v`) | one invariant over phases (a layer stays at or below every common multiple), a sum argument for "no candidate, so all equal", and sortedness for the order (`PropDivision.v`) |
| C80 | the gradient tool: averages per element, percentile, numbers of cells, the floorplan it writes (`Gradient.v`) | the averages, the sorted percentile and the ceilings against a specification by permutations and least numbers; antitone quotients for the order; the text through the scanner lemmas of C70 (`PropGradient.v`) |
| C81 | create_floorplan_material.py: indices, names, definitions, texts of both files (`Gds.v`, `GdsText.v`) | the sorted set of indices against the names in use; the mixture laws as inequalities between means, with any approximate root; the texts through the scanner lemmas of C70 and C71 (`PropGds.v`, `PropGdsText.v`) |
| C82 | the quadtree of read_gds.py (`Gds.v`) | induction on the remaining depth; half-open regions, so that every point is in exactly one (`PropGds.v`) |
| C83 | draw_temp_map.py: cells, limits and colours (`HeatMap.v`) | position in the flattened grid by div and mod; the index of a colour by floor; the limits of an empty choice from least and greatest temperature (`PropHeatMap.v`); joined to the emulator's axis files and maps through the readers of OutTextSpec.v (`PropHeatPipe.v`) |

## Trusted base

* Coq 8.16.1's kernel (and `coqchk`, which vcheck runs), including its `vm_compute`
  conversion, used for the concrete examples.
* `Print Assumptions` prints "Closed under the global context" for **every** theorem named
  in MANIFEST.json: no axiom is used, neither of ours nor of the standard library.
  (`coqchk` lists the `Coq.ssr.ssrunder.Under_rel.*` constants of the standard library,
  because some standard files load ssreflect; no theorem depends on them.)
* The reading of the C code: each definition cites the lines it models; the comments list
  the simplifications. The repository was read as text, neither built nor run.
* The definitions the statements use: `*Spec.v`, `Base.v`, and the model files themselves.
  The other files hold proofs only.

## What is modelled

| code | model |
|------|-------|
| `list_template.c`, `connection.c` (lists) | DList.v: heap of nodes, explicit undefined behaviour |
| `powers_queue.c` | Queue.v |
| `network_message.c`, `network_socket.c` (send, receive) | Message.v |
| `dimensions.c`, dimension rules of the stack parser, `initialize_heat_spreader` | Dims.v |
| `floorplan*.c`, `ic_element.c`, `floorplan_matrix.c`, floorplan file rules | Floorplan.v |
| `stack_element*.c`, `die.c`, `layer.c`, stack section of the parser | Stack.v |
| `power_grid.c` (uniform) | PowerGrid.v |
| `thermal_data.c`: emulate_step, emulate_slot, reset, get_cell_temperature, build | Emulate.v, Build.v |
| `thermal_grid.c`, `system_matrix.c`, `channel.c`, `heat_sink.c` (uniform grid) | Conduct.v, Matrix.v |
| `update_coolant_flow_rate` | Flow.v |
| `inspection_point.c`, `output.c` | Inspect.v |
| `bin/3D-ICE-Emulator.c` | Emulator.v |
| `bin/3D-ICE-Server.c`, `output_quantity`/client decoding | Server.v |
| slot and step times of the stack parser | SlotLength.v (bit-accurate binary64) |
| `thermal_data.c` non-uniform grid, OpenMP regions | NonUniform.v, NuParallel.v |
| `thermal_grid.c`, `channel.c`, `system_matrix.c` non-uniform branches | NuMatrix.v |
| `power_grid.c`, `thermal_data.c` (right-hand side) non-uniform branches | NuSource.v |
| `thermal_data.c` emulate_step, emulate_steady, pluggable_heatsink on the non-uniform grid | NuEmulate.v |
| `thermal_data.c` update_coolant_flow_rate on the non-uniform grid | NuFlow.v |
| `power_grid.c`, `floorplan.c`, `floorplan_element.c` insert_power_values on the non-uniform grid | NuInsert.v |
| `inspection_point.c`, `ic_element.c`, `stack_element.c` non-uniform branches (T3D in Vtk.v) | NuInspect.v |
| `stack_element.c` print_thermal_map_3D and its printf formats, `3D-ICE-Emulator.c` loop for T3D points | Vtk.v |
| `inspection_point.c` headers and rows as text, `stack_element.c` print_thermal_map / print_power_map, `dimensions.c` print_axes | OutText.v |
| `flex/floorplan_scanner.l`, `bison/floorplan_parser.y`, `floorplan_file_parser.c`, printing of floorplans | Flex.v, FlpText.v |
| `flex/stack_description_scanner.l`, grammar of `bison/stack_description_parser.y` | StkScan.v, StkText.v |
| `flex/layout_scanner.l`, `bison/layout_parser.y`, `layout_file_parser.c`, `fill_layout` | LayText.v (scanner rules in StkScan.v) |
| semantic actions of `bison/stack_description_parser.y`, `stack_file_parser.c` parse_stack_description_file, `output.c` add | StkLoad.v |
| `stack_file_parser.c` generate_stack_description_file, `stack_description.c`, `material.c`, `heat_sink.c`, `channel.c`, `layer.c`, `die.c`, `dimensions.c`, `stack_element.c`, `analysis.c`, `output.c`, `inspection_point.c` printing functions | StkSave.v |
| `list_template.c` init, copy, destroy, insert_begin, insert_end, merge; init, copy, destroy, clone, free of `string_t.c`, `material.c`, `ic_element.c`, `material_element.c`, `layer.c`, `powers_queue.c`, `floorplan_element.c`, `floorplan_matrix.c`, `floorplan.c`, `die.c`, `heat_sink.c`, `coolant.c`, `channel.c`, `connection.c`, `non_uniform_cell.c`, `dimensions.c`, `stack_element.c`, `inspection_point.c`, `output.c`; `stack_description.c` destroy | Own.v |
| memory of `thermal_grid.c` init, build, fill, destroy; `power_grid.c` init, build, destroy; `system_matrix.c` init, build, allocate_L_Matrix, allocate_U_Matrix, do_factorization, destroy; `thermal_data.c` init, build, destroy, update_coolant_flow_rate; store and array allocations of the bundled SuperLU_MT 4.0 | Life.v |
| `utils/plot/draw_temp_map.py` get_xyaxis_data_uniform, get_temp_data_uniform, get_temp_data_nonuniform, plot_tmap (the temperatures; not the floorplan and the colour bar) | HeatMap.v |
| `utils/floorplan_gds/create_floorplan_material.py` (not the regular expression), `read_gds.py` subdivide_region | Gds.v, GdsText.v |
| `utils/thermal_non_uniform_grids/thermal_gradient_grids.py` (arguments, averages, numbers of cells, output; not the reading of the first results, the central differences and the plots) | Gradient.v |
| `utils/layer_division/layer_division.py` (except printing on request and the order of the table) | Division.v |
| `test/CompareTemperatures.c`, `test/CompareSystemMatrix.c` | Compare.v |
| `heatsink_plugin/templates/C++/heatsink.cpp`, `heatsink.h`, `templates/python/heatsink.py`, `loaders/python/pythonwrapper.cpp` (names, one step), `fmiwrapper.cpp` getName and getPath, `heat_sink.c` 317-334 and 363-375 | SinkTemplate.v |
| heatsink_plugin/loaders/FMI: `gridmapper.cpp`, `gridmapper.h`, `matrix.h`, `fmiwrapper.cpp`, `entrypoint.cpp` | GridMap.v |
| `IceWrapper.cpp` (the two setup functions, getters of class members and the text of the file excepted; SystemC's sc_time as 64-bit ticks of 1 ps) | IceClient.v |


## What is not modelled

* Rounding of `double` (except in SlotLength.v); `pow` in the pin-fin heat transfer
  coefficient is an uninterpreted number; NaN and infinities.
* SuperLU: the solver is any function that returns a solution of the system (theorems
  about values hold for every such function), or reports failure.
* The pluggable heat sink plugin: for the simulator (C16–C64) its result is a parameter. Of the plugins, the FMI wrapper and its grid mapper are modelled (C65) with the FMU as a parameter, and the template plugins and the Python loader (C77); the FMI interface (`fmi_interface.cpp`) is not.
* flex/bison: except for floorplan files (C70), stack description files (C71, C73) and layout files (C72), theorems start from
  the semantic actions, not from characters; the tables flex and bison generate are trusted to implement the rules.
* Memory exhaustion (`malloc` returning NULL), except where stated; file system errors.
* Printing functions other than those of output files, maps, VTK files (OutText.v, Vtk.v), stack descriptions (StkSave.v) and floorplans
  (FlpText.v); binary floating point in printed and read numbers (they are rationals).
* Sockets below `read`/`write`: any split into partial transfers, but no reordering.

## Defects found (each is a refutation theorem or a remark in the model)

* C08: extraction checks the capacity of a message, not its length.
* C12: on two-column grids the centre of column 1 is computed with a wrapped subtraction;
  a chip length that is not a multiple of the cell length is accepted and leaves a gap;
  get_cell_height reads one element past the array.
* C13, C14, C18, C22, C35, C36, C44: see the theorems named `*_refuted`.
* C25: the number of connections wraps modulo 2^32. C29: channels with one row get wrong
  inlet and outlet terms. C53: outer layers without a sink use the full height.
* C40: in a non-uniform grid the contact length of two cells is not capped by their sizes:
  one side strictly inside the other gives too large a conductance.
* C41: the non-uniform grid dereferences a null pointer without a top heat sink.
* C42: only the first rectangle of a floorplan element is gridded.
* C43: ordinary decimals (slot 0.07, step 0.01) end with integers above 2^32, whose
  conversion to `uint32_t` is undefined.
* C46: a failed INSERT_POWERS gets no reply; a client lost in mid-message gets its
  truncated request executed. The 1025th distinct output name ends a session. SIGPIPE is
  not handled.
* C54: get_cell_temperature with a column outside the grid reads the next row.
* C55: update_coolant_flow_rate has no effect with pin fins, and keeps stale inlet sources
  after a failed factorisation; without a channel it dereferences a null pointer.
* C57: along the flow the side walls of two-resistor channels of a non-uniform grid conduct
  as if their cells were square; a layer with a layout of materials is taken to be of the
  material of its corner. The outlet of the coolant is recognised by an exact comparison of
  floating-point coordinates (rounding is not modelled).
* C59: on the non-uniform grid a bottom sink only adds heat (300 K times a conductance) and
  no term of the matrix takes it away.
* Not theorems: a material of zero conductivity gives NaN; the spreader cell height is read past the end of the heights; the comparison function of qsort is inconsistent on equal keys; after the refused last
  slot the source vector is zeroed, so that a final Pmap shows wrong powers; a client with
  no floorplan element and --until-minus-one stops at once.
* C61: on a non-uniform grid a change of the coolant flow rate writes the heat of the inlets with
  the stride of the uniform grid: other cells lose their heat, or the write is out of bounds.
* C63: on a non-uniform grid the spreader of a pluggable sink has the cells of the chip; with a border
  the capacities of the cells of the sink are written beyond the end of CellsCapacities.
* C64: on a non-uniform grid, Tflp and Tflpel of an element of several rectangles take in cell 0 of the
  stack; Tcell in no cell (such as a point of the far side of the chip) reports cell 0.
* C66: getTemperatureMap and getPowerMap skip the first value of the map and write a word beyond the
  answer last (several maps: rows and columns of the next map are written as temperatures);
  getTemperature with type Tflp returns lengths of names; its check of the time can never stop the
  program: the two tests exclude each other, and the 4-byte time is copied into a double.
- C68: a T3D map with instant step or slot cuts the path at its first dot: "./a.vtk", "../b.vtk" and every
  other such path write "<m>.vtk" in the working directory, over each other; "map.vtk" at step 12 and
  "map1.vtk" at step 2 share a file; a path of 50 characters or a step number of 10 digits is written past
  the end of an array on the stack; a file that cannot be created is written through a null stream.
- C69: Tflp, Tflpel and Tcoolant rows print the time with three decimals: with steps of 0.1 ms the first four
  rows all say 0.000; a power map prints three decimals of watts per cell: a die whose cells dissipate less than
  0.5 mW each is shown as dissipating nothing; on the non-uniform grid a stack element whose name has 39
  characters or more overflows `char name[50]` when its map is written.
- C70: in floorplan files `/* ... **/` (an odd number of stars before the closing one) does not close the comment: all
  declarations up to the next end of comment, or to the end of the file, are silently skipped; `.5` is read as 5, `1.` as 1,
  `- 7` as 7, other stray characters are ignored; two elements may have the same name; an element outside of the
  chip makes the parser free `&die->Floorplan`, which malloc has not returned; a floorplan with an element
  without power values is printed as a text the parser refuses.
- C71: the same comments in stack description files: `/** ... **/` after the solver section silently drops the outputs;
  `- 7` is read as 7 and characters of no rule are dropped.
- C72: `sprintf (error_message, "Unknown material %s", $1)` in layout_parser.y overflows its 250 characters for names of more than 232 characters (`C72_long_name`).
- C73: the same with `error_message [100]` of stack_description_parser.y: an unknown material of a heat sink with a name of more than 82 characters (`C73_long_name`).
- C74: a saved stack description is never accepted again: conductivities without commas (`material_print`), wrong syntax for pluggable sinks, solver cores and T3D; a gradient is saved as an average; times below 5 ms as `0.00`; the dimensions are printed after the layers and dies although the syntax wants them before; `layer_print` passes a null pointer to `%s` for layers without layout.
- C75: `dimensions_copy` copies the pointer `Cell_pointer`, so a copy of the dimensions of a built non-uniform grid and its source free the same table; `heat_sink_copy` leaves `PluggableHeatsinkInit` as it was (uninitialised in a clone); every copy onto itself erases the structure; merging a list with itself leaks its nodes (no caller does).
- C76: SuperLU allocates the 13 arrays of L and U anew in each `pdgstrf` (`refact == NO`), and `system_matrix_destroy` frees only those of `allocate_L_Matrix` and `allocate_U_Matrix`, which the stores no longer point to: they leak at the build and at each change of the flow rate. `system_matrix_init` does not reset the pointers to these arrays, so a second `thermal_data_destroy`, or one without a build, frees dangling or uninitialised pointers; `thermal_data_build` leaves dangling pointers when it fails, leaks the thermal grid when `thermal_grid_fill` refuses, and leaks A_Permuted and the factors when the matrix is singular (`fact` is still `DOFACT` then).
- C77: the template sinks compute the flow from the temperatures before the step; when `conductance * step` exceeds the capacity of a cell of the spreader, the step cools it below all ambients (`C77_cold_refuted`). The Python wrapper does not check `PyErr_Occurred` after `PyFloat_AsDouble`: a value that is not a number becomes -1 W, heating the cell. `strncat(path, ..., sizeof(path) - 1)` bounds the text added, not the buffer: a relative plugin path with a long working directory overflows `char path[2048]`. `FmiWrapper::getPath` of `/x` is empty, so the FMU is looked for in the working directory; `./x` as the arguments of a Python sink names the empty module.
- C78: `CompareTemperatures` and `CompareSystemMatrix` return EXIT_SUCCESS when lines cannot be read, times, coordinates or signs differ, and whatever the differences are; NaN temperatures are never reported (`make test` cannot fail because of them).
- C79: the layer division tool does not stop when the conductances are close: it goes on to their least common multiple (100 and 101 W/K: 199 divisions), the variance may rise, and a layer of zero conductance takes every division.
- C80: in the gradient tool an element that contains no corner of a cell ends the run with a ValueError, also when all the others are fine; the cells are not square although the comment says so, and can be far below the minimum in one direction (n is the larger of the two counts); a cell that only touches an element counts for it.
- C81: a block whose share is 1 (read_gds.py prints 1.00 for a covered region) uses GDS_mat100, which material.txt defines only if another share is in [0.99, 1). `thermal_data.c` 242-244 then only prints "Unsupported material", and the cell keeps a material without values.
- C83: draw_temp_map.py ends in an IndexError when a temperature reaches --tempmax and when the file of a uniform grid holds more than one map; with --tempmin, colder cells wrap around to the hottest colours (negative numpy index).
