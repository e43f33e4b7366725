claim('C01','proved','C01_queue_fifo C01_put_appends C01_get_takes_oldest C01_get_empty','All programs over queues (build/put/get/copy/destroy); total number of operations below 2^31 so capacities stay in 32 bits.')
claim('C02','proved','C02_queue_copy C01_queue_fifo','Copy holds the same values; independence is part of the program theorem (copies inside programs). Buffers are values in the model: aliasing of the C memory blocks is not modelled.')
claim('C03','proved','C01_queue_fifo C03_capacity_zero_is_unsafe','Ok result means no access outside the buffer and no modulo by zero; capacity 0 shown unsafe.')
claim('C04','proved','C04_list_structure','Pointer-level heap model, all programs.')
claim('C05','proved','C05_list_merge','')
claim('C06','proved','C06_list_find','')
claim('C07','proved','C07_message_construction','Messages below 2^31 words (so that the doubled capacity fits uint32).')
claim('C08','partial','C08_extract_past_end_refuted C08_extract_bounded_partial','False of the code: the check uses the buffer capacity. Proved instead: extraction fails exactly past the capacity and never reads outside the buffer.')
claim('C09','proved','C09_fragmentation C09_send_completes','For messages of at most 2^30 words; any schedule of partial/interrupted/failed system calls on both sides.')
claim('C10','partial','C10_truncated_stream C10_errors_not_hidden C10_huge_length_refuted','Proved for messages of at most 2^30 words; a length word of 2^30+1 makes the byte count wrap and the truncated stream is accepted (refuted witness).')
claim('C11','proved','C11_cell_numbering_bijective','All grids accepted by the parser (at most INT32_MAX cells).')
claim('C12','partial','C12_columns_tile_partial C12_rows_tile C12_total_length_partial C12_total_width_partial C12_two_columns_center_refuted C12_cover_refuted C12_height_guard_refuted','Left edges tile for all grids. False of the code: the centre of the last column of a two-column grid (unsigned col-2), the sum of the lengths for a chip whose size is not a multiple of the cell size or that 4RM cannot fill, the guard of get_cell_height. The strongest true versions are proved.')
claim('C49','partial','C49_spreader_roundtrip_partial C49_nonuniform_collision_refuted','Proved for uniform grids. For non-uniform grids the offset function ignores its coordinates (contract defect: the only non-uniform callers pass (0,0)).')
claim('C13','partial','C13_accepted_grids C13_align_exact_partial C13_wide_last_column_refuted C13_tolerance_refuted C13_uncovered_chip_refuted','Exact for rectangles placed within the extent of the cells (tolerance not used) and last column not wider than the previous ones. False of the code otherwise: three witnesses.')
claim('C14','partial','C14_weights_partial C14_power_conserved_partial C14_power_leaves_layer_refuted','Weights, non-negativity and conservation proved for rectangles within the extent of the cells; false when a rectangle uses the placement tolerance or the uncovered rest of the chip.')
claim('C15','partial','C15_matrix_fits_partial','Proved for rectangles within the extent of the cells (see C13 for the others).')
claim('C34','proved','C34_element_extremes','For elements whose rectangles lie within the extent of the cells.')
claim('C35','partial','C35_average_single_partial C35_average_refuted','The average of an element with several rectangles is the mean of the rectangle means (refuted); proved for a single rectangle.')
claim('C45','partial','C45_intersection_exact C45_intersection_symmetric C45_location_exact C45_parser_accepts_overlap_refuted','The two checks are exact, but the parser never calls the intersection check (its call is commented out), so overlapping elements are accepted.')
claim('C23','proved','C23_stack_layout C23_accepted_exactly','Fewer than 2^32 layers in all.')
claim('C24','proved','C24_layer_types','Uniform grid. Also: exactly when the thermal grid is refused.')
claim('C44','partial','C44_adjacent_channels_refuted C44_ends_partial C23_accepted_exactly','False of the code: the adjacency test looks at the first element of the stack, not the previous one. C23_accepted_exactly shows that adjacency plays no role in acceptance; pairs at either end are refused.')
claim('C16','proved','C16_powers_in_order','Uniform grid; any sequence of steps, slots and insertions that are accepted, fewer than 2^32 steps; queues below 2^31 values. The solver and the heat sink plugin are arbitrary functions that keep the length of the vector.')
claim('C17','proved','C17_insert_powers','Also what a failing insertion leaves behind: the values given went to the first elements.')
claim('C18','partial','C18_all_or_nothing_refuted C18_exact_loss_partial','False of the code: elements before the first empty queue lose the value. Proved: the slot is refused iff a queue is empty and exactly those elements lose one value.')
claim('C19','proved','C19_steps_and_slots C19_slot_duration','Fewer than 2^32 steps: the step counter is a uint32_t.')
claim('C20','proved','C20_constant_within_slot C20_slot_is_steps C20_step_equation C16_powers_in_order','Sources of the chip cells; those of the heat spreader are the plugin contribution recomputed each step.')
claim('C21','proved','C21_end_of_simulation C21_wrong_config','')
claim('C22','partial','C22_reset_inside_slot_refuted C22_reset_on_boundary_partial C22_reset_temperatures','False of the code inside a slot (the time is not reset); proved on a slot boundary, up to the plugin state.')
claim('C36','partial','C36_refuted C36_outlet_partial C36_extremes_2rm_partial','False of the code: the cell of column 0 (a wall for 4RM) always takes part, the average counts it twice or adds the wall, the gradient returns the maximum. Proved: exactly what is computed, and the extremes are right when every column carries coolant.')
claim('C37','proved','C37_inspected_cell','Uniform grid, any point of the grid of cells; the cell is unique.')
claim('C50','proved','C50_output_instants C50_interrupted C50_steady C50_registration','Uniform grid; points with distinct files that can be opened; Tmap/Pmap rows carry no time in the file. Tmap3D is not modelled. Files other than those of the points are unchanged.')
claim('C25','partial','C25_exact_partial C25_wrap_overflow C25_two_resistor_partial C25_two_resistor_refuted C25_wrap_refuted',
 'True of solid and 4RM stacks with fewer than 2^32 coefficients. Refuted: 2RM and pin-fin stacks leave 2*rows*columns allocated positions unwritten (proved for all of them), and the count wraps modulo 2^32 on accepted big grids, so the fill writes out of bounds (proved for all such grids).')
claim('C26','proved','C26_storage','All stacks (solid, 4RM, 2RM, pin fins, with or without spreader), any successful fill.')
claim('C27','proved','C27_reciprocal C27_any_stack','C27_any_stack adds stacks with coolant: every pair of cells except consecutive coolant cells, whose coefficients are opposite. Needs positive conductivities (a zero conductivity breaks reciprocity through the ==0.0 guard).')
claim('C28','proved','C28_energy','Any exact solver, any history of steps and insertions before the step.')
claim('C29','partial','C29_uniform_solves_partial C29_stays_partial C29_single_row_refuted','True of all stacks whose grid has at least two rows (or no coolant), without pluggable sink; refuted for coolant grids of one row.')
claim('C30','proved','C30_between','Any number of steps; sinks at ambient temperature (the plugin of a pluggable sink can inject heat).')
claim('C31','proved','C31_monotone','Two histories in lockstep, the second with values at least as large, any insertions.')
claim('C32','proved','C32_unique','Proved for all stacks, including those with coolant.')
claim('C33','partial','C33_columns_partial C33_energy_partial C29_single_row_refuted','Row and column sums of every cell and the energy balance of every step, all channel models, for grids of at least two rows; with one row the inlet/outlet terms are wrong (see C29_single_row_refuted).')
claim('C51','proved','C51_build C51_starts_uniform C51_always_answers C51_energy C51_equilibrium C51_bounds','Uniform grids. Energy and equilibrium with at least two rows or no coolant (see C29_single_row_refuted); at most 2^32/7 cells (beyond, see C25_wrap_refuted).')
claim('C52','proved','C52_layer C52_tcell C52_maps C52_element C52_floorplan C52_outlet','Uniform grids; element averages for elements made of one rectangle (others: C13); the outlet average includes the first column (C36).')
claim('C53','partial','C53_lateral C53_along C53_vertical C53_material C53_channel C53_around_channel C53_side_walls C53_coolant C53_flow_4rm C53_flow_2rm C53_capacity C53_sinks C53_spreader C53_half_height_refuted','All values proved, for grids other than two columns with layouts (see C12). Two deviations from the English statement: in the first/last layer without sink the whole height is used instead of half (C53_half_height_refuted), and with 2RM channels the shares add up to the declared flow only when the chip length holds a whole number of channel pitches (C53_flow_2rm).')
claim('C54','partial','C54_inside C54_always_answers C54_above_partial C54_outside_refuted','Inside the grid: the temperature of the cell; any indices: an answer, no read out of bounds. Layers above the last give 0 as long as the index does not wrap. Refuted: a row or column outside of the grid is not recognised and another cell is read.')
claim('C55','proved','C55_update C55_same_as_declared C55_energy C55_flow_carried C55_pin_fins','Microchannels (4RM, 2RM), grids of at least two rows for the energy balance. With pin fins the call changes nothing (C55_pin_fins). Without channel the code dereferences NULL; after a failed factorisation the inlet sources are stale until the next slot.')
claim('C43','partial','C43_always_ends C43_quotient_partial C43_refused C43_whole C43_out_of_range_refuted','Bit-accurate binary64 model. The loop always ends; whenever a number of steps per slot comes out it is the integer quotient of the decimals (numerators below 2^42); whole times always give it. Refuted: ordinary decimals such as slot 0.07, step 0.01 end with integers above 2^32, whose conversion to uint32_t is undefined.')
claim('C46','partial','C46_conversation C46_progress C46_one_reply_each_partial C46_lost_client C46_bounded C46_failed_insert_refuted C46_truncated_refuted','Any sequence of well-formed requests, any fragmentation by the system calls, any byte stream for the lost client. Refuted: an INSERT_POWERS with too few values gets no reply, and a request cut by the loss of the client is carried out. SIGPIPE on a closed connection is not modelled.')
claim('C47','partial','C47_equals_local_partial C47_total C47_remote_history C47_claims_more_refuted','Effect, reply and whole remote runs proved equal to local calls. Refuted: a message that claims more values than it carries is accepted with zeros from the buffer.')
claim('C48','proved','C48_tflp C48_values C48_maps C48_client_files C48_same_file_overwritten','Every output request: time, number, names, headers and values are decoded exactly and the whole message is read; the client files hold header and rows. Two points that share a file name overwrite each other (C48_same_file_overwritten). Tmap3D is never sent.')

claim('C38','proved','C38_any_schedule C38_no_deadlock C38_steps_defined C38_runs_exist','Threads, chunks, interleavings and merge orders are arbitrary; the lists are those of the linked-list model. Examples: a real stack, two runs whose orders differ.')
claim('C40','partial','C40_area C40_contact_partial C40_contact_refuted','The area is always that of the intersection. The contact length is the true one exactly when neither side is strictly inside the other; refuted with an accepted stack otherwise (200 instead of 100).')
claim('C41','partial','C41_cells C41_ranges C41_no_top_sink_refuted','Every stack with a top heat sink and less than 2^32 cells. Refuted without a top heat sink: a null pointer is dereferenced.')
claim('C42','partial','C42_element C42_die C42_layers_partial C42_spreader C42_second_rectangle_refuted C42_channel_refuted','Elements (first rectangle), dies, layers, channels and spreader. Refuted: the second rectangle of an element gets no cells; a chip length that is not a multiple of the cell length leaves a strip uncovered.')
claim('C56','proved','C56_connected_iff_touching','Both directions, for every schedule; the geometry hypotheses (positive areas, coordinates equal or 2 nm apart, no overlap in a layer) are decided for the example stack.')
claim('C39','proved','C39_any_order C39_any_schedule','Same pointers, rows and values (exact rationals: with doubles the diagonal sums may differ in the last bits) for every order of the connections and every schedule; a matrix exists for every thermal grid of C24. qsort is any arrangement sorted by the comparison function.')
claim('C57','partial','C57_columns C57_energy C57_solids C57_coolant C57_apart C57_vertical C57_across C57_side_walls C57_spreader C57_walls_refuted C57_layout_refuted','Column sums, energy, solids, coolant transport and absence of other couplings. Refuted: side walls of two-resistor channels along the flow; layers with a layout of materials. Closed forms for every vertical connection, for connections along x of solids and four-resistor channels, and within the spreader. Side walls of two-resistor channels (C57_side_walls): the exchange along the flow in closed form, and the series value exactly when the contact is as long as the distance of the centres.')
claim('C58','proved','C58_sources C58_missing C58_element_power C58_layer_power C58_stack','Every stack of C41 whose dies have cells; layer types and floorplan profile as power_grid_fill writes them (C24) are the hypothesis describes. The heat of a bottom sink is the one the program writes (constant rate; see C59).')
claim('C59','partial','C59_energy C59_plugin C59_ends C59_steady C59_board_refuted','Proved for an exact solver and every number of steps. The spreader of a pluggable sink must have the cells of the grid (spreader_fits; see C63). Values inserted between two steps: C62. C59_board_refuted: with a bottom sink the term of the board is a constant inflow that does not depend on the temperatures, so a stack at ambient temperature without power does not stay there.')
claim('C60','proved','C60_matrix C60_unique C60_between C60_stays C60_warm C60_monotone C60_steady C60_steady_air C60_stack','For an exact solver. C60_stack derives the hypotheses on the connections (positive contacts, every cell linked to the top) for every stack without channels and every schedule of the parallel sections; the link to the top needs layers that cover the same area (same_cover), which holds when the elements of every floorplan tile the die. With a bottom heat sink the statement is false (C59_board_refuted).')

claim('C61','partial','C61_change C61_where C61_overflow C61_right C61_energy C61_refuted','False as stated in the middle of a slot. C61_change: the matrix is the one for the new flow rate and everything but the sources is kept. C61_where: the heat of the inlets is written with the stride of the uniform grid (NRows*NColumns cells a layer), at the wrong cells; C61_overflow: out of bounds when beyond the cells (witness: 17 cells, position 18); C61_right: right when the layers below have that many cells; C61_refuted: a chip in equilibrium at 300 K leaves it after a change in the middle of a slot. C61_energy: in every slot begun after the last change the balance is that of the new flow rate, for any number of changes at any times that returned success. With insertions of power values between the steps: C62.')

claim('C62','proved','C62_insert C62_energy C62_ends','For an exact solver and queues of fewer than 2^31 values. The flow rate must have been last changed at or before the beginning of the current slot (C61_refuted otherwise); a history stops at a step that does not return STEP_DONE or SLOT_DONE.')

claim('C63','partial','C63_fits C63_overflow C63_refuted','False as stated: C63_overflow, every spreader larger than the chip on a non-uniform grid makes the program write capacities beyond the end of the vector (witness C63_refuted: 14 cells, 30 capacities). C63_fits: a spreader of the size of the chip has one cell of the grid for each of its own, the hypothesis under which C59 to C62 describe what the plugin is given and what becomes of its answer.')

claim('C64','partial','C64_tcell C64_tcell_tiled C64_maps C64_element C64_floorplan C64_several_partial C64_coolant_partial C64_second_rectangle_refuted C64_far_side_refuted','False as stated for elements of more than one rectangle (C64_several_partial: cell 0 of the whole stack takes part; C64_second_rectangle_refuted), for Tcell at a point in no cell (C64_far_side_refuted: cell 0 is reported) and for Tcoolant, where the corner cell at the outlet takes part and the range is the maximum (C64_coolant_partial, as C36). Proved: Tcell where a cell contains the point, the only one where the layer is tiled; Tmap and Pmap; Tflp and Tflpel for elements of one rectangle that do not overlap; maximum and minimum of Tcoolant for 2RM and pin fins. The conversion to text is C69, T3D is C68.')

claim('C65','proved','C65_fragments C65_fragments_outside C65_reciprocal C65_covered C65_mirrored C65_flows C65_series C65_direction C65_called C65_energy','Rational arithmetic; the FMU (its temperatures and its doStep) is a parameter, as is the linear solver in C65_energy; C65_energy is for stacks without channels (with a pluggable sink the code refuses 4RM channels, and C33 gives the other ones).')

claim('C66','partial','C66_powers C66_simulate C66_values C66_map_shifted C66_maps_mixed C66_map_refuted C66_map_never_right C66_tflp_returns_lengths C66_sync_never','False as stated for maps (C66_map_shifted: the first value is skipped, so that a map of more than one value is never right, C66_map_never_right; C66_map_refuted is a run; C66_maps_mixed for two maps), for type Tflp (C66_tflp_returns_lengths) and for the check of the time (C66_sync_never: it never stops the program). Proved: the powers, and the values of cells, elements and outlets. The words are those of C46-C48; the sockets are C45.')

claim('C67','proved','C67_schedule C67_remote','Equality is of the lists of rationals, not only of their values. Solver and plugin are parameters (functions of what they are given). In C67_remote the words of the client are decoded by the same function as the powers in the queues of the local run, and all slots are answered SLOT_DONE.')

claim('C68','proved','C68_file C68_name C68_run C68_final C68_defined C68_uniform_nothing C68_dotted_path_refuted C68_two_points_refuted C68_long_path_refuted C68_long_run_refuted C68_no_directory_refuted','The text of the file is modelled character by character and read back by an independent VTK reader (VtkSpec.v). The _refuted theorems show that the conditions on the path are needed: a dot in a directory, 50 characters, 10^9 steps, a file that cannot be created. Coordinates and temperatures are rationals: printf prints the nearest decimal.')

claim('C69','proved','C69_run C69_interrupted C69_steady C69_times C69_nu_map C69_times_refuted C69_power_map_refuted C69_long_id_refuted','The texts are modelled character by character (OutText.v) and read back by an independent reader (OutTextSpec.v). Uniform grid for whole runs; for the non-uniform grid one map and its file of cells. What the numbers mean is C52. Paths are distinct and none is xaxis.txt or yaxis.txt; names are visible ASCII. Numbers are rationals: printf prints the nearest decimal.')

claim('C70','partial','C70_reads C70_accepted C70_elements C70_never_outside C70_refused C70_star_comment C70_round_trip_partial C70_star_comment_refuted C70_numbers_refuted C70_same_name_refuted C70_outside_refuted C70_round_trip_refuted C70_material_refuted','The scanner is its regular expressions (derivatives, longest match, earliest rule, start conditions: Flex.v); the grammar is recursive descent on the tokens; the syntax of the user guide is written independently (FlpTextSpec.v: lexemes and gaps). Partial because the claim is false of the code as stated: comments that end with an odd number of stars, numbers without integer digits, rectangles outside, elements without powers (the _refuted theorems). Numbers are rationals; actions run before a syntax error are left out; the generated LALR tables are trusted to recognise the grammar.')

claim('C71','partial','C71_grammar C71_unambiguous C71_reads C71_accepted C71_stray_dropped C71_star_comment C71_star_comment_refuted','The scanner is its regular expressions (Flex.v) with its 74 keywords; the grammar is recursive descent, proved equivalent to an independent list of the lexemes of a file (C71_grammar). Partial because the claim is false of the code as stated: a comment that ends with an odd number of stars is not closed, and stray characters and signs are dropped. The theorems end at the declarations: what is built from them is C12-C15, C44, C46, C51. The generated LALR tables are trusted to recognise the grammar.')

claim('C72','partial','C72_grammar C72_reads C72_accepted_text C72_accepts C72_refuses C72_material C72_long_name C72_long_name_refuted','Scanner, grammar and actions of layout files (LayText.v), from characters to the material of the cells of the layer (material_at, the function the coefficients use, C12/C35). Partial because the claim is false of the code for unknown materials with long names (C72_long_name: exactly from 233 characters on). Actions run before a syntax error are left out; rectangles are exact rationals; the material of cells is proved for grids without two columns (see C12) and rectangles side by side.')

claim('C73','partial','C73_meaning C73_file C73_accepted C73_deterministic C73_sound C73_simulates C73_energy C73_equilibrium C73_long_name C73_long_name_refuted','All semantic actions of stack_description_parser.y in order (StkLoad.v) against the relation means (StkLoadSpec.v), joined with C70, C71, C72 and C51: from characters on disk to the energy balance. Partial because the claim is false of the code for unknown heat-sink materials with long names (C73_long_name: exactly from 83 characters on). Parameters: porosity and heat transfer of pin fins, reading of doubles, whether a plugin starts; actions run before a syntax error are left out; sane asks rectangles on the chip and counters that fit; uniform grid for C73_sound and after.')

claim('C74','partial','C74_material_refused C74_never_read_back C74_plain_layer C74_top C74_bottom C74_channel C74_dims C74_layer C74_die C74_element C74_point C74_pluggable_refused C74_solver_partial C74_short_times C74_t3d_refused C74_gradient_refuted','All printing functions of a stack description (StkSave.v) against the scanner and the grammar of C71. Partial because the claim is false of the code: C74_never_read_back is the refutation, for every description with a material; the sections that are right are proved right (same_* in StkSaveSpec.v), the others refuted one by one. Numbers are rationals and printf rounds to nearest even.')

claim('C75','partial','C75_histories C75_string C75_material C75_ic_element C75_material_element C75_layer C75_floorplan_element C75_floorplan_matrix C75_floorplan C75_die C75_heat_sink_partial C75_channel C75_cell C75_connection C75_dimensions_partial C75_stack_element C75_inspection_point C75_output C75_stack_description C75_dimensions_refuted C75_heat_sink_refuted C75_self_merge_refuted C75_empty_matrix C75_witness C75_witness_allocator C75_witness_built C75_witness_sink','init, copy, assign, destroy, clone, free and the list template (Own.v) over a heap of blocks; OwnSpec.v says which blocks a structure owns. Partial because the claim is false of dimensions with a table of cells (C75_dimensions_refuted: double free) and of PluggableHeatsinkInit (C75_heat_sink_refuted), and merging a list with itself loses its nodes (C75_self_merge_refuted; excluded from the histories); all other parts are proved for all contents and histories. malloc does not fail in the model; a floorplan matrix is blank or has a coefficient (C75_empty_matrix for the others).')

claim('C76','partial','C76_build C76_build_succeeds C76_update C76_destroy C76_life C76_nonuniform C76_restored_refuted C76_failed_refuted C76_failed_destroy_refuted C76_twice_refuted C76_unbuilt_refuted C76_positions_refuted C76_witness C76_witness_allocators','Life.v over the heap of Own.v; LifeSpec.v says which blocks a simulation owns. Partial because the claim that a simulation gives back its memory is false (C76_restored_refuted: 13 blocks per factorization), and so are those about failed builds and repeated or early destruction (_refuted); all other parts are proved for all elements, sizes, allocators and failures. Values of arrays, the lists of cells and connections of a non-uniform grid, memory SuperLU frees within one call, and lack of memory inside SuperLU or in copies of layers (unchecked in the code) are not modelled.')

claim('C77','partial','C77_conductance C77_python_same C77_python_list C77_python_values_refuted C77_flows C77_energy C77_stays C77_warm C77_between C77_monotone C77_gentle_enough C77_cold_refuted C77_names C77_names_refuted C77_path C77_path_refuted','SinkTemplate.v. Exact arithmetic and an exact solver, solid stacks on uniform grids. Partial because parts of the claim are false of the code and refuted with counterexamples: without the bound on the step the explicit flow cools the spreader below everything around it (C77_cold_refuted); an element of the list that is not a number counts as -1 W without an error (C77_python_values_refuted); an FMU in the root directory is looked for in the working directory and a script ./x loses its name (C77_names_refuted); a long relative plugin path overflows the buffer (C77_path_refuted).')

claim('C78','proved','C78_temperatures C78_matrices C78_status C78_zero C78_success_refuted C78_nan_refuted','Compare.v. Files as lines of words; numbers are rationals or NaN. Beyond the claim: a success does not mean that the files agree or were even compared to the end (C78_success_refuted), and a temperature that is not a number differs from nothing (C78_nan_refuted).')

claim('C79','proved','C79_file C79_layers C79_budget C79_variances C79_order C79_bound C79_levelled C79_some C79_nonpositive C79_far C79_variance_refuted','Division.v. Exact rationals for the floats of Python; lines classified by the regular expressions. Beyond the claim: layers of no conductance use up all divisions (C79_nonpositive), 100 and 101 are only levelled at 10100 (C79_far), and the variance can rise above the initial one (C79_variance_refuted).')

claim('C80','proved','C80_fails C80_cells C80_size C80_monotone C80_finest C80_file C80_cell_refuted C80_border_refuted','Gradient.v. Exact rationals for the floats of Python and numpy; the cells with their gradients and the elements read from the floorplan are parameters. The text is read by the model of the scanner and the parser (C70). Beyond the claim: cells can be smaller than the minimum and are not square (C80_cell_refuted), and a cell that only touches an element counts for it (C80_border_refuted).')

claim('C81','partial','C81_fails C81_defined C81_values C81_monotone C81_floorplan C81_materials C81_full_refuted','Gds.v, GdsText.v. Exact rationals for floats; the blocks and the square root are parameters. Partial because the claim that every used material is defined is false of the code: a share of 1 uses GDS_mat100, which is only defined if another share is from 0.99 to below 1 (C81_full_refuted; exactly then: C81_defined). read_gds.py prints two decimals, so a fully covered region gives 1.00. Proved: all other parts, for shares that are not negative.')
claim('C82','proved','C82_tiles C82_numbers C82_leaves C82_overlap','Gds.v. Exact rationals; the covered area of a region is a parameter (for C82_overlap additive over quarters). The R-tree, the merging of polygons and the two decimals of the printed shares are not modelled.')

claim('C83','partial','C83_place C83_nonuniform C83_hotter C83_default C83_limits C83_too_many C83_limit_refuted C83_cold_refuted C83_axes C83_emulated C83_slots_refuted','HeatMap.v. C83_axes and C83_emulated join it to the axis files and maps of the emulator (C83_axes: without channels, not for two columns). Exact rationals for floats; the numbers of the files are parameters. Partial because the last sentence is false of the code: with --tempmax reached by a temperature the program ends in an IndexError (C83_limit_refuted), and with --tempmin a colder cell gets one of the hottest colours (C83_cold_refuted). A file with the maps of several slots draws nothing (C83_slots_refuted). Floorplan outlines, names and colour bar are not modelled.')
