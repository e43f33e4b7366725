{
 "claims": [
  {
   "property": "C01",
   "status": "proved",
   "theorems": [
    "C01_queue_fifo",
    "C01_put_appends",
    "C01_get_takes_oldest",
    "C01_get_empty"
   ],
   "note": "All programs over queues (build/put/get/copy/destroy); total number of operations below 2^31 so capacities stay in 32 bits."
  },
  {
   "property": "C02",
   "status": "proved",
   "theorems": [
    "C02_queue_copy",
    "C01_queue_fifo"
   ],
   "note": "Copy holds the same values; independence is part of the program theorem (copies inside programs). Buffers are values in the model: aliasing of the C memory blocks is not modelled."
  },
  {
   "property": "C03",
   "status": "proved",
   "theorems": [
    "C01_queue_fifo",
    "C03_capacity_zero_is_unsafe"
   ],
   "note": "Ok result means no access outside the buffer and no modulo by zero; capacity 0 shown unsafe."
  },
  {
   "property": "C04",
   "status": "proved",
   "theorems": [
    "C04_list_structure"
   ],
   "note": "Pointer-level heap model, all programs."
  },
  {
   "property": "C05",
   "status": "proved",
   "theorems": [
    "C05_list_merge"
   ],
   "note": ""
  },
  {
   "property": "C06",
   "status": "proved",
   "theorems": [
    "C06_list_find"
   ],
   "note": ""
  },
  {
   "property": "C07",
   "status": "proved",
   "theorems": [
    "C07_message_construction"
   ],
   "note": "Messages below 2^31 words (so that the doubled capacity fits uint32)."
  },
  {
   "property": "C08",
   "status": "partial",
   "theorems": [
    "C08_extract_past_end_refuted",
    "C08_extract_bounded_partial"
   ],
   "note": "False of the code: the check uses the buffer capacity. Proved instead: extraction fails exactly past the capacity and never reads outside the buffer."
  },
  {
   "property": "C09",
   "status": "proved",
   "theorems": [
    "C09_fragmentation",
    "C09_send_completes"
   ],
   "note": "For messages of at most 2^30 words; any schedule of partial/interrupted/failed system calls on both sides."
  },
  {
   "property": "C10",
   "status": "partial",
   "theorems": [
    "C10_truncated_stream",
    "C10_errors_not_hidden",
    "C10_huge_length_refuted"
   ],
   "note": "Proved for messages of at most 2^30 words; a length word of 2^30+1 makes the byte count wrap and the truncated stream is accepted (refuted witness)."
  },
  {
   "property": "C11",
   "status": "proved",
   "theorems": [
    "C11_cell_numbering_bijective"
   ],
   "note": "All grids accepted by the parser (at most INT32_MAX cells)."
  },
  {
   "property": "C12",
   "status": "partial",
   "theorems": [
    "C12_columns_tile_partial",
    "C12_rows_tile",
    "C12_total_length_partial",
    "C12_total_width_partial",
    "C12_two_columns_center_refuted",
    "C12_cover_refuted",
    "C12_height_guard_refuted"
   ],
   "note": "Left edges tile for all grids. False of the code: the centre of the last column of a two-column grid (unsigned col-2), the sum of the lengths for a chip whose size is not a multiple of the cell size or that 4RM cannot fill, the guard of get_cell_height. The strongest true versions are proved."
  },
  {
   "property": "C49",
   "status": "partial",
   "theorems": [
    "C49_spreader_roundtrip_partial",
    "C49_nonuniform_collision_refuted"
   ],
   "note": "Proved for uniform grids. For non-uniform grids the offset function ignores its coordinates (contract defect: the only non-uniform callers pass (0,0))."
  },
  {
   "property": "C13",
   "status": "partial",
   "theorems": [
    "C13_accepted_grids",
    "C13_align_exact_partial",
    "C13_wide_last_column_refuted",
    "C13_tolerance_refuted",
    "C13_uncovered_chip_refuted"
   ],
   "note": "Exact for rectangles placed within the extent of the cells (tolerance not used) and last column not wider than the previous ones. False of the code otherwise: three witnesses."
  },
  {
   "property": "C14",
   "status": "partial",
   "theorems": [
    "C14_weights_partial",
    "C14_power_conserved_partial",
    "C14_power_leaves_layer_refuted"
   ],
   "note": "Weights, non-negativity and conservation proved for rectangles within the extent of the cells; false when a rectangle uses the placement tolerance or the uncovered rest of the chip."
  },
  {
   "property": "C15",
   "status": "partial",
   "theorems": [
    "C15_matrix_fits_partial"
   ],
   "note": "Proved for rectangles within the extent of the cells (see C13 for the others)."
  },
  {
   "property": "C34",
   "status": "proved",
   "theorems": [
    "C34_element_extremes"
   ],
   "note": "For elements whose rectangles lie within the extent of the cells."
  },
  {
   "property": "C35",
   "status": "partial",
   "theorems": [
    "C35_average_single_partial",
    "C35_average_refuted"
   ],
   "note": "The average of an element with several rectangles is the mean of the rectangle means (refuted); proved for a single rectangle."
  },
  {
   "property": "C45",
   "status": "partial",
   "theorems": [
    "C45_intersection_exact",
    "C45_intersection_symmetric",
    "C45_location_exact",
    "C45_parser_accepts_overlap_refuted"
   ],
   "note": "The two checks are exact, but the parser never calls the intersection check (its call is commented out), so overlapping elements are accepted."
  },
  {
   "property": "C23",
   "status": "proved",
   "theorems": [
    "C23_stack_layout",
    "C23_accepted_exactly"
   ],
   "note": "Fewer than 2^32 layers in all."
  },
  {
   "property": "C24",
   "status": "proved",
   "theorems": [
    "C24_layer_types"
   ],
   "note": "Uniform grid. Also: exactly when the thermal grid is refused."
  },
  {
   "property": "C44",
   "status": "partial",
   "theorems": [
    "C44_adjacent_channels_refuted",
    "C44_ends_partial",
    "C23_accepted_exactly"
   ],
   "note": "False of the code: the adjacency test looks at the first element of the stack, not the previous one. C23_accepted_exactly shows that adjacency plays no role in acceptance; pairs at either end are refused."
  },
  {
   "property": "C16",
   "status": "proved",
   "theorems": [
    "C16_powers_in_order"
   ],
   "note": "Uniform grid; any sequence of steps, slots and insertions that are accepted, fewer than 2^32 steps; queues below 2^31 values. The solver and the heat sink plugin are arbitrary functions that keep the length of the vector."
  },
  {
   "property": "C17",
   "status": "proved",
   "theorems": [
    "C17_insert_powers"
   ],
   "note": "Also what a failing insertion leaves behind: the values given went to the first elements."
  },
  {
   "property": "C18",
   "status": "partial",
   "theorems": [
    "C18_all_or_nothing_refuted",
    "C18_exact_loss_partial"
   ],
   "note": "False of the code: elements before the first empty queue lose the value. Proved: the slot is refused iff a queue is empty and exactly those elements lose one value."
  },
  {
   "property": "C19",
   "status": "proved",
   "theorems": [
    "C19_steps_and_slots",
    "C19_slot_duration"
   ],
   "note": "Fewer than 2^32 steps: the step counter is a uint32_t."
  },
  {
   "property": "C20",
   "status": "proved",
   "theorems": [
    "C20_constant_within_slot",
    "C20_slot_is_steps",
    "C20_step_equation",
    "C16_powers_in_order"
   ],
   "note": "Sources of the chip cells; those of the heat spreader are the plugin contribution recomputed each step."
  },
  {
   "property": "C21",
   "status": "proved",
   "theorems": [
    "C21_end_of_simulation",
    "C21_wrong_config"
   ],
   "note": ""
  },
  {
   "property": "C22",
   "status": "partial",
   "theorems": [
    "C22_reset_inside_slot_refuted",
    "C22_reset_on_boundary_partial",
    "C22_reset_temperatures"
   ],
   "note": "False of the code inside a slot (the time is not reset); proved on a slot boundary, up to the plugin state."
  },
  {
   "property": "C36",
   "status": "partial",
   "theorems": [
    "C36_refuted",
    "C36_outlet_partial",
    "C36_extremes_2rm_partial"
   ],
   "note": "False of the code: the cell of column 0 (a wall for 4RM) always takes part, the average counts it twice or adds the wall, the gradient returns the maximum. Proved: exactly what is computed, and the extremes are right when every column carries coolant."
  },
  {
   "property": "C37",
   "status": "proved",
   "theorems": [
    "C37_inspected_cell"
   ],
   "note": "Uniform grid, any point of the grid of cells; the cell is unique."
  },
  {
   "property": "C50",
   "status": "proved",
   "theorems": [
    "C50_output_instants",
    "C50_interrupted",
    "C50_steady",
    "C50_registration"
   ],
   "note": "Uniform grid; points with distinct files that can be opened; Tmap/Pmap rows carry no time in the file. Tmap3D is not modelled. Files other than those of the points are unchanged."
  },
  {
   "property": "C25",
   "status": "partial",
   "theorems": [
    "C25_exact_partial",
    "C25_wrap_overflow",
    "C25_two_resistor_partial",
    "C25_two_resistor_refuted",
    "C25_wrap_refuted"
   ],
   "note": "True of solid and 4RM stacks with fewer than 2^32 coefficients. Refuted: 2RM and pin-fin stacks leave 2*rows*columns allocated positions unwritten (proved for all of them), and the count wraps modulo 2^32 on accepted big grids, so the fill writes out of bounds (proved for all such grids)."
  },
  {
   "property": "C26",
   "status": "proved",
   "theorems": [
    "C26_storage"
   ],
   "note": "All stacks (solid, 4RM, 2RM, pin fins, with or without spreader), any successful fill."
  },
  {
   "property": "C27",
   "status": "proved",
   "theorems": [
    "C27_reciprocal",
    "C27_any_stack"
   ],
   "note": "C27_any_stack adds stacks with coolant: every pair of cells except consecutive coolant cells, whose coefficients are opposite. Needs positive conductivities (a zero conductivity breaks reciprocity through the ==0.0 guard)."
  },
  {
   "property": "C28",
   "status": "proved",
   "theorems": [
    "C28_energy"
   ],
   "note": "Any exact solver, any history of steps and insertions before the step."
  },
  {
   "property": "C29",
   "status": "partial",
   "theorems": [
    "C29_uniform_solves_partial",
    "C29_stays_partial",
    "C29_single_row_refuted"
   ],
   "note": "True of all stacks whose grid has at least two rows (or no coolant), without pluggable sink; refuted for coolant grids of one row."
  },
  {
   "property": "C30",
   "status": "proved",
   "theorems": [
    "C30_between"
   ],
   "note": "Any number of steps; sinks at ambient temperature (the plugin of a pluggable sink can inject heat)."
  },
  {
   "property": "C31",
   "status": "proved",
   "theorems": [
    "C31_monotone"
   ],
   "note": "Two histories in lockstep, the second with values at least as large, any insertions."
  },
  {
   "property": "C32",
   "status": "proved",
   "theorems": [
    "C32_unique"
   ],
   "note": "Proved for all stacks, including those with coolant."
  },
  {
   "property": "C33",
   "status": "partial",
   "theorems": [
    "C33_columns_partial",
    "C33_energy_partial",
    "C29_single_row_refuted"
   ],
   "note": "Row and column sums of every cell and the energy balance of every step, all channel models, for grids of at least two rows; with one row the inlet/outlet terms are wrong (see C29_single_row_refuted)."
  },
  {
   "property": "C51",
   "status": "proved",
   "theorems": [
    "C51_build",
    "C51_starts_uniform",
    "C51_always_answers",
    "C51_energy",
    "C51_equilibrium",
    "C51_bounds"
   ],
   "note": "Uniform grids. Energy and equilibrium with at least two rows or no coolant (see C29_single_row_refuted); at most 2^32/7 cells (beyond, see C25_wrap_refuted)."
  },
  {
   "property": "C52",
   "status": "proved",
   "theorems": [
    "C52_layer",
    "C52_tcell",
    "C52_maps",
    "C52_element",
    "C52_floorplan",
    "C52_outlet"
   ],
   "note": "Uniform grids; element averages for elements made of one rectangle (others: C13); the outlet average includes the first column (C36)."
  },
  {
   "property": "C53",
   "status": "partial",
   "theorems": [
    "C53_lateral",
    "C53_along",
    "C53_vertical",
    "C53_material",
    "C53_channel",
    "C53_around_channel",
    "C53_side_walls",
    "C53_coolant",
    "C53_flow_4rm",
    "C53_flow_2rm",
    "C53_capacity",
    "C53_sinks",
    "C53_spreader",
    "C53_half_height_refuted"
   ],
   "note": "All values proved, for grids other than two columns with layouts (see C12). Two deviations from the English statement: in the first/last layer without sink the whole height is used instead of half (C53_half_height_refuted), and with 2RM channels the shares add up to the declared flow only when the chip length holds a whole number of channel pitches (C53_flow_2rm)."
  },
  {
   "property": "C54",
   "status": "partial",
   "theorems": [
    "C54_inside",
    "C54_always_answers",
    "C54_above_partial",
    "C54_outside_refuted"
   ],
   "note": "Inside the grid: the temperature of the cell; any indices: an answer, no read out of bounds. Layers above the last give 0 as long as the index does not wrap. Refuted: a row or column outside of the grid is not recognised and another cell is read."
  },
  {
   "property": "C55",
   "status": "proved",
   "theorems": [
    "C55_update",
    "C55_same_as_declared",
    "C55_energy",
    "C55_flow_carried",
    "C55_pin_fins"
   ],
   "note": "Microchannels (4RM, 2RM), grids of at least two rows for the energy balance. With pin fins the call changes nothing (C55_pin_fins). Without channel the code dereferences NULL; after a failed factorisation the inlet sources are stale until the next slot."
  },
  {
   "property": "C43",
   "status": "partial",
   "theorems": [
    "C43_always_ends",
    "C43_quotient_partial",
    "C43_refused",
    "C43_whole",
    "C43_out_of_range_refuted"
   ],
   "note": "Bit-accurate binary64 model. The loop always ends; whenever a number of steps per slot comes out it is the integer quotient of the decimals (numerators below 2^42); whole times always give it. Refuted: ordinary decimals such as slot 0.07, step 0.01 end with integers above 2^32, whose conversion to uint32_t is undefined."
  },
  {
   "property": "C46",
   "status": "partial",
   "theorems": [
    "C46_conversation",
    "C46_progress",
    "C46_one_reply_each_partial",
    "C46_lost_client",
    "C46_bounded",
    "C46_failed_insert_refuted",
    "C46_truncated_refuted"
   ],
   "note": "Any sequence of well-formed requests, any fragmentation by the system calls, any byte stream for the lost client. Refuted: an INSERT_POWERS with too few values gets no reply, and a request cut by the loss of the client is carried out. SIGPIPE on a closed connection is not modelled."
  },
  {
   "property": "C47",
   "status": "partial",
   "theorems": [
    "C47_equals_local_partial",
    "C47_total",
    "C47_remote_history",
    "C47_claims_more_refuted"
   ],
   "note": "Effect, reply and whole remote runs proved equal to local calls. Refuted: a message that claims more values than it carries is accepted with zeros from the buffer."
  },
  {
   "property": "C48",
   "status": "proved",
   "theorems": [
    "C48_tflp",
    "C48_values",
    "C48_maps",
    "C48_client_files",
    "C48_same_file_overwritten"
   ],
   "note": "Every output request: time, number, names, headers and values are decoded exactly and the whole message is read; the client files hold header and rows. Two points that share a file name overwrite each other (C48_same_file_overwritten). Tmap3D is never sent."
  },
  {
   "property": "C38",
   "status": "proved",
   "theorems": [
    "C38_any_schedule",
    "C38_no_deadlock",
    "C38_steps_defined",
    "C38_runs_exist"
   ],
   "note": "Threads, chunks, interleavings and merge orders are arbitrary; the lists are those of the linked-list model. Examples: a real stack, two runs whose orders differ."
  },
  {
   "property": "C40",
   "status": "partial",
   "theorems": [
    "C40_area",
    "C40_contact_partial",
    "C40_contact_refuted"
   ],
   "note": "The area is always that of the intersection. The contact length is the true one exactly when neither side is strictly inside the other; refuted with an accepted stack otherwise (200 instead of 100)."
  },
  {
   "property": "C41",
   "status": "partial",
   "theorems": [
    "C41_cells",
    "C41_ranges",
    "C41_no_top_sink_refuted"
   ],
   "note": "Every stack with a top heat sink and less than 2^32 cells. Refuted without a top heat sink: a null pointer is dereferenced."
  },
  {
   "property": "C42",
   "status": "partial",
   "theorems": [
    "C42_element",
    "C42_die",
    "C42_layers_partial",
    "C42_spreader",
    "C42_second_rectangle_refuted",
    "C42_channel_refuted"
   ],
   "note": "Elements (first rectangle), dies, layers, channels and spreader. Refuted: the second rectangle of an element gets no cells; a chip length that is not a multiple of the cell length leaves a strip uncovered."
  },
  {
   "property": "C56",
   "status": "proved",
   "theorems": [
    "C56_connected_iff_touching"
   ],
   "note": "Both directions, for every schedule; the geometry hypotheses (positive areas, coordinates equal or 2 nm apart, no overlap in a layer) are decided for the example stack."
  },
  {
   "property": "C39",
   "status": "proved",
   "theorems": [
    "C39_any_order",
    "C39_any_schedule"
   ],
   "note": "Same pointers, rows and values (exact rationals: with doubles the diagonal sums may differ in the last bits) for every order of the connections and every schedule; a matrix exists for every thermal grid of C24. qsort is any arrangement sorted by the comparison function."
  },
  {
   "property": "C57",
   "status": "partial",
   "theorems": [
    "C57_columns",
    "C57_energy",
    "C57_solids",
    "C57_coolant",
    "C57_apart",
    "C57_vertical",
    "C57_across",
    "C57_side_walls",
    "C57_spreader",
    "C57_walls_refuted",
    "C57_layout_refuted"
   ],
   "note": "Column sums, energy, solids, coolant transport and absence of other couplings. Refuted: side walls of two-resistor channels along the flow; layers with a layout of materials. Closed forms for every vertical connection, for connections along x of solids and four-resistor channels, and within the spreader. Side walls of two-resistor channels (C57_side_walls): the exchange along the flow in closed form, and the series value exactly when the contact is as long as the distance of the centres."
  },
  {
   "property": "C58",
   "status": "proved",
   "theorems": [
    "C58_sources",
    "C58_missing",
    "C58_element_power",
    "C58_layer_power",
    "C58_stack"
   ],
   "note": "Every stack of C41 whose dies have cells; layer types and floorplan profile as power_grid_fill writes them (C24) are the hypothesis describes. The heat of a bottom sink is the one the program writes (constant rate; see C59)."
  },
  {
   "property": "C59",
   "status": "partial",
   "theorems": [
    "C59_energy",
    "C59_plugin",
    "C59_ends",
    "C59_steady",
    "C59_board_refuted"
   ],
   "note": "Proved for an exact solver and every number of steps. The spreader of a pluggable sink must have the cells of the grid (spreader_fits; see C63). Values inserted between two steps: C62. C59_board_refuted: with a bottom sink the term of the board is a constant inflow that does not depend on the temperatures, so a stack at ambient temperature without power does not stay there."
  },
  {
   "property": "C60",
   "status": "proved",
   "theorems": [
    "C60_matrix",
    "C60_unique",
    "C60_between",
    "C60_stays",
    "C60_warm",
    "C60_monotone",
    "C60_steady",
    "C60_steady_air",
    "C60_stack"
   ],
   "note": "For an exact solver. C60_stack derives the hypotheses on the connections (positive contacts, every cell linked to the top) for every stack without channels and every schedule of the parallel sections; the link to the top needs layers that cover the same area (same_cover), which holds when the elements of every floorplan tile the die. With a bottom heat sink the statement is false (C59_board_refuted)."
  },
  {
   "property": "C61",
   "status": "partial",
   "theorems": [
    "C61_change",
    "C61_where",
    "C61_overflow",
    "C61_right",
    "C61_energy",
    "C61_refuted"
   ],
   "note": "False as stated in the middle of a slot. C61_change: the matrix is the one for the new flow rate and everything but the sources is kept. C61_where: the heat of the inlets is written with the stride of the uniform grid (NRows*NColumns cells a layer), at the wrong cells; C61_overflow: out of bounds when beyond the cells (witness: 17 cells, position 18); C61_right: right when the layers below have that many cells; C61_refuted: a chip in equilibrium at 300 K leaves it after a change in the middle of a slot. C61_energy: in every slot begun after the last change the balance is that of the new flow rate, for any number of changes at any times that returned success. With insertions of power values between the steps: C62."
  },
  {
   "property": "C62",
   "status": "proved",
   "theorems": [
    "C62_insert",
    "C62_energy",
    "C62_ends"
   ],
   "note": "For an exact solver and queues of fewer than 2^31 values. The flow rate must have been last changed at or before the beginning of the current slot (C61_refuted otherwise); a history stops at a step that does not return STEP_DONE or SLOT_DONE."
  },
  {
   "property": "C63",
   "status": "partial",
   "theorems": [
    "C63_fits",
    "C63_overflow",
    "C63_refuted"
   ],
   "note": "False as stated: C63_overflow, every spreader larger than the chip on a non-uniform grid makes the program write capacities beyond the end of the vector (witness C63_refuted: 14 cells, 30 capacities). C63_fits: a spreader of the size of the chip has one cell of the grid for each of its own, the hypothesis under which C59 to C62 describe what the plugin is given and what becomes of its answer."
  },
  {
   "property": "C64",
   "status": "partial",
   "theorems": [
    "C64_tcell",
    "C64_tcell_tiled",
    "C64_maps",
    "C64_element",
    "C64_floorplan",
    "C64_several_partial",
    "C64_coolant_partial",
    "C64_second_rectangle_refuted",
    "C64_far_side_refuted"
   ],
   "note": "False as stated for elements of more than one rectangle (C64_several_partial: cell 0 of the whole stack takes part; C64_second_rectangle_refuted), for Tcell at a point in no cell (C64_far_side_refuted: cell 0 is reported) and for Tcoolant, where the corner cell at the outlet takes part and the range is the maximum (C64_coolant_partial, as C36). Proved: Tcell where a cell contains the point, the only one where the layer is tiled; Tmap and Pmap; Tflp and Tflpel for elements of one rectangle that do not overlap; maximum and minimum of Tcoolant for 2RM and pin fins. The conversion to text is C69, T3D is C68."
  },
  {
   "property": "C65",
   "status": "proved",
   "theorems": [
    "C65_fragments",
    "C65_fragments_outside",
    "C65_reciprocal",
    "C65_covered",
    "C65_mirrored",
    "C65_flows",
    "C65_series",
    "C65_direction",
    "C65_called",
    "C65_energy"
   ],
   "note": "Rational arithmetic; the FMU (its temperatures and its doStep) is a parameter, as is the linear solver in C65_energy; C65_energy is for stacks without channels (with a pluggable sink the code refuses 4RM channels, and C33 gives the other ones)."
  },
  {
   "property": "C66",
   "status": "partial",
   "theorems": [
    "C66_powers",
    "C66_simulate",
    "C66_values",
    "C66_map_shifted",
    "C66_maps_mixed",
    "C66_map_refuted",
    "C66_map_never_right",
    "C66_tflp_returns_lengths",
    "C66_sync_never"
   ],
   "note": "False as stated for maps (C66_map_shifted: the first value is skipped, so that a map of more than one value is never right, C66_map_never_right; C66_map_refuted is a run; C66_maps_mixed for two maps), for type Tflp (C66_tflp_returns_lengths) and for the check of the time (C66_sync_never: it never stops the program). Proved: the powers, and the values of cells, elements and outlets. The words are those of C46-C48; the sockets are C45."
  },
  {
   "property": "C67",
   "status": "proved",
   "theorems": [
    "C67_schedule",
    "C67_remote"
   ],
   "note": "Equality is of the lists of rationals, not only of their values. Solver and plugin are parameters (functions of what they are given). In C67_remote the words of the client are decoded by the same function as the powers in the queues of the local run, and all slots are answered SLOT_DONE."
  },
  {
   "property": "C68",
   "status": "proved",
   "theorems": [
    "C68_file",
    "C68_name",
    "C68_run",
    "C68_final",
    "C68_defined",
    "C68_uniform_nothing",
    "C68_dotted_path_refuted",
    "C68_two_points_refuted",
    "C68_long_path_refuted",
    "C68_long_run_refuted",
    "C68_no_directory_refuted"
   ],
   "note": "The text of the file is modelled character by character and read back by an independent VTK reader (VtkSpec.v). The _refuted theorems show that the conditions on the path are needed: a dot in a directory, 50 characters, 10^9 steps, a file that cannot be created. Coordinates and temperatures are rationals: printf prints the nearest decimal."
  },
  {
   "property": "C69",
   "status": "proved",
   "theorems": [
    "C69_run",
    "C69_interrupted",
    "C69_steady",
    "C69_times",
    "C69_nu_map",
    "C69_times_refuted",
    "C69_power_map_refuted",
    "C69_long_id_refuted"
   ],
   "note": "The texts are modelled character by character (OutText.v) and read back by an independent reader (OutTextSpec.v). Uniform grid for whole runs; for the non-uniform grid one map and its file of cells. What the numbers mean is C52. Paths are distinct and none is xaxis.txt or yaxis.txt; names are visible ASCII. Numbers are rationals: printf prints the nearest decimal."
  },
  {
   "property": "C70",
   "status": "partial",
   "theorems": [
    "C70_reads",
    "C70_accepted",
    "C70_elements",
    "C70_never_outside",
    "C70_refused",
    "C70_star_comment",
    "C70_round_trip_partial",
    "C70_star_comment_refuted",
    "C70_numbers_refuted",
    "C70_same_name_refuted",
    "C70_outside_refuted",
    "C70_round_trip_refuted",
    "C70_material_refuted"
   ],
   "note": "The scanner is its regular expressions (derivatives, longest match, earliest rule, start conditions: Flex.v); the grammar is recursive descent on the tokens; the syntax of the user guide is written independently (FlpTextSpec.v: lexemes and gaps). Partial because the claim is false of the code as stated: comments that end with an odd number of stars, numbers without integer digits, rectangles outside, elements without powers (the _refuted theorems). Numbers are rationals; actions run before a syntax error are left out; the generated LALR tables are trusted to recognise the grammar."
  },
  {
   "property": "C71",
   "status": "partial",
   "theorems": [
    "C71_grammar",
    "C71_unambiguous",
    "C71_reads",
    "C71_accepted",
    "C71_stray_dropped",
    "C71_star_comment",
    "C71_star_comment_refuted"
   ],
   "note": "The scanner is its regular expressions (Flex.v) with its 74 keywords; the grammar is recursive descent, proved equivalent to an independent list of the lexemes of a file (C71_grammar). Partial because the claim is false of the code as stated: a comment that ends with an odd number of stars is not closed, and stray characters and signs are dropped. The theorems end at the declarations: what is built from them is C12-C15, C44, C46, C51. The generated LALR tables are trusted to recognise the grammar."
  },
  {
   "property": "C72",
   "status": "partial",
   "theorems": [
    "C72_grammar",
    "C72_reads",
    "C72_accepted_text",
    "C72_accepts",
    "C72_refuses",
    "C72_material",
    "C72_long_name",
    "C72_long_name_refuted"
   ],
   "note": "Scanner, grammar and actions of layout files (LayText.v), from characters to the material of the cells of the layer (material_at, the function the coefficients use, C12/C35). Partial because the claim is false of the code for unknown materials with long names (C72_long_name: exactly from 233 characters on). Actions run before a syntax error are left out; rectangles are exact rationals; the material of cells is proved for grids without two columns (see C12) and rectangles side by side."
  },
  {
   "property": "C73",
   "status": "partial",
   "theorems": [
    "C73_meaning",
    "C73_file",
    "C73_accepted",
    "C73_deterministic",
    "C73_sound",
    "C73_simulates",
    "C73_energy",
    "C73_equilibrium",
    "C73_long_name",
    "C73_long_name_refuted"
   ],
   "note": "All semantic actions of stack_description_parser.y in order (StkLoad.v) against the relation means (StkLoadSpec.v), joined with C70, C71, C72 and C51: from characters on disk to the energy balance. Partial because the claim is false of the code for unknown heat-sink materials with long names (C73_long_name: exactly from 83 characters on). Parameters: porosity and heat transfer of pin fins, reading of doubles, whether a plugin starts; actions run before a syntax error are left out; sane asks rectangles on the chip and counters that fit; uniform grid for C73_sound and after."
  },
  {
   "property": "C74",
   "status": "partial",
   "theorems": [
    "C74_material_refused",
    "C74_never_read_back",
    "C74_plain_layer",
    "C74_top",
    "C74_bottom",
    "C74_channel",
    "C74_dims",
    "C74_layer",
    "C74_die",
    "C74_element",
    "C74_point",
    "C74_pluggable_refused",
    "C74_solver_partial",
    "C74_short_times",
    "C74_t3d_refused",
    "C74_gradient_refuted"
   ],
   "note": "All printing functions of a stack description (StkSave.v) against the scanner and the grammar of C71. Partial because the claim is false of the code: C74_never_read_back is the refutation, for every description with a material; the sections that are right are proved right (same_* in StkSaveSpec.v), the others refuted one by one. Numbers are rationals and printf rounds to nearest even."
  },
  {
   "property": "C75",
   "status": "partial",
   "theorems": [
    "C75_histories",
    "C75_string",
    "C75_material",
    "C75_ic_element",
    "C75_material_element",
    "C75_layer",
    "C75_floorplan_element",
    "C75_floorplan_matrix",
    "C75_floorplan",
    "C75_die",
    "C75_heat_sink_partial",
    "C75_channel",
    "C75_cell",
    "C75_connection",
    "C75_dimensions_partial",
    "C75_stack_element",
    "C75_inspection_point",
    "C75_output",
    "C75_stack_description",
    "C75_dimensions_refuted",
    "C75_heat_sink_refuted",
    "C75_self_merge_refuted",
    "C75_empty_matrix",
    "C75_witness",
    "C75_witness_allocator",
    "C75_witness_built",
    "C75_witness_sink"
   ],
   "note": "init, copy, assign, destroy, clone, free and the list template (Own.v) over a heap of blocks; OwnSpec.v says which blocks a structure owns. Partial because the claim is false of dimensions with a table of cells (C75_dimensions_refuted: double free) and of PluggableHeatsinkInit (C75_heat_sink_refuted), and merging a list with itself loses its nodes (C75_self_merge_refuted; excluded from the histories); all other parts are proved for all contents and histories. malloc does not fail in the model; a floorplan matrix is blank or has a coefficient (C75_empty_matrix for the others)."
  },
  {
   "property": "C76",
   "status": "partial",
   "theorems": [
    "C76_build",
    "C76_build_succeeds",
    "C76_update",
    "C76_destroy",
    "C76_life",
    "C76_nonuniform",
    "C76_restored_refuted",
    "C76_failed_refuted",
    "C76_failed_destroy_refuted",
    "C76_twice_refuted",
    "C76_unbuilt_refuted",
    "C76_positions_refuted",
    "C76_witness",
    "C76_witness_allocators"
   ],
   "note": "Life.v over the heap of Own.v; LifeSpec.v says which blocks a simulation owns. Partial because the claim that a simulation gives back its memory is false (C76_restored_refuted: 13 blocks per factorization), and so are those about failed builds and repeated or early destruction (_refuted); all other parts are proved for all elements, sizes, allocators and failures. Values of arrays, the lists of cells and connections of a non-uniform grid, memory SuperLU frees within one call, and lack of memory inside SuperLU or in copies of layers (unchecked in the code) are not modelled."
  },
  {
   "property": "C77",
   "status": "partial",
   "theorems": [
    "C77_conductance",
    "C77_python_same",
    "C77_python_list",
    "C77_python_values_refuted",
    "C77_flows",
    "C77_energy",
    "C77_stays",
    "C77_warm",
    "C77_between",
    "C77_monotone",
    "C77_gentle_enough",
    "C77_cold_refuted",
    "C77_names",
    "C77_names_refuted",
    "C77_path",
    "C77_path_refuted"
   ],
   "note": "SinkTemplate.v. Exact arithmetic and an exact solver, solid stacks on uniform grids. Partial because parts of the claim are false of the code and refuted with counterexamples: without the bound on the step the explicit flow cools the spreader below everything around it (C77_cold_refuted); an element of the list that is not a number counts as -1 W without an error (C77_python_values_refuted); an FMU in the root directory is looked for in the working directory and a script ./x loses its name (C77_names_refuted); a long relative plugin path overflows the buffer (C77_path_refuted)."
  },
  {
   "property": "C78",
   "status": "proved",
   "theorems": [
    "C78_temperatures",
    "C78_matrices",
    "C78_status",
    "C78_zero",
    "C78_success_refuted",
    "C78_nan_refuted"
   ],
   "note": "Compare.v. Files as lines of words; numbers are rationals or NaN. Beyond the claim: a success does not mean that the files agree or were even compared to the end (C78_success_refuted), and a temperature that is not a number differs from nothing (C78_nan_refuted)."
  },
  {
   "property": "C79",
   "status": "proved",
   "theorems": [
    "C79_file",
    "C79_layers",
    "C79_budget",
    "C79_variances",
    "C79_order",
    "C79_bound",
    "C79_levelled",
    "C79_some",
    "C79_nonpositive",
    "C79_far",
    "C79_variance_refuted"
   ],
   "note": "Division.v. Exact rationals for the floats of Python; lines classified by the regular expressions. Beyond the claim: layers of no conductance use up all divisions (C79_nonpositive), 100 and 101 are only levelled at 10100 (C79_far), and the variance can rise above the initial one (C79_variance_refuted)."
  },
  {
   "property": "C80",
   "status": "proved",
   "theorems": [
    "C80_fails",
    "C80_cells",
    "C80_size",
    "C80_monotone",
    "C80_finest",
    "C80_file",
    "C80_cell_refuted",
    "C80_border_refuted"
   ],
   "note": "Gradient.v. Exact rationals for the floats of Python and numpy; the cells with their gradients and the elements read from the floorplan are parameters. The text is read by the model of the scanner and the parser (C70). Beyond the claim: cells can be smaller than the minimum and are not square (C80_cell_refuted), and a cell that only touches an element counts for it (C80_border_refuted)."
  },
  {
   "property": "C81",
   "status": "partial",
   "theorems": [
    "C81_fails",
    "C81_defined",
    "C81_values",
    "C81_monotone",
    "C81_floorplan",
    "C81_materials",
    "C81_full_refuted"
   ],
   "note": "Gds.v, GdsText.v. Exact rationals for floats; the blocks and the square root are parameters. Partial because the claim that every used material is defined is false of the code: a share of 1 uses GDS_mat100, which is only defined if another share is from 0.99 to below 1 (C81_full_refuted; exactly then: C81_defined). read_gds.py prints two decimals, so a fully covered region gives 1.00. Proved: all other parts, for shares that are not negative."
  },
  {
   "property": "C82",
   "status": "proved",
   "theorems": [
    "C82_tiles",
    "C82_numbers",
    "C82_leaves",
    "C82_overlap"
   ],
   "note": "Gds.v. Exact rationals; the covered area of a region is a parameter (for C82_overlap additive over quarters). The R-tree, the merging of polygons and the two decimals of the printed shares are not modelled."
  },
  {
   "property": "C83",
   "status": "partial",
   "theorems": [
    "C83_place",
    "C83_nonuniform",
    "C83_hotter",
    "C83_default",
    "C83_limits",
    "C83_too_many",
    "C83_limit_refuted",
    "C83_cold_refuted",
    "C83_axes",
    "C83_emulated",
    "C83_slots_refuted"
   ],
   "note": "HeatMap.v. C83_axes and C83_emulated join it to the axis files and maps of the emulator (C83_axes: without channels, not for two columns). Exact rationals for floats; the numbers of the files are parameters. Partial because the last sentence is false of the code: with --tempmax reached by a temperature the program ends in an IndexError (C83_limit_refuted), and with --tempmin a colder cell gets one of the hottest colours (C83_cold_refuted). A file with the maps of several slots draws nothing (C83_slots_refuted). Floorplan outlines, names and colour bar are not modelled."
  }
 ]
}