{"id": "C01", "title": "Powers queue is a FIFO of unbounded length", "statement": "After building a powers queue with a positive capacity, any interleaving of put and get behaves as a first-in first-out sequence: every get on a non-empty queue returns the oldest value put and not yet taken, automatic growth never loses, duplicates or reorders a value, and a get on an empty queue (or any operation on an unbuilt queue) returns 0.0 / does nothing and leaves the contents unchanged.", "quantifier": "every sequence of put/get/copy/clone operations of any length, every initial positive capacity below the 32-bit limits", "why_tests_cant": "the bug surface is the interaction of the circular start index with the doubling copy, for every capacity and every history", "anchors": ["sources/powers_queue.c: powers_queue_build, put_into_powers_queue, get_from_powers_queue, is_empty_powers_queue, powers_queue_copy"]}
{"id": "C02", "title": "Copying a powers queue is faithful and independent", "statement": "powers_queue_copy / powers_queue_clone give a queue holding exactly the same values in the same order as the source whatever the destination held before, and leave the source unchanged, so later operations on one do not affect what is read from the other.", "quantifier": "every pair of reachable source and destination queues, wrapped or not, smaller or larger", "why_tests_cant": "depends on all relative positions of Start/End in both circular buffers", "anchors": ["sources/powers_queue.c: powers_queue_copy, powers_queue_clone"]}
{"id": "C03", "title": "A powers queue never indexes outside its buffer", "statement": "Every put, get and copy on a queue built with positive capacity accesses only indexes below the capacity and never divides by zero, as long as the capacity stays within 32 bits; a queue built with capacity 0 does not have this guarantee.", "quantifier": "every reachable queue state", "why_tests_cant": "memory safety over all histories", "anchors": ["sources/powers_queue.c"]}
{"id": "C04", "title": "Generic list operations keep the doubly linked structure", "statement": "Any sequence of init / insert_begin / insert_end / merge / copy / destroy on the generic lists leaves lists whose Size equals the number of elements, whose forward traversal (begin/next) yields the elements in insertion order, and whose backward traversal (end/prev) yields exactly the reverse.", "quantifier": "every sequence of list operations over any number of lists, every element type", "why_tests_cant": "pointer surgery must be right for every length including 0 and 1 and every splice", "anchors": ["sources/list_template.c: list_init, list_insert_begin, list_insert_end, list_merge, list_copy, list_destroy"]}
{"id": "C05", "title": "Merging two lists concatenates them and empties the second", "statement": "list_merge(l1,l2) makes l1 the concatenation l1++l2 (both directions of traversal, Size added) and leaves l2 empty, including when either list is empty; no element is lost or duplicated.", "quantifier": "all pairs of lists", "why_tests_cant": "pointer-level behaviour for every shape", "anchors": ["sources/list_template.c: list_merge"]}
{"id": "C06", "title": "Looking up an element returns the first match", "statement": "list_find returns the first element in list order that the element comparison accepts, and nothing when none does, so identifiers resolve to the earliest declaration.", "quantifier": "all lists and all comparison functions", "why_tests_cant": "universal over list contents", "anchors": ["sources/list_template.c: list_find", "sources/floorplan.c: get_floorplan_element"]}
{"id": "C07", "title": "Network message construction preserves every inserted word", "statement": "After building a message head and inserting any number of words, the message length is 2 plus the number of words, the type is the one given, and extracting index i returns the i-th inserted word, regardless of how often the buffer was enlarged.", "quantifier": "all message types and all word sequences of any length (below the 32-bit limit)", "why_tests_cant": "growth happens at data dependent points", "anchors": ["sources/network_message.c: build_message_head, insert_message_word, extract_message_word"]}
{"id": "C08", "title": "Reading a word past the end of a message is refused", "statement": "extract_message_word reports failure when the requested index is not below the number of words inserted in the message.", "quantifier": "all messages and indexes", "why_tests_cant": "an out-of-range read is only visible for particular lengths and buffer capacities", "anchors": ["sources/network_message.c: extract_message_word"]}
{"id": "C09", "title": "A message survives any fragmentation of the byte stream", "statement": "If one side sends a message and the other receives it over a stream socket, the received message has the same length, type and content, however the kernel splits the writes and the reads into pieces and however often system calls are interrupted by signals; several messages sent back to back are received one by one in order.", "quantifier": "all message sequences, all partial read/write schedules, all EINTR placements", "why_tests_cant": "the schedule is chosen by the kernel", "anchors": ["sources/network_socket.c: send_message_to_socket, receive_message_from_socket"]}
{"id": "C10", "title": "A stream that ends early is reported, never mistaken for a message", "statement": "If the peer closes the connection (or an error other than EINTR happens) before a whole message has arrived, receive_message_from_socket returns failure.", "quantifier": "every prefix of every encoded message and every fragmentation", "why_tests_cant": "needs every cut point", "anchors": ["sources/network_socket.c: receive_message_from_socket"]}
{"id": "C11", "title": "Cell identifiers are a bijection between grid coordinates and 0..NCells-1", "statement": "For a uniform grid accepted by the parser, the offset of (layer,row,column) is below the number of cells, different coordinates give different offsets, and every offset is hit; 32-bit arithmetic does not wrap.", "quantifier": "all grid sizes with at most 2^31-1 cells, all coordinates", "why_tests_cant": "all sizes", "anchors": ["sources/dimensions.c: get_cell_offset_in_layer, get_cell_offset_in_stack", "bison/stack_description_parser.y: ncells check"]}
{"id": "C12", "title": "Cell geometry tiles the chip without gaps or overlaps", "statement": "The left edge of the next column equals the left edge of a column plus its length, the centre of a column is half way between its edges, the same for rows, and the lengths of all columns sum to the chip length for every grid the parser accepts (with four different cell lengths for 4RM).", "quantifier": "all numbers of columns and rows, all lengths", "why_tests_cant": "closed forms with integer halving must agree with the sum for each parity and size", "anchors": ["sources/dimensions.c: get_cell_length, get_cell_location_x, get_cell_center_x, get_cell_width, get_cell_location_y, get_cell_center_y", "bison/stack_description_parser.y: dimensions"]}
{"id": "C13", "title": "Floorplan rectangles are aligned to exactly the cells they overlap", "statement": "For a rectangle inside the chip, align_to_grid selects the rows and columns such that the cells strictly overlapping the rectangle are exactly those in the selected range.", "quantifier": "all rectangles with positive size inside the grid, all grids", "why_tests_cant": "boundary alignment for every real position", "anchors": ["sources/ic_element.c: align_to_grid"]}
{"id": "C14", "title": "Power is conserved when distributed from floorplan elements to cells", "statement": "The weights with which a floorplan element's power is spread over the thermal cells sum to 1, are non-negative, only address cells of that layer, and each weight equals (area of the cell covered by the element)/(area of the element); hence the sum of all cell sources equals the sum of the element powers.", "quantifier": "all floorplans with any number of elements made of any number of rectangles, all grids, all power values", "why_tests_cant": "sums over unbounded grids", "anchors": ["sources/floorplan_matrix.c: floorplan_matrix_fill, floorplan_matrix_multiply", "sources/floorplan.c: fill_sources_floorplan"]}
{"id": "C15", "title": "The floorplan matrix fits the memory allocated for it", "statement": "The number of coefficients written while filling the floorplan matrix equals the number allocated, column pointers are non-decreasing and end at that number, and row indexes are within the layer.", "quantifier": "all floorplans and grids", "why_tests_cant": "memory safety over all inputs", "anchors": ["sources/floorplan.c: fill_floorplan", "sources/floorplan_matrix.c: floorplan_matrix_build, floorplan_matrix_fill"]}
{"id": "C16", "title": "Power values are consumed one per element per slot in insertion order", "statement": "At each new time slot each floorplan element contributes exactly the next value of its own queue, so the power applied to element e in slot n is the n-th value given for e (in the file or through insert_power_values).", "quantifier": "all stacks, all power traces, any number of slots", "why_tests_cant": "histories of unbounded length", "anchors": ["sources/floorplan.c: fill_sources_floorplan", "sources/power_grid.c: update_source_vector"]}
{"id": "C17", "title": "Inserting power values distributes them bottom-up in floorplan order", "statement": "insert_power_values with at least as many values as floorplan elements succeeds, appends value k to the k-th floorplan element counting dies from the bottom of the stack and elements in file order, and leaves the unused values in the input queue; with fewer values it fails.", "quantifier": "all stacks and all value lists", "why_tests_cant": "all sizes", "anchors": ["sources/power_grid.c: insert_power_values", "sources/floorplan.c: insert_power_values_floorplan"]}
{"id": "C18", "title": "Running out of power values is all-or-nothing", "statement": "When the power values of some floorplan element are exhausted at the start of a slot, the slot is refused and no other element loses a value.", "quantifier": "all stacks and trace lengths", "why_tests_cant": "depends on which element is short", "anchors": ["sources/floorplan.c: fill_sources_floorplan", "sources/thermal_data.c: emulate_step"]}
{"id": "C19", "title": "Time and slot bookkeeping of the transient simulation", "statement": "Starting from time 0, emulate_step returns SLOT_DONE exactly on every SlotLength-th successful step and STEP_DONE on the others, simulated time is steps*StepTime, and a successful emulate_slot started on a slot boundary performs exactly SlotLength steps and consumes exactly one power value per floorplan element.", "quantifier": "all slot lengths, any number of steps below 2^32 (the step counter of the library is 32 bits wide), all interleavings of emulate_step and emulate_slot", "why_tests_cant": "unbounded histories", "anchors": ["sources/thermal_data.c: emulate_step, emulate_slot", "sources/analysis.c"]}
{"id": "C20", "title": "Power applied is constant within a slot", "statement": "Between two slot boundaries the source vector is that computed at the slot start from one value per element (plus the pluggable heat sink contribution), irrespective of how the steps are requested.", "quantifier": "all histories", "why_tests_cant": "unbounded histories", "anchors": ["sources/thermal_data.c: emulate_step", "sources/power_grid.c: update_source_vector"]}
{"id": "C21", "title": "End of simulation leaves temperatures and time unchanged", "statement": "When emulate_step or emulate_slot returns END_OF_SIMULATION at a slot boundary or WRONG_CONFIG, temperatures and the current time are those of the last completed step, and further calls keep returning END_OF_SIMULATION until power values are inserted.", "quantifier": "all states", "why_tests_cant": "all states", "anchors": ["sources/thermal_data.c: emulate_step, emulate_slot, emulate_steady"]}
{"id": "C22", "title": "Resetting the thermal state restores the initial simulation", "statement": "After reset_thermal_state the next step behaves as the first step of a fresh simulation with the same remaining power values.", "quantifier": "all states from which reset is called", "why_tests_cant": "depends on the position inside a slot at which the reset happens", "anchors": ["sources/thermal_data.c: reset_thermal_state", "sources/analysis.c"]}
{"id": "C23", "title": "Stack elements occupy disjoint consecutive layers from the bottom", "statement": "The parser assigns each stack element an offset such that the layer ranges of the elements partition 0..NLayers-1 in bottom-to-top order, the height profile gives every layer the height declared for it, and the source layer of each die is inside its range.", "quantifier": "all stacks of any number of elements", "why_tests_cant": "all stacks", "anchors": ["bison/stack_description_parser.y: stack", "sources/stack_element.c: get_source_layer_offset"]}
{"id": "C24", "title": "Every layer is typed, and thermal and power grids agree", "statement": "After building the grids no layer of an accepted stack is left without a type, the type assigned to each layer by the thermal grid equals that assigned by the power grid, source layers are exactly those of the dies, and the heat sink types are exactly on the top-most / bottom-most layer.", "quantifier": "all accepted stacks", "why_tests_cant": "all stacks", "anchors": ["sources/thermal_grid.c: thermal_grid_fill", "sources/power_grid.c: power_grid_fill"]}
{"id": "C25", "title": "Assembled matrix has exactly the allocated number of coefficients", "statement": "Filling the system matrix writes exactly as many coefficients as compute_number_of_connections predicts, for solid stacks, 4RM, 2RM and pin-fin channels, with or without spreader.", "quantifier": "all accepted uniform stacks and grid sizes", "why_tests_cant": "a mismatch is a heap overflow only for particular shapes", "anchors": ["sources/dimensions.c: compute_number_of_connections", "sources/system_matrix.c: fill_system_matrix"]}
{"id": "C26", "title": "Assembled matrix is well-formed compressed-column storage", "statement": "Column pointers start at 0, never decrease and end at the number of coefficients; within each column row indexes are strictly increasing and below the number of cells, and the diagonal is present.", "quantifier": "all accepted uniform stacks and grid sizes", "why_tests_cant": "all shapes", "anchors": ["sources/system_matrix.c: fill_system_matrix, add_solid_column, add_liquid_column_4rm, add_liquid_column_2rm, add_bottom_wall_column_2rm, add_top_wall_column_2rm, add_virtual_wall_column_2rm, add_spreader_column"]}
{"id": "C27", "title": "Heat conduction between two cells is reciprocal", "statement": "In a stack without coolant the coefficient that cell a contributes to b equals the coefficient b contributes to a.", "quantifier": "all solid stacks, all materials and layouts, all cells", "why_tests_cant": "all shapes and materials", "anchors": ["sources/system_matrix.c: add_solid_column", "sources/thermal_grid.c"]}
{"id": "C28", "title": "Energy is conserved by every transient step of a solid stack", "statement": "For any exact solution of the step equations, the increase of stored heat equals the injected power times the step minus the heat given to the ambient by the heat sinks.", "quantifier": "all solid stacks, sinks, materials, temperatures and powers", "why_tests_cant": "global sum over an unbounded grid", "anchors": ["sources/system_matrix.c", "sources/thermal_data.c: fill_system_vector", "sources/power_grid.c: update_source_vector"]}
{"id": "C29", "title": "Thermal equilibrium is preserved", "statement": "If no power is dissipated and every cell is at the temperature of the ambient and of the incoming coolant, that uniform temperature is a solution of the step equations: the simulation stays there.", "quantifier": "all stacks (solid, 4RM, 2RM, pin fin), all parameters", "why_tests_cant": "all shapes and parameters", "anchors": ["sources/system_matrix.c", "sources/power_grid.c: update_source_vector", "sources/thermal_data.c: fill_system_vector"]}
{"id": "C30", "title": "No spontaneous hot or cold spots (maximum principle)", "statement": "In a stack without coolant and without dissipated power, the temperatures after a step lie between the minimum and the maximum of the previous temperatures and the ambient temperatures.", "quantifier": "all solid stacks, all initial temperature fields, any number of steps", "why_tests_cant": "all fields", "anchors": ["sources/system_matrix.c", "sources/thermal_data.c: emulate_step"]}
{"id": "C31", "title": "More power never cools any cell", "statement": "In a stack without coolant, increasing the power of some element (others equal) does not decrease any cell temperature after any number of steps.", "quantifier": "all solid stacks, powers, histories", "why_tests_cant": "all fields", "anchors": ["sources/system_matrix.c", "sources/power_grid.c"]}
{"id": "C32", "title": "The step equations have at most one solution", "statement": "For a solid stack with positive capacities (transient) the linear system solved at each step has at most one solution, so results do not depend on the order of elimination chosen by the solver.", "quantifier": "all solid stacks", "why_tests_cant": "all shapes", "anchors": ["sources/system_matrix.c"]}
{"id": "C33", "title": "Coolant carries away exactly the enthalpy difference", "statement": "For each 4RM channel the convective terms of the assembled matrix sum to outlet minus inlet enthalpy flow: interior cells exchange nothing net, the inlet contributes the incoming temperature and the outlet removes heat at the outlet temperature.", "quantifier": "all numbers of rows and channels", "why_tests_cant": "telescoping over unbounded rows", "anchors": ["sources/system_matrix.c: add_liquid_column_4rm", "sources/power_grid.c: update_source_vector"]}
{"id": "C34", "title": "Reported extreme and gradient temperatures of a floorplan element are exact", "statement": "The maximum (minimum) reported for a floorplan element is attained by one of its cells and no cell of the element is hotter (colder); the gradient is maximum minus minimum.", "quantifier": "all floorplan elements, all temperature fields", "why_tests_cant": "all fields", "anchors": ["sources/ic_element.c: get_max_temperature_ic_element, get_min_temperature_ic_element", "sources/floorplan_element.c"]}
{"id": "C35", "title": "Reported average temperature of a floorplan element is the average of its cells", "statement": "The average reported for a floorplan element is the mean of the temperatures of the cells it covers.", "quantifier": "all floorplan elements, all temperature fields", "why_tests_cant": "only differs for elements made of several rectangles of different size", "anchors": ["sources/ic_element.c: get_avg_temperature_ic_element", "sources/floorplan_element.c: get_avg_temperature_floorplan_element"]}
{"id": "C36", "title": "Reported coolant outlet temperatures describe the coolant", "statement": "The maximum / minimum / average / gradient reported for a channel outlet are the maximum / minimum / average / difference over the coolant cells of the last row only.", "quantifier": "all channels, models and temperature fields", "why_tests_cant": "wrong only when wall cells differ from the coolant", "anchors": ["sources/channel.c: get_max_temperature_channel_outlet, get_min_temperature_channel_outlet, get_avg_temperature_channel_outlet, get_gradient_temperature_channel_outlet"]}
{"id": "C37", "title": "An inspected point reads the cell that contains it", "statement": "For a point inside the chip, the row and column chosen for a Tcell inspection point are those of the cell whose half-open extent contains the point.", "quantifier": "all grids and points", "why_tests_cant": "all positions", "anchors": ["sources/inspection_point.c: align_tcell"]}
{"id": "C38", "title": "Parallel construction of the non-uniform connections is schedule independent", "statement": "The multiset of connections found by the parallel search is the same as that of a sequential search, however iterations are assigned to threads and in whatever order threads merge their results.", "quantifier": "all cell sets, all thread counts, all schedules and merge orders", "why_tests_cant": "schedules are chosen at run time", "anchors": ["sources/thermal_data.c: get_connections_in_layer, get_connections_between_layer", "sources/list_template.c: list_merge"]}
{"id": "C39", "title": "Non-uniform assembly is schedule independent", "statement": "The system matrix assembled from the non-uniform connections does not depend on the order in which the connections were found.", "quantifier": "all permutations of the connection list", "why_tests_cant": "all permutations", "anchors": ["sources/system_matrix.c: fill_system_matrix (non-uniform branch)"]}
{"id": "C40", "title": "Non-uniform neighbour contact is the true shared length", "statement": "For two touching cells of the same layer the contact length used for their conductance is the length of the common part of their sides; for two cells of adjacent layers the contact area is the area of the intersection of their footprints.", "quantifier": "all pairs of rectangles", "why_tests_cant": "wrong only for particular relative positions", "anchors": ["sources/thermal_data.c: get_connections_in_layer, get_overlap_area"]}
{"id": "C41", "title": "Non-uniform cell numbering matches the declared counts", "statement": "The number of cells created while numbering the non-uniform grid equals the number computed in advance, numbering is consecutive from the bottom layer, and each floorplan element's index range denotes exactly its own cells.", "quantifier": "all stacks and discretisations", "why_tests_cant": "all discretisations", "anchors": ["sources/thermal_data.c: update_number_of_cells, get_cell_position"]}
{"id": "C42", "title": "Non-uniform subdivision of an element tiles it exactly", "statement": "The cells generated for a floorplan element or layer do not overlap and cover its rectangle exactly.", "quantifier": "all discretisation factors and rectangles", "why_tests_cant": "all sizes", "anchors": ["sources/thermal_data.c: get_cell_position"]}
{"id": "C43", "title": "Slot length computed from slot and step times", "statement": "For decimal slot and step times with slot >= step > 0 the parser computes the number of steps per slot as the integer quotient of the exact decimal values, which is at least 1.", "quantifier": "all decimal slot/step pairs", "why_tests_cant": "decimal scaling loop with truncation to 32 bits", "anchors": ["bison/stack_description_parser.y: solver"]}
{"id": "C44", "title": "Stacks with two adjacent channels are rejected", "statement": "A stack description in which two channels directly follow each other is refused.", "quantifier": "all stack element sequences", "why_tests_cant": "all positions of the pair", "anchors": ["bison/stack_description_parser.y: stack_elements"]}
{"id": "C45", "title": "Overlapping floorplan elements are detected", "statement": "check_intersection reports true exactly for rectangles whose interiors overlap (beyond the tolerance), is symmetric, and check_location reports true exactly when a rectangle sticks out of the chip.", "quantifier": "all pairs of rectangles", "why_tests_cant": "all real positions", "anchors": ["sources/ic_element.c: check_intersection, check_location", "bison/floorplan_parser.y"]}
{"id": "C46", "title": "The server answers every request and a lost client terminates it", "statement": "For every sequence of requests the server sends exactly one reply to each request that has a reply, with the same type, in order, and when the connection ends it leaves the loop.", "quantifier": "all request sequences", "why_tests_cant": "all histories", "anchors": ["bin/3D-ICE-Server.c: main"]}
{"id": "C47", "title": "Server-side power insertion equals local insertion", "statement": "A client sending n powers for n floorplan elements has the same effect as inserting these values in order locally; a message claiming more values than it carries is refused.", "quantifier": "all power vectors and message contents", "why_tests_cant": "all lengths", "anchors": ["bin/3D-ICE-Server.c: TDICE_INSERT_POWERS", "sources/network_message.c"]}
{"id": "C48", "title": "Output replies can be decoded by the client", "statement": "For every set of inspection points the reply to an output request starts with the time and the number of results and the client's decoding loop recovers exactly the values, names and headers the server encoded, consuming the whole message.", "quantifier": "all inspection point lists, names and floorplans", "why_tests_cant": "variable-length encodings", "anchors": ["sources/inspection_point.c: fill_message_inspection_point", "bin/3D-ICE-Client.c"]}
{"id": "C49", "title": "Spreader coordinates map consistently to chip coordinates", "statement": "Mapping a chip cell to the spreader cell above it and back returns the same cell; a spreader cell has a chip layer underneath exactly when it is the image of a chip cell; spreader offsets follow the chip cells without collision.", "quantifier": "all grids and border widths", "why_tests_cant": "all sizes", "anchors": ["sources/dimensions.c: get_spreader_cell_offset, get_spreader_cell_offset_from_layer_coordinates, has_layer_underneath, get_layer_cell_offset_from_spreader_coordinates", "sources/heat_sink.c: initialize_heat_spreader"]}
{"id": "C50", "title": "Each output command is produced at its declared instants only", "statement": "A run of the emulator with n slots of m steps writes n*m records for a step inspection point, n for a slot one and exactly one for a final one, in time order, with the time of the step.", "quantifier": "all numbers of slots and steps, all inspection points", "why_tests_cant": "unbounded runs", "anchors": ["bin/3D-ICE-Emulator.c: main", "sources/output.c: generate_output"]}
{"id": "C51", "title": "Every sensible stack description builds a sound simulation", "statement": "For a stack description accepted by the parser whose physical values are positive and whose matrix fits the 32-bit count, thermal_data_build reads and writes only memory it allocated and succeeds unless the stack is one of the two refused shapes (pluggable sink over a 4RM channel, two sinks on a single layer) or the factorisation fails; the simulation starts with every cell at the initial temperature and the floorplan elements of the description, every later step answers, conserves energy, keeps equilibrium with its surroundings, and without coolant or power no cell leaves the range of the initial and ambient temperatures.", "quantifier": "all accepted descriptions (all stacks, channels, sinks, floorplans, grid sizes), all call histories, all exact solvers", "why_tests_cant": "unbounded set of descriptions and histories", "anchors": ["bison/stack_description_parser.y", "sources/thermal_data.c: thermal_data_build", "sources/power_grid.c: power_grid_fill", "sources/thermal_grid.c: thermal_grid_fill", "sources/system_matrix.c: fill_system_matrix"]}
{"id": "C52", "title": "An inspection point reads the element it names", "statement": "The value an output instruction produces for a stack element is computed from the temperatures (or powers) of the layer of that element in the declared stack: a layer's own layer, a die's source layer, the coolant layer of a channel; Tcell reads the cell of the requested coordinates there, Tmap and Pmap the whole layer in row-major order, Tflpel and Tflp the cells covered by the named floorplan element, Tcoolant the outlet row.", "quantifier": "all stacks of elements (any order and number of layers), all inspection points, all temperature vectors", "why_tests_cant": "the layer offset depends on every element below; unbounded stacks", "anchors": ["sources/inspection_point.c: generate_inspection_point_output", "sources/stack_element.c: get_source_layer_offset", "sources/thermal_data.c"]}
{"id": "C53", "title": "Matrix coefficients are the conductances of the described stack", "statement": "In the assembled system, two neighbouring cells exchange heat through the series of the two half-cell resistances (thickness over conductivity times area, or the film of the coolant), walls of two-resistor channels conduct through their solid part, the coolant carries volumetric heat capacity times its share of the declared flow rate, the shares add up to that flow rate, capacities are volumetric heat capacity times volume, sinks are reached through half of the outer layer and the film, and the spreader conducts likewise.", "quantifier": "all accepted stacks, all cells, all physical parameters", "why_tests_cant": "a value per cell and direction for every stack, grid and parameter", "anchors": ["sources/thermal_grid.c: get_capacity, get_conductance_*", "sources/system_matrix.c: fill_system_matrix", "sources/channel.c: get_convective_term", "sources/heat_sink.c"]}
{"id": "C54", "title": "Reading the temperature of a cell", "statement": "get_cell_temperature returns the temperature of the addressed cell for every position of the grid, returns 0 for positions outside of the grid and never reads outside of the temperature vector.", "quantifier": "all grids, all 32-bit layer, row and column indices", "why_tests_cant": "all indices including wrapping products", "anchors": ["sources/thermal_data.c: get_cell_temperature", "sources/dimensions.c: get_cell_offset_in_stack"]}
{"id": "C55", "title": "Changing the coolant flow rate", "statement": "After update_coolant_flow_rate succeeds the system and the inlet sources are those of the same stack declared with the new flow rate, nothing else changes (temperatures, time, queued powers, powers being dissipated), and the simulation goes on conserving energy with the new flow.", "quantifier": "all stacks with microchannels, all interleavings of steps, insertions and changes of flow rate, including inside a slot", "why_tests_cant": "all interleavings", "anchors": ["sources/thermal_data.c: update_coolant_flow_rate", "sources/power_grid.c: update_channel_sources", "sources/system_matrix.c: fill_system_matrix"]}
{"id": "C56", "title": "Non-uniform cells exchange heat exactly when they touch", "statement": "In the list of connections of a non-uniform grid, whatever the schedule of the threads, two cells are connected exactly when they touch: side by side in a layer (in the directions in which the layer conducts) or one on the other; every pair is connected at most once, with the direction of the contact and the area of the overlap.", "quantifier": "all stacks whose cells do not overlap inside a layer and have coordinates resolved by the code's tolerance; all schedules", "why_tests_cant": "a missed or doubled neighbour appears only for particular stacks and schedules", "anchors": ["sources/thermal_data.c: get_connections_in_layer, get_connections_between_layer"]}
{"id": "C57", "title": "Non-uniform heat network", "statement": "The matrix assembled for a non-uniform grid is the heat network of its cells: connected solid cells exchange heat symmetrically as two blocks in series over their contact, coolant cells transport heat along the flow only, cells that do not touch do not exchange, and what leaves a cell through its connections arrives in the others, so that all the power injected is stored, lost to the air or carried out by the coolant.", "quantifier": "all stacks, discretisations, materials, connection orders and schedules", "why_tests_cant": "every coefficient of every stack; a test compares a few temperatures", "anchors": ["sources/system_matrix.c: add_solid_column_non_uniform", "sources/thermal_grid.c: get_conductance_non_uniform, get_capacity_non_uniform", "sources/channel.c: get_convective_term_nonuniform"]}
{"id": "C58", "title": "Non-uniform heat sources", "statement": "On a non-uniform grid, at each power slot every floorplan element gives exactly its next power value to the layer of its die, split equally over the cells it was cut into, and to no other cell; beside that a cell receives only the ambient, board or inlet heat of its own layer, each queue advances by one value, and an element without a value makes the update fail.", "quantifier": "all stacks, discretisations, floorplans, power sequences and lengths of the simulation", "why_tests_cant": "the correspondence between cells and elements is an order of visit of two lists; every stack and every history of queues", "anchors": ["sources/power_grid.c: power_grid_build, power_grid_fill, update_source_vector", "sources/thermal_data.c: fill_system_vector"]}
{"id": "C59", "title": "Non-uniform energy balance", "statement": "On a non-uniform grid every transient step changes the heat content of the stack by exactly the step time multiplied by the power values of the slot plus what the plugin, the board and the incoming coolant give, minus what the air receives and the coolant carries out; a steady simulation balances the same terms; and the simulation ends at exactly the first slot for which some element has no value, never earlier and never with undefined behaviour.", "quantifier": "all stacks, discretisations, power sequences, step and slot lengths, initial temperatures, plugins and numbers of steps", "why_tests_cant": "a balance over all cells after any number of steps, for every geometry and every history", "anchors": ["sources/thermal_data.c: emulate_step, emulate_steady, pluggable_heatsink, fill_system_vector, fill_system_vector_steady", "sources/dimensions.c: get_spreader_cell_offset", "sources/power_grid.c: update_source_vector"]}
{"id": "C60", "title": "Temperatures of solid stacks on the non-uniform grid", "statement": "On a non-uniform grid of solids under a convective heat sink the matrix is symmetric with non-positive couplings exactly between connected cells, the equations have at most one solution, temperatures without power never leave the interval spanned by the initial temperatures and the air, a stack at the temperature of the air stays there, with non-negative power no cell falls below the air and the coldest start, and more power or a hotter start never makes any cell cooler at any later step; the steady state depends on the power alone, grows with it and is that of the air without power. This holds for whatever order the parallel threads insert the connections in.", "quantifier": "all stacks without channels, floorplans, discretisations, materials, powers, initial temperatures, numbers of steps and thread schedules", "why_tests_cant": "an order relation between whole trajectories for every geometry and every history", "anchors": ["sources/thermal_data.c: emulate_step, emulate_steady, thermal_data_build", "sources/system_matrix.c: fill_system_matrix", "sources/thermal_grid.c: connection lists", "sources/power_grid.c: update_source_vector"]}
{"id": "C61", "title": "Coolant flow rate changes on the non-uniform grid", "statement": "Changing the coolant flow rate during a simulation on a non-uniform grid rebuilds the matrix for the new flow rate, keeps temperatures, capacities and waiting power values, and gives each inlet cell the heat of the new flow; every later step then satisfies the heat balance with the new flow rate, for any number of changes at any time.", "quantifier": "all stacks with a channel, all histories of steps and flow rate changes, all flow rates, all solvers that solve", "why_tests_cant": "the cell that receives the inlet heat depends on the cut of all the layers below it; a change at a slot boundary hides the error", "anchors": ["sources/thermal_data.c: update_coolant_flow_rate", "sources/power_grid.c: update_channel_sources", "sources/system_matrix.c: fill_system_matrix"]}
{"id": "C62", "title": "Power values inserted during a simulation on the non-uniform grid", "statement": "Inserting power values gives one value to the end of the queue of every floorplan element, source layers from the bottom and elements in order, and reports success exactly when there are enough; nothing else changes. In every history of steps, insertions and flow rate changes, a step in slot k uses value number k of every element, counting all the values ever given to it, its heat balance is that of these powers, and the simulation ends exactly when some element was not given a value for the slot.", "quantifier": "all stacks, all histories of steps, insertions (successful or not) and flow rate changes, all numbers of values, all solvers that solve", "why_tests_cant": "the alignment of values and slots must survive every interleaving of insertions, slot boundaries and queue reallocations", "anchors": ["sources/power_grid.c: insert_power_values", "sources/floorplan.c: insert_power_values_floorplan", "sources/floorplan_element.c: insert_power_values_floorplan_element", "sources/thermal_data.c: emulate_step"]}
{"id": "C63", "title": "Spreader of a pluggable heat sink on the non-uniform grid", "statement": "With a pluggable heat sink, the non-uniform grid has one cell for every cell of the spreader (rows and columns of the spreader including its border), each with its capacity, and the plugin is given the temperatures of exactly these cells.", "quantifier": "all stacks, all spreaders at least as large as the chip, all cuts of the layers", "why_tests_cant": "the spreader cells are counted at three places that agree only for some sizes of the spreader; writing a few elements past a heap block often goes unnoticed", "anchors": ["sources/power_grid.c: power_grid_fill", "sources/thermal_data.c: thermal_data_build, pluggable_heatsink", "sources/dimensions.c: get_spreader_cell_offset", "sources/heat_sink.c: initialize_heat_spreader"]}
{"id": "C64", "title": "Output instructions on the non-uniform grid", "statement": "On a non-uniform grid, an output instruction reports the values of the cells it means, in the file and to a remote client alike: Tcell that of the cell of the source layer that contains the point; Tmap and Pmap those of all cells of the layer, in order; Tflp and Tflpel the maximum, minimum, area-weighted average or range over the cells of the floorplan element in the source layer of the die; Tcoolant those over the coolant cells at the outlet.", "quantifier": "all stacks, cuts of the layers and floorplans, all temperatures and powers, all points and elements", "why_tests_cant": "the cells are found by their number in one vector for the whole stack, which depends on the cuts of all the layers below", "anchors": ["sources/inspection_point.c: generate_inspection_point_output, fill_message_inspection_point, get_non_uniform_inspection_cell_index, get_non_uniform_layer_start, get_non_uniform_layer_cell_count", "sources/ic_element.c: get_max_temperature_ic_element", "sources/floorplan_element.c: get_max_temperature_floorplan_element", "sources/stack_element.c: stack_element_print_thermal_map, stack_element_print_power_map", "sources/channel.c: get_max_temperature_channel_outlet"]}
{"id": "C65", "title": "The FMI heat sink plugin conserves heat", "statement": "The plugin that couples a heat sink modelled as an FMU lists, for every cell of the spreader, exactly the cells of the sink it overlaps, each once, with a conductance proportional to the area of the overlap, and the same conductances seen from the sink; a cell inside the other grid is distributed whole. In every step each spreader cell loses, and each sink cell is given, the sum over the overlaps of conductance times temperature difference, so that the heat the chip loses is the heat the FMU is given; heat flows from hot to cold; a cell wholly on a sink of one temperature sees its own conductance in series with its share of the sink's. The heat content of the chip grows in every step by the powers minus what the FMU is given minus the other losses.", "quantifier": "all spreader and sink grids, positions and sizes, all temperatures, all FMUs, all histories of a simulation with a solid stack", "why_tests_cant": "the intersections depend on the relative size and position of the two grids; a fragment counted twice or attributed to the wrong row changes temperatures plausibly instead of failing", "anchors": ["heatsink_plugin/loaders/FMI/libraries/gridmapper/gridmapper.cpp: mapGrids, mapGridsRowSwap, mapGridsNoRowSwap", "heatsink_plugin/loaders/FMI/libraries/gridmapper/matrix.h: Matrix::at", "heatsink_plugin/loaders/FMI/fmiwrapper.cpp: FmiWrapper::FmiWrapper, FmiWrapper::simulateStep", "heatsink_plugin/loaders/FMI/entrypoint.cpp: heatsink_init, heatsink_simulate_step", "sources/thermal_data.c: pluggable_heatsink, emulate_step"]}
{"id": "C66", "title": "The SystemC client gets the server's temperatures and gives it the powers of the elements", "statement": "Through the SystemC wrapper: the number of elements asked for is the number of floorplan elements of the stack; a vector of powers of another size is not sent, one of that size is accepted and every element gets its power; getTemperature returns the values of the inspection points of the requested instant, type and quantity, in their order; getTemperatureMap and getPowerMap write the maps of the layers; the program stops when the time of the server is not within 1 ns of the time of SystemC.", "quantifier": "all servers, states, outputs and powers; every buffer that carries the answer", "why_tests_cant": "an off-by-one in the words of an answer moves a map by one cell, which is plausible on smooth maps; the check of the time needs the two clocks to differ", "anchors": ["sources/IceWrapper.cpp: IceWrapper::getNumberOfFloorplanElements, IceWrapper::sendPowerValues, IceWrapper::simulate, IceWrapper::getTemperature, IceWrapper::getMap", "bin/3D-ICE-Server.c: main", "sources/inspection_point.c: fill_message_inspection_point", "sources/network_message.c: extract_message_word"]}
{"id": "C67", "title": "Only the powers matter, not when they are given", "statement": "Two runs of the same simulation with the same number of steps, in which every floorplan element has the same power in every slot begun, are in the same state (temperatures, powers of the cells, time, state of the plugin) and have given the same answers, whenever and in whatever portions the powers were given. In particular a client that gives the server the powers of every slot and simulates that slot gets what a local run gets that has all the powers in the floorplan files.", "quantifier": "all stacks, powers, numbers of slots, solvers and plugins, and all interleavings of giving powers and simulating", "why_tests_cant": "two histories are compared for every interleaving and every length", "anchors": ["sources/thermal_data.c: emulate_step, emulate_slot", "sources/power_grid.c: update_source_vector, insert_power_values", "sources/floorplan.c: fill_sources_floorplan, insert_power_values_floorplan", "sources/powers_queue.c: put_into_powers_queue, get_from_powers_queue", "bin/3D-ICE-Server.c: main", "bin/3D-ICE-Emulator.c: main"]}
{"id": "C68", "title": "Three-dimensional maps", "statement": "With a non-uniform grid, an inspection point T3D (\"stem.vtk\", step) or (\u2026, slot) leaves, for every step (slot) m of the simulation, a file \"stem<m>.vtk\" that a VTK reader accepts and in which every thermal cell is a hexahedron with the corners of the cell (to the sixth decimal), its temperature at that time (to the third decimal) and a label that tells underfill and air from the rest; a final map goes to the file given; no other file changes. This holds when the path has no dot but that of the extension, the path has at most 40 characters, there are fewer than 10^9 steps and the files can be created. On the uniform grid nothing is written.", "quantifier": "all non-uniform grids, powers, numbers of steps, temperatures, paths and states of the disk", "why_tests_cant": "every number must be printed and read back, and no map may overwrite another, for every grid and number of steps", "anchors": ["sources/stack_element.c: print_thermal_map_3D", "sources/inspection_point.c: generate_inspection_point_output", "sources/output.c: generate_output", "bin/3D-ICE-Emulator.c: main"]}
{"id": "C69", "title": "Output files can be read back: times, values, columns, maps and axes", "statement": "When a run of the emulator ends (powers used up, solver failure, or steady state) the text of the file of each Tcell, Tflp, Tflpel and Tcoolant point, read by a program that skips the lines that begin with a percent sign and splits the others at blanks, is a table with one row per step, slot or run: first the time (to half a microsecond for Tcell, half a millisecond for the others), then the values the point reads at that instant (to half the last printed digit), as many as the header has headings, the i-th heading of Tflp naming the i-th floorplan element. The file of a Tmap or Pmap point is one block of numbers per instant, with the rows and columns of the grid, and xaxis.txt and yaxis.txt give the centres of the columns and rows to 5 nm. No other file is changed. Rows of steps longer than a millisecond have increasing times. On the non-uniform grid the k-th number of a map belongs to the k-th line of the file of the cells.", "quantifier": "all stacks, powers, grids, inspection points, run lengths, temperatures", "why_tests_cant": "the text must be readable for every value and every name, and every run length", "anchors": ["sources/inspection_point.c: generate_inspection_point_header, generate_inspection_point_output", "sources/stack_element.c: stack_element_print_thermal_map, stack_element_print_power_map", "sources/dimensions.c: print_axes", "bin/3D-ICE-Emulator.c: main"]}
{"id": "C70", "title": "A floorplan file means what it says, down to its characters", "statement": "A floorplan file written as the user guide says (names, numbers with sign, fraction and exponent, punctuation, and any blanks, // comments and /* */ comments between them) is accepted, and gives one floorplan element per declaration, in order, with that name, those rectangles and those power values; conversely the lexemes of the declarations of every accepted file appear in it, in order, each number with the value of its text. A file with a rectangle that leaves the chip is never accepted, and a refused file is refused for its syntax. A floorplan that is printed and read again is the same, up to the printed decimals, when every element has power values left. False in general: a comment that ends with an odd number of stars before its end swallows the text up to the next end of comment or the end of the file; .5 is read as 5, '- 7' as 7; stray characters are ignored; a rectangle outside leads to an invalid free instead of an error; an element without power values is printed as a text that cannot be read.", "quantifier": "all texts, all spellings of all lists of declarations (any blanks and comments), all grids, all lists of elements", "why_tests_cant": "the texts are unbounded and the spellings of one declaration infinite; whether a longest-match scanner reads every one as intended is a universal statement about regular expressions", "anchors": ["flex/floorplan_scanner.l", "bison/floorplan_parser.y", "sources/floorplan_file_parser.c: parse_floorplan_file, generate_floorplan_file", "sources/floorplan.c: fill_floorplan, floorplan_print", "sources/floorplan_element.c: floorplan_element_print", "sources/ic_element.c: ic_element_print, check_location, align_to_grid", "sources/powers_queue.c: powers_queue_print"]}
{"id": "C71", "title": "A stack description file means what it says, down to its characters", "statement": "A text that spells a stack description as the user guide says (the sections in order; keywords, names, numbers, quoted paths and marks with any blanks and comments between them) is read as exactly the declarations it spells: every material, heat sink, channel, dimension, layer, die, stack element, solver setting and output request, in order, with the names and the values of its numerals. Two different descriptions never have the same lexemes. Conversely a text that is accepted contains the lexemes of the declarations that are read, in order, and no name in it is a reserved word. False in general: a comment that ends with an odd number of stars before its end swallows the text after it, so that the outputs of the file are silently not made; a sign that is not stuck to its number and characters of no rule are dropped.", "quantifier": "all texts; all spellings of all stack descriptions, with any number of materials, layers, dies, elements and outputs", "why_tests_cant": "texts and spellings are unbounded; that no keyword is a prefix of a name that is cut, and that the grammar has no other reading, are statements about all inputs", "anchors": ["flex/stack_description_scanner.l", "bison/stack_description_parser.y", "sources/stack_file_parser.c: parse_stack_description_file"]}
{"id": "C72", "title": "A layout file gives each cell of its layer the material it names", "statement": "A layout file that spells materials and layouts as the user guide says, with distinct names, materials that are declared in the file or in the stack description (the file hides the stack), rectangles on the chip and side by side, is accepted for a layer; each cell of the layer whose middle is in a rectangle of a layout then has the material of that layout, and the other cells the material of the layer. Conversely every file that is accepted has distinct names, rectangles none of which leaves the chip and no two of which share a square of more than a thousandth of a micrometre, and known materials; other files are reported as errors. False in general: an unknown material whose name has more than 232 characters makes the program write past the end of its message array instead of reporting it.", "quantifier": "all texts, all spellings of all layout files, all grids of cells and all materials of the stack description", "why_tests_cant": "texts, numbers of rectangles and grids are unbounded; disjointness is a statement about all pairs", "anchors": ["flex/layout_scanner.l", "bison/layout_parser.y", "sources/layout_file_parser.c: parse_layout_file", "sources/layer.c: fill_layout, get_thermal_conductivity", "sources/material_element.c: get_material_at_location", "sources/ic_element.c: check_intersection"]}
{"id": "C73", "title": "The simulation is the one the files describe", "statement": "A stack description file together with the layout and floorplan files it names is accepted exactly when it follows the syntax, every name is declared once and every use names a declaration, and the program then simulates what the files say: each element of the stack has the layers, materials, layouts and floorplan of its declarations, heat sinks, channel, cell sizes, initial temperature, time step and outputs are those of the file, and the result is unique. If the values in the files make physical sense the simulation is built (unless the grid is refused), starts at the initial temperature of the file, its power queues hold the values of the floorplan files from the bottom of the stack, every step changes the heat content by exactly those powers plus what coolant and plugin bring minus what leaves, and a file whose temperatures are all the same and whose powers are zero stays at that temperature. False in general: an unknown heat-sink material whose name has more than 82 characters makes the program write past the end of its message array.", "quantifier": "all files on all disks, all spellings, all stacks, all histories of calls", "why_tests_cant": "files, numbers of declarations and histories are unbounded; acceptance is an equivalence", "anchors": ["bison/stack_description_parser.y", "sources/stack_file_parser.c: parse_stack_description_file", "sources/thermal_data.c: thermal_data_build", "sources/output.c: add_inspection_point", "bison/layout_parser.y", "bison/floorplan_parser.y"]}
{"id": "C74", "title": "A saved stack description can be read back", "statement": "The text written by generate_stack_description_file is a stack description that the parser accepts and that means the same, to the printed digits. False of the code: no saved description is ever accepted (the three conductivities of a material are printed without the commas the syntax demands), a layer without layout file passes a null pointer to %s, a pluggable heat sink, the number of solver cores and a Tmap of the whole stack are printed in a way the syntax refuses, a gradient is saved as an average, times below 5 ms as 0.00 and a non-uniform grid as a uniform one. True: convective heat sinks, channels and pin fins, dimensions, layers with layout, dies, stack elements and every other inspection point are printed with exactly the lexemes of the same declaration, the numbers being right to the printed digits.", "quantifier": "all stack descriptions in memory", "why_tests_cant": "names, paths and numbers are unbounded, and the claim is about every text the functions can write", "anchors": ["sources/stack_file_parser.c: generate_stack_description_file", "sources/material.c: material_print", "sources/heat_sink.c: heat_sink_print", "sources/channel.c: channel_print", "sources/layer.c: layer_print", "sources/die.c: die_print", "sources/dimensions.c: dimensions_print", "sources/stack_element.c: stack_element_print", "sources/analysis.c: analysis_print", "sources/output.c: output_print", "sources/inspection_point.c: inspection_point_print"]}
{"id": "C75", "title": "Copies of descriptions are deep and destroying frees everything once", "statement": "Materials, rectangles, regions, layers, power queues, floorplan elements, matrices and floorplans, dies, heat sinks, channels, cells, connections, dimensions, stack elements, inspection points, outputs and lists of them behave like values: a copy has the contents of its source in memory of its own, so that changing or destroying one never affects the other; copying frees what the destination had; inserting into a list stores a copy at the end or at the beginning; merging two lists moves the contents of the second behind those of the first; destroying frees every block of the structure exactly once, frees nothing else and leaves an initialised structure. In every history of such calls none is undefined, every variable holds what the calls mean, and when all variables are destroyed the memory in use is what it was before; destroying a stack description frees all it owns, also the cells of a non-uniform grid. Copying a structure onto itself erases it. False in general: a list merged with itself loses its nodes, the copy of dimensions with a built non-uniform grid shares the table of cells, so destroying both frees it twice, and the copy of a heat sink does not have the initialisation function of the plugin.", "quantifier": "all contents, all histories of init, copy, insert, merge, clone and destroy calls, all allocators", "why_tests_cant": "contents and histories are unbounded; leaks, double frees and sharing show only in some histories", "anchors": ["sources/list_template.c", "sources/string_t.c", "sources/material.c", "sources/ic_element.c", "sources/material_element.c", "sources/layer.c", "sources/powers_queue.c", "sources/floorplan_element.c", "sources/floorplan_matrix.c", "sources/floorplan.c", "sources/die.c", "sources/heat_sink.c", "sources/channel.c", "sources/connection.c", "sources/non_uniform_cell.c", "sources/dimensions.c", "sources/stack_element.c", "sources/inspection_point.c", "sources/output.c", "sources/stack_description.c: stack_description_destroy"]}
{"id": "C76", "title": "The life of a simulation in memory", "statement": "thermal_data_build is defined whichever of its malloc calls fails. If it succeeds the simulation owns its temperatures, the thermal grid with deep copies of the layers the stack describes (the last word on each layer), the power grid, the system matrix and its permuted form; update_coolant_flow_rate keeps it whole, also when the new matrix has no factors; thermal_data_destroy frees each of these blocks exactly once and no other; the stack description keeps its memory all along. If a malloc fails, the build leaves nothing behind. False in general: every factorization leaves 13 arrays of SuperLU that nothing frees, so no simulation that is built gives back all its memory; a build that refuses the sinks leaves the thermal grid, a build whose matrix has no factors 16 blocks; destroying after a failed build, destroying twice, and destroying after thermal_data_init alone frees dangling pointers; for a non-uniform grid the array of positions is written without a check and lost when the table of cells cannot be allocated.", "quantifier": "all stack elements and layer contents, all sizes, all allocators with failures at any call, all numbers of flow rate changes", "why_tests_cant": "a test sees one run with all the memory it wants; failures can happen at each of 35 allocations, and leaks and double frees show only in some histories", "anchors": ["sources/thermal_data.c: thermal_data_init, thermal_data_build, thermal_data_destroy, update_coolant_flow_rate", "sources/thermal_grid.c: thermal_grid_build, thermal_grid_fill, thermal_grid_destroy", "sources/power_grid.c: power_grid_build, power_grid_destroy", "sources/system_matrix.c: system_matrix_init, system_matrix_build, allocate_L_Matrix, allocate_U_Matrix, do_factorization, system_matrix_destroy", "superlu_mt-4.0.0.zip: SRC/pdutil.c, SRC/util.c, SRC/sp_colorder.c, SRC/pdmemory.c, SRC/pdgstrf_thread_finalize.c"]}
{"id": "C77", "title": "The template heat sinks and the names of plugins", "statement": "The C++ and Python template heat sinks give each cell of the spreader the conductance of half the cell in series with its share of 1 W/K (so that the sink as a whole conducts less than 1 W/K), refer it to the initial temperature, and answer alike; a Python script is believed exactly when it returns a list of one value per cell. In every run of a solid stack under the template sink, the heat gained in a step is the power of the slot less what the template gives to the air at the temperatures before the step and less what the board takes; with nothing dissipated and everything at the ambient temperature nothing changes; and when the step is at most vhc h^2 / (2 k) of the spreader, temperatures without power stay between the ambients and the start, no power leads below them, and more power never cools any cell. The file opened for a plugin is its absolute path or its path in the working directory; the module of a script is the first word of the arguments without its extension, and an FMU is split at the last slash of that word.", "quantifier": "every spreader, material, grid and initial temperature; every script; every solid stack, power trace and number of steps; every working directory, plugin path and argument string", "why_tests_cant": "Stability and energy balance must hold for every stack, power trace and number of steps; the names for every string.", "anchors": ["heatsink_plugin/templates/C++/heatsink.cpp: HeatSink::HeatSink, simulateStep", "heatsink_plugin/templates/C++/heatsink.h: parallel", "heatsink_plugin/templates/python/heatsink.py", "heatsink_plugin/loaders/python/pythonwrapper.cpp: simulateStep, initialize", "heatsink_plugin/loaders/FMI/fmiwrapper.cpp: getName, getPath", "sources/heat_sink.c: initialize_heat_spreader, initialize_pluggable_heatsink"]}
{"id": "C78", "title": "Comparison of results with references", "statement": "CompareTemperatures on files of the right form and the same number of lines reports the first line whose times differ, or else for each node the largest difference from the reference and the time of the first line that attains it; a reported 0 means the same temperatures. CompareSystemMatrix likewise reports the first line with other coordinates, or else with the opposite sign, or else the largest difference with the number, row and column of the first line that attains it. The exit status is that of a success exactly when the files can be opened and have the same number of lines.", "quantifier": "all files, of any length and content", "why_tests_cant": "These programs are the judges of the project's own tests: what a passing comparison means must hold for every pair of files.", "anchors": ["test/CompareTemperatures.c: main", "test/CompareSystemMatrix.c: main"]}
{"id": "C79", "title": "Division of low-conductance layers", "statement": "The layer division tool takes exactly the layers of the conductance file with one line that has a conductance, leaves out names that head several lines, neglects exactly the layers above three times the average and never divides these. A layer in n sublayers has n times its conductance; there are at most --i-max divisions, the lowest conductances first, and one reported variance (the sample variance of the sublayers) for each. With positive conductances no layer goes beyond a common multiple of the conductances, and given enough divisions all layers that take part end at exactly the least common multiple; a run that stops short of the limit has made them all equal.", "quantifier": "all conductance files, all lists of layers and all limits", "why_tests_cant": "Where the phases end depends on the arithmetic of all conductances together, and the number of divisions needed can be arbitrarily large.", "anchors": ["utils/layer_division/layer_division.py: parse_conductance_file, mark_neglected, var_s_excel_equivalent, run_phases_collect_variance"]}
{"id": "C80", "title": "Refinement of a floorplan by temperature gradients", "statement": "The gradient tool ends with an error exactly when its arguments are not valid, there is no element, or some element contains no lower left corner of a cell. Otherwise each element is divided in n by n cells, n the smallest number such that no cell is larger than its size asked for: the size of the element times (percentile / (relative average gradient + 1e-6)), kept between the minimum and maximum given. Cells are never larger than the maximum; of two elements of the same size the one with the larger average gradient has at least as many cells; for percentage 0 or equal averages all get the finest division the minimum allows. The floorplan written is accepted by the floorplan parser and declares the same elements, in order, with these numbers.", "quantifier": "all lists of cells in any order, all floorplans and all arguments", "why_tests_cant": "The number of cells of one element depends on the gradients of all the others through the least, the greatest and the percentile, for arbitrarily many cells and elements.", "anchors": ["utils/thermal_non_uniform_grids/thermal_gradient_grids.py: parse_args, compute_avg_gradient_per_element, refine_discretization, write_floorplan_output, main", "bison/floorplan_parser.y"]}
{"id": "C81", "title": "Floorplan and materials from a GDS layout", "statement": "create_floorplan_material.py ends with an error exactly when there is no block or a share is below -0.01. Otherwise the floorplan it writes is accepted by the floorplan parser and declares the blocks in order as Element1, Element2, ... with the material GDS_mat0 for shares below 0.01, GDS_mat100 from 0.99 on, and otherwise one more than the full hundredths. Every material a block uses is defined, exactly once, and every definition is used; material.txt in front of a stack description is read as these definitions in front of its own. The values lie between those of substrate and polygons, grow with the share, and the horizontal conductivity is not above the vertical one (up to the error of the square root).", "quantifier": "all lists of blocks and all square-root functions", "why_tests_cant": "Which materials are defined depends on all shares of the file together.", "anchors": ["utils/floorplan_gds/create_floorplan_material.py: write_floorplan, write_materials, main", "bison/floorplan_parser.y"]}
{"id": "C82", "title": "Division of a GDS layer into regions", "statement": "The regions subdivide_region writes tile the box: every point is in exactly one of them, every point outside in none, the areas add up, the covered area times shares adds up to the covered area of the box, the numbers are consecutive, there are at most 4^max_iterations regions, and each is the box halved d times in both directions with d the maximum or the share and the area within the limits.", "quantifier": "all boxes, all coverages, all thresholds, all depths", "why_tests_cant": "The recursion follows the layout, which can be anything, to any depth.", "anchors": ["utils/floorplan_gds/read_gds.py: subdivide_region"]}
{"id": "C83", "title": "Drawing temperature maps", "statement": "draw_temp_map.py draws the m-th temperature of a map as the cell in column m mod columns and row m / columns (for a non-uniform grid: the cell of the m-th line of the xyaxis file), at its place and with its size in mm, and nothing else. Its colour is the one of the intervals of equal size between the two limits which holds the temperature, so a hotter cell never has a colder colour; without limits every positive map that has at most as many temperatures as the grid has cells is drawn, with the limits just outside its coldest and hottest temperature. The same for every limits on the command line.", "quantifier": "for all axes, maps, numbers of colours and limits", "why_tests_cant": "the order of the cells, the rounding to a colour and the behaviour at and outside the limits must hold for every grid and map; tests compare single pictures", "anchors": ["utils/plot/draw_temp_map.py: get_xyaxis_data_uniform", "utils/plot/draw_temp_map.py: get_temp_data_uniform", "utils/plot/draw_temp_map.py: get_temp_data_nonuniform", "utils/plot/draw_temp_map.py: plot_tmap"]}
