{
 "claims": [
  {
   "property": "C01",
   "status": "proved",
   "theorems": [
    "C01_degree_bookkeeping",
    "C01_constructor_reachable"
   ],
   "note": "all sessions of public calls, including raising ones; Network(k) shown reachable"
  },
  {
   "property": "C02",
   "status": "proved",
   "theorems": [
    "C02_multigraph_refinement",
    "C02_raise_changes_nothing",
    "C02_update_edge_atomic_refuted"
   ],
   "note": "refinement to an insertion-ordered edge list; the update_edge exception named in the statement is shown by a witness"
  },
  {
   "property": "C03",
   "status": "proved",
   "theorems": [
    "C03_copy_faithful",
    "C03_copy_forgets_rotation",
    "C03_copy_independent",
    "C03_copy_keeps_rotation_refuted",
    "C03_tuple_label_refuted"
   ],
   "note": "Byte-level model of copy over the msgpack wire format; independence is over a heap whose cells are whole networks."
  },
  {
   "property": "C04",
   "status": "proved",
   "theorems": [
    "C04_roundtrip",
    "C04_big_int_rejected",
    "C04_bytes",
    "C04_injective",
    "C04_extra_data",
    "C04_prefix_free",
    "C04_any_depth_refuted"
   ],
   "note": "Floats are 64-bit patterns; str is its UTF-8 byte string."
  },
  {
   "property": "C05",
   "status": "proved",
   "theorems": [
    "C05_adjacency_matrix",
    "C05_default_nodelist",
    "C05_missing_node"
   ],
   "note": "weights in an arbitrary type with its own +, so the order of float additions is respected"
  },
  {
   "property": "C06",
   "status": "proved",
   "theorems": [
    "C06_adjacency_roundtrip",
    "C06_isolated_index_dropped_refuted",
    "C06_default_order_refuted"
   ],
   "note": "Any number type; the two refuted theorems are the negative clauses of the statement."
  },
  {
   "property": "C07",
   "status": "proved",
   "theorems": [
    "C07_networkx_round_trip",
    "C07_networkx_equality_refuted"
   ],
   "note": "hypothesis: attribute names that Python keyword passing can carry (no self/i/j/key/...); the result is not always == to the original (outgoing order), shown by a witness"
  },
  {
   "property": "C08",
   "status": "proved",
   "theorems": [
    "C08_rotation_setter",
    "C08_rotation_stays_valid_refuted"
   ],
   "note": ""
  },
  {
   "property": "C09",
   "status": "proved",
   "theorems": [
    "C09_ring_adjacency",
    "C09_errors"
   ],
   "note": ""
  },
  {
   "property": "C10",
   "status": "proved",
   "theorems": [
    "C10_ring_order"
   ],
   "note": ""
  },
  {
   "property": "C11",
   "status": "proved",
   "theorems": [
    "C11_moore",
    "C11_von_neumann",
    "C11_symmetric",
    "C11_errors"
   ],
   "note": ""
  },
  {
   "property": "C12",
   "status": "proved",
   "theorems": [
    "C12_hex_r1",
    "C12_hex_seven",
    "C12_hex_symmetric_even_rows",
    "C12_hex_asymmetric_odd_rows",
    "C12_hex_r2"
   ],
   "note": ""
  },
  {
   "property": "C13",
   "status": "proved",
   "theorems": [
    "C13_centre_order",
    "C13_moore_interior",
    "C13_border_spatial_order_refuted"
   ],
   "note": "Moore interior proved for every radius; the refuted theorem is the border clause."
  },
  {
   "property": "C14",
   "status": "proved",
   "theorems": [
    "C14_bipartite",
    "C14_bipartite_missing",
    "C14_complete",
    "C14_complete_small",
    "C14_disconnected"
   ],
   "note": "networkx complete_graph/adjacency_matrix is modelled from its documentation."
  },
  {
   "property": "C15",
   "status": "proved",
   "theorems": [
    "C15_timesteps",
    "C15_list_input",
    "C15_list_without_none",
    "C15_input_function",
    "C15_neither",
    "C15_nonpositive_never_ends",
    "C15_prefix"
   ],
   "note": "Every argument combination of evolve; non-termination is stated as: no amount of fuel yields a result, and if every finite run succeeds the model runs out of any fuel."
  },
  {
   "property": "C16",
   "status": "proved",
   "theorems": [
    "C16_activities_first"
   ],
   "note": "For all pure rules with memoize=False, compression=False and both persist flags on; C24, C26 and C27 carry the result to the other flags."
  },
  {
   "property": "C17",
   "status": "proved",
   "theorems": [
    "C17_topology_first"
   ],
   "note": "As C16."
  },
  {
   "property": "C18",
   "status": "proved",
   "theorems": [
    "C18_synchronous"
   ],
   "note": "As C16; topology rules that mutate in place are C28."
  },
  {
   "property": "C19",
   "status": "proved",
   "theorems": [
    "C19_order_irrelevant"
   ],
   "note": "At the level of do_activity_rule, for stateless rules (which may add and remove nodes) and stateless perturbations."
  },
  {
   "property": "C20",
   "status": "proved",
   "theorems": [
    "C20_current_neighbourhood",
    "C20_stale_neighbourhood_refuted"
   ],
   "note": "The second part of the statement is the refuted witness."
  },
  {
   "property": "C21",
   "status": "proved",
   "theorems": [
    "C21_input_delivery"
   ],
   "note": ""
  },
  {
   "property": "C22",
   "status": "proved",
   "theorems": [
    "C22_past_window"
   ],
   "note": ""
  },
  {
   "property": "C23",
   "status": "proved",
   "theorems": [
    "C23_perturbed",
    "C23_identity_perturbation",
    "C23_self_removal_raises",
    "C23_self_removal_refuted"
   ],
   "note": ""
  },
  {
   "property": "C24",
   "status": "proved",
   "theorems": [
    "C24_memoization_transparent",
    "C24_default_key_ordered",
    "C24_default_key_unordered",
    "C24_game_of_life_refuted",
    "C24_stateful_refuted"
   ],
   "note": ""
  },
  {
   "property": "C25",
   "status": "proved",
   "theorems": [
    "C25_activities_follow_nodes",
    "C25_removed_by_another_refuted",
    "C25_dangling_link_refuted"
   ],
   "note": ""
  },
  {
   "property": "C26",
   "status": "proved",
   "theorems": [
    "C26_persistence_only_blanks",
    "C26_persistence_only_blanks_compressed",
    "C26_past_conditions_refuted"
   ],
   "note": ""
  },
  {
   "property": "C27",
   "status": "proved",
   "theorems": [
    "C27_compression",
    "C27_activities_equal",
    "C27_tuples_and_rotation_refuted"
   ],
   "note": "Over msgpack values, with the packers of Msgpack.v and NetCopy.v."
  },
  {
   "property": "C28",
   "status": "proved",
   "theorems": [
    "C28_copy_isolates",
    "C28_history_stable",
    "C28_shared_without_copy",
    "C28_synchronous_sees_mutation"
   ],
   "note": "Networks are objects on a heap (Heap.v)."
  },
  {
   "property": "C29",
   "status": "proved",
   "theorems": [
    "C29_number_roundtrip",
    "C29_bits_roundtrip",
    "C29_value",
    "C29_raises",
    "C29_empty_refuted"
   ],
   "note": "The empty list is excluded by the statement; the refuted witness shows why."
  },
  {
   "property": "C30",
   "status": "proved",
   "theorems": [
    "C30_nks",
    "C30_testbit",
    "C30_bit",
    "C30_raises",
    "C30_rules_distinct"
   ],
   "note": "Raises ValueError exactly for N < 0 or N >= 2^(2^len). Distinct rule numbers are distinct rules."
  },
  {
   "property": "C31",
   "status": "proved",
   "theorems": [
    "C31_totalistic",
    "C31_raises",
    "C31_order_irrelevant"
   ],
   "note": "For non-empty neighbourhoods (an empty numpy sum is a float and raises TypeError)."
  },
  {
   "property": "C32",
   "status": "proved",
   "theorems": [
    "C32_unique_mode",
    "C32_tie",
    "C32_empty",
    "C32_tie_not_most_frequent_refuted"
   ],
   "note": "Random draw is an arbitrary index; on a tie the reachable results are exactly the neighbourhood states."
  },
  {
   "property": "C33",
   "status": "proved",
   "theorems": [
    "C33_game_of_life",
    "C33_small_grid_refuted"
   ],
   "note": "Includes that the run succeeds; both ordered and unordered networks; a 2x5 grid is a counterexample to dropping rows, cols >= 3."
  },
  {
   "property": "C34",
   "status": "proved",
   "theorems": [
    "C34_wireworld"
   ],
   "note": ""
  },
  {
   "property": "C35",
   "status": "proved",
   "theorems": [
    "C35_one_node_per_step",
    "C35_each_node_once",
    "C35_needs_order_or_n"
   ],
   "note": "Static network (no topology rule, perturbation or memoization; the wrapped rule neither adds nor removes nodes); the wrapped rule may be stateful and is called exactly once per step."
  },
  {
   "property": "C36",
   "status": "proved",
   "theorems": [
    "C36_randomized_one_node_per_step",
    "C36_custom_order_replaced",
    "C36_custom_order_kept_refuted"
   ],
   "note": "Shuffles are an oracle; the hypothesis is that each is a permutation of arange(n)."
  },
  {
   "property": "C37",
   "status": "proved",
   "theorems": [
    "C37_reversible"
   ],
   "note": "f may inspect label, neighbours, connectivity, current activity and the activities (as a finite map), not time, past or input. T >= 2 states."
  },
  {
   "property": "C38",
   "status": "proved",
   "theorems": [
    "C38_table_rule",
    "C38_complete_table",
    "C38_more_than_ten_states_refuted",
    "C38_refuted_instance"
   ],
   "note": ""
  },
  {
   "property": "C39",
   "status": "proved",
   "theorems": [
    "C39_random_table",
    "C39_bad_quiescent"
   ],
   "note": "Random draws are oracles; lambda is an arbitrary number type with the division as a parameter, so float rounding is covered."
  },
  {
   "property": "C40",
   "status": "proved",
   "theorems": [
    "C40_walk",
    "C40_invariants",
    "C40_towards_target",
    "C40_keys_need_mirror_images_refuted",
    "C40_one_state_raises_refuted"
   ],
   "note": "k >= 2; the key set is kept when, for isotropic walks, the mirror image of every key is a key (otherwise refuted by example)."
  },
  {
   "property": "C41",
   "status": "proved",
   "theorems": [
    "C41_neighbourhoods",
    "C41_rule_key",
    "C41_construction"
   ],
   "note": ""
  },
  {
   "property": "C42",
   "status": "proved",
   "theorems": [
    "C42_expanded_keys",
    "C42_consistent",
    "C42_runs_commute",
    "C42_without_rotations",
    "C42_explicit_entries_kept_refuted"
   ],
   "note": "explicit entries may be overwritten by rotations of other entries when the table is inconsistent; refuted by witness, exact result proved"
  },
  {
   "property": "C43",
   "status": "proved",
   "theorems": [
    "C43_langton_table"
   ],
   "note": ""
  },
  {
   "property": "C44",
   "status": "proved",
   "theorems": [
    "C44_head_centric_run",
    "C44_head_centric_only",
    "C44_head_centric_stuck",
    "C44_head_centric_diverges",
    "C44_max_timesteps",
    "C44_plotting",
    "C44_long_symbol_refuted",
    "C44_none_symbol_refuted"
   ],
   "note": "Unbounded, all tables, tapes and run lengths, both directions. Symbols must be ints or one-character strings: evolve indexes longer strings and stops on None (witnesses C44_long_symbol_refuted, C44_none_symbol_refuted)."
  },
  {
   "property": "C45",
   "status": "proved",
   "theorems": [
    "C45_tape_centric_run",
    "C45_tape_centric_stuck",
    "C45_machines_agree",
    "C45_negative_direction_refuted"
   ],
   "note": "All tables, tapes of length >= 3 and run lengths. Negative directions index the neighbour list from the end (witness C45_negative_direction_refuted)."
  },
  {
   "property": "C46",
   "status": "proved",
   "theorems": [
    "C46_init",
    "C46_key_lengths",
    "C46_parallel_rewriting",
    "C46_missing_rule",
    "C46_to_string",
    "C46_to_string_empty",
    "C46_pad",
    "C46_other_order_refuted",
    "C46_empty_key_refuted",
    "C46_second_run_refuted"
   ],
   "note": "k >= 1, one-character symbols, default update order, a fresh object; the three limits are refuted by witnesses"
  },
  {
   "property": "C47",
   "status": "proved",
   "theorems": [
    "C47_round_trip",
    "C47_order",
    "C47_exact",
    "C47_ten_refuted",
    "C47_empty_relation_refuted"
   ],
   "note": "all configurations of non-empty integer relations"
  },
  {
   "property": "C48",
   "status": "proved",
   "theorems": [
    "C48_sound",
    "C48_single_pattern_exhaustive",
    "C48_matches",
    "C48_exhaustive_refuted"
   ],
   "note": "soundness and count for every rule and network; non-exhaustiveness by witness, exhaustive for one left pattern"
  },
  {
   "property": "C49",
   "status": "proved",
   "theorems": [
    "C49_step",
    "C49_run",
    "C49_foreign_network_refuted"
   ],
   "note": "whole runs through evolve, any update order, created nodes occur in no earlier configuration"
  },
  {
   "property": "C50",
   "status": "proved",
   "theorems": [
    "C50_terminates",
    "C50_empty_lhs_diverges"
   ],
   "note": "fuel bound: one more than the number of relations"
  },
  {
   "property": "C51",
   "status": "proved",
   "theorems": [
    "C51_hebbian",
    "C51_too_long",
    "C51_no_patterns",
    "C51_index_dropped_refuted"
   ],
   "note": "unbounded integers for int64"
  },
  {
   "property": "C52",
   "status": "proved",
   "theorems": [
    "C52_energy",
    "C52_dropped_index_refuted"
   ],
   "note": "stated for runs of evolve that succeed, uncompressed, without memoization, topology rule or perturbation; energy2 is twice the energy"
  },
  {
   "property": "C53",
   "status": "proved",
   "theorems": [
    "C53_runs",
    "C53_step",
    "C53_balance",
    "C53_conserved",
    "C53_thin_loses",
    "C53_never_increases",
    "C53_two_rows_refuted"
   ],
   "note": "for grids of at least nine cells; a history is the list of activities of an evolve run of the modelled rule"
  },
  {
   "property": "C54",
   "status": "proved",
   "theorems": [
    "C54_stabilises",
    "C54_periodic_overfull"
   ],
   "note": "with an explicit number of steps computed from the initial configuration; with periodic boundaries stabilisation fails for every overfull grid"
  },
  {
   "property": "C55",
   "status": "proved",
   "theorems": [
    "C55_runs",
    "C55_links",
    "C55_weights",
    "C55_layer_size"
   ],
   "note": "Inside evolve with update order TOPOLOGY_FIRST, for every order of the set of links and every stream of draws; exact rationals instead of floats."
  },
  {
   "property": "C56",
   "status": "proved",
   "theorems": [
    "C56_formula",
    "C56_bounds",
    "C56_empty",
    "C56_reorder",
    "C56_rename"
   ],
   "note": "Reals instead of floats; also the maximum is reached exactly by equally frequent symbols."
  },
  {
   "property": "C57",
   "status": "proved",
   "theorems": [
    "C57_joint",
    "C57_mutual",
    "C57_lengths",
    "C57_symmetric",
    "C57_self"
   ],
   "note": "For every iteration order of the two sets; also 0 exactly for independent strings, and the behaviour for strings of different lengths."
  },
  {
   "property": "C58",
   "status": "proved",
   "theorems": [
    "C58_guard",
    "C58_too_far",
    "C58_empty",
    "C58_trajectory",
    "C58_documented_guard_refuted"
   ],
   "note": "Rectangular tables; the documented guard is refuted in both directions."
  },
  {
   "property": "C59",
   "status": "proved",
   "theorems": [
    "C59_ncr"
   ],
   "note": ""
  },
  {
   "property": "C60",
   "status": "proved",
   "theorems": [
    "C60_binarize",
    "C60_raises"
   ],
   "note": ""
  },
  {
   "property": "C61",
   "status": "proved",
   "theorems": [
    "C61_activities_as_list"
   ],
   "note": ""
  },
  {
   "property": "C62",
   "status": "proved",
   "theorems": [
    "C62_forward",
    "C62_turn_push",
    "C62_push_pop",
    "C62_lines",
    "C62_raises",
    "C62_full_turn"
   ],
   "note": "over the reals; axioms of the Reals library only"
  },
  {
   "property": "C63",
   "status": "proved",
   "theorems": [
    "C63_distances",
    "C63_succeeds",
    "C63_tour",
    "C63_claimed_twice",
    "C63_shape"
   ],
   "note": "over the reals; success is characterised for every matrix, also ragged ones; with fewer than two points the distance map is empty"
  },
  {
   "property": "C64",
   "status": "proved",
   "theorems": [
    "C64_init_simple",
    "C64_init_simple2d",
    "C64_init_simple2d_raises",
    "C64_init_random"
   ],
   "note": "integer dtype; the random numbers are an arbitrary oracle"
  },
  {
   "property": "C65",
   "status": "proved",
   "theorems": [
    "C65_progress"
   ],
   "note": "Progress for stateless rules on a static network, with any invariant over the history."
  },
  {
   "property": "C66",
   "status": "proved",
   "theorems": [
    "C66_init_loops",
    "C66_column_zero_refuted"
   ],
   "note": ""
  },
  {
   "property": "C67",
   "status": "proved",
   "theorems": [
    "C67_recall",
    "C67_stored_pattern_stays"
   ],
   "note": "same setting as C52"
  },
  {
   "property": "C68",
   "status": "proved",
   "theorems": [
    "C68_lattice",
    "C68_self_loops",
    "C68_self_loops_refuted",
    "C68_no_dimensions",
    "C68_bad_dimension"
   ],
   "note": "The networkx functions behind lattice (path_graph, cycle_graph, cartesian_product, grid_graph, relabelling) are modelled from networkx 2.5. The documented meaning of self_loops is refuted."
  },
  {
   "property": "C69",
   "status": "proved",
   "theorems": [
    "C69_step",
    "C69_alive",
    "C69_negative_rate_refuted"
   ],
   "note": "Step relation given by growth and flow in FungalSpec.v; negative rate refuted by a witness."
  },
  {
   "property": "C70",
   "status": "proved",
   "theorems": [
    "C70_average_entropy",
    "C70_boundary",
    "C58_empty"
   ],
   "note": "Reals instead of floats."
  },
  {
   "property": "C71",
   "status": "proved",
   "theorems": [
    "C71_rigid",
    "C71_polygon",
    "C71_straight"
   ],
   "note": "over the reals; axioms of the Reals library only"
  },
  {
   "property": "C72",
   "status": "proved",
   "theorems": [
    "C72_output",
    "C72_matrix",
    "C72_matrix_shape",
    "C72_step",
    "C72_one_point",
    "C72_network"
   ],
   "note": "over the reals, u_0 not 0"
  },
  {
   "property": "C73",
   "status": "proved",
   "theorems": [
    "C73_small_world",
    "C73_rewiring",
    "C73_ring",
    "C73_terminates",
    "C73_boundaries"
   ],
   "note": "random draws are arbitrary oracles (coin per (j,u), stream of choices); networkx 2.5 generator modelled; termination under the hypothesis that every node keeps being drawn"
  },
  {
   "property": "C74",
   "status": "proved",
   "theorems": [
    "C74_bars",
    "C74_empty"
   ],
   "note": "in_degree wins over out_degree: the if-then-else of C74_bars"
  },
  {
   "property": "C75",
   "status": "proved",
   "theorems": [
    "C75_sequence",
    "C75_executes",
    "C75_unbound",
    "C75_raises",
    "C75_turtle_matched"
   ],
   "note": ""
  },
  {
   "property": "C76",
   "status": "proved",
   "theorems": [
    "C76_frames_1d",
    "C76_frames_2d",
    "C76_wrong_size",
    "C76_bad_shape",
    "C76_bad_length",
    "C76_plot",
    "C76_animation"
   ],
   "note": "activities as ints; negative shape entries (numpy's -1) not modelled"
  },
  {
   "property": "C77",
   "status": "proved",
   "theorems": [
    "C77_positions",
    "C77_lattice_drawing",
    "C77_transposed",
    "C77_configuration",
    "C77_loops"
   ],
   "note": ""
  },
  {
   "property": "C78",
   "status": "proved",
   "theorems": [
    "C78_poincare",
    "C78_bifurcation",
    "C78_whole"
   ],
   "note": "bifurcation values as ints"
  },
  {
   "property": "C79",
   "status": "proved",
   "theorems": [
    "C79_cells",
    "C79_no_overlap",
    "C79_touching_even",
    "C79_neighbours_even",
    "C79_touching_odd",
    "C79_odd_rows"
   ],
   "note": "polygons as convex hulls of matplotlib's corners, over the reals"
  },
  {
   "property": "C80",
   "status": "proved",
   "theorems": [
    "C80_global_map",
    "C80_restart",
    "C80_light_cone",
    "C80_ring_light_cone"
   ],
   "note": "fixed network, no perturbation, memoization or compression; timesteps given"
  },
  {
   "property": "C81",
   "status": "proved",
   "theorems": [
    "C81_symmetry",
    "C81_ring_rotation",
    "C81_torus_translation",
    "C81_torus_order_refuted"
   ],
   "note": "the refuted theorem is the boundary named in the statement"
  },
  {
   "property": "C82",
   "status": "proved",
   "theorems": [
    "C82_mirror_exists",
    "C82_complement_exists",
    "C82_mirror",
    "C82_complement",
    "C82_superposition"
   ],
   "note": ""
  },
  {
   "property": "C83",
   "status": "proved",
   "theorems": [
    "C83_conserving",
    "C83_only_these"
   ],
   "note": "only_these: default node numbering of lists (e_lab)"
  },
  {
   "property": "C84",
   "status": "proved",
   "theorems": [
    "C84_replication",
    "C84_copies",
    "C84_not_prime_refuted"
   ],
   "note": "The failure for composite p is the witness C84_not_prime_refuted (5 by 5 von Neumann torus, p = 4). Activities are unbounded integers."
  },
  {
   "property": "C85",
   "status": "proved",
   "theorems": [
    "C85_runs_on_prefixes",
    "C85_accepts",
    "C85_unfinished_refuted"
   ],
   "note": "The remark on 'aab' is the witness C85_unfinished_refuted."
  },
  {
   "property": "C86",
   "status": "proved",
   "theorems": [
    "C86_stops_at_one",
    "C86_never_stops",
    "C86_ends_iff",
    "C86_powers_of_two",
    "C86_nonpositive"
   ],
   "note": "Integers instead of Python floats after the first division, exact below 2^53. Never ending is: out of fuel for every fuel."
  },
  {
   "property": "C87",
   "status": "proved",
   "theorems": [
    "C87_turnstile"
   ],
   "note": ""
  },
  {
   "property": "C88",
   "status": "proved",
   "theorems": [
    "C88_one_step",
    "C88_run",
    "C88_label_collision_refuted",
    "C88_fourth_neighbour_refuted",
    "C88_self_loop_refuted"
   ],
   "note": "Stated with the edge listing of the public API; the boundary cases are refutation witnesses."
  },
  {
   "property": "C89",
   "status": "proved",
   "theorems": [
    "C89_growing_tree",
    "C89_callaway",
    "C89_attachment",
    "C89_parallel_edges_refuted"
   ],
   "note": "Random draws are arbitrary functions of the timestep; the distribution of the draws is not modelled."
  },
  {
   "property": "C90",
   "status": "proved",
   "theorems": [
    "C90_one_step",
    "C90_missing_node",
    "C90_invariants",
    "C90_equivariant",
    "C90_run",
    "C90_spaceship"
   ],
   "note": "The spaceship theorem is for the demo's lattice and start pattern, for all timesteps; the other theorems are for arbitrary networks."
  },
  {
   "property": "C91",
   "status": "proved",
   "theorems": [
    "C91_cut",
    "C91_run",
    "C91_lattice"
   ],
   "note": "Full statement."
  },
  {
   "property": "C92",
   "status": "proved",
   "theorems": [
    "C92_edge_data",
    "C92_activity_of",
    "C92_past_activity_of"
   ],
   "note": "That every context in a run is of this form, and what the past window contains, is C16-C22."
  },
  {
   "property": "C93",
   "status": "proved",
   "theorems": [
    "C93_diffusion",
    "C93_diffusion_sharp",
    "C93_convection",
    "C93_convection_sharp",
    "C93_burgers",
    "C93_nonlinear_total_refuted"
   ],
   "note": "floats are exact rationals; C93_burgers covers the nonlinear convection rule (nu = 0) and Burgers rule"
  },
  {
   "property": "C94",
   "status": "proved",
   "theorems": [
    "C94_wave",
    "C94_wave_at_rest",
    "C94_wave_reversible",
    "C94_wave_unstable",
    "C94_spring",
    "C94_spring_demo",
    "C94_spring_docstring_refuted",
    "documented_step"
   ],
   "note": "floats are exact rationals; documented_step is about the docstring equations, which are not in the code"
  },
  {
   "property": "C95",
   "status": "proved",
   "theorems": [
    "C95_plane",
    "C95_comes_back",
    "C95_patterns",
    "C95_room",
    "C95_glider",
    "C95_demo",
    "C95_two_rows_refuted"
   ],
   "note": "Spec in LifeSpec.v: Life on the infinite plane with finite patterns; LifePlane.v proves the torus follows it."
  },
  {
   "property": "C96",
   "status": "proved",
   "theorems": [
    "C96_electrons",
    "C96_row",
    "C96_one_electron",
    "C96_no_gap_refuted"
   ],
   "note": "The gadgets of the demos (diodes, XOR) are not covered; only wires."
  },
  {
   "property": "C97",
   "status": "proved",
   "theorems": [
    "C97_network",
    "C97_step",
    "C97_logistic"
   ],
   "note": "exact rational arithmetic instead of floats; C97_example applies the theorem to the growth rates of the demo"
  },
  {
   "property": "C98",
   "status": "proved",
   "theorems": [
    "C98_euler",
    "C98_symmetry",
    "C98_agree"
   ],
   "note": "exact rational arithmetic instead of floats; equality of coordinates is equality of rational numbers"
  },
  {
   "property": "C99",
   "status": "proved",
   "theorems": [
    "C99_step",
    "C99_balance",
    "C99_bounds",
    "C99_two_rows_refuted",
    "C99_large_v_refuted"
   ],
   "note": "exact rational arithmetic instead of floats; the two refutations show that the conditions are needed"
  },
  {
   "property": "C100",
   "status": "proved",
   "theorems": [
    "C100_modf",
    "C100_continuous"
   ],
   "note": "exact rational arithmetic instead of floats"
  },
  {
   "property": "C101",
   "status": "proved",
   "theorems": [
    "C101_read_weights",
    "C101_read_image",
    "C101_unknown_edge",
    "C101_run",
    "C101_forward"
   ],
   "note": "CSV parsing, softmax and plotting are not modelled"
  },
  {
   "property": "C102",
   "status": "proved",
   "theorems": [
    "C102_machine",
    "C102_tape_centric",
    "C102_head_centric",
    "C102_positive_refuted"
   ],
   "note": "by induction on the number of leading a's still unmarked, with sweep lemmas on the tape cut at the head; transported to evolve through the run theorems of C44 and C45"
  },
  {
   "property": "C103",
   "status": "proved",
   "theorems": [
    "C103_machine",
    "C103_tape_centric",
    "C103_head_centric",
    "C103_black_start_refuted"
   ],
   "note": "the left sweep records for each cell whether it and its right neighbour are black, the right sweep applies rule 110; induction on the rows; the compression loop by induction on the timesteps"
  },
  {
   "property": "C104",
   "status": "proved",
   "theorems": [
    "C104_sequential",
    "C104_rule60_parity",
    "C104_demo",
    "C104_last_cell_refuted",
    "C104_not_synchronous_refuted"
   ],
   "note": "closed under the global context; C104_demo has the demo's network, rule, order, number of timesteps, utils.get_activities_over_time_as_list and the slice [::n-2]"
  },
  {
   "property": "C105",
   "status": "proved",
   "theorems": [
    "C105_one_leader",
    "C105_pso_demo",
    "C105_neighbours",
    "C105_small_world_demos",
    "C105_isolated",
    "C105_same_leader_refuted",
    "C105_nan_refuted"
   ],
   "note": "Vectors, the objective and the weighted sum are parameters; random draws are an arbitrary sequence. For the small-world demos networkx must finish drawing (C73_terminates says when)."
  },
  {
   "property": "C106",
   "status": "proved",
   "theorems": [
    "C106_second_order",
    "C106_perturbed",
    "C106_determined_both_ways",
    "C106_recurrence",
    "C106_demo",
    "C106_there_and_back",
    "C106_rule214R",
    "C106_rule122R",
    "C106_perturbed_not_undone_refuted"
   ],
   "note": "The entropies that the rule122R scripts print are the subject of C56 - C58; plotting is not modelled. C106_rule122R evaluates the 1001 steps of its literal states with vm_compute and gets the rest from the reversal lemma."
  },
  {
   "property": "C107",
   "status": "proved",
   "theorems": [
    "C107_composed",
    "C107_needs_a_rule",
    "C107_memo_refuted",
    "C107_eca",
    "C107_column",
    "C107_light_cone",
    "C107_undisturbed",
    "C107_front",
    "C107_draws_determined",
    "C107_script"
   ],
   "note": "The sequence of results of np.random.randint is a parameter, the state of the generator is the number of draws made. A rule that removes its own node: C23. Plotting is not modelled."
  },
  {
   "property": "C108",
   "status": "proved",
   "theorems": [
    "C108_noise",
    "C108_bounds",
    "C108_follows",
    "C108_amount_refuted"
   ],
   "note": "Float rounding is not modelled: activities are exact rationals. The inequalities required of the exponential hold for the real exponential. The refutation uses a rational function satisfying them that approximates the exponential; it says nothing about float runs of the script."
  },
  {
   "property": "C109",
   "status": "proved",
   "theorems": [
    "C109_flock",
    "C109_watched",
    "C109_hierarchy",
    "C109_mutual_refuted",
    "C109_rule",
    "C109_speed",
    "C109_boids",
    "C109_escape",
    "C109_confined_refuted"
   ],
   "note": "Float rounding is not modelled: states are real numbers; a wish of speed zero (0/0, nan in numpy) is an Unmodelled error of the model and excluded by hypothesis. C109_flock, C109_watched, C109_hierarchy and C109_mutual_refuted are closed; the others use the three axioms of the standard real numbers. The animation is not modelled."
  },
  {
   "property": "C110",
   "status": "proved",
   "theorems": [
    "C110_run",
    "C110_conditional",
    "C110_stationary",
    "C110_binary"
   ],
   "note": "Real numbers instead of floats (rounding and the OverflowError of math.exp for very negative inputs are not modelled); the csv files are given as their lines of numbers; the labels \"3v\", \"5h\" are Vis 3, Hid 5; the generator is any function of the number of the call and, for binomial, of the probability: no probability space is built, the transition kernels are the products of the single-unit probabilities. The four theorems use the three axioms of the standard real numbers."
  },
  {
   "property": "C111",
   "status": "proved",
   "theorems": [
    "C111_run",
    "C111_impossible",
    "C111_uniform",
    "C111_demo_refuted"
   ],
   "note": "C111_impossible is the theorem of Land and Belew, with an explicit bound on the ring size; the witness is found by a finite search whose success follows from the impossibility proof (no_classifier in DensityProofs.v), so the theorem is constructive. C111_demo_refuted refutes that the rule of the demo always finds the majority. The printed density and the plot are not modelled."
  },
  {
   "property": "C112",
   "status": "proved",
   "theorems": [
    "C112_run",
    "C112_turns",
    "C112_two_cycle",
    "C112_unanimous",
    "C112_ring",
    "C112_demo_refuted"
   ],
   "note": "C112_turns and C112_two_cycle are the theorem of Goles and Olivos, by the energy argument in VoteProofs.v, with ties decided arbitrarily in C112_turns. The random numbers are arbitrary functions. That the building of the graph ends is C73."
  },
  {
   "property": "C113",
   "status": "proved",
   "theorems": [
    "C113_script",
    "C113_missing",
    "C113_growth",
    "C113_tree",
    "C113_plant"
   ],
   "note": "Floats are reals. tree_lines and plant_lines are the recursive descriptions of the drawings. Drawing with matplotlib is not modelled."
  },
  {
   "property": "C114",
   "status": "proved",
   "theorems": [
    "C114_koch",
    "C114_sierpinski"
   ],
   "note": "Floats are reals, so the sines and cosines of the headings are exact."
  },
  {
   "property": "C115",
   "status": "proved",
   "theorems": [
    "C115_moore"
   ],
   "note": "Floats are reals, so the sines and cosines of the headings are exact."
  },
  {
   "property": "C116",
   "status": "proved",
   "theorems": [
    "C116_thue_morse",
    "C116_fibonacci",
    "C116_repetition",
    "C116_additive",
    "C116_slow",
    "C116_exponential"
   ],
   "note": "plot_grid, animate_network and show_network at the end of the scripts are not modelled."
  },
  {
   "property": "C117",
   "status": "proved",
   "theorems": [
    "C117_machine",
    "C117_glides",
    "C117_tape_centric",
    "C117_head_centric",
    "C117_two_cells_refuted"
   ],
   "note": "The table is phase in PropTmGlider.v. plot_grid is not modelled."
  },
  {
   "property": "C118",
   "status": "proved",
   "theorems": [
    "C118_eca",
    "C118_script",
    "C118_wraps_refuted",
    "C118_edges",
    "C118_right_diagonals",
    "C118_left_diagonals",
    "C118_columns"
   ],
   "note": "The line is world30 in Rule30Spec.v. Whether a single column can become periodic is not claimed. Plots are not modelled here; the first part of animation_demo.py (2D) is not part of this model."
  },
  {
   "property": "C119",
   "status": "proved",
   "theorems": [
    "C119_rounding",
    "C119_bounded",
    "C119_repeats",
    "C119_exact",
    "C119_inexact_refuted",
    "C119_cycle",
    "C119_demo2",
    "C119_negative",
    "C119_demo"
   ],
   "note": "Floats with integer values are modelled as integers rounded to 53 binary digits (round53 in PyFloat.v); C119_rounding shows that this is rounding to the nearest float, ties to even. Infinities are not reached below the bound on n. The printed list and plot_grid are not modelled."
  },
  {
   "property": "C120",
   "status": "proved",
   "theorems": [
    "C120_abelian",
    "C120_least",
    "C120_timestep",
    "C120_runs",
    "C120_script",
    "C120_rest",
    "C120_drop_time",
    "C120_edge_drop",
    "C120_settles",
    "C120_moving",
    "C120_script_moving"
   ],
   "note": "C120_settles, C120_edge_drop and C120_moving are about the closed boundary, the default of Sandpile and what the script uses. The random initial grains are a parameter; animate_activities is not modelled."
  },
  {
   "property": "C121",
   "status": "proved",
   "theorems": [
    "C121_growth",
    "C121_symmetry",
    "C121_pascal",
    "C121_powers",
    "C121_grid",
    "C121_runs",
    "C121_unrolled",
    "C121_script",
    "C121_stays",
    "C121_settles",
    "C121_meet"
   ],
   "note": "Grids with an odd number of rows are not quotients of the hexagonal plane (C79) and are left out. animate_hex is modelled separately (C79)."
  },
  {
   "property": "C122",
   "status": "proved",
   "theorems": [
    "C122_wires",
    "C122_runs",
    "C122_passes",
    "C122_stops",
    "C122_xor",
    "C122_xor_from_rest",
    "C122_boards",
    "C122_diodes",
    "C122_xor_script"
   ],
   "note": "animate_activities is not modelled. The streams at the input cells are hypotheses of C122_xor (what feeds them is the rest of the board); C122_xor_script shows that the loops of the demo do."
  },
  {
   "property": "C123",
   "status": "proved",
   "theorems": [
    "C123_symmetry",
    "C123_cone",
    "C123_sides",
    "C123_border",
    "C123_pascal",
    "C123_powers",
    "C123_diagonals",
    "C123_777",
    "C123_runs",
    "C123_torus",
    "C123_square_script",
    "C123_diamond_script",
    "C123_line_script"
   ],
   "note": "What the torus shows after information has gone round it is not described. plot_activities and animate_activities are modelled separately or not at all (see DESIGN.md)."
  },
  {
   "property": "C124",
   "status": "proved",
   "theorems": [
    "C124_step",
    "C124_run",
    "C124_script"
   ],
   "note": "Which relation (x, y, 1) the event takes depends on the order of the labels as strings and is not described. show_network is not modelled."
  },
  {
   "property": "C125",
   "status": "proved",
   "theorems": [
    "C125_film",
    "C125_unique",
    "C125_reproduces",
    "C125_copy",
    "C125_loops",
    "C125_script"
   ],
   "note": "The 436 steps and the 507 states of the script are computed inside the proofs by vm_compute and lifted to the plane, to all tori and to evolve by proof. animate_activities is not modelled."
  },
  {
   "property": "C126",
   "status": "proved",
   "theorems": [
    "C126_recall",
    "C126_complete",
    "C126_sharp",
    "C126_overlaps",
    "C126_script",
    "C126_near",
    "C126_every_node_updated_refuted"
   ],
   "note": "The shuffles are an arbitrary sequence of permutations given to the model. The last sentence of the statement is the refuted claim. Plotting and animation are not modelled."
  },
  {
   "property": "C127",
   "status": "proved",
   "theorems": [
    "C127_cone",
    "C127_uniform",
    "C127_mirror",
    "C127_table_script",
    "C127_walk_script",
    "C127_lambda_reached",
    "C127_walk_near",
    "C127_walk_keeps_sides_refuted"
   ],
   "note": "The random draws are arbitrary functions given to the model. Lambda is of an arbitrary number type in C127_walk_script and an exact fraction in C127_lambda_reached and C127_walk_near (the code has floats). The last sentence of the statement is the refuted claim. The titles of the plots are not modelled."
  },
  {
   "property": "C128",
   "status": "proved",
   "theorems": [
    "C128_entropy",
    "C128_mutual",
    "C128_about_one_refuted"
   ],
   "note": "Over the real numbers (the code has floats). The last sentence of the statement is the refuted claim; how likely such a start is, is not modelled."
  },
  {
   "property": "C129",
   "status": "proved",
   "theorems": [
    "C129_spread",
    "C129_first",
    "C129_total",
    "C129_script",
    "C129_conserved_refuted"
   ],
   "note": "Over the rational numbers (the code has floats). The last sentence of the statement is the refuted claim that the total is conserved. Runs of the first three theorems record the network at each timestep (fungal_history, as in C55 and C69); C129_script covers both values of persist_network."
  }
 ]
}