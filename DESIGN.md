# Design: a Rocq (Coq 8.16.1) model of netomaton 1.3.0

Status of this file: written before the proofs; the per-property table is updated as proofs land.

## Approach

* The model is a set of small executable Gallina functions that mirror the Python functions branch by
  branch. Exceptions are values (`res A := Ok a | Err e`). Every definition carries a comment with the
  file and lines it models.
* A Python `dict` is an association list in insertion order (`dict K V`), because insertion order is
  observable in this code base (node order, neighbour order, trajectory order).
* A loop whose bound is data becomes a fold or structural recursion; the `while True` of `evolve`, the
  `while scanning` of the Wolfram model and the walk of `table_walk_through` are fuelled functions that
  return `Err OutOfFuel`; theorems say that the fuel suffices (or, for the non-terminating inputs, that
  no fuel ever does).
* User callbacks (activity rule, topology rule, perturbation, input function) are arbitrary functions,
  universally quantified. They may be stateful: they receive and return a user state of arbitrary type.
* Random draws are arguments (arbitrary oracle streams); theorems quantify over all of them.
* Floating point: wherever the code computes with floats the model uses exact rationals (`Q`) or reals
  (`R`); rounding is not modelled. In the msgpack model a float is its opaque 64-bit pattern.
* numpy, networkx, msgpack: the operations used are modelled from their documented behaviour
  (`np.base_repr`, `zfill`, `np.pad`, `deque.rotate`, `sorted`, `statistics.mode` of Python 3.6, the
  msgpack wire format, `nx.MultiDiGraph`, `nx.complete_graph`, `nx.grid_graph`).
* Specifications live in separate definitions (files `Spec*.v` or a `Spec` section at the top of a property
  file) that do not use the model's helpers. `Properties/…` style files contain only theorems closed
  by `exact lemma`, with `Print Assumptions` beneath, and `Example`s showing the hypotheses are met.

## Files (rocq/theories)

| model | modelled source |
|---|---|
| Py.v | dict, list indexing, exceptions |
| Network.v | state.py `Network` |
| Msgpack.v, NetCopy.v | state.py `_Compressor`; `Network.compress`, `decompress`, `copy` over bytes |
| Topology.v | topology/adjacency.py, topology/networks.py |
| Evolve.v, Heap.v | evolution.py `evolve` and contexts; state.py `State`. Heap.v has networks as mutable objects |
| Rules.v | rules/activity_rule.py (np.base_repr, str.zfill, bin, int, statistics.mode from their documented behaviour) |
| Async.v | asynchronous_rule.py, reversible_rule.py |
| Ctrbl.v / Langton.v | ctrbl_rule.py, langtons_loop.py |
| Turing.v | turing_machine.py |
| Subst.v | substitution_system.py |
| Wolfram.v | wolfram_physics_model.py |
| Hopfield.v | hopfield_net.py |
| Sandpile.v | sandpile.py |
| Lattice.v | topology/networks.py:46-68 lattice, and the networkx 2.5 graph functions it calls |
| Fungal.v | fungal_growth_model.py |
| Continuous.v | demos/continuous_time_models: the rules of all seven demos |
| RuleTables.v | rule_tables.py |
| Analysis.v | analysis.py |
| Utils.v | utils.py (non-plotting), evolution.py `init_*` |
| Turtle.v, Tsp.v | turtle.py, hopfield_tank_tsp_net.py (geometry and tour) |
| EvolveStatic.v, EvolveTopo.v | instances of Evolve.v: no topology rule; rules that change the network |
| WattsStrogatz.v | networkx's watts_strogatz_graph as used by topology/networks.py, with the random draws as oracle |
| Plot.v | the data computed by utils.py's plotting functions and vis/vis_utils.py; `_render_L_system` |
| Hexplot.v | hexplot.py: centres and corners of the polygons, over R |
| PyFloat.v, CollatzDemo.v | demos/collatz_conjecture, with Python's integers and floats |
| Machines.v | small rules of several demos (see the comments in the file) |
| Fredkin.v | demos/fredkin_self_replicating_ca |
| DemoNets.v, Flock.v, Boids.v | demos in which the network evolves; demos/flocking |
| Maps.v | demos/logistic_map, lorenz_attractor, reaction_diffusion, continuous_automata |
| Mlp.v, Rbm.v, Pso.v | demos/mlp, restricted_boltzmann_machine, optimizing_particle_swarms |
| Density.v, Vote.v | demos/ca_density_classification, small_world_density_classification |
| Elementary.v, TotalDemo.v, HexDemo.v | demos/elementary_ca, animation_demo, totalistic_ca, totalistic_ca2d, hexagonal_ca |
| Perturb.v, RevDemos.v | demos/perturbation_demo, reversible_ca |
| Lsys.v, SubstDemos.v, TmDemos.v | demos/lindenmayer_systems, substitution_systems, turing_machine |
| SandpileDemo.v, WireDemos.v, WolframDemo.v, LoopDemo.v, HopDemo.v | demos/sandpiles, wireworld, wolfram_physics, langtons_loops, hopfield_net |
| FungalDemo.v | demos/fungal_growth |
| LambdaDemo.v, EntropyDemo.v | demos/langtons_lambda |
| SeqSpec.v | demos/asynchronous_automata (with the specification of sequential automata) |

## Properties

| id | modelled by | proof method |
|---|---|---|
| C01 | Network ops, `edges` enumeration | invariant by induction over op list |
| C02 | refinement of Network to an abstract multigraph (node list + function pair -> attribute list) | simulation per operation |
| C03 | `copy` as msgpack round trip of the node dict | from C04 plus dict equality |
| C04 | byte-level msgpack encoder/decoder | structural induction with fuel sufficiency |
| C05, C06 | matrices as list of lists | fold invariants, entrywise |
| C07 | `nx.MultiDiGraph` as node list + keyed edges | simulation |
| C08 | setter | direct |
| C09-C13 | loops writing a matrix with Python index wrap | entrywise characterisation; sortedness argument for the rotation |
| C14 | builders | fold invariants |
| C15-C28 | fuelled `evolve` with arbitrary user state | induction on the loop; relational inductions for C24, C26, C27; a heap of network objects for C28 |
| C29-C34 | pure rules | arithmetic on digit lists |
| C35, C36 | state machine of the async rule inside evolve | invariant over calls within a step |
| C37 | reversible rule inside evolve | induction, XOR involution |
| C38-C40 | rule tables with random oracles | fold invariants; rational arithmetic |
| C41-C43 | CTRBL | modular arithmetic; finite table sweep for C43 |
| C44, C45 | Turing machines inside evolve | refinement to an abstract machine |
| C46 | substitution rule object inside evolve | invariant linking network/labels to the string |
| C47-C50 | hypergraph model | permutations; fuel sufficiency |
| C51, C52 | Hebbian training; energy | sums; quadratic form argument |
| C53, C54 | sandpile on the torus / closed boundary | double counting; superharmonic potential |
| C55 | fungal topology rule | invariant over random draws |
| C56-C58 | entropy over R | Gibbs inequality |
| C59-C64 | utilities | direct |
| C65 | evolve on a static network | progress by induction over nodes and timesteps |
| C66 | Langton init_loops | fold invariant, finite template |
| C67 | Hopfield recall inside evolve | invariant over node updates |
| C68 | networkx grid_graph as iterated products | induction over the dimensions |
| C73 | networkx watts_strogatz_graph with oracle draws (WattsStrogatz.v) | invariant: every edge has exactly one owner (u, j); fuel monotonicity |
| C74, C76, C78 | Plot.v | double counting; C-order reshape; slices |
| C75 | Plot.v `render`, with Turtle.v | induction over the word; matched brackets to balanced commands |
| C77 | Plot.v, with Lattice.v | labels as mixed-radix numbers; C68 |
| C79 | Hexplot.v, with Topology.v | polygons as convex hulls; integer offsets; C12 |
| C80, C81 | Evolve.v, Topology.v | CaSpec.v: iterated global map `ca_state`; links `within`; relabellings |
| C82, C83 | Rules.v (nks_ca_rule), with Evolve.v, Topology.v | EcaSpec.v: mirrored/complemented/linear tables; number of ones |
| C84 | Fredkin.v (demos/fredkin_self_replicating_ca), with Evolve.v, Topology.v | others: the offsets without (0,0); cell_value; window of side p^k |
| C85, C86, C87 | Machines.v (demos/pushdown_automata, collatz_conjecture, finite_state_machine), with Evolve.v | PropMachines.v: anbn, collatz, orbit, node_history |
| C88 | DemoNets.v (demos/evolving_networks), with Network.v, Evolve.v | PropEvolving.v: cubic, triangle, crossing, triangulated, connected, links (NetMult.v) |
| C89 | DemoNets.v (demos/randomly_growing_network, random_attachment_model), with Network.v, Evolve.v | PropRandomNet.v: joins, steps, links, connected |
| C90 | DemoNets.v (demos/restricted_network_automata), with Network.v, Lattice.v, Evolve.v | PropRestricted.v: indeg, life_links, phase, shift |
| C91 | DemoNets.v (demos/functional_network_automata), with Network.v, Lattice.v, Evolve.v | PropFunctional.v: within, lit, left_of; LatticeSpec.v: coords |
| C92 | Evolve.v (NodeContext accessors) | PropContext.v: parallels, at_index, off_range |
| C93, C94 | Continuous.v (demos/continuous_time_models), with Topology.v, Evolve.v | PropContinuous.v: in_bounds, obeys, slope, wave_energy, spring_form; ContinuousProofs.v: val, around, full |
| C95 | Rules.v (game_of_life_rule), Topology.v, Evolve.v; the demo's patterns in PropLife.v (demos/game_of_life) | LifeSpec.v: pattern, lives_on, generation, moved, rolled_up, fits; PropLife.v: life_run, comes_back; LifePlane.v: torus = plane |
| C96 | Rules.v (wireworld_rule), Topology.v, Evolve.v | PropWire.v: closed_wire, train |
| C97 – C100 | Maps.v (demos/logistic_map, lorenz_attractor, reaction_diffusion, continuous_automata), with Network.v, Topology.v, Evolve.v | PropLogistic.v: the inequalities, populated; PropLorenz.v: lorenz_step, same; PropReaction.v: up, down, leftward, rightward, laplacian, conc_u, conc_v; PropFraction.v: whole_in |
| C101 | Mlp.v (demos/mlp), with Network.v (update_edge), Evolve.v | PropMlp.v: dot, layer, weight_in, after, reaching, in_force, signal, matrix |
| C102 | TmDemos.v (turing_machine_demo1b/2b), with Turing.v, Evolve.v | PropTmLang.v: letters, tape_of, limit; TmLangProofs.v: in_language |
| C103 | TmDemos.v (turing_machine_demo1c/2c, list.index, the compression loop), with Turing.v, Evolve.v | TmRule110.v: rule110, world, placed, cellof, return_time; PropTm110.v: start110, tape110, mark_row, kept_tapes, kept_heads |
| C104 | Async.v, Evolve.v, Rules.v, Topology.v, Utils.v; SeqSpec.v: demo_order, stride (asynchronous_automata_demo.py) | SeqSpec.v: seq_next, seq_state, parity_upto, parity_round(s), binomial, pascal_cell |
| C105 | Pso.v (pso_demo.py, pso_local_demo.py, pso_dynamic_demo.py), Evolve.v, Topology.v, WattsStrogatz.v | PsoSpec.v: weak_order, first_best, swarm_search, local_search |
| C106 | RevDemos.v (demos/reversible_ca/*.py, perturbation_reversible_demo.py), Async.v, Rules.v, Evolve.v | RevSpec.v: orbit, so_state, so_from, row, rows |
| C107 | Perturb.v (perturbation_eca_demo.py), Evolve.v | PertSpec.v: pert_state, overwrite, left_permutive; PertRun.v: then_perturb, with_rule |
| C108 | Perturb.v (perturbation_demo.py), Evolve.v | PropNoise.v: moved_away, near, exp_like, discrete; CaSpec.v: ca_state |
| C109 | Flock.v, Boids.v (flocking_demo.py), Evolve.v, Network.v | FlockSpec.v: watch, flock, streak; BoidSpec.v: wish, wall, limited, move |
| C110 | Rbm.v (rbm_demo.py), Topology.v (bipartite), Evolve.v | RbmSpec.v: boltzmann, hidden_on, visible_on, kernels, machine |
| C111 | Density.v (ca_density_classification_demo.py), Rules.v (binary_ca_rule), Topology.v, Evolve.v | DensitySpec.v: count, majority, classifies; CaSpec.v |
| C112 | Vote.v (small_world_density_classification_demo.py), Rules.v (majority_rule), WattsStrogatz.v, Evolve.v | VoteSpec.v: votes, turned, undirected, degrees |
| C113 | Lsys.v (demos/lindenmayer_systems), Subst.v, Plot.v (render), Turtle.v, Evolve.v | LsysSpec.v: generation, occurrences; tree_lines, plant_lines, mirror in PropLsys.v |
| C114 | Lsys.v (koch, sierpinski) | LsysSpec.v: segments of a lattice pen; under, corner, edges3 in PropKoch.v |
| C115 | Lsys.v (moore) | LsysSpec.v: visited points; joins |
| C116 | SubstDemos.v (demos/substitution_systems), Subst.v, Evolve.v | SubstDemoSpec.v: rewrite1..3, padded, first_rows, odd_ones, fib, combined |
| C117 | TmDemos.v (nks22), Turing.v, Evolve.v | TuringSpec.v; phase, lit, glider in PropTmGlider.v |
| C118 | Elementary.v, Rules.v, Evolve.v | Rule30Spec.v |
| C119 | PyFloat.v, CollatzDemo.v, Evolve.v, Utils.v (binarize_for_plotting) | representable, forbit in PropCollatz.v; orbit in PropMachines.v |
| C120 | SandpileDemo.v, Sandpile.v, Evolve.v | AbelSpec.v, SandpileSpec.v |
| C121 | HexDemo.v, Topology.v, Evolve.v | FlakeSpec.v |
| C122 | WireDemos.v, Rules.v, Evolve.v | DiodeSpec.v, XorSpec.v |
| C123 | TotalDemo.v, Rules.v, Topology.v, Evolve.v | TotalSpec.v |
| C124 | WolframDemo.v, Wolfram.v, Evolve.v | WmSpec.v |
| C125 | LoopDemo.v, Ctrbl.v, Langton.v, Evolve.v | LoopSpec.v, CtrblSpec.v |
| C126 | HopDemo.v, Hopfield.v, Async.v, Evolve.v | HopMemSpec.v |
| C127 | LambdaDemo.v, RuleTables.v, Utils.v, Evolve.v | LambdaSpec.v, TableSpec.v |
| C128 | EntropyDemo.v, Analysis.v, Utils.v, Evolve.v | LambdaSpec.v, RulesSpec.v |
| C129 | FungalDemo.v, Fungal.v, Evolve.v, Network.v | FungalSpec.v, PropSpread.v (reached, lone, total_amount) |
| C70 | average_node_entropy over R | mean of C56 |
| C62, C71 | turtle.py over R | induction over commands; balanced words; sums of rotations |
| C63 | hopfield_tank_tsp_net.py over R | positions closed under 'next' are all positions; permutation of sums |
| C72 | the activity rule inside evolve | double sums over the grid |
| C69 | fungal topology and activity rule inside evolve (EvolveTopo.v) | invariant over states; step relation |

## Modelling notes

* Msgpack: dict keys are compared structurally, so a dict with both `1` and `True` as keys (impossible in Python, where
  `1 == True`) exists in the model; the theorems cover it but say nothing about Python then. The unpacker's size limits
  (`max_buffer_size` and the derived limits for a single str/list/map) are those of the input length, which a packed value
  always meets.
* C03's independence uses a heap whose cells are whole networks: bytes contain no references, so `decompress` allocates
  fresh dicts and lists.

* evolve: labels, attributes, activities and inputs are arbitrary types; `check_np` is the identity (it only changes the
  representation of numpy scalars); callbacks do not mutate the activity dict they are given, and only Heap.v lets a
  topology rule mutate the network. Activities must be hashable when memoization is on. `Network.copy` inside evolve is
  the value-level copy that NetCopy.v proves equal to the msgpack round trip for plain labels and attributes.
* C16-C18, C20-C23, C25 are stated for memoize=False; C24 transports them to memoize=True.
* vcheck lists seven `Coq.ssr.ssrunder` library axioms: they belong to the standard library's ssreflect plugin files that
  the libraries load, no theorem depends on them (`Print Assumptions` says "Closed under the global context").

## Not modelled

What matplotlib and the browser draw (the data given to them is modelled in Plot.v and Hexplot.v), colours, HTML text,
floating-point rounding (except in PyFloat.v, for the integers of the Collatz demos), the garbage collector switches in
`_Compressor`, performance.

All library modules of netomaton/ are modelled. Of demos/, these scripts are not modelled as scripts, though the library
code they call is: hopfield_tank_parameter_sweep.py, hopfield_tank_tsp_net_demo.py.

## Trusted base

Coq 8.16.1's kernel; the axioms below, all from the standard library; the reading of the Python source; the modelled
behaviour of numpy/networkx/msgpack listed above. There are no axioms of our own, no admitted proofs, no functors or
module types, and no kernel check is switched off.

`Print Assumptions`, run for each of the 545 theorems named in MANIFEST.json, prints "Closed under the global context" for
481 of them. The other 64 are about the real numbers (or about definitions that compute with them) and depend on:

* `ClassicalDedekindReals.sig_forall_dec`, `ClassicalDedekindReals.sig_not_dec`, `Classical_Prop.classic`, `FunctionalExtensionality.functional_extensionality_dep`: C56_formula, C56_bounds, C56_empty, C56_reorder, C56_rename, C57_joint, C57_mutual, C57_lengths, C57_symmetric, C57_self, C58_guard, C58_too_far, C58_empty, C58_trajectory, C58_documented_guard_refuted, C70_average_entropy, C70_boundary, C72_output, C72_matrix, C128_entropy, C128_mutual, C128_about_one_refuted.
* `ClassicalDedekindReals.sig_forall_dec`, `ClassicalDedekindReals.sig_not_dec`, `FunctionalExtensionality.functional_extensionality_dep`: C62_forward, C62_turn_push, C62_push_pop, C62_lines, C62_raises, C62_full_turn, C63_distances, C63_succeeds, C63_tour, C63_claimed_twice, C63_shape, C71_rigid, C71_polygon, C71_straight, C72_matrix_shape, C72_step, C72_one_point, C72_network, C75_turtle_matched, C79_cells, C79_no_overlap, C79_touching_even, C79_neighbours_even, C79_touching_odd, C79_odd_rows, C109_rule, C109_speed, C109_boids, C109_escape, C109_confined_refuted, C110_run, C110_conditional, C110_stationary, C110_binary, C113_growth, C113_tree, C113_plant, C114_koch, C114_sierpinski, C115_moore.
* `ClassicalDedekindReals.sig_forall_dec`: C113_script, C113_missing.

## Mutation tests

seeded/LOG.jsonl has one line per wrong program that was tried: a definition of the model is edited in a scratch copy and
everything is rebuilt. "failed" means that the proof of a theorem no longer goes through; this shows that the proof depends
on the edited behaviour, not by itself that the statement has become false. Edits after which everything still built are
either equivalent programs or led to a tightened theorem, as their lines say.
