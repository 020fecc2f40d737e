{"id": "C01", "title": "Degree bookkeeping is exact", "statement": "After any sequence of Network constructor, add_node, add_edge, add_edge_bidir, update_edge, remove_edge, remove_node and copy calls, in_degree(v) equals the number of edges yielded by Network.edges that end in v, out_degree(v) the number that start in v, and degree(v) their sum, for every node v (parallel edges and self-loops included).", "quantifier": "every sequence of public mutating calls of any length, every label and attribute, including calls that raise", "why_tests_cant": "the counters are maintained incrementally by ten different mutators; a test only follows a handful of call sequences", "anchors": ["netomaton/state.py:Network.add_edge", "netomaton/state.py:Network.remove_edge", "netomaton/state.py:Network.remove_node", "netomaton/state.py:Network.in_degree", "netomaton/state.py:Network.out_degree", "netomaton/state.py:Network.degree"]}
{"id": "C02", "title": "Network behaves as a directed multigraph", "statement": "Any sequence of Network mutations behaves like an abstract directed multigraph, given by its node list in creation order and, for every ordered pair (i,j), the list of attribute dicts of the parallel edges in insertion order: add_edge appends one edge to the pair and creates missing endpoints, remove_edge deletes all parallel edges of exactly that pair, remove_node deletes the node and exactly the edges incident to it, update_edge merges attributes into exactly the selected edges, add_node merges attributes into exactly that node; nodes, has_edge, edge, in_edges, len and the multiset of edges report that multigraph. A mutator raises exactly when the addressed node or edge does not exist, and (update_edge with a bad index excepted) then changes nothing.", "quantifier": "every sequence of public mutating calls and every later query", "why_tests_cant": "state space is unbounded; interactions between removals, self-loops and parallel edges are combinatorial", "anchors": ["netomaton/state.py:Network"]}
{"id": "C03", "title": "Network.copy is faithful but forgets the rotation system", "statement": "copy() returns a Network equal (==) to the original, with the same nodes, edges, attributes and degrees in the same order, whose later mutation never affects the original; its rotation_system is always None even when the original has one.", "quantifier": "every network whose labels and attributes are msgpack-plain, and every sequence of later mutations of the copy", "why_tests_cant": "equality must hold for every network; the lost rotation system only shows when the order of neighbours matters later", "anchors": ["netomaton/state.py:Network.copy", "netomaton/state.py:Network.decompress", "netomaton/state.py:Network.__eq__"]}
{"id": "C04", "title": "msgpack compression round-trips", "statement": "For every value built from None, booleans, integers in [-2^63, 2^64), 64-bit floats (compared by bit pattern), strings, bytes, lists and dicts with plain (non-list, non-tuple, non-dict) keys, nested at most 511 deep, decompress(compress(v)) is v again, for every length class; tuples come back as lists; integers outside the range and deeper values are rejected by compress, and nothing else is (apart from lengths of 2^32 and more); a dict with a tuple key is accepted by compress but rejected by decompress; the bytes of a value followed by anything more do not decode (ExtraData), so no packed value is a proper prefix of another.", "quantifier": "every value, every length class (fix/8/16/32 bit headers), every nesting depth up to msgpack's limit of 511", "why_tests_cant": "header classes switch at 16, 32, 256, 65536 ... elements and at integer-size boundaries; tests never reach most of them", "anchors": ["netomaton/state.py:_Compressor.compress", "netomaton/state.py:_Compressor.decompress"]}
{"id": "C05", "title": "to_adjacency_matrix reports edge weights", "statement": "to_adjacency_matrix(nodelist, sum_multiedges, weight) returns an n by n matrix, n the number of nodes, whose entry at the positions of u and v is the sum of the weights of the edges u->v (missing weight counts 1), or the weight of the last such edge when sum_multiedges is False, and 0 when there is none; it raises ValueError if an edge endpoint is missing from nodelist.", "quantifier": "every network, every nodelist that is a permutation of the nodes, both flags, every weight attribute", "why_tests_cant": "entry-wise statement over all graphs and orders", "anchors": ["netomaton/state.py:Network.to_adjacency_matrix"]}
{"id": "C06", "title": "Adjacency matrix round trip", "statement": "from_adjacency_matrix(M) has an edge i->j with weight M[i][j] exactly where M[i][j] != 0, and its nodes are exactly the indices whose row or column is not all zero; hence to_adjacency_matrix(nodelist=range(n)) gives back M exactly when every index has a non-zero row or column, isolated indices are dropped, and with the default nodelist the matrix may come back with permuted rows and columns.", "quantifier": "every square matrix of every size", "why_tests_cant": "depends on where the zeros are; tests use matrices with full diagonals", "anchors": ["netomaton/topology/networks.py:from_adjacency_matrix", "netomaton/state.py:Network.to_adjacency_matrix"]}
{"id": "C07", "title": "networkx conversion round trip", "statement": "from_networkx(to_networkx(N)) has the same nodes in the same order with the same node attributes, and for every pair the same list of parallel edge attributes, as N; degrees agree.", "quantifier": "every network reachable through the public API", "why_tests_cant": "must hold for every multigraph and attribute set", "anchors": ["netomaton/state.py:Network.from_networkx", "netomaton/state.py:Network.to_networkx"]}
{"id": "C08", "title": "Rotation system validation", "statement": "Assigning rotation_system succeeds exactly when every key and every listed label is a node of the network, and then stores exactly the given mapping; otherwise AssertionError is raised and the old value is kept. The stored mapping is not maintained: after remove_node it may mention nodes that no longer exist.", "quantifier": "every network, every mapping, every later mutation", "why_tests_cant": "membership must be checked for all entries; the stale case needs a later mutation", "anchors": ["netomaton/state.py:Network.rotation_system"]}
{"id": "C09", "title": "1D cellular automaton adjacency", "statement": "adjacency.cellular_automaton(n, r) for n>=3 and 0<=r<=n returns the n by n matrix with 1 at (i,j) exactly when j is within circular distance r of i and 0 elsewhere; n<3 and non-periodic boundaries raise, and r>n raises IndexError.", "quantifier": "all n, r, i, j", "why_tests_cant": "unbounded sizes; wrap-around through Python negative indices", "anchors": ["netomaton/topology/adjacency.py:cellular_automaton"]}
{"id": "C10", "title": "1D neighbourhood order", "statement": "topology.cellular_automaton(n, r) with 2r+1<=n gives every cell c the ordered neighbourhood [c-r, ..., c-1, c, c+1, ..., c+r] (indices modulo n), so the cell is in the centre with its left neighbours before and right neighbours after.", "quantifier": "all n>=3, all r with 2r+1<=n, all cells", "why_tests_cant": "the order is produced by sorting and rotating a deque; edge cells wrap; tests check n=5 and n=7", "anchors": ["netomaton/topology/networks.py:cellular_automaton", "netomaton/topology/networks.py:_shift_to_center"]}
{"id": "C11", "title": "2D Moore and von Neumann adjacency", "statement": "cellular_automaton2d(rows, cols, r) with neighbourhood 'Moore' (resp. 'von Neumann') puts a 1 at (cell (a,b), cell (c,d)) exactly when (c,d) = ((a+dx) mod rows, (b+dy) mod cols) for some |dx|<=r, |dy|<=r (resp. |dx|+|dy|<=r), and the relation is symmetric; rows*cols<9 and unknown neighbourhoods or boundaries raise.", "quantifier": "all rows, cols, r and cell pairs", "why_tests_cant": "unbounded grid sizes and radii with wrap-around in two dimensions", "anchors": ["netomaton/topology/adjacency.py:cellular_automaton2d", "netomaton/topology/adjacency.py:_get_neighbourhood_points2d"]}
{"id": "C12", "title": "Hexagonal adjacency", "statement": "With neighbourhood 'Hex' and r=1, on grids with at least 3 rows and 3 columns each cell is adjacent to itself and to six others: (a,b-1),(a,b+1) and, in rows a of even index, (a-1,b),(a-1,b+1),(a+1,b),(a+1,b+1), in odd rows the same with b-1 for b+1. The relation is symmetric when the number of rows is even; with an odd number of rows it is not, and for r=2 the neighbourhood is not a hexagonal disk (21 cells instead of 19).", "quantifier": "all grid sizes, all cells", "why_tests_cant": "parity of rows interacts with wrap-around; tests use one grid", "anchors": ["netomaton/topology/adjacency.py:cellular_automaton2d"]}
{"id": "C13", "title": "2D neighbourhood order keeps the cell in the centre", "statement": "For every neighbourhood type with ordered=True, the rotation system lists for each cell exactly its in-neighbours, each once, with the cell itself at position len//2, in cyclically ascending label order. For Moore r=1 interior cells this is the row-major 3x3 window; for border cells it is not the spatial order.", "quantifier": "all grid sizes, neighbourhood types, radii, cells", "why_tests_cant": "unbounded grids; the order is the result of a sort and a rotation", "anchors": ["netomaton/topology/networks.py:cellular_automaton2d", "netomaton/topology/networks.py:_shift_to_center"]}
{"id": "C14", "title": "bipartite, complete and disconnected topologies", "statement": "bipartite(A,B) has an edge between two labels, in both directions, exactly across the two sets, carrying the supplied attributes; complete(n) for n>=2 has exactly the edges i->j, i!=j, i,j<n; disconnected has exactly the given nodes and no edges. complete(1) is an empty network.", "quantifier": "all sizes, label sets and attribute tables", "why_tests_cant": "for all sizes", "anchors": ["netomaton/topology/networks.py:bipartite", "netomaton/topology/networks.py:complete", "netomaton/topology/networks.py:disconnected"]}
{"id": "C15", "title": "Trajectory length", "statement": "evolve with timesteps=n>=1 returns exactly n states; with a list input of length m (no None entries) exactly m+1 states, regardless of timesteps; an input function ends the run at the first t for which it returns None, giving t states; giving neither raises; timesteps<=0 never terminates.", "quantifier": "all n, all input lists and input functions, all rules that do not raise", "why_tests_cant": "statement about all run lengths, including a non-termination claim", "anchors": ["netomaton/evolution.py:evolve", "netomaton/evolution.py:_get_input_function", "netomaton/evolution.py:_TimestepInputFunction", "netomaton/evolution.py:_ListInputFunction"]}
{"id": "C16", "title": "Update equation, ACTIVITIES_FIRST", "statement": "With ACTIVITIES_FIRST, for every t the activities of state t+1 are the rule applied to each node of network A(t) with activities S(t), and A(t+1) = F(A(t), S(t+1)).", "quantifier": "all networks, initial conditions, pure activity rules, topology rules, numbers of steps", "why_tests_cant": "holds for every rule and every step, not just sampled automata", "anchors": ["netomaton/evolution.py:evolve", "netomaton/evolution.py:evolve_activities", "netomaton/evolution.py:do_activity_rule", "netomaton/evolution.py:evolve_topology"]}
{"id": "C17", "title": "Update equation, TOPOLOGY_FIRST", "statement": "With TOPOLOGY_FIRST, A(t+1) = F(A(t), S(t)) and S(t+1) = G(A(t+1), S(t)).", "quantifier": "all networks, initial conditions, pure activity rules, topology rules, numbers of steps", "why_tests_cant": "holds for every rule and every step", "anchors": ["netomaton/evolution.py:evolve"]}
{"id": "C18", "title": "Update equation, SYNCHRONOUS", "statement": "With SYNCHRONOUS, A(t+1) = F(A(t), S(t)) and S(t+1) = G(A(t), S(t)).", "quantifier": "all networks, initial conditions, pure activity rules, topology rules, numbers of steps", "why_tests_cant": "no test exists for this order in the code base", "anchors": ["netomaton/evolution.py:evolve"]}
{"id": "C19", "title": "Updates are simultaneous", "statement": "Within one timestep every node's rule invocation sees only the previous timestep's activities, so for a stateless rule the new activity of each node does not depend on the order in which the nodes are visited.", "quantifier": "all networks, all permutations of the node order, all stateless rules", "why_tests_cant": "quantifies over all visiting orders", "anchors": ["netomaton/evolution.py:do_activity_rule"]}
{"id": "C20", "title": "The rule sees the current neighbourhood", "statement": "Without a topology rule, or with one and no node insertion or deletion by the activity rule, the neighbour_labels given to the rule at each step are the rotation-system entry of the network in force, or else its in-edge sources in insertion order, and neighbourhood_activities are their activities position by position. When a topology rule is combined with an activity rule that adds or removes nodes, the neighbourhoods can be stale: the cached map is never rebuilt for later topology-only changes.", "quantifier": "all networks, rules, steps", "why_tests_cant": "the cache is invalidated only on some paths; needs a multi-step history with both kinds of change", "anchors": ["netomaton/evolution.py:_get_neighbourhood_map", "netomaton/evolution.py:_get_neighbour_labels", "netomaton/evolution.py:evolve"]}
{"id": "C21", "title": "Input delivery", "statement": "At timestep t every node receives None when only timesteps is given, and otherwise the t-th input: element node_label of it when it is a list, the value itself when it is not a sequence; a string input of length greater than one is indexed too, so a node receives a single character of it.", "quantifier": "all input lists, steps, nodes", "why_tests_cant": "for all histories and node labels", "anchors": ["netomaton/evolution.py:do_activity_rule", "netomaton/evolution.py:_is_indexable"]}
{"id": "C22", "title": "Past activities window", "statement": "With past_conditions of length L, at timestep t the rule's past_activities has length L and entry L-k (k=1..L) is the network activity at time t-1-k, where times 0,1,2,... are the trajectory's states and time -m is past_conditions[L-m]; past_activity_of(v) with the default index is v's activity at time t-2. With persist_activities=False the entries for times >= 1 are None.", "quantifier": "all L, t, histories", "why_tests_cant": "index arithmetic through negative list indices for every window size and step", "anchors": ["netomaton/evolution.py:_get_past_activities", "netomaton/evolution.py:NodeContext.past_activity_of"]}
{"id": "C23", "title": "Perturbation", "statement": "With a perturbation, the recorded activity of each node is the perturbation applied to the activity the rule computed for that node at that timestep, and this perturbed value is what the next step sees; an identity perturbation changes nothing. If the rule removes the node it is invoked on, a perturbation makes evolve raise KeyError.", "quantifier": "all rules, perturbations, steps", "why_tests_cant": "for all rules and histories", "anchors": ["netomaton/evolution.py:do_activity_rule"]}
{"id": "C24", "title": "Memoization is transparent", "statement": "If the result of the rule depends on the context only through the memoization key, and the rule neither keeps state nor adds or removes nodes, then evolve with memoize=True returns the same trajectory as with memoize=False; with the default key this covers every rule that depends only on the ordered neighbourhood activities (rotation system present) or only on their multiset (absent). For a rule that depends on anything else (e.g. Game of Life on an unordered network) it can differ.", "quantifier": "all networks, rules, keys, steps", "why_tests_cant": "cache contents depend on the entire history", "anchors": ["netomaton/evolution.py:_get_memoized", "netomaton/evolution.py:_OrderedMemoizationKey", "netomaton/evolution.py:_UnorderedMemoizationKey"]}
{"id": "C25", "title": "Activities and nodes stay in step under node insertion and deletion", "statement": "With ACTIVITIES_FIRST and no topology rule, if each rule invocation removes at most the node it is invoked on and links new nodes only to nodes that exist after the step, then in every state the labels with an activity are exactly the nodes of the network; a node that is removed by another node's invocation keeps an activity in that step's state although it is no longer in the network.", "quantifier": "all rules of that form, all steps", "why_tests_cant": "history dependent: every interleaving of insertions and deletions", "anchors": ["netomaton/evolution.py:do_activity_rule", "netomaton/evolution.py:evolve_activities", "netomaton/evolution.py:evolve_topology"]}
{"id": "C26", "title": "Persistence flags do not change the dynamics", "statement": "The activities and networks recorded with persist_activities/persist_network True are the same whichever flags are given; False only blanks the states after the first. Exception: with past_conditions the rule reads persisted activities, so persist_activities=False changes what it sees.", "quantifier": "all rules, networks, steps, flags", "why_tests_cant": "relational property between two runs", "anchors": ["netomaton/evolution.py:evolve_activities", "netomaton/evolution.py:evolve_topology"]}
{"id": "C27", "title": "Compression does not change the trajectory", "statement": "evolve with compression=True yields states whose activities and networks equal those of the uncompressed run (except that networks lose their rotation system) for activities msgpack reproduces; tuple-valued activities come back as lists.", "quantifier": "all rules, networks, steps with msgpack-plain activities and attributes", "why_tests_cant": "relational property between two runs over all values", "anchors": ["netomaton/state.py:State", "netomaton/evolution.py:evolve"]}
{"id": "C28", "title": "copy_network isolates the history", "statement": "With copy_network=True a topology rule that mutates the network it is given in place never changes a network recorded in an earlier state nor the caller's network; with copy_network=False an in-place rule makes all recorded states share the final network, and under SYNCHRONOUS the activity rule then sees the already mutated network.", "quantifier": "all in-place topology rules and all run lengths", "why_tests_cant": "aliasing over a whole history", "anchors": ["netomaton/evolution.py:evolve_topology"]}
{"id": "C29", "title": "bits_to_int and int_to_bits are inverse", "statement": "bits_to_int(int_to_bits(num, d)) == num and int_to_bits(bits_to_int(bits), len(bits)) == bits for every num with at most d bits and every non-empty 0/1 list; int_to_bits returns exactly d digits and raises when num needs more.", "quantifier": "all numbers, widths and bit lists", "why_tests_cant": "unbounded integers", "anchors": ["netomaton/rules/activity_rule.py:bits_to_int", "netomaton/rules/activity_rule.py:int_to_bits"]}
{"id": "C30", "title": "Elementary rules follow the Wolfram numbering", "statement": "nks_ca_rule(N) on neighbourhood bits b returns bit number int(b) of N, binary_ca_rule(N) returns bit number 2^len(b)-1-int(b); the result is 0 or 1, and N >= 2^(2^len(b)) raises.", "quantifier": "all rule numbers, all neighbourhood sizes, all neighbourhoods", "why_tests_cant": "2^(2^k) rules", "anchors": ["netomaton/rules/activity_rule.py:binary_ca_rule", "netomaton/rules/activity_rule.py:nks_ca_rule"]}
{"id": "C31", "title": "Totalistic rules", "statement": "totalistic_ca(k, N) on an n-cell neighbourhood with states in 0..k-1 returns digit number sum(neighbourhood) of N in base k (least significant digit is number 0), a value in 0..k-1; it raises when N >= k^(n(k-1)+1) or when k is not in 2..36; reordering the neighbourhood does not matter.", "quantifier": "all k, N, n and neighbourhoods", "why_tests_cant": "unbounded numbers", "anchors": ["netomaton/rules/activity_rule.py:totalistic_ca"]}
{"id": "C32", "title": "Majority rule", "statement": "majority_rule returns the unique most frequent state when there is one, for every random draw; on a tie it may return any neighbourhood state, including one that is not among the most frequent.", "quantifier": "all neighbourhoods, all random outcomes", "why_tests_cant": "quantifies over random outcomes", "anchors": ["netomaton/rules/activity_rule.py:majority_rule"]}
{"id": "C33", "title": "Game of Life", "statement": "On topology.cellular_automaton2d(rows, cols) with rows, cols >= 3 and 0/1 activities, one evolve step with game_of_life_rule maps every cell by Conway's rule: a live cell survives iff it has 2 or 3 live cells among its eight toroidal neighbours, a dead cell becomes live iff it has exactly 3.", "quantifier": "all grid sizes >= 3x3, all configurations, all steps", "why_tests_cant": "2^(rows*cols) configurations", "anchors": ["netomaton/rules/activity_rule.py:game_of_life_rule", "netomaton/topology/adjacency.py:cellular_automaton2d"]}
{"id": "C34", "title": "Wireworld rule", "statement": "wireworld_rule maps empty to empty, head to tail, tail to conductor, and a conductor to a head exactly when one or two neighbourhood cells are heads; states 0..3 are closed under the rule.", "quantifier": "all neighbourhoods", "why_tests_cant": "all multisets of states", "anchors": ["netomaton/rules/activity_rule.py:wireworld_rule"]}
{"id": "C35", "title": "Asynchronous rule updates one node per timestep", "statement": "With a fixed update_order of distinct node labels of the network, at timestep t only the node update_order[(t-1) mod len] receives the wrapped rule's result, every other node keeps its activity, and over any len(update_order) consecutive timesteps every listed node is updated exactly once.", "quantifier": "all networks, update orders, rules and steps", "why_tests_cant": "counter state depends on the whole call history", "anchors": ["netomaton/asynchronous_rule.py:AsynchronousRule"]}
{"id": "C36", "title": "Randomized asynchronous rule", "statement": "With randomize_each_cycle and n = number of nodes labelled 0..n-1, for every outcome of the shuffles exactly one node is updated in each timestep. With a custom update_order, the first reshuffle replaces the order by a permutation of 0..len-1, so nodes that were never listed can be updated.", "quantifier": "all shuffle outcomes, all steps", "why_tests_cant": "quantifies over random outcomes and histories", "anchors": ["netomaton/asynchronous_rule.py:AsynchronousRule"]}
{"id": "C37", "title": "Reversible rule is reversible", "statement": "If a run with ReversibleRule(f) (f pure, integer valued) and one past condition goes through states ..., S(T-1), S(T), then running it from initial condition S(T-1) with past condition S(T) reproduces the earlier states in reverse order, back to the past condition.", "quantifier": "all networks, pure rules, histories, T", "why_tests_cant": "relational property over runs of any length", "anchors": ["netomaton/reversible_rule.py:ReversibleRule", "netomaton/evolution.py:_get_past_activities"]}
{"id": "C38", "title": "table_rule looks up the neighbourhood", "statement": "For neighbourhoods of states 0..9, table_rule(table) returns the entry for the string of digits and raises exactly when the table has no such entry. For k > 10 the string built by table_rule (decimal) and the keys built by random_rule_table (base-36 digits) differ, so a complete table can miss a state.", "quantifier": "all tables and neighbourhoods", "why_tests_cant": "for all k and neighbourhood sizes", "anchors": ["netomaton/rule_tables.py:table_rule"]}
{"id": "C39", "title": "Random rule tables are well formed", "statement": "For every outcome of the random draws, random_rule_table(k, r, ...) returns a table with exactly the k^(2r+1) neighbourhood strings as keys, values in 0..k-1, reported lambda equal to the fraction of entries that are not the quiescent state, every uniform state mapped to itself under strong_quiescence, and table[s] == table[reversed s] under isotropic.", "quantifier": "all k in 2..36, r, lambda, flags, random outcomes", "why_tests_cant": "quantifies over random outcomes and sizes", "anchors": ["netomaton/rule_tables.py:random_rule_table"]}
{"id": "C40", "title": "Table walk-through", "statement": "For every outcome of the random draws table_walk_through terminates, keeps the key set, reports the lambda of the returned table, never moves lambda away from the target, keeps uniform states unchanged under strong_quiescence and isotropy under isotropic, and stops only when lambda has reached or just crossed the target or no admissible state is left.", "quantifier": "all tables, targets, flags, random outcomes", "why_tests_cant": "quantifies over random outcomes and unbounded walks", "anchors": ["netomaton/rule_tables.py:table_walk_through"]}
{"id": "C41", "title": "CTRBL neighbourhoods", "statement": "For every grid, CTRBLRule gives cell (a,b) the ordered neighbourhood centre (a,b), top (a-1,b), right (a,b+1), bottom (a+1,b), left (a,b-1) with toroidal wrap-around, and these are exactly the von Neumann in-neighbours in its network.", "quantifier": "all grid sizes and cells", "why_tests_cant": "unbounded grids", "anchors": ["netomaton/ctrbl_rule.py:CTRBLRule._init_neighbourhood_map"]}
{"id": "C42", "title": "CTRBL rotations", "statement": "With add_rotations, every table key's four rotations are in the expanded table and no other keys; if the given table is consistent (no two entries whose keys are rotations of each other have different images) then every rotation of a key maps to that key's image and the rule commutes with 90 degree rotations. With an inconsistent table a rotation of a later entry overrides an earlier explicit entry.", "quantifier": "all rule tables", "why_tests_cant": "all tables", "anchors": ["netomaton/ctrbl_rule.py:CTRBLRule._init_rule_table"]}
{"id": "C43", "title": "Langton's loop table", "statement": "The built-in Langton's loop table, once expanded with rotations, has no conflicting entries, is rotation invariant, uses only states 0..7 and keeps the all-zero neighbourhood quiescent.", "quantifier": "all entries and rotations of the table", "why_tests_cant": "finite but large; no test checks consistency", "anchors": ["netomaton/langtons_loop.py:LangtonsLoop"]}
{"id": "C44", "title": "Head-centric Turing machine", "statement": "Running HeadCentricTuringMachine through evolve produces exactly the run of the Turing machine given by the rule table on a circular tape: the k-th tape in the history, the head state and the head position agree at every step, and the run stops as soon as the terminating state is entered or max_timesteps is reached.", "quantifier": "all tapes, tables, start positions, run lengths", "why_tests_cant": "unbounded computations", "anchors": ["netomaton/turing_machine.py:HeadCentricTuringMachine"]}
{"id": "C45", "title": "Tape-centric Turing machine", "statement": "Running TapeCentricTuringMachine for n timesteps produces the same tapes and head history as the abstract machine on a circular tape of length n >= 3.", "quantifier": "all tapes, tables, start positions, run lengths", "why_tests_cant": "unbounded computations", "anchors": ["netomaton/turing_machine.py:TapeCentricTuringMachine"]}
{"id": "C46", "title": "Substitution systems rewrite in parallel", "statement": "Evolving a freshly built SubstitutionSystem with neighbourhood size k >= 1 (every key and constant has length k, every axiom element is one character) for t steps in the default update order yields the string obtained by t times replacing the current string s by the concatenation of rules[s[i:i+k]] for i = 0..len(s)-k, in order; a constant maps to itself; a window without a rule raises KeyError; to_string and pad print the strings. It fails for an empty key, for other update orders, and for an object that has been run before.", "quantifier": "all axioms, rule maps, neighbourhood sizes, numbers of steps", "why_tests_cant": "exponentially growing strings, stateful rule object", "anchors": ["netomaton/substitution_system.py:SubstitutionSystem", "netomaton/evolution.py:evolve_topology"]}
{"id": "C47", "title": "Wolfram model configuration round trip", "statement": "network_to_config(WolframPhysicsModel(config).network) is a permutation of config for every configuration of non-empty relations, and equals config when there are at most 9 relations; with 10 or more the order is the string order of the relation numbers (so it can differ). An empty relation is lost.", "quantifier": "all configurations", "why_tests_cant": "all hypergraphs of all sizes", "anchors": ["netomaton/wolfram_physics_model.py:WolframPhysicsModel.network_to_config", "netomaton/wolfram_physics_model.py:WolframPhysicsModel._init_network_and_conditions"]}
{"id": "C48", "title": "Wolfram model rewriting is sound", "statement": "Each application of topology_rule replaces a multiset of disjoint groups of relations, each an instance of the left-hand side under one binding, by the corresponding instances of the right-hand side, and keeps all other relations; so |new| = |old| + m(|out|-|in|) for the number m of rewritten groups. With a single left-hand pattern no relation that matches it is left over; with several patterns it is not exhaustive: an abandoned partial match stops the scan although another match exists.", "quantifier": "all configurations and rules", "why_tests_cant": "all hypergraphs", "anchors": ["netomaton/wolfram_physics_model.py:WolframPhysicsModel.topology_rule", "netomaton/wolfram_physics_model.py:WolframPhysicsModel._matches"]}
{"id": "C49", "title": "Wolfram model creates fresh nodes", "statement": "A symbol that occurs only on the right-hand side is bound, for each rewritten group, to a node that occurs nowhere in the configuration before the step and differs from all other nodes created in that step. Over whole runs started with the model's own network (right-hand side of at least one relation, none empty) evolve does not fail and every created node occurs in no earlier configuration at all. With a network other than the model's own a created node need not be new.", "quantifier": "all configurations, rules, steps", "why_tests_cant": "needs an invariant over runs", "anchors": ["netomaton/wolfram_physics_model.py:WolframPhysicsModel.topology_rule"]}
{"id": "C50", "title": "Wolfram model scan terminates", "statement": "topology_rule terminates for every non-empty left-hand side; with an empty left-hand side it never does.", "quantifier": "all configurations and rules", "why_tests_cant": "termination claim", "anchors": ["netomaton/wolfram_physics_model.py:WolframPhysicsModel.topology_rule"]}
{"id": "C51", "title": "Hebbian weights", "statement": "HopfieldNet.train, when no pattern is longer than the first, yields a symmetric square weight matrix with zero diagonal whose off-diagonal entry is the sum over patterns of p[i]*p[j] (missing components count 0); the network's edges are exactly the non-zero entries and its nodes exactly the indices with a non-zero weight, so an index whose weights are all zero is not a node. A pattern longer than the first, or an empty set, raises IndexError.", "quantifier": "all pattern sets", "why_tests_cant": "all sizes and patterns", "anchors": ["netomaton/hopfield_net.py:HopfieldNet.train"]}
{"id": "C52", "title": "Hopfield energy never increases", "statement": "For every trained net with n = len(P[0]) in which every index has a non-zero weight, every bipolar start state and every shuffle outcome, the energy -1/2 sum w_ij s_i s_j never increases from one timestep to the next, and the state changes at most n + sum |w_ij| times. If an index has only zero weights, two nodes may be updated in one timestep and the energy can increase.", "quantifier": "all pattern sets, start states, shuffle outcomes, steps", "why_tests_cant": "quantifies over random outcomes and histories", "anchors": ["netomaton/hopfield_net.py:HopfieldNet", "netomaton/asynchronous_rule.py:AsynchronousRule"]}
{"id": "C53", "title": "Sandpile conserves grains", "statement": "On every grid of at least nine cells each step topples all cells with at least 4 grains at once. With periodic boundaries (is_closed_boundary False) and at least 3 rows and columns the total number of grains never changes; with either boundary it never increases for non-negative configurations; on a grid with fewer than 3 rows or columns the periodic model loses grains whenever a cell topples.", "quantifier": "all grids, configurations, steps", "why_tests_cant": "all configurations", "anchors": ["netomaton/sandpile.py:Sandpile"]}
{"id": "C54", "title": "Sandpile stabilises", "statement": "With closed boundary every non-negative configuration reaches, within a number of steps computed from it, a state in which no cell topples and which no longer changes. With periodic boundaries a grid holding more than 3 grains per cell never does.", "quantifier": "all grids, configurations", "why_tests_cant": "unbounded number of steps", "anchors": ["netomaton/sandpile.py:Sandpile"]}
{"id": "C55", "title": "Fungal growth keeps one link per lattice edge", "statement": "For every outcome of the random draws and every iteration order of the link set, the evolving network only ever has edges along lattice links, at most one per link, so no node exceeds degree 4 and the rule never divides by zero; the weights of the edges leaving a node sum to 1.", "quantifier": "all grids, resources, random outcomes, steps", "why_tests_cant": "quantifies over random outcomes and histories", "anchors": ["netomaton/fungal_growth_model.py:FungalGrowthModel.topology_rule"]}
{"id": "C56", "title": "Shannon entropy bounds", "statement": "0 <= shannon_entropy(s) <= log2(number of distinct symbols), 0 exactly for one-symbol strings, invariant under reordering and injective renaming of symbols.", "quantifier": "all strings", "why_tests_cant": "all strings", "anchors": ["netomaton/analysis.py:shannon_entropy"]}
{"id": "C57", "title": "Mutual information bounds", "statement": "For equally long strings joint_shannon_entropy is symmetric and between max and sum of the individual entropies; mutual_information is symmetric, at least 0 and at most either entropy; mutual_information(s,s) = shannon_entropy(s).", "quantifier": "all pairs of equally long strings", "why_tests_cant": "all strings", "anchors": ["netomaton/analysis.py:joint_shannon_entropy", "netomaton/analysis.py:mutual_information"]}
{"id": "C58", "title": "Temporal distance guard of average_mutual_information", "statement": "average_mutual_information raises exactly when temporal_distance is not in (0, number of nodes) - not, as documented, the number of timesteps.", "quantifier": "all trajectories and distances", "why_tests_cant": "all shapes", "anchors": ["netomaton/analysis.py:average_mutual_information"]}
{"id": "C59", "title": "ncr is the binomial coefficient", "statement": "ncr(n, r) is the number of r-element subsets of an n-element set for all non-negative n, r, and raises on negative arguments.", "quantifier": "all n, r", "why_tests_cant": "unbounded", "anchors": ["netomaton/utils.py:ncr"]}
{"id": "C60", "title": "binarize_for_plotting", "statement": "binarize_for_plotting returns rows of equal length whose binary value is the given number, the longest having no leading zero (unless all are 0).", "quantifier": "all lists of naturals", "why_tests_cant": "unbounded", "anchors": ["netomaton/utils.py:binarize_for_plotting"]}
{"id": "C61", "title": "Activities as list", "statement": "get_activities_over_time_as_list returns, for each state that has activities, its activities ordered by ascending label, and skips states without.", "quantifier": "all trajectories", "why_tests_cant": "all", "anchors": ["netomaton/utils.py:get_activities_over_time_as_list"]}
{"id": "C62", "title": "Turtle", "statement": "forward(d) moves the turtle by distance |d| in its orientation and records the segment from old to new position; push then any balanced sequence then pop restores position and orientation; segments drawn are never lost; turning by 360 degrees has no effect on where forward leads.", "quantifier": "all command sequences", "why_tests_cant": "all histories", "anchors": ["netomaton/turtle.py:Turtle"]}
{"id": "C63", "title": "TSP tour graph", "statement": "get_tour_graph succeeds exactly when the row-wise argmax of the matrix is a permutation, and then the tour visits every point exactly once, and the reported length is the sum of the Euclidean lengths of the tour's edges; the distance map is symmetric with zero diagonal.", "quantifier": "all point sets and matrices", "why_tests_cant": "all permutations", "anchors": ["netomaton/hopfield_tank_tsp_net.py:HopfieldTankTSPNet.get_tour_graph", "netomaton/hopfield_tank_tsp_net.py:HopfieldTankTSPNet._get_distances_map"]}
{"id": "C64", "title": "Initial condition builders", "statement": "init_simple(n) has length n with the value at index n//2 and zeros elsewhere; init_simple2d likewise at (rows//2, cols//2); init_random places exactly n_randomized random values in 0..k-1 centred in the list, for every random outcome, and raises when n_randomized is not in 0..size.", "quantifier": "all sizes, random outcomes", "why_tests_cant": "all sizes", "anchors": ["netomaton/evolution.py:init_simple", "netomaton/evolution.py:init_simple2d", "netomaton/evolution.py:init_random"]}
{"id": "C65", "title": "evolve does not raise on a well-formed static run", "statement": "If the network does not change, every node has a neighbourhood of nodes, the initial conditions give each node an activity, and the stateless activity rule returns on every context it can be given, then evolve with T >= 1 timesteps returns a trajectory of T states, each the synchronous update of the one before, whatever the update order and the past conditions.", "quantifier": "all networks, rules, initial and past conditions, update orders, numbers of timesteps", "why_tests_cant": "a test checks one run; the absence of KeyError/IndexError is over all rules and networks", "anchors": ["netomaton/evolution.py:evolve", "netomaton/evolution.py:do_activity_rule"]}
{"id": "C66", "title": "init_loops draws Langton's loop at each position", "statement": "LangtonsLoop(dim).init_loops(n, row, col) returns dim[0]*dim[1] states in row-major order. When every loop fits (0 <= row, row + 10 <= rows, 1 <= col, col + 14 <= cols), each cell shows the digit of the last loop drawn over it, where a loop is the 10-row picture of Langton's self-replicating loop with its sheath starting one column to the left of its position, and 0 if no loop covers it. A loop at column 0 wraps around to the last column.", "quantifier": "all grid sizes, all numbers and positions of loops that fit, all cells", "why_tests_cant": "The property ranges over all grid sizes and all loop placements including overlapping ones; tests can only draw a few fixed placements.", "anchors": ["netomaton/langtons_loop.py:init_loops"]}
{"id": "C67", "title": "Hopfield recall of one pattern", "statement": "A net trained on one bipolar pattern p, started from a state that differs from p in h places with 2h <= n-2, never moves away from p: each timestep sets one node to its value in p and keeps the others. Started from p it stays at p.", "quantifier": "all patterns, start states, shuffle outcomes, steps", "why_tests_cant": "quantifies over patterns, random outcomes and histories", "anchors": ["netomaton/hopfield_net.py:HopfieldNet", "netomaton/asynchronous_rule.py:AsynchronousRule"]}
{"id": "C68", "title": "lattice builds the Euclidean lattice", "statement": "For every non-empty list of positive dimensions, lattice(dim, periodic, self_loops, first_label) returns a network whose nodes are numbered from first_label. Two distinct points are joined by exactly one edge in each direction when they are consecutive along one axis (the ends of an axis count as consecutive when periodic) and agree on every other axis, and by none otherwise. The nodes are the points that have a neighbour. Contrary to its documentation, self_loops=True gives a node a connection to itself only on a periodic lattice with a dimension of 1, and then it gives two. A negative dimension raises NetworkXError; a dimension 0 raises IndexError when periodic.", "quantifier": "all lists of dimensions, periodic or not, with or without self loops, all first labels, all pairs of points", "why_tests_cant": "The claim ranges over every number of dimensions and every size; a test can only build a few lattices.", "anchors": ["netomaton/topology/networks.py:lattice"]}
{"id": "C69", "title": "Fungal growth: what grows, what flows, what stays alive", "statement": "In each timestep of the fungal growth model links stay, new links only join agents beside each other that were not linked, one way only and from an agent that was alive, and two agents beside each other that are both alive get linked. Each agent sends all it has in equal parts along its links; an agent that receives gives up what it had; living agents absorb R_E times their resource layer. With a non-negative rate, resource layer and initial conditions no amount is ever negative, living agents stay alive, and a dead agent is alive later exactly when a link has reached it by then. With a negative rate a living agent can die.", "quantifier": "all grids, initial conditions, resource layers, rates, random outcomes, set orders, timesteps", "why_tests_cant": "quantifies over random outcomes, set orders and histories", "anchors": ["netomaton/fungal_growth_model.py:FungalGrowthModel.topology_rule", "netomaton/fungal_growth_model.py:FungalGrowthModel.activity_rule"]}
{"id": "C70", "title": "Average node entropy", "statement": "On a non-empty rectangular table of activities with at least one node, average_node_entropy returns the mean over the nodes of the entropy of the node's string of states; it is at least 0, at most log2 of the number of symbols that occur, and 0 exactly when every node's string repeats one symbol. With no nodes it is nan; no timesteps raise; a later row shorter than the first raises IndexError.", "quantifier": "all tables of activities, all ways to print an activity", "why_tests_cant": "quantifies over all tables; a test can only compute a few", "anchors": ["netomaton/analysis.py:average_node_entropy"]}
{"id": "C71", "title": "Turtle drawings are rigid, and polygons close", "statement": "Starting the turtle elsewhere and turned by some angle gives the same drawing moved and turned by that much. Repeating n times 'forward d, turn by k/n of a full turn' brings the turtle back to where it started unless n divides k, and then it has walked straight on by n*d.", "quantifier": "all command sequences, start positions and orientations, side lengths, side counts n >= 1 and whole numbers k", "why_tests_cant": "quantifies over all command histories and real numbers", "anchors": ["netomaton/turtle.py:Turtle.forward", "netomaton/turtle.py:Turtle.rotate"]}
{"id": "C72", "title": "Hopfield-Tank dynamics", "statement": "With at least two points, evolve on the net's adjacency matrix performs at every unit, in every timestep, one Euler step of the Hopfield-Tank equation: row, column, global and tour-length terms with weights A, B, C, D. The output of a unit is the logistic function of its input, so the permutation matrix has entries strictly between 0 and 1, and for u_0 > 0 the tour read from it is decided by the inputs alone. With one point the first timestep raises KeyError.", "quantifier": "all point lists, hyperparameters, initial activities, timesteps", "why_tests_cant": "quantifies over real-valued inputs, all sizes and histories", "anchors": ["netomaton/hopfield_tank_tsp_net.py:HopfieldTankTSPNet.activity_rule", "netomaton/hopfield_tank_tsp_net.py:HopfieldTankTSPNet.get_permutation_matrix", "netomaton/hopfield_tank_tsp_net.py:HopfieldTankTSPNet.adjacency_matrix"]}
{"id": "C73", "title": "Watts-Strogatz network", "statement": "For 2 <= k < n, watts_strogatz_graph(n, k, p) returns a network on exactly the nodes 0..n-1 without self-loops in which every edge has its reverse, both with weight 1. It has exactly 2*n*(k//2) directed edges: one undirected edge per node u and distance j in 1..k//2, which joins u to (u+j) mod n unless the draw for (u, j) rewired it, and then to the first drawn node that is neither u nor a neighbour of u. Every node keeps at least k//2 neighbours, whatever is drawn. Without rewiring the result is the ring in which nodes at ring distance 1..k//2 are joined. The call terminates when every node keeps being drawn. k > n and k < 2 (other than k == n == 1) raise NetworkXError; k == n >= 2 gives the complete network.", "quantifier": "all n, k, all outcomes of the random draws", "why_tests_cant": "quantifies over all sizes and all random outcomes; the tests use one seed", "anchors": ["netomaton/topology/networks.py:watts_strogatz_graph", "netomaton/topology/networks.py:from_adjacency_matrix"]}
{"id": "C74", "title": "Degree distribution plot", "statement": "plot_degree_distribution draws one bar for each degree from 1 to the largest (in-, out- or total) degree, whose height is the number of nodes of that degree. The heights add up to the number of nodes of degree at least 1: isolated nodes are not shown. The heights weighted by the degree add up to the number of edges for in- and out-degrees, and to twice that number for total degrees. A network without nodes raises ValueError. If in_degree and out_degree are both given, in_degree wins.", "quantifier": "all networks reachable by Network operations", "why_tests_cant": "quantifies over all networks", "anchors": ["netomaton/utils.py:plot_degree_distribution"]}
{"id": "C75", "title": "L-system rendering", "statement": "_render_L_system executes, symbol by symbol and in list order, the instructions bound to the symbols of the state; rendering a concatenation is rendering the parts in sequence. The first symbol without a binding raises KeyError after the effects of all previous symbols (and nothing else) happened; an exception of an instruction stops the rendering likewise. With a turtle whose push and pop are bound to two bracket symbols and with other symbols bound to forward and rotate instructions, rendering a balanced word restores the turtle's stack, and a bracketed balanced word restores position and orientation too.", "quantifier": "all bindings, words, turtles", "why_tests_cant": "quantifies over all words and bindings", "anchors": ["netomaton/utils.py:_render_L_system", "netomaton/turtle.py:Turtle"]}
{"id": "C76", "title": "Activities as pictures", "statement": "_reshape_for_animation with shape (n,) returns as many frames as there are timesteps; frame i shows the activities up to timestep i and rows of zeros after it. With shape (r, c) and rows of r*c activities, the value in frame t at row i, column j is the activity of node i*c+j at timestep t; other row lengths raise ValueError (for rows of unequal lengths: if r*c is not 1). Other shapes are rejected; a 1-tuple not equal to the row length raises AssertionError. plot_activities with a 1-tuple always raises. In animate_activities the k-th update shows frame k mod T, so every frame is shown again after T updates.", "quantifier": "all activity tables, shapes, update counts", "why_tests_cant": "quantifies over all tables and shapes; the plotting code is untested", "anchors": ["netomaton/utils.py:_reshape_for_animation", "netomaton/utils.py:plot_grid", "netomaton/utils.py:animate_activities"]}
{"id": "C77", "title": "Lattice positions and relation graphs", "statement": "lattice_pos(n_x, n_y) assigns the labels 0..n_x*n_y-1 to distinct grid points (i, j) with label i*n_y+j. Used with lattice((n_y, n_x)) (not periodic), two nodes are joined exactly if their positions are at distance 1; with lattice((n_x, n_y)) this fails whenever n_x and n_y are different and both at least 2. configuration_to_nx has as nodes exactly the elements of the relations and as edges exactly the consecutive pairs of each relation, with multiplicity. get_html gives the m-th loop at a node size 15+5m, so the loops at a node are distinct.", "quantifier": "all sizes, configurations, edge lists", "why_tests_cant": "quantifies over all sizes and configurations", "anchors": ["netomaton/vis/vis_utils.py:lattice_pos", "netomaton/vis/vis_utils.py:configuration_to_nx", "netomaton/vis/vis_utils.py:get_html", "netomaton/topology/networks.py:lattice"]}
{"id": "C78", "title": "Poincare and bifurcation data", "statement": "poincare_plot plots for each series exactly the pairs of consecutive values among its last T values, in order, if T is at most the length of the series; for larger T >= 2 it raises IndexError, for T <= 1 it plots nothing. bifurcation_plot plots above each x the distinct values among the last T of the corresponding trajectory, each once and in ascending order, for T >= 1 (all values if T exceeds the length); for T = 0 it plots the values of the whole trajectory.", "quantifier": "all series, trajectories and T", "why_tests_cant": "quantifies over all data and T", "anchors": ["netomaton/utils.py:poincare_plot", "netomaton/utils.py:bifurcation_plot"]}
{"id": "C79", "title": "Hexagon plot geometry", "statement": "plot_hex_grid draws one hexagon of radius 1 per cell; the centres of different cells are at distance at least sqrt 3, so hexagons never overlap. For an even number of rows, the hexagons that touch are exactly those of cells that are neighbours of radius 1 in the Hex topology without wrapping around. For an odd number of rows (at least 3, with at least 3 columns) the picture uses the other offset: some neighbours do not touch, and some touching hexagons are not neighbours.", "quantifier": "all grid sizes and cells", "why_tests_cant": "quantifies over all grid sizes; involves real-valued geometry", "anchors": ["netomaton/hexplot.py:_oddr_offset_to_pixel", "netomaton/hexplot.py:_evenr_offset_to_pixel", "netomaton/hexplot.py:plot_hex_grid", "netomaton/hexplot.py:_get_triples", "netomaton/topology/adjacency.py:cellular_automaton2d"]}
{"id": "C80", "title": "Cellular automata: global map, restart, light cone", "statement": "On a network that does not change, if the rule reads nothing but the node's label, its own activity and its neighbours' activities, and does not raise on the activities that occur: the run succeeds and its state k is the k-fold iterate of the textbook global map (each cell updated from its own and its neighbours' states). Starting a new run from a recorded state k gives exactly the rest of the run. The activity of node v at time k depends only on the initial activities of nodes reachable from v over at most k neighbour links; on a ring of radius r, of cells at ring distance at most r*k.", "quantifier": "all networks, rules, initial conditions, T, k, v; all rings", "why_tests_cant": "quantifies over all rules, networks, initial conditions and times", "anchors": ["netomaton/evolution.py:evolve", "netomaton/evolution.py:do_activity_rule", "netomaton/topology/networks.py:cellular_automaton"]}
{"id": "C81", "title": "Shift equivariance", "statement": "A relabelling of the nodes that maps neighbourhoods to neighbourhoods in order maps runs to runs, for every rule that reads only the node's own and its neighbours' activities; if it only maps them up to order, the same holds for rules that ignore the order. Hence rotating the initial condition of cellular_automaton(n, r) rotates the run, and translating the initial condition of cellular_automaton2d (Moore or von Neumann, any radius) translates the run for order-independent rules. For rules that look at the order it is false in 2D: the order of the neighbours is different at the border.", "quantifier": "all rings, tori, radii, rules, initial conditions, shifts and times", "why_tests_cant": "quantifies over all lattices, rules, initial conditions and shifts", "anchors": ["netomaton/evolution.py:evolve", "netomaton/topology/networks.py:cellular_automaton", "netomaton/topology/networks.py:cellular_automaton2d"]}
{"id": "C82", "title": "Symmetries of binary automata", "statement": "For every radius r, every rule number has exactly one mirror rule and one complement rule in range. On cellular_automaton(n, r), nks_ca_rule with the mirror rule, started on the mirrored cells, gives the mirrored run; with the complement rule, started on the complemented cells, the complemented run. For a rule that is linear over GF(2) the run of the sum mod 2 of two configurations is the sum mod 2 of their runs.", "quantifier": "all n >= 3, radii r with 2r+1 <= n, rule numbers in range, initial conditions and times", "why_tests_cant": "quantifies over all ring sizes, radii, rule numbers, configurations and times", "anchors": ["netomaton/rules/activity_rule.py:nks_ca_rule", "netomaton/evolution.py:evolve", "netomaton/topology/networks.py:cellular_automaton"]}
{"id": "C83", "title": "Number-conserving elementary rules", "statement": "On every ring of at least 3 cells with radius 1, the elementary rules 170, 184, 204, 226 and 240 keep the number of ones in every run; for every other elementary rule there is a configuration on the ring of 4 cells whose number of ones changes in the first timestep.", "quantifier": "all ring sizes, configurations and times; all 256 rule numbers", "why_tests_cant": "quantifies over all ring sizes, configurations and times", "anchors": ["netomaton/rules/activity_rule.py:nks_ca_rule", "netomaton/evolution.py:evolve", "netomaton/topology/networks.py:cellular_automaton"]}
{"id": "C84", "title": "Fredkin automata replicate their pattern", "statement": "Take the rule of the Fredkin demos, (sum of the neighbourhood minus the cell itself) mod p with p prime, on a periodic 2D lattice with Moore or von Neumann neighbourhood of radius r whose sides are at least 2r+1. In every run, p^k timesteps after any recorded state S each cell (a, b) holds the sum mod p of the cells (a + p^k dx, b + p^k dy) of S (taken around the torus) over the neighbour offsets (dx, dy) other than (0, 0). If the nonzero cells of S fit into a p^k by p^k window and both sides are at least (2r+1)p^k, the later state consists of one exact copy (mod p) of the pattern per such offset, displaced by p^k times the offset, and zeros elsewhere. The first formula fails for p = 4.", "quantifier": "all primes p, exponents k, radii, lattice sizes, neighbourhoods of the two kinds, initial integer configurations, start times", "why_tests_cant": "quantifies over all primes, powers, lattice sizes and configurations; the demos show one 60 by 60 grid", "anchors": ["demos/fredkin_self_replicating_ca/fredkin_self_replicating_ca_moore_demo.py:22-23", "demos/fredkin_self_replicating_ca/fredkin_self_replicating_ca_vonneumann_demo.py:22-23", "demos/fredkin_self_replicating_ca/fredkin_self_replicating_ca_multicolor_demo.py:22-23", "netomaton/evolution.py:evolve", "netomaton/topology/networks.py:cellular_automaton2d"]}
{"id": "C85", "title": "The pushdown automaton demo and the language a^n b^n", "statement": "Run evolve on the one-node network with the demo's pda_rule, starting in q0 with stack ['Z'], and a str as input. The run ends without an exception exactly if the word is a prefix of a^n b^n followed by a newline for some n >= 1, and raises 'input rejected' on all other words. It ends in the accepting state q3, with the stack back at ['Z'], exactly if the word is a^n b^n newline with n >= 1. So the absence of an exception does not mean membership: on 'aab' the run ends normally.", "quantifier": "all input strings", "why_tests_cant": "quantifies over all strings; the demo runs one of them", "anchors": ["demos/pushdown_automata/pushdown_automata_demo.py:25-42", "netomaton/evolution.py:evolve", "netomaton/evolution.py:_ListInputFunction"]}
{"id": "C86", "title": "The Collatz demo ends exactly when the sequence reaches 1", "statement": "Run evolve on the one-node network with the demo's Collatz rule and input function. If k is the first index at which the Collatz sequence of n is 1, the run ends with the k+1 states n, ..., 1. If the sequence never reaches 1 the run never ends. Hence some amount of iteration suffices exactly if the conjecture holds for n. It ends after k+1 states for n = 2^k, and never for n <= 0.", "quantifier": "all integers n, all iteration bounds", "why_tests_cant": "quantifies over all starting numbers and includes non-termination", "anchors": ["demos/collatz_conjecture/collatz_conjecture_demo.py:14-25", "netomaton/evolution.py:evolve", "netomaton/evolution.py:_get_input_function"]}
{"id": "C87", "title": "The turnstile demo depends on the last event only", "statement": "Run evolve on the one-node network with the demo's fsm_rule and a str of events: there is one state more than events, the first is the initial state, and the state after event j is 0 (locked) if that event is 'p' and 1 (unlocked) otherwise, whatever came before.", "quantifier": "all event strings and initial states", "why_tests_cant": "quantifies over all event strings; the demo runs one of them", "anchors": ["demos/finite_state_machine/finite_state_machine_demo.py:25-30", "netomaton/evolution.py:evolve", "netomaton/evolution.py:_ListInputFunction"]}
{"id": "C88", "title": "The evolving-network demo replaces every node of a cubic graph by a triangle", "statement": "Let the network be an undirected simple loopless graph in which every node has three neighbours and all labels have the same length. The demo's topology_rule then raises nothing and returns a network whose nodes are v+'a', v+'b', v+'c' for the old nodes v in order, in which these three are pairwise adjacent, and in which between the triangles of two different nodes u and w there are exactly as many edges as there were between u and w. The new network is again simple, loopless, symmetric and cubic (and connected if the old one was), so that evolve with T timesteps records T such networks with N, 3N, 9N, ... nodes. The hypotheses are needed: with labels '1' and '1a' or with a fourth neighbour inserted.pop() raises IndexError, and with a self-loop the loop over in_edges(node) raises RuntimeError because the dict grows.", "quantifier": "all cubic networks with string labels of one length, all T, all update orders, with copy_network on or off", "why_tests_cant": "quantifies over all cubic graphs and run lengths; the demo starts from K4 and runs 4 steps", "anchors": ["demos/evolving_networks/evolving_networks_demo.py:19-40", "netomaton/state.py:Network.add_edge_bidir", "netomaton/state.py:Network.remove_node", "netomaton/evolution.py:evolve"]}
{"id": "C89", "title": "The random-network demos build exactly the graph of what was drawn", "statement": "Whatever the random choices: (1) the growing demo with one attachment per timestep records at timestep t the initial network plus nodes N..N+t-1, each joined in both directions to exactly the one older node drawn for it, hence 2t more edges, and it stays connected; (2) the Callaway demo records the initial network plus t nodes and, for every timestep at which a pair was drawn, one edge in each direction between the two (the same pair drawn twice gives parallel edges); (3) the random-attachment demo, started without edges, records at timestep t the simple undirected graph whose edges are the pairs drawn at timesteps 1..t, on an unchanged node set.", "quantifier": "all sequences of draws (any function of the timestep into the admissible nodes), all start networks with labels 0..N-1 (in (3) any labels), all run lengths and update orders", "why_tests_cant": "the demos draw at random; a test sees a few samples of exponentially many sequences", "anchors": ["demos/randomly_growing_network/randomly_growing_network_demo1.py:16-24", "demos/randomly_growing_network/randomly_growing_network_demo2.py:28-38", "demos/random_attachment_model/random_attachment_model_demo.py:17-23", "netomaton/evolution.py:evolve"]}
{"id": "C90", "title": "The restricted network automaton is exactly a birth-2/survival-3 game of links, and its spaceship never stops", "statement": "If the network contains all nodes of the underlying network, the demo's topology_rule raises nothing, keeps the nodes, and changes exactly the edges between different nodes of the underlying network: an absent edge x->y is created (once) iff the underlying network has it and in-degree(x) + in-degree(y) = 2 before the step; a present one is kept with its multiplicity iff the sum is 3 and removed otherwise. All decisions use the degrees before the step, in whatever order the pairs are visited. Otherwise KeyError is raised. Consequences: symmetric and simple networks stay so, no edge appears outside the underlying network and the start network, and the rule commutes with every symmetry of the underlying network. On the demo's 6x9 torus the start pattern is a spaceship: at every timestep t the network consists of one of two fixed shapes (by the parity of t) shifted by t // 2 columns.", "quantifier": "all underlying and current networks with any labels; all run lengths; all update orders", "why_tests_cant": "quantifies over all networks and all timesteps; the demo runs 13 steps of one pattern", "anchors": ["demos/restricted_network_automata/restricted_network_automata_demo.py:17-58", "netomaton/state.py:Network.in_degree", "netomaton/evolution.py:evolve", "netomaton/topology/networks.py:lattice"]}
{"id": "C91", "title": "The functional network automaton is a wave that removes exactly the edges behind its front", "statement": "On any network without rotation systems, from activities in {0,1} and run with update order ACTIVITIES_FIRST, the demo's two rules raise nothing and after k steps: a node is active iff some initially active node is at most k edges away along directed edges of the ORIGINAL network (removing edges never delays the wave); from k = 1 on, an edge of the original network is still there (with its multiplicity) iff its ends are not both active; nodes are never removed. The topology rule needs that no pair of active nodes is joined by parallel edges: it then removes exactly the edges between active nodes, and otherwise it raises KeyError. On the demo's kind of lattice (any dimensions, not periodic) started at the corner node, a node is active after k steps iff its coordinates sum to at most k, and once k reaches the sum of (dimension - 1) (13 for the demo, its last timestep) all nodes are active and no edge is left.", "quantifier": "all reachable networks with any labels, all initial activities in {0,1}, all run lengths; all dimensions of the lattice", "why_tests_cant": "quantifies over all networks and timesteps; the demo shows one lattice", "anchors": ["demos/functional_network_automata/functional_network_automata_demo.py:5-30", "netomaton/evolution.py:evolve", "netomaton/state.py:Network.remove_edge", "netomaton/topology/networks.py:lattice"]}
{"id": "C92", "title": "NodeContext accessors read exactly the state and the edges in force", "statement": "For the context of node v, built from a network n and activities S: activity_of(w) is S[w] (KeyError if absent), current_activity is activity_of(v), and neighbourhood_activities is activity_of over neighbour_labels in order; edge_data(w, attr, i) is attribute attr of the i-th of the parallel edges w -> v in the order in which Network.edges lists them, negative i counting from the end: KeyError if there is no such edge or no such attribute, IndexError if i is out of range; past_activity_of(w, i) is the activity of w in the i-th state of the past window (default -1: the latest), TypeError when no past conditions were given or the state was not persisted, IndexError out of range, KeyError for an unknown node.", "quantifier": "all reachable networks, activities, contexts, labels, attributes and indices", "why_tests_cant": "index arithmetic over arbitrary numbers of parallel edges and window lengths", "anchors": ["netomaton/evolution.py:8-65", "netomaton/state.py:Network.edges"]}
{"id": "C93", "title": "The diffusion and convection demos obey the maximum principle up to their stability limits", "statement": "On a ring of n >= 3 nodes, with exact arithmetic and dx != 0: (a) diffusion (both demo versions of the rule): the sum of all activities is the same at every timestep; if 0 <= F <= 1/2, where F = nu dt / dx^2, then no activity ever leaves the interval spanned by the initial conditions and the sum of squares never increases; for every F outside [0, 1/2] and every n there are initial conditions in [0, 1] that leave [0, 1] at the next timestep. (b) linear convection: the sum is constant; for 0 <= C <= 1 (C = k dt / dx) the bounds hold, outside they fail after one timestep for suitable initial conditions; for C = 1 the profile after t timesteps is the initial profile moved t nodes to the right. (c) nonlinear convection and Burgers' equation: nonnegative initial conditions between lo and hi stay between lo and hi whenever hi dt/dx + 2 nu dt/dx^2 <= 1; the nonlinear scheme does not conserve the sum (witness).", "quantifier": "all ring sizes >= 3, all rational parameters, all initial conditions, all numbers of timesteps", "why_tests_cant": "a test runs one parameter set for a fixed number of timesteps; the maximum principle, the sharp limits and the conservation law quantify over all profiles, parameters and times", "anchors": ["demos/continuous_time_models/diffusion_demo.py:22-28", "demos/continuous_time_models/simple_diffusion_demo.py:25-31", "demos/continuous_time_models/linear_convection_demo.py:21-26", "demos/continuous_time_models/nonlinear_convection_demo.py:21-26", "demos/continuous_time_models/burgers_equation_demo.py:41-47", "netomaton/evolution.py:45-46"]}
{"id": "C94", "title": "The wave equation demo conserves energy and runs backwards; the spring demo stays on an ellipse", "statement": "With exact arithmetic: (a) on a ring of n >= 3 nodes the wave rule, given one past condition, produces a solution of the second-order difference equation; the change of the total per timestep is constant (zero when the past condition equals the initial condition, as in the demo), the discrete energy of consecutive states is constant, and (1 - dt^2/dx^2) times the sum of squared changes never exceeds it. (b) Starting from two consecutive states of a run in reverse order retraces the run back to its beginning. (c) If dt >= dx then on every ring of even size there are initial conditions in [-1, 1] (the checkerboard, past condition equal to it) for which node 0 has absolute value at least 2 t + 1 after t timesteps. (d) The spring rule keeps 6 x^2 + v^2 + 6 dt x v constant, so (6 - 9 dt^2) x^2 and (1 - 3/2 dt^2) v^2 never exceed the initial value of that form; with the parameters of the demo position and velocity stay strictly between -6 and 6 (the plotted range) for ever. (e) The code does not implement the difference equations of its docstring: the new velocity is computed from the new position (witness); the documented equations multiply 6 x^2 + v^2 by 1 + 6 dt^2 at every step.", "quantifier": "all ring sizes >= 3, all rational dt and dx != 0, all initial and past conditions, all numbers of timesteps", "why_tests_cant": "tests look at finitely many timesteps; conservation, boundedness for ever, reversibility and unbounded growth are statements about all times and all profiles", "anchors": ["demos/continuous_time_models/wave_equation_demo.py:24-35", "demos/continuous_time_models/single_spring_netomaton_demo.py:20-39", "netomaton/evolution.py:55-62", "netomaton/evolution.py:385-398"]}
{"id": "C95", "title": "Gliders, spaceships and blinkers live for ever on every large enough torus", "statement": "Running game_of_life_rule on topology.cellular_automaton2d(rows, cols): (a) as long as the pattern leaves at least two rows and two columns of the torus free, the grid shows at every timestep the pattern that Conway's rule produces on the infinite plane, rolled up on the torus; with only one free row this fails. (b) A pattern that comes back after p generations moved by (di, dj) is after m p + r timesteps in phase r, moved by m (di, dj), for ever. (c) The demo's glider comes back after 4 timesteps one row down and one column right (rows, cols >= 5), its lightweight spaceship two columns to the left (rows >= 6, cols >= 7), its blinker after 2 timesteps in place; on an n x n torus the glider is back where it started after 4 n timesteps. (d) In the demo's 60 timesteps on the 60 x 60 grid the three patterns never meet: the grid is exactly their union at every timestep.", "quantifier": "all torus sizes, all patterns and positions, all run lengths", "why_tests_cant": "infinitely many torus sizes and patterns, unbounded time", "anchors": ["demos/game_of_life/game_of_life_demo.py", "netomaton/rules/activity_rule.py:game_of_life_rule", "netomaton/topology/networks.py:cellular_automaton2d", "netomaton/evolution.py:evolve"]}
{"id": "C96", "title": "Electrons travel along closed Wireworld wires", "statement": "Running wireworld_rule on any network with repetition-free neighbourhoods: on a closed wire of m >= 3 cells that nothing else non-empty touches, every train of electrons (head, tail behind it, at least one conductor behind the tail) moves on by one cell per timestep for ever, whatever the rest of the board does, so the wire repeats with period m; empty cells stay empty. A full row of a rows x cols torus (rows, cols >= 3) with the rest of the neighbouring cells empty is such a wire, and the demos' start '2 1 3 3 ...' is such a train. Two electrons without a conductor between them are not: one is lost.", "quantifier": "all networks, all closed wires, all trains, all timesteps", "why_tests_cant": "unbounded wires and run lengths, arbitrary surroundings", "anchors": ["demos/wireworld", "netomaton/rules/activity_rule.py:wireworld_rule", "netomaton/topology/networks.py:cellular_automaton2d"]}
{"id": "C97", "title": "The logistic map: one node per growth rate, independent of each other", "statement": "The network of the demos has one node per growth rate whose only edge is a loop carrying the rate. Node i maps x to r_i x (1 - x) each timestep whatever the other nodes do, and never raises. In exact arithmetic: for 0 <= r <= 4 a population in [0, 1] stays there and is at most r^k x0; for r <= 1 it is at most 1/(k+1) after k timesteps; for 1 <= r <= 2 starting between 1 - 1/r and 1/2 it decreases to 1 - 1/r, the gap shrinking at least by the factor 2 - r per timestep; for r >= 2, r^2 <= 8, starting between 1/2 and r/4, the distance to 1 - 1/r shrinks at least by the factor r^2/4 - 1; 1 - 1/r is stationary for every r > 0. For every r > 4, starting from 1/2, the population is negative from the second timestep on and at most r^(k-2) times its value then.", "quantifier": "all lists of growth rates, all initial populations, all numbers of timesteps", "why_tests_cant": "unbounded numbers of nodes and timesteps, real parameters", "anchors": ["demos/logistic_map", "netomaton/topology/networks.py:disconnected", "netomaton/evolution.py:NodeContext.edge_data"]}
{"id": "C98", "title": "The two Lorenz demos compute the same trajectory", "statement": "lorenz_attractor_demo.py (one node with a tuple) follows Euler's method for the Lorenz equations; a state repeats exactly at the equilibria (y = x, x (r - 1 - z) = 0, x^2 = b z; for a, dt not 0); the z axis is invariant and on it z is multiplied by 1 - b dt per timestep; reflecting the initial point in the z axis reflects the trajectory. lorenz_attractor_demo2.py (one node per coordinate, parameters as edge weights) gives, in exact arithmetic, the same coordinates at every timestep, and neither raises.", "quantifier": "all parameters a, b, r, dt, all initial points, all numbers of timesteps", "why_tests_cant": "chaotic system: floating-point tests of the two programs diverge", "anchors": ["demos/lorenz_attractor/lorenz_attractor_demo.py", "demos/lorenz_attractor/lorenz_attractor_demo2.py"]}
{"id": "C99", "title": "Reaction-diffusion: local law, balance and bounds", "statement": "On a torus of at least 3 x 3 cells react_diffuse adds to u r_u times the five-point Laplacian, - u v^2 and f (1 - u), and to v r_v times the Laplacian, + u v^2 and - k v. So the total of u + v changes per timestep by exactly f times the total of 1 - u minus k times the total of v (constant if f = k = 0). A field without v stays without v, the total of 1 - u is then multiplied by 1 - f per timestep, and the field (1, 0) is stationary. If r_u, r_v, f >= 0, 4 r_v + k <= 1, 0 <= u <= 1, 0 <= v and v^2 <= 1 - 4 r_u - f everywhere then 0 <= u <= 1 and 0 <= v also at the next timestep; without the bound on v this fails. On a grid of two rows the field (1, 0) is not stationary.", "quantifier": "all grids of at least 3 x 3 cells, all parameters, all initial fields, all timesteps", "why_tests_cant": "universally quantified over grids, fields and run lengths", "anchors": ["demos/reaction_diffusion/reaction_diffusion_demo.py", "netomaton/topology/networks.py:cellular_automaton2d"]}
{"id": "C100", "title": "The continuous automaton", "statement": "math.modf leaves a remainder of the same sign and below 1 in absolute value. On every ring of n >= 3 cells with non-negative initial values, every later value is in [0, 1) and differs from half the sum of the cell's neighbourhood by a whole number; from whole-number initial values the values after k timesteps are multiples of 1/2^k; a block of zeroes loses at most one cell per timestep at either end.", "quantifier": "all ring sizes, all non-negative initial values, all timesteps", "why_tests_cant": "unbounded rings and run lengths; exact arithmetic", "anchors": ["demos/continuous_automata/continuous_automata_demo.py"]}
{"id": "C101", "title": "The multi-layer perceptron demo computes the forward pass", "statement": "With n x n weight files for the first two layers, a p x n file (p <= n) for the last and an image of n pixels, the demo's network can be built and four timesteps of evolve succeed; the trajectory shows the image, relu(W1 x), relu(W2 h1) and then, at the first p nodes, W3 h2, each sum taken from left to right; the other n - p nodes, whose weights the last file does not mention, show the rows of W2 times h2. In general, for any number of nodes and timesteps, timestep t applies the activation of entry t to the sum weighted with the weights set up to timestep t-1. Line j, column i of a weight file is the weight of the edge from i to j; the pixels are numbered in reading order; a weight for an edge outside the network raises.", "quantifier": "all sizes, all files of fitting size, all images, any number type with any addition, multiplication and positivity test (so floats included), all timesteps in the general form", "why_tests_cant": "the demo runs one 784-neuron network whose weight files are not even in the repository; stale weights outside the output nodes go unnoticed", "anchors": ["demos/mlp/mlp_demo.py", "netomaton/state.py:update_edge", "netomaton/evolution.py:evolve"]}
{"id": "C102", "title": "The language demo accepts exactly the words a^n b^n c^n", "statement": "Let w be any word over a, b, c, on a tape with at least one blank before and one after it and the head in state q0 on the cell after the leading blanks. The machine of the demos never lacks a rule, stands still from step 2|w|^2 + 2|w| + 3 on, and is then in state q6 exactly if w = a^n b^n c^n for some n; at no time is it in q6 for any other word. The empty word (n = 0) is accepted although the comment in the demos says n > 0. Evolving the tape-centric machine for any number of timesteps beyond that bound, the last recorded head state is q6 exactly for the words of the language; the head-centric machine with terminating state q6 shows q6 only in its last timestep and only for a word of the language, takes all of max_timesteps for any other word, and accepts every word of the language if max_timesteps exceeds the bound.", "quantifier": "all words, all numbers of surrounding blanks, all numbers of timesteps, all head-centric limits", "why_tests_cant": "the demos run the single word aabbcc; rejection, other lengths and the empty word are never tried", "anchors": ["demos/turing_machine/turing_machine_demo1b.py", "demos/turing_machine/turing_machine_demo2b.py", "netomaton/turing_machine.py"]}
{"id": "C103", "title": "The universal machine demo goes through the rows of ECA rule 110, and the compression keeps exactly those", "statement": "Let the tape hold l cells b, a row w of cells a (white) and e (black) that begins with a white cell, and r cells a, with the head in state up on the first of these. At step 2n^2 + (2|w|+1)n, for n <= l and n < r, the tape holds l-n cells b, then the cells -n to |w|+n-1 of row n of rule 110 on the infinite line (started from w on a white background), then r-n cells a, with the head in state up just after the row; until the next such step the head gets no further to the right. So for every number of timesteps between two such steps, evolve followed by the demos' loop that keeps the rows at which the head is further right than ever before yields exactly the rows 0 to n of rule 110, for the tape-centric and the head-centric machine. If w begins with a black cell this fails.", "quantifier": "all rows w beginning with a white cell, all l, r and n in those ranges, all numbers of timesteps", "why_tests_cant": "the demos run one row for 58 and one for 5000 timesteps and show a picture", "anchors": ["demos/turing_machine/turing_machine_demo1c.py", "demos/turing_machine/turing_machine_demo2c.py", "netomaton/turing_machine.py"]}
{"id": "C104", "title": "A sequential automaton run is the one-cell-at-a-time map, and the rule 60 demo draws Pascal's triangle modulo two", "statement": "AsynchronousRule with a fixed update order, around a rule that reads only its own and its neighbours' activities and does not raise on the activities in question: evolve succeeds for every number of timesteps, and state k is the result of letting the cells take k turns in the given order, each turn computed from the state left by the one before. For rule 60 on a ring of n >= 3 cells with the order 1, ..., n-2: after q rounds and j further steps the cells 1 to j hold the running parity (the sum modulo two of the cells 0 to i) of the state after q rounds, all other cells the state after q rounds; cells 0 and n-1 never change. So in the demo - a single 1 at p, not in the last cell, (n-2)R timesteps, every (n-2)-th row kept - there are exactly R rows, row 0 is the start and cell w of row k > 0 is C(w-p+k-1, k-1) mod 2 for p <= w <= n-2 and 0 elsewhere. With the 1 in the last cell this fails, and a round is not a synchronous step.", "quantifier": "all networks, rules and duplicate-free orders in the general form; all ring sizes from 3, all initial rows of 0 and 1, all numbers of rounds and steps; all p < n-1 for the demo", "why_tests_cant": "the tests compare three small runs with recorded rows; the demo shows one picture of 21 cells", "anchors": ["demos/asynchronous_automata/asynchronous_automata_demo.py", "netomaton/asynchronous_rule.py:AsynchronousRule.__call__", "netomaton/evolution.py:evolve", "netomaton/rules/activity_rule.py:nks_ca_rule"]}
{"id": "C105", "title": "The particle swarm demos report the best position found so far", "statement": "For any vectors, objective and random draws, provided the objective values are strictly weakly ordered (floats other than NaN): pso_demo on a complete network of n >= 2 particles (indeed on any network) runs to the end without an exception, takes exactly timesteps states and prints exactly timesteps lines; every particle moves by the stated velocity rule; its best is the first best of the positions it was in; the leader printed at timestep t is the best of all positions any particle was in so far, is replaced only by something strictly better and never becomes worse. pso_local_demo and pso_dynamic_demo on Watts-Strogatz graphs (2 <= k < n), whatever networkx draws, do the same with the leader of a particle being the first best among its neighbours as they were before the step, and report the best value found by the whole swarm. A particle without neighbours makes the local demos raise TypeError. The particles of one timestep of pso_demo do not all follow the same leader (refuted), and with NaN values the leader can be stuck at NaN (refuted).", "quantifier": "all vector types, objectives, strict weak orders, random draws, numbers of particles n >= 2, timesteps T >= 1, and all outcomes of the Watts-Strogatz drawings that finish", "why_tests_cant": "a test runs one seed with one objective and looks at the last value; it cannot show that no run reports a worse value than one found before, nor that no small-world drawing leaves a particle without neighbours", "anchors": ["demos/optimizing_particle_swarms/pso_demo.py", "demos/optimizing_particle_swarms/pso_local_demo.py", "demos/optimizing_particle_swarms/pso_dynamic_demo.py", "netomaton/evolution.py:evolve", "netomaton/topology/networks.py:watts_strogatz_graph"]}
{"id": "C106", "title": "Reversible automata are second-order automata: determined both ways, recurrent, and the scripts retrace their steps", "statement": "On a ring of n >= 3 cells with radius r (2r+1 <= n), any binary rule number below 2^(2^(2r+1)), any initial and past conditions of 0s and 1s: evolve with ReversibleRule(nks_ca_rule(N)) and one past condition runs to the end, and the state at timestep k+1 is the rule applied to the state at k xored with the state at k-1 (the past condition being the state at -1). Two such runs that agree at two consecutive timesteps agree at all timesteps, earlier and later, and have the same past condition. There is a period between 1 and 4^n after which every run comes back to its past and initial conditions. rule214R_demo: started from T states with past equal to present, the second script run goes back through the states T-2, ..., 0 and then forward through 0, 1, ...; with 2(T-1) rows, as in the script, the picture is the same read from either end. rule122R_reverse_demo: the chosen states lead to the block of rule122R_entropy_demo at the last two of the 1002 states, and the plot is that script's rows in reverse order with one more row at either end. The perturbed rule of perturbation_reversible_demo gives the second-order automaton whose rule is 1 at every tenth timestep, where every cell becomes the opposite of its state two timesteps before; running it back does not retrace the way (refuted).", "quantifier": "all ring sizes, radii, rule numbers, binary initial and past conditions and numbers of timesteps", "why_tests_cant": "a test reverses one run of one rule; it cannot show that no two different pasts lead to the same two states, nor that every orbit returns", "anchors": ["demos/reversible_ca/reversible_ca_demo.py", "demos/reversible_ca/rule214R_demo.py", "demos/reversible_ca/rule122R_entropy_demo.py", "demos/reversible_ca/rule122R_reverse_demo.py", "demos/perturbation_demo/perturbation_reversible_demo.py", "netomaton/reversible_rule.py", "netomaton/evolution.py:evolve"]}
{"id": "C107", "title": "A perturbation is the rule followed by the perturbation; a perturbed cell only influences its light cone, and rule 30 fills the cone", "statement": "For every network, inputs, past conditions, topology rule, update order and compression: without memoize, evolve with a rule that never removes its own node and a perturbation gives the same result as evolve without perturbation and with the rule followed by the perturbation; without a rule a perturbation has no effect; with memoize the equality fails (the unperturbed results are remembered, refuted). perturbation_eca_demo, for any ring of n >= 3 cells, rule number below 256, perturbed cell, initial 0s and 1s and draws of 0s and 1s: the rows are those of the automaton whose perturbed cell is overwritten with the successive draws; runs whose first j draws agree have the same cell v in row k if the ring distance from v to the perturbed cell exceeds k-1-j, and cells at distance above k-1 are those of the unperturbed automaton; if the rule is permutive in its left cell, as rule 30 is, and the draws first differ at j, the rows j+1+m differ at the cell m places to the right of the perturbed one for all m < n/2, so that the last row determines all draws when 2(T-2) < n; with the numbers of the script two runs have the same last row exactly if all their 99 draws agree.", "quantifier": "all networks, rules, perturbations and arguments of evolve for the composition; all ring sizes, rules, cells, initial conditions, draw sequences and numbers of timesteps for the script", "why_tests_cant": "a test runs one sequence of random draws; it cannot show that nothing outside the cone depends on them, nor that no two of the 2^99 sequences end in the same row", "anchors": ["demos/perturbation_demo/perturbation_eca_demo.py", "netomaton/evolution.py:evolve", "netomaton/evolution.py:do_activity_rule"]}
{"id": "C108", "title": "The noise of perturbation_demo: what is recorded, its bounds, and how far the noisy continuous automata follow rules 30 and 90", "statement": "With exact rationals for floats and any function for np.exp, any ring of n >= 3 cells, initial activities, noise amount and draws, and algebraic_rule_30 or algebraic_rule_90: the run never raises, and the activity recorded for a cell at timestep k+1 is the value of the rule on the three activities around it at timestep k, moved away from 1/2 by the product of the noise amount and a draw; every cell of every timestep has its own draw. With draws in [0,1] and an exponential in [0,1] on negative numbers, all activities after the first row are in [-amount, 2+amount]. If 1+z <= exp z <= 1 for negative z, exp z >= 0 and exp z <= 1/8000 for z <= -9, and the noise amount is at most 1/500, then every activity at every timestep stays within 3/1000 of the corresponding cell of the elementary automaton (rule 30 or 90) started from the same 0s and 1s. For the 0.02 of the script that conclusion fails for such functions (refuted: an activity above 3/4 where rule 30 has 0).", "quantifier": "all ring sizes, initial activities, draw sequences, noise amounts and numbers of timesteps, and all functions in place of the exponential that satisfy the stated inequalities", "why_tests_cant": "a test sees finitely many draws and timesteps; that the deviation never accumulates is a statement about all of them", "anchors": ["demos/perturbation_demo/perturbation_demo.py", "netomaton/evolution.py:evolve"]}
{"id": "C109", "title": "The boids of the flocking demo are a hierarchy: who watches whom, which edges pile up, how fast they fly, and that the walls do not hold them", "statement": "For any type of boid state, any visibility test, any rule that returns a state from the state of the boid and of its neighbours, any number of boids >= 1 and any number of timesteps: evolve with the topology rule and the activity rule of the demo returns a trajectory in which, after every step, the neighbours of boid j are exactly the boids i < j that j saw in the states before the step, first those it keeps watching in the old order, then those that have come into view in increasing order; the new state of j is the rule on its state and theirs; from i to j > i there are as many parallel edges as there have been consecutive steps at which they saw each other, and there are no other edges. Hence two runs that agree on the first boids agree on them for ever, whatever the other boids are and however many there are; that boids in sight watch each other is refuted. Over the real numbers, with 0 < min_speed <= max_speed: the activity rule is the sum of the velocity, the pull to the mean position and mean velocity of the neighbours outside the protected range, the push away from those inside it, and the push of the walls, scaled to a speed between the limits, and it has a result unless that sum is zero; so from the first step on every speed is between the limits and every boid moves by its velocity. With the parameters of the demo, boid 0 starting with vy = 0 < vx, 50 <= y <= 450 and x <= 450 moves right by at least 3 at every step for ever, whatever the other boids do; so the walls do not confine the boids (refuted).", "quantifier": "all visibility tests, rules, numbers of boids, initial states and numbers of timesteps; all real parameters with 0 < min_speed <= max_speed for the rule", "why_tests_cant": "a test runs one seeded flock for finitely many steps; it cannot show that boids never influence those before them, that edges pile up without bound, or that a boid never comes back", "anchors": ["demos/flocking/flocking_demo.py", "netomaton/evolution.py:evolve", "netomaton/state.py:Network.add_edge", "netomaton/state.py:Network.remove_edge"]}
{"id": "C110", "title": "The restricted Boltzmann machine demo is alternating sampling from the conditional distributions of a Boltzmann distribution, which that sampling leaves unchanged", "statement": "Over the real numbers, for tables of weights and biases of any matching sizes >= 1, any order in which Python iterates over the two sets of labels, any numbers drawn by the generator and any number of timesteps >= 1: reading the tables, building the bipartite network and running evolve succeeds; the state after k steps is that of the machine which at odd timesteps replaces each hidden unit, at even timesteps each visible unit, by the next draw with the probability that this unit is on given the other layer, under the distribution proportional to exp(b.v + c.h + h.W.v); the other layer and all biases stay as they are; the j-th draw of a timestep belongs to the j-th label in the order of the set; the visible row extracted for the animation is the visible layer; and the number of draws is as counted. That conditional probability is the sigmoid of the bias plus the weighted sum, strictly between 0 and 1. Redrawing a layer independently with these probabilities leaves the distribution unchanged, for each layer; the distribution and both transition kernels are positive and sum to 1. If the generator returns zeros and ones every state is one of the states of the distribution.", "quantifier": "all sizes >= 1, real weights and biases, set orders, generator results, timesteps", "why_tests_cant": "a test runs one seeded generator on one trained machine and looks at pictures; it cannot sum over 2^784 states or show that the sampling is from the right distribution for every machine", "anchors": ["demos/restricted_boltzmann_machine/rbm_demo.py", "netomaton/topology/networks.py:bipartite", "netomaton/evolution.py:evolve"]}
{"id": "C111", "title": "No rule number classifies the density of every initial condition in the density classification demo", "statement": "For every ring size n >= 3, radius r >= 0 with 2r+1 <= n, rule number N below 2^(2^(2r+1)), initial zeros and ones and number of timesteps T >= 1, the script of the density classification demo succeeds, and the activities after k steps are k applications of the map that replaces each cell by the entry of N for its window of 2r+1 cells, as zeros and ones. If N maps the window of zeros to 0 (of ones to 1) the row of zeros (of ones) stays. But for every r, every odd n = 2m+1 with m >= max(1, 2r(2r+3)), every rule number and every number of timesteps there are initial conditions for which some cell of the last state is not in the state of the initial majority: no rule number is a perfect classifier. For the demo itself (149 cells, radius 3, 149 timesteps, rule 6667021275756174439087127638698866559) the row that alternates between 1 and 0 has 75 ones and ends as the row of zeros.", "quantifier": "all ring sizes, radii, rule numbers (2^128 of them for the demo), initial conditions and numbers of timesteps within the stated bounds", "why_tests_cant": "there are 2^128 rules of radius 3 and 2^149 initial conditions; a test samples a few, and the demo is run on one random row", "anchors": ["demos/ca_density_classification/ca_density_classification_demo.py", "netomaton/rules/activity_rule.py:binary_ca_rule", "netomaton/topology/networks.py:cellular_automaton"]}
{"id": "C112", "title": "The small-world density classification demo is voting on an undirected network, which settles but does not always find the majority", "statement": "For all 2 <= k < n, random numbers of the generator for which the graph is built, initial zeros and ones, results of np.random.choice and numbers of timesteps >= 1, the script of the small-world density classification demo succeeds. Its network is undirected, without multiple links, with n * (k // 2) links and no isolated node. In every timestep each node takes the state of the majority of its neighbours, and the state of some neighbour when they are tied. Unanimity stays, whatever is drawn. On every undirected network, and however long the run: the number of times that a node, without a tie among its neighbours, is in another state than two timesteps before is at most the number of links (596 for the demo). If all degrees are odd there are no ties, and from half of (the sum of the degrees minus the number of nodes) on every state is that of two timesteps before; so on a ring of n cells with radius r majority_rule reaches a cycle of length at most 2 after at most n * r timesteps. The demo does not always find the majority: with its sizes (149, 8) there are outcomes of the rewiring and initial conditions with 75 zeros and 74 ones that never change.", "quantifier": "all sizes, random outcomes of the rewiring and of the ties, initial conditions and numbers of timesteps; all undirected networks", "why_tests_cant": "a test runs a few random graphs for 149 timesteps; it cannot bound the number of changes over all graphs, draws and lengths of run, nor meet the rewiring that separates the nodes", "anchors": ["demos/small_world_density_classification/small_world_density_classification_demo.py", "netomaton/rules/activity_rule.py:majority_rule", "netomaton/topology/networks.py:watts_strogatz_graph", "netomaton/evolution.py:evolve"]}
{"id": "C113", "title": "The L-system demos draw the word that is rewritten timesteps - 1 times; numbers of letters; the tree is symmetric", "statement": "For every L-system with rules and constants of one character, every axiom and every number of timesteps T >= 1: if every letter that occurs has a rule or is a constant, the script (SubstitutionSystem, evolve, plot_L_system or animate_L_system of trajectory[-1]) renders the word that arises from the axiom by T - 1 parallel rewritings, in which constants stay; it raises TypeError if this word is empty; a letter without rule before the last word raises KeyError. After n rewritings the Koch demo has 5^n F, the Sierpinski demo 3^n F and 2*3^n G, the Moore demo 4^(n+1) - 1 F, the tree 2^n zeros and n*2^(n-1) ones, the plant 4^n X and 3*(4^n - 2^n)/2 F, for every n. The tree demo succeeds for every T with an empty stack and draws a trunk of 2^n lines and two trees of the generation before, at its tip, turned by 45 degrees to the left and to the right; its (T+1)*2^(T-2) lines are, as a whole, their own mirror image at the vertical axis. The plant demo succeeds for every T with an empty stack and draws a stem and four plants of the generation before.", "quantifier": "all context-free systems, axioms and numbers of timesteps; for the demos all numbers of timesteps", "why_tests_cant": "a test compares one picture or word of a few generations; it cannot cover all systems and numbers of rewritings nor the self-similarity", "anchors": ["demos/lindenmayer_systems/fractal_tree_demo.py", "demos/lindenmayer_systems/fractal_plant_demo.py", "demos/lindenmayer_systems/koch_curve_demo.py", "demos/lindenmayer_systems/sierpinski_triangle_demo.py", "demos/lindenmayer_systems/moore_curve_demo.py", "netomaton/substitution_system.py", "netomaton/utils.py:_render_L_system", "netomaton/utils.py:plot_L_system", "netomaton/turtle.py:Turtle", "netomaton/evolution.py:evolve"]}
{"id": "C114", "title": "The Koch demo draws different lattice segments in a triangle; the Sierpinski demo draws each side of the Sierpinski triangles once", "statement": "For every number of timesteps T >= 1 the Koch script succeeds and draws 5^(T-1) unit segments of the square lattice, no two of them equal, also when direction is ignored; they lie in the triangle 0 <= y <= min(x, 3^(T-1) - x), and the turtle ends at (3^(T-1), 0) heading as at the start, with an empty stack. The Sierpinski script succeeds, the turtle returns to its start, and the lines that it draws are, each exactly once and never also backwards, the three sides of the 3^(T-1) unit triangles at the positions (i, j) with 0 <= i, j, i + j < 2^(T-1) such that i and j have no common binary digit one.", "quantifier": "all numbers of timesteps", "why_tests_cant": "a picture of one generation does not show that no line is drawn twice, nor that the pattern is the same for all generations", "anchors": ["demos/lindenmayer_systems/koch_curve_demo.py", "demos/lindenmayer_systems/sierpinski_triangle_demo.py", "netomaton/substitution_system.py", "netomaton/utils.py:_render_L_system", "netomaton/turtle.py:Turtle"]}
{"id": "C115", "title": "The Moore demo visits every point of a square exactly once and ends next to its start", "statement": "For every number of timesteps T >= 1 the Moore script succeeds with an empty stack. The points at which the turtle has been are exactly the lattice points with -2^(T-1) < x <= 2^(T-1) and 0 <= y < 2^T, each exactly once; consecutive ones have distance one; the first is (0, 0) and the last (1, 0), so the curve could be closed by one more step.", "quantifier": "all numbers of timesteps", "why_tests_cant": "a picture shows one size; that the curve fills the square without touching a point twice is shown for all sizes only by induction", "anchors": ["demos/lindenmayer_systems/moore_curve_demo.py", "netomaton/substitution_system.py", "netomaton/utils.py:_render_L_system", "netomaton/turtle.py:Turtle"]}
{"id": "C116", "title": "The substitution system demos: Thue-Morse, Fibonacci, a repetition, two exclusive-or words, and exponential growth", "statement": "For every number of timesteps T >= 1 each script succeeds; its padded picture has T rows, filled with zeros to the longest. Demo 1: row t lists, for i from 0 to 2^t - 1, 1 if the number of binary ones of i is odd and 2 otherwise. Demo 2: rows 0 and 1 are 1 and 12, each further row is the two before it one after the other, and row t has fib(t + 2) letters. Demos 3 and 6: after 1221, row 2k + 1 is 2 (112)^k 1221 and row 2k + 2 is 12 (112)^k 1221. Demo 4: row t is a word over 1 and 3 followed by 221, 222, 212, 223 or 211 according to t mod 5; the word before is mapped to 1 where neighbours are equal and 3 where they differ (3 beyond its end), with another 1 appended if t mod 5 is 0, 1 or 3; rows grow by three letters in every five timesteps. Demo 5: after 1232 the rows are 12 x 12, where x becomes 3 where neighbours are equal and 1 where they differ (1 beyond its end), with another 3 in front exactly if x is empty or starts with 1; a row never gets shorter, grows by at most one in two timesteps, and a row of n letters has grown at most n - 2 timesteps later. Demo 7: row 7 + 4q has at least 75 * 11^q letters, for every q.", "quantifier": "all numbers of timesteps (and all larger fuels)", "why_tests_cant": "a test compares the rows of one run; the closed forms and growth rates are statements about all rows", "anchors": ["demos/substitution_systems/substitution_system_demo1.py", "demos/substitution_systems/substitution_system_demo2.py", "demos/substitution_systems/substitution_system_demo3.py", "demos/substitution_systems/substitution_system_demo4.py", "demos/substitution_systems/substitution_system_demo5.py", "demos/substitution_systems/substitution_system_demo6.py", "demos/substitution_systems/substitution_system_demo7.py", "netomaton/substitution_system.py", "netomaton/evolution.py:evolve"]}
{"id": "C117", "title": "The two-state Turing machine demo repeats eight steps and moves two cells to the right each time", "statement": "For every circular tape of n >= 3 cells that are off, every head position p and every step t, the machine of the demos, started in the state up, is never without a rule, and at step 8k + j its head state, its head position relative to p + 2k and the cells that are on relative to p + 2k are those of a fixed table of eight phases (positions modulo n). In particular after 8k steps the tape is empty and the head is on cell p + 2k in the state up, never more than three cells are on, and after 8n steps everything is as at the start. For every number of timesteps, the tapes and head annotations that the tape-centric and the head-centric script plot are these. On two cells this is false.", "quantifier": "all lengths n >= 3, all head positions, all numbers of timesteps", "why_tests_cant": "the demos show 61 steps on 21 cells, before the head reaches the end of the tape; the statement covers all lengths, also when the pattern goes around the tape, and all times", "anchors": ["demos/turing_machine/turing_machine_demo1.py", "demos/turing_machine/turing_machine_demo2.py", "netomaton/turing_machine.py:HeadCentricTuringMachine", "netomaton/turing_machine.py:TapeCentricTuringMachine", "netomaton/evolution.py:evolve"]}
{"id": "C118", "title": "Rule 30 from one black cell: the demo shows the infinite line, its diagonals repeat, and at most one of its columns does", "statement": "For every rule number below 256 and every place of the one black cell on a ring of at least three cells, the elementary automaton script returns the iterates of the global map of the rule, with and without memoize. For rule 30, as long as the number of timesteps exceeds neither the number of white cells on the left nor that on the right by more than one, every row is the row of rule 30 on the infinite line; with one timestep more on the shorter side this is false. On the line both edges of the triangle are black and everything outside is white. For every k the diagonal k places inside the right edge repeats from the start with period 2^k, and the diagonal k places inside the left edge repeats with period 2^k from some time on. No two different columns both become periodic.", "quantifier": "all rule numbers below 256, all sizes, all numbers of timesteps, with and without memoize; all diagonals, all pairs of columns", "why_tests_cant": "the demos show 100 steps; that diagonals repeat forever and that two columns never both become periodic are statements about infinitely many steps which no run can observe", "anchors": ["demos/elementary_ca/elementary_ca_demo.py", "demos/animation_demo/animation_demo.py", "netomaton/rules/activity_rule.py:nks_ca_rule", "netomaton/evolution.py:evolve", "netomaton/topology/networks.py:cellular_automaton"]}
{"id": "C119", "title": "The Collatz demos with Python's numbers: exact below 2^53, bounded, and always periodic in the end", "statement": "The Collatz rule divides with /, so that its numbers are floats after the first even one. For every start n with |3n + 1| < 2^1024 no step raises and every number of the run has an absolute value of at most max(|3n + 1|, 2^57), so that the numbers repeat from some time on. If the true Collatz numbers after the first one are below 2^53 in absolute value, the run shows them, and after the first 1 it shows 4, 2, 1 for ever; without this condition a number shown can be wrong. The demo with an input function, started with n >= 0, either stops at the first 1 that was computed, or never stops and repeats a cycle without a 1. Both demos plot the binary digits of the numbers computed, in rows of one length; for n < 0 the plot raises ValueError.", "quantifier": "all integers n with |3n + 1| < 2^1024, all numbers of timesteps", "why_tests_cant": "the demos start at 222 and 4103453, far below 2^53; where floats begin to differ, and that they can never run away, is not visible in any run", "anchors": ["demos/collatz_conjecture/collatz_conjecture_demo.py", "demos/collatz_conjecture/collatz_conjecture_demo2.py", "netomaton/utils.py:binarize_for_plotting", "netomaton/evolution.py:evolve"]}
{"id": "C120", "title": "The sandpile demo: the order of the topplings and the time of the drop do not matter in the end", "statement": "Topple cells of the sandpile one at a time, always one that has at least 4 grains: if two such sequences bring the same grains to rest, they topple each cell equally often and end in the same configuration, and no sequence of allowed topplings is longer. A timestep of the rule is such a sequence that topples each overfull cell once. The script's trajectory has T states, each the parallel toppling of the one before plus the dropped grain. If the grains can be brought to rest at all, with m topplings, then the script has them at rest m timesteps after the drop, in that configuration; the final configuration does not depend on the timestep (from 1 on) at which the grain is dropped. A closed pile comes to rest within a time computed from its size and grains; a grain dropped on its border is gone one timestep later and changes nothing else. The 110 timesteps of the script need not be enough: with 4 grains on every cell, none of its 110 states is at rest, and in general none of the T states of an n x n pile with 16(T - 2) + 2 < (n - 1)^2.", "quantifier": "all grid sizes of at least nine cells, closed and periodic boundaries, all initial grains, all cells and times of the drop, all sequences of topplings", "why_tests_cant": "that all orders agree is a statement about all sequences; whether a pile is at rest at the end of a run depends on its random start", "anchors": ["demos/sandpiles/sandpile_demo.py", "netomaton/sandpile.py", "netomaton/evolution.py:evolve"]}
{"id": "C121", "title": "The hexagonal automaton demo draws a snowflake whose sides are rows of Pascal's triangle", "statement": "On the infinite hexagonal plane, where a cell is born when exactly one of its six neighbours is alive and never dies, the cells grown from one cell are alive at time t only within the hexagon of radius t, have the six rotations and the mirror images of the hexagon as symmetries, and a dead cell with two live neighbours stays dead. Each of the six sides of the hexagon of radius t shows row t of Pascal's triangle modulo 2: at time 2^k - 1 the whole boundary is alive, at time 2^k only its six corners. On a grid with an even number (at least 4) of rows and at least 3 columns, the script's trajectory has T states, and they are the states of the automaton on the plane started from the periodic copies of the centre cell: every cell of the grid has a place on the plane and two places are the same cell exactly if they differ by a period. While 2k is less than both sides of the grid, the k-th state is the snowflake and nothing else. Cells that are on stay on, and from state rows*cols on the grid is at rest. On a grid with 2m columns and at least as many rows, the cell where the tips meet stays off for ever, though the snowflake on the plane has it on at time m: in the script (60 x 60, 31 timesteps) this is the last state.", "quantifier": "all numbers of timesteps, all cells, all grids with an even number of rows >= 4 and >= 3 columns, all powers of two", "why_tests_cant": "a test compares a few states on one grid with recorded pictures; the shape of the boundary at all times, the symmetries and when the torus first disturbs the picture are statements about all times and sizes", "anchors": ["demos/hexagonal_ca/hexagonal_ca_demo.py", "netomaton/topology/networks.py", "netomaton/topology/adjacency.py", "netomaton/evolution.py:evolve"]}
{"id": "C122", "title": "The Wireworld demos: diodes conduct in one direction only, and the XOR gate computes exclusive or", "statement": "On any network, a train of electrons goes round for ever on a closed wire, however wide it is in places, if every cell of the wire has one or two wire cells behind it; if the cells at one place of the wire have none or at least three behind them (and no electron head is there at the start), the electrons stop there and the wire is empty of electrons after at most as many timesteps as it has places. On every rolled-up grid (at least 3 x 3), the diode of the demo conducts a train in its direction for ever and stops every train in the other direction. The XOR gate of the demo, anywhere on such a grid: if the two input cells show two streams of bits (one bit every six timesteps), the output cell shows their exclusive or, ten timesteps later, for all streams and all times. In the scripts: in wireworld_diodes_demo.py the electron on the upper wire goes round once every 14 timesteps for ever, the one on the lower wire is gone from timestep 8 on, and all other cells stay empty; in wireworld_xor_demo.py the inputs show the streams 101101... and 110110..., the output 011011... for ever, and the whole board has period 18.", "quantifier": "all networks and all wires on them, all trains of electrons, all rolled-up grids of at least 3 x 3 cells, all places of the diodes and the gate, all pairs of streams of bits, all numbers of timesteps", "why_tests_cant": "a test runs one board for a few timesteps; that a diode stops every train and that the gate computes exclusive or on all streams for ever are statements about infinitely many inputs", "anchors": ["demos/wireworld/wireworld_diodes_demo.py", "demos/wireworld/wireworld_xor_demo.py", "netomaton/rules/activity_rule.py:wireworld_rule", "netomaton/topology/adjacency.py", "netomaton/evolution.py:evolve"]}
{"id": "C123", "title": "Totalistic automata from one cell: symmetric pictures whose sides are one-dimensional automata", "statement": "For every totalistic rule (any number of colours) started from one cell: the picture on the plane has all symmetries of the square, with nine-cell and with five-cell neighbourhoods, and the one on the line is its own mirror image. If the sum 0 gives 0, nothing is outside the square (or diamond, or triangle) of radius t at time t; the sides of the square at time t are row t of the one-dimensional automaton with the same code, and the sides of the diamond row t of the one that looks at two cells; and every diagonal of the one-dimensional picture, counted from either edge, repeats from some time on, with a period of at most k^(d+1) on the d-th. For code 126 (totalistic_2d_demo.py) the border of the square is black at all times; for code 26 (animation_demo.py) the border of the diamond is Pascal's triangle modulo 2, all black at times 2^k - 1 and only the corners at times 2^k; for code 777 with three colours (totalistic_ca_demo.py) the edges are grey and the diagonals beside them alternate between grey and black. On every torus of at least 3 x 3 cells the script's t-th state shows the picture on the plane at all cells at a distance below rows - t and cols - t from the centre, and at all cells while 2t is less than both sides, so in all 30 states of the scripts; on a ring the rows are those of the line until the triangle reaches both ends, so in all 100 rows of the script.", "quantifier": "all rules, all numbers of colours, all times, all cells, all diagonals, all sizes of the torus and the ring, all valid codes with 2..36 colours", "why_tests_cant": "a test compares a few states on one grid with recorded ones; the symmetries, the sides and the periods of the diagonals are statements about all rules and all times", "anchors": ["demos/totalistic_ca/totalistic_ca_demo.py", "demos/totalistic_ca2d/totalistic_2d_demo.py", "demos/animation_demo/animation_demo.py", "netomaton/rules/activity_rule.py:totalistic_ca", "netomaton/topology/networks.py", "netomaton/topology/adjacency.py", "netomaton/evolution.py:evolve"]}
{"id": "C124", "title": "The Wolfram physics demo grows by exactly one event per timestep and stays connected", "statement": "With the rules and the configuration of wolfram_physics_demo.py every timestep is exactly one event: the only loop (1, 1, b) and one relation (x, y, 1) give way to (1, 1, y), (n + 1, y, x) and (b, n + 1, 1) with the new node n + 1, and no other relation changes, although the code scans until the list of relations is used up and reads the relations back in the order of their labels as strings. So state i of the trajectory shows i + 2 relations of three nodes each, on exactly the nodes 1 .. i + 1, every node is joined to node 1 by a chain of relations, and from i = 1 on there is exactly one loop, at node 1. The run never stops and never fails, for any number of timesteps; the 198 timesteps of the script end in 199 relations on 198 nodes.", "quantifier": "all numbers of timesteps, all states, all orders in which the relations are read back", "why_tests_cant": "a test compares one recorded run; that exactly one match is found at each timestep, whatever the order of the relations, is a statement about all configurations the run can reach", "anchors": ["demos/wolfram_physics/wolfram_physics_demo.py", "netomaton/wolfram_physics_model.py:topology_rule", "netomaton/wolfram_physics_model.py:_matches", "netomaton/wolfram_physics_model.py:network_to_config", "netomaton/evolution.py:evolve"]}
{"id": "C125", "title": "Langton's loop reproduces itself; loops far enough apart do not disturb each other; when the demo fails", "statement": "Starting from one loop on an empty plane, the rule table of langtons_loop.py (closed under quarter turns) determines the first 436 steps, and they stay in a rectangle of 36 by 58 cells (15 by 26 for the first 151 steps). For 151 <= t <= 436 state t is, cell by cell, the sum of state t - 151 moved eleven columns to the right and of state t - 147 turned anti-clockwise: a copy of the loop and the old loop, turned and younger. On every torus that is large enough for the rectangles, evolve with LangtonsLoop and init_loops runs, for any number of loops whose rectangles do not overlap, and shows exactly these loops side by side at every timestep. The script langtons_loops_demo.py (75 by 75 cells, loop at row 40, column 25) runs for every number of timesteps up to 507, shows the loop of the plane in states 0 .. 436, and raises 'neighbourhood state not in rule table' for 508 timesteps or more; its own 500 timesteps succeed.", "quantifier": "all cells of the plane, all t up to 436, all sizes of the torus, all numbers and positions of loops, all numbers of timesteps of the script", "why_tests_cant": "a test runs one torus with one loop; that loops do not disturb each other on any torus, and that the copy is exact on the whole infinite plane, are statements about all of them", "anchors": ["demos/langtons_loops/langtons_loops_demo.py", "netomaton/langtons_loop.py:LangtonsLoop", "netomaton/langtons_loop.py:init_loops", "netomaton/ctrbl_rule.py:activity_rule", "netomaton/evolution.py:evolve"]}
{"id": "C126", "title": "The Hopfield net recalls a stored pattern whatever the shuffles; exactly from which starts; the demo's digits", "statement": "Let a Hopfield net be trained on bipolar patterns and run by evolve under its randomised asynchronous rule. Call a start secure for the pattern p if, at every node, the pull of p towards its own value exceeds twice the sum of the positive pulls of the nodes that start wrong (a tie being allowed only where p is 1). From a secure start, for every outcome of the shuffles, a node keeps its start value until its first turn and has its value in p from then on; so the net shows p exactly when every wrong node has had a turn. The condition cannot be weakened: from a start that is not secure some outcome of the shuffles moves a node away from p. Starts with h wrong nodes are secure when (number of patterns) + (sum of the absolute overlaps of p with the other patterns) + 2 h (number of patterns) < n. In hopfield_net_demo.py each half digit is secure for its digit; the digit zero is recalled from every start with at most 4 wrong cells, one and two from every start with at most 3. It is false that the script's 7 n timesteps update every node: a step k applies entry k mod n of a fresh shuffle, and some outcome of the shuffles leaves half_two unchanged for ever.", "quantifier": "all sizes, all lists of bipolar patterns, all starts, all outcomes of the shuffles, all numbers of timesteps", "why_tests_cant": "a test sees one sequence of random shuffles and one start; the number of outcomes is (n!)^timesteps", "anchors": ["demos/hopfield_net/hopfield_net_demo.py", "netomaton/hopfield_net.py:HopfieldNet", "netomaton/asynchronous_rule.py:AsynchronousRule", "netomaton/evolution.py:evolve"]}
{"id": "C127", "title": "Automata with random tables: light cone, mirror images, and how near the walk-through comes to the values it asks for", "statement": "For every outcome of the random draws, rule_table_demo.py runs to the end and plots the automaton of a table that maps every uniform neighbourhood to itself and does not tell left from right: a background of zeros stays zero at every cell that is further than r t cells from the random block, a uniform row stays for ever, and the mirror image of a start gives the mirror image of the picture. For every outcome of the draws, rule_table_walkthrough_demo.py runs to the end, and each of its pictures belongs to a complete, strongly quiescent table whose lambda is the one printed. With exact fractions the printed value differs by less than 1 / k^(2r+1) from the one asked for, if that lies between (k-1) / k^(2r+1) and 1 - 1 / k^(2r+1), as 0.15, 0.37 and 0.75 do. It is false that the tables of the walk-through stay isotropic: the script does not pass isotropic to table_walk_through.", "quantifier": "all outcomes of the draws, all numbers of states up to 10, all radii, sizes, numbers of timesteps and lists of values of lambda", "why_tests_cant": "the scripts are random: a test sees one table and one start out of 4^1024 and 4^128", "anchors": ["demos/langtons_lambda/rule_table_demo.py", "demos/langtons_lambda/rule_table_walkthrough_demo.py", "netomaton/rule_tables.py:random_rule_table", "netomaton/rule_tables.py:table_walk_through", "netomaton/rule_tables.py:table_rule", "netomaton/evolution.py:init_random"]}
{"id": "C128", "title": "The average entropy and mutual information that the demos print", "statement": "For every outcome of the random start, every elementary rule, every ring of at least 3 cells and every positive number of timesteps, average_node_entropy_demo.py and average_mutual_information_demo.py do not fail and print a number between 0 and 1; the entropy is 0 exactly when no cell ever changes. The script's comment that the value will be about 0.999 does not hold for every start: the draws that give no live cell print 0.", "quantifier": "all outcomes of the draws, all rules, sizes and numbers of timesteps", "why_tests_cant": "a test sees one random start out of 2^200", "anchors": ["demos/langtons_lambda/average_node_entropy_demo.py", "demos/langtons_lambda/average_mutual_information_demo.py", "netomaton/analysis.py:average_node_entropy", "netomaton/analysis.py:average_mutual_information", "netomaton/evolution.py:init_random"]}
{"id": "C129", "title": "A fungal colony that starts from one agent", "statement": "Start the fungal growth model with one agent p that has an amount a > 0, nothing elsewhere, the default resource layer and a rate R_E >= 0. Whatever the random draws and the order of the set of links are: after k timesteps only agents within k lattice steps of p are alive; as long as no link leads to p it has exactly a + k R_E; and all agents together have at most (k + 1) a + k (k + 1) / 2 R_E. So fungal_growth_demo.py does not fail for any width, height, number of timesteps and whole rate R_E > 0: the first agent stays alive, after k timesteps only agents within k steps of it are alive, all together have at most (k + 1)(k + 2) / 2 R_E, and with persist_network False no network is kept after the first. The total is not conserved when nothing is absorbed (R_E = 0): the first agent keeps what it sends.", "quantifier": "all grids, positions, amounts, rates R_E >= 0, orders of the links, random draws and timesteps", "why_tests_cant": "the draws and the order of the set of links decide which links grow", "anchors": ["netomaton/fungal_growth_model.py:FungalGrowthModel.topology_rule", "netomaton/fungal_growth_model.py:FungalGrowthModel.activity_rule", "demos/fungal_growth/fungal_growth_demo.py"]}
