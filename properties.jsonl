{"id": "C01", "title": "dp.shortest_path returns the cheapest state sequence", "statement": "shortest_path(Q, cost_function) returns success=True and a length that is not larger than the accumulated cost of any other choice of one state per stage, with costs accumulated exactly in the order the code adds them (so also under rounded float addition).", "quantifier": "every list of two or more non-empty stages, every cost function returning a matrix of the right shape, every alternative state sequence, every cost arithmetic with a total preorder and monotone addition (exact reals, float32/float64 rounding, with infinity)", "why_tests_cant": "the number of alternative sequences is the product of the stage sizes; tests compare against one hand-computed table", "anchors": ["acrobotics/dp.py:shortest_path", "acrobotics/dp.py:calculate_value_function", "acrobotics/dp.py:apply_cost_function"]}
{"id": "C02", "title": "dp.shortest_path: the returned path realises the returned length", "statement": "The returned path contains exactly one state of every stage, in stage order, and its accumulated cost equals the returned length.", "quantifier": "every list of two or more non-empty stages and every well-shaped cost function", "why_tests_cant": "requires agreement of the value recursion and the index trace at every stage and state", "anchors": ["acrobotics/dp.py:extract_shortest_path", "acrobotics/dp.py:shortest_path"]}
{"id": "C03", "title": "dp.shortest_path breaks ties towards the first index", "statement": "Among all state sequences that are optimal from every stage on, the returned one is the lexicographically smallest in sample indices; with exact addition and finite costs that is every optimal sequence.", "quantifier": "every input as in C01 with any pattern of equal costs, every alternative sequence", "why_tests_cant": "ties can occur between any subset of exponentially many paths", "anchors": ["acrobotics/dp.py:extract_shortest_path", "acrobotics/dp.py:calculate_value_function"]}
{"id": "C04", "title": "dp.calculate_value_function computes the cost-to-go of every state", "statement": "V[i][j] is the minimum accumulated cost of continuing from state j of stage i to the last stage, for every stage and state, and V of the last stage is zero.", "quantifier": "every non-empty list of chained transition cost matrices with non-empty stages, every stage and state", "why_tests_cant": "all stages/states/paths", "anchors": ["acrobotics/dp.py:calculate_value_function"]}
{"id": "C05", "title": "dp.shortest_path rejects a problem with fewer than two stages, or an empty stage, with an exception", "statement": "With zero or one stage shortest_path raises IndexError; with an empty stage it raises ValueError; it never silently returns a result for such inputs.", "quantifier": "every list of at most one stage; every list of two or more stages with an empty one", "why_tests_cant": "position of the empty stage is unbounded", "anchors": ["acrobotics/dp.py:shortest_path", "acrobotics/dp.py:calculate_value_function"]}
{"id": "C06", "title": "pygraph.get_shortest_path returns a minimum-cost path", "statement": "When get_shortest_path(data) reports success, total_cost is not larger than the accumulated cost of any path taking one sample of every column.", "quantifier": "every data list, every cost arithmetic/function, every alternative path", "why_tests_cant": "product of column sizes many alternatives, queue order dependent bookkeeping", "anchors": ["acrobotics/pygraph.py:get_shortest_path", "acrobotics/pygraph.py:Graph.run_multi_source_bfs", "acrobotics/pygraph.py:Graph.get_path"]}
{"id": "C07", "title": "pygraph.get_shortest_path: path and cost agree", "statement": "On success the path holds exactly one sample of every column in column order and its accumulated cost equals total_cost.", "quantifier": "every data list", "why_tests_cant": "parent pointers are rewritten while the search runs", "anchors": ["acrobotics/pygraph.py:get_shortest_path", "acrobotics/pygraph.py:path_index_to_path"]}
{"id": "C08", "title": "pygraph.get_shortest_path fails exactly when no finite-cost path exists", "statement": "It returns success=False if and only if there is no path of cost below infinity (in particular whenever a column is empty), and never raises for a non-empty list of columns.", "quantifier": "every non-empty data list", "why_tests_cant": "needs reachability of every node", "anchors": ["acrobotics/pygraph.py:get_shortest_path", "acrobotics/pygraph.py:Graph.get_path"]}
{"id": "C09", "title": "pygraph step limit is respected and optimal", "statement": "get_shortest_partial_path(data, m) with success returns a path whose every step costs strictly less than m, and no path with that property is cheaper.", "quantifier": "every data list and limit m", "why_tests_cant": "all restricted paths", "anchors": ["acrobotics/pygraph.py:get_shortest_partial_path", "acrobotics/pygraph.py:Graph.get_reachable_neighbours"]}
{"id": "C10", "title": "pygraph partial path reaches the furthest reachable column", "statement": "When no complete step-limited path exists, get_shortest_partial_path returns the index i of the furthest column reachable by step-limited paths (i >= 1), with an optimal step-limited path to that column, or the info 'Stuck after first trajectory point' when not even column 1 is reachable.", "quantifier": "every non-empty data list and limit m", "why_tests_cant": "reachability for every prefix", "anchors": ["acrobotics/pygraph.py:get_shortest_partial_path", "acrobotics/pygraph.py:Graph.find_partial_path"]}
{"id": "C11", "title": "pygraph search terminates and expands each node at most once", "statement": "run_multi_source_bfs finishes after at most (number of samples) queue removals, for any graph and limit.", "quantifier": "every node array, limit and start column", "why_tests_cant": "termination for all sizes", "anchors": ["acrobotics/pygraph.py:Graph.run_multi_source_bfs"]}
{"id": "C12", "title": "pygraph Graph objects can be reused", "statement": "Running run_multi_source_bfs again on the same Graph, whatever was run before (other limits, other start columns), gives the node distances, parents and path a fresh Graph gives.", "quantifier": "every history of runs", "why_tests_cant": "histories are unbounded", "anchors": ["acrobotics/pygraph.py:Graph.reset", "acrobotics/pygraph.py:Graph.run_multi_source_bfs"]}
{"id": "C13", "title": "pygraph.get_shortest_path_segments returns for every input", "statement": "get_shortest_path_segments(data, m) returns a result dictionary for every data list and limit.", "quantifier": "every data list and limit", "why_tests_cant": "non-termination and index errors only show on particular shapes", "anchors": ["acrobotics/pygraph.py:get_shortest_path_segments"]}
{"id": "C14", "title": "pygraph.get_shortest_path_segments: single path case equals the step-limited optimum", "statement": "If at least three columns are given and a complete step-limited path exists, the result is success=True, single_path=True with exactly the path and cost of get_shortest_partial_path.", "quantifier": "every data list of at least three columns and limit with a feasible path", "why_tests_cant": "all data", "anchors": ["acrobotics/pygraph.py:get_shortest_path_segments"]}
{"id": "C15", "title": "graph.Graph BFS search is optimal", "statement": "After add_data_column for non-empty columns, init and run_bfs, the path returned by get_path has minimal accumulated cost (weighted squared joint difference as coded) over all choices of one row per column.", "quantifier": "every list of non-empty columns, weights, and every alternative path; any monotone cost arithmetic incl. float32 rounding", "why_tests_cant": "product of column sizes alternatives", "anchors": ["acrobotics/cpp/src/graph.cpp:Graph::multi_source_bfs", "acrobotics/cpp/src/graph.cpp:Graph::get_path_nodes"]}
{"id": "C16", "title": "graph.Graph get_path returns one valid row index per column", "statement": "After init and run_bfs or run_dijkstra on non-empty columns with finite costs, get_path(n) with n = number of columns yields n indices, the k-th smaller than the number of rows of column k.", "quantifier": "every list of non-empty columns, both search methods, every heap behaviour", "why_tests_cant": "parent chain must step back one column at a time from any goal", "anchors": ["acrobotics/cpp/src/graph.cpp:Graph::get_path", "acrobotics/cpp/src/graph.cpp:Graph::get_path_nodes"]}
{"id": "C17", "title": "graph.Graph get_path_cost is the cost of the returned path", "statement": "get_path_cost() equals the accumulated cost of the rows returned by get_path, for both search methods.", "quantifier": "every list of non-empty columns, both methods", "why_tests_cant": "stale distances could make them differ", "anchors": ["acrobotics/cpp/src/graph.cpp:Graph::get_path_cost", "acrobotics/cpp/src/graph.cpp:Graph::run_dijkstra"]}
{"id": "C18", "title": "graph.Graph Dijkstra search is optimal", "statement": "run_dijkstra returns a path of minimal accumulated cost (the claim of get_shortest_path(method='dijkstra') and of PlanningTask.solve).", "quantifier": "every list of non-empty columns", "why_tests_cant": "the std::priority_queue holds pointers whose keys change after insertion; wrong answers need particular key-change patterns", "anchors": ["acrobotics/cpp/src/graph.cpp:Graph::multi_source_dijkstra", "acrobotics/cpp/include/graph.h:dijkstraSortFunction", "acrobotics/planning.py:get_shortest_path"]}
{"id": "C19", "title": "graph.Graph Dijkstra would be optimal with a queue that always pops a minimum", "statement": "With any priority queue whose pop returns an entry of minimal current distance, the Dijkstra loop (including its early stop when all goals are popped) returns a minimum-cost path for non-negative costs.", "quantifier": "every graph, every pop policy that returns a current minimum", "why_tests_cant": "all schedules of equal keys", "anchors": ["acrobotics/cpp/src/graph.cpp:Graph::multi_source_dijkstra"]}
{"id": "C20", "title": "graph.Graph searches terminate", "statement": "Both search loops stop after at most (number of rows) pops.", "quantifier": "every node array, any pop order", "why_tests_cant": "termination for all sizes", "anchors": ["acrobotics/cpp/src/graph.cpp:Graph::multi_source_bfs", "acrobotics/cpp/src/graph.cpp:Graph::multi_source_dijkstra"]}
{"id": "C21", "title": "graph.Graph repeated searches are stable", "statement": "Running run_bfs again on the same graph without reset leaves the returned path and cost unchanged.", "quantifier": "every graph and number of repetitions", "why_tests_cant": "histories", "anchors": ["acrobotics/cpp/src/graph.cpp:Graph::run_bfs", "acrobotics/cpp/src/graph.cpp:Graph::reset"]}
{"id": "C22", "title": "graph.Graph reset restores the state after init", "statement": "After any sequence of searches, reset() followed by a search returns the same path and cost as the same search on a freshly initialised graph.", "quantifier": "every history of searches", "why_tests_cant": "histories", "anchors": ["acrobotics/cpp/src/graph.cpp:Graph::reset", "acrobotics/cpp/src/graph.cpp:Graph::reset_node_array"]}
{"id": "C23", "title": "graph.Graph init may be called again", "statement": "Calling init() twice before a search gives the same path as calling it once.", "quantifier": "every graph", "why_tests_cant": "needs the aliasing of the column index and the appended columns", "anchors": ["acrobotics/cpp/src/graph.cpp:Graph::init", "acrobotics/cpp/src/graph.cpp:Graph::graph_data_to_node_array"]}
{"id": "C24", "title": "graph.Graph weights are used exactly when their number matches the joint count", "statement": "After set_weights(w) and init, the cost uses w if len(w) equals the number of joints of the first sample, and unit weights otherwise.", "quantifier": "every weight vector and data", "why_tests_cant": "all lengths", "anchors": ["acrobotics/cpp/src/graph.cpp:Graph::init", "acrobotics/cpp/src/graph.cpp:Graph::set_weights"]}
{"id": "C25", "title": "planning.get_shortest_path returns rows of the given arrays", "statement": "On success with non-empty float32 arrays, path has len(Q) entries, entry k is row p_k of Q[k], and length is the accumulated cost of these rows.", "quantifier": "every list of non-empty arrays, both methods", "why_tests_cant": "all shapes", "anchors": ["acrobotics/planning.py:get_shortest_path", "acrobotics/planning.py:_check_dtype"]}
{"id": "C26", "title": "planning.get_shortest_path reports an unreachable trajectory point as success=False", "statement": "If some entry of Q is empty (a trajectory point without joint solution) the result is {'success': False}.", "quantifier": "every Q with at least one empty entry, at any position", "why_tests_cant": "position of the empty entry", "anchors": ["acrobotics/planning.py:get_shortest_path", "acrobotics/planning.py:_check_dtype"]}
{"id": "C27", "title": "planning.get_shortest_path rejects unknown methods", "statement": "For a method other than 'bfs' or 'dijkstra' and non-empty columns, NotImplementedError is raised and no result is returned.", "quantifier": "every method string and every Q of non-empty float32 arrays", "why_tests_cant": "all strings", "anchors": ["acrobotics/planning.py:get_shortest_path"]}
{"id": "C28", "title": "cart_to_joint_no_redundancy keeps exactly the collision-free IK solutions", "statement": "Entry i of the result is the list, in order, of all joint solutions of all samples of point i that are not in collision; nothing is lost, duplicated or moved to another point.", "quantifier": "every robot (any ik and any stateful collision checker with history independent answers), path and scene", "why_tests_cant": "all sample/solution/collision patterns", "anchors": ["acrobotics/planning.py:cart_to_joint_no_redundancy"]}
{"id": "C29", "title": "cart_to_joint_simple keeps the solutions of all samples", "statement": "Entry i of the result holds the collision-free solutions of every sample of point i and every fixed-joint value.", "quantifier": "every robot, path, scene", "why_tests_cant": "needs more than one sample per point", "anchors": ["acrobotics/planning.py:cart_to_joint_simple"]}
{"id": "C30", "title": "cart_to_joint_incremental stops for every point", "statement": "The sampling loop gives up after max_tries tries, also when no collision-free solution exists.", "quantifier": "every robot, sampler stream", "why_tests_cant": "non-termination", "anchors": ["acrobotics/planning.py:cart_to_joint_incremental"]}
{"id": "C31", "title": "cart_to_joint_incremental yields enough valid solutions when it returns", "statement": "If it returns, every point has at least min(min_samples, max_tries) solutions, all collision-free IK solutions of sampled poses.", "quantifier": "every sampler stream for which it returns", "why_tests_cant": "all random streams", "anchors": ["acrobotics/planning.py:cart_to_joint_incremental"]}
{"id": "C32", "title": "cart_to_joint_iterative: success means every iteration succeeded", "statement": "On success costs, paths and times each have max_iters entries, the returned path and cost are the last ones, and every configuration of each path is the float32 rounding of a collision-free IK solution of a pose sampled for its point (the given point in the first iteration, the pose reached in the previous iteration with halved distance afterwards); {'success': False} is returned only when some point of some iteration had no collision-free solution.", "quantifier": "every number of iterations and sampler stream", "why_tests_cant": "unbounded iterations, random streams", "anchors": ["acrobotics/planning.py:cart_to_joint_iterative"]}
{"id": "C33", "title": "iterative planning accepts every documented path point type", "statement": "SolutionPoint can be constructed for TolPositionPt, AxisAnglePt and FreeOrientationPt points.", "quantifier": "every path point of these classes", "why_tests_cant": "class dispatch on every type", "anchors": ["acrobotics/planning.py:SolutionPoint", "acrobotics/planning.py:resample_trajectory_point"]}
{"id": "C34", "title": "get_new_bounds stays inside the old interval and shrinks it", "statement": "For l <= m <= u and red > 0 the new interval is contained in [l,u], contains m, and is at most 2/red times as wide; iterating k times with red=4 shrinks the width by at least 2^k.", "quantifier": "every l <= m <= u, red > 0, and any sequence of centres", "why_tests_cant": "real-valued inputs, any number of iterations", "anchors": ["acrobotics/planning.py:get_new_bounds"]}
{"id": "C35", "title": "PlanningTask.set_initial_path stores an (N, ndof) array or raises", "statement": "A vector is repeated for every path point, a matrix is accepted only if it has one row per path point, any other rank raises.", "quantifier": "every array rank and shape", "why_tests_cant": "all shapes", "anchors": ["acrobotics/planning.py:PlanningTask.set_initial_path"]}
{"id": "C36", "title": "PlanningTask.solve works without a scene", "statement": "A task created without scene can be solved by every method.", "quantifier": "every method and robot", "why_tests_cant": "all methods", "anchors": ["acrobotics/planning.py:PlanningTask.solve", "acrobotics/planning.py:PlanningTask.__init__"]}
{"id": "C37", "title": "Robot.is_in_collision answers independently of history", "statement": "The answer depends only on (q, scene, robot description), not on which configurations or scenes were checked before.", "quantifier": "every sequence of earlier calls", "why_tests_cant": "the priority list is reordered by every hit", "anchors": ["acrobotics/robot.py:Robot.is_in_collision"]}
{"id": "C38", "title": "Robot.is_in_collision is true exactly when some checked pair collides", "statement": "It returns True iff the base, a link or the tool collides with the scene, or (if self collision is enabled) two links at least three apart, or a link other than the last and the tool, collide.", "quantifier": "every robot, configuration and scene", "why_tests_cant": "all pairs", "anchors": ["acrobotics/robot.py:Robot.is_in_collision", "acrobotics/robot.py:Robot._check_self_collision"]}
{"id": "C39", "title": "collision_priority stays a permutation of the links", "statement": "After any sequence of collision checks the priority list contains every link index exactly once.", "quantifier": "every history", "why_tests_cant": "mutation during iteration", "anchors": ["acrobotics/robot.py:Robot.is_in_collision"]}
{"id": "C40", "title": "Robot.fk does not depend on earlier calls", "statement": "fk(q) gives the same matrix whatever fk/ik/collision calls were made before, although each link caches and returns one mutable matrix.", "quantifier": "every history of calls", "why_tests_cant": "aliasing of cached arrays", "anchors": ["acrobotics/robot.py:Link.get_link_relative_transform", "acrobotics/robot.py:Robot.fk"]}
{"id": "C41", "title": "Robot.fk returns a rigid transform", "statement": "For a rigid base and tool frame, fk(q) has an orthonormal rotation part of determinant one and last row (0,0,0,1), for any number and type of links.", "quantifier": "every robot, joint vector", "why_tests_cant": "real-valued, any number of links", "anchors": ["acrobotics/robot.py:Robot.fk", "acrobotics/robot.py:Link.get_link_relative_transform"]}
{"id": "C42", "title": "Link transform follows the Denavit-Hartenberg convention", "statement": "The relative transform equals Rz(theta) Tz(d) Tx(a) Rx(alpha), with theta = q for revolute and d = q for prismatic joints.", "quantifier": "every DH parameters and joint value", "why_tests_cant": "real-valued", "anchors": ["acrobotics/robot.py:Link.get_link_relative_transform"]}
{"id": "C43", "title": "fk_all_links is consistent with fk", "statement": "fk_all_links has one frame per link, frame i is the base frame times the first i+1 relative transforms, and fk is the last frame times the tool frame.", "quantifier": "every robot with at least one link", "why_tests_cant": "any number of links", "anchors": ["acrobotics/robot.py:Robot.fk_all_links", "acrobotics/robot.py:Robot.fk"]}
{"id": "C44", "title": "symbolic and numeric forward kinematics agree", "statement": "fk_casadi(q) and fk(q) denote the same matrix for every robot.", "quantifier": "every robot, joint vector", "why_tests_cant": "needs prismatic joints", "anchors": ["acrobotics/robot.py:Robot.fk_casadi", "acrobotics/robot.py:Link.get_link_relative_transform_casadi"]}
{"id": "C45", "title": "textbook forward kinematics of the bundled robots", "statement": "fk of PlanarArm, SphericalArm, AnthropomorphicArm, Arm2, SphericalWrist, Kuka and KukaOnRail equals the closed form of the textbook for all joint values and dimensions.", "quantifier": "every joint vector and link dimension", "why_tests_cant": "tests sample five configurations", "anchors": ["acrobotics/resources/robots.py", "acrobotics/robot.py:Robot.fk"]}
{"id": "C46", "title": "AnthropomorphicArm.ik solutions reach the position", "statement": "Whenever ik reports success and the elbow cosine is not snapped, each of the four solutions put the end effector exactly at the requested position.", "quantifier": "every pose and nonzero link lengths a2,a3; base frame at the origin and no tool (with another base every solution is off by exactly the base frame)", "why_tests_cant": "continuum of poses", "anchors": ["acrobotics/resources/robots.py:AnthropomorphicArm.ik"]}
{"id": "C47", "title": "AnthropomorphicArm.ik error in the snapping zone is bounded", "statement": "When the elbow cosine is within 1e-6 of +-1 and is snapped, the position error of every solution is at most a small explicit bound.", "quantifier": "every pose in the tolerance zone; base frame at the origin and no tool", "why_tests_cant": "measure-thin set never hit by random tests", "anchors": ["acrobotics/resources/robots.py:AnthropomorphicArm.ik"]}
{"id": "C48", "title": "AnthropomorphicArm.ik fails only for unreachable positions and finds all solutions", "statement": "If ik reports failure no joint vector reaches the position; for any joint vector reaching a non-singular position, one of the four solutions equals it modulo 2 pi.", "quantifier": "every pose and joint vector; base frame at the origin and no tool", "why_tests_cant": "continuum", "anchors": ["acrobotics/resources/robots.py:AnthropomorphicArm.ik"]}
{"id": "C49", "title": "Arm2.ik solutions reach the position", "statement": "Whenever ik reports success and no snapping occurs, each returned solution puts the end effector exactly at the requested position.", "quantifier": "every pose, a1, a2, a3 with a2*a3 not zero; base frame at the origin and no tool", "why_tests_cant": "continuum", "anchors": ["acrobotics/resources/robots.py:Arm2.ik"]}
{"id": "C50", "title": "Arm2.ik fails only for unreachable positions", "statement": "If ik reports failure then no joint vector puts the end effector at the position.", "quantifier": "every pose; base frame at the origin and no tool", "why_tests_cant": "continuum", "anchors": ["acrobotics/resources/robots.py:Arm2.ik"]}
{"id": "C51", "title": "SphericalWrist.ik solutions reproduce the orientation away from the singularity", "statement": "If the approach axis is not parallel to the base z axis, both solutions reproduce the requested orientation, for any base frame.", "quantifier": "every rotation and base rotation", "why_tests_cant": "continuum", "anchors": ["acrobotics/resources/robots.py:SphericalWrist.ik"]}
{"id": "C52", "title": "SphericalWrist.ik is correct for every orientation it reports success for", "statement": "Every solution returned with success=True reproduces the requested orientation.", "quantifier": "every rotation, including singular ones", "why_tests_cant": "singular set has measure zero", "anchors": ["acrobotics/resources/robots.py:SphericalWrist.ik"]}
{"id": "C53", "title": "Kuka.ik solutions reproduce the pose", "statement": "For rigid T, base and tool, every solution of Kuka.ik reproduces T under fk (arm not snapped, wrist not singular).", "quantifier": "every pose, base, tool, dimensions", "why_tests_cant": "continuum", "anchors": ["acrobotics/resources/robots.py:Kuka.ik"]}
{"id": "C54", "title": "KukaOnRail.ik solutions reproduce the pose", "statement": "For the default dimensions every solution of KukaOnRail.ik(T, q_fixed) starts with q_fixed and reproduces T under fk.", "quantifier": "every pose, rail position, base, tool", "why_tests_cant": "continuum", "anchors": ["acrobotics/resources/robots.py:KukaOnRail.ik"]}
{"id": "C55", "title": "KukaOnRail respects its constructor dimensions in ik", "statement": "The solutions of ik reproduce the pose for any a1,a2,d4,d6 passed to the constructor.", "quantifier": "every dimension", "why_tests_cant": "non-default dimensions", "anchors": ["acrobotics/resources/robots.py:KukaOnRail.__init__"]}
{"id": "C56", "title": "IK solutions respect the default joint limits", "statement": "Every joint value returned by Kuka.ik lies in [-pi, pi] (Robot.joint_limits).", "quantifier": "every pose", "why_tests_cant": "continuum", "anchors": ["acrobotics/resources/robots.py:Kuka.ik", "acrobotics/robot.py:Robot.__init__"]}
{"id": "C57", "title": "results of an ik call are not changed by later calls", "statement": "The solution object returned by ik keeps its values when ik is called again on the same robot.", "quantifier": "every call sequence", "why_tests_cant": "aliasing", "anchors": ["acrobotics/resources/robots.py:SphericalWrist.ik", "acrobotics/resources/robots.py:Kuka.ik"]}
{"id": "C58", "title": "rotation and pose constructors give rigid transforms with the expected group laws", "statement": "rot_x/y/z and pose_x/y/z are proper rotations/rigid transforms; rotations about one axis add their angles.", "quantifier": "every angle and position", "why_tests_cant": "real-valued", "anchors": ["acrobotics/util.py:rot_x", "acrobotics/util.py:pose_x", "acrobotics/util.py:translation"]}
{"id": "C59", "title": "tf_inverse inverts rigid transforms", "statement": "tf_inverse(T) T = T tf_inverse(T) = I for every rigid T.", "quantifier": "every rigid transform", "why_tests_cant": "continuum", "anchors": ["acrobotics/util.py:tf_inverse"]}
{"id": "C60", "title": "create_grid enumerates every combination exactly once", "statement": "The rows are exactly all combinations of one value per input, each once per multiplicity, M = product of lengths, with the second axis slowest, then the first, then the others in order.", "quantifier": "every list of arrays/scalars", "why_tests_cant": "any number and size of axes", "anchors": ["acrobotics/util.py:create_grid"]}
{"id": "C61", "title": "van der Corput values lie in [0,1) and are distinct", "statement": "For base >= 2 and n >= 0, vdc(n, base) is in [0,1) and different n give different values.", "quantifier": "every n and base", "why_tests_cant": "all integers", "anchors": ["acrobotics/util.py:vdc"]}
{"id": "C62", "title": "van der Corput sequence is perfectly stratified", "statement": "Any base^k consecutive indices starting at a multiple of base^k hit each of the base^k equal subintervals exactly once.", "quantifier": "every k, base, block", "why_tests_cant": "all k", "anchors": ["acrobotics/util.py:vdc"]}
{"id": "C63", "title": "next_prime yields exactly the odd primes in increasing order", "statement": "The generator yields 3, 5, 7, 11, ...: every yielded number is an odd prime, they increase, and no odd prime is skipped.", "quantifier": "every position in the infinite stream", "why_tests_cant": "infinite stream", "anchors": ["acrobotics/util.py:next_prime"]}
{"id": "C64", "title": "HaltonSampler continues its sequence", "statement": "Splitting a request into any sequence of get_samples calls returns the same points in the same order as one call; row i holds the van der Corput values of index i in the first dim odd primes.", "quantifier": "every dim and sequence of request sizes", "why_tests_cant": "histories", "anchors": ["acrobotics/util.py:HaltonSampler"]}
{"id": "C65", "title": "sample_SO3 returns unit quaternions", "statement": "For random numbers in [0,1] all n quaternions have norm one, for both methods; an unknown method raises ValueError.", "quantifier": "every random draw, n", "why_tests_cant": "continuum", "anchors": ["acrobotics/util.py:sample_SO3"]}
{"id": "C66", "title": "TolerancedNumber keeps its nominal value within the bounds", "statement": "If construction succeeds the nominal value lies in [lower, upper].", "quantifier": "every bounds and nominal", "why_tests_cant": "real-valued", "anchors": ["acrobotics/path.py:TolerancedNumber"]}
{"id": "C67", "title": "TolerancedNumber.discretise stays in the tolerance and hits the ends", "statement": "It returns num_samples values, equally spaced, all in [lower, upper], first = lower, and last = upper when num_samples >= 2.", "quantifier": "every bounds and number of samples", "why_tests_cant": "real-valued, any n", "anchors": ["acrobotics/path.py:TolerancedNumber.discretise"]}
{"id": "C68", "title": "TolEulerPt samples respect the tolerances", "statement": "get_samples returns prod(num_samples) rigid transforms whose position and xyz-euler angles lie within the given tolerances, toleranced coordinates covering their grid.", "quantifier": "every tolerance specification", "why_tests_cant": "any grid", "anchors": ["acrobotics/path.py:TolEulerPt.get_samples"]}
{"id": "C69", "title": "TolPositionPt samples keep the orientation and respect position tolerances", "statement": "Every sample has the rotation of the given quaternion and a position within tolerance.", "quantifier": "every specification", "why_tests_cant": "any grid", "anchors": ["acrobotics/path.py:TolPositionPt.get_samples"]}
{"id": "C70", "title": "AxisAnglePt samples rotate the nominal orientation about the axis within the angle tolerance", "statement": "Every sample is a rigid transform at the fixed position with orientation R(axis, a) R(q_nominal), a within tolerance.", "quantifier": "every specification whose axis has length exactly one or differs from one by more than the 1e-12 of pyquaternion", "why_tests_cant": "continuum", "anchors": ["acrobotics/path.py:AxisAnglePt.get_samples"]}
{"id": "C71", "title": "FreeOrientationPt samples keep the position", "statement": "With rep='transform' every one of the num_samples transforms is rigid and has the fixed position; an unknown rep raises ValueError.", "quantifier": "every position, random stream", "why_tests_cant": "continuum", "anchors": ["acrobotics/path.py:FreeOrientationPt.get_samples"]}
{"id": "C72", "title": "Shape.get_polyhedron describes exactly the transformed box", "statement": "A x <= b holds iff the point, expressed in the box frame, has |coordinates| <= half sizes, for every rigid transform.", "quantifier": "every box, rigid transform and point", "why_tests_cant": "continuum", "anchors": ["acrobotics/geometry.py:Shape.get_polyhedron", "acrobotics/geometry.py:Shape.get_normals"]}
{"id": "C73", "title": "Shape vertices and edges describe the box", "statement": "The eight vertices are the transformed corners, all satisfy A x <= b, and the twelve edges join exactly the corner pairs differing in one coordinate, with lengths dx, dy, dz.", "quantifier": "every box and transform", "why_tests_cant": "continuum", "anchors": ["acrobotics/geometry.py:Shape.get_vertices", "acrobotics/geometry.py:Shape.get_edges"]}
{"id": "C74", "title": "Collection.is_in_collision is the disjunction over all shape pairs", "statement": "It is True iff some shape of one (moved by tf_self) collides with some shape of the other (moved by tf_other).", "quantifier": "every pair of collections and optional transforms", "why_tests_cant": "all pairs", "anchors": ["acrobotics/geometry.py:Collection.is_in_collision"]}
{"id": "C75", "title": "Collision answers are symmetric and frame independent", "statement": "If the primitive box test is exact, swapping the two collections, or moving both by one rigid transform, does not change the answer.", "quantifier": "every collections, rigid transform", "why_tests_cant": "continuum", "anchors": ["acrobotics/geometry.py:Collection.is_in_collision"]}
{"id": "C76", "title": "collision constraints certify separation", "statement": "If lam, mu satisfy the generated constraints then the two polyhedra have no common point, and all their points are at least eps apart.", "quantifier": "every polyhedra, multipliers", "why_tests_cant": "continuum", "anchors": ["acrobotics/optimization.py:create_collision_constraints"]}
{"id": "C77", "title": "per-pose collision constraints certify every link against every obstacle", "statement": "If the constraints generated for a joint pose hold, no link box placed by fk_all_links_casadi intersects any scene box.", "quantifier": "every robot with one box per link, scene, pose", "why_tests_cant": "all pairs", "anchors": ["acrobotics/optimization.py:create_cc_for_joint_pose", "acrobotics/optimization.py:create_cc"]}
{"id": "C78", "title": "a feasible solution of the optimisation problem follows the path without link collisions", "statement": "Any point satisfying all constraints set up by get_optimal_path has fk position equal to each path point and no link-scene intersection at these points.", "quantifier": "every robot with revolute joints and one box per link, every path and scene", "why_tests_cant": "continuum", "anchors": ["acrobotics/optimization.py:get_optimal_path"]}
{"id": "C79", "title": "create_line gives num_points evenly spaced points from start to end", "statement": "Point k is start + k/(n-1) (end - start); the first is the start and the last the end point.", "quantifier": "every start, end, n >= 2", "why_tests_cant": "continuum", "anchors": ["acrobotics/io.py:create_line"]}
{"id": "C80", "title": "create_circle points lie on the circle", "statement": "All points have the distance of start to mid and the same coordinate along the axis, the first and last point equal start.", "quantifier": "every centre, start, non-zero axis, n", "why_tests_cant": "continuum", "anchors": ["acrobotics/io.py:create_circle"]}
{"id": "C81", "title": "symmetric tolerances are centred on the nominal path", "statement": "create_symmetric_position_tolerance gives one point per path position, coordinate i toleranced as [p-tol, p+tol] exactly when tol > 0 and fixed otherwise.", "quantifier": "every path and tolerance", "why_tests_cant": "all", "anchors": ["acrobotics/io.py:create_symmetric_position_tolerance", "acrobotics/io.py:create_symmetric_euler_tolerance"]}
{"id": "C82", "title": "angle unit guessing treats angles and their opposites alike", "statement": "guess_angle_unit(-v) = -guess_angle_unit(v) for every v.", "quantifier": "every angle", "why_tests_cant": "sign", "anchors": ["acrobotics/io.py:guess_angle_unit"]}
{"id": "C83", "title": "parse_path gives one path point per requested point or raises", "statement": "For LINE and CIRC with a known tolerance type and complete fields the result has num_points points of the class belonging to the tolerance type; unknown types raise.", "quantifier": "every task dictionary", "why_tests_cant": "all dictionaries", "anchors": ["acrobotics/io.py:parse_path"]}
{"id": "C84", "title": "parse_obstacles keeps every obstacle, in order, with a rigid transform", "statement": "The collection has one box per entry with the given size and the transform given by xyz/rpy; a non-box entry raises.", "quantifier": "every obstacle list", "why_tests_cant": "any length", "anchors": ["acrobotics/io.py:parse_obstacles", "acrobotics/io.py:create_transform"]}
{"id": "C85", "title": "URDF export followed by import preserves axis-aligned scenes", "statement": "Exporting a non-empty scene of unrotated boxes and importing the file gives the same boxes at the same positions in the same order.", "quantifier": "every such scene", "why_tests_cant": "any number of boxes", "anchors": ["acrobotics/urdfio.py:export_urdf", "acrobotics/urdfio.py:import_urdf"]}
{"id": "C86", "title": "URDF export preserves every scene", "statement": "Exporting and importing any scene gives the same boxes and transforms.", "quantifier": "every scene incl. rotated boxes", "why_tests_cant": "rotations", "anchors": ["acrobotics/urdfio.py:create_urdf_data"]}
{"id": "C87", "title": "an interrupted URDF export leaves a loadable prefix", "statement": "After any number of completed write steps of export_urdf the file describes exactly the first k boxes; after zero boxes no file is written.", "quantifier": "every crash point between writes", "why_tests_cant": "crash points", "anchors": ["acrobotics/urdfio.py:export_urdf"]}
{"id": "C88", "title": "Kuka.ik is complete and fails only for unreachable poses", "statement": "Failure means that no six joint values give the pose, success gives four or eight solutions, and every joint vector away from the shoulder, elbow and wrist singularities is among them up to full turns.", "quantifier": "every Kuka arm with nonzero links, every rigid base and tool, every pose and joint vector", "why_tests_cant": "a missing branch only shows for poses reached through it", "anchors": ["acrobotics/resources/robots.py:Kuka.ik", "acrobotics/resources/robots.py:Arm2.ik", "acrobotics/resources/robots.py:SphericalWrist.ik"]}
{"id": "C89", "title": "Kuka and KukaOnRail ik do not depend on earlier calls", "statement": "The result of ik is the same after any sequence of fk, fk_all_links, collision and ik calls on the same object.", "quantifier": "every finite history of method calls, every pose", "why_tests_cant": "the helper arm, wrist and link caches are mutated by each call; histories are unbounded", "anchors": ["acrobotics/resources/robots.py:Kuka.ik", "acrobotics/resources/robots.py:KukaOnRail.ik", "acrobotics/robot.py:Robot.fk"]}
{"id": "C90", "title": "KukaOnRail.ik is complete for the given rail position", "statement": "With the default dimensions failure means no arm joints reach the pose at that rail position, and every nonsingular arm solution is returned with the rail position in front.", "quantifier": "every rail position, pose, rigid base and tool", "why_tests_cant": "continuum of poses", "anchors": ["acrobotics/resources/robots.py:KukaOnRail.ik"]}
{"id": "C91", "title": "nominal transforms agree with point_to_frame", "statement": "TolEulerPt.nominal_transform is the transform of the six nominal values and equals point_to_frame(p_nominal), a rigid transform with rotation rot_x rot_y rot_z.", "quantifier": "every TolEulerPt, every six numbers", "why_tests_cant": "continuum", "anchors": ["acrobotics/path.py:TolEulerPt.nominal_transform", "acrobotics/path.py:point_to_frame"]}
{"id": "C92", "title": "TolOrientationPt samples keep the position", "statement": "get_samples gives num_samples rigid transforms at the fixed position, sample i oriented by the i-th random quaternion.", "quantifier": "every position, number of samples and random quaternions", "why_tests_cant": "random", "anchors": ["acrobotics/path.py:TolOrientationPt.get_samples"]}
{"id": "C93", "title": "collision constraints cover links with several boxes", "statement": "If the generated constraints hold, no box of any link meets a scene box, also when a link has more than one box.", "quantifier": "every robot, including several boxes per link", "why_tests_cant": "index mismatch only for such robots", "anchors": ["acrobotics/optimization.py:create_cc", "acrobotics/optimization.py:create_cc_for_joint_pose"]}
{"id": "C94", "title": "the optimisation objective measures joint motion", "statement": "The objective is never negative and is zero exactly for paths that do not move.", "quantifier": "every joint path", "why_tests_cant": "continuum", "anchors": ["acrobotics/optimization.py:get_optimal_path"]}
{"id": "C95", "title": "samples of a loaded task stay near the described path", "statement": "Every sample of point k of a parsed path is a rigid frame: for position tolerances it has exactly the given orientation and a position within the tolerance of the k-th line or circle position; for euler tolerances exactly that position and angles within tolerance; orientation-free points carry exactly that position.", "quantifier": "every task dictionary, every point, every sample", "why_tests_cant": "continuum of tasks", "anchors": ["acrobotics/io.py:parse_path", "acrobotics/path.py:TolPositionPt.get_samples", "acrobotics/path.py:TolEulerPt.get_samples"]}
{"id": "C96", "title": "the nominal position of a toleranced point is among its samples", "statement": "For a task with position tolerances the samples of each path point contain the nominal position.", "quantifier": "every task with position tolerances", "why_tests_cant": "needs exact arithmetic on the sample grid", "anchors": ["acrobotics/io.py:create_symmetric_position_tolerance", "acrobotics/path.py:TolerancedNumber"]}
{"id": "C97", "title": "tasks and path lists are parsed entry by entry", "statement": "parse_task_data succeeds exactly when path and obstacles parse, with these results; import_paths returns exactly the list of the parsed entries, in order.", "quantifier": "every document", "why_tests_cant": "any length", "anchors": ["acrobotics/io.py:parse_task_data", "acrobotics/io.py:import_paths"]}
{"id": "C98", "title": "rpy_to_quaternion represents the given rotation", "statement": "The quaternion has norm one and its rotation matrix is rot_x(a) rot_y(b) rot_z(c); the matrix constructor gives back every rotation matrix.", "quantifier": "every rotation", "why_tests_cant": "four numerical branches", "anchors": ["acrobotics/io.py:rpy_to_quaternion"]}
{"id": "C99", "title": "after export_urdf the file describes the exported scene", "statement": "Whatever the file held before, loading it after export_urdf gives the exported boxes.", "quantifier": "every scene and every earlier file", "why_tests_cant": "state left by earlier runs", "anchors": ["acrobotics/urdfio.py:export_urdf"]}
{"id": "C100", "title": "import_urdf places every box where the URDF puts it", "statement": "The imported collection contains exactly the boxes of the robot, each at the product of joint origins and collision origin.", "quantifier": "every loadable document", "why_tests_cant": "any tree of links", "anchors": ["acrobotics/urdfio.py:import_urdf", "acrobotics/urdfio.py:parse_link"]}
{"id": "C101", "title": "the boxes of the links cover the arm", "statement": "For every configuration each segment between consecutive joint frames lies inside the boxes of the robot's links.", "quantifier": "every configuration, base pose and cached state of the bundled robots", "why_tests_cant": "a continuum of configurations and points", "anchors": ["acrobotics/resources/robots.py:PlanarArm", "acrobotics/resources/robots.py:AnthropomorphicArm", "acrobotics/resources/robots.py:Arm2", "acrobotics/resources/robots.py:Kuka", "acrobotics/resources/robots.py:KukaOnRail"]}
{"id": "C102", "title": "an obstacle on the arm is always reported", "statement": "If an obstacle contains a point of the line through the joint frames, or of the tool, is_in_collision is True.", "quantifier": "every scene, configuration, base pose and call history", "why_tests_cant": "needs all scenes and configurations", "anchors": ["acrobotics/resources/robots.py:Kuka", "acrobotics/robot.py:Robot.is_in_collision"]}
{"id": "C103", "title": "the torch has rigid shapes and a free tip", "statement": "All shape transforms and the tip are rigid, the tip is 1 cm in front of the last box with z along it, and lies outside every box.", "quantifier": "the torch model; all points of its boxes", "why_tests_cant": "the claim is about all points of the boxes", "anchors": ["acrobotics/resources/torch_model.py"]}
{"id": "C104", "title": "weld lines follow their seam clear of the workpiece", "statement": "create_weld_line gives N evenly spaced points of 30 samples; samples of the bundled lines are 4 cm clear of the workpiece, point into the corner, and the nominal frame aims at the seam.", "quantifier": "every start, goal, orientation, offset and number of points", "why_tests_cant": "any number of points", "anchors": ["acrobotics/resources/workpiece_model.py:create_weld_line"]}
{"id": "C105", "title": "the samples of a point are distinct frames", "statement": "get_samples of a TolEulerPt returns no frame twice.", "quantifier": "every toleranced Euler point", "why_tests_cant": "duplicates depend on all combinations of bands", "anchors": ["acrobotics/path.py:TolEulerPt.get_samples", "acrobotics/resources/workpiece_model.py:create_weld_line"]}
{"id": "C106", "title": "the table paths stay above the table", "statement": "Every sample of path_pos_tol points down, lies over the table and is 3 cm (scene 1) or 2 cm (scene 2) clear of all boxes; so are the positions of path_ori_free.", "quantifier": "every number of points", "why_tests_cant": "any number of points, all points of the boxes", "anchors": ["acrobotics/resources/path_on_table.py"]}
{"id": "C107", "title": "the C++ priority queue pops a nearest node", "statement": "pop returns a queued node of least distance.", "quantifier": "every sequence of pushes and pops, every array of distances, every cost arithmetic", "why_tests_cant": "any number of operations", "anchors": ["acrobotics/cpp/src/graph.cpp:Graph::multi_source_dijkstra", "acrobotics/cpp/include/graph.h:dijkstraSortFunction"]}
{"id": "C108", "title": "a Kuka plan is made of all collision-free solutions", "statement": "The columns of cart_to_joint_no_redundancy with a Kuka are, per path point and in order, exactly the collision-free solutions of ik of every sample; the robot is left unchanged apart from cached link matrices.", "quantifier": "every path, sampler, scene, geometry, base, tool and call history, every a2 d4 <> 0", "why_tests_cant": "all paths and scenes", "anchors": ["acrobotics/planning.py:cart_to_joint_no_redundancy", "acrobotics/resources/robots.py:Kuka.ik", "acrobotics/robot.py:Robot.is_in_collision"]}
{"id": "C109", "title": "every configuration of a Kuka plan is safe and on the path", "statement": "Each row is the float32 rounding of a configuration that shares no point with the scene (nor with itself) and whose forward kinematics meets the tolerances of its path point.", "quantifier": "every path of the four point classes, every scene of rigidly placed boxes, both search methods", "why_tests_cant": "all points of the boxes, all scenes and paths", "anchors": ["acrobotics/planning.py:get_shortest_path", "acrobotics/planning.py:cart_to_joint_no_redundancy", "acrobotics/resources/robots.py:Kuka.ik", "acrobotics/path.py"]}
{"id": "C110", "title": "a Kuka plan is found whenever one exists", "statement": "If every path point has a sample reached by a clear configuration away from singularities, planning succeeds; with bfs the cost is least over all choices of collision-free solutions.", "quantifier": "every non-empty path, scene, sampler and joint weights", "why_tests_cant": "least over all combinations of solutions", "anchors": ["acrobotics/planning.py:get_shortest_path", "acrobotics/resources/robots.py:Kuka.ik"]}
{"id": "C111", "title": "every configuration of a KukaOnRail plan is safe and on the path", "statement": "cart_to_joint_simple on KukaOnRail keeps exactly the collision-free solutions of the last sample of each point over all rail positions; each row of a plan is clear, starts at a given rail position and reaches an allowed frame.", "quantifier": "every path of TolEulerPt, list of rail positions and scene", "why_tests_cant": "all points of the boxes, all paths", "anchors": ["acrobotics/planning.py:cart_to_joint_simple", "acrobotics/resources/robots.py:KukaOnRail.ik"]}
{"id": "C112", "title": "cart_to_joint_simple takes every point class", "statement": "For each class of path.py the planner obtains frames meeting the tolerances.", "quantifier": "every point of the four classes", "why_tests_cant": "all points of a class", "anchors": ["acrobotics/planning.py:cart_to_joint_simple", "acrobotics/path.py:discretise"]}
{"id": "C113", "title": "small joint changes move the robot little", "statement": "When the joints change from q to q', each point of each link and of the tool moves at most the sum over the joints of |qi - qi'| times the length of chain behind the joint (times 1 for sliding joints); each direction turns at most by the sum over turning joints.", "quantifier": "every robot, base, tool, joint vectors and point", "why_tests_cant": "all points and joint vectors", "anchors": ["acrobotics/robot.py:Robot.fk", "acrobotics/robot.py:Robot.fk_all_links"]}
{"id": "C114", "title": "float32 plans stay within micrometres of the path", "statement": "Each row of a Kuka plan, as rounded to float32, puts every tool point within 3e-7 (|a1| + 2|a2| + 3|d4| + 5|d6| + 6 distance) of an allowed frame unless the wrist is singular (plus 0.9 mm at a straight elbow), and every point of every link within that distance of its place in a clear configuration.", "quantifier": "every path, scene, dimensions with a2 d4 <> 0 and search method", "why_tests_cant": "all paths, scenes and points", "anchors": ["acrobotics/planning.py:cart_to_joint_no_redundancy", "acrobotics/resources/robots.py:Kuka.ik"]}
{"id": "C115", "title": "the optimisation constraints are exact", "statement": "Multipliers satisfying create_collision_constraints exist for two boxes exactly when the boxes are at least eps apart, so the whole problem of get_optimal_path is feasible exactly for the motions that go through the path points with every link at least 1e-6 from every box of the scene.", "quantifier": "every robot with turning joints and one box per link, scene, path and motion", "why_tests_cant": "all motions and multipliers; existence of multipliers is a separation argument", "anchors": ["acrobotics/optimization.py:create_collision_constraints", "acrobotics/optimization.py:create_cc_for_joint_pose", "acrobotics/optimization.py:get_optimal_path"]}
{"id": "C116", "title": "a feasible motion passes is_in_collision", "statement": "When the constraints of get_optimal_path hold for a motion, Robot.is_in_collision is false for each of its joint vectors and the scene.", "quantifier": "every robot, scene, path and feasible motion", "why_tests_cant": "all motions; the two collision models are written independently", "anchors": ["acrobotics/optimization.py:create_cc_for_joint_pose", "acrobotics/robot.py:Robot.is_in_collision"]}
{"id": "C117", "title": "Kuka.fk agrees with the closed form used as oracle in the tests", "statement": "Kuka.fk(q) equals the matrix written out in tests/kuka_forward_kinematics.py for the same link lengths and joint values.", "quantifier": "all link lengths and joint vectors", "why_tests_cant": "the tests compare the two at random points only", "anchors": ["tests/kuka_forward_kinematics.py:fk_kuka", "acrobotics/resources/robots.py:Kuka"]}
{"id": "C118", "title": "the Puma is a six-axis arm with a spherical wrist that can be checked for collisions", "statement": "The Puma resource has six independent joints, its last three axes meet in one point, and is_in_collision returns an answer for it.", "quantifier": "all link lengths and joint vectors", "why_tests_cant": "degenerate axes and mixed-up constructor arguments hold at every configuration; tests never call it", "anchors": ["acrobotics/resources/robots.py:Puma", "acrobotics/robot.py:Robot.is_in_collision"]}
{"id": "C119", "title": "a plotted robot is the robot the collision check sees", "statement": "Robot.plot draws exactly the edges of the boxes of base, links and tool at the places used by is_in_collision.", "quantifier": "every robot made of boxes, every joint vector", "why_tests_cant": "pictures are not compared in tests; all robots and configurations", "anchors": ["acrobotics/robot.py:Robot.plot", "acrobotics/geometry.py:Collection.plot", "acrobotics/geometry.py:Shape.plot"]}
{"id": "C120", "title": "frame k of an animation shows joint vector k", "statement": "After any sequence of frames, the lines updated for frame k are those that Robot.plot draws for links and tool at the k-th joint vector.", "quantifier": "every robot, path and order of frames", "why_tests_cant": "depends on the order in which matplotlib asks for frames and on the cached matrices", "anchors": ["acrobotics/robot.py:Robot.animate_path", "acrobotics/geometry.py:Shape.update_lines"]}
{"id": "C121", "title": "the solution the task editor shows belongs to the scene and path on screen", "statement": "After any sequence of callbacks, current_solution (if any) was planned for the current scene and path: one joint vector per point, on the path and free of collisions.", "quantifier": "all sequences of callbacks, files and random numbers", "why_tests_cant": "the editor is interactive and untested; unboundedly many histories of callbacks, some of which raise half-way", "anchors": ["gui/task_editor.py:TaskEditor.plan", "gui/task_editor.py:TaskEditor.load_paths", "gui/task_editor.py:TaskEditor.show_path"]}
{"id": "C122", "title": "callbacks of the task editor do not raise", "statement": "Loading readable files, planning and showing a solution return without exception in any order.", "quantifier": "all editor states, files and random numbers", "why_tests_cant": "all orders of callbacks and all contents of files", "anchors": ["gui/task_editor.py:TaskEditor.plot_setup", "gui/task_editor.py:TaskEditor.plan"]}
{"id": "C123", "title": "layout slots are disjoint and inside the figure", "statement": "For a positive margin of less than half a slot, create_layout_slots returns rows x cols rectangles of positive size inside the unit square, no two of which share a point. Slot (i, j) is the cell of row i and column j cut by the margin on each side. Without rows or columns ZeroDivisionError is raised.", "quantifier": "all numbers of rows and columns and margins", "why_tests_cant": "infinitely many grids; the layout is only looked at", "anchors": ["gui/task_editor.py:create_layout_slots"]}
{"id": "C124", "title": "the quaternion sampler returns unit quaternions", "statement": "Sampler.random_quaternion and random_quaternion_near return a unit quaternion for all draws.", "quantifier": "all draws in [0,1], all distances", "why_tests_cant": "the draws are random and the class is not exercised by any test", "anchors": ["acrobotics/samplers.py:Sampler.random_quaternion", "acrobotics/samplers.py:Sampler.random_quaternion_near"]}
{"id": "C125", "title": "the orientation cost is a metric on rotations", "statement": "arccos(min(|u.v|,1)) of unit quaternions is half the angle of the rotation between them: in [0,pi/2], zero exactly for equal rotations, symmetric, and obeys the triangle inequality.", "quantifier": "all pairs and triples of unit quaternions", "why_tests_cant": "a continuum of orientations", "anchors": ["examples/small_passage.py:cost_function"]}
{"id": "C126", "title": "the passage example moves the tool through the scene with the least turning", "statement": "The orientations chosen are samples of their points, the tool placed with its tip at the point shares no point with the scene, the total turning is least among all such choices, and for two or more points a choice is found when every point has a free sample.", "quantifier": "all tools, scenes, paths and samples", "why_tests_cant": "all choices of samples and all scenes", "anchors": ["examples/small_passage.py:cost_function", "acrobotics/dp.py:shortest_path"]}
{"id": "C127", "title": "the rotation table example solves for each table angle", "statement": "The configurations of a point are the collision-free ik solutions for the point's frame turned by each of the table angles.", "quantifier": "all paths, table angles and rail positions", "why_tests_cant": "the loop variable is overwritten; one angle per point hides it", "anchors": ["examples/rotation_table.py:cart_to_joint_simple"]}
{"id": "C128", "title": "get_optimal_path returns the solver's motion exactly on success", "statement": "A path is returned exactly when the solver reports success; with a sound solver it passes through the points with all links clear, and with an optimal solver no such motion has a smaller objective.", "quantifier": "all robots with one box per link, scenes, points and solver answers", "why_tests_cant": "the solver's behaviour is not enumerable; tests run one example", "anchors": ["acrobotics/optimization.py:get_optimal_path"]}
{"id": "C129", "title": "rpy angles mean the same in URDF files and path points", "statement": "The rotation of a URDF origin with angles r, p, y equals the rotation of a TolEulerPt with these angles.", "quantifier": "all angles", "why_tests_cant": "a continuum of angles; tests use single rotations at most", "anchors": ["acrobotics/urdfio.py:import_urdf", "acrobotics/path.py:TolEulerPt"]}
{"id": "C130", "title": "forward kinematics is accurate in double precision", "statement": "Robot.fk and Robot.fk_all_links computed with rounding after every operation, on rounded link tables and joint values, differ from the exact frames by at most a bound linear in the rounding unit; for the Kuka at most 2e-13 in rotation entries and 3e-13 in position.", "quantifier": "all robots, joint values, bases, tools and arithmetics with the standard error model", "why_tests_cant": "rounding errors depend on every input; a test measures single poses with a tolerance of 1e-7", "anchors": ["acrobotics/robot.py:Link.get_link_relative_transform", "acrobotics/robot.py:Robot.fk", "acrobotics/robot.py:Robot.fk_all_links"]}
{"id": "C131", "title": "the planned motion is optimal up to float rounding", "statement": "planning.get_shortest_path with method bfs, with costs accumulated in C++ float and double as written, returns a path whose exact weighted squared joint motion is within the factor ((1+2^-24)/(1-2^-24))^(2n+N+3) (plus underflow) of the least over all choices of rows; the reported cost is that of the path up to the same error (both methods). Up to 10 joints and 1000 points: within 0.02 percent.", "quantifier": "all numbers of points, joints and rows, all float values up to 2^126, all non-negative weights", "why_tests_cant": "tests compare a few small integer graphs, where float arithmetic is exact", "anchors": ["acrobotics/cpp/src/graph.cpp:cost_function_2", "acrobotics/cpp/src/graph.cpp:multi_source_bfs", "acrobotics/planning.py:get_shortest_path"]}
{"id": "C132", "title": "get_shortest_path minimises the l1-norm of its docstring", "statement": "The path returned by get_shortest_path has the least sum of absolute joint differences (the l1-norm named in the docstring).", "quantifier": "all data, method bfs", "why_tests_cant": "tests use data where both norms have the same optimum", "anchors": ["acrobotics/planning.py:get_shortest_path", "acrobotics/cpp/src/graph.cpp:cost_function_2"]}
{"id": "C133", "title": "The motion between planned configurations is collision-free", "statement": "When every configuration of a plan passes the collision check, so do the configurations on the straight lines between them and the configurations after rounding to float32.", "quantifier": "all robots, scenes, configurations and fractions s in [0,1]", "why_tests_cant": "the configurations in between are a continuum and the code never visits them", "anchors": ["acrobotics/planning.py:cart_to_joint_no_redundancy", "acrobotics/planning.py:get_shortest_path", "acrobotics/robot.py:Robot.is_in_collision"]}
{"id": "C134", "title": "The torch fits the robot and the workpiece is a hollow box", "statement": "The torch is mounted along the flange axis and never touches link 5, so the self-collision check depends only on the first four links and on pairs of links. The five plates of the workpiece form a box with an open cavity and do not overlap.", "quantifier": "all joint values, base poses, robot dimensions with d6 > 0.09 and points of space", "why_tests_cant": "all joint values and all points; the tests use a few configurations", "anchors": ["acrobotics/resources/torch_model.py:torch", "acrobotics/resources/workpiece_model.py:workpiece", "acrobotics/robot.py:Robot._check_self_collision"]}
{"id": "C135", "title": "The kingpin example can be welded only with a steep torch beside the obstacle", "statement": "The path of kingpin.py keeps 0.02/sqrt 2 m from the scene; its nominal frames aim at the seam from 2 cm, but none of the 600 sampled frames per point does. Beside the obstacle every configuration that reaches a sample with one of the twelve flatter angles is in collision; with the torch pointing down along the plates the torch is free at every point.", "quantifier": "every number of path points, every sample, every robot carrying the torch and all its joint values", "why_tests_cant": "the example is not tested; the statements range over all configurations, robots and resolutions of the path", "anchors": ["examples/kingpin.py", "acrobotics/path.py:TolEulerPt.get_samples", "acrobotics/resources/torch_model.py:torch"]}
{"id": "C136", "title": "The task editor works on the files last named", "statement": "After any callbacks the scene and the paths of the task editor are those that the last successful loading found in wdir/name, with the name submitted last before it; the path planned is the first of the paths shown; the frames drawn are the nominal frames of the points; planning logs one to three messages, showing one if there is no solution, and no other callback logs.", "quantifier": "every sequence of callbacks, every robot, every content of the file system", "why_tests_cant": "the editor is not tested; the statement ranges over all callback sequences and file contents", "anchors": ["gui/task_editor.py:TaskEditor", "acrobotics/path.py:point_to_frame"]}
{"id": "C137", "title": "sample_SO3 is uniform and misses no orientation", "statement": "The map from three numbers in the unit interval to unit quaternions is onto, one-to-one away from the ends of the first number, and multiplies volumes by the constant 2 pi^2, so uniform numbers give uniformly distributed rotations; with the Halton method 105^k samples come within 8 (3^(-k/2) + 2 pi 3^-k) of every rotation matrix, so enough samples come arbitrarily near every orientation.", "quantifier": "every orientation, every number of samples, every row of random numbers", "why_tests_cant": "uniformity is a statement about derivatives at every point, exhaustiveness about all orientations and numbers of samples", "anchors": ["acrobotics/util.py:sample_SO3", "acrobotics/util.py:HaltonSampler"]}
{"id": "C138", "title": "Halton points fill boxes evenly in every dimension", "statement": "When each coordinate is divided into p^k equal parts, p its prime and k any number per coordinate, any run of as many consecutive rows of a HaltonSampler as there are boxes has exactly one row in each box; hence every point of the unit cube has one of the first (p1...pd)^k rows within 1/p^k in each coordinate.", "quantifier": "every dimension, every division, every start of the run, new and used samplers", "why_tests_cant": "ranges over all dimensions, divisions and positions in an infinite sequence; the test only compares a few points", "anchors": ["acrobotics/util.py:HaltonSampler", "acrobotics/util.py:vdc"]}
{"id": "C139", "title": "The collision check is right up to rounding", "statement": "With every number of the robot, the joint values and the scene rounded and every operation of the forward kinematics and of the box placement rounded, is_in_collision answers; if it says free, the robot with all boxes shrunk by d is clear of the shrunk scene and of itself at the exact positions; if robot and scene (and the compared parts of the robot) are more than d apart it says free. d is 3e-11 m plus the tolerance of the box test for arms of at most seven joints and ten metres in double precision.", "quantifier": "every robot, configuration, scene, arithmetic and box test within a tolerance", "why_tests_cant": "a test checks single configurations, mostly far from contact; the bound covers every configuration and every rounding on the way", "anchors": ["acrobotics/robot.py:is_in_collision", "acrobotics/robot.py:fk_all_links", "acrobotics/geometry.py:Collection.is_in_collision"]}
{"id": "C140", "title": "Malformed input is refused with a definite exception", "statement": "Points with fewer than six numbers, tolerance lists with fewer than three entries, task files without their keys or with a number where a list is due, negative numbers of points, configurations of different lengths, start and target columns that do not exist, index paths outside the data, ragged joint solutions, too few joint values or an unknown joint type, URDF vectors that are not three numbers, URDF links in a circle and position-tolerance points in the editor each give the stated exception and nothing else, while well-formed input is accepted.", "quantifier": "every such input, of any length, and for forward kinematics every rounding of the arithmetic", "why_tests_cant": "tests try a handful of bad inputs, each class here is infinite", "anchors": ["acrobotics/path.py:point_to_frame", "acrobotics/path.py:_check_for_tolerance", "acrobotics/io.py:parse_path", "acrobotics/io.py:create_circle", "acrobotics/pygraph.py:cost_function", "acrobotics/pygraph.py:path_index_to_path", "acrobotics/robot.py:fk", "acrobotics/robot.py:plot_path", "acrobotics/geometry.py:is_in_collision_multi", "acrobotics/urdfio.py:import_urdf"]}
{"id": "C141", "title": "the samples of a point cover what it allows", "statement": "Every frame a TolEulerPt, TolPositionPt or AxisAnglePt allows has a sample within half a step in each coordinate and in orientation; with enough samples per tolerance a sample comes as near as wanted.", "quantifier": "all points with ordered tolerances, all allowed frames, all distances, all sample counts from two on", "why_tests_cant": "the allowed frames are a continuum and the claim is about all of them", "anchors": ["acrobotics/path.py:TolEulerPt.get_samples", "acrobotics/path.py:TolPositionPt.get_samples", "acrobotics/path.py:AxisAnglePt.get_samples", "acrobotics/path.py:TolerancedNumber.discretise", "acrobotics/path.py:FreeOrientationPt.get_samples"]}
{"id": "C142", "title": "enough samples find a plan", "statement": "If for every point of a path there are joint values of the Kuka, off the singularities and free of collision, that reach an allowed frame, then cart_to_joint_no_redundancy followed by get_shortest_path returns a path of collision-free candidates for every large enough number of samples per tolerance, with bfs and with dijkstra.", "quantifier": "all link tables with a2*d4<>0, geometries, bases, tools, scenes, paths, weights, priority queues", "why_tests_cant": "a statement about all sufficiently fine grids in all scenes", "anchors": ["acrobotics/planning.py:cart_to_joint_no_redundancy", "acrobotics/planning.py:get_shortest_path", "acrobotics/resources/robots.py:Kuka.ik", "acrobotics/path.py:TolerancedNumber"]}
{"id": "C143", "title": "finer sampling approaches the cheapest motion", "statement": "Given joint values that serve the points of a path, the plan returned by bfs costs, for enough samples and a fine enough rounding of the joint values, less than any given amount more than those joint values.", "quantifier": "all robots, scenes, paths and weights as in C142, all motions through the points, all positive amounts", "why_tests_cant": "the optimum over a continuum of motions is not available to a test", "anchors": ["acrobotics/planning.py:get_shortest_path", "acrobotics/cpp/src/graph.cpp:Graph::multi_source_bfs", "acrobotics/resources/robots.py:Kuka.ik"]}
{"id": "C144", "title": "inverse kinematics is continuous off the singularities", "statement": "For joint values off the singularities of shoulder, elbow and wrist, every pose near their pose is answered by Kuka.ik with a solution near them up to whole turns.", "quantifier": "all link tables with a2*d4<>0, bases, tools, joint values, distances and poses", "why_tests_cant": "every pose in a neighbourhood is covered", "anchors": ["acrobotics/resources/robots.py:Kuka.ik", "acrobotics/resources/robots.py:Arm2.ik", "acrobotics/resources/robots.py:SphericalWrist.ik"]}
{"id": "C145", "title": "collision-free joint values have a margin", "statement": "When Robot.is_in_collision answers no, robot and scene and the compared parts of the robot keep a positive distance, and the answer is no for all joint values near.", "quantifier": "all robots, scenes and joint values", "why_tests_cant": "existence of a margin and an open neighbourhood", "anchors": ["acrobotics/robot.py:Robot.is_in_collision", "acrobotics/robot.py:Robot._check_self_collision"]}
{"id": "C146", "title": "The bundled boxes fill the stated space", "statement": "A point lies in the boxes of a link of Kuka, KukaOnRail or AnthropomorphicArm, of the workpiece or of the two table scenes iff it lies between the stated corners, in the frame of the link or of the world. The boxes of PlanarArm are drawn with corners a quarter of the link length before and behind the link frame.", "quantifier": "every point of space; every length of the anthropomorphic arm", "why_tests_cant": "a test compares finitely many points", "anchors": ["acrobotics/resources/robots.py:Kuka", "acrobotics/resources/robots.py:KukaOnRail", "acrobotics/resources/robots.py:AnthropomorphicArm", "acrobotics/resources/workpiece_model.py", "acrobotics/resources/path_on_table.py", "acrobotics/resources/robots.py:PlanarArm"]}
{"id": "C147", "title": "Planners, graphs and readers fail with a definite exception", "statement": "Inverse kinematics that raises stops the planners with the same exception, as with a Kuka of fewer than six links; float64 arrays or lists after float32 arrays, resampling a point without free orientation, axis-angle points of two coordinates, costs with too few weights, graphs without columns, ill-named URDF files and numbers where lists are due each give the stated exception; loading a URDF file gives a robot or ValueError and nothing else. The value function of dp.py exists or ValueError is raised, IndexError without matrices; boxes need three sizes; exceptions of the robot stop the rotation table script, and a point without free sample stops the small passage script.", "quantifier": "every such robot, point, array, graph and document of any size", "why_tests_cant": "tests try a handful of bad inputs, each class here is infinite", "anchors": ["acrobotics/planning.py:get_shortest_path", "acrobotics/planning.py:resample", "acrobotics/planning.py:cart_to_joint_no_redundancy", "acrobotics/path.py:AxisAnglePt", "acrobotics/resources/robots.py:Kuka.ik", "acrobotics/cpp/src/graph.cpp:cost_function_2", "acrobotics/cpp/src/graph.cpp:reset", "acrobotics/urdfio.py:import_urdf", "acrobotics/io.py:create_box", "acrobotics/dp.py:calculate_value_function", "examples/small_passage.py", "examples/rotation_table.py"]}
{"id": "C148", "title": "A plan costs no more than any motion through the points", "statement": "With enough samples the planned path costs at most as much as any motion through the points that the robot can perform, also when the motion leaves the range of angles that inverse kinematics reports.", "quantifier": "every path of toleranced points and every motion through them", "why_tests_cant": "a test would compare with a few hand-made motions on short paths", "anchors": ["acrobotics/planning.py:cart_to_joint_no_redundancy", "acrobotics/resources/robots.py:Kuka.ik", "acrobotics/planning.py:get_shortest_path"]}
{"id": "C149", "title": "Iterative planning on a Kuka returns valid paths of every iteration", "statement": "On success costs, paths and times have one entry per iteration and the last ones are returned; every row is free of collision and reaches a frame sampled for its point: allowed by the point in iteration 0, later at the position of the previous row with an orientation drawn near it. Positions are kept exactly without rounding and drift by at most a fixed length per iteration with float32 rows. One iteration equals the grid planner with dijkstra, and a shorter run returns the beginning of the record.", "quantifier": "every path, scene, number of samples and iterations, every Kuka, random_near and queue", "why_tests_cant": "random draws and unbounded numbers of points and iterations", "anchors": ["acrobotics/planning.py:cart_to_joint_iterative", "acrobotics/planning.py:SolutionPoint", "acrobotics/planning.py:resample", "acrobotics/path.py:TolOrientationPt"]}
{"id": "C150", "title": "More iterations do not make the iterative plan worse", "statement": "A run with more iterations succeeds when one with fewer does, and its cost is not larger.", "quantifier": "every path and every generator of random quaternions that respects the distance", "why_tests_cant": "depends on random draws", "anchors": ["acrobotics/planning.py:cart_to_joint_iterative", "acrobotics/planning.py:resample", "acrobotics/path.py:TolOrientationPt.get_samples"]}
{"id": "C151", "title": "Incremental planning on a Kuka", "statement": "Every row of a plan of method grid_incremental is free of collision and reaches a frame its point allows; drawing goes on until min_samples or max_tries solutions are found and ends whenever some frame of every point is reachable.", "quantifier": "every path, scene, min_samples, max_tries and random source", "why_tests_cant": "a run that never ends cannot be observed, and each draw is random", "anchors": ["acrobotics/planning.py:cart_to_joint_incremental", "acrobotics/planning.py:PlanningTask.solve", "acrobotics/path.py:TolEulerPt.get_samples"]}
{"id": "C152", "title": "Inverse kinematics of the Kuka in floating point", "statement": "Kuka.ik is evaluated with a rounding after every operation, on a robot with the standard dimensions whose numbers, base and tool are rounded. It raises no exception. It reports failure only for a pose that no six joint angles reach. Otherwise it returns 4 or 8 rows of six angles. Every row puts the wrist centre within 8e6 unit roundoffs of its place when the elbow is neither stretched nor folded (|cos q3| >= 1e-3), and within 4.1e-5 otherwise; it turns the flange to within a bound inversely proportional to the sine of the fifth joint. In double precision fk, ik, fk gives back every entry of the matrix to 1.5e-7, as the tests assert, for every row with |sin q5| >= 0.02 and |cos q3| >= 1e-3. The object can be used again after the call.", "quantifier": "all poses, base frames and tools within the stated sizes, all arithmetics meeting the stated error bounds", "why_tests_cant": "The tests draw twenty random joint vectors; rounding errors depend on every bit of the input and are amplified without bound near the singularities.", "anchors": ["acrobotics/resources/robots.py:Kuka.ik", "acrobotics/resources/robots.py:Arm2.ik", "acrobotics/resources/robots.py:SphericalWrist.ik", "acrobotics/util.py:tf_inverse", "tests/test_robot.py:test_kuka_random"]}
{"id": "C153", "title": "A planning task of the Kuka in double precision", "statement": "PlanningTask.solve with the grid method and TolEulerPt points is evaluated with a rounding to double precision after every operation of sampling, inverse kinematics and collision checking, followed by the conversion of the rows to float32. Sampling gives the poses of exact arithmetic, in the same order, to a few thousand unit roundoffs. The first part of the task raises no exception, and the robot can be used again. Every row of a returned plan is the rounding of joint values that are clear of the scene and of the robot itself up to 3e-11 plus the error of the box test; its link points are within a micrometre or so of those; and its pose is a permitted one up to a bound that is 1.4e-6 for the flange when |sin q5| >= 0.01 and |cos q3| >= 1e-3. When every point has a sample that is reached and clear by the margin for all that inverse kinematics may return, a plan is found and is the cheapest choice of rows.", "quantifier": "all paths, scenes, bases and tools within the stated sizes, all weights and search methods, all box tests with a stated error", "why_tests_cant": "The tests run a few paths and look at the success flag; how rounding errors add up over sampling, inverse kinematics, forward kinematics and the box test depends on every bit of every input.", "anchors": ["acrobotics/planning.py:cart_to_joint_no_redundancy", "acrobotics/planning.py:PlanningTask.solve", "acrobotics/path.py:TolEulerPt.get_samples", "acrobotics/resources/robots.py:Kuka.ik", "acrobotics/robot.py:is_in_collision"]}
{"id": "C154", "title": "Double precision loses no solution away from the singularities", "statement": "Let joint values q reach a pose exactly, with the wrist at least m1 off the first axis, the third joint's cosine at least m3, the squared distance of the wrist from the second axis at least w and the sine of the fifth joint at least m5 (each at least 0.01). Kuka.ik evaluated with a rounding after every operation, on the rounded pose and robot, succeeds and returns a row whose six joints have the sines and cosines of q up to stated multiples of the unit roundoff divided by these numbers; in double precision no joint differs by more than 12.5 (1.9e6 u/m1 + 1.97e8 u/(m3 w))/m5, whole turns aside. A planning task keeps a row near every such solution of every sample that is clear of the scene and of the robot itself by a stated margin. When every point of a path has one such solution, a plan is found.", "quantifier": "all poses, joint values, bases, tools, scenes and paths within the stated sizes, all margins from 0.01, all arithmetics meeting the error bounds", "why_tests_cant": "A test sees that some solution comes back, not that none is missing; whether rounding makes a branch disappear depends on how close the input is to the bounds of sqrt and arccos, which random inputs do not probe.", "anchors": ["acrobotics/resources/robots.py:Kuka.ik", "acrobotics/resources/robots.py:Arm2.ik", "acrobotics/resources/robots.py:SphericalWrist.ik", "acrobotics/planning.py:cart_to_joint_no_redundancy", "acrobotics/planning.py:PlanningTask.solve"]}
{"id": "C155", "title": "The cost function of the Python graph is a distance between orientations", "statement": "On unit vectors of equal length arccos(min(|u @ v|, 1)) lies between 0 and pi/2, is symmetric, does not see the sign of either vector, is 0 exactly for equal or opposite vectors and obeys the triangle inequality. So the shortest path search over columns of unit vectors always succeeds, and its total is minimal, at least the cost of going straight from the first vector to the last, and at most pi/2 per step. For vectors of other lengths these fail.", "quantifier": "all unit vectors of any dimension; all data of any number and size of columns", "why_tests_cant": "the triangle inequality concerns every triple of vectors and the bounds every path", "anchors": ["acrobotics/pygraph.py:cost_function", "acrobotics/pygraph.py:get_shortest_path"]}
{"id": "C156", "title": "The bundled scene and task files hold the boxes and paths their examples use, with three mistakes", "statement": "Read by import_urdf, the five scenes occupy exactly the boxes listed; path_in_box.urdf is the workpiece of the resources and torch_obstacle.urdf the scene of kingpin.py up to 2^-53. The small passage and the circle are the same in both file formats, and the second passage is the first moved by 0.8. Every path has the listed points and tolerances. Three mistakes: the weld of the industrial task ends where the retreat ends instead of where it starts; the pitch 20 of its approach is read in degrees but the pitch -20 of its retreat in radians; torch_obstacle.json fixes the pitch that kingpin.py varies, so it never allows the straight-down torch.", "quantifier": "every reading of decimal numbers that gives their value; all points of all files; all frames allowed at a point", "why_tests_cant": "the occupied space and the frames allowed by a tolerance are infinite sets; no test loads these files", "anchors": ["examples/scenes/circle.urdf", "examples/scenes/industrial_1.urdf", "examples/scenes/torch_obstacle.urdf", "examples/tasks/industrial_1.json", "examples/tasks/torch_obstacle.json", "examples/small_passage_2.json", "acrobotics/io.py:parse_path", "acrobotics/urdfio.py:import_urdf"]}
{"id": "C157", "title": "Three of the bundled tasks cannot be solved", "statement": "With the torch on the robot, every configuration that puts the tip at a frame allowed at the end of the approach, the start of the weld or the start of the retreat of the industrial task, or at one of the two middle points of the torch task, collides with the scene, whatever the robot and wherever its base. A plan of the Kuka for one of these paths therefore contains a row with a stretched elbow or a straight wrist, where ik does not reach the frame exactly. The Kuka at the origin, as examples/path_in_box.py builds it, stands in the box of path_in_box.urdf: it collides for all joint values and the task editor never gets a solution while the scene file name is unchanged.", "quantifier": "all robots with the torch and all joint values; all allowed frames; all sequences of editor events", "why_tests_cant": "infeasibility quantifies over all configurations and all tolerated frames", "anchors": ["examples/tasks/industrial_1.json", "examples/scenes/industrial_1.urdf", "examples/tasks/torch_obstacle.json", "examples/path_in_box.py", "gui/task_editor.py", "acrobotics/resources/torch_model.py"]}
{"id": "C158", "title": "The torch passes the small passage only upright, and then without turning", "statement": "Whatever samples of unit quaternions are used for the points of small_passage.json, the orientation chosen at the middle point has its axis within arccos 0.745 of upright, and without such a sample at that point the planner raises. If the samples of all points share one upright orientation turned so that |m00| + |m01| < 1.4, planning succeeds with 15 orientations, all equal as rotations, at cost 0. A robot holding the torch in the moved passage is free at the middle point only with the axis in the same cone.", "quantifier": "all sample sets; all robots with the torch and all joint values", "why_tests_cant": "concerns every sample set and every configuration", "anchors": ["examples/small_passage.py", "examples/small_passage.json", "acrobotics/resources/torch_model.py"]}
{"id": "C159", "title": "The optimisation example starts from colliding configurations although its problem is solvable", "statement": "In optimization_based.py the inverse kinematics of the first pose (axes of the world, 3 cm above the table) returns eight rows that all reach the pose exactly, so q_inits[5] exists. Any Kuka without tool whose hand points straight up over the table lower than 0.285 has link 5 inside the table, so every row collides and the guess meets the constraints of get_optimal_path for no multipliers. The problem is nevertheless feasible for any number of points of path_ori_free. Building it never raises for a robot with at most six revolute one-box links, and with a sound solver the script returns a path through all points that keeps the links off the table.", "quantifier": "all joint values and bases of the Kuka, all numbers of points, all multipliers, all solvers", "why_tests_cant": "concerns all configurations, all multipliers of a continuous program and any solver", "anchors": ["examples/optimization_based.py", "acrobotics/optimization.py:8-107", "acrobotics/resources/path_on_table.py"]}
{"id": "C160", "title": "What the remaining example scripts return", "statement": "quat_graph.py returns a shortest way through one random quaternion per column, no shorter than the arc between its ends and at most a quarter turn per step. tool_first_cc.py never raises: it prints 'No path found' only when a point has no collision free solution among its samples, a path it returns goes through the points clear of the table, and it finds one when every point draws a row near a certain one; the function cart_to_joint_tool_first_cc it is named after always raises. iterative_grid_refining.py never gets a result with the published pyquaternion and raises AttributeError once its first round finds a path. Incremental planning ends and succeeds if for every point draws with a collision free solution keep turning up; so follow_line_orientation_free.py ends when rows near a certain one keep coming, with ten rows through the points of its task clear of the table. A path of weld_circle.py passes the passage without contact and, unless sin q5 = 0 or cos q3 = 0 in the middle row, the tool frame there has its z axis within arccos 0.745 of vertical.", "quantifier": "all sequences of random rows, all priority queues, all fuels", "why_tests_cant": "concerns every random sequence, and termination of an unbounded loop", "anchors": ["examples/quat_graph.py", "examples/tool_first_cc.py", "examples/iterative_grid_refining.py", "examples/follow_line_orientation_free.py", "examples/weld_circle.py", "acrobotics/planning.py:354-373"]}
{"id": "C161", "title": "Reference frames are drawn as right-handed tripods along the axes of their transform", "statement": "plot_reference_frame draws a red, a green and a blue line from the position of the transform along the three columns of its rotation, each arrow_length long; for a rigid transform they are perpendicular and right-handed. Without a transform the picture is that of the identity, and moving the transform by a rigid motion moves the picture by it.", "quantifier": "all transforms and lengths", "why_tests_cant": "concerns every transform; the tests look at no pictures", "anchors": ["acrobotics/util.py:137-166"]}
{"id": "C162", "title": "plot_kinematics draws the chain of the robot as its forward kinematics places it", "statement": "For a robot with links and a long enough joint vector plot_kinematics draws the base frame, one polyline through the base and all link origins, a frame per link and one at the tool tip; the last frame drawn is that of fk, and consecutive points of the polyline are sqrt(a^2 + d^2) apart (with q for d at a prismatic joint) whatever the other joints do. A drawing does not affect the next one. A short joint vector raises IndexError and a robot without links ValueError.", "quantifier": "all robots and joint vectors", "why_tests_cant": "concerns every robot and joint vector", "anchors": ["acrobotics/robot.py:228-244", "acrobotics/util.py:137-166"]}
{"id": "C163", "title": "A task is drawn with one marker per path point at its nominal position", "statement": "PlanningTask.plot draws one red marker per path point, in order, at its nominal position, for every class of points, and the edges of the boxes of the scene; a TolEulerPt also gets its nominal frame, with its origin at the marker. It raises IndexError exactly when a point has too few coordinates. multiple_paths.py shows ten markers at (0.8, -0.2 + 0.4 k / 9, 0.2) and a table 0.5 by 0.5 by 0.1 around (0.8, 0, 0.12).", "quantifier": "all task documents, all paths and scenes", "why_tests_cant": "concerns every task; the tests look at no pictures", "anchors": ["acrobotics/planning.py:85-89", "acrobotics/path.py:105-107", "acrobotics/path.py:155-156", "acrobotics/path.py:182-183", "acrobotics/path.py:222-223", "acrobotics/path.py:249-250", "examples/multiple_paths.py"]}
{"id": "C164", "title": "The alternative cost of small_passage.py keeps all orientations near the goal", "statement": "With cost_function_2 the planner should minimise the squared turns of the steps plus half the squared turn of every orientation from the goal (1.5 rad about y). It does so with the last point left out of the second sum: there are data where the last orientation is not the cheapest. The plan is optimal for the sum without the last point, exists for two or more non-empty columns, and when the goal orientation is among the samples of every point all points take it, the last included.", "quantifier": "all columns of unit quaternions", "why_tests_cant": "the cost function is in an example; optimality concerns all ways through the columns", "anchors": ["examples/small_passage.py", "acrobotics/dp.py"]}
{"id": "C165", "title": "task_to_urdf.py exports the scene of the task", "statement": "Exporting the scene of a task whose boxes are not rotated and importing the file gives the scene of the task back. For small_passage_2.json this is the scene of examples/scenes/small_passage.urdf, and with the numbers printed as in the task the written document is that file.", "quantifier": "all number types with faithful printing, all unrotated tasks, all previous contents of the file", "why_tests_cant": "concerns all scenes and the text of all numbers", "anchors": ["examples/task_to_urdf.py", "acrobotics/urdfio.py", "examples/small_passage_2.json", "examples/scenes/small_passage.urdf"]}
{"id": "C166", "title": "The picture of small_passage.py shows the torch at every second point, clear of the passage", "statement": "After a successful plan small_passage.py draws the boxes of the torch at every second point of the path, starting with the first: (n + 1) / 2 pictures of n points, each the torch moved rigidly with its tip at the point, none of them touching the scene.", "quantifier": "all tools, scenes, paths and samples of unit quaternions", "why_tests_cant": "concerns every plan and every point of the boxes", "anchors": ["examples/small_passage.py", "acrobotics/geometry.py"]}
{"id": "C167", "title": "Addresses in the C++ graph: the searches follow none that is out of date", "statement": "Node and joint vectors live in blocks of memory that move when a vector grows. Every program of add_data_column, set_weights, init, reset, run_bfs, run_dijkstra, get_path, get_path_cost, print_path and print_graph_data returns on memory exactly what it returns with array positions in place of addresses, and so with print_graph when init is not called between a search and a reset. On uniform data with a finite path the calls of get_shortest_path all succeed, print_path shows the rows of the path and the path is optimal. A second init after a search always frees the nodes the parents point to, and print_graph then reads freed memory.", "quantifier": "all programs of calls, all data, weights and costs", "why_tests_cant": "concerns every sequence of calls and every point at which a vector can move; reading freed memory often goes unnoticed in a run", "anchors": ["acrobotics/cpp/src/graph.cpp", "acrobotics/cpp/include/graph.h", "acrobotics/planning.py"]}
{"id": "C168", "title": "The assertions of the test suite", "statement": "The assertions of tests/test_*.py hold in the model. For every configuration of AnthropomorphicArm, Arm2, SphericalWrist, Kuka and KukaOnRail, ik of the pose fk gives succeeds, and fk of every solution gives the position (AnthropomorphicArm, Arm2), the rotation (SphericalWrist) or the pose (Kuka, KukaOnRail) back, exactly away from the singular configurations. With the elbow stretched or folded the position is within sqrt(2 |a2 a3| 1e-6). For SphericalWrist this is claimed for configurations with sin q2 <> 0, and for Kuka and KukaOnRail the pose is claimed for the solutions with sin q5 <> 0; for the other solutions only that ik succeeds. The Kuka folded as in the test is in self-collision, stretched forward it is not, it hits the first scene and the table and clears the second scene, for every exact box test. The vertices, edges, normals, half-spaces and box collisions of test_geometry.py, the ten path points of the task file, the discretised tolerance, the number and kind of random samples, the value functions and paths of test_dp.py, the path of test_graph.py and the segments of test_pygraph.py are the asserted ones. Both tasks of test_planning.py have the asserted has_obstacles, and plotting them draws the points of the path and the box.", "quantifier": "all joint configurations, link lengths, bases and tools for the kinematic tests; all exact box tests for the collision tests; all sequences of random rows for the samplers", "why_tests_cant": "The randomised tests check ten or so configurations each up to seven decimals; the statement covers every configuration and says where the round trip is exact and where the snapping of the elbow costs accuracy.", "anchors": ["tests/test_robot.py", "tests/test_collision_checking.py", "tests/test_geometry.py", "tests/test_dp.py", "tests/test_graph.py", "tests/test_pygraph.py", "tests/test_io.py", "tests/test_path.py", "tests/test_planning.py"]}
{"id": "C169", "title": "NaN transition costs", "statement": "With NaN among the transition costs, pygraph.get_shortest_path and Graph.run_bfs of graph.cpp return a path without a NaN step that is optimal among all such paths, and fail (success False; null pointer) only if every such path has an infinite cost. run_dijkstra takes the same path as with every NaN replaced by infinity. dp.shortest_path behaves the other way round: as soon as one entry of any cost matrix is NaN, the returned length is NaN and the returned path crosses a NaN transition, even if paths without NaN exist, and success is still True; without NaN it is the function of C01-C05.", "quantifier": "all data, all cost functions with values that are numbers or NaN, all ordered cost arithmetics including IEEE rounding, all priority queues for dijkstra", "why_tests_cant": "No test uses NaN; the behaviour depends on how each comparison and numpy reduction treats NaN at every stage, and a test could only try a few positions of the NaN.", "anchors": ["acrobotics/dp.py:12-48", "acrobotics/pygraph.py:69-75", "acrobotics/pygraph.py:127-182", "acrobotics/cpp/src/graph.cpp:21-123", "acrobotics/cpp/src/graph.cpp:178-186", "acrobotics/cpp/src/graph.cpp:331-348"]}
{"id": "C170", "title": "Unused functions and the int index of graph.cpp", "statement": "multi_source_bfs leaves the same distances and parents as calling visit on the nodes of the first column and then on the nodes init_unvisited lists, in that order; multi_source_dijkstra those of visiting some list of distinct nodes, whatever the priority queue. init_unvisited lists every node of every column but the first exactly once. sort_function is a strict weak order. set_graph_data gives the graph that adding the columns one by one gives. add_data_column with its int index is the unbounded one up to 2^31 matrix entries and undefined behaviour for every larger matrix. cost_function is a metric on joint vectors for positive weights; cost_function_2, which the searches use, violates the triangle inequality.", "quantifier": "all rectangular data with non-empty columns (bfs), all ordered cost arithmetics, all lawful priority queues, all matrix sizes, all weights", "why_tests_cant": "Nothing calls these functions, so no test reaches them; the overflow needs matrices of more than 2^31 entries.", "anchors": ["acrobotics/cpp/src/graph.cpp:12-15", "acrobotics/cpp/src/graph.cpp:155-176", "acrobotics/cpp/src/graph.cpp:188-201", "acrobotics/cpp/src/graph.cpp:271-286", "acrobotics/cpp/src/graph.cpp:451-454"]}
{"id": "C171", "title": "gui_template.py: after the first move the line follows the sliders, and its first picture never comes back", "statement": "The frequency slider only takes the values 0.1 + k (k up to 29) and 30, the amplitude slider values between 0.1 and 10; a drag to x between 0.1 and 30 sets the frequency to one of its values within 0.5 of x, and a drag sets the amplitude to x cut off at 0.1 and 10. Before any slider moves, the frequency slider shows 3.1 while the line is the curve of frequency 3. After a slider has moved the line is always the curve of the two slider values, and it is never again the line drawn at the start. Reset shows 3.1 and 5 and redraws the line for 3.1 if it was ever redrawn. The colour of the line is the label of the active radio button, except before the first click, when the button 'red' is active and the line has the default colour.", "quantifier": "every sequence of slider drags to any position, reset presses and radio clicks", "why_tests_cant": "there is no test of the gui; sequences of events and slider positions are unbounded", "anchors": ["gui/gui_template.py:TaskEditor.__init__", "gui/gui_template.py:update_plot_lines", "gui/gui_template.py:reset_sliders", "gui/gui_template.py:add_radio_boxes"]}
{"id": "C172", "title": "Inverse kinematics of the AnthropomorphicArm in floating point", "statement": "AnthropomorphicArm.ik with the default lengths is evaluated with a rounding after every operation, on a robot whose numbers are rounded. It raises no exception. It reports failure only for a point that no joint angles reach. Otherwise it returns four rows, one per branch: the first joint faces the target or turns its back to it, each with the elbow bent either way. Every row reaches the target to 1.1e7 unit roundoffs, unless the cosine of the elbow is within 1.4e-6 of 1 or -1; then the elbow is set straight and the target is reached to 2.4 mm. A point 1/1024 m from the shoulder can be reached exactly, yet all four rows miss it by at least 0.9 mm. In double precision fk, ik, fk gives back the position to 1.5e-9 for all joint values with |cos q3| <= 1 - 1.5e-6.", "quantifier": "all target points within 4 m, all joint values, all arithmetics meeting the stated error bounds", "why_tests_cant": "test_aa_random draws twenty random joint vectors and compares to seven decimals. The rows that miss lie where |sin q3| < 1.5e-3, which a random draw meets about once in a thousand times; rounding depends on every bit of the input.", "anchors": ["acrobotics/resources/robots.py:AnthropomorphicArm.ik", "tests/test_robot.py:test_aa_random"]}
{"id": "C173", "title": "Inverse kinematics of the KukaOnRail in floating point", "statement": "KukaOnRail.ik with the default dimensions is evaluated with a rounding after every operation, on a robot whose numbers are rounded, for a carriage position up to 4 m. It raises no exception and leaves an object that can be used again. It reports failure only for a pose that no joint angles reach with the carriage there, and always when the wrist centre is more than 1.40005 m from the carriage. Otherwise it returns 4 or 8 rows, each with the given carriage position first. Every row puts the wrist centre within 8e6 unit roundoffs of the target, or 0.041 mm when the elbow is nearly stretched or folded, and turns the hand as precisely as the sine of the fifth joint allows. In double precision fk, ik, fk succeeds for all joint angles, and every row with |sin q5| >= 0.07 and |cos q3| >= 0.001 gives the same matrix to 1.5e-7 in every entry.", "quantifier": "all poses within 3 m of the carriage, all carriage positions up to 4 m, all joint angles, all arithmetics meeting the stated error bounds", "why_tests_cant": "test_kuka_on_rail_random and test_kuka_on_rail_tool_random draw twenty joint vectors each. Rounding depends on every bit of the input, and the rows that lose precision lie near two singularities that random draws seldom meet.", "anchors": ["acrobotics/resources/robots.py:KukaOnRail.ik", "tests/test_robot.py:test_kuka_on_rail_random", "tests/test_robot.py:test_kuka_on_rail_tool_random"]}
